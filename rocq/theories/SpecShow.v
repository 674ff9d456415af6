(** SpecShow: what is printed for arbitrary bytes, written down independently of the model.
    Nothing is assumed about the bytes: lengths may disagree with the field, data may be cut
    off, classes and fields may be unknown. *)
From Verif Require Import Base Spec SpecOxm SpecText.
From Coq Require Import Strings.Ascii.

(** ** Quoted-printable texts (RFC 2045) *)
(** the line ends of a byte string are all written the way the first one is *)
Definition crlf_first (b : bytes) : Prop := exists p r, b = p ++ x0d :: x0a :: r /\ ~ In x0a p.
Definition eol (crlf : bool) : bytes := if crlf then [x0d; x0a] else [x0a].
Inductive same_eol (crlf : bool) : bytes -> bytes -> Prop :=
| eol_nil : same_eol crlf [] []
| eol_lf b r : same_eol crlf b r -> same_eol crlf (x0a :: b) (eol crlf ++ r)
| eol_crlf b r : same_eol crlf b r -> same_eol crlf (x0d :: x0a :: b) (eol crlf ++ r)
| eol_other x b r : x <> x0a -> (x = x0d -> forall b', b <> x0a :: b') -> same_eol crlf b r -> same_eol crlf (x :: b) (x :: r).
(** [t] only has tabs, line ends and printable ASCII, and stands for [b] up to the line ends *)
Definition quoted_char (c : Z) : Prop := c = 9 \/ c = 10 \/ c = 13 \/ 32 <= c <= 126.
Definition quoted (b : bytes) (t : text) : Prop :=
  Forall quoted_char t /\ exists crlf r, (crlf = true <-> crlf_first b) /\ same_eol crlf b r /\ qp t r.

(** ** Values *)
(** a payload that holds value and mask is cut in the middle, the mask getting the odd byte *)
Definition halves (p v m : bytes) : Prop := p = v ++ m /\ (length v <= length m <= S (length v))%nat.

(** [shows Q k p hm t]: payload [p] of a field of kind [k], with mask flag [hm], is shown as [t];
    [Q] says how a byte string is quoted *)
Inductive shows (Q : bytes -> text -> Prop) : kind -> bytes -> bool -> text -> Prop :=
| s_int n s m p : shows Q (KInt n s m) p false (number s (num_be p))
| s_intm n s ms p v m : halves p v m -> shows Q (KInt n s (Some ms)) p true (number s (num_be v) ++ $"/" ++ number ms (num_be m))
| s_int_lost n s p v m : halves p v m -> shows Q (KInt n s None) p true (number s (num_be v))
| s_le n s m p : shows Q (KLe n s m) p false (number s (num_le p))
| s_lem n s ms p v m : halves p v m -> shows Q (KLe n s (Some ms)) p true (number s (num_le v) ++ $"/" ++ number ms (num_le m))
| s_le_lost n s p v m : halves p v m -> shows Q (KLe n s None) p true (number s (num_le v))
| s_port n p : length p = n -> shows Q (KPort n) p false (port_text n (num_be p))
| s_mac p : length p = 6%nat -> shows Q KMac p false (mac_str p)
| s_macm v m : length v = 6%nat -> length m = 6%nat -> shows Q KMac (v ++ m) true (mac_str v ++ $"/" ++ mac_str m)
| s_ipv4 p : length p = 4%nat -> shows Q KIPv4 p false (ipv4_str p)
| s_ipv4m v m : length v = 4%nat -> length m = 4%nat -> shows Q KIPv4 (v ++ m) true (ipv4_str v ++ $"/" ++ ipv4_str m)
| s_ipv6 p : length p = 16%nat -> shows Q KIPv6 p false (ipv6_str p)
| s_ipv6m v m : length v = 16%nat -> length m = 16%nat -> shows Q KIPv6 (v ++ m) true (ipv6_str v ++ $"/" ++ ipv6_str m)
| s_pkt p : length p = 4%nat -> shows Q KPkt p false (value_str KPkt p)
| s_hex p : shows Q KHex p false (hex_string p)
| s_hexm p v m : halves p v m -> shows Q KHex p true (hex_string v ++ $"/" ++ hex_string m)
| s_ssid p t : Q p t -> shows Q KSsid p false t
| s_ssidm p v m name k t : halves p v m -> v = name ++ pad k -> last name x00 <> x00 -> Q name t ->
    shows Q KSsid p true (t ++ $"/" ++ hex_string m)
| s_rate b r : shows Q KRate (b :: r) false (rate_str (byte_val b))
| s_chan p : length p = 4%nat -> shows Q KChan p false (value_str KChan p)
| s_chanm v m : length v = 4%nat -> length m = 4%nat -> shows Q KChan (v ++ m) true (value_str KChan v ++ $"/" ++ mask_str KChan m)
| s_comp l v r : length v = comp_size l -> shows Q (KComp l) (v ++ r) false (comp_str l v)
| s_compm l v m r : length v = comp_size l -> length m = comp_size l ->
    shows Q (KComp l) (v ++ m ++ r) true (comp_str l v ++ $"/" ++ comp_str l m)
| s_vht v r : length v = 12%nat -> shows Q KVht (v ++ r) false (vht_str v)
| s_vhtm v m r : length v = 12%nat -> length m = 12%nat -> shows Q KVht (v ++ m ++ r) true (vht_str v ++ $"/" ++ vht_str m)
| s_s8 b : shows Q KS8 [b] false (dec (signed (byte_val b))).

(** ** Lists *)
(** the fields as the printer knows them: nxm_ip_frag goes by the name of nxm_icmp_type,
    nxm_ct_mark is missing, and the registers are shown without a value *)
Definition bare : list field := map (fun i => Field ($"nxm_reg" ++ dec i) Nxm1 i (KInt 4 (Hex 0) (Some (Hex 0)))) [0; 1; 2; 3; 4; 5; 6; 7].
Definition shown_field (f : field) : Prop :=
  In f registry /\ ~ In (fname f) misprinted \/ f = ct_label \/ f = Field $"nxm_icmp_type" Nxm1 26 (KInt 1 Dec (Some Dec)).
Inductive token_of (Q : bytes -> text -> Prop) : field -> bytes -> bool -> text -> Prop :=
| tok_field f p hm t : shown_field f -> shows Q (fkind f) p hm t -> token_of Q f p hm (fname f ++ $"=" ++ t)
| tok_bare f p hm : In f bare -> token_of Q f p hm (fname f).
Definition flag_of (hm : bool) : Z := if hm then 1 else 0.
(** an entry: class, field number and mask flag, length byte [l]; then [b], of which [l] bytes
    (or what there is of them) belong to the entry.  Fewer than four bytes at the end are ignored. *)
Inductive shown_list (Q : bytes -> text -> Prop) : bytes -> list text -> Prop :=
| sl_end b : (length b < 4)%nat -> shown_list Q b []
| sl_field f hm l b r t ts : token_of Q f (skipn (length (exp_id (fclass f))) (firstn (Z.to_nat (byte_val l)) b)) hm t ->
    b = exp_id (fclass f) ++ r -> shown_list Q (skipn (Z.to_nat (byte_val l)) b) ts ->
    shown_list Q (be 2 (class_id (fclass f)) ++ byte_of (2 * fnum f + flag_of hm) :: l :: b) (t :: ts)
| sl_class a c x l b ts : ~ In (num_be [a; c]) [0x8000; 0; 1; 0xffff] -> shown_list Q (skipn (Z.to_nat (byte_val l)) b) ts ->
    shown_list Q (a :: c :: x :: l :: b) ($"?" :: ts)
| sl_exp x l b ts : (4 <= length b)%nat -> firstn 4 b <> exp_id Stratos -> shown_list Q (skipn (Z.to_nat (byte_val l)) b) ts ->
    shown_list Q (be 2 0xffff ++ x :: l :: b) ($"?" :: ts).
