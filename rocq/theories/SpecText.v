(** SpecText: every notation in which the reader of match fields takes a value, written
    down from the manuals (inet(3), RFC 2045) and the code's own forms.  SpecOxm's [writes]
    is the part of it that a user would write. *)
From Verif Require Import Base Spec SpecOxm SpecRate.
From Coq Require Import Strings.Ascii.

(** ** MAC addresses: as [mac_of], but the two separators of the dotted form may be any
    characters except a line feed and two more hex digits *)
Inductive mac_any : text -> bytes -> Prop :=
| mac_std u l : mac_of u l -> mac_any u l
| mac_seps a b c d e f x y l : Forall2 pair_of [a; b; c; d; e; f] l -> x <> 10 -> y <> 10 ->
    ~ (digit_in 16 x /\ digit_in 16 y) -> mac_any (a ++ b ++ x :: c ++ d ++ y :: e ++ f) l.

(** ** inet(3): one to four numbers as in C; the last one fills the bytes that are left *)
Inductive c_number : text -> Z -> Prop :=
| c_hex x ds : x = chr "x" \/ x = chr "X" -> numeral 16 ds -> c_number (chr "0" :: x :: ds) (value 16 ds)
| c_oct ds : Forall (digit_in 8) ds -> c_number (chr "0" :: ds) (value 8 ds)
| c_dec ds : numeral 10 ds -> (forall r, ds <> chr "0" :: r) -> c_number ds (value 10 ds).
Inductive aton : nat -> text -> bytes -> Prop :=
| aton_last n u v : c_number u v -> in_bytes (S n) v -> aton (S n) u (be (S n) v)
| aton_dot n u v r l : c_number u v -> in_bytes 1 v -> aton n r l -> aton (S n) (u ++ chr "." :: r) (byte_of v :: l).
Definition ipv4_any (u : text) (l : bytes) : Prop := length l = 4%nat /\ aton 4 u l.

(** ** IPv6: groups of one to four hex digits, "::" for at least one group of zeros, the
    last two groups possibly as a dotted quad *)
Inductive hextet : text -> bytes -> Prop :=
| hextet_of u : numeral 16 u -> (length u <= 4)%nat -> hextet u (be 2 (value 16 u)).
Inductive tail6 : list text -> bytes -> Prop :=          (* the groups up to the end *)
| tail6_nil : tail6 [] []
| tail6_quad l : length l = 4%nat -> tail6 [ipv4_str l] l
| tail6_cons u b us l : hextet u b -> tail6 us l -> tail6 (u :: us) (b ++ l).
Inductive heads6 : list text -> bytes -> Prop :=         (* the groups before "::" *)
| heads6_nil : heads6 [] []
| heads6_cons u b us l : hextet u b -> heads6 us l -> heads6 (u :: us) (b ++ l).
Inductive ipv6_any : text -> bytes -> Prop :=
| ipv6_whole us l : tail6 us l -> length l = 16%nat -> ipv6_any (sepby (chr ":") us) l
| ipv6_gap us a vs b n : heads6 us a -> tail6 vs b -> (1 <= n)%nat -> length (a ++ pad n ++ b) = 16%nat ->
    ipv6_any (sepby (chr ":") us ++ $"::" ++ sepby (chr ":") vs) (a ++ pad n ++ b).
(** an IPv6 mask may also be the number 128, as Python reads integers: blanks around it, a
    sign, single underscores between digits, digits of any script *)
(** Unicode 14.0 has the ten decimal digits of a script in a row, from its zero *)
Definition decimal_zeros : list Z :=
  [0x30; 0x660; 0x6F0; 0x7C0; 0x966; 0x9E6; 0xA66; 0xAE6; 0xB66; 0xBE6; 0xC66; 0xCE6; 0xD66; 0xDE6;
  0xE50; 0xED0; 0xF20; 0x1040; 0x1090; 0x17E0; 0x1810; 0x1946; 0x19D0; 0x1A80; 0x1A90; 0x1B50;
  0x1BB0; 0x1C40; 0x1C50; 0xA620; 0xA8D0; 0xA900; 0xA9D0; 0xA9F0; 0xAA50; 0xABF0; 0xFF10; 0x104A0;
  0x10D30; 0x11066; 0x110F0; 0x11136; 0x111D0; 0x112F0; 0x11450; 0x114D0; 0x11650; 0x116C0;
  0x11730; 0x118E0; 0x11950; 0x11C50; 0x11D50; 0x11DA0; 0x16A60; 0x16AC0; 0x16B50; 0x1D7CE;
  0x1D7D8; 0x1D7E2; 0x1D7EC; 0x1D7F6; 0x1E140; 0x1E2F0; 0x1E950; 0x1FBF0].
(** [c] stands for the decimal digit [d] *)
Definition decimal_digit (c d : Z) : Prop := digit_in 10 d /\ exists z, In z decimal_zeros /\ c - z = d - chr "0".
Definition int_blank (c : Z) : Prop := blank c /\ ~ 28 <= c <= 31.
Inductive underscored : text -> text -> Prop :=
| us_one c v : decimal_digit c v -> underscored [c] [v]
| us_next c v d ds : decimal_digit c v -> underscored d ds -> underscored (c :: d) (v :: ds)
| us_under c v d ds : decimal_digit c v -> underscored d ds -> underscored (c :: chr "_" :: d) (v :: ds).
Definition says_128 (u : text) : Prop := exists a s d ds b, u = a ++ s ++ d ++ b /\ Forall int_blank a /\ Forall int_blank b /\
  (s = [] \/ s = $"+") /\ underscored d ds /\ value 10 ds = 128.
Definition ipv6_mask_any (u : text) (l : bytes) : Prop := ipv6_any u l \/ says_128 u /\ l = prefix_mask 16 128.

(** ** radiotap_rate: a number with a unit; a decimal fraction goes through binary floating
    point (SpecRate), and what is left behind the point is cut off *)
Inductive rate_any : text -> bytes -> Prop :=
| rate_k ds : numeral 10 ds -> in_bytes 1 (value 10 ds / 500) -> rate_any (ds ++ $"K") (be 1 (value 10 ds / 500))
| rate_m ds : numeral 10 ds -> in_bytes 1 (2 * value 10 ds) -> rate_any (ds ++ $"M") (be 1 (2 * value 10 ds))
| rate_frac_k ds fs y z : numeral 10 ds -> numeral 10 fs -> decimal (value 10 ds) (value 10 fs) (Z.of_nat (length fs)) y ->
    rounds (fdiv y (500, 1)) z -> in_bytes 1 (fst z / snd z) -> rate_any (ds ++ $"." ++ fs ++ $"K") (be 1 (fst z / snd z))
| rate_frac_m ds fs y z : numeral 10 ds -> numeral 10 fs -> decimal (value 10 ds) (value 10 fs) (Z.of_nat (length fs)) y ->
    rounds (fmul y (2, 1)) z -> in_bytes 1 (fst z / snd z) -> rate_any (ds ++ $"." ++ fs ++ $"M") (be 1 (fst z / snd z)).

(** ** radiotap_vht: items separated by ":", the fourth in hex; of the others a prefix that
    is a number counts and the rest is ignored; they make ten numbers *)
Inductive vht_number : text -> Z -> Prop :=
| vht_none : vht_number [] 0
| vht_some u v l : reads u v l -> vht_number u v.
Inductive vht_numbers : nat -> list text -> list Z -> Prop :=
| vht_end i : vht_numbers i [] []
| vht_hex u b us vs : hex_of u b -> vht_numbers 4 us vs -> vht_numbers 3 (u :: us) (map byte_val b ++ vs)
| vht_num i u v us vs : i <> 3%nat -> vht_number u v -> vht_numbers (S i) us vs -> vht_numbers i (u :: us) (v :: vs).
Fixpoint le_list (ns : list nat) (vs : list Z) : bytes :=
  match ns, vs with n :: ns', v :: vs' => le n v ++ le_list ns' vs' | _, _ => [] end.
Definition vht_any (u : text) (b : bytes) : Prop :=
  exists us vs, u = sepby (chr ":") us /\ vht_numbers 0 us vs /\ Forall (fun t => ~ In (chr ":") t) us /\ Forall2 in_bytes [2; 1; 1; 1; 1; 1; 1; 1; 1; 2]%nat vs
    /\ b = le_list [2; 1; 1; 1; 1; 1; 1; 1; 1; 2]%nat vs.

(** ** SSIDs: quoted-printable (RFC 2045) as binascii reads it.  "=" and two hex digits is a
    byte, "==" is "=", "=" and a line break is nothing, any other "=" stands for itself *)
Definition seven_bit (c : Z) : Prop := 0 <= c < 128.
Definition escapes (d : Z) (s : text) : Prop := digit_in 16 d /\ exists e s', s = e :: s' /\ digit_in 16 e.
Inductive qp : text -> bytes -> Prop :=
| qp_nil : qp [] []
| qp_char c s b : c <> chr "=" -> seven_bit c -> qp s b -> qp (c :: s) (byte_of c :: b)
| qp_byte d e x s b : pair_of [d; e] x -> qp s b -> qp (chr "=" :: d :: e :: s) (x :: b)
| qp_equal s b : qp s b -> qp (chr "=" :: chr "=" :: s) (byte_of (chr "=") :: b)
| qp_lone d s b : d <> chr "=" -> d <> 10 -> d <> 13 -> ~ escapes d s -> qp (d :: s) b -> qp (chr "=" :: d :: s) (byte_of (chr "=") :: b)
| qp_end : qp (chr "=" :: []) []
| qp_lf s b : qp s b -> qp (chr "=" :: 10 :: s) b
| qp_cr x s b : Forall seven_bit x -> ~ In 10 x -> qp s b -> qp (chr "=" :: 13 :: x ++ 10 :: s) b
| qp_cr_end x : Forall seven_bit x -> ~ In 10 x -> qp (chr "=" :: 13 :: x) [].

(** ** Values and masks *)
Inductive notation : kind -> text -> bytes -> option bytes -> Prop :=
| n_int n s m u v : literal u v -> notation (KInt n s m) u (be n v) None
| n_intm n s m u v u' v' : literal u v -> literal u' v' -> notation (KInt n s m) (u ++ $"/" ++ u') (be n v) (Some (be n v'))
| n_port n u v : literal u v -> in_bytes n v -> notation (KPort n) u (be n v) None
| n_port_name n u p lo up : In (p, (lo, up)) reserved -> u = lo \/ u = up -> notation (KPort n) u (be n p) None
| n_mac u v : mac_any u v -> notation KMac u v None
| n_macm u v u' v' : mac_any u v -> mac_any u' v' -> notation KMac (u ++ $"/" ++ u') v (Some v')
| n_ipv4 u v : ipv4_any u v -> notation KIPv4 u v None
| n_ipv4m u v u' v' : ipv4_any u v -> ipv4_any u' v' -> notation KIPv4 (u ++ $"/" ++ u') v (Some v')
| n_ipv6 u v : ipv6_any u v -> notation KIPv6 u v None
| n_ipv6m u v u' v' : ipv6_any u v -> ipv6_mask_any u' v' -> notation KIPv6 (u ++ $"/" ++ u') v (Some v')
| n_pkt u v u' v' : literal u v -> literal u' v' -> in_bytes 2 v -> in_bytes 2 v' -> notation KPkt (u ++ $":" ++ u') (be 2 v ++ be 2 v') None
| n_hex u v : hex_of u v -> notation KHex u v None
| n_hexm u v u' v' : hex_of u v -> hex_of u' v' -> notation KHex (u ++ $"/" ++ u') (fst (mask_pad v v')) (snd (mask_pad v v'))
| n_ssid u v : ~ In (chr "/") u -> qp u v -> notation KSsid u v None
| n_ssidm u v u' v' r : ~ In (chr "/") u -> qp u v -> hex_of u' v' -> r = [] \/ (exists r', r = chr "/" :: r') ->
    notation KSsid (u ++ $"/" ++ u' ++ r) (fst (mask_pad v v')) (snd (mask_pad v v'))
| n_le n s m u v : literal u v -> notation (KLe n s m) u (le n v) None
| n_rate u v : rate_any u v -> notation KRate u v None
| n_chan u v u' v' : literal u v -> in_bytes 2 v -> literal u' v' -> in_bytes 2 v' -> notation KChan (u ++ $":" ++ u') (be 2 v ++ be 2 v') None
| n_chanm u v u' v' x a y b : literal u v -> in_bytes 2 v -> literal u' v' -> in_bytes 2 v' -> opt_literal x a -> in_bytes 2 a -> literal y b -> in_bytes 2 b ->
    notation KChan (u ++ $":" ++ u' ++ $"/" ++ x ++ $":" ++ y) (be 2 v ++ be 2 v') (Some (be 2 a ++ be 2 b))
| n_chanf u v u' v' x a : literal u v -> in_bytes 2 v -> literal u' v' -> in_bytes 2 v' -> literal x a -> in_bytes 2 a ->
    notation KChan (u ++ $":" ++ u' ++ $"/" ++ x) (be 2 v ++ be 2 v') (Some (be 2 a ++ be 2 0))
| n_comp l us v : comp_of l us v -> notation (KComp l) (sepby (chr ":") us) v None
| n_compm l us v us' v' : comp_of l us v -> comp_of l us' v' -> notation (KComp l) (sepby (chr ":") us ++ $"/" ++ sepby (chr ":") us') v (Some v')
| n_vht u v : ~ In (chr "/") u -> vht_any u v -> notation KVht u v None
| n_vhtm u v u' v' : ~ In (chr "/") u -> vht_any u v -> vht_any u' v' -> notation KVht (u ++ $"/" ++ u') v (Some v')
| n_s8 u v : literal u v -> -128 <= v < 128 -> notation KS8 u (be 1 v) None.

(** ** Match lists *)
Definition readable (f : field) : Prop := f = ct_label_short \/ In f registry.
(** a value: it does not begin with a blank, and ends where a token ends *)
Definition cut (p r : text) : Prop := solid p /\ (token p /\ ends r \/ unfinished_token p /\ r = []).
(** no value: only a comma or "=" may follow, or nothing *)
Definition cut_off (r : text) : Prop := match r with [] => True | c :: _ => c = chr "," \/ c = chr "=" end.
(** [match_list N ts u r]: [u] is a list of fields meaning [ts], values in the notation [N];
    [r] is what is left unread: an empty value of a byte string or SSID stops the reader,
    without an error *)
Inductive match_list (N : kind -> text -> bytes -> option bytes -> Prop) : list tlv -> text -> text -> Prop :=
| ml_end : match_list N [] [] []
| ml_item f h a b p v m r ts u r' : readable f -> Forall filler h -> gap_eq a -> Forall blank b -> cut p r -> N (fkind f) p v m ->
    u = h ++ fname f ++ a ++ $"=" ++ b ++ p ++ r -> match_list N ts r r' -> match_list N (Tlv f v m :: ts) u r'
| ml_stop f h a b r u : readable f -> Forall filler h -> gap_eq a -> Forall blank b -> cut_off r -> fkind f = KHex \/ fkind f = KSsid ->
    u = h ++ fname f ++ a ++ $"=" ++ b ++ r -> match_list N [] u r.
