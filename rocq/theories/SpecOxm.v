(** SpecOxm: the match-field notation and its wire format, written down
    independently of the model: the registry of fields (name, OXM class, field
    number, type), the TLV bytes, the text printed for a TLV and the texts that
    may be written for it. *)
From Verif Require Import Base Spec.
From Coq Require Import Strings.Ascii.

(** ** Registry *)
(** OXM classes: OFPXMC_OPENFLOW_BASIC 0x8000, NXM_OF_* 0, NXM_NX_* 1, experimenter
    class 0xffff with the Stratosphere experimenter id 0xff00e04d *)
Inductive class := Basic | Nxm0 | Nxm1 | Stratos.
Definition class_id (c : class) : Z :=
  match c with Basic => 0x8000 | Nxm0 => 0 | Nxm1 => 1 | Stratos => 0xffff end.
Definition exp_id (c : class) : bytes := match c with Stratos => be 4 0xff00e04d | _ => [] end.

(** how a number is printed: decimal, or 0x... with at least [w] digits *)
Inductive nstyle := Dec | Hex (w : nat).
Definition number (s : nstyle) (n : Z) : text := match s with Dec => dec n | Hex w => hexw w n end.

(** field types; the [option nstyle] of an integer says how its mask is printed, if ever *)
Inductive kind :=
| KInt (n : nat) (s : nstyle) (m : option nstyle)      (* n bytes, network order *)
| KPort (n : nat)                                       (* port number *)
| KMac | KIPv4 | KIPv6
| KPkt                                                  (* packet_type: namespace:type *)
| KHex                                                  (* byte string in hex *)
| KSsid                                                 (* 802.11 SSID, a name *)
| KLe (n : nat) (s : nstyle) (m : option nstyle)       (* n bytes, little endian *)
| KRate                                                 (* units of 500 kbps *)
| KChan                                                 (* frequency:flags *)
| KComp (l : list (nat * nstyle))                       (* little-endian numbers, 0 left out *)
| KVht                                                  (* radiotap VHT info *)
| KS8.                                                  (* signed byte *)

Record field := Field { fname : text; fclass : class; fnum : Z; fkind : kind }.

Definition basic : list field :=
  let I := fun nm i n s m => Field nm Basic i (KInt n s m) in
  let F := fun nm i k => Field nm Basic i k in
  [ F $"in_port" 0 (KPort 4); F $"in_phy_port" 1 (KPort 4); I $"metadata" 2 8%nat (Hex 0) (Some (Hex 0));
    F $"eth_dst" 3 KMac; F $"eth_src" 4 KMac; I $"eth_type" 5 2%nat (Hex 2) None;
    I $"vlan_vid" 6 2%nat (Hex 0) (Some (Hex 0)); I $"vlan_pcp" 7 1%nat Dec None;
    I $"ip_dscp" 8 1%nat (Hex 0) None; I $"ip_ecn" 9 1%nat (Hex 0) None; I $"ip_proto" 10 1%nat Dec None;
    F $"ipv4_src" 11 KIPv4; F $"ipv4_dst" 12 KIPv4;
    I $"tcp_src" 13 2%nat Dec None; I $"tcp_dst" 14 2%nat Dec None;
    I $"udp_src" 15 2%nat Dec None; I $"udp_dst" 16 2%nat Dec None;
    I $"sctp_src" 17 2%nat Dec None; I $"sctp_dst" 18 2%nat Dec None;
    I $"icmpv4_type" 19 1%nat Dec None; I $"icmpv4_code" 20 1%nat Dec None;
    I $"arp_op" 21 2%nat Dec None; F $"arp_spa" 22 KIPv4; F $"arp_tpa" 23 KIPv4;
    F $"arp_sha" 24 KMac; F $"arp_tha" 25 KMac; F $"ipv6_src" 26 KIPv6; F $"ipv6_dst" 27 KIPv6;
    I $"ipv6_flabel" 28 4%nat (Hex 0) (Some (Hex 0));
    I $"icmpv6_type" 29 1%nat Dec None; I $"icmpv6_code" 30 1%nat Dec None;
    F $"ipv6_nd_target" 31 KIPv6; F $"ipv6_nd_sll" 32 KMac; F $"ipv6_nd_tll" 33 KMac;
    I $"mpls_label" 34 4%nat (Hex 0) (Some (Hex 0)); I $"mpls_tc" 35 1%nat Dec None; I $"mpls_bos" 36 1%nat Dec None;
    I $"pbb_isid" 37 3%nat (Hex 0) (Some (Hex 0)); I $"tunnel_id" 38 8%nat (Hex 0) (Some (Hex 0));
    I $"ipv6_exthdr" 39 2%nat (Hex 0) (Some (Hex 0)); I $"pbb_uca" 41 1%nat Dec None;
    I $"tcp_flags" 42 2%nat (Hex 2) (Some (Hex 2)); F $"actset_output" 43 (KPort 4); F $"packet_type" 44 KPkt ].
Definition nicira0 : list field :=
  let I := fun nm i n s m => Field nm Nxm0 i (KInt n s m) in
  let F := fun nm i k => Field nm Nxm0 i k in
  [ F $"nxm_in_port" 0 (KPort 2); F $"nxm_eth_dst" 1 KMac; F $"nxm_eth_src" 2 KMac;
    I $"nxm_eth_type" 3 2%nat (Hex 4) (Some (Hex 4)); I $"nxm_vlan_tci" 4 2%nat (Hex 0) (Some (Hex 4));
    I $"nxm_ip_tos" 5 1%nat (Hex 0) (Some (Hex 0)); I $"nxm_ip_proto" 6 1%nat Dec (Some Dec);
    F $"nxm_ip_src" 7 KIPv4; F $"nxm_ip_dst" 8 KIPv4;
    I $"nxm_tcp_src" 9 2%nat Dec (Some Dec); I $"nxm_tcp_dst" 10 2%nat Dec (Some Dec);
    I $"nxm_udp_src" 11 2%nat Dec (Some Dec); I $"nxm_udp_dst" 12 2%nat Dec (Some Dec);
    I $"nxm_icmp_type" 13 1%nat Dec (Some Dec); I $"nxm_icmp_code" 14 1%nat Dec (Some Dec);
    I $"nxm_arp_op" 15 2%nat Dec (Some Dec); F $"nxm_arp_spa" 16 KIPv4; F $"nxm_arp_tpa" 17 KIPv4 ].
Definition nicira1 : list field :=
  let I := fun nm i n s m => Field nm Nxm1 i (KInt n s m) in
  let F := fun nm i k => Field nm Nxm1 i k in
  map (fun i => I ($"nxm_reg" ++ dec i) i 4%nat (Hex 0) (Some (Hex 0))) [0; 1; 2; 3; 4; 5; 6; 7] ++
  [ I $"nxm_tun_id" 16 8%nat (Hex 0) (Some (Hex 0)); F $"nxm_arp_sha" 17 KMac; F $"nxm_arp_tha" 18 KMac;
    F $"nxm_ipv6_src" 19 KIPv6; F $"nxm_ipv6_dst" 20 KIPv6;
    I $"nxm_icmpv6_type" 21 1%nat Dec (Some Dec); I $"nxm_icmpv6_code" 22 1%nat Dec (Some Dec);
    F $"nxm_nd_target" 23 KIPv6; F $"nxm_nd_sll" 24 KMac; F $"nxm_nd_tll" 25 KMac;
    I $"nxm_ip_frag" 26 1%nat Dec (Some Dec); I $"nxm_ipv6_label" 27 4%nat (Hex 0) (Some (Hex 0));
    I $"nxm_ip_ecn" 28 1%nat (Hex 0) (Some (Hex 0)); I $"nxm_ip_ttl" 29 1%nat Dec (Some Dec);
    F $"nxm_tun_ipv4_src" 31 KIPv4; F $"nxm_tun_ipv4_dst" 32 KIPv4;
    I $"nxm_pkt_mark" 33 4%nat (Hex 0) (Some (Hex 0)); I $"nxm_tcp_flags" 34 2%nat (Hex 4) (Some (Hex 4));
    I $"nxm_dp_hash" 35 4%nat (Hex 8) (Some (Hex 8)); I $"nxm_recirc_id" 36 4%nat (Hex 8) (Some (Hex 8));
    I $"nxm_conj_id" 37 4%nat (Hex 8) (Some (Hex 8)); I $"nxm_tun_gbp_id" 38 2%nat (Hex 4) (Some (Hex 4));
    I $"nxm_tun_gbp_flags" 39 1%nat (Hex 0) (Some (Hex 0)) ] ++
  map (fun i => F ($"nxm_tun_metadata" ++ dec (Z.of_nat i)) (40 + Z.of_nat i) KHex) (seq 0 64) ++
  [ I $"nxm_tun_flags" 104 2%nat (Hex 0) (Some (Hex 0)); I $"nxm_ct_state" 105 4%nat (Hex 0) (Some (Hex 0));
    I $"nxm_ct_zone" 106 2%nat (Hex 0) None; F $"nxm_tun_ipv6_src" 109 KIPv6; F $"nxm_tun_ipv6_dst" 110 KIPv6 ].
Definition stratos : list field :=
  let I := fun nm i n s m => Field nm Stratos i (KInt n s m) in
  let L := fun nm i n s m => Field nm Stratos i (KLe n s m) in
  let F := fun nm i k => Field nm Stratos i k in
  [ I $"dot11" 2 1%nat Dec None; F $"dot11_frame_ctrl" 3 KHex;
    F $"dot11_addr1" 4 KMac; F $"dot11_addr2" 5 KMac; F $"dot11_addr3" 6 KMac; F $"dot11_addr4" 7 KMac;
    F $"dot11_ssid" 8 KSsid; F $"dot11_action_category" 9 KHex; I $"dot11_public_action" 10 1%nat Dec None;
    I $"dot11_tag" 11 1%nat Dec None; F $"dot11_tag_vendor" 12 KHex;
    L $"radiotap_tsft" 16 8%nat Dec None; L $"radiotap_flags" 17 1%nat (Hex 2) (Some (Hex 2));
    F $"radiotap_rate" 18 KRate; F $"radiotap_channel" 19 KChan; F $"radiotap_fhss" 20 KHex;
    F $"radiotap_dbm_antsignal" 21 KS8; F $"radiotap_dbm_antnoise" 22 KS8;
    L $"radiotap_lock_quality" 23 2%nat Dec None; L $"radiotap_tx_attenuation" 24 2%nat Dec None;
    L $"radiotap_db_tx_attenuation" 25 2%nat Dec None; F $"radiotap_dbm_tx_power" 26 KS8;
    L $"radiotap_antenna" 27 1%nat Dec None; L $"radiotap_db_antsignal" 28 1%nat Dec None;
    L $"radiotap_db_antnoise" 29 1%nat Dec None; L $"radiotap_rx_flags" 30 2%nat (Hex 4) None;
    L $"radiotap_tx_flags" 31 2%nat (Hex 4) None; L $"radiotap_rts_retries" 32 1%nat Dec None;
    L $"radiotap_data_retries" 33 1%nat Dec None;
    F $"radiotap_mcs" 35 (KComp [(1%nat, Hex 2); (1%nat, Dec); (1%nat, Dec)]);
    F $"radiotap_ampdu_status" 36 (KComp [(4%nat, Hex 8); (2%nat, Hex 4); (1%nat, Hex 2); (1%nat, Hex 0)]);
    F $"radiotap_vht" 37 KVht ].
(** every documented field whose width and notation the code gets right *)
Definition registry : list field := basic ++ nicira0 ++ nicira1 ++ stratos.
(** connection tracking fields the code gets wrong: ct_mark (4 bytes), ct_label (16 bytes) *)
Definition ct_mark : field := Field $"nxm_ct_mark" Nxm1 107 (KInt 4 (Hex 0) (Some (Hex 0))).
Definition ct_label : field := Field $"nxm_ct_label" Nxm1 108 (KInt 16 (Hex 0) (Some (Hex 0))).
(** registered fields whose printed form is wrong *)
Definition misprinted : list text :=
  map (fun i => $"nxm_reg" ++ dec i) [0; 1; 2; 3; 4; 5; 6; 7] ++ [$"nxm_ip_frag"].

(** ** Wire format *)
(** header: class (16 bits), field number (7 bits), mask flag, length (8 bits; stays at
    255 when it does not fit), experimenter id *)
Definition hdr (f : field) (hm : bool) (len : Z) : bytes :=
  be 2 (class_id (fclass f)) ++ [byte_of (2 * fnum f + (if hm then 1 else 0))]
    ++ [byte_of (Z.min 255 (Z.of_nat (length (exp_id (fclass f))) + len))] ++ exp_id (fclass f).
Record tlv := Tlv { tfield : field; tval : bytes; tmask : option bytes }.
Definition mask_bytes (m : option bytes) : bytes := match m with Some b => b | None => [] end.
Definition has_mask (m : option bytes) : bool := match m with Some _ => true | None => false end.
Definition wire (t : tlv) : bytes :=
  hdr (tfield t) (has_mask (tmask t)) (Z.of_nat (length (tval t ++ mask_bytes (tmask t))))
    ++ tval t ++ mask_bytes (tmask t).

(** number of value bytes, when fixed *)
Definition comp_size (l : list (nat * nstyle)) : nat := fold_right (fun p n => fst p + n)%nat 0%nat l.
Definition width (k : kind) : option nat :=
  match k with
  | KInt n _ _ | KPort n | KLe n _ _ => Some n
  | KMac => Some 6%nat
  | KIPv4 | KPkt | KChan => Some 4%nat
  | KIPv6 => Some 16%nat
  | KRate | KS8 => Some 1%nat
  | KComp l => Some (comp_size l)
  | KVht => Some 12%nat
  | KHex | KSsid => None
  end.
(** fields that can be given a mask *)
Definition maskable (k : kind) : Prop :=
  match k with KPort _ | KPkt | KRate | KS8 | KLe _ _ _ => False | _ => True end.
(** a value of the field's width and, at most for a maskable field, a mask as long *)
Definition sized (t : tlv) : Prop :=
  match width (fkind (tfield t)) with Some n => length (tval t) = n | None => True end
  /\ match tmask t with Some m => length m = length (tval t) /\ maskable (fkind (tfield t)) | None => True end.

(** ** Printed text *)
(** reserved port numbers (OFPP_...), lower and upper case *)
Definition reserved : list (Z * (text * text)) :=
  [ (0xffffff00, ($"max", $"MAX")); (0xfffffff8, ($"in_port", $"IN_PORT")); (0xfffffff9, ($"table", $"TABLE"));
    (0xfffffffa, ($"normal", $"NORMAL")); (0xfffffffb, ($"flood", $"FLOOD")); (0xfffffffc, ($"all", $"ALL"));
    (0xfffffffd, ($"controller", $"CONTROLLER")); (0xfffffffe, ($"local", $"LOCAL")); (0xffffffff, ($"any", $"ANY")) ].
(** in a field of [n] bytes the reserved ports keep their [n] low bytes *)
Definition port_text (n : nat) (v : Z) : text :=
  match find (fun r => fst r mod 256 ^ Z.of_nat n =? v) reserved with
  | Some (_, (nm, _)) => nm
  | None => dec v
  end.
(** two hex digits per byte *)
Definition byte_hex (b : byte) : text := zpad 2 (hex_digits (byte_val b)).
Definition hex_string (l : bytes) : text := flat_map byte_hex l.
(** pieces separated by a character *)
Fixpoint sepby (c : Z) (l : list text) : text :=
  match l with [] => [] | [a] => a | a :: l' => a ++ c :: sepby c l' end.
Definition mac_str (l : bytes) : text := sepby (chr ":") (map byte_hex l).
Definition ipv4_str (l : bytes) : text := sepby (chr ".") (map (fun b => dec (byte_val b)) l).

(** IPv6: eight groups in hex, the first of the longest runs of (at least two) zero groups
    replaced by "::"; after six zero groups, or five and ffff, the last four bytes as IPv4 *)
Fixpoint groups16 (l : bytes) : list Z :=
  match l with a :: b :: l' => byte_val a * 256 + byte_val b :: groups16 l' | _ => [] end.
Fixpoint zero_prefix (l : list Z) : nat :=
  match l with 0 :: l' => S (zero_prefix l') | _ => O end.
Fixpoint best_zeros (l : list Z) : nat * nat :=       (* position, length *)
  match l with
  | [] => (0, 0)%nat
  | _ :: l' => let '(p, n) := best_zeros l' in
               if (n <=? zero_prefix l)%nat then (0%nat, zero_prefix l) else (S p, n)
  end.
Definition groups_str (l : list Z) : text := sepby (chr ":") (map hex_digits l).
Definition ipv6_str (b : bytes) : text :=
  let g := groups16 b in
  match best_zeros g with
  | (O, 6%nat) => $"::" ++ ipv4_str (skipn 12 b)
  | (p, n) =>
      if Nat.eqb p 0 && Nat.eqb n 5 && (nth 5 g 0 =? 0xffff) then $"::ffff:" ++ ipv4_str (skipn 12 b)
      else if (n <? 2)%nat then groups_str g
      else groups_str (firstn p g) ++ $"::" ++ groups_str (skipn (p + n) g)
  end.

(** numbers separated by ":", zero left out *)
Definition opt_number (s : nstyle) (n : Z) : text := if n =? 0 then [] else number s n.
Fixpoint comp_parts (l : list (nat * nstyle)) (b : bytes) : list text :=
  match l with
  | [] => []
  | (n, s) :: l' => opt_number s (num_le (firstn n b)) :: comp_parts l' (skipn n b)
  end.
Definition comp_str (l : list (nat * nstyle)) (b : bytes) : text := sepby (chr ":") (comp_parts l b).

(** VHT info: known (2 bytes), flags, bandwidth, mcs/nss of four users, coding, group, partial aid (2 bytes) *)
Definition all_zero (l : bytes) : bool := forallb (fun b => byte_val b =? 0) l.
Definition vht_str (b : bytes) : text :=
  let at_ := fun i n => num_le (firstn n (skipn i b)) in
  let mcs := firstn 4 (skipn 4 b) in
  sepby (chr ":")
    [ opt_number (Hex 4) (at_ 0 2)%nat; opt_number (Hex 2) (at_ 2 1)%nat; dec (at_ 3 1)%nat;
      (if all_zero mcs then [] else hex_string mcs);
      opt_number (Hex 2) (at_ 8 1)%nat; dec (at_ 9 1)%nat; hexw 4 (at_ 10 2)%nat ].

(** the part after "=": value, and mask *)
Definition rate_str (r : Z) : text :=
  if r <? 2 then dec (r * 500) ++ $".0K" else dec (r / 2) ++ (if r mod 2 =? 1 then $".5M" else $".0M").
Definition signed (v : Z) : Z := if v <? 128 then v else v - 256.
Definition value_str (k : kind) (v : bytes) : text :=
  match k with
  | KInt _ s _ => number s (num_be v)
  | KPort n => port_text n (num_be v)
  | KMac => mac_str v
  | KIPv4 => ipv4_str v
  | KIPv6 => ipv6_str v
  | KPkt => hex (num_be (firstn 2 v)) ++ $":" ++ hex (num_be (skipn 2 v))
  | KHex => hex_string v
  | KSsid => map byte_val (filter (fun b => negb (byte_val b =? 0)) v)
  | KLe _ s _ => number s (num_le v)
  | KRate => rate_str (num_be v)
  | KChan => dec (num_be (firstn 2 v)) ++ $":" ++ hexw 4 (num_be (skipn 2 v))
  | KComp l => comp_str l v
  | KVht => vht_str v
  | KS8 => dec (signed (num_be v))
  end.
Definition mask_str (k : kind) (m : bytes) : text :=
  match k with
  | KInt _ _ (Some s) => number s (num_be m)
  | KChan => opt_number (Hex 4) (num_be (firstn 2 m)) ++ $":" ++ hexw 4 (num_be (skipn 2 m))
  | KSsid => hex_string m
  | _ => value_str k m
  end.
Definition body (t : tlv) : text :=
  value_str (fkind (tfield t)) (tval t)
    ++ match tmask t with Some m => $"/" ++ mask_str (fkind (tfield t)) m | None => [] end.
Definition text_of (t : tlv) : text := fname (tfield t) ++ $"=" ++ body t.
(** a match list is printed with commas *)
Definition texts (ts : list tlv) : text := sepby (chr ",") (map text_of ts).

(** ** The TLVs the round trip covers *)
(** characters safe in a name: printable ASCII but blank , / = and brackets *)
Definition safe_char (c : Z) : Prop :=
  33 <= c <= 126 /\ ~ In c [chr ","; chr "/"; chr "="; chr "("; chr ")"; chr "{"; chr "}"; chr "["; chr "]"; chr "<"; chr ">"].
Definition safe_byte (b : byte) : Prop := safe_char (byte_val b).

Definition good_value (k : kind) (v : bytes) : Prop :=
  match k with
  | KInt n _ _ | KPort n | KLe n _ _ => length v = n
  | KMac => length v = 6%nat
  | KIPv4 | KPkt | KChan => length v = 4%nat
  | KIPv6 => length v = 16%nat
  | KHex => v <> []
  | KSsid => exists name k, v = name ++ pad k /\ name <> [] /\ (length name <= 32)%nat /\ Forall safe_byte name
                            /\ name <> [x2e]
  | KRate | KS8 => length v = 1%nat
  | KComp l => length v = comp_size l
  | KVht => length v = 12%nat /\ all_zero (firstn 4 (skipn 4 v)) = false
  end.
Definition good_mask (k : kind) (v : bytes) (m : option bytes) : Prop :=
  match m with
  | None => match k with KSsid => last v x00 <> x00 | _ => True end
  | Some m =>
      length m = length v /\
      match k with
      | KInt _ _ None | KPort _ | KPkt | KLe _ _ _ | KRate | KS8 => False
      | KVht => good_value KVht m
      | _ => True
      end
  end.
Definition fits (t : tlv) : Prop :=
  (length (exp_id (fclass (tfield t))) + length (tval t ++ mask_bytes (tmask t)) <= 255)%nat.
Definition good (t : tlv) : Prop :=
  In (tfield t) registry /\ good_value (fkind (tfield t)) (tval t)
    /\ good_mask (fkind (tfield t)) (tval t) (tmask t) /\ fits t.
Definition printable (t : tlv) : Prop := ~ In (fname (tfield t)) misprinted.
(** fields printed exactly, whatever their value and mask *)
Definition steady (t : tlv) : Prop :=
  In (tfield t) registry /\ printable t
  /\ match fkind (tfield t) with
     | KHex | KSsid | KVht => False
     | KInt _ _ None => tmask t = None
     | _ => True
     end.

(** ** Written text: [writes k u v m]: [u] is a way of writing value [v] and mask [m] *)
(** the whole of [u] is an integer literal of value [v] *)
Definition literal (u : text) (v : Z) : Prop := reads u v (length u).
Definition in_bytes (n : nat) (v : Z) : Prop := 0 <= v < 256 ^ Z.of_nat n.

(** hex pairs, either case *)
Inductive pair_of : text -> byte -> Prop :=
| pair_hex c d x y : digit c = Some x -> digit d = Some y -> pair_of [c; d] (byte_of (16 * x + y)).
Definition hex_of (u : text) (b : bytes) : Prop :=
  exists ps, Forall2 pair_of ps b /\ u = concat ps.
(** the four MAC notations *)
Inductive mac_of : text -> bytes -> Prop :=
| mac_plain a b c d e f l : Forall2 pair_of [a; b; c; d; e; f] l -> mac_of (a ++ b ++ c ++ d ++ e ++ f) l
| mac_dots a b c d e f l : Forall2 pair_of [a; b; c; d; e; f] l ->
    mac_of (sepby (chr ".") [a ++ b; c ++ d; e ++ f]) l
| mac_colons a b c d e f l : Forall2 pair_of [a; b; c; d; e; f] l -> mac_of (sepby (chr ":") [a; b; c; d; e; f]) l
| mac_dashes a b c d e f l : Forall2 pair_of [a; b; c; d; e; f] l -> mac_of (sepby (chr "-") [a; b; c; d; e; f]) l.
Definition ipv4_of (u : text) (l : bytes) : Prop := length l = 4%nat /\ u = ipv4_str l.
(** eight groups, or "::" for one or more zero groups; also the printed form *)
Inductive ipv6_of : text -> bytes -> Prop :=
| ipv6_full g l : length l = 16%nat -> groups16 l = g -> ipv6_of (groups_str g) l
| ipv6_short a n c l : (1 <= n)%nat -> length l = 16%nat -> groups16 l = a ++ repeat 0 n ++ c ->
    ipv6_of (groups_str a ++ $"::" ++ groups_str c) l
| ipv6_mapped a n l : (1 <= n)%nat -> length l = 16%nat -> groups16 (firstn 12 l) = repeat 0 n ++ a ->
    ipv6_of ($"::" ++ flat_map (fun w => hex_digits w ++ $":") a ++ ipv4_str (skipn 12 l)) l.

Inductive opt_literal : text -> Z -> Prop :=
| opt_none : opt_literal [] 0
| opt_some u v : literal u v -> opt_literal u v.
Definition mask_pad (v m : bytes) : bytes * option bytes :=
  (v ++ pad (length m - length v), Some (m ++ pad (length v - length m))).

Inductive comp_of : list (nat * nstyle) -> list text -> bytes -> Prop :=
| comp_nil : comp_of [] [] []
| comp_cons n s l u v us b : opt_literal u v -> in_bytes n v -> comp_of l us b ->
    comp_of ((n, s) :: l) (u :: us) (le n v ++ b).
Inductive vht_of : text -> bytes -> Prop :=
| vht_seven a va b vb c vc m vm d vd e ve f vf :
    opt_literal a va -> in_bytes 2 va -> opt_literal b vb -> in_bytes 1 vb -> opt_literal c vc -> in_bytes 1 vc ->
    hex_of m vm -> length vm = 4%nat ->
    opt_literal d vd -> in_bytes 1 vd -> opt_literal e ve -> in_bytes 1 ve -> opt_literal f vf -> in_bytes 2 vf ->
    vht_of (sepby (chr ":") [a; b; c; m; d; e; f]) (le 2 va ++ le 1 vb ++ le 1 vc ++ vm ++ le 1 vd ++ le 1 ve ++ le 2 vf).

Inductive writes : kind -> text -> bytes -> option bytes -> Prop :=
| w_int n s m u v : literal u v -> writes (KInt n s m) u (be n v) None
| w_intm n s m u v u' v' : literal u v -> literal u' v' ->
    writes (KInt n s m) (u ++ $"/" ++ u') (be n v) (Some (be n v'))
| w_port n u v : literal u v -> in_bytes n v -> writes (KPort n) u (be n v) None
| w_port_name n u p lo up : In (p, (lo, up)) reserved -> u = lo \/ u = up -> writes (KPort n) u (be n p) None
| w_mac u v : mac_of u v -> writes KMac u v None
| w_macm u v u' v' : mac_of u v -> mac_of u' v' -> writes KMac (u ++ $"/" ++ u') v (Some v')
| w_ipv4 u v : ipv4_of u v -> writes KIPv4 u v None
| w_ipv4m u v u' v' : ipv4_of u v -> ipv4_of u' v' -> writes KIPv4 (u ++ $"/" ++ u') v (Some v')
| w_ipv6 u v : ipv6_of u v -> writes KIPv6 u v None
| w_ipv6m u v u' v' : ipv6_of u v -> ipv6_of u' v' -> writes KIPv6 (u ++ $"/" ++ u') v (Some v')
| w_pkt u v u' v' : literal u v -> literal u' v' -> in_bytes 2 v -> in_bytes 2 v' ->
    writes KPkt (u ++ $":" ++ u') (be 2 v ++ be 2 v') None
| w_hex u v : hex_of u v -> v <> [] -> writes KHex u v None
| w_hexm u v u' v' : hex_of u v -> hex_of u' v' ->
    writes KHex (u ++ $"/" ++ u') (fst (mask_pad v v')) (snd (mask_pad v v'))
| w_ssid v : Forall safe_byte v -> v <> [] -> writes KSsid (map byte_val v) v None
| w_ssidm v u' v' : Forall safe_byte v -> hex_of u' v' ->
    writes KSsid (map byte_val v ++ $"/" ++ u') (fst (mask_pad v v')) (snd (mask_pad v v'))
| w_le n s m u v : literal u v -> writes (KLe n s m) u (le n v) None
| w_rate r : 0 <= r < 256 -> writes KRate (rate_str r) (be 1 r) None
| w_rate_m n : 0 <= n < 128 -> writes KRate (dec n ++ $"M") (be 1 (2 * n)) None
| w_rate_k n : 0 <= n < 128000 -> writes KRate (dec n ++ $"K") (be 1 (n / 500)) None
| w_chan u v u' v' : literal u v -> in_bytes 2 v -> literal u' v' -> in_bytes 2 v' ->
    writes KChan (u ++ $":" ++ u') (be 2 v ++ be 2 v') None
| w_chanm u v u' v' x a y b : literal u v -> in_bytes 2 v -> literal u' v' -> in_bytes 2 v' ->
    opt_literal x a -> in_bytes 2 a -> literal y b -> in_bytes 2 b ->
    writes KChan (u ++ $":" ++ u' ++ $"/" ++ x ++ $":" ++ y) (be 2 v ++ be 2 v') (Some (be 2 a ++ be 2 b))
| w_comp l us v : (2 <= length l)%nat -> comp_of l us v -> writes (KComp l) (sepby (chr ":") us) v None
| w_compm l us v us' v' : (2 <= length l)%nat -> comp_of l us v -> comp_of l us' v' ->
    writes (KComp l) (sepby (chr ":") us ++ $"/" ++ sepby (chr ":") us') v (Some v')
| w_vht u v : vht_of u v -> writes KVht u v None
| w_vhtm u v u' v' : vht_of u v -> vht_of u' v' -> writes KVht (u ++ $"/" ++ u') v (Some v')
| w_s8 u v : literal u v -> -128 <= v < 128 -> writes KS8 u (be 1 v) None.

(** *** Lists: name=body items, separated by commas or blanks, blanks allowed around "=" *)
(** nothing, or white space starting with an ASCII blank *)
Definition gap_eq (s : text) : Prop := s = [] \/ exists c r, s = c :: r /\ sep_char c /\ c <> chr "," /\ Forall blank r.
Definition filler (c : Z) : Prop := blank c \/ c = chr ",".
Definition gap (s : text) : Prop := exists c r, s = c :: r /\ sep_char c /\ Forall filler r.
Inductive item : tlv -> text -> Prop :=
| item_eq f u v m a b : In f registry -> writes (fkind f) u v m -> gap_eq a -> Forall blank b ->
    item (Tlv f v m) (fname f ++ a ++ $"=" ++ b ++ u).
(** what follows the first item *)
Inductive more : list tlv -> text -> Prop :=
| more_nil : more [] []
| more_cons t ts g u r : gap g -> item t u -> more ts r -> more (t :: ts) (g ++ u ++ r).
Inductive written : list tlv -> text -> Prop :=
| written_nil : written [] []
| written_cons t ts h u r : Forall filler h -> item t u -> more ts r -> written (t :: ts) (h ++ u ++ r).

(** ** Field identities: headers without payload *)
(** the mask flag is only kept for fields the code can give a mask *)
Definition flaggable (k : kind) : bool := match k with KPort _ | KPkt | KRate | KS8 => false | _ => true end.
Definition id_wire (hm : bool) (f : field) : bytes :=
  let n := Z.of_nat (match width (fkind f) with Some n => n | None => 255%nat end) in
  if hm && flaggable (fkind f) then hdr f true (2 * n) else hdr f false n.
(** network mask of [n] leading ones in [w] bytes *)
Definition prefix_mask (w : nat) (n : Z) : bytes := be w (256 ^ Z.of_nat w - 2 ^ (8 * Z.of_nat w - n)).

(** nxm_ct_label as the text reader takes it, four bytes wide instead of sixteen *)
Definition ct_label_short : field := Field $"nxm_ct_label" Nxm1 108 (KInt 4 (Hex 0) (Some (Hex 0))).
