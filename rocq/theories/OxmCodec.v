(** Model of /repo/ofpstr/oxm.py:1-907: field numbering, TLV header and the
    per-type codecs ( *_bin2str / *_str2bin ).  Closures are defunctionalised:
    [b2s] / [s2b] name a codec together with its captured arguments. *)
From Verif Require Import Base PyNum Util PyLib.
From Coq Require Import Strings.Ascii.
Import ListNotations.

(** ** Field keys
    oxm.py:74-76,100-102,218-220: nxm_of, nxm_nx and stratos are int subclasses
    that only override __hash__; as dictionary keys they are told apart by hash.
    The model keys the dictionaries by (class, number); that no two of the keys
    in use have equal hash was checked on CPython 3.11 (DESIGN.md). *)
Inductive cls := COfb | CNxm0 | CNxm1 | CStratos.
Definition key : Type := cls * Z.
Definition cls_eqb (a b : cls) : bool :=
  match a, b with
  | COfb, COfb | CNxm0, CNxm0 | CNxm1, CNxm1 | CStratos, CStratos => true
  | _, _ => false
  end.
Definition key_eqb (a b : key) : bool := cls_eqb (fst a) (fst b) && (snd a =? snd b).

(** split a literal at blanks: Python's [''' ... '''.split()] *)
Fixpoint words_go (cur : string) (s : string) : list string :=
  match s with
  | EmptyString => match cur with EmptyString => [] | _ => [cur] end
  | String " " s' => match cur with EmptyString => words_go EmptyString s'
                              | _ => cur :: words_go EmptyString s' end
  | String c s' => words_go (cur ++ String c EmptyString)%string s'
  end.
Definition names_of (s : string) : list string := words_go EmptyString s.

(** oxm.py:25-69 *)
Definition ofb_names := names_of
  "in_port in_phy_port metadata eth_dst eth_src eth_type vlan_vid vlan_pcp ip_dscp ip_ecn ip_proto ipv4_src ipv4_dst tcp_src tcp_dst udp_src udp_dst sctp_src sctp_dst icmpv4_type icmpv4_code arp_op arp_spa arp_tpa arp_sha arp_tha ipv6_src ipv6_dst ipv6_flabel icmpv6_type icmpv6_code ipv6_nd_target ipv6_nd_sll ipv6_nd_tll mpls_label mpls_tc mpls_bos pbb_isid tunnel_id ipv6_exthdr _ pbb_uca tcp_flags actset_output packet_type".
(** oxm.py:78-95 *)
Definition nxm0_names := names_of
  "in_port eth_dst eth_src eth_type vlan_tci ip_tos ip_proto ip_src ip_dst tcp_src tcp_dst udp_src udp_dst icmp_type icmp_code arp_op arp_spa arp_tpa".
(** oxm.py:104-207 (tun_metadata0..63 are handled by position 40+i in OxmTables.v) *)
Definition nxm1_names_lo := names_of
  "reg0 reg1 reg2 reg3 reg4 reg5 reg6 reg7 _ _ _ _ _ _ _ _ tun_id arp_sha arp_tha ipv6_src ipv6_dst icmpv6_type icmpv6_code nd_target nd_sll nd_tll ip_frag ipv6_label ip_ecn ip_ttl _ tun_ipv4_src tun_ipv4_dst pkt_mark tcp_flags dp_hash recirc_id conj_id tun_gbp_id tun_gbp_flags".
Definition nxm1_names_hi := names_of
  "tun_flags ct_state ct_zone ct_mark ct_label tun_ipv6_src tun_ipv6_dst".
Definition nxm1_names : list string :=
  nxm1_names_lo ++ repeat "tun_metadata*"%string 64 ++ nxm1_names_hi.
(** oxm.py:222-256 *)
Definition stratos_names := names_of
  "_ _ dot11 dot11_frame_ctrl dot11_addr1 dot11_addr2 dot11_addr3 dot11_addr4 dot11_ssid dot11_action_category dot11_public_action dot11_tag dot11_tag_vendor _ _ _ tsft flags rate channel fhss dbm_antsignal dbm_antnoise lock_quality tx_attenuation db_tx_attenuation dbm_tx_power antenna db_antsignal db_antnoise rx_flags tx_flags rts_retries data_retries _ mcs ampdu_status vht".

Fixpoint pos_of (n : string) (l : list string) : Z :=
  match l with
  | [] => 0
  | x :: l' => if String.eqb n x then 0 else 1 + pos_of n l'
  end.
(** OXM_OF_*, NXM_OF_*, NXM_NX_*, STROXM_BASIC_*/STROXM_RADIOTAP_* constants *)
Definition OFB (n : string) : key := (COfb, pos_of n ofb_names).
Definition NX0 (n : string) : key := (CNxm0, pos_of n nxm0_names).
Definition NX1 (n : string) : key := (CNxm1, pos_of n nxm1_names).
Definition STR (n : string) : key := (CStratos, pos_of n stratos_names).

(** the two import-time assertions, oxm.py:211 and oxm.py:264 *)
Example assert_211 : NX1 "tun_ipv6_dst" = (CNxm1, 110). Proof. reflexivity. Qed.
Example assert_264 : STR "vht" = (CStratos, 37). Proof. reflexivity. Qed.

Notation OFPXMC_NXM_0 := 0x0000 (only parsing).
Notation OFPXMC_NXM_1 := 0x0001 (only parsing).
Notation OFPXMC_OPENFLOW_BASIC := 0x8000 (only parsing).
Notation OFPXMC_EXPERIMENTER := 0xffff (only parsing).
Notation STRATOS_EXPERIMENTER_ID := 0xff00e04d (only parsing).

(** header, oxm.py:271-290 *)
Definition header (field : key) (value_length : nat) (mask : bool) : res bytes :=
  let '(c, f) := field in
  let field_HM := Z.shiftl f 1 + (if mask then 1 else 0) in
  let length := (if mask then 2 * Z.of_nat value_length else Z.of_nat value_length)
                + (match c with CStratos => 4 | _ => 0 end) in
  let length := if 0xff <? length then 0xff else length in
  match c with
  | CStratos => pack [sH; sB; sB; sI] [OFPXMC_EXPERIMENTER; field_HM; length; STRATOS_EXPERIMENTER_ID]
  | CNxm0 => pack [sH; sB; sB] [OFPXMC_NXM_0; field_HM; length]
  | CNxm1 => pack [sH; sB; sB] [OFPXMC_NXM_1; field_HM; length]
  | COfb => pack [sH; sB; sB] [OFPXMC_OPENFLOW_BASIC; field_HM; length]
  end.

(** Argument of a *_str2bin closure: the payload text (str2oxm), or the bool
    has_mask (str2oxmid), for which [isinstance(unparsed, strtypes)] is false. *)
Inductive arg := AText (t : text) | ABool (b : bool).

Definition hdr_cat (field : key) (n : nat) (mask : bool) (payload : bytes) (rlen : nat)
  : res (bytes * nat) :=
  h <- header field n mask ;; Ok (h ++ payload, rlen).

(** ** Big-endian integers: uint_bin2str oxm.py:293-317, uint_str2bin oxm.py:320-339 *)
Definition fmt_name (fmt : text) : text := fst (split1 61 fmt).      (* fmt.split("=")[0] *)
Definition fmt_nomask (fmt : text) : text := fst (split1 47 fmt).    (* fmt.split("/", 2)[0] *)

Definition uint_bin2str (fmt : text) (payload : bytes) (has_mask : bool) : res text :=
  if has_mask then
    let sp := (length payload / 2)%nat in
    py_format fmt [be_val (firstn sp payload); be_val (skipn sp payload)]
  else py_format (fmt_nomask fmt) [be_val payload].

Definition uint_str2bin (field : key) (size : nat) (a : arg) : res (bytes * nat) :=
  match a with
  | AText u =>
      '(num, rlen) <- parseInt u ;;
      let payload := be_bytes size num in
      if startswith $"/" (skipn rlen u) then
        '(num2, e) <- parseInt (skipn (rlen + 1) u) ;;
        hdr_cat field size true (payload ++ be_bytes size num2) (rlen + (1 + e))
      else hdr_cat field size false payload rlen
  | ABool b => hdr_cat field size b [] 0
  end.

(** ** Ports: port_bin2str oxm.py:342-357, port_str2bin oxm.py:360-379 *)
Definition wmask (size : nat) : Z := 2 ^ (8 * Z.of_nat size) - 1.

Fixpoint port_name (size : nat) (l : list (Z * text)) (num : Z) : option text :=
  match l with
  | [] => None
  | (p, nm) :: l' => if Z.land p (wmask size) =? num then Some nm else port_name size l' num
  end.
Definition port_bin2str (name : text) (size : nat) (payload : bytes) (has_mask : bool) : res text :=
  assert! (negb has_mask) ;;
  assert! (Nat.eqb (length payload) size) ;;
  let num := be_val payload in
  Ok (name ++ $"=" ++ match port_name size ofpp num with Some nm => nm | None => fmt_d num end).

(** the double loop oxm.py:367-372: a later match in ofpp overrides an earlier one *)
Definition port_scan (u : text) : option (Z * nat) :=
  fold_left (fun r (pn : Z * text) =>
               let '(v, nm) := pn in
               if startswith (lower nm) u || startswith (upper nm) u
               then Some (v, length nm) else r) ofpp None.
Definition port_str2bin (field : key) (size : nat) (a : arg) : res (bytes * nat) :=
  match a with
  | AText u =>
      '(num, rlen) <- match port_scan u with
                      | Some (v, l) => Ok (Z.land v (wmask size), l)
                      | None => parseInt u
                      end ;;
      payload <- pack [FU size] [num] ;;
      hdr_cat field size false payload rlen
  | ABool _ => hdr_cat field size false [] 0
  end.

(** ** MAC addresses: mac_bin2str oxm.py:382-395, mac_str2bin oxm.py:398-428 *)
Definition mac_text (l : bytes) : text := join [58] (map (fun b => fmt_02x (b2z b)) l).
(** struct.unpack("!6B", x) requires exactly six bytes *)
Definition mac_text6 (l : bytes) : res text :=
  if Nat.eqb (length l) 6 then Ok (mac_text l) else Raise StructError.
Definition mac_bin2str (name : text) (payload : bytes) (has_mask : bool) : res text :=
  value <- mac_text6 (firstn 6 payload) ;;
  if has_mask then
    assert! (Nat.eqb (length payload) 12) ;;
    mask <- mac_text6 (skipn 6 payload) ;;
    Ok (name ++ $"=" ++ value ++ $"/" ++ mask)
  else
    assert! (Nat.eqb (length payload) 6) ;;
    Ok (name ++ $"=" ++ value).

(** a regular expression of mac_str2bin.scan as a list of one-character tests;
    the flag tells whether the character is inside a group *)
Definition rx := list (bool * (Z -> bool)).
Fixpoint rx_match (r : rx) (s : text) : option text :=
  match r, s with
  | [], _ => Some []
  | _ :: _, [] => None
  | (cap, f) :: r', c :: s' =>
      if f c then option_map (fun m => if cap : bool then c :: m else m) (rx_match r' s') else None
  end.
Definition rx_hex (n : nat) : rx := repeat (true, is_hex) n.
Definition rx_any : rx := [(false, fun c => negb (c =? 10))].        (* an unescaped "." *)
Definition rx_chr (k : Z) : rx := [(false, Z.eqb k)].
Fixpoint rx_join (sep : rx) (g : rx) (n : nat) : rx :=
  match n with
  | O => []
  | S O => g
  | S n' => g ++ sep ++ rx_join sep g n'
  end.
(** oxm.py:400-403.  ".".join(...) leaves the dots unescaped: they match any
    character but a newline. *)
Definition mac_rxs : list (rx * nat) :=
  [ (rx_hex 12, 12%nat);
    (rx_join rx_any (rx_hex 4) 3, 14%nat);
    (rx_join (rx_chr 58) (rx_hex 2) 6, 17%nat);
    (rx_join (rx_chr 45) (rx_hex 2) 6, 17%nat) ].
Fixpoint mac_scan_go (l : list (rx * nat)) (u : text) : res (text * nat) :=
  match l with
  | [] => Raise ValueError
  | (r, n) :: l' => match rx_match r u with Some m => Ok (m, n) | None => mac_scan_go l' u end
  end.
Definition mac_scan (u : text) : res (text * nat) := mac_scan_go mac_rxs u.

Definition mac_str2bin (field : key) (a : arg) : res (bytes * nat) :=
  match a with
  | AText u =>
      '(value, rlen) <- mac_scan u ;;
      if startswith $"/" (skipn rlen u) then
        '(mask, l) <- mac_scan (skipn (rlen + 1) u) ;;
        payload <- a2b_hex (value ++ mask) ;;
        hdr_cat field 6 true payload (rlen + (1 + l))
      else
        payload <- a2b_hex value ;;
        hdr_cat field 6 false payload rlen
  | ABool b => hdr_cat field 6 b [] 0
  end.

(** ** IPv4: ipv4_bin2str oxm.py:431-444, ipv4_str2bin oxm.py:447-471 *)
Definition ipv4_bin2str (name : text) (payload : bytes) (has_mask : bool) : res text :=
  value <- inet_ntoa (firstn 4 payload) ;;
  if has_mask then
    assert! (Nat.eqb (length payload) 8) ;;
    mask <- inet_ntoa (skipn 4 payload) ;;
    Ok (name ++ $"=" ++ value ++ $"/" ++ mask)
  else
    assert! (Nat.eqb (length payload) 4) ;;
    Ok (name ++ $"=" ++ value).

(** Python's [x << n]: a negative shift count raises ValueError *)
Definition py_shl (x n : Z) : res Z := if n <? 0 then Raise ValueError else Ok (Z.shiftl x n).

(** the mask part, oxm.py:458-462: only a ValueError of inet_aton falls back to
    the prefix length (inet_aton reports a malformed address as OSError) *)
Definition ipv4_mask (m : text) : res bytes :=
  match inet_aton m with
  | Raise ValueError =>
      mask_len <- py_int m ;;
      v <- py_shl 0xFFFFFFFF (32 - mask_len) ;;
      pack [sI] [v]
  | r => r
  end.
Definition ipv4_str2bin (field : key) (a : arg) : res (bytes * nat) :=
  match a with
  | AText u =>
      let '(h, txt, _) := get_token u in
      let '(v, m) := split1 47 txt in
      payload <- inet_aton v ;;
      match m with
      | Some mt =>
          mask <- ipv4_mask mt ;;
          hdr_cat field 4 true (payload ++ mask) (length h + length txt)
      | None => hdr_cat field 4 false payload (length h + length txt)
      end
  | ABool b => hdr_cat field 4 b [] 0
  end.

(** ** IPv6: ipv6_bin2str oxm.py:474-487, ipv6_str2bin oxm.py:490-515 *)
Definition ipv6_bin2str (name : text) (payload : bytes) (has_mask : bool) : res text :=
  value <- inet_ntop6 (firstn 16 payload) ;;
  if has_mask then
    assert! (Nat.eqb (length payload) 32) ;;
    mask <- inet_ntop6 (skipn 16 payload) ;;
    Ok (name ++ $"=" ++ value ++ $"/" ++ mask)
  else
    assert! (Nat.eqb (length payload) 16) ;;
    Ok (name ++ $"=" ++ value).

(** oxm.py:502-507: any exception of inet_pton falls back to the prefix length *)
Definition ipv6_mask (m : text) : res bytes :=
  match inet_pton6 m with
  | Ok b => Ok b
  | _ =>
      mask_len <- py_int m ;;
      v <- py_shl 0xFFFFFFFFFFFFFFFFFFFFFFFFFFFFFFFF (128 - mask_len) ;;
      pack [sQ; sQ] [Z.shiftr v 64; Z.land v 0xFFFFFFFFFFFFFFFF]
  end.
Definition ipv6_str2bin (field : key) (a : arg) : res (bytes * nat) :=
  match a with
  | AText u =>
      let '(h, txt, _) := get_token u in
      let '(v, m) := split1 47 txt in
      payload <- inet_pton6 v ;;
      match m with
      | Some mt =>
          mask <- ipv6_mask mt ;;
          hdr_cat field 16 true (payload ++ mask) (length h + length txt)
      | None => hdr_cat field 16 false payload (length h + length txt)
      end
  | ABool b => hdr_cat field 16 b [] 0
  end.

(** ** packet_type: pkt_bin2str oxm.py:518-524, pkt_str2bin oxm.py:527-538 *)
Definition pkt_bin2str (payload : bytes) (has_mask : bool) : res text :=
  assert! (negb has_mask) ;;
  assert! (Nat.eqb (length payload) 4) ;;
  Ok ($"packet_type=" ++ fmt_x 0 (be_val (firstn 2 payload)) ++ $":"
        ++ fmt_x 0 (be_val (skipn 2 payload))).
Definition pkt_str2bin (a : arg) : res (bytes * nat) :=
  match a with
  | AText u =>
      '(ns, l) <- parseInt u ;;
      c <- py_nth u l ;;
      assert! (c =? 58) ;;
      '(ns_type, l2) <- parseInt (skipn (l + 1) u) ;;
      payload <- pack [sH; sH] [ns; ns_type] ;;
      hdr_cat (OFB "packet_type") 4 false payload (l + l2 + 1)
  | ABool _ => hdr_cat (OFB "packet_type") 4 false [] 0
  end.

(** ** Hex strings: hex_bin2str oxm.py:541-555, hex_str2bin oxm.py:558-584 *)
Definition hex_bin2str (name : text) (payload : bytes) (has_mask : bool) : res text :=
  if has_mask then
    let sp := (length payload / 2)%nat in
    Ok (name ++ $"=" ++ b2a_hex (firstn sp payload) ++ $"/" ++ b2a_hex (skipn sp payload))
  else Ok (name ++ $"=" ++ b2a_hex payload).

(** oxm.py:573-578 and 619-624: pad value or mask with zeros to a common length *)
Definition pad_mask (payload mask : bytes) : nat * bytes :=
  if (length payload <? length mask)%nat
  then (length mask, payload ++ zeros (length mask - length payload) ++ mask)
  else (length payload, payload ++ mask ++ zeros (length payload - length mask)).

Definition hex_str2bin (field : key) (a : arg) : res (bytes * nat) :=
  match a with
  | AText u =>
      let '(h, txt, _) := get_token u in
      let rlen := (length h + length txt)%nat in
      let '(v, m) := split1 47 txt in
      payload <- a2b_hex v ;;
      match m with
      | Some mt =>
          mask <- a2b_hex mt ;;
          let '(len, payload) := pad_mask payload mask in
          hdr_cat field len true payload rlen
      | None => hdr_cat field (length payload) false payload rlen
      end
  | ABool b => hdr_cat field 255 b [] 0
  end.

(** ** SSID: ssid_bin2str oxm.py:587-602, ssid_str2bin oxm.py:605-628 *)
(** oxm.py:593-595 [while name[-1] == 0: name = name[:-1]], on the reversed string;
    an all-zero (or empty) name runs into name[-1] of an empty bytearray *)
Fixpoint strip0_rev (l : bytes) : res bytes :=
  match l with
  | [] => Raise IndexError
  | b :: l' => if b2z b =? 0 then strip0_rev l' else Ok l
  end.
Definition ssid_bin2str (payload : bytes) (has_mask : bool) : res text :=
  if has_mask then
    let sp := (length payload / 2)%nat in
    name <- strip0_rev (rev (firstn sp payload)) ;;
    Ok ($"dot11_ssid=" ++ b2a_qp (rev name) ++ $"/" ++ b2a_hex (skipn sp payload))
  else Ok ($"dot11_ssid=" ++ b2a_qp payload).

Definition ssid_str2bin (a : arg) : res (bytes * nat) :=
  match a with
  | AText u =>
      let '(h, txt, _) := get_token u in
      let rlen := (length h + length txt)%nat in
      let vm := split_all 47 txt in
      v <- py_nth vm 0 ;;
      payload <- a2b_qp v ;;
      match nth_error vm 1 with
      | Some mt =>
          mask <- a2b_hex mt ;;
          let '(len, payload) := pad_mask payload mask in
          hdr_cat (STR "dot11_ssid") len true payload rlen
      | None => hdr_cat (STR "dot11_ssid") (length payload) false payload rlen
      end
  | ABool b => hdr_cat (STR "dot11_ssid") 255 b [] 0
  end.

(** ** Little-endian integers: le_bin2str oxm.py:631-655, le_str2bin oxm.py:658-678 *)
Definition le_bin2str (fmt : text) (payload : bytes) (has_mask : bool) : res text :=
  if has_mask then
    let sp := (length payload / 2)%nat in
    py_format fmt [le_val (firstn sp payload); le_val (skipn sp payload)]
  else py_format (fmt_nomask fmt) [le_val payload].

(** With a mask, oxm.py:671-672 adds [chr(...)] to bytes: TypeError on Python 3
    (every registered size is at least 1, so the loop body runs). *)
Definition le_str2bin (field : key) (size : nat) (a : arg) : res (bytes * nat) :=
  match a with
  | AText u =>
      '(num, rlen) <- parseInt u ;;
      let payload := le_bytes size num in
      if startswith $"/" (skipn rlen u) then
        '(num2, e) <- parseInt (skipn (rlen + 1) u) ;;
        match size with
        | O => hdr_cat field size true payload (rlen + (1 + e))
        | S _ => Raise TypeError
        end
      else hdr_cat field size false payload rlen
  | ABool b => hdr_cat field size b [] 0
  end.

(** ** radiotap_rate: rate_bin2str oxm.py:681-690, rate_str2bin oxm.py:693-710 *)
(** "{:.1f}" of rate*500.0 (rate < 2) or rate/2.0 (rate < 256): both are exact in
    binary64, so the text is written with integer arithmetic. *)
Definition rate_bin2str (payload : bytes) (has_mask : bool) : res text :=
  assert! (negb has_mask) ;;
  vs <- unpack_from [sB] payload 0 ;;
  match vs with
  | [rate] =>
      if rate <? 2 then Ok ($"radiotap_rate=" ++ fmt_d (rate * 500) ++ $".0K")
      else Ok ($"radiotap_rate=" ++ fmt_d (rate / 2)
                 ++ (if Z.odd rate then $".5M" else $".0M"))
  | _ => Raise StructError
  end.

(** [num / 500] (true division) then [int()].  For an int operand the model uses
    exact floor division: the correctly rounded quotient has the same integer part
    below 2^53, and above it both are out of range for "!B" anyway; a quotient that
    rounds to more than the largest float raises OverflowError. *)
Definition float_limit : Z := 2 ^ 1024 - 2 ^ 970.
Definition int_500 (z : Z) : res Z := if 500 * float_limit <=? z then Raise OverflowError else Ok (z / 500).
Definition rate_k (n : pynum) : res Z :=
  match n with
  | PInt z => int_500 z
  | PFlt f => d <- f_of_Z 500 ;; f_trunc (f_div f d)
  end.
Definition rate_m (n : pynum) : res Z :=
  match n with
  | PInt z => Ok (z * 2)
  | PFlt f => d <- f_of_Z 2 ;; f_trunc (f_mul f d)
  end.
Definition rate_str2bin (a : arg) : res (bytes * nat) :=
  match a with
  | AText u =>
      '(num, rlen) <- parseFloat u ;;
      c <- py_nth u rlen ;;
      rate <- (if c =? 75 then rate_k num
               else if c =? 77 then rate_m num
               else Raise ValueError) ;;
      payload <- pack [sB] [rate] ;;
      hdr_cat (STR "rate") 1 false payload (rlen + 1)
  | ABool _ => hdr_cat (STR "rate") 1 false [] 0
  end.

(** ** radiotap_channel: ch_bin2str oxm.py:713-728, ch_str2bin oxm.py:731-761 *)
Definition ch_bin2str (payload : bytes) (has_mask : bool) : res text :=
  if has_mask then
    assert! (Nat.eqb (length payload) 8) ;;
    vs <- unpack [sH; sH; sH; sH] payload ;;
    match vs with
    | [v0; v1; v2; v3] =>
        if v2 =? 0 then
          Ok ($"radiotap_channel=" ++ fmt_d v0 ++ $":" ++ fmt_x 6 v1 ++ $"/:" ++ fmt_x 6 v3)
        else
          Ok ($"radiotap_channel=" ++ fmt_d v0 ++ $":" ++ fmt_x 6 v1 ++ $"/" ++ fmt_x 6 v2
                ++ $":" ++ fmt_x 6 v3)
    | _ => Raise StructError
    end
  else
    assert! (Nat.eqb (length payload) 4) ;;
    vs <- unpack [sH; sH] payload ;;
    match vs with
    | [v0; v1] => Ok ($"radiotap_channel=" ++ fmt_d v0 ++ $":" ++ fmt_x 6 v1)
    | _ => Raise StructError
    end.

Definition ch_str2bin (a : arg) : res (bytes * nat) :=
  match a with
  | AText u =>
      '(v1, l) <- parseInt u ;;
      c <- py_nth u l ;;
      assert! (c =? 58) ;;
      '(v2, l2) <- parseInt (skipn (l + 1) u) ;;
      payload <- pack [sH; sH] [v1; v2] ;;
      let rlen := (l + 1 + l2)%nat in
      if startswith $"/" (skipn rlen u) then
        '(m1, l3) <- (if startswith $":" (skipn (rlen + 1) u) then Ok (0, 0%nat)
                      else parseInt (skipn (rlen + 1) u)) ;;
        '(m2, rlen2) <- (if startswith $":" (skipn (rlen + 1 + l3) u) then
                           '(m2, l4) <- parseInt (skipn (rlen + 1 + l3 + 1) u) ;;
                           Ok (m2, (rlen + (1 + l3 + 1 + l4))%nat)
                         else Ok (0, (rlen + (1 + l3))%nat)) ;;
        mb <- pack [sH; sH] [m1; m2] ;;
        hdr_cat (STR "channel") 4 true (payload ++ mb) rlen2
      else hdr_cat (STR "channel") 4 false payload rlen
  | ABool b => hdr_cat (STR "channel") 4 b [] 0
  end.

(** ** Component fields: comp_bin2str oxm.py:764-785, comp_str2bin oxm.py:788-818 *)
Fixpoint comp_items (ns : list Z) (fmts : list text) : res (list text) :=
  match ns, fmts with
  | n :: ns', f :: fmts' =>
      t <- (if n =? 0 then Ok [] else py_format f [n]) ;;
      r <- comp_items ns' fmts' ;; Ok (t :: r)
  | _, _ => Ok []
  end.
Definition comp_collect (packs : list fitem) (fmts : list text) (data : bytes) : res text :=
  ns <- unpack_from packs data 0 ;;
  ts <- comp_items ns fmts ;;
  Ok (join [58] ts).
Definition comp_bin2str (name : text) (packs : list fitem) (fmts : list text)
    (payload : bytes) (has_mask : bool) : res text :=
  v <- comp_collect packs fmts payload ;;
  if has_mask then
    m <- comp_collect packs fmts (skipn (calcsize packs) payload) ;;
    Ok (name ++ $"=" ++ v ++ $"/" ++ m)
  else Ok (name ++ $"=" ++ v).

Definition comp_item (t : text) : res Z :=
  match t with
  | [] => Ok 0
  | _ => '(v, l) <- parseInt t ;; assert! (Nat.eqb (length t) l) ;; Ok v
  end.
Definition comp_parse (packs : list fitem) (t : text) : res bytes :=
  ps <- mapM comp_item (split_all 58 t) ;; pack packs ps.
Definition comp_str2bin (field : key) (packs : list fitem) (a : arg) : res (bytes * nat) :=
  match a with
  | AText u =>
      let '(h, txt, _) := get_token u in
      let rlen := (length h + length txt)%nat in
      let '(v, m) := split1 47 txt in
      payload <- comp_parse packs v ;;
      match m with
      | Some mt =>
          mb <- comp_parse packs mt ;;
          hdr_cat field (calcsize packs) true (payload ++ mb) rlen
      | None => hdr_cat field (calcsize packs) false payload rlen
      end
  | ABool b => hdr_cat field (calcsize packs) b [] 0
  end.

(** ** radiotap_vht: vht_bin2str oxm.py:821-851, vht_str2bin oxm.py:854-883 *)
Definition vht_packs : list fitem := [lH; lB; lB; lB; lB; lB; lB; lB; lB; lH].   (* "<HBB4BBBH" *)
Definition vht_collect (data : bytes) : res text :=
  ns <- unpack_from vht_packs data 0 ;;
  match ns with
  | [n0; n1; n2; n3; n4; n5; n6; n7; n8; n9] =>
      Ok ((if 0 <? n0 then fmt_x 6 n0 else []) ++ $":"
            ++ (if 0 <? n1 then fmt_x 4 n1 else []) ++ $":" ++ fmt_d n2 ++ $":"
            ++ (if negb (n3 + n4 + n5 + n6 =? 0)
                then fmt_02x n3 ++ fmt_02x n4 ++ fmt_02x n5 ++ fmt_02x n6 else [])
            ++ $":" ++ (if 0 <? n7 then fmt_x 4 n7 else [])
            ++ $":" ++ fmt_d n8 ++ $":" ++ fmt_x 6 n9)
  | _ => Raise StructError
  end.
Definition vht_bin2str (payload : bytes) (has_mask : bool) : res text :=
  v <- vht_collect payload ;;
  if has_mask then
    m <- vht_collect (skipn (calcsize vht_packs) payload) ;;
    Ok ($"radiotap_vht=" ++ v ++ $"/" ++ m)
  else Ok ($"radiotap_vht=" ++ v).

(** item number 3 is a hex string spliced into the argument list *)
Fixpoint vht_items (i : nat) (ts : list text) : res (list Z) :=
  match ts with
  | [] => Ok []
  | t :: ts' =>
      p <- (if Nat.eqb i 3 then b <- a2b_hex t ;; Ok (map b2z b)
            else match t with
                 | [] => Ok [0]
                 | _ => '(v, _) <- parseInt t ;; Ok [v]
                 end) ;;
      r <- vht_items (S i) ts' ;; Ok (p ++ r)
  end.
Definition vht_parse (t : text) : res bytes :=
  ps <- vht_items 0 (split_all 58 t) ;; pack vht_packs ps.
Definition vht_str2bin (a : arg) : res (bytes * nat) :=
  match a with
  | AText u =>
      let '(h, txt, _) := get_token u in
      let rlen := (length h + length txt)%nat in
      let '(v, m) := split1 47 txt in
      payload <- vht_parse v ;;
      match m with
      | Some mt =>
          mb <- vht_parse mt ;;
          hdr_cat (STR "vht") (calcsize vht_packs) true (payload ++ mb) rlen
      | None => hdr_cat (STR "vht") (calcsize vht_packs) false payload rlen
      end
  | ABool b => hdr_cat (STR "vht") (calcsize vht_packs) b [] 0
  end.

(** ** Signed bytes: s8_bin2str oxm.py:886-894, s8_str2bin oxm.py:897-907 *)
Definition s8_bin2str (name : text) (payload : bytes) (has_mask : bool) : res text :=
  assert! (negb has_mask) ;;
  vs <- unpack [FS8] payload ;;
  match vs with
  | [v] => Ok (name ++ $"=" ++ fmt_d v)
  | _ => Raise StructError
  end.
Definition s8_str2bin (field : key) (a : arg) : res (bytes * nat) :=
  match a with
  | AText u =>
      '(num, rlen) <- parseInt u ;;
      payload <- pack [FS8] [num] ;;
      hdr_cat field 1 false payload rlen
  | ABool _ => hdr_cat field 1 false [] 0
  end.

(** ** Codec values stored in the dictionaries *)
Inductive b2s :=
| Buint (fmt : text) | Bport (name : text) (size : nat) | Bmac (name : text)
| Bipv4 (name : text) | Bipv6 (name : text) | Bpkt | Bhex (name : text) | Bssid
| Ble (fmt : text) | Brate | Bch | Bcomp (name : text) (packs : list fitem) (fmts : list text)
| Bvht | Bs8 (name : text).
Inductive s2b :=
| Suint (k : key) (size : nat) | Sport (k : key) (size : nat) | Smac (k : key)
| Sipv4 (k : key) | Sipv6 (k : key) | Spkt | Shex (k : key) | Sssid
| Sle (k : key) (size : nat) | Srate | Sch | Scomp (k : key) (packs : list fitem)
| Svht | Ss8 (k : key).

(** calling a bin2str closure with a payload *)
Definition run_b2s (c : b2s) (payload : bytes) (has_mask : bool) : res text :=
  match c with
  | Buint fmt => uint_bin2str fmt payload has_mask
  | Bport n sz => port_bin2str n sz payload has_mask
  | Bmac n => mac_bin2str n payload has_mask
  | Bipv4 n => ipv4_bin2str n payload has_mask
  | Bipv6 n => ipv6_bin2str n payload has_mask
  | Bpkt => pkt_bin2str payload has_mask
  | Bhex n => hex_bin2str n payload has_mask
  | Bssid => ssid_bin2str payload has_mask
  | Ble fmt => le_bin2str fmt payload has_mask
  | Brate => rate_bin2str payload has_mask
  | Bch => ch_bin2str payload has_mask
  | Bcomp n p f => comp_bin2str n p f payload has_mask
  | Bvht => vht_bin2str payload has_mask
  | Bs8 n => s8_bin2str n payload has_mask
  end.
(** calling it with payload None (oxmid2str): the field name *)
Definition b2s_name (c : b2s) : text :=
  match c with
  | Buint fmt | Ble fmt => fmt_name fmt
  | Bport n _ | Bmac n | Bipv4 n | Bipv6 n | Bhex n | Bcomp n _ _ | Bs8 n => n
  | Bpkt => $"packet_type"
  | Bssid => $"dot11_ssid"
  | Brate => $"radiotap_rate"
  | Bch => $"radiotap_channel"
  | Bvht => $"radiotap_vht"
  end.
Definition run_s2b (c : s2b) (a : arg) : res (bytes * nat) :=
  match c with
  | Suint k sz => uint_str2bin k sz a
  | Sport k sz => port_str2bin k sz a
  | Smac k => mac_str2bin k a
  | Sipv4 k => ipv4_str2bin k a
  | Sipv6 k => ipv6_str2bin k a
  | Spkt => pkt_str2bin a
  | Shex k => hex_str2bin k a
  | Sssid => ssid_str2bin a
  | Sle k sz => le_str2bin k sz a
  | Srate => rate_str2bin a
  | Sch => ch_str2bin a
  | Scomp k p => comp_str2bin k p a
  | Svht => vht_str2bin a
  | Ss8 k => s8_str2bin k a
  end.
