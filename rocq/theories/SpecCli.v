(** The control connection: OpenFlow messages (7.1 of the standard) in a byte stream that the
    network cuts into chunks. *)
From Verif Require Import Base Spec SpecOxm SpecOfp SpecMp.
From Coq Require Import Strings.Ascii.

Record ofmsg := OfMsg { m_version : Z; m_type : Z; m_xid : Z; m_body : bytes }.
Definition msg_head (m : ofmsg) : bytes := be 1 (m_version m) ++ be 1 (m_type m) ++ be 2 (Z.of_nat (8 + length (m_body m))) ++ be 4 (m_xid m).
Definition msg_wire (m : ofmsg) : bytes := msg_head m ++ m_body m.
Definition msg_ok (m : ofmsg) : Prop :=
  in_bytes 1 (m_version m) /\ in_bytes 1 (m_type m) /\ in_bytes 4 (m_xid m) /\ Z.of_nat (8 + length (m_body m)) <= 65535.
Definition stream (ms : list ofmsg) : bytes := flat_map msg_wire ms.

(** cuts only between messages and between a header and its body *)
Definition msg_pieces (m : ofmsg) : list bytes := msg_head m :: match m_body m with [] => [] | b => [b] end.
Definition pieces (ms : list ofmsg) : list bytes := flat_map msg_pieces ms.
Definition aligned (ps cs : list bytes) : Prop := exists gs, concat gs = ps /\ cs = map (@concat byte) gs.

(** messages of the protocol *)
Definition is_barrier_reply (m : ofmsg) : Prop := m_type m = 21 /\ m_xid m = 3.
Definition is_error (xid : Z) (m : ofmsg) : Prop := m_type m = 1 /\ m_xid m = xid.
(** a multipart reply of type [mp]; the type is in the first two bytes of the body *)
Definition is_part (mp : Z) (m : ofmsg) : Prop := m_type m = 19 /\ (8 <= length (m_body m))%nat /\ firstn 2 (m_body m) = be 2 mp.
Definition part (xid mp flags : Z) (body : bytes) : ofmsg := OfMsg 4 19 xid (be 2 mp ++ be 2 flags ++ pad 4 ++ body).
(** noise, then a part of the reply *)
Record reply := Reply { p_noise : list ofmsg; p_xid : Z; p_flags : Z; p_body : bytes }.
Definition reply_msgs (mp : Z) (r : reply) : list ofmsg := p_noise r ++ [part (p_xid r) mp (p_flags r) (p_body r)].
Definition reply_ok (mp : Z) (r : reply) : Prop :=
  Forall msg_ok (p_noise r) /\ Forall (fun m => ~ is_part mp m) (p_noise r) /\ in_bytes 4 (p_xid r) /\ in_bytes 2 (p_flags r) /\ Z.of_nat (16 + length (p_body r)) <= 65535.
Definition flow_commands : list (text * Z) :=
  [($"add-flow", 0); ($"mod-flow", 1); ($"mod-flow-strict", 2); ($"del-flow", 3); ($"del-flow-strict", 4)].
Definition group_commands : list (text * Z) := [($"add-group", 0); ($"mod-group", 1); ($"del-group", 2)].
Definition hello : bytes := msg_wire (OfMsg 4 0 1 []).
Definition barrier_request : bytes := msg_wire (OfMsg 4 20 3 []).
Definition words (l : list text) : text := sepby 32 l.
Definition carries (r : reply) (l : list fstat) : Prop := p_body r = fstats_wire l /\ Forall (fun e => fstat_ok e /\ fstat_printable e) l.
Definition describes (r : reply) (l : list gdesc) : Prop := p_body r = gdescs_wire l /\ Forall (fun e => gdesc_ok e /\ gdesc_printable e) l.

(** ** The address of the switch *)
(** a.b.c.d *)
Definition dotted (a b c d : Z) : text := sepby (chr ".") (map dec [a; b; c; d]).
Definition newline : Z := 10.
(** four digit strings with any character but a line feed between them *)
Definition quad (h : text) : Prop := exists d1 x d2 y d3 z d4,
  Forall (numeral 10) [d1; d2; d3; d4] /\ ~ In newline [x; y; z] /\ h = d1 ++ x :: d2 ++ y :: d3 ++ z :: d4.
(** tcp:HOST:DIGITS and whatever follows *)
Definition tcp_text (s h ds r : text) : Prop := s = $"tcp:" ++ h ++ $":" ++ ds ++ r /\ quad h /\ numeral 10 ds /\ stops 10 r.
Definition unix_text (s p r : text) : Prop := s = $"unix:" ++ p ++ r /\ ~ In newline p /\ (r = [] \/ exists r', r = newline :: r').
