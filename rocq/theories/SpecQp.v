(** SpecQp: quoted-printable (RFC 2045) as binascii writes it, so that the text of every byte
    string is fixed.  Bytes are given as numbers. *)
From Verif Require Import Base Spec SpecOxm SpecText SpecShow.
From Coq Require Import Strings.Ascii.

Inductive line_end : list Z -> list Z -> Prop :=
| le_lf r : line_end (10 :: r) r
| le_crlf r : line_end (13 :: 10 :: r) r.
Definition blank_byte (c : Z) : Prop := c = 32 \/ c = 9.
(** "=" and two upper-case digits *)
Definition escaped (c : Z) : text := [chr "="; nth (Z.to_nat (c / 16)) $"0123456789ABCDEF" 0; nth (Z.to_nat (c mod 16)) $"0123456789ABCDEF" 0].
(** must [c], in column [col] and followed by [r], be escaped?  A blank at the very end; a dot
    alone in its line, or before NUL *)
Definition hidden (col : nat) (c : Z) (r : list Z) : Prop :=
  126 < c \/ c = chr "=" \/ c < 32 /\ c <> 9 /\ c <> 10 /\ c <> 13
  \/ blank_byte c /\ r = []
  \/ c = chr "." /\ col = 0%nat /\ (r = [] \/ exists d r', r = d :: r' /\ (d = 10 \/ d = 13 \/ d = 0)).
(** [w] characters are written from column [col] on if the line then has less than 76, or if
    they may stay; otherwise behind a soft line break *)
Inductive placed (nl : text) (w col : nat) (stay : Prop) : text -> nat -> Prop :=
| placed_here : (col + w < 76)%nat \/ stay -> placed nl w col stay [] (col + w)
| placed_next : (76 <= col + w)%nat -> ~ stay -> placed nl w col stay (chr "=" :: nl) w.
Definition line_done (r : list Z) : Prop := r = [] \/ exists r', r = 10 :: r'.
(** the text of [b] from column [col] on; a blank before a line end is escaped, but takes the
    place of one character *)
Inductive qp_from (nl : text) : nat -> list Z -> text -> Prop :=
| qf_end col : qp_from nl col [] []
| qf_line col b r t : line_end b r -> qp_from nl 0 r t -> qp_from nl col b (nl ++ t)
| qf_blank col c b r soft col' t : blank_byte c -> line_end b r -> placed nl 1 col (line_done b) soft col' -> qp_from nl 0 r t ->
    qp_from nl col (c :: b) (soft ++ escaped c ++ nl ++ t)
| qf_hidden col c r soft col' t : hidden col c r -> placed nl 3 col False soft col' -> qp_from nl col' r t -> qp_from nl col (c :: r) (soft ++ escaped c ++ t)
| qf_plain col c r soft col' t : ~ hidden col c r -> (forall r', ~ line_end (c :: r) r') -> ~ (blank_byte c /\ exists r', line_end r r') ->
    placed nl 1 col (line_done r) soft col' -> qp_from nl col' r t -> qp_from nl col (c :: r) (soft ++ c :: t).
(** line ends are written as CR LF if the first one is *)
Definition quotes (b : bytes) (t : text) : Prop :=
  exists crlf, (crlf = true <-> crlf_first b) /\ qp_from (map byte_val (eol crlf)) 0 (map byte_val b) t.
(** short names without line ends: every byte for itself *)
Definition quote1 (c : Z) (r : list Z) : text :=
  if (126 <? c) || (c =? chr "=") || (c <? 32) && negb (c =? 9) || ((c =? 32) || (c =? 9)) && match r with [] => true | _ => false end then escaped c else [c].
Fixpoint quote (s : list Z) : text := match s with [] => [] | c :: r => quote1 c r ++ quote r end.
