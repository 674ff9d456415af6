(** SpecMpJoin: entries of replies with the bytes their length says. *)
From Verif Require Import Base Spec SpecJoin.

(** an entry of a flow statistics reply; the match, at offset 48, is not longer than the entry *)
Definition whole_fstat (e : bytes) : Prop := (56 <= length e)%nat /\ Z.of_nat (length e) = at_off 0 2 e /\ 48 + at_off 50 2 e <= Z.of_nat (length e).
(** an entry of a group description *)
Definition whole_gdesc (e : bytes) : Prop := (8 <= length e)%nat /\ Z.of_nat (length e) = at_off 0 2 e.
(** an entry of a group statistics reply *)
Definition whole_gstat (e : bytes) : Prop := (40 <= length e)%nat /\ Z.of_nat (length e) = at_off 0 2 e.
