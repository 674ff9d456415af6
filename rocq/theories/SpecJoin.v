(** SpecJoin: byte strings made of whole entries. *)
From Verif Require Import Base Spec.

(** big-endian number of [n] bytes at offset [i] *)
Definition at_off (i n : nat) (e : bytes) : Z := num_be (firstn n (skipn i e)).
(** a match field with the bytes its length says; an experimenter field has room for the id *)
Definition whole_field (e : bytes) : Prop :=
  (4 <= length e)%nat /\ Z.of_nat (length e) = 4 + at_off 3 1 e /\ (at_off 0 2 e = 0xffff -> (8 <= length e)%nat).
(** an action or instruction with the bytes its length says.  The shortest have more than a header *)
Definition whole_entry (e : bytes) : Prop := (4 < length e)%nat /\ Z.of_nat (length e) = at_off 2 2 e.
(** ... an experimenter action has room for a Nicira subtype, and what is printed as a set_ action
    holds the match field in it *)
Definition whole_action (e : bytes) : Prop :=
  whole_entry e /\ (at_off 0 2 e = 0xffff -> (10 <= length e)%nat)
  /\ (at_off 0 2 e = 25 \/ at_off 0 2 e = 0xffff /\ at_off 4 4 e = 0x2320 /\ at_off 8 2 e = 25 -> (8 <= length e)%nat /\ 8 + at_off 7 1 e <= Z.of_nat (length e)
       /\ (at_off 4 2 e = 0xffff -> (12 <= length e)%nat)).
Inductive made_of (P : bytes -> Prop) : bytes -> Prop :=
| made_nil : made_of P []
| made_more e r : P e -> made_of P r -> made_of P (e ++ r).
(** a bucket of a group with the bytes its length says, and an action or more *)
Definition whole_bucket (e : bytes) : Prop := (16 < length e)%nat /\ Z.of_nat (length e) = at_off 0 2 e.
