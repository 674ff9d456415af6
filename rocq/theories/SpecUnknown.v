(** SpecUnknown: how a name that is not known is refused. *)
From Verif Require Import Base Spec.
From Coq Require Import Strings.Ascii.

(** [r] goes on with "=" *)
Definition valued (r : text) : Prop := exists a b, Forall blank a /\ r = a ++ chr "=" :: b.
(** a field that is not known, [r] follows its name *)
Inductive refused (r : text) : exn -> Prop :=
| refused_key : valued r -> refused r KeyError
| refused_bare : ~ valued r -> refused r AssertionError.
