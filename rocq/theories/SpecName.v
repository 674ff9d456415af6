(** SpecName: field names as arguments of actions. *)
From Verif Require Import Base Spec SpecOxm SpecText SpecOfp SpecActText.
From Coq Require Import Strings.Ascii.

(** [s] begins with NAME(ARGS) in some brackets; [r] is left *)
Definition called (s name args r : text) : Prop := exists h p, next s h p r /\ func p name (Some args) /\ args <> [].
(** no field has this name *)
Definition no_field (name : text) : Prop := forall f, readable f -> name <> fname f.
(** NAME, or NAME with something in brackets, where NAME names no field *)
Definition misspelt (p : text) : Prop := exists name a, func p name a /\ no_field name.
(** the arguments [t] of learn have DST=SRC, alone or as the argument of a mode *)
Inductive learn_has : text -> option text -> text -> text -> Prop :=
| lh_eq t h d u h' p r : next t h d u -> ~ eq_lead h -> next u h' p r -> eq_lead h' -> learn_has t None d p
| lh_mode t h d u m a h1 x u1 h2 y u2 : next t h d u -> ~ eq_lead h -> (forall h' p r, next u h' p r -> ~ eq_lead h') -> func d m (Some a) ->
    next a h1 x u1 -> next u1 h2 y u2 -> learn_has t (Some m) x y
| lh_after_eq t h d u h' p r m x y : next t h d u -> ~ eq_lead h -> next u h' p r -> eq_lead h' -> learn_has r m x y -> learn_has t m x y
| lh_after_mode t h d u m x y : next t h d u -> d <> [] -> ~ eq_lead h -> (forall h' p r, next u h' p r -> ~ eq_lead h') -> learn_has u m x y -> learn_has t m x y.
(** neither a field nor a number *)
Definition no_value (p : text) : Prop := exists name a, func p name a /\ no_field name /\ forall v, ~ numberish name v.
