(** SpecIds: lists of field names and of field headers without payload (oxmid). *)
From Verif Require Import Base Spec SpecOxm SpecText SpecActText SpecShow.
From Coq Require Import Strings.Ascii.

(** the fields that the words of a text name; other words count for nothing *)
Inductive fields_named : text -> list field -> Prop :=
| nr_end : fields_named [] []
| nr_field s h f r fs : next s h (fname f) r -> readable f -> fields_named r fs -> fields_named s (f :: fs)
| nr_other s h n r fs : s <> [] -> next s h n r -> (forall f, readable f -> n <> fname f) -> fields_named r fs -> fields_named s fs.
(** the names shown for bytes: headers of four bytes, eight for experimenters; the length
    byte means nothing.  Fewer than four bytes at the end are ignored *)
Inductive ids_shown : bytes -> list text -> Prop :=
| id_end b : (length b < 4)%nat -> ids_shown b []
| id_field f hm l r ts : shown_field f \/ In f bare -> ids_shown r ts ->
    ids_shown (be 2 (class_id (fclass f)) ++ byte_of (2 * fnum f + flag_of hm) :: l :: exp_id (fclass f) ++ r) (fname f :: ts)
| id_class a c x l r ts : ~ In (num_be [a; c]) [0x8000; 0; 1; 0xffff] -> ids_shown r ts -> ids_shown (a :: c :: x :: l :: r) ($"?" :: ts)
| id_exp x l e r ts : length e = 4%nat -> e <> exp_id Stratos -> ids_shown r ts -> ids_shown (be 2 0xffff ++ x :: l :: e ++ r) ($"?" :: ts).
