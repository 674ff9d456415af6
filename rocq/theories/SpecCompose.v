(** SpecCompose: texts that more can be written behind. *)
From Verif Require Import Base Spec SpecOxm SpecText SpecOfp SpecActText SpecFlowText.
From Coq Require Import Strings.Ascii.

(** the text ends with a character of a token that is no blank, and in no open bracket *)
Definition finished (u : text) : Prop :=
  (exists v c, u = v ++ [c] /\ token_char c /\ ~ blank c) /\ ~ exists v w, u = v ++ w /\ unfinished_token w.
(** a fixed field, a flag or a match field *)
Definition entry_part (p : rpart) : Prop := match p with RSet _ | RMatch _ => True | _ => False end.
(** the message of a rule with the parts [l] *)
Definition parts_message (l : list rpart) (cmd xid : Z) (m : bytes) : Prop :=
  let x := fold_left apply_set (r_sets l) (defaults cmd) in
  in_bytes 1 cmd /\ in_bytes 4 xid /\ fixed_ok x /\ Z.of_nat (length m) <= 65535
  /\ m = mod_head cmd xid (Z.of_nat (length m)) x ++ match_wire (r_match l) ++ concat (r_insts None l).
(** the text ends with an output_reg=SOURCE, where a maximum length may follow, or with "set_" *)
Definition wants_more (u : text) : Prop :=
  (exists v name h p, (name = $"output_reg" \/ name = $"output_reg2") /\ lead h /\ token p /\ u = v ++ name ++ h ++ p) \/ exists v, u = v ++ $"set_".
(** where a rule stands behind the parts [l] *)
Definition place_after (w : place) (l : list rpart) : place :=
  fold_left (fun w p => match p with RInstr _ => AtInstr | RActs _ => AtAction | _ => w end) l w.
(** the message of a group text with the heads [hs] and the buckets [ls] *)
Definition group_parts (hs : list ghead) (ls : list (list bpart)) (cmd xid : Z) (m : bytes) : Prop :=
  let '(id, t) := fold_left apply_ghead hs (0xffffffff, GAll) in
  in_bytes 2 cmd /\ in_bytes 4 xid /\ in_bytes 4 id /\ Forall (bucket_fits t) ls /\ Z.of_nat (length m) <= 65535
  /\ m = be 1 4 ++ be 1 15 ++ be 2 (Z.of_nat (length m)) ++ be 4 xid ++ be 2 cmd ++ be 1 (gtype_id t) ++ pad 1 ++ be 4 id
         ++ flat_map (bucket_part t) ls.
