(** SpecFlowText: every text the readers of flow rules and of groups take, and the message it
    stands for, written down without the readers' own functions.  SpecOfp's [writes_flow] and
    [writes_group] are the part of it that a user would write. *)
From Verif Require Import Base Spec SpecOxm SpecText SpecOfp SpecActText.
From Coq Require Import Strings.Ascii.

(** ** Flow rules *)
(** NAME = VALUE: the name has been read, [u] follows it, [r] follows the value *)
Definition valued (u p r : text) : Prop := exists h, next u h p r /\ eq_lead h.
Inductive sets : text -> text -> setting -> text -> Prop :=
| st_table u p r n : valued u p r -> literal p n -> sets $"table" u (STable n) r
| st_priority u p r n : valued u p r -> literal p n -> sets $"priority" u (SPriority n) r
| st_idle u p r n : valued u p r -> literal p n -> sets $"idle_timeout" u (SIdle n) r
| st_hard u p r n : valued u p r -> literal p n -> sets $"hard_timeout" u (SHard n) r
| st_buffer u p r n : valued u p r -> literal p n -> sets $"buffer" u (SBuffer n) r
| st_cookie u p r n : valued u p r -> literal p n -> sets $"cookie" u (SCookie n None) r
| st_cookie_mask u x y r n m : valued u (x ++ $"/" ++ y) r -> literal x n -> numberish y m ->
    sets $"cookie" u (SCookie n (Some m)) r                                             (* text behind the mask is ignored *)
| st_port u p r n : valued u p r -> port_of p n -> sets $"out_port" u (SPort n) r
| st_group u p r n : valued u p r -> group_of p n -> sets $"out_group" u (SGroup n) r
| st_flag f u : sets (fflag_name f) u (SFlag f) u.
(** instructions without actions *)
Inductive instructs : text -> text -> instr -> text -> Prop :=
| is_goto nm u p r n : spells NGoto nm -> valued u p r -> literal p n -> in_bytes 1 n -> instructs nm u (Goto n) r
| is_metadata nm u p r v : spells NMetadata nm -> valued u p r -> literal p v -> in_bytes 8 v -> instructs nm u (WriteMetadata v 0) r
| is_metadata_mask nm u x y r v m : spells NMetadata nm -> valued u (x ++ $"/" ++ y) r -> literal x v -> literal y m -> in_bytes 8 v -> in_bytes 8 m ->
    instructs nm u (WriteMetadata v m) r
| is_clear nm u : spells NClear nm -> instructs nm u ClearActions u
| is_meter u p r n : valued u p r -> literal p n -> in_bytes 4 n -> instructs $"@meter" u (Meter n) r.

(** the parts of a rule, in order *)
Inductive rpart :=
| RSet (s : setting)      (* a fixed field or a flag *)
| RMatch (t : tlv)        (* a match field *)
| RInstr (i : instr)      (* an instruction without actions *)
| RActs (t : Z)           (* the beginning of the instruction of type t with actions *)
| RAct (b : bytes).       (* an action of the instruction begun last *)
Definition at_word (nm : text) : Prop := exists x, nm = $"@" ++ x.
(** a word of the rule: separators, its name, the rest *)
Definition word (s nm u : text) : Prop := exists h, next s h nm u /\ ~ eq_lead h.
(** [rule_reads N w s l]: from [w] on, [s] is made of the parts [l].  First the fixed and match
    fields, then instructions; actions only follow the instructions that take them *)
Inductive rule_reads (N : kind -> text -> bytes -> option bytes -> Prop) : place -> text -> list rpart -> Prop :=
| rr_end w : rule_reads N w [] []
| rr_set s nm u st r l : word s nm u -> sets nm u st r -> rule_reads N AtEntry r l -> rule_reads N AtEntry s (RSet st :: l)
| rr_match s nm u ts r l : word s nm u -> ~ In nm fixed_names -> one_field N (nm ++ u) ts r -> r <> nm ++ u -> rule_reads N AtEntry r l ->
    rule_reads N AtEntry s (map RMatch ts ++ l)
| rr_instr w s nm u i r l : word s nm u -> instructs nm u i r -> rule_reads N AtInstr r l -> rule_reads N w s (RInstr i :: l)
| rr_acts w s nm u t l : word s nm u -> acts_name nm t -> rule_reads N AtAction u l -> rule_reads N w s (RActs t :: l)
| rr_act s nm u b r l : word s nm u -> ~ at_word nm -> action_reads N (nm ++ u) b r -> r <> nm ++ u -> rule_reads N AtAction r l ->
    rule_reads N AtAction s (RAct b :: l).

(** what the parts mean *)
Definition r_sets (l : list rpart) : list setting := flat_map (fun p => match p with RSet s => [s] | _ => [] end) l.
Definition r_match (l : list rpart) : list tlv := flat_map (fun p => match p with RMatch t => [t] | _ => [] end) l.
Definition pending (pend : option (Z * bytes)) : list bytes := match pend with Some (t, b) => [std_act t (pad 4 ++ b)] | None => [] end.
Fixpoint r_insts (pend : option (Z * bytes)) (l : list rpart) : list bytes :=
  match l with
  | [] => pending pend
  | RInstr i :: l => pending pend ++ instr_wire i :: r_insts None l
  | RActs t :: l => pending pend ++ r_insts (Some (t, [])) l
  | RAct b :: l => r_insts (option_map (fun '(t, a) => (t, a ++ b)) pend) l
  | _ :: l => r_insts pend l
  end.
(** the flow message of the text [s] *)
Definition rule_message (N : kind -> text -> bytes -> option bytes -> Prop) (s : text) (cmd xid : Z) (m : bytes) : Prop :=
  exists l, rule_reads N AtEntry s l /\
  let x := fold_left apply_set (r_sets l) (defaults cmd) in
  in_bytes 1 cmd /\ in_bytes 4 xid /\ fixed_ok x /\ Z.of_nat (length m) <= 65535
  /\ m = mod_head cmd xid (Z.of_nat (length m)) x ++ match_wire (r_match l) ++ concat (r_insts None l).

(** ** Groups *)
(** group ID and TYPE; what separates them is ignored *)
Inductive group_id_any : text -> Z -> Prop :=
| gi_lit p n : literal p n -> group_id_any p n
| gi_all a b c : a = chr "a" \/ a = chr "A" -> b = chr "l" \/ b = chr "L" -> c = chr "l" \/ c = chr "L" -> group_id_any [a; b; c] 0xfffffffc.
Inductive heads : text -> list ghead -> text -> Prop :=
| hd_group s h u h' p r n l t : next s h $"group" u -> next u h' p r -> group_id_any p n -> heads r l t -> heads s (HGroup n :: l) t
| hd_type s h g r l t : next s h (gtype_name g) r -> heads r l t -> heads s (HType g :: l) t
| hd_end s h nm u : next s h nm u -> nm <> $"group" -> (forall g, nm <> gtype_name g) -> heads s [] s.
(** a bucket: its fields and actions, up to the next "@" or a word that is no action *)
Inductive bset_any : text -> text -> bset -> text -> Prop :=
| bs_weight u p r n : valued u p r -> literal p n -> bset_any $"weight" u (BWeight n) r
| bs_port u p r n : valued u p r -> literal p n -> bset_any $"watch_port" u (BPort n) r
| bs_group u p r n : valued u p r -> literal p n -> bset_any $"watch_group" u (BGroup n) r.
Definition bset_name (nm : text) : Prop := In nm [$"weight"; $"watch_port"; $"watch_group"].
Inductive bpart := BPSet (s : bset) | BPAct (b : bytes).
Inductive bucket_text (N : kind -> text -> bytes -> option bytes -> Prop) : text -> list bpart -> text -> Prop :=
| bt_end : bucket_text N [] [] []
| bt_at s nm u : word s nm u -> at_word nm -> bucket_text N s [] s
| bt_unknown s nm u b : word s nm u -> ~ at_word nm -> ~ bset_name nm -> action_reads N s b s -> bucket_text N s [] s
| bt_set s nm u st r l t : word s nm u -> bset_any nm u st r -> bucket_text N r l t -> bucket_text N s (BPSet st :: l) t
| bt_act s nm u b r l t : word s nm u -> ~ at_word nm -> ~ bset_name nm -> action_reads N s b r -> r <> s -> bucket_text N r l t ->
    bucket_text N s (BPAct b :: l) t.
(** the buckets: a bucket begins wherever something else has ended, so that "@bucket" is only
    needed between two of them.  One without any part does not count; separators alone
    are a part (an action that makes nothing) *)
Inductive buckets_text (N : kind -> text -> bytes -> option bytes -> Prop) : text -> list (list bpart) -> Prop :=
| bts_end : buckets_text N [] []
| bts_bucket s l r ls : bucket_text N s l r -> l <> [] -> buckets_text N r ls -> buckets_text N s (l :: ls)
| bts_word s u ls : word s $"@bucket" u -> buckets_text N u ls -> buckets_text N s ls.
Definition b_sets (l : list bpart) : list bset := flat_map (fun p => match p with BPSet s => [s] | _ => [] end) l.
Definition b_acts (l : list bpart) : bytes := flat_map (fun p => match p with BPAct b => b | _ => [] end) l.
(** bytes of a bucket *)
Definition bucket_part (t : gtype) (l : list bpart) : bytes :=
  let b := fold_left apply_bset (b_sets l) (empty_bucket t) in
  be 2 (Z.of_nat (16 + length (b_acts l))) ++ be 2 (bk_weight b) ++ be 4 (bk_port b) ++ be 4 (bk_group b) ++ pad 4 ++ b_acts l.
Definition bucket_fits (t : gtype) (l : list bpart) : Prop :=
  let b := fold_left apply_bset (b_sets l) (empty_bucket t) in
  in_bytes 2 (bk_weight b) /\ in_bytes 4 (bk_port b) /\ in_bytes 4 (bk_group b).
(** the group message of the text [s] *)
Definition group_message (N : kind -> text -> bytes -> option bytes -> Prop) (s : text) (cmd xid : Z) (m : bytes) : Prop :=
  exists hs u ls, heads s hs u /\ buckets_text N u ls /\
  let '(id, t) := fold_left apply_ghead hs (0xffffffff, GAll) in
  in_bytes 2 cmd /\ in_bytes 4 xid /\ in_bytes 4 id /\ Forall (bucket_fits t) ls /\ Z.of_nat (length m) <= 65535
  /\ m = be 1 4 ++ be 1 15 ++ be 2 (Z.of_nat (length m)) ++ be 4 xid ++ be 2 cmd ++ be 1 (gtype_id t) ++ pad 1 ++ be 4 id
         ++ flat_map (bucket_part t) ls.
