(** SpecShowMsg: what is shown for arbitrary bytes as instructions, flow rules, groups and
    multipart replies, well formed or not. *)
From Verif Require Import Base Spec SpecOxm SpecShow SpecOfp SpecMp SpecShowOfp.

(** ** Entries one after the other, each as long as it says *)
Inductive entries (short : bytes -> Prop) (size : bytes -> nat) (one : bytes -> list text -> Prop) : bytes -> list text -> Prop :=
| en_end m : short m -> entries short size one m []
| en_next m ts us : ~ short m -> one m ts -> entries short size one (skipn (size m) m) us -> entries short size one m (ts ++ us).
(** an entry of length 0 is met again and again; [stuck]: the entry itself never ends *)
Inductive entries_loop (short : bytes -> Prop) (size : bytes -> nat) (one : bytes -> list text -> Prop) (stuck : bytes -> Prop) : bytes -> Prop :=
| el_here m ts : ~ short m -> one m ts -> size m = 0%nat -> entries_loop short size one stuck m
| el_stuck m : ~ short m -> stuck m -> entries_loop short size one stuck m
| el_next m ts : ~ short m -> one m ts -> entries_loop short size one stuck (skipn (size m) m) -> entries_loop short size one stuck m.
Definition below (n : nat) (m : bytes) : Prop := (length m < n)%nat.
(** 16-bit length in the first two bytes, or in the third and fourth *)
Definition len0 (m : bytes) : nat := Z.to_nat (word 2 0 m).
Definition len2 (m : bytes) : nat := Z.to_nat (word 2 2 m).

(** ** Instructions *)
Definition acts_part (m : bytes) : bytes := part_of 8 (len2 m) m.
Inductive inst_shown (Q : bytes -> text -> Prop) (m : bytes) : list text -> Prop :=
| is_goto : word 2 0 m = 1 -> len2 m = 8%nat -> inst_shown Q m [$"@goto=" ++ dec (word 1 4 m)]
| is_metadata : word 2 0 m = 2 -> len2 m = 24%nat -> reaches 24 m ->
    inst_shown Q m [$"@metadata=" ++ hex (word 8 8 m) ++ (if word 8 16 m =? 0 then [] else $"/" ++ hex (word 8 16 m))]
| is_write ts : word 2 0 m = 3 -> (len2 m mod 8 = 0)%nat -> acts_shown Q (acts_part m) ts -> inst_shown Q m ($"@write" :: ts)
| is_apply ts : word 2 0 m = 4 -> (len2 m mod 8 = 0)%nat -> acts_shown Q (acts_part m) ts -> inst_shown Q m ($"@apply" :: ts)
| is_clear : word 2 0 m = 5 -> len2 m = 8%nat -> inst_shown Q m [$"@clear"]
| is_meter : word 2 0 m = 6 -> len2 m = 8%nat -> reaches 8 m -> inst_shown Q m [$"@meter=" ++ dec (word 4 4 m)]
| is_unknown : ~ 1 <= word 2 0 m <= 6 -> inst_shown Q m [$"?"].
Definition inst_stuck (Q : bytes -> text -> Prop) (m : bytes) : Prop :=
  (word 2 0 m = 3 \/ word 2 0 m = 4) /\ (len2 m mod 8 = 0)%nat /\ acts_loop Q (acts_part m).
Definition insts_shown (Q : bytes -> text -> Prop) : bytes -> list text -> Prop := entries (below 5) len2 (inst_shown Q).
Definition insts_loop (Q : bytes -> text -> Prop) : bytes -> Prop := entries_loop (below 5) len2 (inst_shown Q) (inst_stuck Q).

(** ** Flow rules: 48 bytes, the match and its padding, the instructions *)
Definition up8 (n : nat) : nat := (8 * ((n + 7) / 8))%nat.
Definition match_len (m : bytes) : nat := Z.to_nat (word 2 50 m).
(** [n]: where the rule ends; its match and its instructions *)
Inductive rule_shown (Q : bytes -> text -> Prop) (n : nat) (m : bytes) : list text -> Prop :=
| rule_is ms is : word 2 48 m = 1 -> shown_list Q (part_of 52 (48 + match_len m) m) ms ->
    insts_shown Q (part_of (48 + up8 (match_len m)) n m) is -> rule_shown Q n m (ms ++ is).
Definition rule_stuck (Q : bytes -> text -> Prop) (n : nat) (m : bytes) : Prop :=
  word 2 48 m = 1 /\ (exists ms, shown_list Q (part_of 52 (48 + match_len m) m) ms)
  /\ insts_loop Q (part_of (48 + up8 (match_len m)) n m).
Definition flow_fixed (m : bytes) : fixedp :=
  Fixed (word 8 8 m) (word 8 16 m) (word 1 24 m) (word 2 30 m) (word 2 26 m) (word 2 28 m) (word 4 32 m) (word 4 36 m) (word 4 40 m) (word 2 44 m).
Inductive flow_shown (Q : bytes -> text -> Prop) (m : bytes) : text -> Prop :=
| flow_is ts : reaches 52 m -> rule_shown Q (len2 m) m ts -> flow_shown Q m (commas (fixed_texts (defaults (word 1 25 m)) (flow_fixed m) ++ ts)).
Definition flow_loop (Q : bytes -> text -> Prop) (m : bytes) : Prop := reaches 52 m /\ rule_stuck Q (len2 m) m.

(** ** Groups *)
Definition weight_texts (g : gtype) (w : Z) : list text :=
  match g with GSelect => unless (w =? 1) ($"weight=" ++ dec w) | _ => [] end.
Inductive bucket_shown (Q : bytes -> text -> Prop) (g : gtype) (m : bytes) : text -> Prop :=
| bucket_is ts : reaches 16 m -> acts_shown Q (part_of 16 (len0 m) m) ts ->
    bucket_shown Q g m (commas (weight_texts g (word 2 2 m) ++ unless (word 4 4 m =? 0xffffffff) ($"watch_port=" ++ dec (word 4 4 m))
      ++ unless (word 4 8 m =? 0xffffffff) ($"watch_group=" ++ dec (word 4 8 m)) ++ ts)).
Definition bucket_stuck (Q : bytes -> text -> Prop) (m : bytes) : Prop := reaches 16 m /\ acts_loop Q (part_of 16 (len0 m) m).
(** a bucket is cut off at its length *)
Definition buckets_shown (Q : bytes -> text -> Prop) (min : nat) (g : gtype) : bytes -> list text -> Prop :=
  entries (below min) len0 (fun m ts => exists t, bucket_shown Q g (firstn (len0 m) m) t /\ ts = [$"@bucket"; t]).
Definition buckets_loop (Q : bytes -> text -> Prop) (min : nat) (g : gtype) : bytes -> Prop :=
  entries_loop (below min) len0 (fun m ts => exists t, bucket_shown Q g (firstn (len0 m) m) t /\ ts = [$"@bucket"; t])
    (fun m => bucket_stuck Q (firstn (len0 m) m)).
Inductive group_shown (Q : bytes -> text -> Prop) (m : bytes) : text -> Prop :=
| group_is g ts : reaches 16 m -> word 1 10 m = gtype_id g -> buckets_shown Q 17 g (skipn 16 m) ts ->
    group_shown Q m (commas (group_id_texts (word 4 12 m) ++ gtype_name g :: ts)).
Definition group_loop (Q : bytes -> text -> Prop) (m : bytes) : Prop :=
  reaches 16 m /\ exists g, word 1 10 m = gtype_id g /\ buckets_loop Q 17 g (skipn 16 m).

(** ** Multipart messages, several of them one after the other *)
Definition messages (one : bytes -> list text -> Prop) : bytes -> list text -> Prop :=
  entries (eq []) len2 (fun m ts => reaches 8 m /\ one (firstn (len2 m) m) ts).
Definition messages_loop (one : bytes -> list text -> Prop) (stuck : bytes -> Prop) : bytes -> Prop :=
  entries_loop (eq []) len2 (fun m ts => reaches 8 m /\ one (firstn (len2 m) m) ts) (fun m => reaches 8 m /\ stuck (firstn (len2 m) m)).
Definition mp_type (m : bytes) : Z := word 2 8 m.
Definition is_reply (m : bytes) : Prop := word 1 1 m = 19.
Definition mp_part (m : bytes) : bytes := part_of 16 (len2 m) m.

(** flow rules with counters *)
Definition row_fixed (m : bytes) : fixedp :=
  Fixed (word 8 24 m) 0 (word 1 2 m) (word 2 12 m) (word 2 14 m) (word 2 16 m) 0 0 0 (word 2 18 m).
Definition row_counters (m : bytes) : list (counter * Z) :=
  [(CPackets, word 8 32 m); (CBytes, word 8 40 m); (CSec, word 4 4 m); (CNsec, word 4 8 m)].
Inductive frow_shown (Q : bytes -> text -> Prop) (m : bytes) : list text -> Prop :=
| frow_is ts : rule_shown Q (len0 m) m ts ->
    frow_shown Q m [two_parts (counter_texts (row_counters m)) (fixed_texts print_defaults (row_fixed m) ++ ts)].
Definition frows_shown (Q : bytes -> text -> Prop) : bytes -> list text -> Prop := entries (below 56) len0 (frow_shown Q).
Definition frows_loop (Q : bytes -> text -> Prop) : bytes -> Prop :=
  entries_loop (below 56) len0 (frow_shown Q) (fun m => rule_stuck Q (len0 m) m).
Definition fmsg_shown (Q : bytes -> text -> Prop) (m : bytes) (ts : list text) : Prop :=
  reaches 16 m /\ mp_type m = 1 /\ is_reply m /\ frows_shown Q (mp_part m) ts.
Definition fmsg_stuck (Q : bytes -> text -> Prop) (m : bytes) : Prop :=
  reaches 16 m /\ mp_type m = 1 /\ is_reply m /\ frows_loop Q (mp_part m).

(** group descriptions *)
Inductive drow_shown (Q : bytes -> text -> Prop) (m : bytes) : list text -> Prop :=
| drow_is g ts : (8 <= len0 m)%nat -> word 1 2 m = gtype_id g -> buckets_shown Q 16 g (part_of 8 (len0 m) m) ts ->
    drow_shown Q m [commas (($"group=" ++ dec (word 4 4 m)) :: gtype_name g :: ts)].
Definition drow_stuck (Q : bytes -> text -> Prop) (m : bytes) : Prop :=
  (8 <= len0 m)%nat /\ exists g, word 1 2 m = gtype_id g /\ buckets_loop Q 16 g (part_of 8 (len0 m) m).
Definition dmsg_shown (Q : bytes -> text -> Prop) (m : bytes) (ts : list text) : Prop :=
  reaches 16 m /\ mp_type m = 7 /\ (is_reply m /\ entries (below 8) len0 (drow_shown Q) (mp_part m) ts \/ ~ is_reply m /\ ts = []).
Definition dmsg_stuck (Q : bytes -> text -> Prop) (m : bytes) : Prop :=
  reaches 16 m /\ mp_type m = 7 /\ is_reply m /\ entries_loop (below 8) len0 (drow_shown Q) (drow_stuck Q) (mp_part m).

(** group counters: pairs of 8-byte numbers for the buckets *)
Definition pairs_shown : bytes -> list text -> Prop :=
  entries (below 16) (fun _ => 16%nat)
    (fun m ts => ts = $"@bucket" :: counter_texts [(CPackets, word 8 0 m); (CBytes, word 8 8 m)]).
Definition stat_id (g : Z) : text :=
  if g =? 0xfffffffc then $"group=all " else if g =? 0xffffffff then [] else $"group=" ++ dec g ++ $" ".
Definition stat_counters (m : bytes) : list (counter * Z) :=
  [(CRef, word 4 8 m); (CPackets, word 8 16 m); (CBytes, word 8 24 m); (CSec, word 4 32 m); (CNsec, word 4 36 m)].
Inductive srow_shown (m : bytes) : list text -> Prop :=
| srow_is ts : (40 <= len0 m)%nat -> pairs_shown (part_of 40 (len0 m) m) ts ->
    srow_shown m [stat_id (word 4 4 m) ++ commas (counter_texts (stat_counters m) ++ ts)].
(** in a request: the group it asks for *)
Definition asked_texts (g : Z) : list text :=
  if g =? 0xfffffffc then [] else [$"group=" ++ (if g =? 0xffffffff then $"any" else dec g)].
Definition smsg_shown (m : bytes) (ts : list text) : Prop :=
  reaches 16 m /\ mp_type m = 6
  /\ (is_reply m /\ entries (below 40) len0 srow_shown (mp_part m) ts \/ ~ is_reply m /\ reaches 24 m /\ ts = asked_texts (word 4 16 m)).
