(** When two rules are the same, for the claim that a message determines its rule. *)
From Verif Require Import Base Spec SpecOxm SpecOfp SpecMp.

(** a known match field whose bytes its length field can count *)
Definition proper (t : tlv) : Prop := known_tlv t /\ fits t.
(** learn: the values that count, and the flow specs in their order *)
Definition same_act (a b : action) : Prop :=
  match a, b with
  | Learn l, Learn m => (forall k, lvalue k 0 l = lvalue k 0 m) /\ lspecs l = lspecs m
  | _, _ => a = b
  end.
Definition same_instr (i j : instr) : Prop :=
  match i, j with
  | WriteActions l, WriteActions m | ApplyActions l, ApplyActions m => Forall2 same_act l m
  | _, _ => i = j
  end.
Definition same_bucket (a b : bucket) : Prop :=
  bk_weight a = bk_weight b /\ bk_port a = bk_port b /\ bk_group a = bk_group b /\ Forall2 same_act (bk_acts a) (bk_acts b).
Definition act_proper (a : action) : Prop := act_ok a /\ Forall proper (act_tlvs a).
Definition instr_proper (i : instr) : Prop := instr_ok i /\ Forall act_proper (instr_acts i).
Definition bucket_proper (b : bucket) : Prop := bucket_ok b /\ Forall act_proper (bk_acts b).
Definition flow_proper (cmd xid : Z) (x : fixedp) (ts : list tlv) (is : list instr) : Prop :=
  flow_ok cmd xid x ts is /\ Forall proper ts /\ Forall instr_proper is.
(** entries of replies; mask, buffer, port and group do not occur in them *)
Definition fstat_proper (e : fstat) : Prop :=
  fstat_ok e /\ (let x := fs_fixed e in x_mask x = 0 /\ x_buffer x = 0 /\ x_port x = 0 /\ x_group x = 0) /\ Forall proper (fs_match e) /\ Forall instr_proper (fs_instrs e).
Definition same_fstat (a b : fstat) : Prop :=
  fs_packets a = fs_packets b /\ fs_bytes a = fs_bytes b /\ fs_sec a = fs_sec b /\ fs_nsec a = fs_nsec b /\ fs_fixed a = fs_fixed b
  /\ fs_match a = fs_match b /\ Forall2 same_instr (fs_instrs a) (fs_instrs b).
Definition gdesc_proper (e : gdesc) : Prop := gdesc_ok e /\ Forall bucket_proper (gd_buckets e).
Definition same_gdesc (a b : gdesc) : Prop := gd_type a = gd_type b /\ gd_id a = gd_id b /\ Forall2 same_bucket (gd_buckets a) (gd_buckets b).
