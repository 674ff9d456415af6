(** Properties C07 and C28: termination of the parsers and of the printers. *)
From Coq Require Import Strings.Ascii.
From Verif Require Import Base PyNum Util PyLib OxmCodec OxmTables Oxm Nx Ofp4 Spec SpecOxm SpecOfp.
From Verif Require Import BaseFacts TermFacts OfpTerm OfpLoop.

(** ** C07 *)
Theorem C07_str2oxm : forall s loop, str2oxm s loop <> Diverge.
Proof. exact str2oxm_total. Qed.
Theorem C07_str2oxmid : forall s has_mask, str2oxmid s has_mask <> Diverge.
Proof. exact str2oxmid_total. Qed.
Theorem C07_str2act : forall s, str2act s <> Diverge.
Proof. exact str2act_nd. Qed.
Theorem C07_str2mod : forall s command xid, str2mod s command xid <> Diverge.
Proof. exact str2mod_total. Qed.
Theorem C07_str2group : forall s command xid, str2group s command xid <> Diverge.
Proof. exact str2group_total. Qed.
Theorem C07_text2mpflow : forall s type xid, text2mpflow s type xid <> Diverge.
Proof. exact text2mpflow_total. Qed.
Theorem C07_text2mpgroupdesc : forall s type xid, text2mpgroupdesc s type xid <> Diverge.
Proof. exact text2mpgroupdesc_total. Qed.
Theorem C07_text2mpgroup : forall s type xid, text2mpgroup s type xid <> Diverge.
Proof. exact text2mpgroup_total. Qed.
Example C07_case :
  (exists b, str2mod $"in_port=1,@apply,learn(eth_type=0x800,reg_load(nxm_reg0=0x1),table=2)" 0 0 = Ok b /\ length b = 128%nat)
  /\ str2mod $"((((,@apply" 0 0 = Raise AssertionError
  /\ (exists b, str2group $"group=1,select,,,@bucket,@bucket,output=1,," 0 0 = Ok b).
Proof. split; [|split]; vm_compute; eauto. Qed.

(** ** C28 *)
Theorem C28_oxm2str : forall m loop, oxm2str m loop <> Diverge.
Proof. exact oxm2str_total. Qed.
Theorem C28_oxmid2str : forall m loop, oxmid2str m loop <> Diverge.
Proof. exact oxmid2str_total. Qed.
(** a single action always prints or raises; a list is printed without end exactly when
    an entry of length 0 is reached *)
Theorem C28_action : forall m, act2str m false <> Diverge.
Proof. exact act2str_false_nd. Qed.
Theorem C28_actions : forall m, act2str m true = Diverge <-> endless (fun z => act2str z false) m.
Proof. exact act2str_diverges. Qed.
(** [Diverge] is not an artefact of the step bound of the model *)
Theorem C28_actions_forever : forall m steps, endless (fun z => act2str z false) m -> act2str_go steps true m = Diverge.
Proof. exact act2str_forever. Qed.
Theorem C28_instruction : forall m, (4 < length m)%nat ->
  (inst2str m false = Diverge <->
   let t := num_be (firstn 2 m) in
   (t = 3 \/ t = 4) /\ (entry_len m mod 8 = 0)%nat /\ endless (fun z => act2str z false) (slice 8 (entry_len m) m)).
Proof. exact inst2str_one_diverges. Qed.
Theorem C28_instructions : forall m, inst2str m true = Diverge <-> endless (fun z => inst2str z false) m.
Proof. exact inst2str_diverges. Qed.
Theorem C28_instructions_forever : forall m steps, endless (fun z => inst2str z false) m -> inst2str_go steps true m = Diverge.
Proof. exact inst2str_forever. Qed.
Theorem C28_flow : forall m,
  mod2str m = Diverge <->
  (52 <= length m)%nat /\ num_be (firstn 2 (skipn 48 m)) = 1
  /\ let ml := Z.to_nat (num_be (firstn 2 (skipn 50 m))) in
     (exists t, oxm2str (slice 52 (52 + ml - 4) m) true = Ok t)
     /\ endless (fun z => inst2str z false) (slice (48 + align8 ml) (entry_len m) m).
Proof. exact mod2str_diverges. Qed.
(** an entry whose length field is at least 1 everywhere is printed in finite time *)
Example C28_case :
  (* an unknown action type 99 of length 0 *)
  act2str (be 2 99 ++ be 2 0 ++ pad 4) true = Diverge
  (* an output action of length 0 cannot be read: its payload is empty *)
  /\ act2str (be 2 0 ++ be 2 0 ++ pad 4) true = Raise StructError
  (* nested: "@apply" of the unknown action *)
  /\ inst2str (be 2 4 ++ be 2 16 ++ pad 4 ++ be 2 99 ++ be 2 0 ++ pad 4) true = Diverge
  /\ endless (fun z => act2str z false) (be 2 0 ++ be 2 16 ++ be 4 1 ++ be 2 0 ++ pad 6 ++ be 2 99 ++ be 2 0 ++ pad 4).
Proof.
  split; [reflexivity|]. split; [reflexivity|]. split; [reflexivity|].
  apply (endless_next _ _ $"output=1"); [apply Nat.ltb_lt; reflexivity|reflexivity|].
  apply (endless_here _ _ $"?"); [apply Nat.ltb_lt; reflexivity|reflexivity|reflexivity].
Qed.

Print Assumptions C07_text2mpflow.
Print Assumptions C28_flow.
Print Assumptions C28_actions_forever.
