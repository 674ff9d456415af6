(** Printing a message that the tool built itself always ends (C71). *)
From Verif Require Import Base PyNum Util PyLib OxmCodec OxmTables Oxm Nx Ofp4 Spec SpecOxm SpecText SpecShow SpecOfp SpecMp SpecShowOfp SpecShowMsg.
From Verif Require Import ShowLib ActFrame GroupFrame PrintEnds PropShowOfp PropShowMsg.

Theorem C71_act : forall s b n, str2act s = Ok (b, n) -> act2str b true <> Diverge.
Proof.
  intros s b n H D. apply C59_endless in D. apply act_framed_any in H as [->|H].
  - exact (acts_end quoted [] D [] eq_refl (Forall_nil _)).
  - refine (acts_end quoted b D [b] _ _); [cbn; now rewrite app_nil_r|repeat constructor; exact H].
Qed.
Theorem C71_flow : forall s cmd xid m, str2mod s cmd xid = Ok m -> mod2str m <> Diverge.
Proof. intros s cmd xid m H D. apply C60_flow_endless in D. revert D. eapply flow_ends; eauto. Qed.
Theorem C71_group : forall s cmd xid m, str2group s cmd xid = Ok m -> group2str m <> Diverge.
Proof. intros s cmd xid m H D. apply C61_group_endless in D. revert D. eapply group_ends; eauto. Qed.
Theorem C71_mpflow : forall s type xid m, text2mpflow s type xid = Ok m -> mpflow2text m <> Diverge.
Proof. intros s type xid m H D. apply C61_flows_endless in D. revert D. eapply mpflow_ends; eauto. Qed.
Theorem C71_mpdesc : forall s type xid m, text2mpgroupdesc s type xid = Ok m -> mpgroupdesc2text m <> Diverge.
Proof. intros s type xid m H D. apply C61_descs_endless in D. revert D. eapply mpgroupdesc_ends; eauto. Qed.
Theorem C71_mpstats : forall s type xid m, text2mpgroup s type xid = Ok m -> mpgroup2text m <> Diverge.
Proof. intros s type xid m _. apply C61_stats_end. Qed.
(** ending is not succeeding: some messages that were built are refused by the printer *)
Theorem C71_succeeds_refuted : exists s m e, str2mod s 0 0 = Ok m /\ mod2str m = Raise e.
Proof. exists ($"@apply,set_tunnel64=5"), (match str2mod $"@apply,set_tunnel64=5" 0 0 with Ok m => m | _ => [] end), StructError. split; vm_compute; reflexivity. Qed.
(** the last action of a message that was built, changed to an unknown one of length 0: printing no longer ends *)
Example C71_case : exists m, str2mod $"priority=5,eth_type=0x800,@apply,output=1,pop_vlan" 0 0 = Ok m
  /\ mod2str m = Ok $"priority=5,eth_type=0x800,@apply,output=1,pop_vlan"
  /\ slice 88 92 m = be 2 18 ++ be 2 8
  /\ mod2str (firstn 88 m ++ be 2 99 ++ be 2 0 ++ skipn 92 m) = Diverge.
Proof. eexists. split; [vm_compute; reflexivity|]. repeat split; vm_compute; reflexivity. Qed.
Print Assumptions C71_act.
Print Assumptions C71_flow.
Print Assumptions C71_group.
Print Assumptions C71_mpflow.
Print Assumptions C71_mpdesc.
Print Assumptions C71_mpstats.
Print Assumptions C71_succeeds_refuted.
Print Assumptions C71_case.
