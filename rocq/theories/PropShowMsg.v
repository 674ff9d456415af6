(** What is printed for arbitrary bytes: instructions and flow rules (C60), groups and multipart messages (C61). *)
From Verif Require Import Base PyNum Util PyLib OxmCodec OxmTables Oxm Nx Ofp4 Spec SpecOxm SpecText SpecShow SpecOfp SpecMp SpecShowOfp SpecShowMsg.
From Verif Require Import ShowLib ShowAct ShowAct2 ShowAct3 ShowMsg ShowMsg2 ShowMsg3 ShowMsg4.

(** ** C60: what is shown for any bytes as instructions and as a flow rule *)
Theorem C60_insts_shown : forall m t, inst2str m true = Ok t -> exists ts, insts_shown quoted m ts /\ t = commas ts.
Proof. intros m t H. apply insts_text in H as (ts & H & ->). exists ts. split; [|reflexivity]. revert H. now apply (insts_mono qpt quoted qpt_quoted). Qed.
Theorem C60_insts_exactly : forall m ts, insts_shown (fun _ _ => False) m ts -> inst2str m true = Ok (commas ts).
Proof. intros m ts H. apply insts_text. exists ts. split; [|reflexivity]. revert H. now apply (insts_mono (fun _ _ => False) qpt (fun p u (K : False) => match K with end)). Qed.
Theorem C60_insts_printed : forall m, (exists ts, insts_shown quoted m ts) <-> exists t, inst2str m true = Ok t.
Proof. intros m. split; [|intros (t & H); apply C60_insts_shown in H as (ts & H & _); eauto]. intros (ts & H). assert (exists us, insts_shown qpt m us) as (us & K) by (revert H; now apply (insts_some quoted qpt qpt_ex)). exists (commas us). apply insts_text. eauto. Qed.
Theorem C60_insts_endless : forall m, insts_loop quoted m <-> inst2str m true = Diverge.
Proof. intros m. rewrite insts_endless. split; [now apply (insts_loop_some quoted qpt qpt_ex)|now apply (insts_loop_some qpt quoted quoted_ex)]. Qed.
Theorem C60_insts_refused : forall m, ~ (exists t, insts_shown quoted m t) -> ~ insts_loop quoted m -> exists e, inst2str m true = Raise e.
Proof. intros m H N. destruct (inst2str m true) as [t|e|] eqn:E; [exfalso; apply H; apply C60_insts_printed; eauto|eauto|exfalso; apply N; now apply C60_insts_endless]. Qed.
Theorem C60_flow_shown : forall m t, mod2str m = Ok t -> flow_shown quoted m t.
Proof. intros m t H. apply flow_text_shown in H. revert H. now apply (flow_mono qpt quoted qpt_quoted). Qed.
Theorem C60_flow_exactly : forall m t, flow_shown (fun _ _ => False) m t -> mod2str m = Ok t.
Proof. intros m t H. apply flow_text_shown. revert H. now apply (flow_mono (fun _ _ => False) qpt (fun p u (K : False) => match K with end)). Qed.
Theorem C60_flow_printed : forall m, (exists t, flow_shown quoted m t) <-> exists t, mod2str m = Ok t.
Proof. intros m. split; [|intros (t & H); apply C60_flow_shown in H; eauto]. intros (t & H). assert (exists u, flow_shown qpt m u) as (u & K) by (revert H; now apply (flow_some quoted qpt qpt_ex)). exists u. now apply flow_text_shown. Qed.
Theorem C60_flow_endless : forall m, flow_loop quoted m <-> mod2str m = Diverge.
Proof. intros m. rewrite flow_text_endless. split; [now apply (flow_loop_some quoted qpt qpt_ex)|now apply (flow_loop_some qpt quoted quoted_ex)]. Qed.
Theorem C60_flow_refused : forall m, ~ (exists t, flow_shown quoted m t) -> ~ flow_loop quoted m -> exists e, mod2str m = Raise e.
Proof. intros m H N. destruct (mod2str m) as [t|e|] eqn:E; [exfalso; apply H; apply C60_flow_printed; eauto|eauto|exfalso; apply N; now apply C60_flow_endless]. Qed.
(** a match may reach beyond the message: its own length decides, not the one in the header *)
Definition C60_msg (len mlen : Z) (r : bytes) : bytes :=
  be 1 4 ++ be 1 14 ++ be 2 len ++ be 4 0 ++ be 8 5 ++ be 8 0 ++ be 1 3 ++ be 1 0 ++ be 2 0 ++ be 2 0 ++ be 2 7 ++ be 4 0xffffffff
    ++ be 4 0 ++ be 4 0 ++ be 2 0x41 ++ pad 2 ++ be 2 1 ++ be 2 mlen ++ r.
Theorem C60_beyond_refuted : exists m t, len2 m = 52%nat /\ (52 < length m)%nat /\ mod2str m = Ok t /\ mod2str (firstn 52 m) <> Ok t
  /\ t = $"cookie=0x5,table=3,priority=7,send_flow_rem,eth_type=0x800".
Proof. exists (C60_msg 52 10 [x80;x00;x0a;x02;x08;x00]). eexists. split; [vm_compute; reflexivity|]. split; [cbn; lia|].
  split; [|split; [|reflexivity]]; vm_compute; [reflexivity|discriminate]. Qed.
Example C60_case :
  inst2str (be 2 4 ++ be 2 8 ++ pad 4 ++ be 2 9 ++ be 2 8 ++ pad 4 ++ be 2 4 ++ be 2 24 ++ pad 4 ++ be 2 0 ++ be 2 16 ++ be 4 3 ++ be 2 0xffff
    ++ pad 6 ++ be 2 1 ++ be 2 8 ++ be 1 5) true = Ok $"@apply,?,@apply,output=3,@goto=5"
  /\ inst2str (be 2 6 ++ be 2 8 ++ pad 3) true = Raise StructError
  /\ inst2str (be 2 9 ++ be 2 0 ++ pad 4) true = Diverge
  /\ inst2str (be 2 4 ++ be 2 16 ++ pad 4 ++ be 2 99 ++ be 2 0 ++ pad 4) true = Diverge
  /\ mod2str (C60_msg 72 10 ([x80;x00;x0a;x02;x08;x00] ++ pad 6 ++ be 2 5 ++ be 2 8 ++ pad 4))
     = Ok $"cookie=0x5,table=3,priority=7,send_flow_rem,eth_type=0x800,@clear"
  /\ mod2str (C60_msg 64 9 ([x80;x00;x0a;x02;x08;x00] ++ pad 6)) = Ok $"cookie=0x5,table=3,priority=7,send_flow_rem,eth_type=0x08"
  /\ mod2str (C60_msg 64 4 (pad 4 ++ be 2 5 ++ be 2 0 ++ pad 4)) = Raise AssertionError.
Proof. repeat split; vm_compute; reflexivity. Qed.
(** ** C61: what is shown for any bytes as a group and as multipart messages *)
Theorem C61_group_shown : forall m t, group2str m = Ok t -> group_shown quoted m t.
Proof. intros m t H. apply group_text_shown in H. revert H. now apply (group_mono qpt quoted qpt_quoted). Qed.
Theorem C61_group_exactly : forall m t, group_shown (fun _ _ => False) m t -> group2str m = Ok t.
Proof. intros m t H. apply group_text_shown. revert H. now apply (group_mono (fun _ _ => False) qpt (fun p u (K : False) => match K with end)). Qed.
Theorem C61_group_printed : forall m, (exists t, group_shown quoted m t) <-> exists t, group2str m = Ok t.
Proof. intros m. split; [|intros (t & H); apply C61_group_shown in H; eauto]. intros (t & H). assert (exists u, group_shown qpt m u) as (u & K) by (revert H; now apply (group_some quoted qpt qpt_ex)). exists u. now apply group_text_shown. Qed.
Theorem C61_group_endless : forall m, group_loop quoted m <-> group2str m = Diverge.
Proof. intros m. rewrite group_text_endless. split; [now apply (group_loop_some quoted qpt qpt_ex)|now apply (group_loop_some qpt quoted quoted_ex)]. Qed.
Theorem C61_group_refused : forall m, ~ (exists t, group_shown quoted m t) -> ~ group_loop quoted m -> exists e, group2str m = Raise e.
Proof. intros m H N. destruct (group2str m) as [t|e|] eqn:E; [exfalso; apply H; apply C61_group_printed; eauto|eauto|exfalso; apply N; now apply C61_group_endless]. Qed.
Theorem C61_flows_shown : forall m t, mpflow2text m = Ok t -> exists ts, messages (fmsg_shown quoted) m ts /\ t = lines ts.
Proof. intros m t H. apply mpflow_text in H as (ts & H & ->). exists ts. split; [|reflexivity]. revert H. apply messages_mono, (fmsg_mono qpt quoted qpt_quoted). Qed.
Theorem C61_flows_exactly : forall m ts, messages (fmsg_shown (fun _ _ => False)) m ts -> mpflow2text m = Ok (lines ts).
Proof. intros m ts H. apply mpflow_text. exists ts. split; [|reflexivity]. revert H. apply messages_mono, (fmsg_mono (fun _ _ => False) qpt (fun p u (K : False) => match K with end)). Qed.
Theorem C61_flows_printed : forall m, (exists ts, messages (fmsg_shown quoted) m ts) <-> exists t, mpflow2text m = Ok t.
Proof. intros m. split; [|intros (t & H); apply C61_flows_shown in H as (ts & H & _); eauto]. intros (ts & H). assert (exists us, messages (fmsg_shown qpt) m us) as (us & K) by (revert H; apply messages_some, (fmsg_some quoted qpt qpt_ex)). exists (lines us). apply mpflow_text. eauto. Qed.
Theorem C61_flows_endless : forall m, messages_loop (fmsg_shown quoted) (fmsg_stuck quoted) m <-> mpflow2text m = Diverge.
Proof. intros m. rewrite mpflow_endless. split; [apply mloop_some; [apply (fmsg_some quoted qpt qpt_ex)|apply (fmsg_stuck_some quoted qpt qpt_ex)]|apply mloop_some; [apply (fmsg_some qpt quoted quoted_ex)|apply (fmsg_stuck_some qpt quoted quoted_ex)]]. Qed.
Theorem C61_flows_refused : forall m, ~ (exists t, messages (fmsg_shown quoted) m t) -> ~ messages_loop (fmsg_shown quoted) (fmsg_stuck quoted) m -> exists e, mpflow2text m = Raise e.
Proof. intros m H N. destruct (mpflow2text m) as [t|e|] eqn:E; [exfalso; apply H; apply C61_flows_printed; eauto|eauto|exfalso; apply N; now apply C61_flows_endless]. Qed.
Theorem C61_descs_shown : forall m t, mpgroupdesc2text m = Ok t -> exists ts, messages (dmsg_shown quoted) m ts /\ t = lines ts.
Proof. intros m t H. apply mpdesc_text in H as (ts & H & ->). exists ts. split; [|reflexivity]. revert H. apply messages_mono, (dmsg_mono qpt quoted qpt_quoted). Qed.
Theorem C61_descs_exactly : forall m ts, messages (dmsg_shown (fun _ _ => False)) m ts -> mpgroupdesc2text m = Ok (lines ts).
Proof. intros m ts H. apply mpdesc_text. exists ts. split; [|reflexivity]. revert H. apply messages_mono, (dmsg_mono (fun _ _ => False) qpt (fun p u (K : False) => match K with end)). Qed.
Theorem C61_descs_printed : forall m, (exists ts, messages (dmsg_shown quoted) m ts) <-> exists t, mpgroupdesc2text m = Ok t.
Proof. intros m. split; [|intros (t & H); apply C61_descs_shown in H as (ts & H & _); eauto]. intros (ts & H). assert (exists us, messages (dmsg_shown qpt) m us) as (us & K) by (revert H; apply messages_some, (dmsg_some quoted qpt qpt_ex)). exists (lines us). apply mpdesc_text. eauto. Qed.
Theorem C61_descs_endless : forall m, messages_loop (dmsg_shown quoted) (dmsg_stuck quoted) m <-> mpgroupdesc2text m = Diverge.
Proof. intros m. rewrite mpdesc_endless. split; [apply mloop_some; [apply (dmsg_some quoted qpt qpt_ex)|apply (dmsg_stuck_some quoted qpt qpt_ex)]|apply mloop_some; [apply (dmsg_some qpt quoted quoted_ex)|apply (dmsg_stuck_some qpt quoted quoted_ex)]]. Qed.
Theorem C61_descs_refused : forall m, ~ (exists t, messages (dmsg_shown quoted) m t) -> ~ messages_loop (dmsg_shown quoted) (dmsg_stuck quoted) m -> exists e, mpgroupdesc2text m = Raise e.
Proof. intros m H N. destruct (mpgroupdesc2text m) as [t|e|] eqn:E; [exfalso; apply H; apply C61_descs_printed; eauto|eauto|exfalso; apply N; now apply C61_descs_endless]. Qed.
Theorem C61_stats : forall m t, mpgroup2text m = Ok t <-> exists ts, messages smsg_shown m ts /\ t = lines ts.
Proof. exact mpstat_text. Qed.
Theorem C61_stats_end : forall m, mpgroup2text m <> Diverge.
Proof. intros m H. apply mpstat_endless in H. induction H as [z ts Hs [_ (H & _)] E0|z _ [_ F]|z ts _ _ _ IH]; [rewrite E0 in H; cbn in H; unfold reaches in H; cbn in H; lia|exact F|exact IH]. Qed.
Definition C61_group (t : Z) (r : bytes) : bytes := be 1 4 ++ be 1 15 ++ be 2 0 ++ be 4 0 ++ be 2 0 ++ be 1 t ++ pad 1 ++ be 4 9 ++ r.
Definition C61_bucket (n w : Z) (r : bytes) : bytes := be 2 n ++ be 2 w ++ be 4 0xffffffff ++ be 4 0xffffffff ++ pad 4 ++ r.
Definition C61_mp (t r n : Z) (b : bytes) : bytes := be 1 4 ++ be 1 r ++ be 2 n ++ be 4 0 ++ be 2 t ++ be 2 0 ++ pad 4 ++ b.
Definition C61_row (n : Z) (r : bytes) : bytes :=
  be 2 n ++ be 1 1 ++ pad 1 ++ be 4 3 ++ be 4 0 ++ be 2 0x8000 ++ be 2 0 ++ be 2 0 ++ be 2 0 ++ pad 4 ++ be 8 0 ++ be 8 12 ++ be 8 0 ++ be 2 1 ++ r.
Example C61_case :
  group2str (C61_group 1 (C61_bucket 24 5 (be 2 18 ++ be 2 8 ++ pad 4) ++ C61_bucket 16 7 [])) = Ok $"group=9,select,@bucket,weight=5,pop_vlan"
  /\ group2str (C61_group 4 []) = Raise IndexError
  /\ group2str (C61_group 1 (C61_bucket 15 0 (pad 8))) = Raise StructError
  /\ group2str (C61_group 0 (C61_bucket 24 0 (be 2 99 ++ be 2 0 ++ pad 4))) = Diverge
  /\ mpflow2text (C61_mp 1 19 72 (C61_row 56 (be 2 4 ++ pad 4)) ++ C61_mp 1 19 16 []) = Ok $"packet_count=12,duration_sec=3 table=1"
  /\ mpflow2text (C61_mp 1 18 16 []) = Raise StructError
  /\ mpflow2text (C61_mp 1 19 72 (C61_row 0 (be 2 4 ++ pad 4))) = Diverge
  /\ mpgroupdesc2text (C61_mp 7 19 48 (be 2 8 ++ be 1 3 ++ pad 1 ++ be 4 1 ++ be 2 24 ++ be 1 0 ++ pad 1 ++ be 4 2 ++ C61_bucket 16 0 []))
     = Ok ($"group=1,ff" ++ [10] ++ $"group=2,all,@bucket,")
  /\ mpgroupdesc2text (C61_mp 7 18 16 []) = Ok []
  /\ mpgroupdesc2text (C61_mp 7 19 24 (be 2 7 ++ be 1 3 ++ pad 1 ++ be 4 1)) = Raise AssertionError
  /\ mpgroup2text (C61_mp 6 19 72 (be 2 56 ++ pad 2 ++ be 4 1 ++ be 4 2 ++ pad 4 ++ be 8 0 ++ be 8 30 ++ be 4 0 ++ be 4 0 ++ be 8 0 ++ be 8 1))
     = Ok $"group=1 ref_count=2,byte_count=30,@bucket,byte_count=1"
  /\ mpgroup2text (C61_mp 6 18 24 (be 4 0xffffffff ++ pad 4)) = Ok $"group=any"
  /\ mpgroup2text (C61_mp 6 18 20 (be 4 7)) = Raise StructError.
Proof. repeat split; vm_compute; reflexivity. Qed.
Print Assumptions C60_insts_shown.
Print Assumptions C60_insts_exactly.
Print Assumptions C60_insts_printed.
Print Assumptions C60_insts_endless.
Print Assumptions C60_insts_refused.
Print Assumptions C60_flow_shown.
Print Assumptions C60_flow_exactly.
Print Assumptions C60_flow_printed.
Print Assumptions C60_flow_endless.
Print Assumptions C60_flow_refused.
Print Assumptions C61_group_shown.
Print Assumptions C61_group_exactly.
Print Assumptions C61_group_printed.
Print Assumptions C61_group_endless.
Print Assumptions C61_group_refused.
Print Assumptions C61_flows_shown.
Print Assumptions C61_flows_exactly.
Print Assumptions C61_flows_printed.
Print Assumptions C61_flows_endless.
Print Assumptions C61_flows_refused.
Print Assumptions C61_descs_shown.
Print Assumptions C61_descs_exactly.
Print Assumptions C61_descs_printed.
Print Assumptions C61_descs_endless.
Print Assumptions C61_descs_refused.
Print Assumptions C61_stats.
Print Assumptions C61_stats_end.
Print Assumptions C60_beyond_refuted.
Print Assumptions C60_case.
Print Assumptions C61_case.
