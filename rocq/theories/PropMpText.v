(** Properties C65, C66 and C67: what the texts of multipart messages may look like and what they
    mean, without exception (ofp4.py). *)
From Coq Require Import Strings.Ascii.
From Verif Require Import Base PyNum Util PyLib OxmCodec OxmTables Oxm Nx Ofp4 Spec SpecOxm SpecText SpecOfp SpecMp SpecActText SpecFlowText SpecMpText.
From Verif Require Import BaseFacts UtilFacts OxmFacts OxmGram MpBase MpFlow MpGroup MpStat OfpTerm GramTok GramField GramAct GramStr GramFlow GramGroup GramMp.

(** ** C65 *)
(** every accepted text is in the grammar of SpecMpText, and the message is what it means there *)
Theorem C65_grammar : forall txt type xid m, text2mpflow txt type xid = Ok m -> flows_message notation txt type xid m.
Proof. exact flows_sound. Qed.
(** every text of the grammar is read, as the grammar says *)
Theorem C65_complete : forall txt type xid m, flows_message notation txt type xid m -> text2mpflow txt type xid = Ok m.
Proof. exact flows_read. Qed.
(** so the accepted texts are exactly those of the grammar *)
Theorem C65_exactly : forall txt type xid m, text2mpflow txt type xid = Ok m <-> flows_message notation txt type xid m.
Proof. intros txt type xid m. split; [apply flows_sound|apply flows_read]. Qed.
(** everything else raises an exception *)
Theorem C65_refused : forall txt type xid, (forall m, ~ flows_message notation txt type xid m) -> exists e, text2mpflow txt type xid = Raise e.
Proof.
  intros txt type xid Hs. destruct (text2mpflow txt type xid) as [m|e|] eqn:E; [|eauto|].
  - apply flows_sound in E. now destruct (Hs m).
  - now apply text2mpflow_total in E.
Qed.
(** the grammar is unambiguous *)
Theorem C65_unambiguous : forall txt type xid m m', flows_message notation txt type xid m -> flows_message notation txt type xid m' -> m = m'.
Proof. intros txt type xid m m' H H'. apply flows_read in H, H'. congruence. Qed.
(** what a user would write is part of it *)
Theorem C65_covers : forall l ss xid, Forall2 writes_fstat l ss -> l <> [] -> Forall fstat_ok l -> in_bytes 4 xid -> Z.of_nat (16 + length (fstats_wire l)) <= 65535 ->
  flows_message notation (lines ss) 19 xid (mp_wire 19 xid 1 0 (fstats_wire l)).
Proof. intros. now apply flows_sound, fstats_encode. Qed.

Ltac w := eapply get_word; [vm_compute; reflexivity|reflexivity].
Ltac v := eapply get_valued; [vm_compute; reflexivity|reflexivity].
Ltac n := apply next_iff; vm_compute; reflexivity.
Ltac num := apply literal_iff; reflexivity.
(** a derivation, step by step *)
Example C65_case : row_counts (fun c => c <> CRef) $"packet_count=5,byte_count=6 table=3 @goto=4" [(CPackets, 5); (CBytes, 6)] $" table=3 @goto=4"
  /\ rule_reads notation AtEntry $" table=3 @goto=4" [RSet (STable 3); RInstr (Goto 4)].
Proof.
  split.
  - eapply (ct_count _ _ _ CPackets); [n|discriminate|v|num|]. eapply (ct_count _ _ _ CBytes); [n|discriminate|v|num|]. eapply ct_end; [n|]. intros [] _; discriminate.
  - eapply rr_set; [w|eapply st_table; [v|num]|]. eapply rr_instr; [w| |apply rr_end]. eapply is_goto; [now left|v|num|unfold in_bytes; cbn; lia].
Qed.
Example C65_case_message : text2mpflow ($"packet_count=5,byte_count=6 table=3 @goto=4" ++ 10 :: $"table=4") 19 9
  = Ok (mp_wire 19 9 1 0 (fstat_wire (FStat 5 6 0 0 (fold_left apply_set [STable 3] read_defaults) [] [Goto 4])
                          ++ fstat_wire (FStat 0 0 0 0 (fold_left apply_set [STable 4] read_defaults) [] []))).
Proof. vm_compute. reflexivity. Qed.
Example C65_case2 : map (fun s => text2mpflow s 19 9) [$"packet_count 5"; $"table=3,packet_count=5"; $"packet_count=0x10000000000000000"; $"ref_count=3"]
  = [Raise AssertionError; Raise KeyError; Raise StructError; Raise KeyError].
Proof. vm_compute. reflexivity. Qed.
(** a reply drops out_port, out_group, buffer and cookie masks, whatever their value; a request
    drops everything but table, port, group, cookie and the match *)
Theorem C65_ignored_refuted : forall xid,
  text2mpflow $"out_port=0x123456789,out_group=0x123456789,buffer=0x123456789,cookie=7/0x12345678901234567" 19 xid = text2mpflow $"cookie=7" 19 xid
  /\ text2mpflow $"packet_count=0x12345678901234567,priority=0x12345,table=3 @goto=4" 18 xid = text2mpflow $"table=3" 18 xid.
Proof. intros xid. split; reflexivity. Qed.

(** ** C66 *)
Theorem C66_grammar : forall txt type xid m, text2mpgroupdesc txt type xid = Ok m -> descs_message notation txt type xid m.
Proof. exact descs_sound. Qed.
Theorem C66_complete : forall txt type xid m, descs_message notation txt type xid m -> text2mpgroupdesc txt type xid = Ok m.
Proof. exact descs_read. Qed.
Theorem C66_exactly : forall txt type xid m, text2mpgroupdesc txt type xid = Ok m <-> descs_message notation txt type xid m.
Proof. intros txt type xid m. split; [apply descs_sound|apply descs_read]. Qed.
Theorem C66_refused : forall txt type xid, (forall m, ~ descs_message notation txt type xid m) -> exists e, text2mpgroupdesc txt type xid = Raise e.
Proof.
  intros txt type xid Hs. destruct (text2mpgroupdesc txt type xid) as [m|e|] eqn:E; [|eauto|].
  - apply descs_sound in E. now destruct (Hs m).
  - now apply text2mpgroupdesc_total in E.
Qed.
Theorem C66_unambiguous : forall txt type xid m m', descs_message notation txt type xid m -> descs_message notation txt type xid m' -> m = m'.
Proof. intros txt type xid m m' H H'. apply descs_read in H, H'. congruence. Qed.
Theorem C66_covers : forall l ss xid, Forall2 writes_gdesc l ss -> l <> [] -> Forall gdesc_ok l -> in_bytes 4 xid -> Z.of_nat (16 + length (gdescs_wire l)) <= 65535 ->
  descs_message notation (lines ss) 19 xid (mp_wire 19 xid 7 0 (gdescs_wire l)).
Proof. intros. now apply descs_sound, gdescs_encode. Qed.
Example C66_case_head : dheads $"group=5,SeLect @bucket weight=3 @bucket dec_nw_ttl" [HGroup 5; HType GSelect] $" @bucket weight=3 @bucket dec_nw_ttl".
Proof.
  eapply dh_group; [n|v|num|]. eapply (dh_type _ _ _ GSelect); [n|repeat (constructor; [unfold letter_case; cbn; lia|]); constructor|].
  eapply dh_end; [n|discriminate|]. intros [] K; apply lower_case_iff in K; discriminate.
Qed.
Example C66_case : dbuckets notation $" @bucket weight=3 @bucket dec_nw_ttl" [[BPSet (BWeight 3)]; [BPAct (act_wire (Noarg DecNwTtl))]].
Proof.
  eapply db_word; [n|]. eapply db_bucket; [n|discriminate| |discriminate|].
  - eapply bt_set; [w|eapply bs_weight; [v|num]|]. eapply bt_at; [w|now exists $"bucket"].
  - eapply db_word; [n|]. eapply db_bucket; [n|discriminate| |discriminate|apply db_end].
    eapply bt_act; [w|now apply at_no|cbn; intuition discriminate| | |].
    + eapply ar_eq; [n|apply (s_noarg notation DecNwTtl)|vm_compute; discriminate].
    + discriminate.
    + apply bt_end.
Qed.
Example C66_case_message : text2mpgroupdesc $"group=5,SeLect @bucket weight=3 @bucket dec_nw_ttl" 19 9
  = Ok (mp_wire 19 9 7 0 (be 2 48 ++ be 1 1 ++ pad 1 ++ be 4 5 ++ flat_map (bucket_part GSelect) [[BPSet (BWeight 3)]; [BPAct (act_wire (Noarg DecNwTtl))]])).
Proof. vm_compute. reflexivity. Qed.
Example C66_case2 : map (fun s => text2mpgroupdesc s 19 9) [$"group 5"; $"group=all"; $"group=0x123456789"; $"group=5 @bucket weight=70000"]
  = [Raise AssertionError; Raise ValueError; Raise StructError; Raise StructError].
Proof. vm_compute. reflexivity. Qed.
(** a word with "@" other than "@bucket" silently ends the line, whatever follows *)
Theorem C66_dropped_refuted : forall s nm u, word s nm u -> at_word nm -> nm <> $"@bucket" -> dbuckets notation s [].
Proof. intros s nm u W A H. pose proof W as (h & N & _). eapply db_drop; eauto. eapply bt_at; eauto. Qed.
Example C66_dropped_refuted_case : text2mpgroupdesc $"group=5,all @buckets weight=3" 19 9 = text2mpgroupdesc $"group=5,all" 19 9.
Proof. vm_compute. reflexivity. Qed.

(** ** C67 *)
Theorem C67_exactly : forall txt type xid m, text2mpgroup txt type xid = Ok m <-> stats_message txt type xid m.
Proof. exact stats_iff. Qed.
Theorem C67_refused : forall txt type xid, (forall m, ~ stats_message txt type xid m) -> exists e, text2mpgroup txt type xid = Raise e.
Proof.
  intros txt type xid Hs. destruct (text2mpgroup txt type xid) as [m|e|] eqn:E; [|eauto|].
  - apply stats_iff in E. now destruct (Hs m).
  - now apply text2mpgroup_total in E.
Qed.
Theorem C67_unambiguous : forall txt type xid m m', stats_message txt type xid m -> stats_message txt type xid m' -> m = m'.
Proof. intros txt type xid m m' H H'. apply stats_iff in H, H'. congruence. Qed.
Theorem C67_covers : forall l ss xid, Forall2 writes_stat l ss -> l <> [] -> Forall gstat_ok l -> in_bytes 4 xid -> Z.of_nat (16 + length (gstats_wire l)) <= 65535 ->
  stats_message (lines ss) 19 xid (mp_wire 19 xid 6 0 (gstats_wire l)).
Proof. intros. now apply stats_iff, gstats_encode. Qed.
Example C67_case : ids $"group=5 ref_count=1,packet_count=2 @bucket byte_count=7" [5] $" ref_count=1,packet_count=2 @bucket byte_count=7"
  /\ SpecMpText.gstats $" ref_count=1,packet_count=2 @bucket byte_count=7" [(CRef, 1); (CPackets, 2)] [[(CBytes, 7)]].
Proof.
  split; [eapply id_more; [n|v|num|]; eapply id_stop; [n|discriminate]|].
  eapply (gs_count _ _ CRef); [n|v|num|]. eapply (gs_count _ _ CPackets); [n|v|num|]. eapply gs_word; [n|]. eapply (bs_count _ _ CBytes); [n|now right|v|num|]. apply bs_end.
Qed.
Example C67_case_message : text2mpgroup $"group=5 ref_count=1,packet_count=2 @bucket byte_count=7" 19 9 = Ok (mp_wire 19 9 6 0 (gstat_wire (GStat 5 1 2 0 0 0 [(0, 7)]))).
Proof. vm_compute. reflexivity. Qed.
Example C67_case2 : map (fun s => text2mpgroup s 19 9) [$"group=all"; $"junk"; $"group=5 @bucket 7"; $"group=5 ref_count=0x123456789"]
  = [Raise ValueError; Raise AssertionError; Raise AssertionError; Raise StructError].
Proof. vm_compute. reflexivity. Qed.
(** the first NAME=VALUE with another name silently ends the line, whatever follows *)
Theorem C67_dropped_refuted : forall y xid, one_line y -> text2mpgroup ($"group=5,junk=3," ++ y) 19 xid = text2mpgroup $"group=5" 19 xid.
Proof.
  intros y xid Hy. unfold text2mpgroup. change (negb (19 =? OFPT_MULTIPART_REPLY)) with false. cbv iota.
  rewrite (split_all_none 10 ($"group=5,junk=3," ++ y)). 2: { change (one_line ($"group=5,junk=3," ++ y)). apply one_line_app. split; [apply lit_line; reflexivity|exact Hy]. }
  cbn [map]. replace (mpg_body ($"group=5,junk=3," ++ y)) with (mpg_body $"group=5") by reflexivity. reflexivity.
Qed.
Print Assumptions C65_grammar.
Print Assumptions C65_complete.
Print Assumptions C65_exactly.
Print Assumptions C65_refused.
Print Assumptions C65_unambiguous.
Print Assumptions C65_covers.
Print Assumptions C66_grammar.
Print Assumptions C66_complete.
Print Assumptions C66_exactly.
Print Assumptions C66_refused.
Print Assumptions C66_unambiguous.
Print Assumptions C66_covers.
Print Assumptions C66_dropped_refuted.
Print Assumptions C67_exactly.
Print Assumptions C67_refused.
Print Assumptions C67_unambiguous.
Print Assumptions C67_covers.
Print Assumptions C67_dropped_refuted.
Print Assumptions C65_ignored_refuted.
