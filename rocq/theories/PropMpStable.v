(** Properties C69 and C70: accepted multipart texts have a meaning, and printing one keeps it
    (ofp4.py). *)
From Coq Require Import Strings.Ascii.
From Verif Require Import Base PyNum Util PyLib OxmCodec OxmTables Oxm Nx Ofp4 Spec SpecOxm SpecOfp SpecMp.
From Verif Require Import BaseFacts OxmFacts OxmMore ActFrame ActDenote FlowFrame FlowDenote GroupText GroupDenote Steady MpBase MpFlow MpGroup MpStat MpFrame MpDenote PropMp.

(** ** C69 *)
(** the message is the wire form of one entry for each line *)
Theorem C69_flow : forall txt xid m, text2mpflow txt 19 xid = Ok m ->
  (exists b, irregular b /\ contains m b)
  \/ exists l, m = mp_wire 19 xid 1 0 (fstats_wire l) /\ length l = line_count txt /\ in_bytes 4 xid /\ Z.of_nat (length m) <= 65535 /\ Forall fstat_known l.
Proof. exact mpflow_denotes. Qed.
Theorem C69_flow_range : forall e, fstat_known e -> no_short (fs_instrs e) -> fstat_ok e.
Proof. exact fstat_known_ok. Qed.
Theorem C69_desc : forall txt xid m, text2mpgroupdesc txt 19 xid = Ok m ->
  (exists b, irregular b /\ contains m b)
  \/ exists l, m = mp_wire 19 xid 7 0 (gdescs_wire l) /\ length l = line_count txt /\ in_bytes 4 xid /\ Z.of_nat (length m) <= 65535 /\ Forall gdesc_known l.
Proof. exact mpgroupdesc_denotes. Qed.
Theorem C69_desc_range : forall e, gdesc_known e -> no_short_in (gd_buckets e) -> gdesc_ok e.
Proof. exact gdesc_known_ok. Qed.
Example C69_case :
  text2mpflow ($" packet_count = 0x10, vlan_vid=0x1005 ,buffer=0x1234567890 cookie=7/9 @write set_queue(3) @goto=1" ++ [10]) 19 9
    = Ok (mp_wire 19 9 1 0 (fstats_wire [FStat 16 0 0 0 (Fixed 7 0 0 0 0 0 0 0 0 0) [Tlv (Field $"vlan_vid" Basic 6 (KInt 2 (Hex 0) (Some (Hex 0)))) [x10; x05] None] [WriteActions [SetQueue 3]; Goto 1];
                                         FStat 0 0 0 0 (Fixed 0 0 0 0 0 0 0 0 0 0) [] []]))
  /\ text2mpgroupdesc $"FF, group = 0x10 @bucket watch_port=1 output=1" 19 9 = Ok (mp_wire 19 9 7 0 (gdescs_wire [GDesc GFF 16 [Bucket 0 1 0xffffffff [Output 1 0xffff]]])).
Proof. vm_compute. auto. Qed.
(** an irregular action: a 4-byte tunnel number under the number of the 8-byte action *)
Theorem C69_tunnel_refuted : exists m, text2mpflow $"@apply,set_tunnel64(5)" 19 1 = Ok m /\ m = firstn 80 m ++ nx_act 9 (be 4 5).
Proof. eexists. split; vm_compute; reflexivity. Qed.

(** ** C70 *)
Lemma steady_fstat e : fstat_known e -> Forall steady (fs_match e) -> no_short (fs_instrs e) -> Forall instr_printable (fs_instrs e) -> fshown e.
Proof.
  intros K Hst Hn Hp. pose proof (fstat_known_ok e K Hn) as Ho. destruct K as (_ & _ & _ & _ & _ & K1 & K2 & K3 & K4 & K5 & K6 & _ & _).
  destruct (steady_all _ Hst) as [G P]; [eapply Forall_impl; [|exact K6]; now intros t [_ Hs]|]. split; [exact Ho|]. split; [|exact K5]. unfold fstat_printable. auto 10.
Qed.
Lemma some_entry {A} (l : list A) s : length l = line_count s -> l <> [].
Proof. intros H ->. discriminate H. Qed.
Lemma reread_twice l : map reread (map reread l) = map reread l.
Proof.
  rewrite map_map. apply map_ext. intros [a b c d [c0 m t p i h bf op og fl] ts is]. unfold reread. cbn [fs_packets fs_bytes fs_sec fs_nsec fs_fixed fs_match fs_instrs reread_fixed].
  destruct (p =? 0x8000) eqn:E; [reflexivity|now rewrite E].
Qed.
Lemma reread_length l : length (fstats_wire (map reread l)) = length (fstats_wire l).
Proof.
  unfold fstats_wire. induction l as [|e l IH]; [reflexivity|]. cbn [map flat_map]. rewrite !app_length, IH. rewrite !fstat_length. reflexivity.
Qed.
(** a reply text, printed and read again, gives the same message, but the priority 0x8000 becomes 0 *)
Theorem C70_flow : forall txt xid m, text2mpflow txt 19 xid = Ok m ->
  (exists b, irregular b /\ contains m b)
  \/ exists l, m = mp_wire 19 xid 1 0 (fstats_wire l) /\ length l = line_count txt
     /\ (Forall (fun e => Forall steady (fs_match e) /\ no_short (fs_instrs e) /\ Forall instr_printable (fs_instrs e)) l ->
         exists t, mpflow2text m = Ok t /\ text2mpflow t 19 xid = Ok (mp_wire 19 xid 1 0 (fstats_wire (map reread l)))
           /\ (Forall (fun e => x_priority (fs_fixed e) <> 0x8000) l -> text2mpflow t 19 xid = Ok m)).
Proof.
  intros txt xid m H. destruct (mpflow_denotes _ _ _ H) as [Hi|(l & Em & Hl & Hx & Hs & Hk)]; [auto|]. right. exists l. split; [exact Em|]. split; [exact Hl|]. intros Hst.
  assert (Hg : Forall fshown l).
  { clear -Hk Hst. induction Hk as [|e l He _ IH]; [constructor|]. inversion Hst as [|? ? (H1 & H2 & H3) Hst']; subst. constructor; auto using steady_fstat. }
  assert (Hz : Z.of_nat (16 + length (fstats_wire l)) <= 65535) by (rewrite Em, mp_length in Hs; exact Hs).
  exists (lines (map fstat_text l)). rewrite Em. split; [|split].
  - apply one_reply; auto. eapply Forall_impl; [|exact Hg]. intros e (H1 & H2 & _). auto.
  - apply fstats_reread; auto. eapply some_entry, Hl.
  - intros Hp. apply C41_text; auto; [|eapply some_entry, Hl]. clear -Hg Hp. induction Hg as [|e l (H1 & H2 & H3) _ IH]; [constructor|]. inversion Hp; subst. constructor; auto. split; auto.
Qed.
(** and a second round changes nothing *)
Theorem C70_settles : forall l xid, Forall fshown l -> l <> [] -> in_bytes 4 xid -> Z.of_nat (16 + length (fstats_wire l)) <= 65535 ->
  forall m t, mpflow2text (mp_wire 19 xid 1 0 (fstats_wire l)) = Ok t -> text2mpflow t 19 xid = Ok m ->
  exists u, mpflow2text m = Ok u /\ text2mpflow u 19 xid = Ok m.
Proof.
  intros l xid Hg Hl Hx Hz m t Hp Hr. pose proof (C41_reread l xid Hg Hl Hx Hz) as E. rewrite Hp in E. cbn [bind] in E. rewrite Hr in E. injection E as Em.
  assert (Hg' : Forall fshown (map reread l)).
  { clear -Hg. induction Hg as [|e l (H1 & H2 & H3) _ IH]; [constructor|]. constructor; [|exact IH].
    destruct e as [a b c d [c0 mk t p i h bf op og fl] ts is]. unfold reread. cbn [reread_fixed fs_packets fs_bytes fs_sec fs_nsec fs_fixed fs_match fs_instrs].
    assert (Hw : forall x y, length (fstat_wire (FStat a b c d x ts is)) = length (fstat_wire (FStat a b c d y ts is))) by (intros x y; rewrite !fstat_length; reflexivity).
    split; [|split; [exact H2|exact H3]]. destruct H1 as (A1 & A2 & A3 & A4 & A5 & A6 & A7). unfold fstat_ok. rewrite (Hw _ (Fixed c0 mk t p i h bf op og fl)).
    do 4 (split; [assumption|]). split; [|split; [exact A6|exact A7]]. destruct A5 as (B1 & B2 & B3 & B4 & B). split; [exact B1|split; [exact B2|split; [exact B3|split; [|exact B]]]].
    cbn [fs_fixed x_priority] in *. destruct (p =? 0x8000); [|exact B4]. unfold in_bytes. cbn. lia. }
  exists (lines (map fstat_text (map reread l))). subst m. split.
  - apply one_reply; [eapply Forall_impl; [|exact Hg']; intros e (H1 & H2 & _); auto|exact Hx|now rewrite reread_length].
  - rewrite fstats_reread; auto; [now rewrite reread_twice|intros K; apply Hl; now destruct l|now rewrite reread_length].
Qed.
Theorem C70_desc : forall txt xid m, text2mpgroupdesc txt 19 xid = Ok m ->
  (exists b, irregular b /\ contains m b)
  \/ exists l, m = mp_wire 19 xid 7 0 (gdescs_wire l) /\ length l = line_count txt
     /\ (Forall (fun e => no_short_in (gd_buckets e) /\ Forall (bucket_printable (gd_type e)) (gd_buckets e) /\ Forall (fun b => bucket_texts (gd_type e) b <> []) (gd_buckets e)) l ->
         exists t, mpgroupdesc2text m = Ok t /\ text2mpgroupdesc t 19 xid = Ok m).
Proof.
  intros txt xid m H. destruct (mpgroupdesc_denotes _ _ _ H) as [Hi|(l & Em & Hl & Hx & Hs & Hk)]; [auto|]. right. exists l. split; [exact Em|]. split; [exact Hl|]. intros Hst.
  assert (Hg : Forall good_gdesc l).
  { clear -Hk Hst. induction Hk as [|e l He _ IH]; [constructor|]. inversion Hst as [|? ? (H1 & H2 & H3) Hst']; subst. constructor; auto. pose proof (gdesc_known_ok e He H1) as Ho. split; [exact Ho|].
    destruct Ho as (_ & Hb & _). clear -Hb H2 H3. induction (gd_buckets e); [constructor|]. inversion Hb; inversion H2; inversion H3; subst. constructor; auto. split; auto. }
  assert (Hz : Z.of_nat (16 + length (gdescs_wire l)) <= 65535) by (rewrite Em, mp_length in Hs; exact Hs).
  pose proof (C42_binary l xid Hg (some_entry _ _ Hl) Hx Hz) as B. rewrite <- Em in B. destruct (mpgroupdesc2text m) as [t|e|]; cbn [bind] in B; try discriminate. eauto.
Qed.
Theorem C70_group : forall txt xid m, text2mpgroup txt 19 xid = Ok m ->
  exists l, m = mp_wire 19 xid 6 0 (gstats_wire l) /\ length l = line_count txt /\ mpgroup2text m = Ok (lines (map gstat_text l))
     /\ (Forall (fun e => gs_id e <> 0xfffffffc /\ gs_id e <> 0xffffffff /\ stat_texts e <> []) l -> text2mpgroup (lines (map gstat_text l)) 19 xid = Ok m).
Proof.
  intros txt xid m H. apply mpgroup_framed in H as (l & (Em & _ & Hx & Hs) & Hl & Ho). exists l. split; [exact Em|]. split; [exact Hl|].
  assert (Hz : Z.of_nat (16 + length (gstats_wire l)) <= 65535) by (rewrite Em, mp_length in Hs; exact Hs).
  rewrite Em. split; [now apply C43_shown|]. intros Hg. apply C43_text; auto; [|eapply some_entry, Hl]. clear -Ho Hg. induction Ho as [|e l He _ IH]; [constructor|]. inversion Hg; subst. constructor; auto. split; auto.
Qed.
Example C70_case : let s := $" packet_count = 0x10, vlan_vid=0x1005 ,buffer=0x1234567890 cookie=7/9 @write set_queue(3) @goto=1" in
  (m <- text2mpflow s 19 9 ;; mpflow2text m) = Ok $"packet_count=16 cookie=0x7,priority=0,vlan_vid=0x1005,@write,set_queue=3,@goto=1"
  /\ text2mpflow $"packet_count=16 cookie=0x7,priority=0,vlan_vid=0x1005,@write,set_queue=3,@goto=1" 19 9 = text2mpflow s 19 9
  /\ (m <- text2mpgroupdesc $"FF, group = 0x10 @bucket watch_port=1 output=1" 19 9 ;; mpgroupdesc2text m) = Ok $"group=16,ff,@bucket,watch_port=1,output=1"
  /\ (m <- text2mpgroup $" group = 0x10,packet_count=7 @bucket byte_count = 0x2" 19 9 ;; mpgroup2text m) = Ok $"group=16 packet_count=7,@bucket,byte_count=2".
Proof. vm_compute. auto. Qed.
(** the priority 0x8000 gets lost, and the id of all groups is printed as a word that is not read *)
Theorem C70_priority_refuted : exists m m', text2mpflow $"priority=32768" 19 1 = Ok m /\ mpflow2text m = Ok [] /\ text2mpflow [] 19 1 = Ok m' /\ m' <> m.
Proof. eexists. eexists. split; [vm_compute; reflexivity|]. split; [vm_compute; reflexivity|]. split; [vm_compute; reflexivity|discriminate]. Qed.
Theorem C70_all_refuted : exists m, text2mpgroup $"group=4294967292,packet_count=1" 19 1 = Ok m /\ mpgroup2text m = Ok $"group=all packet_count=1"
  /\ text2mpgroup $"group=all packet_count=1" 19 1 = Raise ValueError.
Proof. eexists. split; [vm_compute; reflexivity|]. split; vm_compute; reflexivity. Qed.

Print Assumptions C69_flow.
Print Assumptions C69_flow_range.
Print Assumptions C69_desc.
Print Assumptions C69_desc_range.
Print Assumptions C70_flow.
Print Assumptions C70_settles.
Print Assumptions C70_desc.
Print Assumptions C70_group.
