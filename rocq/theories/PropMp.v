(** C41-C44: multipart messages. *)
From Coq Require Import Strings.Ascii.
From Verif Require Import Base PyNum Util PyLib OxmCodec OxmTables Oxm Nx Ofp4 Spec SpecOxm SpecOfp SpecMp.
From Verif Require Import BaseFacts UtilFacts NumFacts OxmRead OxmPrint OxmFacts OxmFrame OxmMore TermFacts OfpTerm.
From Verif Require Import ActBase ActRead ActReadNx ActReadReg ActReadLearn ActPrint ActText ActFrame FlowRead FlowMod FlowText FlowFrame GroupRead GroupText GroupFrame MpBase MpFlow MpGroup MpStat MpFrame.

(** ** C41 *)
(** any spelling of the lines: counters first, then a flow rule *)
Theorem C41_encodes : forall l ss xid, Forall2 writes_fstat l ss -> l <> [] -> Forall fstat_ok l -> in_bytes 4 xid -> Z.of_nat (16 + length (fstats_wire l)) <= 65535 ->
  text2mpflow (lines ss) 19 xid = Ok (mp_wire 19 xid 1 0 (fstats_wire l)).
Proof. exact fstats_encode. Qed.
(** a reply in several messages, whatever their xids and flags *)
Theorem C41_prints : forall ms : list (Z * Z * list fstat),
  Forall (fun m => Forall (fun e => fstat_ok e /\ fstat_printable e) (snd m) /\ part_ok (fstats_wire (snd m)) (fst (fst m)) (snd (fst m))) ms ->
  mpflow2text (flat_map (fun m => mp_wire 19 (fst (fst m)) 1 (snd (fst m)) (fstats_wire (snd m))) ms) = Ok (lines (map fstat_text (flat_map snd ms))).
Proof. exact fstats_print. Qed.
Theorem C41_text : forall l xid, Forall good_fstat l -> l <> [] -> in_bytes 4 xid -> Z.of_nat (16 + length (fstats_wire l)) <= 65535 ->
  text2mpflow (lines (map fstat_text l)) 19 xid = Ok (mp_wire 19 xid 1 0 (fstats_wire l)).
Proof. intros l xid Hg Hl Hx Hs. rewrite fstats_reread by auto using good_shown. now rewrite reread_goods. Qed.
Lemma one_reply xid l : Forall (fun e => fstat_ok e /\ fstat_printable e) l -> in_bytes 4 xid -> Z.of_nat (16 + length (fstats_wire l)) <= 65535 ->
  mpflow2text (mp_wire 19 xid 1 0 (fstats_wire l)) = Ok (lines (map fstat_text l)).
Proof.
  intros Hg Hx Hs. pose proof (fstats_print [(xid, 0, l)]) as P. cbn [flat_map fst snd] in P. rewrite !app_nil_r in P. apply P. constructor; [|constructor]. split; [exact Hg|].
  split; [exact Hx|]. split; [unfold in_bytes; cbn; lia|exact Hs].
Qed.
Theorem C41_binary : forall l xid, Forall good_fstat l -> l <> [] -> in_bytes 4 xid -> Z.of_nat (16 + length (fstats_wire l)) <= 65535 ->
  (s <- mpflow2text (mp_wire 19 xid 1 0 (fstats_wire l)) ;; text2mpflow s 19 xid) = Ok (mp_wire 19 xid 1 0 (fstats_wire l)).
Proof.
  intros l xid Hg Hl Hx Hs. rewrite one_reply; [|eapply Forall_impl; [|exact Hg]; intros e (H1 & H2 & _); auto|auto|auto]. cbn [bind]. apply C41_text; auto.
Qed.
(** what comes back of any entry whose flags have names: priority 0x8000 becomes 0 *)
Theorem C41_reread : forall l xid, Forall fshown l -> l <> [] -> in_bytes 4 xid -> Z.of_nat (16 + length (fstats_wire l)) <= 65535 ->
  (s <- mpflow2text (mp_wire 19 xid 1 0 (fstats_wire l)) ;; text2mpflow s 19 xid) = Ok (mp_wire 19 xid 1 0 (fstats_wire (map reread l))).
Proof.
  intros l xid Hg Hl Hx Hs. rewrite one_reply; [|eapply Forall_impl; [|exact Hg]; intros e (H1 & H2 & _); auto|auto|auto]. cbn [bind]. apply fstats_reread; auto.
Qed.
Theorem C41_request : forall es is s type xid, writes_flow es is s -> one_line s -> Forall instr_ok is -> fixed_ok (fixed_of request_defaults es) ->
  type <> 19 -> in_bytes 1 type -> in_bytes 4 xid -> Z.of_nat (16 + length (frequest_wire (fixed_of request_defaults es) (matches_of es))) <= 65535 ->
  text2mpflow s type xid = Ok (mp_wire type xid 1 0 (frequest_wire (fixed_of request_defaults es) (matches_of es))).
Proof. exact frequest_encodes. Qed.
Example C41_case :
  let e1 := FStat 10 0 3 0 (Fixed 0 0 0 5 0 0 0 0 0 0) [] [ApplyActions [Output 1 0xffff]] in
  let e2 := FStat 0 0 0 7 (Fixed 0 0 2 0x8000 0 0 0 0 0 1) [] [] in
  lines (map fstat_text [e1; e2]) = $"packet_count=10,duration_sec=3 priority=5,@apply,output=1" ++ [10] ++ $"duration_nsec=7 table=2,send_flow_rem"
  /\ text2mpflow (lines (map fstat_text [e1; e2])) 19 9 = Ok (mp_wire 19 9 1 0 (fstats_wire [e1; reread e2]))
  /\ mpflow2text (mp_wire 19 9 1 1 (fstats_wire [e1]) ++ mp_wire 19 9 1 0 (fstats_wire [e2])) = Ok (lines (map fstat_text [e1; e2]))
  /\ length (mp_wire 19 9 1 0 (fstats_wire [e1; e2])) = 152%nat
  /\ text2mpflow ($" packet_count = 9 packet_count=0xa, duration_sec=3 , priority=5 @apply, output(1)" ++ [10] ++ $"duration_nsec=7,table=2,send_flow_rem") 19 9 = Ok (mp_wire 19 9 1 0 (fstats_wire [e1; reread e2])).
Proof. vm_compute. auto 10. Qed.
(** the two default priorities *)
Theorem C41_priority_refuted : forall e xid, fshown e -> x_priority (fs_fixed e) = 0x8000 -> in_bytes 4 xid -> Z.of_nat (16 + length (fstat_wire e)) <= 65535 ->
  (s <- mpflow2text (mp_wire 19 xid 1 0 (fstat_wire e)) ;; text2mpflow s 19 xid) <> Ok (mp_wire 19 xid 1 0 (fstat_wire e)).
Proof.
  intros e xid He Hp Hx Hs. pose proof (C41_reread [e] xid) as P. unfold fstats_wire in P. cbn [flat_map map] in P. rewrite !app_nil_r in P. rewrite P; auto; [|discriminate].
  assert (K : forall f, firstn 2 (skipn 12 (skipn 16 (mp_wire 19 xid 1 0 (fstat_wire f)))) = be 2 (x_priority (fs_fixed f))) by (intros f; reflexivity).
  intros E. apply (f_equal (fun r => match r with Ok m => firstn 2 (skipn 12 (skipn 16 m)) | _ => [] end)) in E. cbv beta iota in E. rewrite !K in E. unfold reread in E. cbn [fs_fixed] in E.
  destruct (fs_fixed e) as [c m t p i h b op og fl]. cbn [x_priority] in Hp. subst p. vm_compute in E. discriminate.
Qed.
(** an empty reply is an empty text, which is one entry *)
Theorem C41_empty_refuted : forall xid, in_bytes 4 xid -> mpflow2text (mp_wire 19 xid 1 0 []) = Ok []
  /\ text2mpflow [] 19 xid = Ok (mp_wire 19 xid 1 0 (fstat_wire (FStat 0 0 0 0 read_defaults [] []))).
Proof.
  intros xid Hx. split; [apply (one_reply xid []); auto; cbn; lia|].
  pose proof (fstats_encode [FStat 0 0 0 0 read_defaults [] []] [[]] xid) as P. unfold fstats_wire in P. cbn [flat_map] in P. rewrite !app_nil_r in P. apply P; auto; [|discriminate| |vm_compute; discriminate].
  - constructor; [|constructor]. split; [intros []|]. exists [], [], []. split; [|reflexivity]. constructor. constructor.
  - constructor; [|constructor]. repeat match goal with |- _ /\ _ => split | |- fstat_ok _ => unfold fstat_ok, fixed_ok | |- in_bytes _ _ => unfold in_bytes; cbn; lia | |- Forall _ _ => cbn; constructor | |- _ <= 65535 => vm_compute; discriminate end.
Qed.
Theorem C41_request_refuted : forall type xid fl x ts rest, type <> 19 -> in_bytes 1 type -> in_bytes 4 xid -> in_bytes 2 fl -> fixed_ok x -> Forall good ts -> Forall printable ts ->
  Z.of_nat (16 + length (frequest_wire x ts)) <= 65535 -> mpflow2text (mp_wire type xid 1 fl (frequest_wire x ts) ++ rest) = Raise TypeError.
Proof. exact frequest_unprintable. Qed.
Theorem C41_long_refuted : forall l ss xid, Forall2 writes_fstat l ss -> Forall fstat_ok l -> 65535 < Z.of_nat (16 + length (fstats_wire l)) -> text2mpflow (lines ss) 19 xid = Raise NameError.
Proof. exact fstats_too_long. Qed.

(** ** C42 *)
Theorem C42_encodes : forall l ss xid, Forall2 writes_gdesc l ss -> l <> [] -> Forall gdesc_ok l -> in_bytes 4 xid -> Z.of_nat (16 + length (gdescs_wire l)) <= 65535 ->
  text2mpgroupdesc (lines ss) 19 xid = Ok (mp_wire 19 xid 7 0 (gdescs_wire l)).
Proof. exact gdescs_encode. Qed.
Theorem C42_prints : forall ms : list (Z * Z * list gdesc),
  Forall (fun m => Forall (fun e => gdesc_ok e /\ gdesc_printable e) (snd m) /\ part_ok (gdescs_wire (snd m)) (fst (fst m)) (snd (fst m))) ms ->
  mpgroupdesc2text (flat_map (fun m => mp_wire 19 (fst (fst m)) 7 (snd (fst m)) (gdescs_wire (snd m))) ms) = Ok (lines (map gdesc_shown (flat_map snd ms))).
Proof. exact gdescs_print. Qed.
Theorem C42_text : forall l xid, Forall good_gdesc l -> l <> [] -> in_bytes 4 xid -> Z.of_nat (16 + length (gdescs_wire l)) <= 65535 ->
  text2mpgroupdesc (lines (map gdesc_text l)) 19 xid = Ok (mp_wire 19 xid 7 0 (gdescs_wire l)).
Proof. exact gdescs_text_encode. Qed.
Theorem C42_shown : forall xid l, Forall (fun e => gdesc_ok e /\ gdesc_printable e) l -> in_bytes 4 xid -> Z.of_nat (16 + length (gdescs_wire l)) <= 65535 ->
  mpgroupdesc2text (mp_wire 19 xid 7 0 (gdescs_wire l)) = Ok (lines (map gdesc_shown l)).
Proof.
  intros xid l Hg Hx Hs. pose proof (gdescs_print [(xid, 0, l)]) as P. cbn [flat_map fst snd] in P. rewrite !app_nil_r in P. apply P. constructor; [|constructor]. split; [exact Hg|].
  split; [exact Hx|]. split; [unfold in_bytes; cbn; lia|exact Hs].
Qed.
Theorem C42_binary : forall l xid, Forall good_gdesc l -> l <> [] -> in_bytes 4 xid -> Z.of_nat (16 + length (gdescs_wire l)) <= 65535 ->
  (s <- mpgroupdesc2text (mp_wire 19 xid 7 0 (gdescs_wire l)) ;; text2mpgroupdesc s 19 xid) = Ok (mp_wire 19 xid 7 0 (gdescs_wire l)).
Proof.
  intros l xid Hg Hl Hx Hs. rewrite C42_shown by auto using good_gdescs. cbn [bind]. rewrite gdescs_good_shown by auto. apply gdescs_text_encode; auto.
Qed.
(** a request has no body *)
Theorem C42_request : forall txt type xid, type <> 19 -> in_bytes 1 type -> in_bytes 4 xid -> text2mpgroupdesc txt type xid = Ok (mp_wire type xid 7 0 []).
Proof. exact gdesc_request. Qed.
Example C42_case :
  let e1 := GDesc GSelect 5 [Bucket 2 0xffffffff 0xffffffff [Output 1 0xffff]; Bucket 1 7 0xffffffff [Noarg PopVlan]] in
  let e2 := GDesc GAll 6 [] in
  lines (map gdesc_text [e1; e2]) = $"group=5,select,@bucket,weight=2,output=1,@bucket,watch_port=7,pop_vlan" ++ [10] ++ $"group=6,all"
  /\ text2mpgroupdesc (lines (map gdesc_text [e1; e2])) 19 9 = Ok (mp_wire 19 9 7 0 (gdescs_wire [e1; e2]))
  /\ mpgroupdesc2text (mp_wire 19 9 7 1 (gdescs_wire [e1]) ++ mp_wire 19 8 7 0 (gdescs_wire [e2])) = Ok (lines (map gdesc_text [e1; e2]))
  /\ length (mp_wire 19 9 7 0 (gdescs_wire [e1; e2])) = 88%nat
  /\ text2mpgroupdesc ($"SELECT group = 0x5, @bucket weight=2 , output(1),, @bucket watch_port = 0x7 pop_vlan" ++ [10] ++ $"group=6") 19 9 = Ok (mp_wire 19 9 7 0 (gdescs_wire [e1; e2])).
Proof. vm_compute. auto 10. Qed.
(** an empty bucket before another one is lost; a last one is kept if it has default watch values *)
Example C42_bucket_refuted : let b := Bucket 0 0xffffffff 0xffffffff [] in let o := Bucket 0 0xffffffff 0xffffffff [Output 1 0xffff] in
  mpgroupdesc2text (mp_wire 19 9 7 0 (gdescs_wire [GDesc GAll 5 [b; o]])) = Ok $"group=5,all,@bucket,,@bucket,output=1"
  /\ text2mpgroupdesc $"group=5,all,@bucket,,@bucket,output=1" 19 9 = Ok (mp_wire 19 9 7 0 (gdescs_wire [GDesc GAll 5 [o]]))
  /\ mpgroupdesc2text (mp_wire 19 9 7 0 (gdescs_wire [GDesc GAll 5 [o; b]])) = Ok $"group=5,all,@bucket,output=1,@bucket,"
  /\ text2mpgroupdesc $"group=5,all,@bucket,output=1,@bucket," 19 9 = Ok (mp_wire 19 9 7 0 (gdescs_wire [GDesc GAll 5 [o; b]])).
Proof. vm_compute. auto 10. Qed.
Theorem C42_empty_refuted : forall xid, in_bytes 4 xid -> mpgroupdesc2text (mp_wire 19 xid 7 0 []) = Ok []
  /\ text2mpgroupdesc [] 19 xid = Ok (mp_wire 19 xid 7 0 (gdesc_wire (GDesc GAll 0 []))).
Proof.
  intros xid Hx. split; [apply (C42_shown xid []); auto; cbn; lia|].
  pose proof (gdescs_encode [GDesc GAll 0 []] [[]] xid) as P. unfold gdescs_wire in P. cbn [flat_map] in P. rewrite !app_nil_r in P. apply P; auto; [|discriminate| |vm_compute; discriminate].
  - constructor; [|constructor]. split; [intros []|]. exists [], []. split; [constructor|]. split; [constructor|reflexivity].
  - constructor; [|constructor]. split; [unfold in_bytes; cbn; lia|]. split; [constructor|vm_compute; discriminate].
Qed.
Theorem C42_long_refuted : forall l ss xid, Forall2 writes_gdesc l ss -> Forall gdesc_ok l -> 65535 < Z.of_nat (16 + length (gdescs_wire l)) -> text2mpgroupdesc (lines ss) 19 xid = Raise NameError.
Proof. exact gdescs_too_long. Qed.
(** what does not start an action ends the reading of the line, without an error *)
Example C42_junk_refuted : text2mpgroupdesc $"group=5,ff,@bucket,output=1,nonsense,@bucket,output=2" 19 9 = text2mpgroupdesc $"group=5,ff,@bucket,output=1" 19 9.
Proof. vm_compute. auto. Qed.

(** ** C43 *)
Theorem C43_encodes : forall l ss xid, Forall2 writes_stat l ss -> l <> [] -> Forall gstat_ok l -> in_bytes 4 xid -> Z.of_nat (16 + length (gstats_wire l)) <= 65535 ->
  text2mpgroup (lines ss) 19 xid = Ok (mp_wire 19 xid 6 0 (gstats_wire l)).
Proof. exact gstats_encode. Qed.
Theorem C43_prints : forall ms : list (Z * Z * list gstat),
  Forall (fun m => Forall gstat_ok (snd m) /\ part_ok (gstats_wire (snd m)) (fst (fst m)) (snd (fst m))) ms ->
  mpgroup2text (flat_map (fun m => mp_wire 19 (fst (fst m)) 6 (snd (fst m)) (gstats_wire (snd m))) ms) = Ok (lines (map gstat_text (flat_map snd ms))).
Proof. exact gstats_print. Qed.
Theorem C43_shown : forall xid l, Forall gstat_ok l -> in_bytes 4 xid -> Z.of_nat (16 + length (gstats_wire l)) <= 65535 ->
  mpgroup2text (mp_wire 19 xid 6 0 (gstats_wire l)) = Ok (lines (map gstat_text l)).
Proof.
  intros xid l Hg Hx Hs. pose proof (gstats_print [(xid, 0, l)]) as P. cbn [flat_map fst snd] in P. rewrite !app_nil_r in P. apply P. constructor; [|constructor]. split; [exact Hg|].
  split; [exact Hx|]. split; [unfold in_bytes; cbn; lia|exact Hs].
Qed.
Theorem C43_text : forall l xid, Forall good_gstat l -> l <> [] -> in_bytes 4 xid -> Z.of_nat (16 + length (gstats_wire l)) <= 65535 ->
  text2mpgroup (lines (map gstat_text l)) 19 xid = Ok (mp_wire 19 xid 6 0 (gstats_wire l)).
Proof. exact gstats_text_encode. Qed.
Theorem C43_binary : forall l xid, Forall good_gstat l -> l <> [] -> in_bytes 4 xid -> Z.of_nat (16 + length (gstats_wire l)) <= 65535 ->
  (s <- mpgroup2text (mp_wire 19 xid 6 0 (gstats_wire l)) ;; text2mpgroup s 19 xid) = Ok (mp_wire 19 xid 6 0 (gstats_wire l)).
Proof.
  intros l xid Hg Hl Hx Hs. rewrite C43_shown; [|eapply Forall_impl; [|exact Hg]; intros e [H _]; exact H|auto|auto]. cbn [bind]. apply gstats_text_encode; auto.
Qed.
(** of a request only the id of the first line counts *)
Theorem C43_request : forall id cs bs s more type xid, writes_gstat id cs bs s -> one_line s -> Forall one_line more -> type <> 19 -> in_bytes 1 type -> in_bytes 4 xid -> in_bytes 4 id ->
  text2mpgroup (lines (s :: more)) type xid = Ok (mp_wire type xid 6 0 (be 4 id ++ pad 4)).
Proof. exact gstat_request. Qed.
Theorem C43_request_prints : forall type xid fl id, type <> 19 -> in_bytes 1 type -> in_bytes 4 xid -> in_bytes 2 fl -> in_bytes 4 id ->
  mpgroup2text (mp_wire type xid 6 fl (be 4 id ++ pad 4)) = Ok (if id =? 0xfffffffc then [] else if id =? 0xffffffff then $"group=any" else $"group=" ++ dec id).
Proof. exact gstat_request_prints. Qed.
Example C43_case :
  let e1 := GStat 5 1 100 0 7 0 [(60, 0); (0, 0); (40, 1)] in let e2 := GStat 6 0 0 0 0 1 [] in
  lines (map gstat_text [e1; e2]) = $"group=5 ref_count=1,packet_count=100,duration_sec=7,@bucket,packet_count=60,@bucket,@bucket,packet_count=40,byte_count=1" ++ [10] ++ $"group=6 duration_nsec=1"
  /\ text2mpgroup (lines (map gstat_text [e1; e2])) 19 9 = Ok (mp_wire 19 9 6 0 (gstats_wire [e1; e2]))
  /\ mpgroup2text (mp_wire 19 9 6 1 (gstats_wire [e1]) ++ mp_wire 19 8 6 0 (gstats_wire [e2])) = Ok (lines (map gstat_text [e1; e2]))
  /\ length (mp_wire 19 9 6 0 (gstats_wire [e1; e2])) = 144%nat
  /\ text2mpgroup $"group=7" 18 9 = Ok (mp_wire 18 9 6 0 (be 4 7 ++ pad 4)) /\ mpgroup2text (mp_wire 18 9 6 0 (be 4 7 ++ pad 4)) = Ok $"group=7".
Proof. vm_compute. auto 10. Qed.
Theorem C43_all_refuted : forall e ss xid, gs_id e = 0xfffffffc -> Forall one_line (gstat_text e :: ss) -> text2mpgroup (lines (gstat_text e :: ss)) 19 xid = Raise ValueError.
Proof. exact all_raises. Qed.
Theorem C43_bare_refuted : forall e ss xid, gstat_ok e -> gs_id e <> 0xfffffffc -> gs_id e <> 0xffffffff -> stat_texts e = [] -> Forall one_line (gstat_text e :: ss) ->
  text2mpgroup (lines (gstat_text e :: ss)) 19 xid = Raise AssertionError.
Proof. exact bare_raises. Qed.
Theorem C43_long_refuted : forall l ss xid, Forall2 writes_stat l ss -> Forall gstat_ok l -> 65535 < Z.of_nat (16 + length (gstats_wire l)) -> text2mpgroup (lines ss) 19 xid = Raise NameError.
Proof. exact gstats_too_long. Qed.
(** the id OFPG_ANY is not printed and read as 0; "group=any" is not read; the request for all groups is read as the one for group 0 *)
Example C43_ids_refuted :
  (s <- mpgroup2text (mp_wire 19 9 6 0 (gstats_wire [GStat 0xffffffff 1 0 0 0 0 []])) ;; text2mpgroup s 19 9) = Ok (mp_wire 19 9 6 0 (gstats_wire [GStat 0 1 0 0 0 0 []]))
  /\ (s <- mpgroup2text (mp_wire 18 9 6 0 (be 4 0xffffffff ++ pad 4)) ;; text2mpgroup s 18 9) = Raise ValueError
  /\ (s <- mpgroup2text (mp_wire 18 9 6 0 (be 4 0xfffffffc ++ pad 4)) ;; text2mpgroup s 18 9) = Ok (mp_wire 18 9 6 0 (be 4 0 ++ pad 4))
  /\ text2mpgroup $"group=5 packet_count=1,colour=7,byte_count=2" 19 9 = text2mpgroup $"group=5 packet_count=1" 19 9.
Proof. vm_compute. auto 10. Qed.

(** ** C44 *)
(** for every text and every outcome; one entry per line *)
Theorem C44_flow : forall txt type xid m, text2mpflow txt type xid = Ok m -> exists bs, mp_framed type xid 1 (concat bs) m /\ length bs = line_count txt
  /\ Forall (if type =? 19 then fentry_framed else frequest_framed) bs.
Proof. exact mpflow_framed. Qed.
Theorem C44_desc : forall txt xid m, text2mpgroupdesc txt 19 xid = Ok m -> exists bs, mp_framed 19 xid 7 (concat bs) m /\ length bs = line_count txt /\ Forall dentry_framed bs.
Proof. exact mpgroupdesc_framed. Qed.
Theorem C44_desc_request : forall txt type xid m, type <> 19 -> text2mpgroupdesc txt type xid = Ok m -> mp_framed type xid 7 [] m.
Proof. exact mpgroupdesc_request_framed. Qed.
Theorem C44_group : forall txt xid m, text2mpgroup txt 19 xid = Ok m -> exists l, mp_framed 19 xid 6 (gstats_wire l) m /\ length l = line_count txt /\ Forall gstat_ok l.
Proof. exact mpgroup_framed. Qed.
Theorem C44_group_request : forall txt type xid m, type <> 19 -> text2mpgroup txt type xid = Ok m -> exists id, in_bytes 4 id /\ mp_framed type xid 6 (be 4 id ++ pad 4) m.
Proof. exact mpgroup_request_framed. Qed.
Example C44_case : text2mpgroup ($"group=1 ref_count=2" ++ [10]) 19 0x01020304 = Ok (map z2b
  ([4; 19; 0; 96; 1; 2; 3; 4; 0; 6; 0; 0; 0; 0; 0; 0] ++ [0; 40; 0; 0; 0; 0; 0; 1; 0; 0; 0; 2] ++ repeat 0 28 ++ [0; 40] ++ repeat 0 38))
  /\ line_count ($"group=1 ref_count=2" ++ [10]) = 2%nat.
Proof. vm_compute. auto. Qed.
(** a request of several lines is not a message the standard knows: one header, several bodies *)
Example C44_request_refuted : exists m, text2mpflow ($"table=1" ++ [10] ++ $"table=2") 18 9 = Ok m /\ length m = 96%nat
  /\ m = mp_wire 18 9 1 0 (frequest_wire (Fixed 0 0 1 0 0 0 0 0xffffffff 0xffffffff 0) [] ++ frequest_wire (Fixed 0 0 2 0 0 0 0 0xffffffff 0xffffffff 0) []).
Proof. eexists. vm_compute. auto. Qed.

Print Assumptions C41_encodes.
Print Assumptions C41_prints.
Print Assumptions C41_binary.
Print Assumptions C42_encodes.
Print Assumptions C42_binary.
Print Assumptions C43_encodes.
Print Assumptions C43_binary.
Print Assumptions C44_flow.
Print Assumptions C44_desc.
Print Assumptions C44_group.
