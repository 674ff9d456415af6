(** The grammar of multipart texts is what [text2mpflow], [text2mpgroupdesc] and [text2mpgroup]
    read. *)
From Coq Require Import Strings.Ascii.
From Verif Require Import Base PyNum Util PyLib OxmCodec OxmTables Oxm Nx Ofp4 Spec SpecOxm SpecText SpecOfp SpecMp SpecActText SpecFlowText SpecMpText.
From Verif Require Import BaseFacts UtilFacts NumFacts OxmRead OxmPrint OxmFacts OxmFrame OxmGram OxmExact TermFacts OfpTerm.
From Verif Require Import ActBase ActRead ActReadNx ActReadLearn ActFrame ActDenote FlowRead FlowMod FlowFrame GroupRead GroupFrame MpBase MpFlow MpGroup MpStat MpFrame.
From Verif Require Import GramLib GramTok GramField GramAct GramLearn GramStr GramFlow GramGroup.

(** ** Lines *)
Lemma lines_iff txt ls : in_lines txt ls <-> split_all 10 txt = ls.
Proof.
  split.
  - intros (H1 & H2 & ->). now apply lines_split.
  - intros <-. destruct (split_sepby_all 10 txt) as (A & B & C). split; [exact B|]. split; [exact C|]. symmetry. exact A.
Qed.
Lemma mp_sound (row : text -> bytes -> Prop) body mt txt type xid m : (forall s b, body s = Ok b -> row s b) ->
  mp_message type xid mt (map body (split_all 10 txt)) = Ok m -> mp_reads row mt txt type xid m.
Proof.
  intros Hr H. apply message_inv in H as (bs & E & -> & H1 & H2 & H3). rewrite mp_length in H3. exists (split_all 10 txt), bs. split; [now apply lines_iff|].
  split; [|auto]. revert bs E H3. generalize (split_all 10 txt) as ls. induction ls as [|s ls IH]; intros [|b bs] E H3; try discriminate; [constructor|].
  cbn [map] in E. injection E as E1 E2. constructor; [auto|]. apply IH; [exact E2|]. cbn [concat] in H3. rewrite app_length in H3. lia.
Qed.
Lemma body_within (bs : list bytes) b k : In b bs -> Z.of_nat (k + length (concat bs)) <= 65535 -> Z.of_nat (length b) <= 65535.
Proof. induction bs as [|x bs IH]; [contradiction|]. cbn [concat]. rewrite app_length. intros [->|H] L; [lia|]. apply IH; auto. lia. Qed.
Lemma mp_read (row : text -> bytes -> Prop) body mt txt type xid m : in_bytes 2 mt -> (forall s b, row s b -> Z.of_nat (length b) <= 65535 -> body s = Ok b) ->
  mp_reads row mt txt type xid m -> mp_message type xid mt (map body (split_all 10 txt)) = Ok m.
Proof.
  intros Hm Hr (ls & bs & A & F & H1 & H2 & H3 & ->). apply lines_iff in A. rewrite A.
  assert (map body ls = map Ok bs) as ->; [|now apply mp_message_ok].
  assert (K : forall b, In b bs -> Z.of_nat (length b) <= 65535) by (intros b Hb; eapply body_within; eauto). clear -Hr F K.
  induction F as [|s b ls bs R _ IH]; [reflexivity|]. cbn [map]. f_equal; [apply Hr; auto; apply K; now left|]. apply IH. intros b' Hb. apply K. now right.
Qed.
Lemma next_nil : next [] [] [] [].
Proof. apply next_iff. reflexivity. Qed.
Lemma next_some s h nm u : next s h nm u -> nm <> [] -> s <> [].
Proof. intros H Hn ->. apply next_cat in H. destruct h; [|discriminate]. destruct nm; [congruence|discriminate]. Qed.
Lemma next_shorter s h nm u : next s h nm u -> nm <> [] -> (length u < length s)%nat.
Proof. intros H Hn. apply next_cat in H. subst s. rewrite !app_length. destruct nm; [congruence|]. cbn [length]. lia. Qed.
Lemma valued_length u p r : valued u p r -> (length r <= length u)%nat.
Proof. intros H. apply valued_end in H as (x & ->). rewrite app_length. lia. Qed.

(** ** Counters *)
Definition counters_of (ok : counter -> Prop) (names : list text) : Prop := forall nm, in_names nm names = true <-> exists c, ok c /\ nm = counter_name c.
Lemma counts_sound ok names : counters_of ok names -> forall fuel acc s acc' u, counters_go fuel names acc s = Ok (acc', u) ->
  exists cs, row_counts ok s cs u /\ acc' = rev (MpFlow.named cs) ++ acc.
Proof.
  intros Hok. assert (Z0 : forall s h nm u, next s h nm u -> in_names nm names = false -> row_counts ok s [] s).
  { intros s h nm u N Hn. eapply ct_end; eauto. intros c Hc ->. rewrite (proj2 (Hok _)) in Hn by eauto. discriminate. }
  induction fuel as [|fuel IH]; intros acc [|c s] acc' u H; cbn [counters_go] in H; try discriminate;
    try (injection H as <- <-; exists []; split; [|reflexivity]; eapply Z0; [apply next_nil|]; destruct (in_names [] names) eqn:E; [|reflexivity]; apply Hok in E as ([] & _ & E); discriminate).
  remember (c :: s) as v eqn:Ev. clear Ev c s. destruct (get_token v) as [[h nm] r] eqn:Et. apply next_iff in Et. destruct (in_names nm names) eqn:En.
  - destruct (int_arg r) as [[n rest]|e|] eqn:Ei; cbn [bind] in H; try discriminate. apply int_arg_iff in Ei as (p & V & L). apply Hok in En as (c & Hc & ->).
    destruct (IH _ _ _ _ H) as (cs & A & ->). exists ((c, n) :: cs). split; [eapply ct_count; eauto|]. unfold MpFlow.named. cbn [map rev fst snd]. now rewrite <- app_assoc.
  - injection H as <- <-. exists []. split; [|reflexivity]. eapply Z0; eauto.
Qed.
Lemma counter_nonnil c : counter_name c <> [].
Proof. destruct c; discriminate. Qed.
Lemma counts_read ok names s cs u : counters_of ok names -> row_counts ok s cs u -> forall fuel acc, (length s <= fuel)%nat -> counters_go fuel names acc s = Ok (rev (MpFlow.named cs) ++ acc, u).
Proof.
  intros Hok. induction 1 as [s h c u p r n l t N Hc V L _ IH|s h nm u N Hn]; intros fuel acc Hf.
  - pose proof (next_some _ _ _ _ N (counter_nonnil c)) as Hs. pose proof (next_shorter _ _ _ _ N (counter_nonnil c)) as Hl. pose proof (valued_length _ _ _ V) as Hv.
    destruct s as [|c0 s]; [congruence|]. destruct fuel as [|fuel]; [cbn in Hf; lia|]. cbn [counters_go]. apply next_iff in N. rewrite N, (proj2 (Hok _)) by eauto.
    rewrite (proj2 (int_arg_iff u n r)) by eauto. cbn [bind]. rewrite IH by (unfold text in *; cbn [length] in *; lia). unfold MpFlow.named. cbn [map rev fst snd]. now rewrite <- app_assoc.
  - destruct s as [|c s]; [destruct fuel; reflexivity|]. destruct fuel as [|fuel]; [cbn in Hf; lia|]. cbn [counters_go]. apply next_iff in N. rewrite N.
    destruct (in_names nm names) eqn:E; [|reflexivity]. apply Hok in E as (x & Hx & ->). now destruct (Hn x).
Qed.
Lemma in_names_iff nm l : in_names nm l = true <-> In nm l.
Proof. unfold in_names. rewrite existsb_exists. split; [intros (x & H & E); apply text_eqb_eq in E; now subst|intros H; exists nm; split; [exact H|now apply text_eqb_eq]]. Qed.
Lemma flow_counters_of : counters_of (fun c => c <> CRef) flow_counters.
Proof.
  intros nm. rewrite in_names_iff. cbn [flow_counters In]. split.
  - intros [<-|[<-|[<-|[<-|[]]]]]; [exists CPackets|exists CBytes|exists CSec|exists CNsec]; split; try discriminate; reflexivity.
  - intros (c & Hc & ->). destruct c; cbn; auto; congruence.
Qed.

(** ** Flow entries *)
Definition flow_one (type : Z) (s : text) : res bytes := ci <- mpflow_parse s ;; mpflow_body type ci.
Lemma flows_one ls type bs : (exists cis, mapM mpflow_parse ls = Ok cis /\ map (mpflow_body type) cis = map Ok bs) <-> map (flow_one type) ls = map Ok bs.
Proof.
  revert bs. induction ls as [|s ls IH]; intros bs; cbn [mapM map].
  - split; [intros (cis & E & K); injection E as <-; exact K|intros E; exists []; auto].
  - split.
    + intros (cis & E & K). mons E. injection E as <-. destruct bs as [|b bs]; [discriminate|]. cbn [map] in K. injection K as K1 K2. cbn [map]. f_equal.
      * unfold flow_one. rewrite Ea. exact K1.
      * apply IH. eauto.
    + intros E. destruct bs as [|b bs]; [discriminate|]. cbn [map] in E. injection E as E1 E2. apply IH in E2 as (cis & K1 & K2).
      unfold flow_one in E1. destruct (mpflow_parse s) as [ci|e|] eqn:Ep; try discriminate. cbn [bind] in *. rewrite K1. cbn [bind]. exists (ci :: cis). split; [reflexivity|]. cbn [map]. now rewrite E1, K2.
Qed.
Ltac counters cs := change (Ofp4.counter (rev (MpFlow.named cs)) $"duration_sec") with (Ofp4.counter (rev (MpFlow.named cs)) (counter_name CSec)) in *;
  change (Ofp4.counter (rev (MpFlow.named cs)) $"duration_nsec") with (Ofp4.counter (rev (MpFlow.named cs)) (counter_name CNsec)) in *;
  change (Ofp4.counter (rev (MpFlow.named cs)) $"packet_count") with (Ofp4.counter (rev (MpFlow.named cs)) (counter_name CPackets)) in *;
  change (Ofp4.counter (rev (MpFlow.named cs)) $"byte_count") with (Ofp4.counter (rev (MpFlow.named cs)) (counter_name CBytes)) in *;
  change (Ofp4.counter (rev (MpFlow.named cs)) $"ref_count") with (Ofp4.counter (rev (MpFlow.named cs)) (counter_name CRef)) in *.
Lemma flow_row_sound type s b : flow_one type s = Ok b -> flow_row notation type s b.
Proof.
  unfold flow_one, mpflow_parse. intros H. destruct (counters_go _ _ _ s) as [[c u]|e|] eqn:Ec; cbn [bind] in H; try discriminate.
  apply (counts_sound _ _ flow_counters_of) in Ec as (cs & C & ->). rewrite app_nil_r in H. destruct (str2dict u) as [i|e|] eqn:Ed; cbn [bind] in H; try discriminate.
  destruct (dict_sound _ _ Ed) as (l & A1 & A2 & A3). exists cs, u, l. split; [exact C|]. split; [exact A1|]. split; [exact A2|].
  unfold mpflow_body in H. destruct (match_block (i_match i)) as [mb|e|] eqn:Em; cbn [bind] in H; try discriminate. apply match_block_inv in Em.
  change OFPT_MULTIPART_REPLY with 19 in H. destruct (type =? 19) eqn:E19; cbn [negb] in H.
  - destruct (built_parts read_defaults l eq_refl) as (B1 & B2 & B3). rewrite <- A3 in *. cbv zeta. rewrite <- B3. unfold view.
    cbn [read_defaults x_cookie x_mask x_table x_priority x_idle x_hard x_buffer x_port x_group x_flags]. counters cs. rewrite !counter_count in H.
    destruct (pack _ _) as [h|e|] eqn:Ep; cbn [bind] in H; try discriminate. assert (Eb : b = h ++ mb ++ i_inst i) by congruence. clear H.
    assert (EL : 48 + Z.of_nat (length mb) + Z.of_nat (length (i_inst i)) = Z.of_nat (48 + length (mb ++ i_inst i))) by (rewrite app_length; lia). rewrite EL in Ep.
    rewrite B1 in Em. fold (match_wire (r_match l)) in Em. rewrite <- Em, <- B2.
    unfold mpflow_fmt in Ep. do 2 next_field Ep. apply pack_x_inv in Ep as (h3 & Ep & ->). do 6 next_field Ep. apply pack_x_inv in Ep as (h9 & Ep & ->). do 3 next_field Ep. apply pack_nil_inv in Ep as ->.
    repeat match goal with |- _ /\ _ => split end; auto; rewrite Eb, <- !app_assoc; reflexivity.
  - destruct (built_parts request_defaults l eq_refl) as (B1 & B2 & B3). rewrite <- A3 in *. cbv zeta. rewrite <- B3. unfold view, frequest_wire.
    cbn [request_defaults x_cookie x_mask x_table x_priority x_idle x_hard x_buffer x_port x_group x_flags].
    destruct (pack _ _) as [h|e|] eqn:Ep; cbn [bind] in H; try discriminate. assert (Eb : b = h ++ mb) by congruence. clear H.
    rewrite B1 in Em. fold (match_wire (r_match l)) in Em. rewrite <- Em. change OFPTT_ALL with 0xff in Ep. change OFPP_ANY with 0xffffffff in Ep. change OFPG_ANY with 0xffffffff in Ep.
    unfold mpflow_req_fmt in Ep. next_field Ep. apply pack_x_inv in Ep as (h3 & Ep & ->). do 2 next_field Ep. apply pack_x_inv in Ep as (h9 & Ep & ->). do 2 next_field Ep. apply pack_nil_inv in Ep as ->.
    repeat match goal with |- _ /\ _ => split end; auto; rewrite Eb, <- !app_assoc; reflexivity.
Qed.
Lemma flow_row_read type s b : flow_row notation type s b -> Z.of_nat (length b) <= 65535 -> flow_one type s = Ok b.
Proof.
  intros (cs & u & l & C & R & F & H) Hl. unfold flow_one, mpflow_parse. rewrite (counts_read _ _ _ _ _ flow_counters_of C) by lia. cbn [bind]. rewrite app_nil_r, (dict_read _ _ R F). cbn [bind].
  unfold mpflow_body. change OFPT_MULTIPART_REPLY with 19. destruct (type =? 19); cbn [negb].
  - destruct (built_parts read_defaults l eq_refl) as (B1 & B2 & B3). cbv zeta in H. rewrite <- B3 in H. unfold view in H.
    cbn [read_defaults x_cookie x_mask x_table x_priority x_idle x_hard x_buffer x_port x_group x_flags] in H. destruct H as (H1 & H2 & H3 & H4 & H5 & H6 & H7 & H8 & H9 & H10 & Eb).
    counters cs. rewrite !counter_count, B1, B2. assert (L : Z.of_nat (48 + length (match_wire (r_match l) ++ concat (r_insts None l))) <= 65535).
    { rewrite Eb, !app_length, !be_length in Hl. rewrite !app_length in *. cbn [length] in Hl. unfold pad in Hl. rewrite !repeat_length in Hl. lia. }
    rewrite app_length, match_length in L. pose proof (align8_ge (4 + length (flat_map wire (r_match l)))) as Ha. rewrite match_block_ok by lia. cbn [bind]. fold (match_wire (r_match l)).
    assert (EL : 48 + Z.of_nat (length (match_wire (r_match l))) + Z.of_nat (length (concat (r_insts None l))) = Z.of_nat (48 + length (match_wire (r_match l) ++ concat (r_insts None l)))) by (rewrite app_length; lia).
    rewrite EL. assert (in_bytes 2 (Z.of_nat (48 + length (match_wire (r_match l) ++ concat (r_insts None l))))) by (apply in_bytes_2; rewrite app_length, match_length; lia).
    unfold mpflow_fmt. packs. rewrite Eb, <- !app_assoc. reflexivity.
  - destruct (built_parts request_defaults l eq_refl) as (B1 & B2 & B3). cbv zeta in H. rewrite <- B3 in H. unfold view, frequest_wire in H.
    cbn [request_defaults x_cookie x_mask x_table x_priority x_idle x_hard x_buffer x_port x_group x_flags] in H. destruct H as (H1 & H2 & H3 & H4 & H5 & Eb).
    assert (L : Z.of_nat (length (match_wire (r_match l))) <= 65535) by (rewrite Eb, !app_length in Hl; lia).
    rewrite match_length in L. pose proof (align8_ge (4 + length (flat_map wire (r_match l)))) as Ha. rewrite B1, match_block_ok by lia. cbn [bind]. fold (match_wire (r_match l)).
    change OFPTT_ALL with 0xff. change OFPP_ANY with 0xffffffff. change OFPG_ANY with 0xffffffff. unfold mpflow_req_fmt. packs. rewrite Eb, <- !app_assoc. reflexivity.
Qed.
Lemma flows_message_eq txt type xid m : text2mpflow txt type xid = Ok m <-> mp_message type xid 1 (map (flow_one type) (split_all 10 txt)) = Ok m.
Proof.
  unfold text2mpflow. change OFPMP_FLOW with 1. split.
  - intros H. destruct (mapM mpflow_parse _) as [cis|e|] eqn:E; cbn [bind] in H; try discriminate. pose proof H as K. apply message_inv in K as (bs & K & _).
    rewrite (proj1 (flows_one _ type bs)) by eauto. now rewrite <- K.
  - intros H. pose proof H as K. apply message_inv in K as (bs & K & _). rewrite K in H. apply flows_one in K as (cis & K1 & K2). rewrite K1. cbn [bind]. now rewrite K2.
Qed.
Lemma flows_sound txt type xid m : text2mpflow txt type xid = Ok m -> flows_message notation txt type xid m.
Proof. intros H. apply flows_message_eq in H. eapply mp_sound; [|exact H]. apply flow_row_sound. Qed.
Lemma flows_read txt type xid m : flows_message notation txt type xid m -> text2mpflow txt type xid = Ok m.
Proof. intros H. apply flows_message_eq. eapply mp_read; [unfold in_bytes; cbn; lia|apply flow_row_read|exact H]. Qed.

(** ** Group descriptions *)
Lemma lower_case_iff nm g : lower nm = gtype_name g <-> Forall2 letter_case nm (gtype_name g).
Proof.
  split; [|intros H; now apply (lower_case _ _ H), gtype_letters].
  assert (K : Forall (fun c => 97 <= c <= 122 /\ c <> 107) (gtype_name g)) by (destruct g; repeat constructor; cbn; lia).
  revert nm K. generalize (gtype_name g) as t. induction t as [|w t IH]; intros [|c nm] K H; try discriminate; [constructor|]. inversion K as [|? ? [K1 K2] K3]; subst.
  unfold lower in H. cbn [map] in H. assert (H1 : lower_c c = w) by congruence. assert (H2 : lower nm = t) by (unfold lower; congruence). constructor; [|auto].
  apply lower_letter in H1; auto. unfold letter_case. lia.
Qed.
Lemma dtype_iff nm t : index_of (lower nm) ofpgt = Ok t <-> exists g, Forall2 letter_case nm (gtype_name g) /\ t = gtype_id g.
Proof. rewrite gtype_iff. split; intros (g & H & ->); exists g; split; auto; now apply lower_case_iff. Qed.
Lemma index_nd nm l : index_of nm l <> Diverge.
Proof. induction l as [|x l IH]; cbn [index_of]; [discriminate|]. destruct (text_eqb nm x); [discriminate|]. destruct (index_of nm l); cbn [bind]; try discriminate. congruence. Qed.
Lemma dheads_sound fuel : forall gid g u gid' t' u', gdesc_head_go fuel gid (gtype_id g) u = Ok (gid', t', u') ->
  exists hs g', dheads u hs u' /\ t' = gtype_id g' /\ fold_left apply_ghead hs (gid, g) = (gid', g').
Proof.
  induction fuel as [|fuel IH]; intros gid g [|c s] gid' t' u' H; cbn [gdesc_head_go] in H; try discriminate;
    try (injection H as <- <- <-; exists [], g; split; [|auto]; apply (dh_end [] [] [] []); [apply next_nil|discriminate|intros [] K; inversion K]).
  remember (c :: s) as u eqn:Eu. clear Eu c s. destruct (get_token u) as [[h nm] r] eqn:Et. apply next_iff in Et. destruct (text_eqb nm $"group") eqn:En.
  - apply text_eqb_eq in En. subst nm. destruct (int_arg r) as [[n rest]|e|] eqn:Ei; cbn [bind] in H; try discriminate. apply int_arg_iff in Ei as (p & V & L).
    destruct (IH _ _ _ _ _ _ H) as (hs & g' & A1 & A2 & A3). exists (HGroup n :: hs), g'. split; [|auto]. eapply dh_group; eauto.
  - destruct (index_of (lower nm) ofpgt) as [t|e|] eqn:Ei.
    + apply dtype_iff in Ei as (g1 & Hg & ->). destruct (IH _ _ _ _ _ _ H) as (hs & g' & A1 & A2 & A3). exists (HType g1 :: hs), g'. split; [|auto]. eapply dh_type; eauto.
    + injection H as <- <- <-. exists [], g. split; [|auto]. eapply dh_end; eauto.
      * intros ->. discriminate.
      * intros g1 Hg. rewrite (proj2 (dtype_iff nm (gtype_id g1))) in Ei by eauto. discriminate.
    + now apply index_nd in Ei.
Qed.
Lemma letters_nonnil nm g : Forall2 letter_case nm (gtype_name g) -> nm <> [] /\ nm <> $"group".
Proof. intros H. split; intros ->; apply lower_case_iff in H; destruct g; discriminate. Qed.
Lemma dheads_read u hs r : dheads u hs r -> forall fuel gid g, (length u <= fuel)%nat ->
  gdesc_head_go fuel gid (gtype_id g) u = Ok (fst (fold_left apply_ghead hs (gid, g)), gtype_id (snd (fold_left apply_ghead hs (gid, g))), r).
Proof.
  induction 1 as [s h u p r n l t N V L _ IH|s h nm g1 r l t N Hg _ IH|s h nm u N Hn Hg]; intros fuel gid g Hf.
  - assert (Hs : s <> []) by (eapply next_some; [exact N|discriminate]). assert (Hl : (length u < length s)%nat) by (eapply next_shorter; [exact N|discriminate]). pose proof (valued_length _ _ _ V) as Hv.
    destruct s as [|c s]; [congruence|]. destruct fuel as [|fuel]; [cbn in Hf; lia|]. cbn [gdesc_head_go]. apply next_iff in N. rewrite N. change (text_eqb $"group" $"group") with true. cbv iota.
    rewrite (proj2 (int_arg_iff u n r)) by eauto. cbn [bind]. rewrite IH by (unfold text in *; cbn [length] in *; lia). reflexivity.
  - destruct (letters_nonnil _ _ Hg) as [K1 K2]. pose proof (next_some _ _ _ _ N K1) as Hs. pose proof (next_shorter _ _ _ _ N K1) as Hl.
    destruct s as [|c s]; [congruence|]. destruct fuel as [|fuel]; [cbn in Hf; lia|]. cbn [gdesc_head_go]. apply next_iff in N. rewrite N.
    destruct (text_eqb nm $"group") eqn:En; [apply text_eqb_eq in En; congruence|]. rewrite (proj2 (dtype_iff nm (gtype_id g1))) by eauto.
    rewrite IH by (unfold text in *; cbn [length] in *; lia). reflexivity.
  - destruct s as [|c s]; [destruct fuel; reflexivity|]. destruct fuel as [|fuel]; [cbn in Hf; lia|]. apply next_iff in N. cbn [gdesc_head_go]. rewrite N.
    destruct (text_eqb nm $"group") eqn:En; [apply text_eqb_eq in En; congruence|]. destruct (index_of (lower nm) ofpgt) as [t|e|] eqn:Ei; try reflexivity.
    apply dtype_iff in Ei as (g1 & K & _). now destruct (Hg g1).
Qed.
Lemma dbuckets_sound fuel : forall t u x, gdesc_buckets_go fuel (gtype_id t) u = Ok x ->
  exists ls, dbuckets notation u ls /\ Forall (bucket_fits t) ls /\ Forall (fun l => Z.of_nat (length (bucket_part t l)) <= 65535) ls /\ x = flat_map (bucket_part t) ls.
Proof.
  induction fuel as [|fuel IH]; intros t [|c s] x H; cbn [gdesc_buckets_go] in H; try discriminate;
    try (injection H as <-; exists []; split; [constructor|]; split; [constructor|]; split; [constructor|reflexivity]).
  remember (c :: s) as u eqn:Eu. assert (Hu : u <> []) by (subst; discriminate). clear Eu c s.
  destruct (get_token u) as [[h nm] r0] eqn:Et. pose proof Et as N. apply next_iff in N. destruct (text_eqb nm $"@bucket") eqn:En.
  - apply text_eqb_eq in En. subst nm. destruct (IH _ _ _ H) as (ls & A1 & A2). exists ls. split; [eapply db_word; eauto|exact A2].
  - assert (nm <> $"@bucket") as Hn by (intros ->; discriminate). destruct (str2bucket u (gtype_id t)) as [[b n]|e|] eqn:Eb; cbn [bind] in H; try discriminate.
    destruct (str2bucket_sound _ _ _ _ Eb) as (l & r & B & Hc & Hl). pose proof (bucket_text_end _ _ _ _ B) as He.
    destruct (Nat.eqb_spec n 0) as [E0|E0].
    + injection H as <-. assert (r = u) as -> by (apply (consumed _ _ He); congruence). exists []. split; [|split; [constructor|split; [constructor|reflexivity]]]. eapply db_drop; eauto.
      replace [] with l; [exact B|]. now apply (bucket_text_none _ _ _ _ B).
    + destruct (gdesc_buckets_go fuel (gtype_id t) (skipn n u)) as [y|e|] eqn:Eg; cbn [bind] in H; try discriminate. injection H as <-.
      rewrite Hc, skip_rest in Eg by auto. destruct (IH _ _ _ Eg) as (ls & A1 & A2 & A3 & ->). destruct Hl as [->|(F & L & ->)].
      { exfalso. apply E0. rewrite Hc. apply consumed; auto. now apply (bucket_text_none _ _ _ _ B). }
      exists (l :: ls). split; [|split; [now constructor|split; [now constructor|reflexivity]]]. eapply db_bucket; eauto. intros ->. apply E0. rewrite Hc. apply consumed; auto. now apply (bucket_text_none _ _ _ _ B).
Qed.
Lemma dbuckets_read u ls : dbuckets notation u ls -> forall fuel t, (length u <= fuel)%nat -> Forall (bucket_fits t) ls ->
  Forall (fun l => Z.of_nat (length (bucket_part t l)) <= 65535) ls -> gdesc_buckets_go fuel (gtype_id t) u = Ok (flat_map (bucket_part t) ls).
Proof.
  induction 1 as [|s h u ls N _ IH|s h nm u l r ls N Hn B Hl _ IH|s h nm u N Hn B]; intros fuel t Hf F L.
  - destruct fuel; reflexivity.
  - assert (Hs : s <> []) by (eapply next_some; [exact N|discriminate]). assert (Hl : (length u < length s)%nat) by (eapply next_shorter; [exact N|discriminate]).
    destruct s as [|c s]; [congruence|]. destruct fuel as [|fuel]; [cbn in Hf; lia|]. cbn [gdesc_buckets_go]. apply next_iff in N. rewrite N. change (text_eqb $"@bucket" $"@bucket") with true. cbv iota.
    apply IH; auto. unfold text in *. cbn [length] in *. lia.
  - inversion F as [|? ? F1 F2]; inversion L as [|? ? L1 L2]; subst. pose proof (bucket_text_end _ _ _ _ B) as He. pose proof (consumed _ _ He) as K. pose proof (bucket_text_none _ _ _ _ B) as K'.
    destruct s as [|c s]; [exfalso; apply Hl, K'; destruct He as (y & He); symmetry in He; now apply app_eq_nil in He as [_ He]|]. destruct fuel as [|fuel]; [cbn in Hf; lia|]. cbn [gdesc_buckets_go].
    apply next_iff in N. rewrite N. destruct (text_eqb nm $"@bucket") eqn:En; [apply text_eqb_eq in En; congruence|].
    rewrite (str2bucket_read _ t _ _ B Hl F1 L1). cbn [bind]. destruct (Nat.eqb_spec (length (c :: s) - length r) 0) as [E0|E0]; [tauto|].
    rewrite skip_rest by auto. rewrite (IH fuel t); auto. unfold text in *. cbn [length] in *. lia.
  - destruct s as [|c s]; [destruct fuel; reflexivity|]. destruct fuel as [|fuel]; [cbn in Hf; lia|]. cbn [gdesc_buckets_go]. apply next_iff in N. rewrite N.
    destruct (text_eqb nm $"@bucket") eqn:En; [apply text_eqb_eq in En; congruence|]. now rewrite (str2bucket_none _ t _ B).
Qed.
Lemma desc_row_sound s b : gdesc_body s = Ok b -> desc_row notation s b.
Proof.
  unfold gdesc_body. intros H. destruct (gdesc_head_go _ _ _ s) as [[[gid t0] u]|e|] eqn:E1; cbn [bind] in H; try discriminate.
  change (gdesc_head_go (length s) 0 (gtype_id GAll) s = Ok (gid, t0, u)) in E1. apply dheads_sound in E1 as (hs & t & A1 & -> & A2).
  destruct (gdesc_buckets_go _ _ u) as [x|e|] eqn:E2; cbn [bind] in H; try discriminate. apply dbuckets_sound in E2 as (ls & B1 & B2 & B3 & ->).
  destruct (pack _ _) as [h|e|] eqn:Ep; cbn [bind] in H; try discriminate. assert (Eb : b = h ++ flat_map (bucket_part t) ls) by congruence. clear H. unfold gdesc_fmt in Ep.
  do 2 next_field Ep. apply pack_x_inv in Ep as (h3 & Ep & ->). next_field Ep. apply pack_nil_inv in Ep as ->.
  exists hs, u, ls. split; [exact A1|]. split; [exact B1|]. rewrite A2. split; [auto|]. split; [auto|]. split; [auto|]. rewrite Eb, <- !app_assoc, Nat2Z.inj_add. reflexivity.
Qed.
Lemma desc_row_read s b : desc_row notation s b -> Z.of_nat (length b) <= 65535 -> gdesc_body s = Ok b.
Proof.
  intros (hs & u & ls & A1 & B1 & R) Hl. destruct (fold_left apply_ghead hs (0, GAll)) as [id t] eqn:A2. destruct R as (Hi & B2 & B3 & Eb). unfold gdesc_body.
  change (gdesc_head_go (length s) 0 OFPGT_ALL s) with (gdesc_head_go (length s) 0 (gtype_id GAll) s). rewrite (dheads_read _ _ _ A1) by lia. cbn [bind]. rewrite A2. cbn [fst snd]. rewrite (dbuckets_read _ _ B1) by (auto; lia). cbn [bind].
  assert (L : Z.of_nat (8 + length (flat_map (bucket_part t) ls)) <= 65535) by (rewrite Eb, !app_length, !be_length in Hl; cbn [length] in Hl; unfold pad in Hl; rewrite repeat_length in Hl; lia).
  assert (in_bytes 2 (8 + Z.of_nat (length (flat_map (bucket_part t) ls)))) by (apply in_bytes_2; lia). assert (in_bytes 1 (gtype_id t)) by (destruct t; unfold in_bytes; cbn; lia).
  unfold gdesc_fmt. packs. rewrite Eb, <- !app_assoc, Nat2Z.inj_add. reflexivity.
Qed.
Lemma descs_sound txt type xid m : text2mpgroupdesc txt type xid = Ok m -> descs_message notation txt type xid m.
Proof.
  unfold text2mpgroupdesc, descs_message. change OFPT_MULTIPART_REPLY with 19. change OFPMP_GROUP_DESC with 7. destruct (type =? 19) eqn:E; cbn [negb]; intros H.
  - apply Z.eqb_eq in E. subst. eapply mp_sound; [|exact H]. apply desc_row_sound.
  - apply hdr_inv in H as (H1 & H2 & _ & H4). rewrite app_nil_r in H4. auto.
Qed.
Lemma descs_read txt type xid m : descs_message notation txt type xid m -> text2mpgroupdesc txt type xid = Ok m.
Proof.
  unfold text2mpgroupdesc, descs_message. change OFPT_MULTIPART_REPLY with 19. change OFPMP_GROUP_DESC with 7. destruct (type =? 19) eqn:E; cbn [negb]; intros H.
  - apply Z.eqb_eq in E. subst. eapply mp_read; [unfold in_bytes; cbn; lia|apply desc_row_read|exact H].
  - destruct H as (H1 & H2 & ->). apply Z.eqb_neq in E. pose proof (gdesc_request txt type xid E H1 H2) as K. unfold text2mpgroupdesc in K. change OFPT_MULTIPART_REPLY with 19 in K. change OFPMP_GROUP_DESC with 7 in K.
    rewrite (proj2 (Z.eqb_neq _ _) E) in K. exact K.
Qed.

(** ** Group counters *)
Lemma ids_sound fuel : forall gid s gid' u, mpg_head_go fuel gid s = Ok (gid', u) -> exists l, ids s l u /\ gid' = last l gid.
Proof.
  induction fuel as [|fuel IH]; intros gid [|c s] gid' u H; cbn [mpg_head_go] in H; try discriminate;
    try (injection H as <- <-; exists []; split; [|reflexivity]; eapply id_stop; [apply next_nil|discriminate]).
  remember (c :: s) as v eqn:Ev. clear Ev c s. destruct (get_token v) as [[h nm] r] eqn:Et. apply next_iff in Et. destruct (text_eqb nm $"group") eqn:En.
  - apply text_eqb_eq in En. subst nm. destruct (int_arg r) as [[n rest]|e|] eqn:Ei; cbn [bind] in H; try discriminate. apply int_arg_iff in Ei as (p & V & L).
    destruct (IH _ _ _ _ H) as (l & A & ->). exists (n :: l). split; [eapply id_more; eauto|]. clear. revert n. induction l as [|x l IH]; intros n; [reflexivity|]. cbn [last] in *. destruct l; [reflexivity|]. apply (IH n).
  - injection H as <- <-. exists []. split; [|reflexivity]. eapply id_stop; eauto. intros ->. discriminate.
Qed.
Lemma last_cons (l : list Z) : forall n d, last (n :: l) d = last l n.
Proof. induction l as [|x l IH]; intros n d; [reflexivity|]. change (last (n :: x :: l) d) with (last (x :: l) d). rewrite IH. symmetry. apply IH. Qed.
Lemma ids_read s l u : ids s l u -> forall fuel gid, (length s <= fuel)%nat -> mpg_head_go fuel gid s = Ok (last l gid, u).
Proof.
  induction 1 as [s h u p r n l t N V L _ IH|s h nm u N Hn]; intros fuel gid Hf.
  - assert (Hs : s <> []) by (eapply next_some; [exact N|discriminate]). assert (Hl : (length u < length s)%nat) by (eapply next_shorter; [exact N|discriminate]). pose proof (valued_length _ _ _ V) as Hv.
    destruct s as [|c s]; [congruence|]. destruct fuel as [|fuel]; [cbn in Hf; lia|]. cbn [mpg_head_go]. apply next_iff in N. rewrite N. change (text_eqb $"group" $"group") with true. cbv iota.
    rewrite (proj2 (int_arg_iff u n r)) by eauto. cbn [bind]. rewrite IH by (unfold text in *; cbn [length] in *; lia). now rewrite last_cons.
  - destruct s as [|c s]; [destruct fuel; reflexivity|]. destruct fuel as [|fuel]; [cbn in Hf; lia|]. cbn [mpg_head_go]. apply next_iff in N. rewrite N.
    destruct (text_eqb nm $"group") eqn:En; [apply text_eqb_eq in En; congruence|]. reflexivity.
Qed.
Lemma bucket_counters_of : counters_of (countable true) [$"packet_count"; $"byte_count"].
Proof.
  intros nm. rewrite in_names_iff. cbn [In countable]. split.
  - intros [<-|[<-|[]]]; [exists CPackets|exists CBytes]; auto.
  - intros (c & [->| ->] & ->); cbn; auto.
Qed.
Lemma group_counters_of : counters_of (countable false) group_counters.
Proof.
  intros nm. rewrite in_names_iff. cbn [group_counters In countable]. split.
  - intros [<-|[<-|[<-|[<-|[<-|[]]]]]]; [exists CRef|exists CPackets|exists CBytes|exists CSec|exists CNsec]; auto.
  - intros (c & _ & ->). destruct c; cbn; auto 10.
Qed.
Definition backwards (cs : list (counter * Z)) : list (text * Z) := rev (MpFlow.named cs).
Lemma backwards_cons c n cs b : backwards ((c, n) :: cs) ++ b = backwards cs ++ (counter_name c, n) :: b.
Proof. unfold backwards, MpFlow.named. cbn [map rev fst snd]. now rewrite <- app_assoc. Qed.
Lemma not_in ok names nm : counters_of ok names -> in_names nm names = false -> forall c, ok c -> nm <> counter_name c.
Proof. intros H E c Hc ->. rewrite (proj2 (H _)) in E by eauto. discriminate. Qed.
Lemma bstats_sound fuel : forall g b bs s g' bb, mpg_stats_go fuel g (b :: bs) s = Ok (g', bb) ->
  exists cs rest, bstats s cs rest /\ g' = g /\ bb = rev (map backwards rest) ++ (backwards cs ++ b) :: bs.
Proof.
  induction fuel as [|fuel IH]; intros g b bs [|c s] g' bb H; cbn [mpg_stats_go] in H; try discriminate;
    try (injection H as <- <-; exists [], []; split; [constructor|auto]).
  remember (c :: s) as v eqn:Ev. clear Ev c s. destruct (get_token v) as [[h nm] r] eqn:Et. apply next_iff in Et. destruct (text_eqb nm $"@bucket") eqn:En.
  - apply text_eqb_eq in En. subst nm. destruct (IH _ _ _ _ _ _ H) as (cs & rest & A & -> & ->). exists [], (cs :: rest). split; [eapply bs_word; eauto|]. split; [reflexivity|].
    cbn [map rev]. rewrite app_nil_r, <- app_assoc. reflexivity.
  - destruct (int_arg r) as [[n rest]|e|] eqn:Ei; cbn [bind] in H; try discriminate. apply int_arg_iff in Ei as (p & V & L).
    destruct (in_names nm _) eqn:Ec.
    + apply bucket_counters_of in Ec as (c & Hc & ->). destruct (IH _ _ _ _ _ _ H) as (cs & rs & A & -> & ->). exists ((c, n) :: cs), rs. split; [eapply bs_count; eauto|].
      split; [reflexivity|]. now rewrite backwards_cons.
    + injection H as <- <-. exists [], []. split; [|auto]. eapply bs_drop; eauto; [intros ->; discriminate|]. eapply not_in; eauto using bucket_counters_of.
Qed.
Lemma gstats_sound fuel : forall g s g' bb, mpg_stats_go fuel g [] s = Ok (g', bb) ->
  exists cs bs, SpecMpText.gstats s cs bs /\ g' = backwards cs ++ g /\ bb = rev (map backwards bs).
Proof.
  induction fuel as [|fuel IH]; intros g [|c s] g' bb H; cbn [mpg_stats_go] in H; try discriminate;
    try (injection H as <- <-; exists [], []; split; [constructor|auto]).
  remember (c :: s) as v eqn:Ev. clear Ev c s. destruct (get_token v) as [[h nm] r] eqn:Et. apply next_iff in Et. destruct (text_eqb nm $"@bucket") eqn:En.
  - apply text_eqb_eq in En. subst nm. apply bstats_sound in H as (cs & rest & A & -> & ->). exists [], (cs :: rest). split; [eapply gs_word; eauto|]. split; [reflexivity|].
    cbn [map rev]. now rewrite app_nil_r.
  - destruct (int_arg r) as [[n rest]|e|] eqn:Ei; cbn [bind] in H; try discriminate. apply int_arg_iff in Ei as (p & V & L).
    destruct (in_names nm _) eqn:Ec.
    + apply group_counters_of in Ec as (c & Hc & ->). destruct (IH _ _ _ _ H) as (cs & rs & A & -> & ->). exists ((c, n) :: cs), rs. split; [eapply gs_count; eauto|].
      split; [|reflexivity]. now rewrite backwards_cons.
    + injection H as <- <-. exists [], []. split; [|auto]. eapply gs_drop; eauto; [intros ->; discriminate|]. intros c. apply (not_in _ _ _ group_counters_of Ec). exact I.
Qed.
Lemma bucket_word_counter c : text_eqb (counter_name c) $"@bucket" = false.
Proof. destruct c; reflexivity. Qed.
Lemma bstats_read s cs rest : bstats s cs rest -> forall fuel g b bs, (length s <= fuel)%nat ->
  mpg_stats_go fuel g (b :: bs) s = Ok (g, rev (map backwards rest) ++ (backwards cs ++ b) :: bs).
Proof.
  induction 1 as [|s h u cs bs0 N _ IH|s h c u p r n cs bs0 N Hc V L _ IH|s h nm u p r n N Hb Hn V L]; intros fuel g b bs Hf.
  - destruct fuel; reflexivity.
  - assert (Hs : s <> []) by (eapply next_some; [exact N|discriminate]). assert (Hl : (length u < length s)%nat) by (eapply next_shorter; [exact N|discriminate]).
    destruct s as [|c s]; [congruence|]. destruct fuel as [|fuel]; [cbn in Hf; lia|]. cbn [mpg_stats_go]. apply next_iff in N. rewrite N. change (text_eqb $"@bucket" $"@bucket") with true. cbv iota.
    rewrite IH by (unfold text in *; cbn [length] in *; lia). cbn [map rev]. rewrite app_nil_r, <- app_assoc. reflexivity.
  - pose proof (next_some _ _ _ _ N (counter_nonnil c)) as Hs. pose proof (next_shorter _ _ _ _ N (counter_nonnil c)) as Hl. pose proof (valued_length _ _ _ V) as Hv.
    destruct s as [|c0 s]; [congruence|]. destruct fuel as [|fuel]; [cbn in Hf; lia|]. cbn [mpg_stats_go]. apply next_iff in N. rewrite N, bucket_word_counter.
    rewrite (proj2 (int_arg_iff u n r)) by eauto. cbn [bind]. rewrite (proj2 (bucket_counters_of _)) by eauto. rewrite IH by (unfold text in *; cbn [length] in *; lia). now rewrite backwards_cons.
  - destruct s as [|c s]. { exfalso. apply next_cat in N. symmetry in N. apply app_eq_nil in N as [-> N]. apply app_eq_nil in N as [-> ->]. destruct V as (h' & N & E). apply next_cat in N. symmetry in N. apply app_eq_nil in N as [-> _]. now apply eq_lead_nil in E. }
    destruct fuel as [|fuel]; [cbn in Hf; lia|]. cbn [mpg_stats_go]. apply next_iff in N. rewrite N. destruct (text_eqb nm $"@bucket") eqn:En; [apply text_eqb_eq in En; congruence|].
    rewrite (proj2 (int_arg_iff u n r)) by eauto. cbn [bind]. destruct (in_names nm _) eqn:Ec; [|reflexivity]. apply bucket_counters_of in Ec as (c' & Hc & ->). now destruct (Hn c' Hc).
Qed.
Lemma gstats_read s cs bs : SpecMpText.gstats s cs bs -> forall fuel g, (length s <= fuel)%nat -> mpg_stats_go fuel g [] s = Ok (backwards cs ++ g, rev (map backwards bs)).
Proof.
  induction 1 as [|s h u cs bs0 N B|s h c u p r n cs bs0 N V L _ IH|s h nm u p r n N Hb Hn V L]; intros fuel g Hf.
  - destruct fuel; reflexivity.
  - assert (Hs : s <> []) by (eapply next_some; [exact N|discriminate]). assert (Hl : (length u < length s)%nat) by (eapply next_shorter; [exact N|discriminate]).
    destruct s as [|c s]; [congruence|]. destruct fuel as [|fuel]; [cbn in Hf; lia|]. cbn [mpg_stats_go]. apply next_iff in N. rewrite N. change (text_eqb $"@bucket" $"@bucket") with true. cbv iota.
    rewrite (bstats_read _ _ _ B) by (unfold text in *; cbn [length] in *; lia). cbn [map rev]. now rewrite app_nil_r.
  - pose proof (next_some _ _ _ _ N (counter_nonnil c)) as Hs. pose proof (next_shorter _ _ _ _ N (counter_nonnil c)) as Hl. pose proof (valued_length _ _ _ V) as Hv.
    destruct s as [|c0 s]; [congruence|]. destruct fuel as [|fuel]; [cbn in Hf; lia|]. cbn [mpg_stats_go]. apply next_iff in N. rewrite N, bucket_word_counter.
    rewrite (proj2 (int_arg_iff u n r)) by eauto. cbn [bind]. rewrite (proj2 (group_counters_of _)) by (exists c; split; [exact I|reflexivity]). rewrite IH by (unfold text in *; cbn [length] in *; lia). now rewrite backwards_cons.
  - destruct s as [|c s]. { exfalso. apply next_cat in N. symmetry in N. apply app_eq_nil in N as [-> N]. apply app_eq_nil in N as [-> ->]. destruct V as (h' & N & E). apply next_cat in N. symmetry in N. apply app_eq_nil in N as [-> _]. now apply eq_lead_nil in E. }
    destruct fuel as [|fuel]; [cbn in Hf; lia|]. cbn [mpg_stats_go]. apply next_iff in N. rewrite N. destruct (text_eqb nm $"@bucket") eqn:En; [apply text_eqb_eq in En; congruence|].
    rewrite (proj2 (int_arg_iff u n r)) by eauto. cbn [bind]. destruct (in_names nm _) eqn:Ec; [|reflexivity]. apply group_counters_of in Ec as (c' & Hc & ->). now destruct (Hn c').
Qed.
Lemma pairs_inv bs l : mapM mpg_bucket (map backwards bs) = Ok l -> Forall (fun b => in_bytes 8 (fst b) /\ in_bytes 8 (snd b)) (map pair_of bs) /\ l = map pair_wire (map pair_of bs).
Proof.
  revert l. induction bs as [|b bs IH]; cbn [map mapM]; intros l H; [injection H as <-; split; [constructor|reflexivity]|]. mons H. injection H as <-. destruct (IH _ Ea0) as [A ->].
  unfold mpg_bucket, backwards in Ea. counters b. rewrite !counter_count in Ea. do 2 next_field Ea. apply pack_nil_inv in Ea as ->. rewrite app_nil_r. split; [constructor; auto|reflexivity].
Qed.
Lemma stat_row_sound s b : mpg_body s = Ok b -> stat_row s b.
Proof.
  unfold mpg_body. intros H. destruct (mpg_head_go _ _ s) as [[gid u]|e|] eqn:E1; cbn [bind] in H; try discriminate. apply ids_sound in E1 as (l & A & ->).
  destruct (mpg_stats_go _ _ _ u) as [[g bb]|e|] eqn:E2; cbn [bind] in H; try discriminate. apply gstats_sound in E2 as (cs & bs & B & -> & ->). rewrite app_nil_r, rev_involutive in H.
  destruct (mapM mpg_bucket _) as [ps|e|] eqn:E3; cbn [bind] in H; try discriminate. apply pairs_inv in E3 as (P & ->). rewrite <- flat_map_concat_map in H. unfold backwards in H. counters cs. rewrite !counter_count in H.
  destruct (pack _ _) as [h|e|] eqn:Ep; cbn [bind] in H; try discriminate. assert (Eb : b = h ++ flat_map pair_wire (map pair_of bs)) by congruence. clear H.
  unfold mpg_fmt in Ep. next_field Ep. apply pack_x_inv in Ep as (h3 & Ep & ->). do 2 next_field Ep. apply pack_x_inv in Ep as (h9 & Ep & ->). do 4 next_field Ep. apply pack_nil_inv in Ep as ->.
  exists l, u, cs, bs. split; [exact A|]. split; [exact B|]. fold (last_id l) in *.
  assert (Ew : b = gstat_wire (gstat_of (last_id l) cs bs)).
  { rewrite Eb. unfold gstat_wire. cbn [gstat_of gs_id gs_ref gs_packets gs_bytes gs_sec gs_nsec gs_buckets]. rewrite Nat2Z.inj_add, <- !app_assoc. reflexivity. }
  split; [|exact Ew]. unfold gstat_ok. rewrite gstat_length. cbn [gstat_of gs_id gs_ref gs_packets gs_bytes gs_sec gs_nsec gs_buckets].
  repeat match goal with |- _ /\ _ => split end; auto.
  match goal with K : in_bytes 2 _ |- _ => unfold in_bytes in K; change (256 ^ Z.of_nat 2) with 65536 in K; lia end.
Qed.
Lemma stat_row_read s b : stat_row s b -> mpg_body s = Ok b.
Proof.
  intros (l & u & cs & bs & A & B & (H1 & H2 & H3 & H4 & H5 & H6 & H7 & H8) & ->). rewrite gstat_length in H8. cbn [gstat_of gs_id gs_ref gs_packets gs_bytes gs_sec gs_nsec gs_buckets] in *.
  unfold mpg_body. rewrite (ids_read _ _ _ A) by lia. cbn [bind]. rewrite (gstats_read _ _ _ B) by lia. cbn [bind]. rewrite app_nil_r, rev_involutive.
  change (map backwards bs) with (map (fun cs => rev (MpFlow.named cs)) bs). rewrite (bucket_pairs bs H7). cbn [bind]. rewrite <- flat_map_concat_map. unfold backwards. counters cs. rewrite !counter_count. fold (last_id l).
  assert (in_bytes 2 (40 + Z.of_nat (length (flat_map pair_wire (map pair_of bs))))) by (apply in_bytes_2; lia).
  unfold mpg_fmt. packs. unfold gstat_wire. cbn [gstat_of gs_id gs_ref gs_packets gs_bytes gs_sec gs_nsec gs_buckets]. rewrite Nat2Z.inj_add, <- !app_assoc. reflexivity.
Qed.
Lemma stats_iff txt type xid m : text2mpgroup txt type xid = Ok m <-> stats_message txt type xid m.
Proof.
  unfold text2mpgroup, stats_message. change OFPT_MULTIPART_REPLY with 19. change OFPMP_GROUP with 6. destruct (type =? 19) eqn:E; cbn [negb].
  - apply Z.eqb_eq in E. subst. split; [apply mp_sound, stat_row_sound|apply mp_read; [unfold in_bytes; cbn; lia|]]. intros s b H _. now apply stat_row_read.
  - destruct (split_all 10 txt) as [|s ls] eqn:Es. { exfalso. destruct (split_sepby_all 10 txt) as (_ & K & _). congruence. }
    apply lines_iff in Es. cbn [nth]. split.
    + intros H. destruct (mpg_head_go _ _ s) as [[gid u]|e|] eqn:E1; cbn [bind] in H; try discriminate. apply ids_sound in E1 as (l & A & ->). fold (last_id l) in H.
      destruct (pack _ _) as [b|e|] eqn:Ep; cbn [bind] in H; try discriminate. next_field Ep. apply pack_x_inv in Ep as (h3 & Ep & ->). apply pack_nil_inv in Ep as ->.
      destruct (mp_hdr _ _ _ _ _) as [h|e|] eqn:Eh; cbn [bind] in H; try discriminate. apply hdr_inv in Eh as (K1 & K2 & _ & K4). exists s, ls, l, u. split; [exact Es|]. split; [exact A|].
      repeat match goal with |- _ /\ _ => split end; auto. rewrite app_nil_r in *. congruence.
    + intros (s' & ls' & l & u & Es' & A & K1 & K2 & K3 & ->). apply lines_iff in Es, Es'. assert (s' = s /\ ls' = ls) as [-> ->] by (split; congruence).
      rewrite (ids_read _ _ _ A) by lia. cbn [bind]. fold (last_id l). packs. cbn [bind]. unfold mp_hdr, mp_fmt, mp_wire. assert (in_bytes 2 6) by (unfold in_bytes; lia).
      assert (L : length (be 4 (last_id l) ++ pad 4) = 8%nat) by len. rewrite L. change (16 + Z.of_nat 8) with (Z.of_nat 24). change (Z.of_nat (16 + 8)) with (Z.of_nat 24).
      assert (in_bytes 2 (Z.of_nat 24)) by (unfold in_bytes; cbn; lia). packs. rewrite <- ?app_assoc. reflexivity.
Qed.
