(** Printing arbitrary bytes: flow rules and groups. *)
From Verif Require Import Base PyNum Util PyLib OxmCodec OxmTables Oxm Nx Ofp4 Spec SpecOxm SpecText SpecShow SpecOfp SpecMp SpecShowOfp SpecShowMsg.
From Verif Require Import BaseFacts UtilFacts NumFacts PyLibFacts OxmRead OxmPrint OxmFacts OxmFrame OxmMore ActBase ActFrame GramLib OxmGram ShowLib.
From Verif Require Import TermFacts OfpLoop ActPrint ActReadNx FlowMod MpBase MpFlow ShowAct ShowAct2 ShowAct3 ShowMsg.
From Coq Require Import Strings.Ascii.

(** ** The match and the instructions of a rule *)
Definition rule_res (n : nat) (m : bytes) : res (text * text) :=
  r <- oxm2str (part_of 52 (48 + match_len m) m) true ;;
  i <- inst2str (part_of (48 + up8 (match_len m)) n m) true ;; Ok (r, i).
Lemma align8_up n : align8 n = up8 n.
Proof. unfold align8, up8. lia. Qed.
Lemma rule_ok n m r i : word 2 48 m = 1 ->
  rule_res n m = Ok (r, i) <-> exists ms is, r = commas ms /\ i = commas is /\ shown_list qpt (part_of 52 (48 + match_len m) m) ms /\ insts_shown qpt (part_of (48 + up8 (match_len m)) n m) is.
Proof.
  intros _. unfold rule_res. split.
  - destruct (oxm2str _ true) as [x| |] eqn:Ex; [|discriminate..]. cbn [bind]. destruct (inst2str _ true) as [y| |] eqn:Ey; [|discriminate..]. cbn [bind]. intros [= <- <-].
    apply oxm_shown in Ex as (ms & Hm & ->). apply insts_text in Ey as (is & Hi & ->). exists ms, is. repeat split; auto.
  - intros (ms & is & -> & -> & Hm & Hi). rewrite (proj2 (oxm_shown _ _) (ex_intro _ ms (conj Hm eq_refl))). cbn [bind].
    rewrite (proj2 (insts_text _ _) (ex_intro _ is (conj Hi eq_refl))). cbn [bind]. reflexivity.
Qed.
Lemma rule_endless n m : word 2 48 m = 1 -> rule_res n m = Diverge <-> rule_stuck qpt n m.
Proof.
  intros W. unfold rule_res, rule_stuck. rewrite <- insts_endless. split.
  - destruct (oxm2str _ true) as [x| |] eqn:Ex; [|discriminate|now apply oxm2str_total in Ex]. cbn [bind]. destruct (inst2str _ true) as [y| |] eqn:Ey; try discriminate. intros _.
    apply oxm_shown in Ex as (ms & Hm & ->). repeat split; eauto.
  - intros (_ & (ms & Hm) & E). rewrite (proj2 (oxm_shown _ _) (ex_intro _ ms (conj Hm eq_refl))). cbn [bind]. now rewrite E.
Qed.
Lemma rule_texts_flat (ret : list text) ms is : Forall (fun t => t <> []) ms -> Forall (fun t => t <> []) is ->
  commas (ret ++ opt_tok (commas ms) ++ opt_tok (commas is)) = commas (ret ++ ms ++ is) /\ (ret ++ opt_tok (commas ms) ++ opt_tok (commas is) = [] <-> ret ++ ms ++ is = []).
Proof.
  intros Hm Hi. split.
  - rewrite commas_flat by exact Hm. rewrite !(app_assoc ret ms). pose proof (commas_flat (ret ++ ms) is [] Hi) as K. rewrite !app_nil_r in K. exact K.
  - rewrite !opt_tok_commas by assumption. destruct ret, ms, is; cbn [app]; split; (congruence || reflexivity).
Qed.

(** ** Flow mods *)
Lemma word_in n o m : in_bytes n (word n o m).
Proof.
  unfold word, in_bytes. pose proof (num_be_range (firstn n (skipn o m))) as B. pose proof (firstn_le_length n (skipn o m)) as L.
  pose proof (Z.pow_le_mono_r 256 (Z.of_nat (length (firstn n (skipn o m)))) (Z.of_nat n) ltac:(lia) ltac:(lia)). lia.
Qed.
Lemma flow_fixed_ok m : fixed_ok (flow_fixed m).
Proof. unfold fixed_ok, flow_fixed. cbn [x_cookie x_mask x_table x_priority x_idle x_hard x_buffer x_port x_group x_flags]. repeat split; apply word_in. Qed.
Lemma mod_words m : reaches 52 m -> mod2str m = if word 2 48 m =? 1 then
    '(r, i) <- rule_res (len2 m) m ;; Ok (commas (fixed_texts (defaults (word 1 25 m)) (flow_fixed m) ++ opt_tok r ++ opt_tok i)) else Raise ValueError.
Proof.
  unfold reaches. intros L. unfold mod2str. rewrite from_words. unfold mod_fmt. cbn [app calcsize fold_right fwidth Nat.add]. replace (52 <=? length m)%nat with true by (symmetry; now apply Nat.leb_le).
  cbn [bind]. words. change OFPMT_OXM with 1. rewrite mod_default_kw. change (Kw _ _ _ _ _ _ _ _ _ _) with (kw_of (flow_fixed m)).
  rewrite fixed_prints by (solve [unfold defaults; destruct (deleting _); reflexivity | apply flow_fixed_ok]).
  destruct (word 2 48 m =? 1); [|reflexivity]. unfold rule_res. cbv zeta. change (Z.to_nat (word 2 50 m)) with (match_len m). change (Z.to_nat (word 2 2 m)) with (len2 m).
  replace (52 + match_len m - 4)%nat with (48 + match_len m)%nat by lia. rewrite align8_up, !part_slice.
  destruct (oxm2str _ true); try reflexivity. cbn [bind]. rewrite part_slice. destruct (inst2str _ true); try reflexivity. cbn [bind]. now rewrite commas_join.
Qed.
Lemma mod_short m : ~ reaches 52 m -> mod2str m = Raise StructError.
Proof.
  unfold reaches. intros L. unfold mod2str. rewrite from_words. unfold mod_fmt. cbn [app calcsize fold_right fwidth Nat.add]. replace (52 <=? length m)%nat with false by (symmetry; apply Nat.leb_gt; lia). reflexivity.
Qed.
Theorem flow_text_shown m t : mod2str m = Ok t <-> flow_shown qpt m t.
Proof.
  destruct (le_dec 52 (length m)) as [L|L]; [|rewrite mod_short by exact L; split; [discriminate|intros H; destruct H; now contradiction L]].
  rewrite mod_words by exact L. destruct (Z.eqb_spec (word 2 48 m) 1) as [W|W]; [|split; [discriminate|intros [ts _ [ms is W' _ _]]; contradiction]].
  split.
  - destruct (rule_res _ m) as [[r i]| |] eqn:E; [|discriminate..]. cbn [bind]. intros [= <-]. apply rule_ok in E as (ms & is & -> & -> & Hm & Hi); [|exact W].
    destruct (rule_texts_flat (fixed_texts (defaults (word 1 25 m)) (flow_fixed m)) ms is (match_nonnil _ _ _ Hm) (insts_nonnil _ _ _ Hi)) as [-> _]. apply flow_is; [exact L|now apply rule_is].
  - intros [ts _ [ms is _ Hm Hi]]. rewrite (proj2 (rule_ok _ m (commas ms) (commas is) W)) by (exists ms, is; auto). cbn [bind].
    destruct (rule_texts_flat (fixed_texts (defaults (word 1 25 m)) (flow_fixed m)) ms is (match_nonnil _ _ _ Hm) (insts_nonnil _ _ _ Hi)) as [-> _]. reflexivity.
Qed.
Theorem flow_text_endless m : mod2str m = Diverge <-> flow_loop qpt m.
Proof.
  unfold flow_loop. destruct (le_dec 52 (length m)) as [L|L]; [|rewrite mod_short by exact L; split; [discriminate|intros [H _]; now contradiction L]].
  rewrite mod_words by exact L. destruct (Z.eqb_spec (word 2 48 m) 1) as [W|W]; [|split; [discriminate|intros (_ & H & _); contradiction]].
  rewrite <- rule_endless by exact W. destruct (rule_res _ m) as [[r i]| |]; cbn [bind]; split; try congruence; try (intros [_ K]; congruence). now split.
Qed.

(** ** Groups *)
Lemma flat_tail (x ts : list text) : Forall (fun t => t <> []) ts -> commas (x ++ opt_tok (commas ts)) = commas (x ++ ts).
Proof. intros H. pose proof (commas_flat x ts [] H) as K. now rewrite !app_nil_r in K. Qed.
Lemma bucket_words m g : reaches 16 m -> bucket2str m (gtype_id g) =
  (a <- act2str (part_of 16 (len0 m) m) true ;;
  Ok (commas (weight_texts g (word 2 2 m) ++ unless (word 4 4 m =? 0xffffffff) ($"watch_port=" ++ dec (word 4 4 m))
      ++ unless (word 4 8 m =? 0xffffffff) ($"watch_group=" ++ dec (word 4 8 m)) ++ opt_tok a))).
Proof.
  unfold reaches. intros L. unfold bucket2str. rewrite from_words. cbn [calcsize fold_right fwidth Nat.add]. replace (16 <=? length m)%nat with true by (symmetry; now apply Nat.leb_le).
  cbn [bind]. words. rewrite part_slice. change (Z.to_nat (word 2 0 m)) with (len0 m). destruct (act2str _ true) as [a| |]; try reflexivity. cbn [bind]. nums. rewrite commas_join. f_equal. f_equal.
  f_equal; [|f_equal; [|f_equal]].
  - destruct g; try reflexivity. cbn [gtype_id weight_texts]. change (1 =? OFPGT_SELECT) with true. unfold unless. now destruct (word 2 2 m =? 1).
  - change OFPP_ANY with 0xffffffff. unfold unless. now destruct (word 4 4 m =? _).
  - change OFPG_ANY with 0xffffffff. unfold unless. now destruct (word 4 8 m =? _).
Qed.
Lemma bucket_short m g : ~ reaches 16 m -> bucket2str m g = Raise StructError.
Proof.
  unfold reaches. intros L. unfold bucket2str. rewrite from_words. cbn [calcsize fold_right fwidth Nat.add]. replace (16 <=? length m)%nat with false by (symmetry; apply Nat.leb_gt; lia). reflexivity.
Qed.
Lemma bucket_shown_iff g m t : bucket2str m (gtype_id g) = Ok t <-> bucket_shown qpt g m t.
Proof.
  destruct (le_dec 16 (length m)) as [L|L]; [|rewrite bucket_short by exact L; split; [discriminate|intros H; destruct H; now contradiction L]].
  rewrite bucket_words by exact L. split.
  - destruct (act2str _ true) as [a| |] eqn:E; [|discriminate..]. cbn [bind]. intros [= <-]. apply acts_text in E as (ts & H & ->).
    rewrite !app_assoc, flat_tail by now apply (acts_nonnil qpt (part_of 16 (len0 m) m)). rewrite <- !app_assoc. now apply bucket_is.
  - intros [ts _ H]. rewrite (proj2 (acts_text _ _) (ex_intro _ ts (conj H eq_refl))). cbn [bind].
    rewrite !app_assoc, flat_tail by now apply (acts_nonnil qpt (part_of 16 (len0 m) m)). reflexivity.
Qed.
Lemma bucket_endless g m : bucket2str m (gtype_id g) = Diverge <-> bucket_stuck qpt m.
Proof.
  unfold bucket_stuck. destruct (le_dec 16 (length m)) as [L|L]; [|rewrite bucket_short by exact L; split; [discriminate|intros [H _]; now contradiction L]].
  rewrite bucket_words by exact L. rewrite <- acts_endless. destruct (act2str _ true) as [a| |]; cbn [bind]; split; try congruence; try (intros [_ K]; congruence). now split.
Qed.
Definition bucket_toks (g : Z) (m : bytes) : res (list text) := b <- bucket2str (firstn (len0 m) m) g ;; Ok [$"@bucket"; b].
Lemma bucket_loop_eq min g f : (2 <= min)%nat -> forall m, buckets2str_go min f g m = gloop (fun m => (length m <? min)%nat) len0 (bucket_toks g) f m.
Proof.
  intros Hm. induction f as [|f IH]; intros m; cbn [buckets2str_go gloop]; destruct (Nat.ltb_spec (length m) min) as [L|L]; try reflexivity.
  rewrite from_words. cbn [calcsize fold_right fwidth Nat.add]. replace (2 <=? length m)%nat with true by (symmetry; apply Nat.leb_le; lia). cbn [bind]. words. cbn [nth]. change (Z.to_nat (word 2 0 m)) with (len0 m).
  unfold bucket_toks. destruct (bucket2str _ g) as [b| |]; try reflexivity. cbn [bind]. rewrite IH. reflexivity.
Qed.
Lemma bucket_one g m : 
  (forall ts, bucket_toks (gtype_id g) m = Ok ts <-> exists t, bucket_shown qpt g (firstn (len0 m) m) t /\ ts = [$"@bucket"; t])
  /\ (bucket_toks (gtype_id g) m = Diverge <-> bucket_stuck qpt (firstn (len0 m) m)).
Proof.
  unfold bucket_toks. split.
  - intros ts. split.
    + destruct (bucket2str _ _) as [b| |] eqn:E; [|discriminate..]. cbn [bind]. intros [= <-]. apply bucket_shown_iff in E. eauto.
    + intros (t & H & ->). apply bucket_shown_iff in H. now rewrite H.
  - rewrite <- (bucket_endless g). destruct (bucket2str _ _); cbn [bind]; split; congruence.
Qed.
Lemma buckets_text min g f m ts : (2 <= min)%nat -> (length m <= f)%nat -> buckets2str_go min f (gtype_id g) m = Ok ts <-> buckets_shown qpt min g m ts.
Proof.
  intros Hm Hf. rewrite bucket_loop_eq by exact Hm.
  apply (gloop_shown (fun m => (length m <? min)%nat) (below min) len0 _ _ (fun m => bucket_stuck qpt (firstn (len0 m) m)) (below_b min) (below_nil min ltac:(lia))
    (fun m us _ => proj1 (bucket_one g m) us) (fun m _ => proj2 (bucket_one g m)) f m ts Hf).
Qed.
Lemma buckets_endless min g f m : (2 <= min)%nat -> (length m <= f)%nat -> buckets2str_go min f (gtype_id g) m = Diverge <-> buckets_loop qpt min g m.
Proof.
  intros Hm Hf. rewrite bucket_loop_eq by exact Hm.
  apply (gloop_endless (fun m => (length m <? min)%nat) (below min) len0 _ _ (fun m => bucket_stuck qpt (firstn (len0 m) m)) (below_b min) (below_nil min ltac:(lia))
    (fun m us _ => proj1 (bucket_one g m) us) (fun m _ => proj2 (bucket_one g m)) f m Hf).
Qed.
Lemma gtype_of z : 0 <= z -> (exists g, z = gtype_id g /\ py_nth ofpgt (Z.to_nat z) = Ok (gtype_name g)) \/ (forall g, z <> gtype_id g) /\ exists e, py_nth ofpgt (Z.to_nat z) = Raise e.
Proof.
  intros H. destruct (Z_lt_le_dec z 4) as [L|L].
  - left. assert (z = 0 \/ z = 1 \/ z = 2 \/ z = 3) as [->|[->|[->| ->]]] by lia; [exists GAll|exists GSelect|exists GIndirect|exists GFF]; split; reflexivity.
  - right. split; [intros []; cbn; lia|]. unfold py_nth. replace (nth_error ofpgt (Z.to_nat z)) with (@None text); [eauto|]. symmetry. apply nth_error_None. cbn. lia.
Qed.
Lemma gtype_inj a b : gtype_id a = gtype_id b -> a = b.
Proof. destruct a, b; (reflexivity || discriminate). Qed.
Lemma group_short m : ~ reaches 16 m -> group2str m = Raise StructError.
Proof.
  unfold reaches. intros L. unfold group2str. rewrite from_words. unfold group_fmt. cbn [calcsize fold_right fwidth Nat.add]. replace (16 <=? length m)%nat with false by (symmetry; apply Nat.leb_gt; lia). reflexivity.
Qed.
Lemma group_words m : reaches 16 m -> group2str m =
  (t <- py_nth ofpgt (Z.to_nat (word 1 10 m)) ;; bs <- buckets2str_go 17 (length m) (word 1 10 m) (skipn 16 m) ;; Ok (commas (group_id_texts (word 4 12 m) ++ t :: bs))).
Proof.
  unfold reaches. intros L. unfold group2str. rewrite from_words. unfold group_fmt. cbn [calcsize fold_right fwidth Nat.add]. replace (16 <=? length m)%nat with true by (symmetry; now apply Nat.leb_le).
  cbn [bind]. words. destruct (py_nth _ _) as [t| |]; try reflexivity. cbn [bind]. destruct (buckets2str_go _ _ _ _) as [bs| |]; try reflexivity. cbn [bind]. nums. rewrite commas_join. reflexivity.
Qed.
Theorem group_text_shown m t : group2str m = Ok t <-> group_shown qpt m t.
Proof.
  destruct (le_dec 16 (length m)) as [L|L]; [|rewrite group_short by exact L; split; [discriminate|intros H; destruct H; now contradiction L]].
  rewrite group_words by exact L. destruct (gtype_of (word 1 10 m) (word_nonneg _ _ _)) as [(g & Eg & En)|(Ng & e & En)]; rewrite En; cbn [bind].
  - rewrite Eg. split.
    + destruct (buckets2str_go _ _ _ _) as [bs| |] eqn:E; [|discriminate..]. cbn [bind]. intros [= <-]. apply buckets_text in E; [|lia|rewrite skipn_length; lia]. now apply group_is.
    + intros [g' ts _ E' H]. rewrite Eg in E'. apply gtype_inj in E' as <-. rewrite (proj2 (buckets_text 17 g (length m) (skipn 16 m) ts ltac:(lia) ltac:(rewrite skipn_length; lia)) H). reflexivity.
  - split; [discriminate|]. intros [g' ts _ E' H]. now apply Ng in E'.
Qed.
Theorem group_text_endless m : group2str m = Diverge <-> group_loop qpt m.
Proof.
  unfold group_loop. destruct (le_dec 16 (length m)) as [L|L]; [|rewrite group_short by exact L; split; [discriminate|intros [H _]; now contradiction L]].
  rewrite group_words by exact L. destruct (gtype_of (word 1 10 m) (word_nonneg _ _ _)) as [(g & Eg & En)|(Ng & e & En)]; rewrite En; cbn [bind].
  - rewrite Eg. pose proof (buckets_endless 17 g (length m) (skipn 16 m) ltac:(lia) ltac:(rewrite skipn_length; lia)) as K. split.
    + destruct (buckets2str_go _ _ _ _) as [bs| |]; [discriminate..|]. intros _. split; [exact L|]. exists g. split; [reflexivity|]. now apply K.
    + intros (_ & g' & E' & H). apply gtype_inj in E' as <-. apply K in H. now rewrite H.
  - split; [discriminate|]. intros (_ & g' & E' & _). now apply Ng in E'.
Qed.
