(** Printing arbitrary bytes: multipart messages. *)
From Verif Require Import Base PyNum Util PyLib OxmCodec OxmTables Oxm Nx Ofp4 Spec SpecOxm SpecText SpecShow SpecOfp SpecMp SpecShowOfp SpecShowMsg.
From Verif Require Import BaseFacts UtilFacts NumFacts PyLibFacts OxmRead OxmPrint OxmFacts OxmFrame OxmMore ActBase ActFrame GramLib OxmGram ShowLib.
From Verif Require Import TermFacts OfpLoop ActPrint ActReadNx FlowMod MpBase MpFlow ShowAct ShowAct2 ShowAct3 ShowMsg ShowMsg2.
From Coq Require Import Strings.Ascii.

(** ** Messages one after the other *)
Definition is_nil (m : bytes) : bool := match m with [] => true | _ => false end.
Lemma is_nil_spec m : is_nil m = true <-> [] = m.
Proof. destruct m; split; (reflexivity || discriminate). Qed.
Definition msg_toks (one : bytes -> res (list text)) (m : bytes) : res (list text) :=
  if (8 <=? length m)%nat then one (firstn (len2 m) m) else Raise StructError.
Lemma mp_loop_eq one f : forall m, mp_rows_go one f m = gloop is_nil len2 (msg_toks one) f m.
Proof.
  induction f as [|f IH]; intros [|x m]; try reflexivity. cbn [mp_rows_go gloop is_nil]. rewrite from_words. cbn [calcsize fold_right fwidth Nat.add]. unfold msg_toks.
  destruct (8 <=? length (x :: m))%nat; [|reflexivity]. cbn [bind]. words. cbn [nth]. change (Z.to_nat (word 2 2 (x :: m))) with (len2 (x :: m)). destruct (one _) as [r| |]; try reflexivity. cbn [bind]. now rewrite IH.
Qed.
Section Messages.
  Variable one : bytes -> res (list text).
  Variable R : bytes -> list text -> Prop.
  Variable D : bytes -> Prop.
  Hypothesis HR : forall m ts, one m = Ok ts <-> R m ts.
  Hypothesis HD : forall m, one m = Diverge <-> D m.
  Lemma msg_one m : (forall ts, msg_toks one m = Ok ts <-> reaches 8 m /\ R (firstn (len2 m) m) ts) /\ (msg_toks one m = Diverge <-> reaches 8 m /\ D (firstn (len2 m) m)).
  Proof.
    unfold msg_toks, reaches. destruct (Nat.leb_spec 8 (length m)) as [L|L].
    - split; [intros ts; rewrite HR|rewrite HD]; tauto.
    - split; [intros ts|]; (split; [discriminate|lia]).
  Qed.
  Lemma mp_shown m t : mp_text one m = Ok t <-> exists ts, messages R m ts /\ t = sepby (10) ts.
  Proof.
    pose proof (fun ts => gloop_shown is_nil (eq []) len2 (msg_toks one) _ _ is_nil_spec eq_refl (fun m us _ => proj1 (msg_one m) us) (fun m _ => proj2 (msg_one m)) (length m) m ts (le_n _)) as G.
    unfold mp_text. rewrite mp_loop_eq. split.
    - destruct (gloop _ _ _ _ m) as [ts| |]; [|discriminate..]. cbn [bind]. intros [= <-]. exists ts. split; [now apply G|]. apply join_sepby.
    - intros (ts & H & ->). apply G in H. rewrite H. cbn [bind]. f_equal. apply join_sepby.
  Qed.
  Lemma mp_endless m : mp_text one m = Diverge <-> messages_loop R D m.
  Proof.
    pose proof (gloop_endless is_nil (eq []) len2 (msg_toks one) _ _ is_nil_spec eq_refl (fun m us _ => proj1 (msg_one m) us) (fun m _ => proj2 (msg_one m)) (length m) m (le_n _)) as G.
    unfold mp_text. rewrite mp_loop_eq. unfold messages_loop. rewrite <- G. destruct (gloop _ _ _ _ m); cbn [bind]; split; congruence.
  Qed.
End Messages.
Lemma mp_hdr_words m : unpack_from mp_fmt m 0 = if (16 <=? length m)%nat then Ok [word 1 0 m; word 1 1 m; word 2 2 m; word 4 4 m; word 2 8 m; word 2 10 m] else Raise StructError.
Proof. rewrite from_words. unfold mp_fmt. cbn [calcsize fold_right fwidth Nat.add]. destruct (16 <=? length m)%nat; [|reflexivity]. now words. Qed.

(** ** Flow rules with counters *)
Lemma row_fixed_ok m : fixed_ok (row_fixed m).
Proof. unfold fixed_ok, row_fixed. cbn [x_cookie x_mask x_table x_priority x_idle x_hard x_buffer x_port x_group x_flags]. repeat split; try apply word_in; try (cbn; lia). Qed.
Definition row_toks (m : bytes) : res (list text) :=
  if word 2 48 m =? 1 then
    '(r, i) <- rule_res (len0 m) m ;; Ok [two_parts (counter_texts (row_counters m)) (fixed_texts print_defaults (row_fixed m) ++ opt_tok r ++ opt_tok i)]
  else Raise ValueError.
Lemma counts_text l : nonzero (map (fun cn => (counter_name (fst cn), snd cn)) l) = counter_texts l.
Proof. unfold nonzero, counter_texts. induction l as [|[c n] l IH]; [reflexivity|]. cbn [map flat_map fst snd]. rewrite IH. unfold unless. destruct (n =? 0); [reflexivity|]. now rewrite fmt_d_dec. Qed.
Lemma row_loop_eq f : forall m, mpflow_rules_go f m = gloop (fun m => (length m <? 56)%nat) len0 row_toks f m.
Proof.
  induction f as [|f IH]; intros m; cbn [mpflow_rules_go gloop]; destruct (Nat.ltb_spec (length m) 56) as [L|L]; try reflexivity.
  rewrite from_words. unfold mpflow_fmt. cbn [app calcsize fold_right fwidth Nat.add]. replace (52 <=? length m)%nat with true by (symmetry; apply Nat.leb_le; lia). cbn [bind]. words. 
  pose proof (fixed_reply (row_fixed m) (row_fixed_ok m) eq_refl eq_refl eq_refl eq_refl) as Ef. cbn [row_fixed x_cookie x_mask x_table x_priority x_idle x_hard x_buffer x_port x_group x_flags] in Ef. rewrite Ef. clear Ef.
  pose proof (counts_text (row_counters m)) as Ec. cbn [row_counters map fst snd counter_name] in Ec. rewrite Ec. clear Ec.
  change OFPMT_OXM with 1. unfold row_toks. destruct (word 2 48 m =? 1); [|reflexivity]. cbv zeta. change (Z.to_nat (word 2 50 m)) with (match_len m). change (Z.to_nat (word 2 0 m)) with (len0 m).
  unfold rule_res. replace (52 + match_len m - 4)%nat with (48 + match_len m)%nat by lia. rewrite align8_up, !part_slice.
  destruct (oxm2str _ true); try reflexivity. cbn [bind]. rewrite part_slice. destruct (inst2str _ true); try reflexivity. cbn [bind]. rewrite join2, IH. reflexivity.
Qed.
Lemma row_one m : (forall ts, row_toks m = Ok ts <-> frow_shown qpt m ts) /\ (row_toks m = Diverge <-> rule_stuck qpt (len0 m) m).
Proof.
  unfold row_toks. destruct (Z.eqb_spec (word 2 48 m) 1) as [W|W]; [|split; [intros ts; split; [discriminate|intros [us [ms is W' _ _]]; contradiction]|split; [discriminate|intros (K & _); contradiction]]].
  split.
  - intros ts. split.
    + destruct (rule_res _ m) as [[r i]| |] eqn:E; [|discriminate..]. cbn [bind]. intros [= <-]. apply rule_ok in E as (ms & is & -> & -> & Hm & Hi); [|exact W].
      destruct (rule_texts_flat (fixed_texts print_defaults (row_fixed m)) ms is (match_nonnil _ _ _ Hm) (insts_nonnil _ _ _ Hi)) as [E1 E2]. rewrite (two_parts_commas _ _ _ E1 E2). apply frow_is. now apply rule_is.
    + intros [us [ms is _ Hm Hi]]. rewrite (proj2 (rule_ok _ m (commas ms) (commas is) W)) by (exists ms, is; auto). cbn [bind].
      destruct (rule_texts_flat (fixed_texts print_defaults (row_fixed m)) ms is (match_nonnil _ _ _ Hm) (insts_nonnil _ _ _ Hi)) as [E1 E2]. now rewrite (two_parts_commas _ _ _ E1 E2).
  - rewrite <- rule_endless by exact W. destruct (rule_res _ m) as [[r i]| |]; cbn [bind]; split; congruence.
Qed.
Lemma rows_shown m ts : mpflow_rules_go (length m) m = Ok ts <-> frows_shown qpt m ts.
Proof.
  rewrite row_loop_eq. apply (gloop_shown (fun m => (length m <? 56)%nat) (below 56) len0 _ _ (fun m => rule_stuck qpt (len0 m) m) (below_b 56) (below_nil 56 ltac:(lia))
    (fun m us _ => proj1 (row_one m) us) (fun m _ => proj2 (row_one m)) (length m) m ts (le_n _)).
Qed.
Lemma rows_endless m : mpflow_rules_go (length m) m = Diverge <-> frows_loop qpt m.
Proof.
  rewrite row_loop_eq. apply (gloop_endless (fun m => (length m <? 56)%nat) (below 56) len0 _ _ (fun m => rule_stuck qpt (len0 m) m) (below_b 56) (below_nil 56 ltac:(lia))
    (fun m us _ => proj1 (row_one m) us) (fun m _ => proj2 (row_one m)) (length m) m (le_n _)).
Qed.
Lemma flow_msg m : (forall ts, mpflow2text_one m = Ok ts <-> fmsg_shown qpt m ts) /\ (mpflow2text_one m = Diverge <-> fmsg_stuck qpt m).
Proof.
  unfold mpflow2text_one, fmsg_shown, fmsg_stuck, reaches, mp_type, is_reply. rewrite mp_hdr_words. destruct (Nat.leb_spec 16 (length m)) as [L|L]; cbn [bind].
  2:{ split; [intros ts|]; (split; [discriminate|lia]). }
  change OFPMP_FLOW with 1. destruct (Z.eqb_spec (word 2 8 m) 1) as [T|T]; [|split; [intros ts|]; (split; [discriminate|intros (_ & K & _); contradiction])].
  change OFPT_MULTIPART_REPLY with 19. cbn [assert bind]. cbv zeta. rewrite !part_slice. change (part_of 16 (Z.to_nat (word 2 2 m)) m) with (mp_part m). destruct (Z.eqb_spec (word 1 1 m) 19) as [P|P]; cbn [negb].
  - rewrite <- rows_endless. split; [intros ts; rewrite rows_shown|]; tauto.
  - assert (forall x : res (list text), (x = Diverge -> False) -> (forall ts, x = Ok ts -> False) -> (forall ts, x = Ok ts <-> (16 <= length m)%nat /\ word 2 8 m = 1 /\ word 1 1 m = 19 /\ frows_shown qpt (mp_part m) ts)
      /\ (x = Diverge <-> (16 <= length m)%nat /\ word 2 8 m = 1 /\ word 1 1 m = 19 /\ frows_loop qpt (mp_part m))) as K.
    { intros x H1 H2. split; [intros ts|]; (split; [intros E; exfalso; eauto|intros (_ & _ & E & _); contradiction]). }
    apply K; clear K; [|intros ts]; rewrite from_words; unfold mpflow_req_fmt; cbn [app calcsize fold_right fwidth Nat.add]; (destruct (36 <=? length (mp_part m))%nat; [|discriminate]); cbn [bind]; words; change OFPMT_OXM with 1;
      (destruct (word 2 32 (mp_part m) =? 1); [|discriminate]); rewrite part_slice; destruct (oxm2str _ true) eqn:Eo; try discriminate. now apply oxm2str_total in Eo.
Qed.

(** ** Group descriptions *)
Definition drow_toks (m : bytes) : res (list text) :=
  assert! (8 <=? word 2 0 m) ;;
  t <- py_nth ofpgt (Z.to_nat (word 1 2 m)) ;;
  bs <- buckets2str_go 16 (length (part_of 8 (len0 m) m)) (word 1 2 m) (part_of 8 (len0 m) m) ;;
  Ok [commas (($"group=" ++ dec (word 4 4 m)) :: t :: bs)].
Lemma drow_loop_eq f : forall m, gdesc_rows_go f m = gloop (fun m => (length m <? 8)%nat) len0 drow_toks f m.
Proof.
  induction f as [|f IH]; intros m; cbn [gdesc_rows_go gloop]; destruct (Nat.ltb_spec (length m) 8) as [L|L]; try reflexivity.
  rewrite from_words. unfold gdesc_fmt. cbn [app calcsize fold_right fwidth Nat.add]. replace (8 <=? length m)%nat with true by (symmetry; apply Nat.leb_le; lia). cbn [bind]. words.
  unfold drow_toks. destruct (8 <=? word 2 0 m); [|reflexivity]. cbn [assert bind]. destruct (py_nth _ _) as [t| |]; try reflexivity. cbn [bind]. cbv zeta. rewrite part_slice.
  change (Z.to_nat (word 2 0 m)) with (len0 m). destruct (buckets2str_go _ _ _ _) as [bs| |]; try reflexivity. cbn [bind]. rewrite IH, commas_join, fmt_d_dec. reflexivity.
Qed.
Lemma len0_le k m : (Z.of_nat k <=? word 2 0 m) = (k <=? len0 m)%nat.
Proof. unfold len0. pose proof (word_nonneg 2 0 m). destruct (Nat.leb_spec k (Z.to_nat (word 2 0 m))); [apply Z.leb_le|apply Z.leb_gt]; lia. Qed.
Lemma drow_one m : (forall ts, drow_toks m = Ok ts <-> drow_shown qpt m ts) /\ (drow_toks m = Diverge <-> drow_stuck qpt m).
Proof.
  unfold drow_toks, drow_stuck. change 8 with (Z.of_nat 8). rewrite len0_le. destruct (Nat.leb_spec 8 (len0 m)) as [L|L]; cbn [assert bind].
  2:{ split; [intros ts; split; [discriminate|intros [g us K _ _]; lia]|split; [discriminate|lia]]. }
  destruct (gtype_of (word 1 2 m) (word_nonneg _ _ _)) as [(g & Eg & En)|(Ng & e & En)]; rewrite En; cbn [bind].
  2:{ split; [intros ts; split; [discriminate|intros [g us _ K _]; now apply Ng in K]|split; [discriminate|intros (_ & g & K & _); now apply Ng in K]]. }
  rewrite Eg. set (p := part_of 8 (len0 m) m). split.
  - intros ts. split.
    + destruct (buckets2str_go _ _ _ _) as [bs| |] eqn:E; [|discriminate..]. cbn [bind]. intros [= <-]. apply buckets_text in E; [|lia..]. now apply drow_is.
    + intros [g' us _ E' H]. rewrite Eg in E'. apply gtype_inj in E' as <-. fold p in H. now rewrite (proj2 (buckets_text 16 g (length p) p us ltac:(lia) (le_n _)) H).
  - pose proof (buckets_endless 16 g (length p) p ltac:(lia) (le_n _)) as K. split.
    + destruct (buckets2str_go _ _ _ _) as [bs| |]; [discriminate..|]. intros _. split; [exact L|]. exists g. split; [reflexivity|]. now apply K.
    + intros (_ & g' & E' & H). apply gtype_inj in E' as <-. apply K in H. now rewrite H.
Qed.
Lemma desc_msg m : (forall ts, mpgroupdesc2text_one m = Ok ts <-> dmsg_shown qpt m ts) /\ (mpgroupdesc2text_one m = Diverge <-> dmsg_stuck qpt m).
Proof.
  unfold mpgroupdesc2text_one, dmsg_shown, dmsg_stuck, reaches, mp_type, is_reply. rewrite mp_hdr_words. destruct (Nat.leb_spec 16 (length m)) as [L|L]; cbn [bind].
  2:{ split; [intros ts|]; (split; [discriminate|lia]). }
  change OFPMP_GROUP_DESC with 7. destruct (Z.eqb_spec (word 2 8 m) 7) as [T|T]; [|split; [intros ts|]; (split; [discriminate|intros (_ & K & _); contradiction])].
  change OFPT_MULTIPART_REPLY with 19. cbn [assert bind]. cbv zeta. rewrite !part_slice. change (part_of 16 (Z.to_nat (word 2 2 m)) m) with (mp_part m). destruct (Z.eqb_spec (word 1 1 m) 19) as [P|P]; cbn [negb].
  - rewrite drow_loop_eq. rewrite (gloop_endless (fun m => (length m <? 8)%nat) (below 8) len0 _ _ _ (below_b 8) (below_nil 8 ltac:(lia)) (fun m us _ => proj1 (drow_one m) us) (fun m _ => proj2 (drow_one m)) _ _ (le_n _)).
    split; [intros ts|tauto]. rewrite (gloop_shown (fun m => (length m <? 8)%nat) (below 8) len0 _ _ _ (below_b 8) (below_nil 8 ltac:(lia)) (fun m us _ => proj1 (drow_one m) us) (fun m _ => proj2 (drow_one m)) _ _ _ (le_n _)). tauto.
  - split; [|split; [discriminate|tauto]]. intros ts. split; [intros [= <-]; tauto|]. intros (_ & _ & [[K _]|[_ ->]]); [contradiction|reflexivity].
Qed.

(** ** Group counters *)
Lemma pairs_loop_eq f : forall m, mpg_buckets_go f m = gloop (fun m => (length m <? 16)%nat) (fun _ => 16%nat) (fun m => Ok ($"@bucket" :: counter_texts [(CPackets, word 8 0 m); (CBytes, word 8 8 m)])) f m.
Proof.
  induction f as [|f IH]; intros m; cbn [mpg_buckets_go gloop]; destruct (Nat.ltb_spec (length m) 16) as [L|L]; try reflexivity.
  rewrite from_words. cbn [app calcsize fold_right fwidth Nat.add]. replace (16 <=? length m)%nat with true by (symmetry; apply Nat.leb_le; lia). cbn [bind]. words. rewrite IH.
  destruct (gloop _ _ _ f _) as [us| |]; try reflexivity. cbn [bind]. pose proof (counts_text [(CPackets, word 8 0 m); (CBytes, word 8 8 m)]) as Ec. cbn [map fst snd counter_name] in Ec. now rewrite Ec.
Qed.
Lemma pairs_ok f m ts : (length m <= f)%nat -> mpg_buckets_go f m = Ok ts <-> pairs_shown m ts.
Proof.
  intros Hf. rewrite pairs_loop_eq. apply (gloop_shown (fun m => (length m <? 16)%nat) (below 16) (fun _ => 16%nat) _ _ (fun _ => False) (below_b 16) (below_nil 16 ltac:(lia))); [| |exact Hf].
  - intros z us _. split; congruence.
  - intros z _. split; [discriminate|contradiction].
Qed.
Lemma pairs_total f m : (length m <= f)%nat -> exists ts, mpg_buckets_go f m = Ok ts.
Proof.
  intros Hf. destruct (mpg_buckets_go f m) as [ts| |] eqn:E; [eauto|exfalso..].
  - revert e m Hf E. induction f as [|f IH]; intros e m Hf; rewrite pairs_loop_eq; cbn [gloop]; destruct (Nat.ltb_spec (length m) 16) as [L|L]; try discriminate.
    rewrite <- pairs_loop_eq. cbn [bind]. destruct (mpg_buckets_go f (skipn 16 m)) eqn:E; try discriminate. intros _. now apply IH in E; [|rewrite skipn_length; lia].
  - revert m Hf E. induction f as [|f IH]; intros m Hf; rewrite pairs_loop_eq; cbn [gloop]; destruct (Nat.ltb_spec (length m) 16) as [L|L]; try discriminate; [cbn in Hf; lia|].
    rewrite <- pairs_loop_eq. cbn [bind]. destruct (mpg_buckets_go f (skipn 16 m)) eqn:E; try discriminate. intros _. now apply IH in E; [|rewrite skipn_length; lia].
Qed.
Definition srow_toks (m : bytes) : res (list text) :=
  assert! (40 <=? word 2 0 m) ;;
  bt <- mpg_buckets_go (length (part_of 40 (len0 m) m)) (part_of 40 (len0 m) m) ;; Ok [stat_id (word 4 4 m) ++ commas (counter_texts (stat_counters m) ++ bt)].
Lemma srow_loop_eq f : forall m, mpg_rows_go f m = gloop (fun m => (length m <? 40)%nat) len0 srow_toks f m.
Proof.
  induction f as [|f IH]; intros m; cbn [mpg_rows_go gloop]; destruct (Nat.ltb_spec (length m) 40) as [L|L]; try reflexivity.
  rewrite from_words. unfold mpg_fmt. cbn [app calcsize fold_right fwidth Nat.add]. replace (40 <=? length m)%nat with true by (symmetry; apply Nat.leb_le; lia). cbn [bind]. words.
  unfold srow_toks. destruct (40 <=? word 2 0 m); [|reflexivity]. cbn [assert bind]. cbv zeta. rewrite part_slice. change (Z.to_nat (word 2 0 m)) with (len0 m).
  destruct (mpg_buckets_go _ _) as [bs| |]; try reflexivity. cbn [bind]. rewrite IH, commas_join, fmt_d_dec.
  pose proof (counts_text (stat_counters m)) as Ec. cbn [stat_counters map fst snd counter_name] in Ec. rewrite Ec. clear Ec.
  unfold stat_id. change OFPG_ALL with 0xfffffffc. change OFPG_ANY with 0xffffffff. destruct (gloop _ _ _ f _) as [us| |]; try reflexivity. cbn [bind app].
  destruct (word 4 4 m =? 0xfffffffc); [reflexivity|]. destruct (word 4 4 m =? 0xffffffff); [reflexivity|]. now rewrite <- !app_assoc.
Qed.
Lemma srow_one m : (forall ts, srow_toks m = Ok ts <-> srow_shown m ts) /\ (srow_toks m = Diverge <-> False).
Proof.
  unfold srow_toks. change 40 with (Z.of_nat 40). rewrite len0_le. destruct (Nat.leb_spec 40 (len0 m)) as [L|L]; cbn [assert bind].
  2:{ split; [intros ts; split; [discriminate|intros [us K _]; lia]|split; [discriminate|contradiction]]. }
  set (p := part_of 40 (len0 m) m). destruct (pairs_total (length p) p (le_n _)) as (bs & E). rewrite E. cbn [bind]. apply pairs_ok in E; [|lia]. split; [|split; [discriminate|contradiction]].
  intros ts. split; [intros [= <-]; now apply srow_is|]. intros [us _ H]. fold p in H. apply (pairs_ok (length p)) in E; [|lia]. apply (pairs_ok (length p)) in H; [|lia]. rewrite E in H. injection H as <-. reflexivity.
Qed.
Lemma stat_msg m : (forall ts, mpgroup2text_one m = Ok ts <-> smsg_shown m ts) /\ (mpgroup2text_one m = Diverge <-> False).
Proof.
  unfold mpgroup2text_one, smsg_shown, reaches, mp_type, is_reply. rewrite mp_hdr_words. destruct (Nat.leb_spec 16 (length m)) as [L|L]; cbn [bind].
  2:{ split; [intros ts; split; [discriminate|lia]|split; [discriminate|contradiction]]. }
  change OFPMP_GROUP with 6. destruct (Z.eqb_spec (word 2 8 m) 6) as [T|T]; [|split; [intros ts; split; [discriminate|intros (_ & K & _); contradiction]|split; [discriminate|contradiction]]].
  change OFPT_MULTIPART_REPLY with 19. cbn [assert bind]. cbv zeta. rewrite !part_slice. change (part_of 16 (Z.to_nat (word 2 2 m)) m) with (mp_part m). destruct (Z.eqb_spec (word 1 1 m) 19) as [P|P]; cbn [negb].
  - rewrite srow_loop_eq. split.
    + intros ts. rewrite (gloop_shown (fun m => (length m <? 40)%nat) (below 40) len0 _ _ _ (below_b 40) (below_nil 40 ltac:(lia)) (fun m us _ => proj1 (srow_one m) us) (fun m _ => proj2 (srow_one m)) _ _ _ (le_n _)). tauto.
    + rewrite (gloop_endless (fun m => (length m <? 40)%nat) (below 40) len0 _ _ _ (below_b 40) (below_nil 40 ltac:(lia)) (fun m us _ => proj1 (srow_one m) us) (fun m _ => proj2 (srow_one m)) _ _ (le_n _)).
      split; [|contradiction]. intros H. induction H as [z ts Hs [us Hl _] E0|z _ F|z ts _ _ _ IH]; [lia|exact F|exact IH].
  - rewrite from_words. cbn [calcsize fold_right fwidth Nat.add]. destruct (Nat.leb_spec 24 (length m)) as [L2|L2]; cbn [bind].
    + words. cbn [nth]. rewrite fmt_d_dec. change OFPG_ALL with 0xfffffffc. change OFPG_ANY with 0xffffffff. split; [|split; [discriminate|contradiction]].
      intros ts. unfold asked_texts. destruct (word 4 16 m =? 0xfffffffc); [split; [intros [= <-]; tauto|intros (_ & _ & [[K _]|(_ & _ & ->)]); [contradiction|reflexivity]]|].
      destruct (word 4 16 m =? 0xffffffff); (split; [intros [= <-]; tauto|intros (_ & _ & [[K _]|(_ & _ & ->)]); [contradiction|reflexivity]]).
    + split; [|split; [discriminate|contradiction]]. intros ts. split; [discriminate|]. intros (_ & _ & [[K _]|(_ & K & _)]); [contradiction|lia].
Qed.
Theorem mpflow_text m t : mpflow2text m = Ok t <-> exists ts, messages (fmsg_shown qpt) m ts /\ t = lines ts.
Proof. exact (mp_shown _ _ _ (fun m => proj1 (flow_msg m)) (fun m => proj2 (flow_msg m)) m t). Qed.
Theorem mpflow_endless m : mpflow2text m = Diverge <-> messages_loop (fmsg_shown qpt) (fmsg_stuck qpt) m.
Proof. exact (mp_endless _ _ _ (fun m => proj1 (flow_msg m)) (fun m => proj2 (flow_msg m)) m). Qed.
Theorem mpdesc_text m t : mpgroupdesc2text m = Ok t <-> exists ts, messages (dmsg_shown qpt) m ts /\ t = lines ts.
Proof. exact (mp_shown _ _ _ (fun m => proj1 (desc_msg m)) (fun m => proj2 (desc_msg m)) m t). Qed.
Theorem mpdesc_endless m : mpgroupdesc2text m = Diverge <-> messages_loop (dmsg_shown qpt) (dmsg_stuck qpt) m.
Proof. exact (mp_endless _ _ _ (fun m => proj1 (desc_msg m)) (fun m => proj2 (desc_msg m)) m). Qed.
Theorem mpstat_text m t : mpgroup2text m = Ok t <-> exists ts, messages smsg_shown m ts /\ t = lines ts.
Proof. exact (mp_shown _ _ (fun _ => False) (fun m => proj1 (stat_msg m)) (fun m => proj2 (stat_msg m)) m t). Qed.
Theorem mpstat_endless m : mpgroup2text m = Diverge <-> messages_loop smsg_shown (fun _ => False) m.
Proof. exact (mp_endless _ _ (fun _ => False) (fun m => proj1 (stat_msg m)) (fun m => proj2 (stat_msg m)) m). Qed.
