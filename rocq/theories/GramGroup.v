(** The grammar of group texts is what [str2group] reads. *)
From Coq Require Import Strings.Ascii.
From Verif Require Import Base PyNum Util PyLib OxmCodec OxmTables Oxm Nx Ofp4 Spec SpecOxm SpecText SpecOfp SpecActText SpecFlowText.
From Verif Require Import BaseFacts UtilFacts NumFacts OxmRead OxmPrint OxmFacts OxmFrame OxmGram OxmExact TermFacts OfpTerm.
From Verif Require Import ActBase ActRead ActReadNx ActReadLearn ActFrame ActDenote FlowRead FlowMod FlowFrame GroupRead GroupFrame.
From Verif Require Import GramLib GramTok GramField GramAct GramStr GramFlow.

(** ** Ends of texts *)
Lemma word_end s nm u : word s nm u -> ends_with s (nm ++ u) /\ ends_with s u.
Proof. intros (h & N & _). apply next_cat in N. split; [now exists h|exists (h ++ nm); now rewrite <- app_assoc]. Qed.
Lemma valued_end u p r : valued u p r -> ends_with u r.
Proof. intros (h & N & _). eapply next_end; eauto. Qed.
Lemma ends_trans a b c : ends_with a b -> ends_with b c -> ends_with a c.
Proof. intros (x & ->) (y & ->). exists (x ++ y). now rewrite app_assoc. Qed.

(** ** Buckets *)
Lemma bset_names nm : bset_name nm <-> assoc_t nm bucket_fields <> None.
Proof.
  unfold bset_name, bucket_fields. cbn [assoc_t In]. split.
  - intros [<-|[<-|[<-|[]]]]; discriminate.
  - intros H. destruct (text_eqb nm $"weight") eqn:E1; [apply text_eqb_eq in E1; auto|].
    destruct (text_eqb nm $"watch_port") eqn:E2; [apply text_eqb_eq in E2; auto|].
    destruct (text_eqb nm $"watch_group") eqn:E3; [apply text_eqb_eq in E3; auto|]. contradiction.
Qed.
Definition bset_num (s : bset) : Z := match s with BWeight n | BPort n | BGroup n => n end.
Lemma bset_sound nm set u p n r : assoc_t nm bucket_fields = Some set -> valued u p r -> literal p n ->
  exists st, bset_any nm u st r /\ forall b, set (binfo_of b) n = binfo_of (apply_bset b st).
Proof.
  intros H V L. apply assoc_in in H. cbn [bucket_fields In] in H. repeat destruct H as [H|H]; try contradiction; injection H as <- <-;
    [exists (BWeight n)|exists (BPort n)|exists (BGroup n)]; (split; [econstructor; eauto|intros []; reflexivity]).
Qed.
Lemma bset_read nm u st r : bset_any nm u st r -> exists set p, assoc_t nm bucket_fields = Some set /\ valued u p r /\ literal p (bset_num st)
  /\ (forall b, set (binfo_of b) (bset_num st) = binfo_of (apply_bset b st)) /\ ~ at_word nm /\ nm <> [].
Proof.
  intros H. destruct H as [u p r n V L|u p r n V L|u p r n V L]; (eexists; exists p; split; [reflexivity|]; split; [exact V|]; split; [exact L|]; split; [intros []; reflexivity|]; split; [now apply at_no|discriminate]).
Qed.
Lemma apply_bset_acts b st : bk_acts (apply_bset b st) = bk_acts b.
Proof. destruct b, st; reflexivity. Qed.
Lemma bucket_sound fuel : forall b acts u i' acts' u', bucket_go fuel (binfo_of b) acts u = Ok (i', acts', u') ->
  exists l, bucket_text notation u l u' /\ i' = binfo_of (fold_left apply_bset (b_sets l) b) /\ acts' = acts ++ b_acts l.
Proof.
  induction fuel as [|fuel IH]; intros b acts [|c s] i' acts' u' H; cbn [bucket_go] in H; try discriminate;
    try (injection H as <- <- <-; exists []; split; [constructor|]; split; [reflexivity|cbn; now rewrite app_nil_r]).
  remember (c :: s) as u eqn:Eu. clear Eu c s. destruct (get_token u) as [[h nm] r] eqn:Et. mon H. rewrite negb_true_iff in Eb. pose proof (get_word _ _ _ _ Et Eb) as W.
  destruct (startswith $"@" nm) eqn:Es.
  { injection H as <- <- <-. exists []. split; [eapply bt_at; eauto; now apply at_iff|]. split; [reflexivity|cbn; now rewrite app_nil_r]. }
  apply at_no in Es. destruct (assoc_t nm bucket_fields) as [set|] eqn:Ef.
  - destruct (get_token r) as [[op p] rest] eqn:Er. mons H. apply Nat.eqb_eq in Eb1.
    destruct (bset_sound nm set r p z rest Ef) as (st & Hs & Hset); [eapply get_valued; eauto|apply literal_iff; now subst|].
    rewrite Hset in H. destruct (IH _ _ _ _ _ _ H) as (l & A1 & A2 & A3). exists (BPSet st :: l). split; [eapply bt_set; eauto|]. auto.
  - assert (Hb : ~ bset_name nm) by (rewrite bset_names; congruence). mons H. apply str2act_sound in Ea as (r' & Ha & ->). rename b0 into x. pose proof (action_end _ _ _ _ Ha) as He.
    destruct (Nat.ltb_spec 0 (length u - length r')) as [Hl|Hl].
    + rewrite skip_rest in H by auto. destruct (IH _ _ _ _ _ _ H) as (l & A1 & A2 & A3). exists (BPAct x :: l). split.
      * eapply bt_act; eauto. intros E. apply consumed in E; auto. lia.
      * split; [exact A2|]. rewrite A3. unfold b_acts. cbn [flat_map]. now rewrite app_assoc.
    + injection H as <- <- <-. exists []. split; [|split; [reflexivity|cbn; now rewrite app_nil_r]]. assert (r' = u) as -> by (apply consumed; auto; lia). eapply bt_unknown; eauto.
Qed.
Lemma bucket_read s l r : bucket_text notation s l r -> forall fuel b acts, (length s <= fuel)%nat ->
  bucket_go fuel (binfo_of b) acts s = Ok (binfo_of (fold_left apply_bset (b_sets l) b), acts ++ b_acts l, r).
Proof.
  induction 1 as [|s nm u W A|s nm u x W A B Ha|s nm u st r l t W Hs _ IH|s nm u x r l t W A B Ha Hr _ IH]; intros fuel b acts Hf.
  - destruct fuel; cbn; now rewrite app_nil_r.
  - destruct (word_get _ _ _ W) as (h & Et & Eb). assert (Hne : s <> []) by (eapply word_some; eauto; destruct A as (x & ->); discriminate).
    destruct s as [|c s]; [congruence|]. destruct fuel as [|fuel]; [cbn in Hf; lia|]. cbn [bucket_go]. rewrite Et, Eb. cbn [negb assert bind]. apply at_iff in A. rewrite A. cbn. now rewrite app_nil_r.
  - destruct (word_get _ _ _ W) as (h & Et & Eb). destruct s as [|c s]; [destruct fuel; cbn; now rewrite app_nil_r|]. destruct fuel as [|fuel]; [cbn in Hf; lia|]. cbn [bucket_go].
    rewrite Et, Eb. cbn [negb assert bind]. apply at_no in A. rewrite A. destruct (assoc_t nm bucket_fields) eqn:E; [destruct B; apply bset_names; congruence|].
    rewrite (str2act_read _ _ _ Ha). cbn [bind]. rewrite Nat.sub_diag. cbn. now rewrite app_nil_r.
  - destruct (word_get _ _ _ W) as (h & Et & Eb). destruct (bset_read _ _ _ _ Hs) as (set & p & E1 & V & L & E2 & A & Hn0).
    assert (Hne : s <> []) by (eapply word_some; eauto; destruct nm; [congruence|discriminate]).
    assert (Hlen : (length r <= length u)%nat) by (apply valued_end in V as (y & ->); rewrite app_length; unfold text in *; lia).
    assert (Hlen' : (length u < length s)%nat) by (apply get_token_progress in Et; [|exact Hne]; destruct Et; [unfold text in *; lia|]; destruct W as (h' & W & _); apply next_cat in W; apply (f_equal (@length Z)) in W; rewrite !app_length in W; destruct nm; [congruence|cbn in W; unfold text in *; lia]).
    destruct s as [|c s]; [congruence|]. destruct fuel as [|fuel]; [cbn in Hf; lia|]. cbn [bucket_go]. rewrite Et, Eb. cbn [negb assert bind]. apply at_no in A. rewrite A, E1.
    destruct (valued_get _ _ _ V) as (h2 & V1 & V2). rewrite V1, V2. cbn [assert bind]. rewrite (literal_alone _ _ L). cbn [bind]. rewrite Nat.eqb_refl. cbn [assert bind].
    rewrite E2. rewrite IH by (unfold text in *; lia). reflexivity.
  - destruct (word_get _ _ _ W) as (h & Et & Eb). pose proof (action_end _ _ _ _ Ha) as He.
    assert (Hlen : (length r < length s)%nat). { pose proof (consumed _ _ He) as K. destruct He as (y & He). apply (f_equal (@length Z)) in He. rewrite app_length in He. unfold text in *. destruct (Nat.eq_dec (length s - length r) 0); [tauto|lia]. }
    destruct s as [|c s]; [cbn in Hlen; lia|]. destruct fuel as [|fuel]; [cbn in Hf; lia|]. cbn [bucket_go]. rewrite Et, Eb. cbn [negb assert bind]. apply at_no in A. rewrite A.
    destruct (assoc_t nm bucket_fields) eqn:E; [destruct B; apply bset_names; congruence|]. rewrite (str2act_read _ _ _ Ha). cbn [bind].
    destruct (Nat.ltb_spec 0 (length (c :: s) - length r)) as [_|K]; [|unfold text in *; lia]. rewrite skip_rest by auto. rewrite IH by (unfold text in *; lia).
    cbn [b_sets flat_map app]. unfold b_acts. cbn [flat_map]. now rewrite app_assoc.
Qed.
Lemma bucket_text_end N s l r : bucket_text N s l r -> ends_with s r.
Proof.
  induction 1 as [|s nm u W A|s nm u x W A B Ha|s nm u st r l t W Hs _ IH|s nm u x r l t W A B Ha Hr _ IH]; try (exists []; reflexivity).
  - eapply ends_trans; [apply (word_end _ _ _ W)|]. eapply ends_trans; [|exact IH]. destruct Hs; eapply valued_end; eauto.
  - eapply ends_trans; [eapply action_end; eauto|exact IH].
Qed.
(** nothing is consumed if and only if the bucket has no items *)
Lemma bucket_text_none N s l r : bucket_text N s l r -> r = s <-> l = [].
Proof.
  intros H. destruct H as [|s nm u W A|s nm u x W A B Ha|s nm u st r l t W Hs H|s nm u x r l t W A B Ha Hr H]; try tauto.
  - split; [|discriminate]. intros ->. exfalso. apply bucket_text_end in H as (y & H). destruct (word_end _ _ _ W) as [(x & W1) _].
    assert (V : ends_with u r) by (destruct Hs; eapply valued_end; eauto). destruct V as (v & ->). rewrite H in W1. apply (f_equal (@length Z)) in W1. rewrite !app_length in W1.
    assert (0 < length nm)%nat by (destruct Hs; cbn; lia). unfold text in *. lia.
  - split; [|discriminate]. intros ->. exfalso. apply Hr. apply bucket_text_end in H as (y & H). apply action_end in Ha as (v & Ha).
    rewrite H in Ha. apply (f_equal (@length Z)) in Ha as K. rewrite !app_length in K. destruct y; [exact H|cbn in K; unfold text in *; lia].
Qed.
Definition gbinfo (t : gtype) : binfo := BInfo (if gtype_id t =? 1 then 1 else 0) 0xffffffff 0xffffffff.
Lemma gbinfo_eq t : gbinfo t = binfo_of (empty_bucket t).
Proof. destruct t; reflexivity. Qed.
Lemma part_length t l : length (bucket_part t l) = (16 + length (b_acts l))%nat.
Proof. unfold bucket_part. rewrite !app_length, !be_length. reflexivity. Qed.
Lemma str2bucket_sound s t b n : str2bucket s (gtype_id t) = Ok (b, n) -> exists l r, bucket_text notation s l r /\ n = (length s - length r)%nat
  /\ (l = [] \/ bucket_fits t l /\ Z.of_nat (length b) <= 65535 /\ b = bucket_part t l).
Proof.
  unfold str2bucket. intros H. fold (gbinfo t) in H. rewrite gbinfo_eq in H. destruct (bucket_go _ _ _ s) as [[[i acts] rest]|e|] eqn:E; cbn [bind] in H; try discriminate.
  apply bucket_sound in E as (l & A1 & -> & ->). exists l, rest. split; [exact A1|]. pose proof (bucket_text_end _ _ _ _ A1) as He. pose proof (consumed _ _ He) as K.
  destruct (Nat.eqb_spec (length s - length rest) 0) as [E0|E0].
  - injection H as _ <-. split; [auto|]. left. apply (bucket_text_none _ _ _ _ A1). tauto.
  - mons H. injection H as <- <-. split; [auto|]. right. cbn [app] in *.
    apply pack_u_inv in Ea as (H1 & h1 & Ea & ->). apply pack_u_inv in Ea as (H2 & h2 & Ea & ->). apply pack_u_inv in Ea as (H3 & h3 & Ea & ->).
    apply pack_u_inv in Ea as (H4 & h4 & Ea & ->). apply pack_x_inv in Ea as (h5 & Ea & ->). apply pack_nil_inv in Ea as ->.
    assert (Eb : (be 2 (16 + Z.of_nat (length (b_acts l))) ++ be 2 (b_weight (binfo_of (fold_left apply_bset (b_sets l) (empty_bucket t))))
       ++ be 4 (b_watch_port (binfo_of (fold_left apply_bset (b_sets l) (empty_bucket t)))) ++ be 4 (b_watch_group (binfo_of (fold_left apply_bset (b_sets l) (empty_bucket t))))
       ++ pad 4 ++ []) ++ b_acts l = bucket_part t l).
    { unfold bucket_part. cbv zeta. rewrite app_nil_r, <- !app_assoc. replace (16 + Z.of_nat (length (b_acts l))) with (Z.of_nat (16 + length (b_acts l))) by lia. reflexivity. }
    rewrite Eb, part_length. split; [unfold bucket_fits; cbv zeta; auto|]. split; [|reflexivity]. unfold in_bytes in H1. change (256 ^ Z.of_nat 2) with 65536 in H1. lia.
Qed.
Lemma str2bucket_read s t l r : bucket_text notation s l r -> l <> [] -> bucket_fits t l -> Z.of_nat (length (bucket_part t l)) <= 65535 ->
  str2bucket s (gtype_id t) = Ok (bucket_part t l, (length s - length r)%nat).
Proof.
  intros H Hl (F1 & F2 & F3) Hb. unfold str2bucket. fold (gbinfo t). rewrite gbinfo_eq, (bucket_read _ _ _ H) by lia. cbn [bind app].
  pose proof (bucket_text_end _ _ _ _ H) as He. pose proof (consumed _ _ He) as K. pose proof (bucket_text_none _ _ _ _ H) as K'.
  destruct (Nat.eqb_spec (length s - length r) 0) as [E0|_]; [tauto|]. rewrite part_length in Hb.
  assert (in_bytes 2 (16 + Z.of_nat (length (b_acts l)))) by (unfold in_bytes; change (256 ^ Z.of_nat 2) with 65536; lia).
  cbn [binfo_of b_weight b_watch_port b_watch_group]. packs. unfold bucket_part. cbv zeta. rewrite <- !app_assoc.
  replace (16 + Z.of_nat (length (b_acts l))) with (Z.of_nat (16 + length (b_acts l))) by lia. reflexivity.
Qed.
Lemma str2bucket_none s t r : bucket_text notation s [] r -> str2bucket s (gtype_id t) = Ok ([], 0%nat).
Proof.
  intros H. unfold str2bucket. fold (gbinfo t). rewrite gbinfo_eq, (bucket_read _ _ _ H) by lia. cbn [bind app].
  assert (r = s) as -> by (now apply (bucket_text_none _ _ _ _ H)). now rewrite Nat.sub_diag.
Qed.

(** ** Lists of buckets *)
(** nothing is consumed only before a word *)
Lemma bucket_zero s t b h nm u : str2bucket s (gtype_id t) = Ok (b, 0%nat) -> s <> [] -> get_token s = (h, nm, u) -> has_char 61 h = false /\ nm <> [].
Proof.
  intros H Hs Et. unfold str2bucket in H. fold (gbinfo t) in H. rewrite gbinfo_eq in H.
  destruct (bucket_go _ _ _ s) as [[[i acts] rest]|e|] eqn:E; cbn [bind] in H; try discriminate.
  assert (Z0 : (length s - length rest)%nat = 0%nat) by (destruct (Nat.eqb_spec (length s - length rest) 0); [auto|mons H; congruence]). clear H.
  destruct s as [|c s]; [congruence|]. cbn [length bucket_go] in E. rewrite Et in E. mon E. rewrite negb_true_iff in Eb. split; [exact Eb|]. intros ->.
  replace (startswith $"@" []) with false in E by reflexivity. replace (assoc_t [] bucket_fields) with (@None (binfo -> Z -> binfo)) in E by reflexivity. cbv iota in E.
  mons E. destruct (act_at _ _ _ _ _ _ Et Ea) as [[-> ->]|(fn & z & k & Hz & _ & Hk & _)].
  - destruct (Nat.ltb_spec 0 (length h)) as [Hl|Hl].
    + apply bucket_sound in E as (l & A & _). apply bucket_text_end in A as (y & A). apply (f_equal (@length Z)) in A. rewrite skipn_length, app_length in A.
      pose proof (get_token_concat _ _ _ _ Et) as Hc. apply (f_equal (@length Z)) in Hc. rewrite !app_length in Hc. cbn [length] in *. unfold text in *. lia.
    + destruct h; [|cbn in Hl; lia]. pose proof (get_token_concat _ _ _ _ Et) as Hc. cbn [app] in Hc. subst u. destruct (no_name _ _ _ Et Eb) as [?|(x & Q')]; [discriminate|]. injection Q' as -> ->.
      apply token_split in Et as [Eh _]. pose proof (eq_head x) as Q. rewrite Eh in Q. discriminate.
  - symmetry in Hz. apply app_eq_nil in Hz as [-> _]. destruct (named_known _ _ Hk) as [K|K]; [apply K; reflexivity|discriminate K].
Qed.
Lemma buckets_sound fuel : forall t u x, group_buckets_go fuel (gtype_id t) u = Ok (x, []) ->
  exists ls, buckets_text notation u ls /\ Forall (bucket_fits t) ls /\ x = flat_map (bucket_part t) ls.
Proof.
  induction fuel as [|fuel IH]; intros t [|c s] x H; cbn [group_buckets_go] in H; try discriminate;
    try (injection H as <-; exists []; split; [constructor|]; split; [constructor|reflexivity]).
  remember (c :: s) as u eqn:Eu. assert (Hu : u <> []) by (subst; discriminate). clear Eu c s.
  destruct (str2bucket u (gtype_id t)) as [[b n]|e|] eqn:Eb; cbn [bind] in H; try discriminate.
  destruct (str2bucket_sound _ _ _ _ Eb) as (l & r & B & Hn & Hl). pose proof (bucket_text_end _ _ _ _ B) as He.
  destruct (Nat.eqb_spec n 0) as [E0|E0]; cbn [negb] in H.
  - subst n. rewrite E0 in Eb. destruct (get_token u) as [[h nm] r0] eqn:Et. destruct (bucket_zero _ _ _ _ _ _ Eb Hu Et) as [K1 K2].
    destruct (Nat.eqb_spec (length nm) 0) as [Z|_]; [destruct nm; [congruence|discriminate]|]. cbn [orb] in H.
    destruct (text_eqb nm $"@bucket") eqn:En; [|injection H as _ ->; congruence]. apply text_eqb_eq in En. subst nm.
    destruct (IH _ _ _ H) as (ls & A1 & A2). exists ls. split; [|exact A2]. eapply bts_word; eauto. eapply get_word; eauto.
  - destruct (group_buckets_go fuel (gtype_id t) (skipn n u)) as [[y rest]|e|] eqn:Eg; cbn [bind] in H; try discriminate. injection H as <- ->.
    rewrite Hn, skip_rest in Eg by auto. destruct (IH _ _ _ Eg) as (ls & A1 & A2 & ->). destruct Hl as [->|(F & L & ->)].
    { exfalso. apply E0. rewrite Hn. apply consumed; auto. now apply (bucket_text_none _ _ _ _ B). }
    exists (l :: ls). split; [|split; [now constructor|reflexivity]]. eapply bts_bucket; eauto. intros ->. apply E0. rewrite Hn. apply consumed; auto. now apply (bucket_text_none _ _ _ _ B).
Qed.
Lemma buckets_read u ls : buckets_text notation u ls -> forall fuel t, (length u <= fuel)%nat -> Forall (bucket_fits t) ls ->
  Forall (fun l => Z.of_nat (length (bucket_part t l)) <= 65535) ls -> group_buckets_go fuel (gtype_id t) u = Ok (flat_map (bucket_part t) ls, []).
Proof.
  induction 1 as [|s l r ls B Hl _ IH|s u ls W _ IH]; intros fuel t Hf F L.
  - destruct fuel; reflexivity.
  - inversion F as [|? ? F1 F2]; inversion L as [|? ? L1 L2]; subst. pose proof (bucket_text_end _ _ _ _ B) as He. pose proof (consumed _ _ He) as K. pose proof (bucket_text_none _ _ _ _ B) as K'.
    destruct s as [|c s]; [exfalso; apply Hl, K'; destruct He as (y & He); symmetry in He; now apply app_eq_nil in He as [_ He]|]. destruct fuel as [|fuel]; [cbn in Hf; lia|]. cbn [group_buckets_go].
    rewrite (str2bucket_read _ t _ _ B Hl F1 L1). cbn [bind]. destruct (Nat.eqb_spec (length (c :: s) - length r) 0) as [E0|E0]; [tauto|]. cbn [negb].
    rewrite skip_rest by auto. rewrite (IH fuel t); auto. unfold text in *. cbn [length] in *. lia.
  - destruct (word_get _ _ _ W) as (h & Et & Eb). assert (Hne : s <> []) by (eapply word_some; eauto; discriminate).
    assert (B : bucket_text notation s [] s) by (eapply bt_at; eauto; now exists $"bucket").
    pose proof (get_token_progress _ _ _ _ Et Hne) as Hp. destruct s as [|c s]; [congruence|]. destruct fuel as [|fuel]; [cbn in Hf; lia|]. cbn [group_buckets_go].
    rewrite (str2bucket_none _ t _ B). cbn [bind Nat.eqb negb]. rewrite Et. replace (Nat.eqb (length $"@bucket") 0 || text_eqb $"@bucket" $"@bucket") with true by reflexivity.
    apply IH; auto. unfold text in *. cbn [length] in *. lia.
Qed.

(** ** The head *)
Lemma lower_letter c w : 97 <= w <= 122 -> w <> 107 -> lower_c c = w <-> c = w \/ c = w - 32.
Proof.
  intros Hw Hk. unfold lower_c. destruct (Z.leb_spec 65 c), (Z.leb_spec c 90); cbn [andb]; try lia; destruct (Z.eqb_spec c 8490); lia.
Qed.
Lemma lower_all p : lower p = $"all" <-> exists a b c, p = [a; b; c] /\ (a = 97 \/ a = 65) /\ (b = 108 \/ b = 76) /\ (c = 108 \/ c = 76).
Proof.
  split.
  - intros H. destruct p as [|a [|b [|c [|d p]]]]; try discriminate. injection H as H1 H2 H3. apply lower_letter in H1, H2, H3; try lia. exists a, b, c. repeat split; auto; lia.
  - intros (a & b & c & -> & Ha & Hb & Hc). unfold lower. cbn [map s2t]. rewrite (proj2 (lower_letter a 97 ltac:(lia) ltac:(lia))) by lia. rewrite (proj2 (lower_letter b 108 ltac:(lia) ltac:(lia))) by lia.
    rewrite (proj2 (lower_letter c 108 ltac:(lia) ltac:(lia))) by lia. reflexivity.
Qed.
Lemma group_id_iff p n : (if text_eqb (lower p) $"all" then Ok 0xfffffffc else '(num, l) <- parseInt p ;; assert! (Nat.eqb (length p) l) ;; Ok num) = Ok n <-> group_id_any p n.
Proof.
  destruct (text_eqb (lower p) $"all") eqn:E.
  - apply text_eqb_eq in E. apply lower_all in E as K. destruct K as (a & b & c & -> & Ha & Hb & Hc). split.
    + intros H. injection H as <-. now apply gi_all.
    + intros H. inversion H as [p n' L|]; subst; [|reflexivity]. exfalso. apply literal_not_all in L. rewrite E in L. discriminate.
  - split.
    + intros H. mons H. injection H as <-. apply Nat.eqb_eq in Eb. apply gi_lit. apply literal_iff. now subst.
    + intros H. destruct H as [p n L|a b c Ha Hb Hc].
      * rewrite (literal_alone _ _ L). cbn [bind]. now rewrite Nat.eqb_refl.
      * exfalso. rewrite (proj2 (lower_all [a; b; c])) in E; [discriminate|]. exists a, b, c. auto.
Qed.
Lemma gtype_iff nm t : index_of nm ofpgt = Ok t <-> exists g, nm = gtype_name g /\ t = gtype_id g.
Proof.
  split.
  - unfold ofpgt. cbn [index_of]. intros H.
    destruct (text_eqb nm $"all") eqn:E1; [apply text_eqb_eq in E1; exists GAll; cbn in *; split; congruence|]. destruct (text_eqb nm $"select") eqn:E2; [apply text_eqb_eq in E2; exists GSelect; cbn in *; split; congruence|].
    destruct (text_eqb nm $"indirect") eqn:E3; [apply text_eqb_eq in E3; exists GIndirect; cbn in *; split; congruence|]. destruct (text_eqb nm $"ff") eqn:E4; [apply text_eqb_eq in E4; exists GFF; cbn in *; split; congruence|]. discriminate.
  - intros (g & -> & ->). destruct g; reflexivity.
Qed.
Lemma heads_sound fuel : forall gid g u gid' t' u', group_head_go fuel gid (gtype_id g) u = Ok (gid', t', u') ->
  exists hs g', heads u hs u' /\ t' = gtype_id g' /\ fold_left apply_ghead hs (gid, g) = (gid', g').
Proof.
  induction fuel as [|fuel IH]; intros gid g [|c s] gid' t' u' H; cbn [group_head_go] in H; try discriminate;
    try (injection H as <- <- <-; exists [], g; split; [|auto]; apply (hd_end [] [] [] []); [apply next_iff; reflexivity|discriminate|intros []; discriminate]).
  remember (c :: s) as u eqn:Eu. clear Eu c s. destruct (get_token u) as [[h nm] r] eqn:Et. destruct (text_eqb nm $"group") eqn:En.
  - apply text_eqb_eq in En. subst nm. destruct (get_token r) as [[h' p] r'] eqn:Er. destruct (if text_eqb (lower p) $"all" then _ else _) as [n|e|] eqn:Eid in H; cbn [bind] in H; try discriminate.
    apply group_id_iff in Eid. destruct (IH _ _ _ _ _ _ H) as (hs & g' & A1 & A2 & A3). exists (HGroup n :: hs), g'. split; [|auto]. apply next_iff in Et, Er. eapply hd_group; eauto.
  - destruct (index_of nm ofpgt) as [t|e|] eqn:Ei.
    + apply gtype_iff in Ei as (g1 & -> & ->). destruct (IH _ _ _ _ _ _ H) as (hs & g' & A1 & A2 & A3). exists (HType g1 :: hs), g'. split; [|auto]. apply next_iff in Et. eapply hd_type; eauto.
    + injection H as <- <- <-. exists [], g. split; [|auto]. apply next_iff in Et. eapply hd_end; eauto.
      * intros ->. discriminate.
      * intros g1 ->. rewrite (proj2 (gtype_iff (gtype_name g1) (gtype_id g1))) in Ei by eauto. discriminate.
    + exfalso. clear -Ei. unfold ofpgt in Ei. cbn [index_of] in Ei. repeat (destruct (text_eqb _ _) in Ei; [discriminate|]; cbn [bind] in Ei). discriminate.
Qed.
Lemma heads_read u hs r : heads u hs r -> forall fuel gid g, (length u <= fuel)%nat ->
  group_head_go fuel gid (gtype_id g) u = Ok (fst (fold_left apply_ghead hs (gid, g)), gtype_id (snd (fold_left apply_ghead hs (gid, g))), r).
Proof.
  induction 1 as [s h u h' p r n l t N N' G _ IH|s h g1 r l t N _ IH|s h nm u N Hn Hg]; intros fuel gid g Hf.
  - assert (Hne : s <> []) by (intros ->; apply next_cat in N; destruct h; discriminate). apply next_iff in N, N'. pose proof (get_token_progress _ _ _ _ N Hne) as L1.
    pose proof (get_token_concat _ _ _ _ N') as L2. apply (f_equal (@length Z)) in L2. rewrite !app_length in L2.
    destruct s as [|c s]; [congruence|]. destruct fuel as [|fuel]; [cbn in Hf; lia|]. cbn [group_head_go]. rewrite N. change (text_eqb $"group" $"group") with true. cbv iota. rewrite N'.
    apply group_id_iff in G. change OFPG_ALL with 0xfffffffc. rewrite G. cbn [bind]. rewrite IH by (unfold text in *; cbn [length] in *; lia). reflexivity.
  - assert (Hne : s <> []) by (intros ->; apply next_cat in N; destruct h, g1; discriminate). apply next_iff in N. pose proof (get_token_progress _ _ _ _ N Hne) as L1.
    destruct s as [|c s]; [congruence|]. destruct fuel as [|fuel]; [cbn in Hf; lia|]. cbn [group_head_go]. rewrite N.
    replace (text_eqb (gtype_name g1) $"group") with false by (destruct g1; reflexivity). rewrite (proj2 (gtype_iff (gtype_name g1) (gtype_id g1))) by eauto.
    rewrite IH by (unfold text in *; cbn [length] in *; lia). reflexivity.
  - destruct s as [|c s]; [destruct fuel; reflexivity|]. destruct fuel as [|fuel]; [cbn in Hf; lia|]. apply next_iff in N. cbn [group_head_go]. rewrite N.
    destruct (text_eqb nm $"group") eqn:En; [apply text_eqb_eq in En; congruence|]. destruct (index_of nm ofpgt) as [t|e|] eqn:Ei; try reflexivity.
    apply gtype_iff in Ei as (g1 & -> & _). now destruct (Hg g1).
Qed.

(** ** The message *)
Lemma gmessage_sound s cmd xid m : str2group s cmd xid = Ok m -> group_message notation s cmd xid m.
Proof.
  unfold str2group. intros H. destruct (group_head_go _ _ _ s) as [[[gid t0] u]|e|] eqn:E1; cbn [bind] in H; try discriminate.
  change OFPGT_ALL with (gtype_id GAll) in E1. apply heads_sound in E1 as (hs & t & A1 & -> & A2). change OFPG_ANY with 0xffffffff in A2.
  destruct (group_buckets_go _ _ u) as [[x rest]|e|] eqn:E2; cbn [bind] in H; try discriminate.
  destruct (Nat.eqb_spec (length rest) 0) as [Er|]; [|discriminate]. destruct rest; [|discriminate]. cbn [assert bind] in H. apply buckets_sound in E2 as (ls & B1 & B2 & ->).
  destruct (pack _ _) as [h|e|] eqn:Ep; cbn [bind] in H; try discriminate. assert (Em : m = h ++ flat_map (bucket_part t) ls) by congruence. clear H. unfold group_fmt in Ep.
  apply pack_u_inv in Ep as (H1 & h1 & Ep & ->). apply pack_u_inv in Ep as (H2 & h2 & Ep & ->). apply pack_u_inv in Ep as (H3 & h3 & Ep & ->).
  apply pack_u_inv in Ep as (H4 & h4 & Ep & ->). apply pack_u_inv in Ep as (H5 & h5 & Ep & ->). apply pack_u_inv in Ep as (H6 & h6 & Ep & ->).
  apply pack_x_inv in Ep as (h7 & Ep & ->). apply pack_u_inv in Ep as (H7 & h8 & Ep & ->). apply pack_nil_inv in Ep as ->.
  assert (L : Z.of_nat (length m) = 16 + Z.of_nat (length (flat_map (bucket_part t) ls))) by (subst m; len).
  exists hs, u, ls. split; [exact A1|]. split; [exact B1|]. rewrite A2. repeat match goal with |- _ /\ _ => split end; auto.
  - rewrite L. unfold in_bytes in H3. change (256 ^ Z.of_nat 2) with 65536 in H3. lia.
  - rewrite L, Em, <- !app_assoc. reflexivity.
Qed.
Lemma parts_fit t ls : Z.of_nat (length (flat_map (bucket_part t) ls)) <= 65535 -> Forall (fun l => Z.of_nat (length (bucket_part t l)) <= 65535) ls.
Proof. induction ls as [|l ls IH]; intros H; constructor; cbn [flat_map] in H; rewrite app_length in H; [lia|]. apply IH. lia. Qed.
Lemma gmessage_read s cmd xid m : group_message notation s cmd xid m -> str2group s cmd xid = Ok m.
Proof.
  intros (hs & u & ls & A1 & B1 & R). destruct (fold_left apply_ghead hs (0xffffffff, GAll)) as [id t] eqn:A2. destruct R as (Hc & Hx & Hi & Hb & Hl & Em).
  assert (L : Z.of_nat (length m) = 16 + Z.of_nat (length (flat_map (bucket_part t) ls))) by (rewrite Em; len). unfold str2group.
  change OFPGT_ALL with (gtype_id GAll). change OFPG_ANY with 0xffffffff. rewrite (heads_read _ _ _ A1) by lia. cbn [bind]. rewrite A2. cbn [fst snd].
  rewrite (buckets_read _ _ B1) by (auto; apply parts_fit; lia). cbn [bind length Nat.eqb assert]. unfold group_fmt.
  assert (in_bytes 2 (16 + Z.of_nat (length (flat_map (bucket_part t) ls)))) by (unfold in_bytes; change (256 ^ Z.of_nat 2) with 65536; lia).
  assert (in_bytes 1 (gtype_id t)) by (destruct t; unfold in_bytes; cbn; lia). packs. rewrite L in Em. rewrite Em, <- !app_assoc. reflexivity.
Qed.
