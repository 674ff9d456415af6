(** Group texts continued by further buckets. *)
From Coq Require Import Strings.Ascii.
From Verif Require Import Base PyNum Util PyLib OxmCodec OxmTables Oxm Nx Ofp4 Spec SpecOxm SpecText SpecOfp SpecActText SpecFlowText SpecCompose.
From Verif Require Import BaseFacts UtilFacts NumFacts PyLibFacts OxmRead OxmPrint OxmFacts OxmFrame OxmMore TermFacts OfpTerm.
From Verif Require Import ActBase ActRead ActFrame ActDenote GramLib OxmGram OxmExact GramTok FlowRead FlowMod FlowFrame GroupRead GroupFrame GramStr GramFlow GramGroup Compose Continue.

(** what is left is a finished tail too *)
Lemma tail_rest s r : ends_with s r -> s = [] \/ finished s -> ~ wants_more s -> (r = [] \/ finished r) /\ ~ wants_more r.
Proof.
  intros (y & ->) F W. split; [|eapply wants_tail; eauto]. destruct F as [F|F]; [left; now apply app_eq_nil in F|]. eapply rest_finished; eauto.
Qed.
Lemma bset_end nm u st r : bset_any nm u st r -> ends_with u r.
Proof. intros H. destruct H; eapply valued_end; eauto. Qed.
Lemma bset_more pre nm u st r x : bset_any nm u st r -> finished (pre ++ u) -> ends x -> bset_any nm (u ++ x) st (r ++ x).
Proof. intros H F Hx. destruct H; econstructor; eauto using valued_more. Qed.
Lemma bucket_word_at x x' : word x $"@bucket" x' -> bucket_text notation x [] x.
Proof. intros W. eapply bt_at; eauto. now exists $"bucket". Qed.
Lemma bucket_more s l r : bucket_text notation s l r -> s = [] \/ finished s -> ~ wants_more s ->
  forall x x', ends x -> word x $"@bucket" x' -> bucket_text notation (s ++ x) l (r ++ x).
Proof.
  induction 1 as [|s nm u W A|s nm u b W A B Ha|s nm u st r l t W Hs _ IH|s nm u b r l t W A B Ha Hr _ IH]; intros F Wm x x' Hx Hw.
  - cbn. eapply bucket_word_at; eauto.
  - assert (Hne : s <> []) by (eapply word_some; eauto; destruct A as (y & ->); discriminate). destruct F as [F|F]; [contradiction|]. eapply bt_at; eauto. eapply word_more; eauto.
  - destruct F as [->|F]; [cbn; eapply bucket_word_at; eauto|]. assert (Hne : s <> []) by (intros ->; destruct F as [(v & c & E & _) _]; destruct v; discriminate).
    eapply bt_unknown; eauto; [eapply word_more; eauto|]. eapply (action_more []); eauto.
  - destruct (bset_read _ _ _ _ Hs) as (_ & _ & _ & _ & _ & _ & _ & Hn). assert (Hne : s <> []) by (eapply word_some; eauto; destruct nm; [congruence|discriminate]).
    destruct F as [F|F]; [contradiction|]. destruct (word_cat _ _ _ W) as (h & Es). assert (Fu : finished ((h ++ nm) ++ u)) by (rewrite <- app_assoc, <- Es; exact F).
    assert (E : ends_with s r) by (eapply ends_trans; [apply (word_end _ _ _ W)|eapply bset_end; eauto]). destruct (tail_rest _ _ E (or_intror F) Wm) as [Fr Wr].
    eapply bt_set; [eapply word_more; eauto|eapply bset_more; eauto|eapply IH; eauto].
  - assert (E : ends_with s r) by (eapply action_end; eauto). assert (Hne : s <> []) by (intros ->; apply Hr; destruct E as (y & E); symmetry in E; now apply app_eq_nil in E).
    destruct (tail_rest _ _ E F Wm) as [Fr Wr]. destruct F as [F|F]; [contradiction|].
    eapply bt_act; eauto; [eapply word_more; eauto|eapply (action_more []); eauto|]. intros K. apply app_inv_tail in K. contradiction.
Qed.
Lemma buckets_more v ls : buckets_text notation v ls -> v = [] \/ finished v -> ~ wants_more v ->
  forall x x' ls', ends x -> word x $"@bucket" x' -> buckets_text notation x' ls' -> buckets_text notation (v ++ x) (ls ++ ls').
Proof.
  induction 1 as [|s l r ls B Hl _ IH|s u ls W _ IH]; intros F Wm x x' ls' Hx Hw H'.
  - cbn. eapply bts_word; eauto.
  - destruct (tail_rest _ _ (bucket_text_end _ _ _ _ B) F Wm) as [Fr Wr]. cbn [app]. eapply bts_bucket; [eapply bucket_more; eauto|exact Hl|eapply IH; eauto].
  - assert (Hne : s <> []) by (eapply word_some; eauto; discriminate). destruct (tail_rest _ _ (proj2 (word_end _ _ _ W)) F Wm) as [Fr Wr]. destruct F as [F|F]; [contradiction|].
    eapply bts_word; [eapply word_more; eauto|eapply IH; eauto].
Qed.
Lemma heads_more s hs v : heads s hs v -> s = [] \/ finished s -> forall x x', ends x -> word x $"@bucket" x' -> heads (s ++ x) hs (v ++ x).
Proof.
  induction 1 as [s h u h' p r n l t N N' G _ IH|s h g1 r l t N _ IH|s h nm u N Hn Hg]; intros F x x' Hx Hw.
  - assert (Hne : s <> []) by (intros ->; now apply next_nil in N). destruct F as [F|F]; [contradiction|]. pose proof (next_cat _ _ _ _ N) as C. assert (Fu : finished ((h ++ $"group") ++ u)) by (rewrite <- app_assoc, <- C; exact F).
    assert (Hu : u <> []). { intros ->. apply next_nil in N' as [-> _]. inversion G as [p n' L|]; subst. now apply literal_some in L. }
    pose proof (next_cat _ _ _ _ N') as C'. eapply hd_group; [eapply (next_more []); eauto|eapply (next_more (h ++ $"group")); eauto|exact G|]. eapply IH; eauto.
    apply (rest_finished ((h ++ $"group") ++ h' ++ p)). rewrite <- !app_assoc in *. rewrite <- C'. exact Fu.
  - assert (Hne : s <> []) by (intros ->; apply next_nil in N as [N _]; destruct g1; discriminate). destruct F as [F|F]; [contradiction|]. pose proof (next_cat _ _ _ _ N) as C.
    eapply hd_type; [eapply (next_more []); eauto|]. eapply IH; eauto. apply (rest_finished (h ++ gtype_name g1)). rewrite <- app_assoc, <- C. exact F.
  - destruct F as [->|F].
    + cbn. destruct Hw as (h2 & N2 & _). eapply hd_end; eauto; [discriminate|intros []; discriminate].
    + assert (Hne : s <> []) by (intros ->; destruct F as [(w & c & E & _) _]; destruct w; discriminate). eapply hd_end; eauto. eapply (next_more []); eauto.
Qed.
(** a run over the whole passes the end of the first part *)
Lemma bucket_back s t l r b n : bucket_text notation s l r -> l <> [] -> str2bucket s (gtype_id t) = Ok (b, n) ->
  bucket_fits t l /\ b = bucket_part t l /\ n = (length s - length r)%nat.
Proof.
  intros B Hl H. destruct (str2bucket_sound _ _ _ _ H) as (l' & r' & B' & Hn & K).
  pose proof (bucket_read _ _ _ B (length s) (empty_bucket t) [] (le_n _)) as R. rewrite (bucket_read _ _ _ B' (length s) (empty_bucket t) [] (le_n _)) in R.
  assert (R1 : binfo_of (fold_left apply_bset (b_sets l') (empty_bucket t)) = binfo_of (fold_left apply_bset (b_sets l) (empty_bucket t))) by congruence.
  assert (R2 : b_acts l' = b_acts l) by (cbn [app] in R; congruence). assert (R3 : r' = r) by congruence. clear R. subst r'.
  unfold binfo_of in R1. injection R1 as E1 E2 E3. destruct K as [->|(F & _ & ->)].
  - exfalso. apply Hl. apply (bucket_text_none _ _ _ _ B). now apply (bucket_text_none _ _ _ _ B').
  - unfold bucket_fits, bucket_part in *. cbv zeta in *. rewrite <- E1, <- E2, <- E3, <- R2. auto.
Qed.
Lemma buckets_back v ls : buckets_text notation v ls -> v = [] \/ finished v -> ~ wants_more v -> forall x x' fuel t y, ends x -> word x $"@bucket" x' ->
  group_buckets_go fuel (gtype_id t) (v ++ x) = Ok (y, []) ->
  exists fuel' y', group_buckets_go fuel' (gtype_id t) x' = Ok (y', []) /\ Forall (bucket_fits t) ls /\ y = flat_map (bucket_part t) ls ++ y'.
Proof.
  assert (Wd : forall s u fuel t y, word s $"@bucket" u -> group_buckets_go fuel (gtype_id t) s = Ok (y, []) -> exists fuel', group_buckets_go fuel' (gtype_id t) u = Ok (y, [])).
  { intros s u fuel t y W H. assert (Hne : s <> []) by (eapply word_some; eauto; discriminate). destruct (word_get _ _ _ W) as (h & Et & Eb).
    destruct s as [|c s]; [congruence|]. destruct fuel as [|fuel]; [discriminate|]. cbn [group_buckets_go] in H. rewrite (str2bucket_none _ t _ (bucket_word_at _ _ W)) in H. cbn [bind Nat.eqb negb] in H.
    rewrite Et in H. replace (Nat.eqb (length $"@bucket") 0 || text_eqb $"@bucket" $"@bucket") with true in H by reflexivity. eauto. }
  induction 1 as [|s l r ls B Hl _ IH|s u ls W _ IH]; intros F Wm x x' fuel t y Hx Hw H.
  - destruct (Wd _ _ _ _ _ Hw H) as (f' & K). exists f', y. auto.
  - destruct (tail_rest _ _ (bucket_text_end _ _ _ _ B) F Wm) as [Fr Wr]. pose proof (bucket_more _ _ _ B F Wm x x' Hx Hw) as B'.
    pose proof (bucket_text_end _ _ _ _ B') as He. pose proof (bucket_text_none _ _ _ _ B') as K'. pose proof (consumed _ _ He) as K.
    assert (Hne : s ++ x <> []). { intros E. apply Hl, K'. rewrite E in *. destruct He as (z & He). symmetry in He. now apply app_eq_nil in He. }
    remember (s ++ x) as sx eqn:Esx. destruct sx as [|c sx]; [contradiction|]. destruct fuel as [|fuel]; [discriminate|]. cbn [group_buckets_go] in H. rewrite Esx in *.
    destruct (str2bucket (s ++ x) (gtype_id t)) as [[b n]|e|] eqn:Eb; cbn [bind] in H; try discriminate. destruct (bucket_back _ _ _ _ _ _ B' Hl Eb) as (Hf & -> & ->).
    destruct (Nat.eqb_spec (length (s ++ x) - length (r ++ x)) 0) as [E0|E0]; [tauto|]. cbn [negb] in H. rewrite skip_rest in H by exact He.
    destruct (group_buckets_go fuel (gtype_id t) (r ++ x)) as [[y2 rest]|e|] eqn:Eg; cbn [bind] in H; try discriminate. injection H as <- ->.
    destruct (IH Fr Wr _ _ _ _ _ Hx Hw Eg) as (f' & y' & A1 & A2 & ->). exists f', y'. split; auto. split; [now constructor|]. cbn [flat_map]. now rewrite app_assoc.
  - assert (Hne : s <> []) by (eapply word_some; eauto; discriminate). destruct (tail_rest _ _ (proj2 (word_end _ _ _ W)) F Wm) as [Fr Wr]. destruct F as [F|F]; [contradiction|].
    destruct (Wd _ _ _ _ _ (word_more _ _ _ x W F Hne Hx) H) as (f' & K). eapply IH; eauto.
Qed.
Theorem group_continue s hs v ls x x' cmd xid m : heads s hs v -> buckets_text notation v ls -> finished s -> ~ wants_more s -> ends x -> word x $"@bucket" x' ->
  (str2group (s ++ x) cmd xid = Ok m <-> exists ls', buckets_text notation x' ls' /\ group_parts hs (ls ++ ls') cmd xid m).
Proof.
  intros Hh Hb F Wm Hx Hw. pose proof (heads_more _ _ _ Hh (or_intror F) x x' Hx Hw) as Hh'.
  assert (E : ends_with s v). { clear -Hh. induction Hh as [s h u h' p r n l t N N' G _ IH|s h g1 r l t N _ IH|s h nm u N Hn Hg]; [| |now exists []].
    - apply next_end in N, N'. eapply ends_trans; eauto. eapply ends_trans; eauto.
    - apply next_end in N. eapply ends_trans; eauto. }
  destruct (tail_rest _ _ E (or_intror F) Wm) as [Fv Wv]. split.
  - intros H. apply gmessage_sound in H as (hs2 & v2 & ls2 & H1 & H2 & H3).
    pose proof (heads_read _ _ _ Hh' (length (s ++ x)) 0xffffffff GAll (le_n _)) as R. rewrite (heads_read _ _ _ H1 (length (s ++ x)) 0xffffffff GAll (le_n _)) in R.
    assert (R1 : fst (fold_left apply_ghead hs2 (0xffffffff, GAll)) = fst (fold_left apply_ghead hs (0xffffffff, GAll))) by congruence.
    assert (R2 : gtype_id (snd (fold_left apply_ghead hs2 (0xffffffff, GAll))) = gtype_id (snd (fold_left apply_ghead hs (0xffffffff, GAll)))) by congruence.
    assert (R3 : v2 = v ++ x) by congruence. clear R H1. subst v2. unfold group_parts.
    destruct (fold_left apply_ghead hs2 (0xffffffff, GAll)) as [id t]. destruct (fold_left apply_ghead hs (0xffffffff, GAll)) as [id' t']. cbn [fst snd] in R1, R2. subst id'.
    assert (t' = t) as -> by (destruct t, t'; try discriminate; reflexivity). destruct H3 as (P1 & P2 & P3 & P4 & P5 & P6).
    assert (L : Z.of_nat (length (flat_map (bucket_part t) ls2)) <= 65535). { revert P5 P6. generalize (Z.of_nat (length m)) at 2. intros z P5 ->. rewrite !app_length in P5. lia. }
    pose proof (buckets_read _ _ H2 _ t (le_n _) P4 (parts_fit _ _ L)) as G. destruct (buckets_back _ _ Hb Fv Wv _ _ _ _ _ Hx Hw G) as (f' & y' & G1 & G2 & G3).
    apply buckets_sound in G1 as (ls' & K1 & K2 & ->). exists ls'. split; auto. repeat (split; auto). { apply Forall_app; auto. } rewrite flat_map_app, <- G3. exact P6.
  - intros (ls' & H' & P). apply gmessage_read. exists hs, (v ++ x), (ls ++ ls'). split; auto. split; [|exact P]. eapply buckets_more; eauto.
Qed.
