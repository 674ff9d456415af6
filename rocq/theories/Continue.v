(** Rules continued behind instructions and actions. *)
From Coq Require Import Strings.Ascii.
From Verif Require Import Base PyNum Util PyLib OxmCodec OxmTables Oxm Nx Ofp4 Spec SpecOxm SpecText SpecOfp SpecActText SpecFlowText SpecCompose.
From Verif Require Import BaseFacts UtilFacts NumFacts PyLibFacts OxmRead OxmPrint OxmFacts OxmFrame OxmMore TermFacts OfpTerm.
From Verif Require Import ActBase ActRead ActFrame ActDenote GramLib OxmGram OxmExact GramTok FlowRead FlowMod FlowFrame GramStr GramFlow Compose.

(** ** empty values *)
Lemma reads_some u v l : reads u v l -> u <> [].
Proof.
  intros H ->. inversion H as [| | |ds r Hn Hs K1 K2 E]; subst. apply app_eq_nil in E as [-> _]. destruct Hn as [Hn _]. now apply Hn.
Qed.
Lemma numberish_some u v : numberish u v -> u <> [].
Proof. intros (l & H). eapply reads_some; eauto. Qed.
Lemma literal_some u v : literal u v -> u <> [].
Proof. apply reads_some. Qed.
Lemma output_some u p m : output_any u p m -> u <> [].
Proof.
  intros H. assert (P : forall x q, port_of x q -> x <> []).
  { intros x q [u' q' K|lo up q' K]; [eapply literal_some; eauto|]. cbn in K. repeat destruct K as [K|K]; try contradiction; injection K as <- <- <-; discriminate. }
  destruct H as [x q K|x q y m t K _ _]; [eauto|]. intros E. apply app_eq_nil in E as [-> _]. now apply P in K.
Qed.
Lemma nx_port_some u p : nx_port_any u p -> u <> [].
Proof. intros [p' v K _|p' K]; [eapply literal_some; eauto|]. intros ->. inversion K. Qed.
Lemma reg_src_some p b lo hi : reg_src p b lo hi -> p <> [].
Proof.
  intros [f a Hf F _|name a x y b' lo' hi' F _ _ _ _] ->; inversion F as [q _ E|q o e a' _ _ _ E|q o e a' _ _ _ E]; try (destruct q; discriminate).
  apply accepted_readable in Hf. destruct (name_reg f Hf) as [_ Hne]. congruence.
Qed.

(** ** actions *)
Lemma next_nil h p r : next [] h p r -> p = [] /\ h = [].
Proof. intros N. apply next_cat in N. symmetry in N. apply app_eq_nil in N as [-> N]. now apply app_eq_nil in N as [-> _]. Qed.
Lemma eq_nonnil h : SpecActText.eq_lead h -> h <> [].
Proof. intros (a & b & _ & _ & E) ->. destruct a; discriminate. Qed.
Ltac longer pre := match goal with N : next ?u ?h ?p ?r |- next (?u ++ _) _ _ _ => refine (next_more pre u h p r _ N _ _ _); [assumption | | assumption];
  intros ->; apply next_nil in N as [-> ->] end.
Lemma words_two pre u p pm r x : words u [p; pm] r -> p <> [] -> finished (pre ++ u) -> ends x ->
  words (u ++ x) [p; pm] (r ++ x) \/ exists h, lead h /\ token p /\ u = h ++ p.
Proof.
  intros W Hp F Hx. inversion W as [|? h ? u1 ? ? N1 W1]; subst. inversion W1 as [|? h2 ? u2 ? ? N2 W2]; subst. inversion W2; subst. destruct u1 as [|c u1].
  - right. exists h. pose proof (next_cat _ _ _ _ N1) as E. rewrite app_nil_r in E. subst u. inversion N1 as [h' p' r' Hl Hc E1 E2 E3 E4|h' r' Hl Hv E1 E2 E3 E4]; subst; [|contradiction].
    split; auto. split; auto. rewrite app_assoc in F. destruct Hc as [_ [[Ht _]|[Ht _]]]; auto. exfalso. destruct F as [_ F]. apply F. now exists (pre ++ h), p.
  - left. econstructor.
    + apply (next_more pre); eauto. intros ->. now apply next_nil in N1 as [-> _].
    + econstructor; [|constructor]. apply (next_more (pre ++ h ++ p)); eauto; [|discriminate]. apply next_cat in N1 as ->. now rewrite <- !app_assoc.
Qed.
Lemma says_more pre name u b r x : says notation name true u b r -> finished (pre ++ u) -> (forall h p, name = $"output_reg" \/ name = $"output_reg2" -> lead h -> token p -> u <> h ++ p) ->
  ends x -> says notation name true (u ++ x) b (r ++ x).
Proof.
  intros H F W Hx. remember true as e eqn:Ee. destruct H; try discriminate Ee; try subst eq.
  - apply s_noarg.
  - apply s_pop_queue.
  - apply s_exit.
  - econstructor; eauto. longer pre. now apply literal_some in H0.
  - econstructor; eauto. longer pre. now apply literal_some in H0.
  - econstructor; eauto. longer pre. now apply literal_some in H0.
  - econstructor; eauto. longer pre. now apply literal_some in H0.
  - econstructor; eauto. longer pre. now apply output_some in H1.
  - econstructor; eauto. longer pre. now apply numberish_some in H0.
  - econstructor; eauto. longer pre. now apply nx_port_some in H1.
  - econstructor; eauto. longer pre. now apply nx_port_some in H1.
  - econstructor; eauto. longer pre. now apply literal_some in H1.
  - econstructor; eauto. longer pre. now apply literal_some in H1.
  - eapply s_tunnel_big; eauto. longer pre. now apply literal_some in H2.
  - eapply s_note; eauto. longer pre. exact (eq_nonnil [] (H0 eq_refl) eq_refl).
  - eapply s_ids_eq; eauto. longer pre. exact (eq_nonnil [] H0 eq_refl).
  - eapply s_output_reg; eauto. destruct (words_two pre _ _ _ _ x H0) as [K|(h & Hl & Ht & K)]; auto; [now apply reg_src_some in H1|]. exfalso. eapply W; eauto. tauto.
Qed.
(** a name without arguments has no "=" *)
Lemma closed_name P name r : Forall (fun c => ~ opener c) name -> closed P (name ++ r) -> Forall P name.
Proof.
  intros H. revert P. induction H as [|c name Hc _ IH]; intros P K; constructor; cbn [app] in K; inversion K; subst; auto; exfalso; apply Hc; eexists; eauto.
Qed.
Lemma unclosed_name P name r : Forall (fun c => ~ opener c) name -> unclosed P (name ++ r) -> Forall P name.
Proof.
  intros H K. assert (J : exists p o e g, closed P p /\ bracket o e /\ name ++ r = p ++ o :: g) by (remember (name ++ r) as t; destruct K; eauto 10).
  destruct J as (p & o & e & g & Hp & B & E). clear K. revert p Hp E. induction H as [|c name Hc _ IH]; intros p Hp E; constructor.
  - destruct p as [|d p]; cbn [app] in E; injection E as -> E; [exfalso; apply Hc; now exists e|]. inversion Hp; subst; auto. exfalso. apply Hc. eexists. eauto.
  - destruct p as [|d p]; cbn [app] in E; injection E as -> E; [exfalso; apply Hc; now exists e|]. inversion Hp; subst; [|exfalso; apply Hc; eexists; eauto]. now apply (IH p).
Qed.
Lemma bare_no_eq p r name a : cut p r -> func p name a -> not_given a -> ~ In (chr "=") p.
Proof.
  intros [_ Hc] F Hg I. assert (K : token p \/ unfinished_token p) by tauto. clear Hc.
  assert (T : forall n q, p = n ++ q -> Forall (fun c => ~ opener c) n -> ~ In (chr "=") n).
  { intros n q -> Hn J. assert (Forall token_char n) as L by (destruct K as [K|K]; [eapply closed_name|eapply unclosed_name]; eauto).
    apply (proj1 (Forall_forall _ _) L) in J as [_ J]. now apply J. }
  destruct F as [p Hn|n o e a Hn B _|n o e a Hn B _].
  - now apply (T p [] (eq_sym (app_nil_r p))).
  - destruct Hg as [Hg|Hg]; [discriminate|]. injection Hg as ->. apply in_app_or in I as [I|I]; [now apply (T n _ eq_refl)|]. destruct B; cbn in I; repeat destruct I as [I|I]; try discriminate; contradiction.
  - destruct Hg as [Hg|Hg]; [discriminate|]. injection Hg as ->. apply in_app_or in I as [I|I]; [now apply (T n _ eq_refl)|]. destruct B; cbn in I; repeat destruct I as [I|I]; try discriminate; contradiction.
Qed.
Lemma action_more pre s b r x : action_reads notation s b r -> finished (pre ++ s) -> s <> [] -> ~ wants_more (pre ++ s) -> ends x ->
  action_reads notation (s ++ x) b (r ++ x).
Proof.
  intros H F Hs W Hx. destruct H as [s h p r name a b r' N Fn Ha Hb L|s h p u b r N Hb L|s h p r y a h' q u ts r' N Fn Ha Hn N' O L|s h y u name a h' q r ts r' N Fn Hg Hn N' O L|s h p u name a N Fn Hx' Hn Hw].
  - eapply ar_call; eauto. eapply (next_more pre); eauto.
  - pose proof (next_cat _ _ _ _ N) as C. subst s. eapply ar_eq; eauto.
    + eapply (next_more pre); eauto.
    + eapply (says_more (pre ++ h ++ p)); eauto; [rewrite <- !app_assoc; exact F|]. intros h2 p2 K Hl Ht ->. apply W. left. exists (pre ++ h), p, h2, p2. rewrite <- !app_assoc. auto.
  - eapply ar_set_call; eauto. eapply (next_more pre); eauto.
  - rewrite <- app_assoc. eapply ar_set_eq; eauto; [eapply (next_more pre); eauto|]. pose proof (next_cat _ _ _ _ N) as C. apply (next_more (pre ++ h ++ $"set_" ++ y)); auto.
    + subst s. rewrite <- !app_assoc. rewrite <- app_assoc in F. exact F.
    + intros ->. apply next_nil in N' as [-> ->]. rewrite !app_nil_r in *. assert (Y : y <> []).
      { intros ->. apply W. right. exists (pre ++ h). subst s. now rewrite app_nil_r, app_assoc. }
      assert (K : cut ($"set_" ++ y) []) by (inversion N; subst; auto; destruct y; discriminate).
      apply (bare_no_eq _ _ _ _ K Fn Hg). apply in_or_app. right. destruct O as [|f h2 a2 b2 p v m r2 u2 _ _ _ _ _ _ ->|f h2 a2 b2 r2 u2 _ _ _ _ _ _ ->]; [contradiction| |];
        apply in_or_app; right; apply in_or_app; right; apply in_or_app; right; left; reflexivity.
  - rewrite <- app_assoc. eapply ar_none; eauto. eapply (next_more pre); eauto.
Qed.

(** ** rules *)
Lemma instructs_more pre nm u i r x : instructs nm u i r -> finished (pre ++ u) -> ends x -> instructs nm (u ++ x) i (r ++ x).
Proof. intros H F Hx. destruct H; econstructor; eauto using valued_more. Qed.
Lemma instructs_cat nm u i r : instructs nm u i r -> exists y, u = y ++ r.
Proof.
  assert (V : forall p, valued u p r -> exists y, u = y ++ r) by (intros p (h & N & _); apply next_cat in N as ->; exists (h ++ p); now rewrite app_assoc).
  intros H. destruct H; eauto. now exists [].
Qed.
Lemma wants_tail a b : ~ wants_more (a ++ b) -> ~ wants_more b.
Proof.
  intros H [(v & n & h & p & A & B & C & ->)|(v & ->)]; apply H.
  - left. exists (a ++ v), n, h, p. rewrite <- !app_assoc. auto.
  - right. exists (a ++ v). now rewrite <- app_assoc.
Qed.
Lemma place_tlvs w ts l : place_after w (map RMatch ts ++ l) = place_after w l.
Proof. unfold place_after. induction ts as [|t ts IH]; auto. Qed.
(** what a step leaves is a finished tail too *)
Lemma step_rest s h nm u r y : s = h ++ nm ++ u -> u = y ++ r -> finished s -> ~ wants_more s -> (r = [] \/ finished r) /\ ~ wants_more r.
Proof.
  intros -> -> F W. split; [apply (rest_finished (h ++ nm ++ y))|apply (wants_tail (h ++ nm ++ y))]; rewrite <- !app_assoc; assumption.
Qed.
Lemma field_rest s h nm u r : s = h ++ nm ++ u -> ends_with (nm ++ u) r -> finished s -> ~ wants_more s -> (r = [] \/ finished r) /\ ~ wants_more r.
Proof.
  intros -> (y & ->) F W. split; [apply (rest_finished (h ++ y))|apply (wants_tail (h ++ y))]; rewrite <- !app_assoc; assumption.
Qed.
Lemma some_rest (s nm u r : text) : ends_with (nm ++ u) r -> r <> nm ++ u -> nm ++ u <> [].
Proof. intros (x & He) Hr E. rewrite E in He, Hr. symmetry in He. apply app_eq_nil in He as [_ ->]. contradiction. Qed.
Lemma rule_more w u l : rule_reads notation w u l -> u = [] \/ finished u -> ~ wants_more u ->
  forall x l', ends x -> rule_reads notation (place_after w l) x l' -> rule_reads notation w (u ++ x) (l ++ l').
Proof.
  induction 1 as [w|s nm u se r l W Hs R IH|s nm u ts r l W Hn Hf Hr R IH|w s nm u ins r l W Hi R IH|w s nm u t l W Ha R IH|s nm u b r l W Hn Ha Hr R IH]; intros F Wm x l' Hx Hl.
  - exact Hl.
  - destruct (sets_names _ _ _ _ Hs) as [Hin _]. assert (s <> []) as Hne. { eapply word_some; eauto. cbn in Hin. repeat destruct Hin as [<-|Hin]; try discriminate. contradiction. }
    destruct F as [F|F]; [contradiction|]. destruct (word_cat _ _ _ W) as (h & Es). assert (Fu : finished ((h ++ nm) ++ u)) by (rewrite <- app_assoc, <- Es; exact F).
    destruct (sets_cat _ _ _ _ Hs) as (y & Ey). destruct (step_rest _ _ _ _ _ _ Es Ey F Wm) as [Fr Wr].
    cbn [app]. eapply rr_set; [eapply word_more; eauto|eapply sets_more; eauto|]. apply IH; auto.
  - pose proof (one_field_end _ _ _ _ Hf) as Ey. assert (s <> []) as Hne by (eapply word_some; eauto; eapply some_rest; eauto).
    destruct F as [F|F]; [contradiction|]. destruct (word_cat _ _ _ W) as (h & Es). assert (Fu : finished (h ++ nm ++ u)) by (rewrite <- Es; exact F).
    destruct (field_rest _ _ _ _ _ Es Ey F Wm) as [Fr Wr]. rewrite place_tlvs in Hl.
    rewrite <- app_assoc. eapply rr_match; [eapply word_more; eauto|exact Hn| | |].
    + rewrite app_assoc. eapply one_field_more; eauto.
    + rewrite app_assoc. intros E. apply app_inv_tail in E. contradiction.
    + apply IH; auto.
  - pose proof (instructs_at _ _ _ _ Hi) as Hat. assert (s <> []) as Hne by (eapply word_some; eauto; destruct Hat as (z & ->); discriminate).
    destruct F as [F|F]; [contradiction|]. destruct (word_cat _ _ _ W) as (h & Es). assert (Fu : finished ((h ++ nm) ++ u)) by (rewrite <- app_assoc, <- Es; exact F).
    destruct (instructs_cat _ _ _ _ Hi) as (y & Ey). destruct (step_rest _ _ _ _ _ _ Es Ey F Wm) as [Fr Wr].
    cbn [app]. eapply rr_instr; [eapply word_more; eauto|eapply instructs_more; eauto|]. apply IH; auto.
  - pose proof (acts_at _ _ Ha) as Hat. assert (s <> []) as Hne by (eapply word_some; eauto; destruct Hat as (z & ->); discriminate).
    destruct F as [F|F]; [contradiction|]. destruct (word_cat _ _ _ W) as (h & Es). destruct (step_rest _ _ _ _ u [] Es eq_refl F Wm) as [Fr Wr].
    cbn [app]. eapply rr_acts; [eapply word_more; eauto|exact Ha|]. apply IH; auto.
  - pose proof (action_end _ _ _ _ Ha) as Ey. assert (Hnu : nm ++ u <> []) by (eapply some_rest; eauto). assert (s <> []) as Hne by (eapply word_some; eauto).
    destruct F as [F|F]; [contradiction|]. destruct (word_cat _ _ _ W) as (h & Es). assert (Fu : finished (h ++ nm ++ u)) by (rewrite <- Es; exact F).
    destruct (field_rest _ _ _ _ _ Es Ey F Wm) as [Fr Wr]. cbn [app]. eapply rr_act; [eapply word_more; eauto|exact Hn| | |].
    + rewrite app_assoc. eapply (action_more h); eauto. rewrite <- Es. exact Wm.
    + rewrite app_assoc. intros E. apply app_inv_tail in E. contradiction.
    + apply IH; auto.
Qed.
Lemma step_at_bad st h name t s : get_token s = (h, name, t) -> Forall filler h -> startswith $"@" name = true -> forall st' r, dict_step st s = Ok (st', r) -> exists i, flushed st = Ok i.
Proof.
  intros E Hh Hn st' r. destruct st as [j func acts ph]. unfold dict_step, flushed. cbn [d_acts d_func d_info]. rewrite E, (filler_no_eq h Hh). cbn [negb assert bind].
  rewrite Hn. destruct (flush_acts func acts j) as [i| |]; cbn [bind]; intros H; try discriminate. eauto.
Qed.
(** a run over the whole passes the end of the first part *)
Lemma run_back w u l : rule_reads notation w u l -> u = [] \/ finished u -> ~ wants_more u -> forall x st stf, ends x -> place_of (d_phase st) = w -> proper st ->
  dict_run st (u ++ x) = Ok stf ->
  exists st', dict_run st' x = Ok stf /\ place_of (d_phase st') = place_after w l /\ proper st'
    /\ forall l', built (d_info st') (pend_of st') l' = built (d_info st) (pend_of st) (l ++ l').
Proof.
  induction 1 as [w|s nm u se r l W Hs R IH|s nm u ts r l W Hn Hf Hr R IH|w s nm u ins r l W Hi R IH|w s nm u t l W Ha R IH|s nm u b r l W Hn Ha Hr R IH]; intros F Wm x st stf Hx Hw Hp Hrun.
  - exists st. auto.
  - destruct (sets_names _ _ _ _ Hs) as [Hin Hat]. assert (s <> []) as Hne. { eapply word_some; eauto. cbn in Hin. repeat destruct Hin as [<-|Hin]; try discriminate. contradiction. }
    destruct F as [F|F]; [contradiction|]. destruct (word_cat _ _ _ W) as (h & Es). assert (Fu : finished ((h ++ nm) ++ u)) by (rewrite <- app_assoc, <- Es; exact F).
    destruct (sets_cat _ _ _ _ Hs) as (y & Ey). destruct (step_rest _ _ _ _ _ _ Es Ey F Wm) as [Fr Wr].
    pose proof (word_more _ _ _ x W F Hne Hx) as W'. destruct (word_get _ _ _ W') as (h' & Et & Eb). assert (Hnx : s ++ x <> []) by (intros E; apply app_eq_nil in E as [E _]; contradiction).
    destruct st as [i func acts ph]. destruct ph; try discriminate. cbn [d_info] in *.
    rewrite (dict_run_step _ (s ++ x) (DState (apply_info i (ESet se)) func acts PhMatch) (r ++ x)) in Hrun; [|exact Hnx|].
    + destruct (IH Fr Wr x (DState (apply_info i (ESet se)) func acts PhMatch) stf Hx eq_refl Hp Hrun) as (st' & A & B & C & D). exists st'. split; auto.
    + unfold dict_step. rewrite Et, Eb. cbn [negb assert bind]. apply at_no in Hat. rewrite Hat. rewrite (sets_read i nm (u ++ x) se (r ++ x)) by (eapply sets_more; eauto). reflexivity.
  - pose proof (one_field_end _ _ _ _ Hf) as Ey. assert (s <> []) as Hne by (eapply word_some; eauto; eapply some_rest; eauto).
    destruct F as [F|F]; [contradiction|]. destruct (word_cat _ _ _ W) as (h & Es). assert (Fu : finished (h ++ nm ++ u)) by (rewrite <- Es; exact F).
    destruct (field_rest _ _ _ _ _ Es Ey F Wm) as [Fr Wr]. rewrite place_tlvs. pose proof (field_no_at _ _ _ _ _ _ W Hf Hr) as Hat.
    pose proof (word_more _ _ _ x W F Hne Hx) as W'. destruct (word_get _ _ _ W') as (h' & Et & Eb). assert (Hnx : s ++ x <> []) by (intros E; apply app_eq_nil in E as [E _]; contradiction).
    destruct st as [i func acts ph]. destruct ph; try discriminate. cbn [d_info] in *.
    rewrite (dict_run_step _ (s ++ x) (DState (add_tlvs i ts) func acts PhMatch) (r ++ x)) in Hrun; [|exact Hnx|].
    + destruct (IH Fr Wr x (DState (add_tlvs i ts) func acts PhMatch) stf Hx eq_refl Hp Hrun) as (st' & A & B & C & D). exists st'. split; auto. split; auto. split; auto. intros l'. rewrite D. cbn [d_info].
      unfold built, pend_of. cbn [d_func d_acts]. rewrite <- app_assoc, entries_tlvs, insts_tlvs, fold_left_app, apply_tlvs. reflexivity.
    + unfold dict_step. rewrite Et, Eb. cbn [negb assert bind]. apply at_no in Hat. rewrite Hat. rewrite (entry_read i nm (u ++ x) ts (r ++ x)); auto.
      * rewrite app_assoc. eapply one_field_more; eauto.
      * rewrite app_assoc. intros E. apply app_inv_tail in E. contradiction.
  - pose proof (instructs_at _ _ _ _ Hi) as Hat. assert (s <> []) as Hne by (eapply word_some; eauto; destruct Hat as (z & ->); discriminate).
    destruct F as [F|F]; [contradiction|]. destruct (word_cat _ _ _ W) as (h & Es). assert (Fu : finished ((h ++ nm) ++ u)) by (rewrite <- app_assoc, <- Es; exact F).
    destruct (instructs_cat _ _ _ _ Hi) as (y & Ey). destruct (step_rest _ _ _ _ _ _ Es Ey F Wm) as [Fr Wr].
    pose proof (word_more _ _ _ x W F Hne Hx) as W'. destruct (word_get _ _ _ W') as (h' & Et & Eb). assert (Hnx : s ++ x <> []) by (intros E; apply app_eq_nil in E as [E _]; contradiction).
    apply at_iff in Hat. pose proof (head_filler _ _ _ _ Et Eb) as Hh.
    rewrite dict_run_eq in Hrun by exact Hnx. destruct (dict_step st (s ++ x)) as [[st1 r1]| |] eqn:Ed; cbn [bind] in Hrun; try discriminate.
    destruct (step_at_bad _ _ _ _ _ Et Hh Hat _ _ Ed) as (i & Hfl). rewrite (step_at st i h' nm (u ++ x) (s ++ x) Et Hh Hat Hfl) in Ed.
    rewrite (inst_read i _ nm (u ++ x) ins (r ++ x)) in Ed by (eapply instructs_more; eauto).
    assert (Est : st1 = DState (add_inst i (instr_wire ins)) None (d_acts st) PhNoarg /\ r1 = r ++ x) by (split; congruence). destruct Est as [-> ->]. clear Ed.
    apply flushed_iff in Hfl as [_ Hfl]; [|exact Hp]. destruct (IH Fr Wr x (DState (add_inst i (instr_wire ins)) None (d_acts st) PhNoarg) stf Hx eq_refl eq_refl Hrun) as (st' & A & B & C & D). exists st'. split; auto. split; auto. split; auto.
    intros l'. rewrite D, Hfl. unfold built. cbn [d_info pend_of d_func entries_of flat_map app r_insts]. fold (entries_of (l ++ l')). rewrite !apply_inst, !add_inst_twice, concat_app. cbn [concat]. now rewrite <- ?app_assoc.
  - pose proof (acts_at _ _ Ha) as Hat. assert (s <> []) as Hne by (eapply word_some; eauto; destruct Hat as (z & ->); discriminate).
    destruct F as [F|F]; [contradiction|]. destruct (word_cat _ _ _ W) as (h & Es). destruct (step_rest _ _ _ _ u [] Es eq_refl F Wm) as [Fr Wr].
    pose proof (word_more _ _ _ x W F Hne Hx) as W'. destruct (word_get _ _ _ W') as (h' & Et & Eb). assert (Hnx : s ++ x <> []) by (intros E; apply app_eq_nil in E as [E _]; contradiction).
    apply at_iff in Hat. pose proof (head_filler _ _ _ _ Et Eb) as Hh.
    rewrite dict_run_eq in Hrun by exact Hnx. destruct (dict_step st (s ++ x)) as [[st1 r1]| |] eqn:Ed; cbn [bind] in Hrun; try discriminate.
    destruct (step_at_bad _ _ _ _ _ Et Hh Hat _ _ Ed) as (i & Hfl). rewrite (step_at st i h' nm (u ++ x) (s ++ x) Et Hh Hat Hfl) in Ed.
    rewrite (acts_read i _ nm (u ++ x) t Ha) in Ed. assert (Est : st1 = DState i (Some t) [] PhAction /\ r1 = u ++ x) by (split; congruence). destruct Est as [-> ->]. clear Ed.
    apply flushed_iff in Hfl as [_ Hfl]; [|exact Hp]. destruct (IH Fr Wr x (DState i (Some t) [] PhAction) stf Hx eq_refl ltac:(destruct Ha; [left|right]; reflexivity) Hrun) as (st' & A & B & C & D). exists st'. split; auto. split; auto. split; auto.
    intros l'. rewrite D, Hfl. unfold built. cbn [d_info pend_of d_func d_acts entries_of flat_map app r_insts]. fold (entries_of (l ++ l')). rewrite !apply_inst, !add_inst_twice, concat_app. now rewrite <- ?app_assoc.
  - pose proof (action_end _ _ _ _ Ha) as Ey. assert (Hnu : nm ++ u <> []) by (eapply some_rest; eauto). assert (s <> []) as Hne by (eapply word_some; eauto).
    destruct F as [F|F]; [contradiction|]. destruct (word_cat _ _ _ W) as (h & Es). assert (Fu : finished (h ++ nm ++ u)) by (rewrite <- Es; exact F).
    destruct (field_rest _ _ _ _ _ Es Ey F Wm) as [Fr Wr].
    pose proof (word_more _ _ _ x W F Hne Hx) as W'. destruct (word_get _ _ _ W') as (h' & Et & Eb). assert (Hnx : s ++ x <> []) by (intros E; apply app_eq_nil in E as [E _]; contradiction).
    assert (Ha' : action_reads notation (nm ++ u ++ x) b (r ++ x)) by (rewrite app_assoc; eapply (action_more h); eauto; rewrite <- Es; exact Wm).
    destruct st as [i func acts ph]. destruct ph; try discriminate. unfold proper in Hp. cbn [d_info d_phase d_func] in *.
    rewrite (dict_run_step _ (s ++ x) (DState i func (acts ++ b) PhAction) (r ++ x)) in Hrun; [|exact Hnx|].
    + destruct (IH Fr Wr x (DState i func (acts ++ b) PhAction) stf Hx eq_refl Hp Hrun) as (st' & A & B & C & D). exists st'. split; auto. split; auto. split; auto. intros l'. rewrite D. unfold built, pend_of.
      cbn [d_info d_func d_acts entries_of flat_map app r_insts]. fold (entries_of (l ++ l')). destruct Hp as [-> | ->]; reflexivity.
    + unfold dict_step. rewrite Et, Eb. cbn [negb assert bind]. apply at_no in Hn. rewrite Hn. rewrite (str2act_read _ _ _ Ha'). cbn [bind].
      pose proof (action_end _ _ _ _ Ha') as He'. destruct (Nat.eqb_spec (length (nm ++ u ++ x) - length (r ++ x)) 0) as [E|_]; [|now rewrite skip_rest].
      apply consumed in E; auto. rewrite app_assoc in E. apply app_inv_tail in E. contradiction.
Qed.
Theorem rule_continue u l x cmd xid m : rule_reads notation AtEntry u l -> finished u -> ~ wants_more u -> ends x ->
  (str2mod (u ++ x) cmd xid = Ok m <-> exists l', rule_reads notation (place_after AtEntry l) x l' /\ parts_message (l ++ l') cmd xid m).
Proof.
  intros R F Wm Hx. split.
  - intros H. pose proof H as H0. unfold str2mod in H0. destruct (str2dict (u ++ x)) as [i|e|] eqn:E; cbn [bind] in H0; try discriminate. clear H0.
    pose proof E as E0. rewrite str2dict_run in E. destruct (dict_run _ (u ++ x)) as [stf|e|] eqn:Er; cbn [bind] in E; try discriminate.
    assert (flushed stf = Ok i) as Hfl by (destruct stf; exact E).
    destruct (run_back _ _ _ R (or_intror F) Wm x (DState info0 None [] PhMatch) stf Hx eq_refl eq_refl Er) as (st' & A & B & C & D). unfold dict_run in A.
    destruct (rule_sound _ _ _ _ _ A Hfl C) as (l' & R' & Hfit & Ei). rewrite B in R'. rewrite D in Ei. subst i.
    exists l'. split; auto. apply (parts_unique (u ++ x)); auto.
  - intros (l' & R' & P). apply (parts_of _ (l ++ l')); auto. eapply rule_more; eauto.
Qed.
