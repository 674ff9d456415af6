(** Flow texts that start well: what comes next decides (aliases, unknown names). *)
From Coq Require Import Strings.Ascii.
From Verif Require Import Base PyNum Util PyLib OxmCodec OxmTables Oxm Nx Ofp4 Spec SpecOxm SpecOfp.
From Verif Require Import BaseFacts UtilFacts NumFacts OxmRead OxmPrint OxmFacts OxmFrame OxmMore TermFacts OfpTerm.
From Verif Require Import ActBase ActRead ActReadNx ActReadReg ActReadLearn ActPrint ActText ActFrame FlowRead FlowMod FlowFrame.

(** ** The state reached *)
Lemma after_place i acts ins : place_of (d_phase (after_instr i acts ins)) = place_after ins.
Proof. destruct ins; reflexivity. Qed.
Lemma instrs_prefix is s : writes_tail [] is s -> forall st i, Forall instr_ok is -> flushed st = Ok i ->
  exists st', flushed st' = Ok (add_instrs i is)
  /\ place_of (d_phase st') = fold_left (fun _ n => place_after n) is (place_of (d_phase st))
  /\ forall r, follow r -> dict_run st (s ++ r) = dict_run st' r.
Proof.
  remember ([] : list entry) as es eqn:Ees. induction 1 as [|n is g u r Hg Hu Hs IH|e es is g u r Hg Hu Hs IH]; intros st i Hok Hi; [..|discriminate].
  - exists st. auto.
  - inversion Hok as [|? ? Hn Hok']; subst.
    destruct (IH eq_refl _ _ Hok' (after_flushed i (d_acts st) n Hn)) as (st' & F & P & R). exists st'. split; [exact F|]. split.
    + rewrite P, after_place. reflexivity.
    + intros r' Hr'. rewrite <- !app_assoc.
      rewrite (instr_run st i n u g (r ++ r') Hu Hn (gap_filler _ Hg)); auto. apply follow_app; eauto using tail_follow.
Qed.
Lemma tail_prefix es is s : writes_tail es is s -> forall i acts, Forall instr_ok is ->
  exists st', flushed st' = Ok (add_instrs (fold_left apply_info es i) is) /\ place_of (d_phase st') = after is
  /\ forall r, follow r -> dict_run (DState i None acts PhMatch) (s ++ r) = dict_run st' r.
Proof.
  induction 1 as [|n is g u r Hg Hu Hs IH|e es is g u r Hg Hu Hs IH]; intros i acts Hok.
  - exists (DState i None acts PhMatch). split; [reflexivity|split; [reflexivity|intros r _; reflexivity]].
  - apply (instrs_prefix (n :: is) (g ++ u ++ r)); auto. now constructor.
  - destruct (IH (apply_info i e) acts Hok) as (st' & F & P & R). exists st'. split; [exact F|]. split; [exact P|].
    intros r' Hr'. rewrite <- R, <- !app_assoc by auto. apply dict_run_step.
    + apply mid_nonnil. eapply entry_nonnil; eauto.
    + apply entry_step; auto using gap_filler. apply follow_app; eauto using tail_follow.
Qed.
Definition start : dstate := DState info0 None [] PhMatch.
Lemma prefix_run es is p : writes_flow es is p -> Forall instr_ok is ->
  exists st, (exists i, flushed st = Ok i) /\ place_of (d_phase st) = after is
  /\ forall g r, next_to p g -> dict_run start (p ++ g ++ r) = dict_run st (g ++ r).
Proof.
  intros Hw Hok. destruct Hw as [|n is h u r Hh Hu Hs|e es is h u r Hh Hu Hs].
  - exists start. split; [eexists; reflexivity|]. split; reflexivity.
  - inversion Hok as [|? ? Hn Hok']; subst.
    destruct (instrs_prefix is r Hs (after_instr info0 [] n) _ Hok' (after_flushed info0 [] n Hn)) as (st' & F & P & R).
    exists st'. split; [eauto|]. split; [rewrite P, after_place; reflexivity|]. intros g r' Hg.
    assert (Hf : follow (g ++ r')).
    { destruct Hg as [Hg|[Hg _]]; [now apply gap_follow|]. exfalso. revert Hg. apply mid_nonnil. eapply instr_nonnil; eauto. }
    rewrite <- R, <- !app_assoc by auto. unfold start. rewrite (instr_run _ info0 n u h (r ++ g ++ r') Hu Hn Hh); auto.
    apply follow_app; eauto using tail_follow.
  - destruct (tail_prefix es is r Hs (apply_info info0 e) [] Hok) as (st' & F & P & R). exists st'. split; [eauto|]. split; [exact P|].
    intros g r' Hg. assert (Hf : follow (g ++ r')).
    { destruct Hg as [Hg|[Hg _]]; [now apply gap_follow|]. exfalso. revert Hg. apply mid_nonnil. eapply entry_nonnil; eauto. }
    rewrite <- R, <- !app_assoc by auto. apply dict_run_step.
    + apply mid_nonnil. eapply entry_nonnil; eauto.
    + apply entry_step; auto. apply follow_app; eauto using tail_follow.
Qed.
Lemma next_filler p g : next_to p g -> Forall filler g.
Proof. intros [H|[_ H]]; auto using gap_filler. Qed.

Lemma mod_dict s s' cmd xid : str2dict s = str2dict s' -> str2mod s cmd xid = str2mod s' cmd xid.
Proof. intros H. unfold str2mod. now rewrite H. Qed.

(** ** Aliases *)
Lemma alias_inst n i acts s : inst_token i acts (short_name n) s = inst_token i acts (long_name n) s.
Proof. destruct n; reflexivity. Qed.
Lemma alias_plain n : Forall plain (short_name n) /\ Forall plain (long_name n).
Proof. destruct n; split; pl. Qed.
Lemma alias_nonnil n : short_name n <> [] /\ long_name n <> [].
Proof. destruct n; split; discriminate. Qed.
Lemma alias_at n : startswith $"@" (short_name n) = true /\ startswith $"@" (long_name n) = true.
Proof. destruct n; split; reflexivity. Qed.
Theorem alias_same es is p g n r cmd xid : writes_flow es is p -> Forall instr_ok is -> next_to p g -> ends r ->
  str2mod (p ++ g ++ short_name n ++ r) cmd xid = str2mod (p ++ g ++ long_name n ++ r) cmd xid.
Proof.
  intros Hw Hok Hg Hr. destruct (prefix_run _ _ _ Hw Hok) as (st & [i Hi] & _ & R). apply mod_dict. rewrite !str2dict_run. fold start. rewrite !R by auto.
  pose proof (next_filler _ _ Hg) as Hf. destruct (alias_plain n) as [P1 P2]. destruct (alias_nonnil n) as [N1 N2]. destruct (alias_at n) as [A1 A2].
  assert (K : forall u, Forall plain u -> u <> [] -> startswith $"@" u = true -> dict_step st (g ++ u ++ r) = inst_token i (d_acts st) u r).
  { intros u Hp Hn Ha. apply (step_at st i g u r); auto. apply get_token_complete; auto using filler_lead, plain_token, plain_solid. }
  assert (E : dict_run st (g ++ short_name n ++ r) = dict_run st (g ++ long_name n ++ r)).
  { rewrite !dict_run_eq by now apply mid_nonnil. rewrite !K by auto. now rewrite alias_inst. }
  now rewrite E.
Qed.

(** ** Unknown names *)
Lemma run_raises st s e : s <> [] -> dict_step st s = Raise e -> dict_run st s = Raise e.
Proof. intros Hn H. rewrite dict_run_eq by auto. now rewrite H. Qed.
Lemma prefix_raises es is p g u r cmd xid : writes_flow es is p -> Forall instr_ok is -> next_to p g -> u <> [] ->
  (forall st i, flushed st = Ok i -> place_of (d_phase st) = after is -> exists e, dict_step st (g ++ u ++ r) = Raise e) ->
  exists e, str2mod (p ++ g ++ u ++ r) cmd xid = Raise e.
Proof.
  intros Hw Hok Hg Hn H. destruct (prefix_run _ _ _ Hw Hok) as (st & [i Hi] & Hp & R). destruct (H st i Hi Hp) as [e He]. exists e.
  unfold str2mod. rewrite str2dict_run. fold start. rewrite R by auto. rewrite (run_raises _ _ e) by (auto; now apply mid_nonnil). reflexivity.
Qed.
Lemma solid_nonnil n : solid n -> n <> [].
Proof. now destruct n. Qed.
Lemma assoc_not_in {A} n (l : list (text * A)) : ~ In n (map fst l) -> assoc_t n l = None.
Proof.
  induction l as [|[k v] l IH]; cbn; auto. intros H. destruct (text_eqb n k) eqn:E; [|apply IH; tauto].
  apply text_eqb_eq in E. subst. tauto.
Qed.
Lemma in_names_not n l : ~ In n l -> in_names n l = false.
Proof.
  intros H. unfold in_names. destruct (existsb (text_eqb n) l) eqn:E; auto. apply existsb_exists in E as (x & Hx & E). apply text_eqb_eq in E. now subst.
Qed.
Theorem unknown_instr es is p g n r cmd xid : writes_flow es is p -> Forall instr_ok is -> next_to p g ->
  token n -> startswith $"@" n = true -> ~ In n instr_names -> ends r ->
  exists e, str2mod (p ++ g ++ n ++ r) cmd xid = Raise e.
Proof.
  intros Hw Hok Hg Ht Ha Hn Hr. assert (Hs : solid n).
  { destruct n as [|c n]; [discriminate|]. cbn in Ha. apply andb_prop in Ha as [Ha _]. apply Z.eqb_eq in Ha. subst c. cbn. unfold blank. lia. }
  apply (prefix_raises es is p g n r); auto using solid_nonnil. intros st i Hi _. exists ValueError.
  pose proof (next_filler _ _ Hg) as Hf. rewrite (step_at st i g n r); auto; [|apply get_token_complete; auto using filler_lead].
  unfold inst_token. cbn [instr_names flat_map short_name long_name app In] in Hn.
  rewrite !in_names_not by (cbn [In]; intuition). destruct (text_eqb n $"@meter") eqn:E; [|reflexivity].
  apply text_eqb_eq in E. symmetry in E. tauto.
Qed.
Theorem late_entry es is p g n r cmd xid : writes_flow es is p -> Forall instr_ok is -> next_to p g -> after is = AtInstr ->
  token n -> solid n -> startswith $"@" n = false -> ends r ->
  str2mod (p ++ g ++ n ++ r) cmd xid = Raise ValueError.
Proof.
  intros Hw Hok Hg Ha Ht Hs Hn Hr. destruct (prefix_run _ _ _ Hw Hok) as (st & [i Hi] & Hp & R).
  unfold str2mod. rewrite str2dict_run. fold start. rewrite R by auto. rewrite (run_raises _ _ ValueError); [reflexivity|apply mid_nonnil; auto using solid_nonnil|].
  destruct st as [j func acts ph]. rewrite (step_word j _ func acts ph g n r); eauto using next_filler.
  - destruct ph; cbn [d_phase place_of] in Hp; congruence.
  - apply get_token_complete; eauto using filler_lead, next_filler.
Qed.
Theorem unknown_entry es p g n r cmd xid : writes_flow es [] p -> next_to p g ->
  token n -> solid n -> startswith $"@" n = false -> ~ In n entry_names -> ends r ->
  exists e, str2mod (p ++ g ++ n ++ r) cmd xid = Raise e.
Proof.
  intros Hw Hg Ht Hs Hn Hu Hr. apply (prefix_raises es [] p g n r); auto using solid_nonnil. intros st i Hi Hp.
  destruct st as [j func acts ph]. destruct ph; try discriminate.
  rewrite (step_word j _ func acts PhMatch g n r); eauto using next_filler; [|apply get_token_complete; auto; apply filler_lead; eapply next_filler; eauto].
  unfold entry_names in Hu. rewrite in_app_iff in Hu. assert (Hf : ~ In n fixed_names) by tauto. assert (Hm : ~ In n (map fname accepted_fields)) by (cbn [accepted_fields map fname ct_label4]; tauto).
  unfold match_token. unfold fixed_names in Hf. rewrite in_app_iff in Hf. cbn [map fflags fflag_name] in Hf.
  rewrite !assoc_not_in by (cbn [map fst proc_fields ofpff]; cbn [In] in *; tauto).
  destruct (text_eqb n $"cookie") eqn:E1; [apply text_eqb_eq in E1; symmetry in E1; cbn [In app] in Hf; tauto|].
  destruct (text_eqb n $"out_port") eqn:E2; [apply text_eqb_eq in E2; symmetry in E2; cbn [In app] in Hf; tauto|].
  destruct (text_eqb n $"out_group") eqn:E3; [apply text_eqb_eq in E3; symmetry in E3; cbn [In app] in Hf; tauto|].
  destruct (unknown_raises n [] r false) as [e He]; auto using solid_nonnil, Forall_nil. cbn [app] in He. rewrite He. eexists. reflexivity.
Qed.
(** actions *)
Lemma same_word (a b x y : text) : Forall (fun c => ~ opener c) a -> Forall (fun c => ~ opener c) b ->
  match x with [] => True | c :: _ => opener c end -> match y with [] => True | c :: _ => opener c end -> a ++ x = b ++ y -> a = b.
Proof.
  revert b. induction a as [|c a IH]; intros [|d b] Ha Hb Hx Hy E; auto; cbn in E.
  - subst x. inversion Hb; subst. contradiction.
  - subst y. inversion Ha; subst. contradiction.
  - injection E as <- E. inversion Ha; inversion Hb; subst. f_equal. apply IH; auto.
Qed.
Lemma act_table_names : forallb (fun k => existsb (text_eqb k) (map fst named_acts)) (map fst str2act_tbl) = true.
Proof. vm_compute. reflexivity. Qed.
Lemma act_table_none n : ~ In n (map fst named_acts) -> assoc_t n str2act_tbl = None.
Proof.
  intros H. apply assoc_not_in. intros K. apply (proj1 (forallb_forall _ _) act_table_names) in K. apply existsb_exists in K as (k & K & E).
  apply text_eqb_eq in E. now subst.
Qed.
Lemma act_table_named n f : assoc_t n str2act_tbl = Some f -> In n (map fst named_acts).
Proof.
  intros H. destruct (in_dec (list_eq_dec Z.eq_dec) n (map fst named_acts)) as [K|K]; auto. apply act_table_none in K. congruence.
Qed.
Lemma ends_prefix a b : ends (a ++ b) -> ends a.
Proof. destruct a; cbn; auto. Qed.
Lemma unknown_step n z arg b l : Forall (fun c => ~ opener c) n -> match z with [] => True | c :: _ => opener c end -> unknown_act n -> token (n ++ z) ->
  get_token ((n ++ z) ++ arg) = ([], n ++ z, arg) -> str2act ((n ++ z) ++ arg) = Ok (b, l) -> l = 0%nat.
Proof.
  intros Hn Hz Hu Htok Et H. destruct (act_at _ _ _ _ _ _ Et H) as [[_ ->]|(fn & z' & k & E & Hz' & Hk & _)]; [reflexivity|]. exfalso.
  unfold str2act in H. rewrite Et in H. mons H. cbv zeta in H. rename t into f0, o into farg. destruct (parse_func_inv _ _ _ Ea) as [Hf Hm].
  assert (Hz0 : exists z0, n ++ z = f0 ++ z0 /\ match z0 with [] => True | c :: _ => opener c end).
  { destruct farg as [p|]; [|exists []; rewrite app_nil_r; subst; auto]. destruct Hm as (o & e & Hb & [Hs|Hs]); rewrite Hs; eexists; (split; [reflexivity|]); exists e; exact Hb. }
  destruct Hz0 as (z0 & E0 & Hz0). assert (f0 = n) by (eapply same_word; [| | | |symmetry; exact E0]; auto). subst f0.
  destruct Hu as [Hu|(x & Hx & Htx & Hsx & Hna & Hfx)].
  - (* the name would be known *)
    assert (Hnone : assoc_t n str2act_tbl = None).
    { destruct (assoc_t n str2act_tbl) eqn:Q; auto. exfalso. apply act_table_named, in_map_iff in Q as ([n' k'] & E' & Q). cbn in E'. subst n'. apply (Hu k'). now left. }
    assert (Hfn : Forall (fun c => ~ opener c) fn \/ exists y, fn = $"set_" ++ y).
    { destruct Hk as [Hk|[[-> _]|[[-> _]|[Hk _]]]]; auto.
      - left. assert (Q : Forall (fun q => forallb plainb (fst q) = true) named_acts) by (repeat (apply Forall_cons; [reflexivity|]); constructor).
        apply (proj1 (Forall_forall _ _) Q) in Hk. cbn [fst] in Hk. apply plains in Hk. eapply Forall_impl; [|exact Hk]. intros c. apply plain_not_opener.
      - left. assert (Q : Forall plain $"set_tunnel") by pl. eapply Forall_impl; [|exact Q]. intros c. apply plain_not_opener.
      - left. assert (Q : Forall plain $"output_reg") by pl. eapply Forall_impl; [|exact Q]. intros c. apply plain_not_opener. }
    destruct Hfn as [Hfn|[y ->]].
    + assert (fn = n) by (eapply same_word; [| | | |symmetry; exact E]; auto). subst. exact (Hu _ Hk).
    + assert (exists w, n = $"set_" ++ w) as [w ->].
      { destruct z as [|o z]; [rewrite app_nil_r in E; exists (y ++ z'); now rewrite E, app_assoc|]. apply (before_opener $"set_" n o z (y ++ z')); auto using set_no_opener. }
      apply (Hu (AStd 25)). right. right. right. split; eauto.
  - assert (Hx0 : x <> []) by auto using solid_nonnil. assert (Hf' : ~ In x (map fname accepted_fields)) by exact Hfx.
    assert (Hnone : assoc_t n str2act_tbl = None) by now apply act_table_none.
    assert (Hst : startswith $"set_" (n ++ z) = true) by (rewrite Hx; reflexivity).
    assert (Hearg : ends arg) by (eapply token_ends; exact Et).
    assert (B : forall a, farg = Some a -> assoc_t (n ++ z) str2act_tbl = None).
    { intros a ->. destruct Hm as (o & e & Hb & Hs). apply not_action. intros Hp.
      assert (Ho' : In o (n ++ z)) by (destruct Hs as [Hs|Hs]; rewrite Hs; apply in_or_app; right; left; auto).
      apply (proj1 (Forall_forall _ _) Hp) in Ho'. apply plain_not_opener in Ho'. apply Ho'. exists e. exact Hb. }
    destruct farg as [[|c a]|].
    + destruct Hm as (o & e & Hb & Hs). rewrite (B _ eq_refl), Hst in H. destruct (get_token arg) as [[op pl] rr] eqn:Eg. mons H. mons Ea0.
      pose proof (get_token_concat _ _ _ _ Eg) as Hc. rewrite <- Hc, app_assoc in Hearg. apply ends_prefix in Hearg.
      destruct (unknown_raises (x ++ z) [] (op ++ pl) false) as [e0 He0]; auto using Forall_nil.
      * rewrite Hx, <- app_assoc in Htok. apply closed_drop in Htok; auto using set_no_opener.
      * destruct x; [contradiction|exact Hsx].
      * now destruct x.
      * intros Hin. assert (Hp : Forall plain (x ++ z)).
        { apply in_map_iff in Hin as (f & <- & Hin). now apply name_reg. }
        assert (Ho' : In o (x ++ z)).
        { rewrite Hx, <- !app_assoc in Hs. destruct Hs as [Hs|Hs]; apply (app_inv_head $"set_") in Hs; rewrite Hs; apply in_or_app; right; left; auto. }
        apply (proj1 (Forall_forall _ _) Hp) in Ho'. apply plain_not_opener in Ho'. apply Ho'. exists e. exact Hb.
      * cbn [app] in He0. rewrite Hx, <- app_assoc in Ea2. change (skipn 4 ($"set_" ++ x ++ z)) with (x ++ z) in Ea2. congruence.
    + rewrite Hnone, (B _ eq_refl), Hst in H. mons H. destruct (get_token (c :: a)) as [[a1 a2] a3]. mons Ea0.
      assert (K : str2oxm ([] ++ x ++ $"=" ++ a2) false = Ok (b1, n1)) by (rewrite <- Ea2, Hx; reflexivity).
      destruct (unknown_raises x [] ($"=" ++ a2) false) as [e0 He0]; auto using Forall_nil; [right; reflexivity|congruence].
    + rewrite Hm, Hnone in H. rewrite Hm in Hst. rewrite Hst in H. destruct (get_token arg) as [[op pl] rr] eqn:Eg. mons H. mons Ea0.
      pose proof (get_token_concat _ _ _ _ Eg) as Hc. rewrite <- Hc, app_assoc in Hearg. apply ends_prefix in Hearg.
      destruct (unknown_raises x [] (op ++ pl) false) as [e0 He0]; auto using Forall_nil. cbn [app] in He0. rewrite Hx in Ea2.
      change (skipn 4 ($"set_" ++ x)) with x in Ea2. congruence.
Qed.
Theorem unknown_action es is p g n z r cmd xid : writes_flow es is p -> Forall instr_ok is -> next_to p g -> after is = AtAction ->
  Forall (fun c => ~ opener c) n -> match z with [] => True | c :: _ => opener c end -> token (n ++ z) -> solid (n ++ z) ->
  startswith $"@" (n ++ z) = false -> unknown_act n -> ends r ->
  exists e, str2mod (p ++ g ++ (n ++ z) ++ r) cmd xid = Raise e.
Proof.
  intros Hw Hok Hg Ha Hn Hz Ht Hs Hat Hu Hr. apply (prefix_raises es is p g (n ++ z) r); auto using solid_nonnil. intros st i Hi Hp.
  destruct st as [j func acts ph]. destruct ph; cbn [d_phase place_of] in Hp; try congruence.
  rewrite (step_word j _ func acts PhAction g (n ++ z) r); eauto using next_filler; [|apply get_token_complete; auto; apply filler_lead; eapply next_filler; eauto].
  assert (E : get_token ((n ++ z) ++ r) = ([], n ++ z, r)).
  { apply (get_token_complete [] (n ++ z) r); auto. now left. }
  destruct (str2act ((n ++ z) ++ r)) as [[b l]|e|] eqn:Es; cbn [bind]; [|eexists; reflexivity|].
  - rewrite (unknown_step n z r b l) by auto. eexists. reflexivity.
  - exfalso. eapply str2act_nd; eauto.
Qed.
