(** The exception that an unknown name leads to. *)
From Coq Require Import Strings.Ascii.
From Verif Require Import Base PyNum Util PyLib OxmCodec OxmTables Oxm Nx Ofp4 Spec SpecOxm SpecOfp SpecActText SpecUnknown.
From Verif Require Import BaseFacts UtilFacts NumFacts OxmRead OxmPrint OxmFacts OxmFrame OxmMore TermFacts OfpTerm.
From Verif Require Import ActBase ActRead ActReadNx ActReadReg ActReadLearn ActPrint ActText ActFrame FlowRead FlowMod FlowFrame FlowPrefix ActDenote GramTok.

(** ** "=" *)
Lemma valued_eq r : match drop_while is_space r with c :: _ => c =? 61 | [] => false end = true <-> valued r.
Proof.
  split.
  - intros H. exists (take_while is_space r). destruct (drop_while is_space r) as [|c b] eqn:E; [discriminate|]. apply Z.eqb_eq in H. subst c. exists b. split.
    + apply Forall_forall. intros c Hc. apply is_space_iff. exact (proj1 (forallb_forall _ _) (take_while_all is_space r) c Hc).
    + rewrite <- (take_drop is_space r) at 1. now rewrite E.
  - intros (a & b & Ha & ->). rewrite drop_while_app; [reflexivity| |reflexivity].
    apply forallb_forall. intros c Hc. apply is_space_iff. now apply (proj1 (Forall_forall _ _) Ha).
Qed.
Lemma valued_app x y : valued x -> valued (x ++ y).
Proof. intros (a & b & Ha & ->). exists a, (b ++ y). split; auto. now rewrite <- app_assoc. Qed.
Lemma has_char_in c s : has_char c s = true <-> In c s.
Proof.
  unfold has_char. rewrite existsb_exists. split; [|intros H; exists c; split; [auto|apply Z.eqb_refl]]. intros (x & H & E). apply Z.eqb_eq in E. now subst.
Qed.
Lemma head_valued u h b r : get_token u = (h, b, r) -> has_char 61 h = true <-> valued u.
Proof.
  intros E. destruct (token_split _ _ _ _ E) as [<- _]. rewrite <- valued_eq, has_char_in, token_head_eq.
  destruct (match drop_while is_space u with c :: _ => c =? 61 | [] => false end).
  - split; auto. intros _. apply in_or_app. right. now left.
  - split; [|discriminate]. intros H. apply (proj1 (forallb_forall _ _) (take_while_all _ u)) in H. vm_compute in H. discriminate.
Qed.
Lemma head_part u h b r : get_token u = (h, b, r) -> valued (h ++ b) <-> valued u.
Proof.
  intros E. split.
  - intros H. rewrite <- (get_token_concat _ _ _ _ E), app_assoc. now apply valued_app.
  - intros H. apply valued_app. destruct (token_split _ _ _ _ E) as [<- _]. rewrite token_head_eq.
    rewrite (proj2 (valued_eq u) H). eexists _, _. split; [|reflexivity].
    apply Forall_forall. intros c Hc. apply is_space_iff. exact (proj1 (forallb_forall _ _) (take_while_all is_space u) c Hc).
Qed.
Definition refusal_of (b : bool) : exn := if b then KeyError else AssertionError.
Lemma refused_iff r h b u e : get_token r = (h, b, u) -> refusal_of (has_char 61 h) = e <-> refused r e.
Proof.
  intros E. apply head_valued in E. destruct (has_char 61 h); cbn [refusal_of]; split.
  - intros <-. constructor. now apply E.
  - intros [H|H]; auto. destruct H. now apply E.
  - intros <-. constructor. intros H. apply E in H. discriminate.
  - intros [H|H]; auto. apply E in H. discriminate.
Qed.
Lemma refused_part r h b u e : get_token r = (h, b, u) -> refused (h ++ b) e <-> refused r e.
Proof. intros E. apply head_part in E. split; intros [H|H]; constructor; tauto. Qed.
Lemma raise_iff {A} (x : res A) e0 (P : exn -> Prop) : x = Raise e0 -> (forall e, e0 = e <-> P e) -> forall e, x = Raise e <-> P e.
Proof. intros -> H e. rewrite <- H. split; congruence. Qed.

(** ** Fields *)
Theorem field_refused n h r loop e : token n -> solid n -> ~ In n (map fname accepted_fields) -> Forall filler h -> ends r ->
  str2oxm (h ++ n ++ r) loop = Raise e <-> refused r e.
Proof.
  intros Hp Hso Hu Hh Hr. assert (Hn : n <> []) by auto using solid_nonnil.
  destruct (get_token r) as [[op pl] u2] eqn:Er. apply (raise_iff _ (refusal_of (has_char 61 op))); [|intros e'; eapply refused_iff; eauto].
  assert (get_token (h ++ n ++ r) = (h, n, r)) as E by (apply get_token_complete; auto using filler_lead).
  assert (h ++ n ++ r <> []) as Hne by now apply mid_nonnil.
  unfold str2oxm. destruct (h ++ n ++ r) as [|c0 s0] eqn:Es; [congruence|]. cbn [length str2oxm_go]. rewrite E, Er.
  rewrite (filler_no_eq h Hh). cbn [negb andb]. destruct (has_char 61 op); cbn [assert bind refusal_of]; [|reflexivity].
  unfold str2bin. rewrite str2bin_unknown by auto. reflexivity.
Qed.
(** ** Entries, instructions and actions of a flow *)
Lemma run_refused es is p g u r cmd xid (P : exn -> Prop) e : writes_flow es is p -> Forall instr_ok is -> next_to p g -> u <> [] ->
  (forall st i, flushed st = Ok i -> place_of (d_phase st) = after is -> exists e0, dict_step st (g ++ u ++ r) = Raise e0 /\ forall e, e0 = e <-> P e) ->
  str2mod (p ++ g ++ u ++ r) cmd xid = Raise e <-> P e.
Proof.
  intros Hw Hok Hg Hn H. destruct (prefix_run _ _ _ Hw Hok) as (st & [i Hi] & Hp & R). destruct (H st i Hi Hp) as (e0 & He & HP).
  apply (raise_iff _ e0); [|exact HP]. unfold str2mod. rewrite str2dict_run. fold start. rewrite R by auto. rewrite (run_raises _ _ e0) by (auto; now apply mid_nonnil). reflexivity.
Qed.
Theorem entry_refused es p g n r cmd xid e : writes_flow es [] p -> next_to p g ->
  token n -> solid n -> startswith $"@" n = false -> ~ In n entry_names -> ends r ->
  str2mod (p ++ g ++ n ++ r) cmd xid = Raise e <-> refused r e.
Proof.
  intros Hw Hg Ht Hs Hn Hu Hr. apply (run_refused es [] p g n r); auto using solid_nonnil. intros st i Hi Hp.
  destruct st as [j func acts ph]. destruct ph; try discriminate.
  rewrite (step_word j _ func acts PhMatch g n r); eauto using next_filler; [|apply get_token_complete; auto; apply filler_lead; eapply next_filler; eauto].
  unfold entry_names in Hu. rewrite in_app_iff in Hu. assert (Hf : ~ In n fixed_names) by tauto. assert (Hm : ~ In n (map fname accepted_fields)) by (cbn [accepted_fields map fname ct_label4]; tauto).
  unfold match_token. unfold fixed_names in Hf. rewrite in_app_iff in Hf. cbn [map fflags fflag_name] in Hf.
  rewrite !assoc_not_in by (cbn [map fst proc_fields ofpff]; cbn [In] in *; tauto).
  destruct (text_eqb n $"cookie") eqn:E1; [apply text_eqb_eq in E1; symmetry in E1; cbn [In app] in Hf; tauto|].
  destruct (text_eqb n $"out_port") eqn:E2; [apply text_eqb_eq in E2; symmetry in E2; cbn [In app] in Hf; tauto|].
  destruct (text_eqb n $"out_group") eqn:E3; [apply text_eqb_eq in E3; symmetry in E3; cbn [In app] in Hf; tauto|].
  destruct (get_token r) as [[op pl] u2] eqn:Er. exists (refusal_of (has_char 61 op)). split; [|intros e'; eapply refused_iff; eauto].
  pose proof (proj2 (field_refused n [] r false _ Ht Hs Hm (Forall_nil _) Hr) (proj1 (refused_iff _ _ _ _ _ Er) eq_refl)) as K.
  cbn [app] in K. now rewrite K.
Qed.
Theorem instr_refused es is p g n r cmd xid : writes_flow es is p -> Forall instr_ok is -> next_to p g ->
  token n -> startswith $"@" n = true -> ~ In n instr_names -> ends r ->
  str2mod (p ++ g ++ n ++ r) cmd xid = Raise ValueError.
Proof.
  intros Hw Hok Hg Ht Ha Hn Hr. assert (Hs : solid n).
  { destruct n as [|c n]; [discriminate|]. cbn in Ha. apply andb_prop in Ha as [Ha _]. apply Z.eqb_eq in Ha. subst c. cbn. unfold blank. lia. }
  apply (run_refused es is p g n r cmd xid (fun e => ValueError = e)); auto using solid_nonnil. intros st i Hi _. exists ValueError. split; [|tauto].
  pose proof (next_filler _ _ Hg) as Hf. rewrite (step_at st i g n r); auto; [|apply get_token_complete; auto using filler_lead].
  unfold inst_token. cbn [instr_names flat_map short_name long_name app In] in Hn.
  rewrite !in_names_not by (cbn [In]; intuition). destruct (text_eqb n $"@meter") eqn:E; [|reflexivity].
  apply text_eqb_eq in E. symmetry in E. tauto.
Qed.
Lemma no_set_prefix n : (forall k, ~ act_named n k) -> startswith $"set_" n = false.
Proof.
  intros H. destruct (startswith $"set_" n) eqn:E; auto. apply startswith_iff in E as [x ->]. destruct (H (AStd 25)). right. right. right. split; eauto.
Qed.
Lemma no_name n : (forall k, ~ act_named n k) -> ~ In n (map fst named_acts).
Proof. intros H K. apply in_map_iff in K as ([m k] & <- & K). apply (H k). now left. Qed.
(** a name that is no action: alone or called; what is not a call is refused as such *)
Theorem action_refused es is p g n z r cmd xid e : writes_flow es is p -> Forall instr_ok is -> next_to p g -> after is = AtAction ->
  Forall (fun c => ~ opener c) n -> match z with [] => True | c :: _ => opener c end -> token (n ++ z) -> solid (n ++ z) ->
  startswith $"@" (n ++ z) = false -> (forall k, ~ act_named n k) -> ends r ->
  str2mod (p ++ g ++ (n ++ z) ++ r) cmd xid = Raise e
  <-> (e = ValueError /\ (exists a, func (n ++ z) n a)) \/ (e = AssertionError /\ ~ exists a, func (n ++ z) n a).
Proof.
  intros Hw Hok Hg Ha Hn Hz Ht Hs Hat Hu Hr. apply (run_refused es is p g (n ++ z) r cmd xid (fun e => (e = ValueError /\ (exists a, func (n ++ z) n a)) \/ (e = AssertionError /\ ~ exists a, func (n ++ z) n a))); auto using solid_nonnil. intros st i Hi Hp.
  destruct st as [j fn acts ph]. destruct ph; cbn [d_phase place_of] in Hp; try congruence.
  rewrite (step_word j _ fn acts PhAction g (n ++ z) r); eauto using next_filler; [|apply get_token_complete; auto; apply filler_lead; eapply next_filler; eauto].
  assert (E : get_token ((n ++ z) ++ r) = ([], n ++ z, r)) by (apply (get_token_complete [] (n ++ z) r); auto; now left).
  assert (Hns : startswith $"set_" (n ++ z) = false).
  { destruct (startswith $"set_" (n ++ z)) eqn:Q; auto. apply startswith_iff in Q as [x Q]. exfalso.
    destruct z as [|o z]; [rewrite app_nil_r in Q; apply (Hu (AStd 25)); right; right; right; split; eauto|].
    destruct (before_opener $"set_" n o z x) as [w ->]; auto using set_no_opener. apply (Hu (AStd 25)). right. right. right. split; eauto. }
  assert (Hnone : assoc_t n str2act_tbl = None) by (apply act_table_none; now apply no_name).
  assert (Hnz : assoc_t (n ++ z) str2act_tbl = None).
  { destruct z as [|o z]; [now rewrite app_nil_r|]. apply not_action. intros Hpl. rewrite Forall_app in Hpl. destruct Hpl as [_ Hpl]. inversion Hpl; subst.
    eapply plain_not_opener; eauto. }
  unfold str2act. rewrite E. destruct (parse_func (n ++ z)) as [[f0 fa]|e0|] eqn:Ef; cbn [bind].
  - assert (f0 = n).
    { apply parse_func_inv in Ef as [Hf Hm]. destruct fa as [q|].
      - destruct Hm as (o & e1 & Hb & [Hq|Hq]); eapply same_word; [| | | |symmetry; exact Hq| | | | |symmetry; exact Hq]; cbn; auto; eexists; eauto.
      - destruct z as [|o z]; [now rewrite app_nil_r in Hm|]. exfalso. rewrite <- Hm in Hf. apply Forall_app in Hf as [_ Hf]. inversion Hf; subst. contradiction. }
    subst f0. apply func_iff in Ef. exists ValueError. split.
    + rewrite Hnz, Hns, Hnone. destruct fa as [[|c a]|]; reflexivity.
    + intros e'. split; [intros <-; left; eauto|intros [[-> _]|[_ K]]; auto; destruct K; eauto].
  - assert (e0 = AssertionError) as ->.
    { pose proof (parse_func_cases (n ++ z)) as [H|(name & o & e1 & x & H & Hb & [[Hx Hq]|[[Hx Hq]|[Hx (c & r' & Hq)]]])].
      - rewrite (parse_func_plain _ H) in Ef. discriminate.
      - rewrite Hq, parse_func_group in Ef by assumption. discriminate.
      - rewrite Hq, (parse_func_open _ _ e1) in Ef by assumption. discriminate.
      - rewrite Hq, parse_func_trailing in Ef by assumption. congruence. }
    exists AssertionError. split; [reflexivity|]. intros e'. split.
    + intros <-. right. split; auto. intros [a K]. apply func_iff in K. congruence.
    + intros [[_ [a K]]|[-> _]]; auto. apply func_iff in K. congruence.
  - exfalso. eapply parse_func_nd; eauto.
Qed.
(** set_ and a field that is not known, written with "=" or not at all *)
Theorem set_refused es is p g x r cmd xid e : writes_flow es is p -> Forall instr_ok is -> next_to p g -> after is = AtAction ->
  token x -> solid x -> Forall (fun c => ~ opener c) x -> ~ In ($"set_" ++ x) (map fst named_acts) -> ~ In x ($"nxm_ct_label" :: map fname registry) -> ends r ->
  str2mod (p ++ g ++ ($"set_" ++ x) ++ r) cmd xid = Raise e <-> refused r e.
Proof.
  intros Hw Hok Hg Ha Hx Hsx Hox Hna Hfx Hr. assert (Ho4 : Forall (fun c => ~ opener c) ($"set_" ++ x)) by (apply Forall_app; auto using set_no_opener).
  assert (Ht4 : token ($"set_" ++ x)) by (apply closed_app; auto; apply plain_token; pl). assert (Hs4 : solid ($"set_" ++ x)) by (cbn; unfold blank; lia).
  apply (run_refused es is p g ($"set_" ++ x) r); auto; [discriminate|]. intros st i Hi Hp.
  destruct st as [j fn acts ph]. destruct ph; cbn [d_phase place_of] in Hp; try congruence.
  rewrite (step_word j _ fn acts PhAction g ($"set_" ++ x) r); eauto using next_filler;
    [|apply get_token_complete; auto; apply filler_lead; eapply next_filler; eauto].
  assert (E : get_token (($"set_" ++ x) ++ r) = ([], $"set_" ++ x, r)).
  { apply (get_token_complete [] ($"set_" ++ x) r); auto. now left. }
  unfold str2act. rewrite E, parse_func_plain by (apply Forall_forall; exact Ho4). cbn [bind].
  rewrite act_table_none by auto. replace (startswith $"set_" ($"set_" ++ x)) with true by reflexivity.
  destruct (get_token r) as [[op pl] u2] eqn:Er. change (skipn 4 ($"set_" ++ x)) with x.
  exists (refusal_of (has_char 61 op)). split; [|intros e'; eapply refused_iff; eauto].
  assert (He : ends (op ++ pl)) by (eapply (ends_prefix _ u2); rewrite <- app_assoc, (get_token_concat _ _ _ _ Er); auto).
  assert (K : str2oxm (x ++ op ++ pl) false = Raise (refusal_of (has_char 61 op))).
  { apply (field_refused x [] (op ++ pl) false); auto. apply (refused_part _ _ _ _ _ Er), (refused_iff _ _ _ _ _ Er). reflexivity. }
  rewrite K. reflexivity.
Qed.
(** ... written with brackets *)
Theorem set_call_refused es is p g x o z r cmd xid e : writes_flow es is p -> Forall instr_ok is -> next_to p g -> after is = AtAction ->
  token x -> solid x -> Forall (fun c => ~ opener c) x -> opener o -> token (x ++ o :: z) -> ~ In ($"set_" ++ x) (map fst named_acts) -> ~ In x ($"nxm_ct_label" :: map fname registry) -> ends r ->
  str2mod (p ++ g ++ ($"set_" ++ x ++ o :: z) ++ r) cmd xid = Raise e
  <-> (e = KeyError /\ exists a, a <> [] /\ func ($"set_" ++ x ++ o :: z) ($"set_" ++ x) (Some a)) \/ (refused r e /\ func ($"set_" ++ x ++ o :: z) ($"set_" ++ x) (Some []))
      \/ (e = AssertionError /\ ~ exists a, func ($"set_" ++ x ++ o :: z) ($"set_" ++ x) a).
Proof.
  intros Hw Hok Hg Ha Hx Hsx Hox Ho Hxz Hna Hfx Hr. assert (Ho4 : Forall (fun c => ~ opener c) ($"set_" ++ x)) by (apply Forall_app; auto using set_no_opener).
  assert (Ht4 : token ($"set_" ++ x ++ o :: z)) by (apply closed_app; auto; apply plain_token; pl). assert (Hs4 : solid ($"set_" ++ x ++ o :: z)) by (cbn; unfold blank; lia).
  set (w := $"set_" ++ x ++ o :: z) in *. set (n := $"set_" ++ x) in *. assert (Ew : w = n ++ o :: z) by (unfold w, n; now rewrite <- app_assoc).
  apply (run_refused es is p g w r cmd xid (fun e => (e = KeyError /\ exists a, a <> [] /\ func w n (Some a)) \/ (refused r e /\ func w n (Some [])) \/ (e = AssertionError /\ ~ exists a, func w n a))); auto; [discriminate|].
  intros st i Hi Hp. destruct st as [j fn acts ph]. destruct ph; cbn [d_phase place_of] in Hp; try congruence.
  rewrite (step_word j _ fn acts PhAction g w r); eauto using next_filler; [|apply get_token_complete; auto; apply filler_lead; eapply next_filler; eauto].
  assert (E : get_token (w ++ r) = ([], w, r)) by (apply (get_token_complete [] w r); auto; now left).
  assert (Hnone : assoc_t n str2act_tbl = None) by now apply act_table_none.
  assert (Hwn : assoc_t w str2act_tbl = None).
  { apply not_action. intros Hpl. rewrite Ew, Forall_app in Hpl. destruct Hpl as [_ Hpl]. inversion Hpl; subst. eapply plain_not_opener; eauto. }
  unfold str2act. rewrite E. destruct (parse_func w) as [[f0 fa]|e0|] eqn:Ef; cbn [bind].
  - assert (f0 = n /\ exists q, fa = Some q) as [-> [q ->]].
    { apply parse_func_inv in Ef as [Hf Hm]. destruct fa as [q|].
      - split; [|eauto]. destruct Hm as (o' & e1 & Hb & [Hq|Hq]); rewrite Ew in Hq; eapply same_word; [| | | |symmetry; exact Hq| | | | |symmetry; exact Hq]; cbn; auto; eexists; eauto.
      - exfalso. rewrite <- Hm, Ew in Hf. apply Forall_app in Hf as [_ Hf]. inversion Hf; subst. contradiction. }
    apply func_iff in Ef. rewrite Hwn. replace (startswith $"set_" w) with true by reflexivity. destruct q as [|c a].
    + destruct (get_token r) as [[op pl] u2] eqn:Er. change (skipn 4 w) with (x ++ o :: z). exists (refusal_of (has_char 61 op)). split.
      * assert (He : ends (op ++ pl)) by (eapply (ends_prefix _ u2); rewrite <- app_assoc, (get_token_concat _ _ _ _ Er); auto).
        assert (K : str2oxm ((x ++ o :: z) ++ op ++ pl) false = Raise (refusal_of (has_char 61 op))).
        { apply (field_refused (x ++ o :: z) [] (op ++ pl) false); auto; [destruct x; [contradiction|exact Hsx]| |apply (refused_part _ _ _ _ _ Er), (refused_iff _ _ _ _ _ Er); reflexivity].
          intros K. apply in_map_iff in K as (f & Ef' & K). apply name_reg in K as [K _]. rewrite Ef' in K. apply Forall_app in K as [_ K]. inversion K; subst. eapply plain_not_opener; eauto. }
        rewrite K. reflexivity.
      * intros e'. rewrite (refused_iff _ _ _ _ _ Er). split; [intros K; right; left; auto|]. intros [[-> (a & Na & K)]|[[K _]|[_ K]]]; auto; [|destruct K; eauto]. exfalso. apply func_iff in K, Ef. congruence.
    + rewrite Hnone. destruct (get_token (c :: a)) as [[h0 pl] u2] eqn:Ea. change (skipn 4 n) with x. exists KeyError. split.
      * assert (K : str2oxm (x ++ $"=" ++ pl) false = Raise KeyError).
        { apply (field_refused x [] ($"=" ++ pl) false); auto; [right; reflexivity|]. apply refused_key. exists [], pl. split; [constructor|reflexivity]. }
        rewrite K. reflexivity.
      * intros e'. split; [intros <-; left; split; [reflexivity|]; exists (c :: a); split; [discriminate|exact Ef]|]. intros [[-> _]|[[_ K]|[_ K]]]; auto; [|destruct K; eauto]. exfalso. apply func_iff in K, Ef. congruence.
  - assert (e0 = AssertionError) as ->.
    { pose proof (parse_func_cases w) as [H|(name & o' & e1 & x' & H & Hb & [[Hx' Hq]|[[Hx' Hq]|[Hx' (c & r' & Hq)]]])].
      - rewrite (parse_func_plain _ H) in Ef. discriminate.
      - rewrite Hq, parse_func_group in Ef by assumption. discriminate.
      - rewrite Hq, (parse_func_open _ _ e1) in Ef by assumption. discriminate.
      - rewrite Hq, parse_func_trailing in Ef by assumption. congruence. }
    exists AssertionError. split; [reflexivity|]. intros e'. split.
    + intros <-. right. right. split; auto. intros [a K]. apply func_iff in K. congruence.
    + intros [[_ (a & _ & K)]|[[_ K]|[-> _]]]; auto; apply func_iff in K; congruence.
  - exfalso. eapply parse_func_nd; eauto.
Qed.
