(** Texts written one behind the other. *)
From Coq Require Import Strings.Ascii.
From Verif Require Import Base PyNum Util PyLib OxmCodec OxmTables Oxm Nx Ofp4 Spec SpecOxm SpecText SpecOfp SpecActText SpecFlowText SpecCompose.
From Verif Require Import BaseFacts UtilFacts NumFacts PyLibFacts OxmRead OxmPrint OxmFacts OxmFrame OxmMore TermFacts OfpTerm.
From Verif Require Import ActBase ActRead ActFrame ActDenote GramLib OxmGram OxmExact GramTok FlowRead FlowMod FlowFrame GramStr GramFlow.

(** ** finished texts *)
Lemma finished_tail a b : finished (a ++ b) -> b <> [] -> finished b.
Proof.
  intros [(v & c & E & Hc) Hu] Hb. destruct (exists_last Hb) as (b' & d & ->). rewrite app_assoc in E. apply app_inj_tail in E as [_ <-].
  split; [now exists b', d|]. intros (x & w & E & Hw). apply Hu. exists (a ++ x), w. rewrite E, app_assoc. auto.
Qed.
Lemma finished_token p : finished p -> token p \/ unfinished_token p -> token p.
Proof. intros [_ H] [K|K]; auto. destruct H. now exists [], p. Qed.
Lemma finished_last a b : finished (a ++ b) -> b <> [] -> exists v c, b = v ++ [c] /\ token_char c /\ ~ blank c.
Proof. intros H Hb. now destruct (finished_tail _ _ H Hb) as [K _]. Qed.
Lemma no_last (P : Z -> Prop) b v c : Forall P b -> b = v ++ [c] -> P c.
Proof. intros H ->. apply Forall_app in H as [_ H]. now inversion H. Qed.
(** a finished text does not end with "=" and blanks *)
Lemma finished_eq pre b : Forall blank b -> ~ finished (pre ++ chr "=" :: b).
Proof.
  intros Hb H. destruct b as [|d b].
  - destruct (finished_last pre [chr "="] H) as (v & c & E & Hc); [discriminate|]. change [chr "="] with ([] ++ [chr "="]) in E. apply app_inj_tail in E as [_ <-]. destruct Hc as [[_ Hc] _]. now apply Hc.
  - replace (pre ++ chr "=" :: d :: b) with ((pre ++ [chr "="]) ++ d :: b) in H by (now rewrite <- app_assoc).
    destruct (finished_last _ _ H) as (v & c & E & Hc); [discriminate|]. apply (proj2 Hc). eapply no_last; [exact Hb|exact E].
Qed.
Lemma plain_finished v c : token_char c -> ~ blank c -> Forall (fun d => ~ opener d) (v ++ [c]) -> finished (v ++ [c]).
Proof.
  intros Hc Hb H. split; [now exists v, c|]. intros (x & w & E & Hw). rewrite E in H. apply Forall_app in H as [_ H].
  unfold unfinished_token in Hw. assert (K : exists p o e g, bracket o e /\ w = p ++ o :: g) by (destruct Hw; eauto 8). destruct K as (p & o & e & g & B & ->).
  apply Forall_app in H as [_ H]. inversion H as [|? ? K _]; subst. apply K. now exists e.
Qed.
Lemma ends_more r x : r <> [] -> ends r -> ends (r ++ x).
Proof. now destruct r. Qed.
(** a value that ends the text is whole *)
Lemma cut_more pre p r x : finished (pre ++ p ++ r) -> ends x -> cut p r -> cut p (r ++ x).
Proof.
  intros F Hx [Hs [[Ht He]|[Ht ->]]]; split; auto.
  - left. split; auto. destruct r; [exact Hx|exact He].
  - exfalso. rewrite app_nil_r in F. destruct F as [_ F]. apply F. now exists pre, p.
Qed.

(** ** match texts *)
Lemma oxm_go_fuel f : forall f' s, (length s <= f)%nat -> (length s <= f')%nat -> str2oxm_go f true s = str2oxm_go f' true s.
Proof.
  induction f as [|f IH]; intros f' s L L'; (destruct s as [|c s]; [destruct f'; reflexivity|]); [cbn in L; lia|].
  destruct f' as [|f']; [cbn in L'; lia|]. cbn [str2oxm_go]. destruct (get_token (c :: s)) as [[h nm] u1] eqn:E1. destruct (get_token u1) as [[op pl] u2] eqn:E2.
  destruct (assert _) as [[]| |]; cbn [bind]; auto. destruct (str2bin nm) as [k| |]; cbn [bind]; auto. destruct (run_s2b k _) as [[b n]| |]; cbn [bind]; auto.
  destruct (Nat.eqb n 0); auto. destruct (assert _) as [[]| |]; cbn [bind]; auto.
  assert (length u2 < length (c :: s))%nat as Hl.
  { pose proof (get_token_le _ _ _ _ E2). assert (length u1 < length (c :: s))%nat; [|lia]. assert (c :: s <> []) as Hs by discriminate. exact (get_token_progress _ _ _ _ E1 Hs). }
  cbn [length] in *. rewrite (IH f' u2) by lia. reflexivity.
Qed.
Lemma match_more ts u r : match_list notation ts u r -> r = [] -> u = [] \/ finished u -> forall x fuel, ends x -> (length (u ++ x) <= fuel)%nat ->
  str2oxm_go fuel true (u ++ x) = ('(b, r') <- str2oxm_go (length x) true x ;; Ok (flat_map wire ts ++ b, r')).
Proof.
  induction 1 as [|f h a b p v m r ts u r' Hf Hh Ha Hb Hc Hn -> H IH|f h a b r u Hf Hh Ha Hb Hc Hk ->]; intros Er F x fuel Hx Hl.
  - cbn [app flat_map] in *. rewrite (oxm_go_fuel fuel (length x)) by lia. destruct (str2oxm_go (length x) true x) as [[? ?]| |]; reflexivity.
  - destruct F as [F|F]; [exfalso; apply accepted_readable in Hf; eapply name_some; eauto|].
    assert (Hc' : cut p (r ++ x)).
    { apply (cut_more (h ++ fname f ++ a ++ $"=" ++ b)); auto. rewrite <- !app_assoc. exact F. }
    assert (Fr : r = [] \/ finished r).
    { destruct r as [|c r]; [now left|right]. apply (finished_tail (h ++ fname f ++ a ++ $"=" ++ b ++ p)); [|discriminate]. rewrite <- !app_assoc. exact F. }
    apply accepted_readable in Hf.
    assert (Es : (h ++ fname f ++ a ++ $"=" ++ b ++ p ++ r) ++ x = h ++ fname f ++ a ++ $"=" ++ b ++ p ++ r ++ x) by now rewrite <- !app_assoc. rewrite Es in *. clear Es.
    destruct (value_tokens f p a b h (r ++ x) Hf Hc' Ha Hb Hh) as [E1 E2].
    assert (length (r ++ x) < length (h ++ fname f ++ a ++ $"=" ++ b ++ p ++ r ++ x))%nat as Hlt. { rewrite !app_length. cbn [length s2t]. destruct p; [destruct Hc as [[] _]|cbn; lia]. }
    destruct fuel as [|fuel]; [lia|]. specialize (IH Er Fr x fuel Hx ltac:(lia)).
    pose proof (name_some f h (a ++ $"=" ++ b ++ p ++ r ++ x) Hf) as Hne. destruct (h ++ fname f ++ a ++ $"=" ++ b ++ p ++ r ++ x) as [|c0 s0]; [congruence|].
    cbn [str2oxm_go]. rewrite E1, E2, filler_no_eq by auto.
    assert (has_char 61 (a ++ 61 :: b) = true) as -> by (apply has_char_true, in_or_app; right; left; reflexivity).
    cbn [negb andb assert bind]. unfold str2bin. rewrite str2bin_reg by auto. cbn [bind].
    destruct Hc as [Hso Hc]. assert (cutting p) as Hcut by (split; [tauto|now right]). assert (p <> []) as Hp by (intros ->; destruct Hso).
    rewrite (read_field f p v m) by auto. cbn [bind]. destruct (Nat.eqb_spec (length p) 0) as [E|E]; [destruct p; [congruence|discriminate]|].
    rewrite Nat.eqb_refl. cbn [assert bind]. rewrite IH. destruct (str2oxm_go (length x) true x) as [[? ?]| |]; cbn [bind]; auto. cbn [flat_map]. now rewrite app_assoc.
  - subst r. exfalso. destruct F as [F|F]; [apply accepted_readable in Hf; eapply name_some; eauto|]. rewrite app_nil_r in F. apply (finished_eq (h ++ fname f ++ a) b Hb). rewrite <- !app_assoc. exact F.
Qed.
Theorem match_compose u b x : str2oxm u true = Ok (b, length u) -> finished u -> ends x ->
  str2oxm (u ++ x) true = ('(b', n) <- str2oxm x true ;; Ok (b ++ b', (length u + n)%nat)).
Proof.
  intros H F Hx. apply str2oxm_grammar in H as (ts & r & M & -> & L). assert (r = []) as ->.
  { destruct r as [|c r]; auto. exfalso. destruct F as [(v & d & -> & _) _]. rewrite app_length in L. cbn in L. lia. }
  unfold str2oxm. rewrite (match_more _ _ _ M eq_refl (or_intror F) x) by auto.
  destruct (str2oxm_go (length x) true x) as [[b' r']|e|] eqn:E; cbn [bind]; auto. do 2 f_equal. rewrite app_length.
  assert (length r' <= length x)%nat; [|lia]. pose proof (str2oxm_grammar x b' (length x - length r')) as G. unfold str2oxm in G. rewrite E in G. cbn [bind] in G.
  destruct (G eq_refl) as (ts' & r2 & M' & -> & L'). pose proof (match_list_reads _ _ _ M' (length x) (le_n _)) as E'. rewrite E in E'. injection E' as ->.
  clear - M'. induction M'; subst; rewrite ?app_length in *; cbn in *; lia.
Qed.

(** ** flow rules *)
Lemma finished_lead pre h : lead h -> h <> [] -> ~ finished (pre ++ h).
Proof.
  intros [Hh|(a & b & _ & Hb & ->)] Hn F.
  - destruct (finished_last _ _ F Hn) as (v & c & E & Hc & Hk). pose proof (no_last _ _ _ _ Hh E) as [K|K]; [contradiction|]. subst c. destruct Hc as [Hc _]. apply Hc. unfold sep_char. tauto.
  - rewrite app_assoc in F. now apply finished_eq in F.
Qed.
Lemma next_more pre u h p r x : next u h p r -> finished (pre ++ u) -> u <> [] -> ends x -> next (u ++ x) h p (r ++ x).
Proof.
  intros N F Hu Hx. destruct N as [h p r Hl Hc|h r Hl Hv].
  - rewrite <- !app_assoc. constructor; auto. eapply (cut_more (pre ++ h)); eauto. rewrite <- app_assoc. exact F.
  - rewrite <- app_assoc. constructor; auto. destruct Hv as [->|[(He & c & r' & -> & Hc)|(Hf & Hi & r' & ->)]].
    + exfalso. rewrite app_nil_r in *. eapply finished_lead; eauto.
    + right. left. split; auto. now exists c, (r' ++ x).
    + right. right. split; auto. split; auto. now exists (r' ++ x).
Qed.
Lemma word_more s nm u x : word s nm u -> finished s -> s <> [] -> ends x -> word (s ++ x) nm (u ++ x).
Proof. intros (h & N & He) F Hs Hx. exists h. split; auto. now apply (next_more [] s). Qed.
Lemma valued_more pre u p r x : valued u p r -> finished (pre ++ u) -> ends x -> valued (u ++ x) p (r ++ x).
Proof.
  intros (h & N & He) F Hx. exists h. split; auto. apply (next_more pre u); auto. intros ->. apply next_cat in N. symmetry in N. apply app_eq_nil in N as [-> _].
  destruct He as (a & b & _ & _ & E). destruct a; discriminate.
Qed.
Lemma sets_more pre nm u st r x : sets nm u st r -> finished (pre ++ u) -> ends x -> sets nm (u ++ x) st (r ++ x).
Proof. intros H F Hx. destruct H; try (econstructor; eauto using valued_more; fail). Qed.
Lemma one_field_more pre s ts r x : one_field notation s ts r -> finished (pre ++ s) -> r <> s -> ends x -> one_field notation (s ++ x) ts (r ++ x).
Proof.
  intros H F Hn Hx. destruct H as [|f h a b p v m r u Hf Hh Ha Hb Hc Hk ->|f h a b r u Hf Hh Ha Hb Hc Hk ->]; [contradiction| |].
  - eapply (of_item notation f h a b p v m (r ++ x)); eauto; [|now rewrite <- !app_assoc]. apply (cut_more (pre ++ h ++ fname f ++ a ++ $"=" ++ b)); auto. rewrite <- !app_assoc. exact F.
  - eapply (of_stop notation f h a b (r ++ x)); eauto; [|now rewrite <- !app_assoc]. destruct r as [|c r]; [|exact Hc]. exfalso. rewrite app_nil_r in F.
    apply (finished_eq (pre ++ h ++ fname f ++ a) b Hb). rewrite <- !app_assoc. exact F.
Qed.
Lemma rest_finished pre r : finished (pre ++ r) -> r = [] \/ finished r.
Proof. intros F. destruct r as [|c r]; [now left|right]. eapply finished_tail; eauto. discriminate. Qed.
Lemma sets_cat nm u st r : sets nm u st r -> exists y, u = y ++ r.
Proof.
  assert (V : forall p, valued u p r -> exists y, u = y ++ r) by (intros p (h & N & _); apply next_cat in N as ->; exists (h ++ p); now rewrite app_assoc).
  intros H. destruct H; eauto. now exists [].
Qed.
Lemma word_cat s nm u : word s nm u -> exists h, s = h ++ nm ++ u.
Proof. intros (h & N & _). exists h. now apply next_cat. Qed.
Lemma entry_app l l' : Forall entry_part (l ++ l') <-> Forall entry_part l /\ Forall entry_part l'.
Proof. apply Forall_app. Qed.
(** more written behind a list of entries is read behind them *)
Lemma entries_compose w u l : rule_reads notation w u l -> w = AtEntry -> Forall entry_part l -> u = [] \/ finished u ->
  forall x l', ends x -> rule_reads notation AtEntry x l' -> rule_reads notation AtEntry (u ++ x) (l ++ l').
Proof.
  induction 1 as [w|s nm u se r l W Hs R IH|s nm u ts r l W Hn Hf Hr R IH|w s nm u ins r l W Hi _ IH|w s nm u t l W Ha _ IH|s nm u b r l W Hn Ha Hr _ IH]; intros Ew He F x l' Hx Hl;
    try (inversion He; contradiction).
  - exact Hl.
  - inversion He as [|? ? _ He']; subst. destruct (sets_names _ _ _ _ Hs) as [Hin _]. assert (s <> []) as Hne. { eapply word_some; eauto. cbn in Hin. repeat destruct Hin as [<-|Hin]; try discriminate. contradiction. }
    destruct F as [F|F]; [contradiction|]. destruct (word_cat _ _ _ W) as (h & Es). assert (Fu : finished ((h ++ nm) ++ u)) by (rewrite <- app_assoc, <- Es; exact F).
    destruct (sets_cat _ _ _ _ Hs) as (y & Ey). assert (Fr : r = [] \/ finished r) by (apply (rest_finished ((h ++ nm) ++ y)); rewrite Ey, app_assoc in Fu; exact Fu).
    cbn [app]. eapply rr_set; [eapply word_more; eauto|eapply sets_more; eauto|]. apply IH; auto.
  - apply entry_app in He as [_ He]. pose proof (one_field_end _ _ _ _ Hf) as (y & Ey). assert (s <> []) as Hne.
    { eapply word_some; eauto. intros E. rewrite E in Ey, Hr. symmetry in Ey. apply app_eq_nil in Ey as [_ ->]. contradiction. }
    destruct F as [F|F]; [contradiction|]. destruct (word_cat _ _ _ W) as (h & Es). assert (Fu : finished (h ++ nm ++ u)) by (rewrite <- Es; exact F).
    assert (Fr : r = [] \/ finished r) by (apply (rest_finished (h ++ y)); rewrite Ey, app_assoc in Fu; exact Fu).
    rewrite <- app_assoc. eapply rr_match; [eapply word_more; eauto|exact Hn| | |].
    + rewrite app_assoc. eapply one_field_more; eauto.
    + rewrite app_assoc. intros E. apply app_inv_tail in E. contradiction.
    + apply IH; auto.
Qed.
(** the reader comes to the rest with the entries in hand *)
Lemma entries_run w u l : rule_reads notation w u l -> w = AtEntry -> Forall entry_part l -> u = [] \/ finished u -> forall x i, ends x ->
  dict_run (DState i None [] PhMatch) (u ++ x) = dict_run (DState (fold_left apply_info (entries_of l) i) None [] PhMatch) x.
Proof.
  induction 1 as [w|s nm u se r l W Hs R IH|s nm u ts r l W Hn Hf Hr R IH|w s nm u ins r l W Hi _ IH|w s nm u t l W Ha _ IH|s nm u b r l W Hn Ha Hr _ IH]; intros Ew He F x i Hx;
    try (inversion He; contradiction).
  - reflexivity.
  - inversion He as [|? ? _ He']; subst. destruct (sets_names _ _ _ _ Hs) as [Hin Hat]. assert (s <> []) as Hne. { eapply word_some; eauto. cbn in Hin. repeat destruct Hin as [<-|Hin]; try discriminate. contradiction. }
    destruct F as [F|F]; [contradiction|]. destruct (word_cat _ _ _ W) as (h & Es). assert (Fu : finished ((h ++ nm) ++ u)) by (rewrite <- app_assoc, <- Es; exact F).
    destruct (sets_cat _ _ _ _ Hs) as (y & Ey). assert (Fr : r = [] \/ finished r) by (apply (rest_finished ((h ++ nm) ++ y)); rewrite Ey, app_assoc in Fu; exact Fu).
    pose proof (word_more _ _ _ x W F Hne Hx) as W'. destruct (word_get _ _ _ W') as (h' & Et & Eb).
    rewrite (dict_run_step _ (s ++ x) (DState (apply_info i (ESet se)) None [] PhMatch) (r ++ x)).
    + rewrite IH by auto. reflexivity.
    + intros E. apply app_eq_nil in E as [E _]. contradiction.
    + unfold dict_step. rewrite Et, Eb. cbn [negb assert bind]. apply at_no in Hat. rewrite Hat. rewrite (sets_read i nm (u ++ x) se (r ++ x)) by (eapply sets_more; eauto). reflexivity.
  - apply entry_app in He as [_ He]. pose proof (one_field_end _ _ _ _ Hf) as (y & Ey). pose proof (field_no_at _ _ _ _ _ _ W Hf Hr) as Hat. assert (s <> []) as Hne.
    { eapply word_some; eauto. intros E. rewrite E in Ey, Hr. symmetry in Ey. apply app_eq_nil in Ey as [_ ->]. contradiction. }
    destruct F as [F|F]; [contradiction|]. destruct (word_cat _ _ _ W) as (h & Es). assert (Fu : finished (h ++ nm ++ u)) by (rewrite <- Es; exact F).
    assert (Fr : r = [] \/ finished r) by (apply (rest_finished (h ++ y)); rewrite Ey, app_assoc in Fu; exact Fu).
    pose proof (word_more _ _ _ x W F Hne Hx) as W'. destruct (word_get _ _ _ W') as (h' & Et & Eb).
    rewrite (dict_run_step _ (s ++ x) (DState (add_tlvs i ts) None [] PhMatch) (r ++ x)).
    + rewrite IH by auto. now rewrite entries_tlvs, fold_left_app, apply_tlvs.
    + intros E. apply app_eq_nil in E as [E _]. contradiction.
    + unfold dict_step. rewrite Et, Eb. cbn [negb assert bind]. apply at_no in Hat. rewrite Hat. rewrite (entry_read i nm (u ++ x) ts (r ++ x)); auto.
      * rewrite app_assoc. eapply one_field_more; eauto.
      * rewrite app_assoc. intros E. apply app_inv_tail in E. contradiction.
Qed.
Lemma parts_of s l cmd xid m : rule_reads notation AtEntry s l -> parts_message l cmd xid m -> str2mod s cmd xid = Ok m.
Proof. intros R P. apply message_read. exists l. split; auto. Qed.
(** the parts, however they were found, give the message *)
Lemma parts_unique s l cmd xid m : str2dict s = Ok (built info0 None l) -> str2mod s cmd xid = Ok m -> parts_message l cmd xid m.
Proof.
  intros E H. apply message_sound in H as (l2 & R & Hc & Hx & Hf & Hl & Em). cbv zeta in *.
  rewrite (dict_read s l2 R) in E by (apply fits_concat; rewrite Em, !app_length in Hl; lia). injection E as E.
  assert (Hd : x_flags (defaults cmd) = 0) by (unfold defaults; destruct (deleting cmd); reflexivity).
  destruct (built_parts (defaults cmd) l Hd) as (B1 & B2 & B3). destruct (built_parts (defaults cmd) l2 Hd) as (C1 & C2 & C3).
  rewrite E in C1, C2, C3. rewrite B1 in C1. rewrite B2 in C2. rewrite B3 in C3. unfold parts_message. cbv zeta. unfold match_wire in *. rewrite C1, C2, C3. auto.
Qed.
Lemma entries_insts l l' : Forall entry_part l -> r_insts None (l ++ l') = r_insts None l'.
Proof. induction 1 as [|p l Hp _ IH]; auto. destruct p; try contradiction; exact IH. Qed.
Lemma entries_app l l' : entries_of (l ++ l') = entries_of l ++ entries_of l'.
Proof. apply flat_map_app. Qed.
Theorem rule_compose u l x cmd xid m : rule_reads notation AtEntry u l -> Forall entry_part l -> finished u -> ends x ->
  (str2mod (u ++ x) cmd xid = Ok m <-> exists l', rule_reads notation AtEntry x l' /\ parts_message (l ++ l') cmd xid m).
Proof.
  intros R He F Hx. split.
  - intros H. pose proof H as H0. unfold str2mod in H0. destruct (str2dict (u ++ x)) as [i|e|] eqn:E; cbn [bind] in H0; try discriminate. clear H0.
    pose proof E as E0. rewrite str2dict_run in E. rewrite (entries_run _ _ _ R eq_refl He (or_intror F) x info0 Hx) in E.
    destruct (dict_run _ x) as [st'|e|] eqn:Er; cbn [bind] in E; try discriminate.
    assert (flushed st' = Ok i) as Hfl by (destruct st'; exact E). unfold dict_run in Er.
    destruct (rule_sound _ _ _ _ _ Er Hfl eq_refl) as (l' & R' & Hfit & ->). cbn [d_phase place_of d_info pend_of d_func] in *.
    exists l'. split; auto. apply (parts_unique (u ++ x)); auto. rewrite E0. f_equal. unfold built. rewrite entries_app, fold_left_app, entries_insts by auto. reflexivity.
  - intros (l' & R' & P). apply (parts_of _ (l ++ l')); auto. eapply entries_compose; eauto.
Qed.
(** with a comma between them *)
Lemma comma_match v b n : str2oxm v true = Ok (b, n) -> v <> [] -> str2oxm (chr "," :: v) true = Ok (b, S n).
Proof.
  intros H Hv. apply str2oxm_grammar in H as (ts & r & M & -> & L). assert (M' : match_list notation ts (chr "," :: v) r).
  { destruct M as [|f h a b p v' m r ts u r' Hf Hh Ha Hb Hc Hn -> M|f h a b r u Hf Hh Ha Hb Hc Hk ->]; [contradiction| |].
    - eapply (ml_item notation f (chr "," :: h)); eauto. constructor; auto. now right.
    - eapply (ml_stop notation f (chr "," :: h)); eauto. constructor; auto. now right. }
  unfold str2oxm. rewrite (match_list_reads _ _ _ M' _ (le_n _)). cbn [bind]. do 2 f_equal. rewrite L. assert (length r <= length v)%nat; [|cbn [length]; lia].
  clear - M. induction M; subst; rewrite ?app_length in *; cbn in *; lia.
Qed.
Theorem comma_compose u b v b' n : str2oxm u true = Ok (b, length u) -> finished u -> str2oxm v true = Ok (b', n) -> v <> [] ->
  str2oxm (u ++ $"," ++ v) true = Ok (b ++ b', (length u + S n)%nat).
Proof.
  intros H F Hv Hn. rewrite (match_compose u b) by (auto; left; unfold sep_char; tauto). change ($"," ++ v) with (chr "," :: v). now rewrite (comma_match v b' n).
Qed.
