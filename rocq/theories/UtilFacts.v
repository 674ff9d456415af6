(** Lemmas on Util.v: tokens, brackets, integers. *)
From Coq Require Import Strings.Ascii.
From Verif Require Import Base PyNum Util Spec BaseFacts.

(** ** character classes: model = spec *)
Lemma is_delimiter_iff c : is_delimiter c = true <-> sep_char c.
Proof. unfold is_delimiter, sep_char. chr_red. lia. Qed.
Lemma is_delimiter_false c : is_delimiter c = false <-> ~ sep_char c.
Proof. rewrite <- is_delimiter_iff. destruct (is_delimiter c); split; congruence. Qed.
Lemma is_space_iff c : is_space c = true <-> blank c.
Proof. unfold is_space, blank. lia. Qed.
Lemma is_space_false c : is_space c = false <-> ~ blank c.
Proof. rewrite <- is_space_iff. destruct (is_space c); split; congruence. Qed.
Lemma pars_iff c e : pars c = Some e <-> bracket c e.
Proof.
  unfold pars. split.
  - destruct (Z.eqb_spec c 40); [intros [= <-]; subst; apply br_round|].
    destruct (Z.eqb_spec c 123); [intros [= <-]; subst; apply br_curly|].
    destruct (Z.eqb_spec c 91); [intros [= <-]; subst; apply br_square|].
    destruct (Z.eqb_spec c 60); [intros [= <-]; subst; apply br_angle|]. discriminate.
  - intros []; reflexivity.
Qed.
Lemma pars_none c : pars c = None <-> ~ opener c.
Proof.
  split.
  - intros H [e He]. apply pars_iff in He. congruence.
  - intros H. destruct (pars c) as [e|] eqn:E; auto. apply pars_iff in E. destruct H. now exists e.
Qed.
Lemma bracket_neq o e : bracket o e -> o <> e.
Proof. intros []; discriminate. Qed.

(** a character outside brackets, model form *)
Definition plainc (c : Z) : bool := negb (is_delimiter c || (c =? 61)).
Lemma plainc_iff c : plainc c = true <-> token_char c.
Proof.
  unfold plainc, token_char, eq_char. rewrite <- is_delimiter_iff. chr_red.
  destruct (is_delimiter c); cbn; lia.
Qed.

(** ** get_token splits its argument (C01) *)
(** [token_head] without the pattern match on a literal *)
Lemma token_head_eq u :
  token_head u =
  if match drop_while is_space u with c :: _ => c =? 61 | [] => false end
  then take_while is_space u ++ 61 :: take_while is_space (tl (drop_while is_space u))
  else take_while (fun c => is_space c || (c =? 44)) u.
Proof.
  unfold token_head. destruct (drop_while is_space u) as [|c r]; [auto|]. cbn [tl].
  destruct (Z.eqb_spec c 61) as [->|Hc]; [auto|].
  destruct c as [|p|p]; auto. repeat (destruct p as [p|p|]; auto). congruence.
Qed.
Lemma token_head_prefix u : firstn (length (token_head u)) u = token_head u.
Proof.
  rewrite token_head_eq.
  destruct (drop_while is_space u) as [|c r] eqn:E; [apply firstn_take_while|]. cbn [tl].
  destruct (Z.eqb_spec c 61) as [->|Hc]; [|apply firstn_take_while].
  rewrite <- (take_drop is_space u) at 2. rewrite E.
  rewrite <- (take_drop is_space r) at 2.
  change (61 :: take_while is_space r ++ drop_while is_space r)
    with ((61 :: take_while is_space r) ++ drop_while is_space r).
  rewrite app_assoc. apply firstn_len_app.
Qed.
Lemma token_body_prefix stk s : firstn (length (token_body stk s)) s = token_body stk s.
Proof.
  revert stk; induction s as [|c s IH]; intros stk; cbn; [auto|].
  destruct stk as [|e stk].
  - destruct (is_delimiter c || (c =? 61)); [auto|].
    destruct (pars c); cbn; now rewrite IH.
  - destruct (c =? e); [cbn; now rewrite IH|]. destruct (pars c); cbn; now rewrite IH.
Qed.
Lemma get_token_concat u h b r : get_token u = (h, b, r) -> h ++ b ++ r = u.
Proof.
  unfold get_token. intros [= <- <- <-].
  pose proof (token_head_prefix u) as H1. set (h := token_head u) in *.
  pose proof (token_body_prefix [] (skipn (length h) u)) as H2.
  set (b := token_body [] (skipn (length h) u)) in *.
  rewrite <- H1, <- H2 at 1. rewrite <- skipn_skipn, !firstn_skipn. reflexivity.
Qed.
Lemma token_head_nil_iff u :
  token_head u = [] ->
  match u with [] => True | c :: _ => is_space c = false /\ c <> 44 /\ c <> 61 end.
Proof.
  rewrite token_head_eq. destruct u as [|c u]; [auto|]. cbn.
  destruct (is_space c) eqn:Es; cbn.
  - destruct (match drop_while is_space u with c0 :: _ => c0 =? 61 | [] => false end); discriminate.
  - destruct (Z.eqb_spec c 61) as [->|]; [discriminate|].
    destruct (Z.eqb_spec c 44); [discriminate|]. auto.
Qed.
Lemma get_token_progress u h b r :
  get_token u = (h, b, r) -> u <> [] -> (length r < length u)%nat.
Proof.
  intros H Hu. pose proof (get_token_concat _ _ _ _ H) as Hc.
  unfold get_token in H. injection H as Hh Hb Hr.
  destruct h as [|x h]; [|rewrite <- Hc, !app_length; cbn; lia].
  destruct b as [|x b]; [|rewrite <- Hc, !app_length; cbn; lia].
  exfalso. pose proof (token_head_nil_iff _ Hh) as Hn. rewrite Hh in Hb. cbn in Hb.
  destruct u as [|c u]; [congruence|]. destruct Hn as [H1 [H2 H3]]. cbn in Hb.
  assert (is_delimiter c = false) as Hd.
  { unfold is_delimiter. unfold is_space in H1. lia. }
  rewrite Hd in Hb. destruct (Z.eqb_spec c 61); [congruence|]. cbn in Hb.
  destruct (pars c); discriminate.
Qed.
Lemma get_token_nil : get_token [] = ([], [], []).
Proof. reflexivity. Qed.
Lemma get_token_le u h b r : get_token u = (h, b, r) -> (length r <= length u)%nat.
Proof. intros H. rewrite <- (get_token_concat _ _ _ _ H), !app_length. lia. Qed.

(** ** token_body against the grammar (C02, C03) *)
(** what is allowed at the level whose open brackets are [stk] *)
Definition lvl (stk : list Z) : Z -> Prop :=
  match stk with [] => token_char | e :: _ => fun c => c <> e end.

Definition closer (e : Z) : Prop := exists o, bracket o e.
Lemma closer_not_opener e : closer e -> pars e = None.
Proof. intros [o []]; reflexivity. Qed.
Lemma opener_not_closer o e e' : bracket o e -> closer e' -> o <> e'.
Proof. intros H1 H2 ->. apply closer_not_opener in H2. apply pars_iff in H1. congruence. Qed.

(** scanning a closed sequence at level [stk] leaves the level unchanged *)
Lemma token_body_closed P g : closed P g ->
  forall stk r, P = lvl stk -> Forall closer stk -> token_body stk (g ++ r) = g ++ token_body stk r.
Proof.
  induction 1 as [P|P c s HP Ho Hs IH|P o e g s Hb Hg IHg Hs IHs]; intros stk r E Hst; subst P.
  - reflexivity.
  - cbn [app token_body]. apply pars_none in Ho. rewrite Ho. destruct stk as [|e stk].
    + apply plainc_iff in HP. unfold plainc in HP. apply negb_true_iff in HP. rewrite HP.
      f_equal. apply IH; auto.
    + cbn in HP. destruct (Z.eqb_spec c e); [congruence|]. f_equal. apply IH; auto.
  - assert (pars o = Some e) as Hp by now apply pars_iff.
    assert (closer e) as Hce by now exists o.
    assert (forall k, Forall closer k ->
              token_body (e :: k) (g ++ e :: s ++ r) = g ++ e :: token_body k (s ++ r)) as Hin.
    { intros k Hk. rewrite (IHg (e :: k)) by auto. cbn [token_body]. now rewrite Z.eqb_refl. }
    cbn [app token_body]. rewrite <- app_assoc. cbn [app]. destruct stk as [|e' stk].
    + replace (is_delimiter o || (o =? 61)) with false by (destruct Hb; reflexivity).
      rewrite Hp, Hin, IHs by auto. now rewrite <- app_assoc.
    + rewrite Hp. destruct (Z.eqb_spec o e') as [->|].
      * inversion Hst; subst. exfalso. eapply opener_not_closer; eauto.
      * rewrite Hin, IHs by auto. now rewrite <- app_assoc.
Qed.

(** what the scan at level [stk] returns: either the whole text, some of the open
    groups being left open, or it stopped at level [] before a separator *)
Inductive scanned : list Z -> text -> Prop :=
| scanned_top p : closed token_char p -> scanned [] p
| scanned_up e stk p q : closed (fun c => c <> e) p -> scanned stk q -> scanned (e :: stk) (p ++ e :: q).
Inductive stuck : list Z -> text -> Prop :=
| stuck_here e stk p : closed (fun c => c <> e) p -> stuck (e :: stk) p
| stuck_un e stk p : unclosed (fun c => c <> e) p -> stuck (e :: stk) p
| stuck_up e stk p q : closed (fun c => c <> e) p -> stuck stk q -> stuck (e :: stk) (p ++ e :: q)
| stuck_top p : unclosed token_char p -> stuck [] p.

Lemma closed_char_cons stk c p :
  lvl stk c -> ~ opener c -> closed (lvl stk) p -> closed (lvl stk) (c :: p).
Proof. intros. now constructor. Qed.
Lemma unclosed_cons (P : Z -> Prop) c p : P c -> ~ opener c -> unclosed P p -> unclosed P (c :: p).
Proof.
  intros Hc Ho H. destruct H as [P p o e g|P p o e g].
  - change (c :: p ++ o :: g) with ((c :: p) ++ o :: g). eapply unclosed_here; eauto. now constructor.
  - change (c :: p ++ o :: g) with ((c :: p) ++ o :: g). eapply unclosed_in; eauto. now constructor.
Qed.
Lemma unclosed_grp (P : Z -> Prop) o e g p :
  bracket o e -> closed (fun c => c <> e) g -> unclosed P p -> unclosed P (o :: g ++ e :: p).
Proof.
  intros Hb Hg H. destruct H as [P p o' e' g'|P p o' e' g'].
  - replace (o :: g ++ e :: p ++ o' :: g') with ((o :: g ++ e :: p) ++ o' :: g')
      by (cbn; now rewrite <- app_assoc).
    eapply unclosed_here; eauto. now constructor.
  - replace (o :: g ++ e :: p ++ o' :: g') with ((o :: g ++ e :: p) ++ o' :: g')
      by (cbn; now rewrite <- app_assoc).
    eapply unclosed_in; eauto. now constructor.
Qed.
Lemma scanned_cons stk c p : lvl stk c -> ~ opener c -> scanned stk p -> scanned stk (c :: p).
Proof.
  intros Hc Ho H. destruct H as [p H|e stk p q H1 H2].
  - constructor. now constructor.
  - change (c :: p ++ e :: q) with ((c :: p) ++ e :: q). constructor; auto. now constructor.
Qed.
Lemma stuck_cons stk c p : lvl stk c -> ~ opener c -> stuck stk p -> stuck stk (c :: p).
Proof.
  intros Hc Ho H. destruct H as [e stk p H|e stk p H|e stk p q H1 H2|p H].
  - apply stuck_here. now constructor.
  - apply stuck_un. now apply unclosed_cons.
  - change (c :: p ++ e :: q) with ((c :: p) ++ e :: q). apply stuck_up; auto. now constructor.
  - apply stuck_top. now apply unclosed_cons.
Qed.
Lemma scanned_open stk o e p : bracket o e -> scanned (e :: stk) p -> scanned stk (o :: p).
Proof.
  intros Hb H. inversion H as [|e0 stk0 p0 q0 H1 H2]; subst.
  destruct H2 as [q H2|e1 stk q1 q2 H2 H3].
  - constructor. now constructor.
  - replace (o :: p0 ++ e :: q1 ++ e1 :: q2) with ((o :: p0 ++ e :: q1) ++ e1 :: q2)
      by (cbn; now rewrite <- app_assoc).
    constructor; auto. now constructor.
Qed.
Lemma stuck_open stk o e p : bracket o e -> stuck (e :: stk) p -> stuck stk (o :: p).
Proof.
  intros Hb H. inversion H as [e0 stk0 p0 H1|e0 stk0 p0 H1|e0 stk0 p0 q0 H1 H2|]; subst.
  - destruct stk as [|e' stk].
    + apply stuck_top. apply (unclosed_here _ [] o e); auto. constructor.
    + apply stuck_un. apply (unclosed_here _ [] o e); auto. constructor.
  - destruct stk as [|e' stk].
    + apply stuck_top. apply (unclosed_in _ [] o e); auto. constructor.
    + apply stuck_un. apply (unclosed_in _ [] o e); auto. constructor.
  - destruct H2 as [e1 stk q H2|e1 stk q H2|e1 stk q1 q2 H2 H3|q H2].
    + apply stuck_here. now constructor.
    + apply stuck_un. now apply unclosed_grp.
    + replace (o :: p0 ++ e :: q1 ++ e1 :: q2) with ((o :: p0 ++ e :: q1) ++ e1 :: q2)
        by (cbn; now rewrite <- app_assoc).
      apply stuck_up; auto. now constructor.
    + apply stuck_top. now apply unclosed_grp.
Qed.
Lemma token_body_sound s : forall stk, Forall closer stk ->
  let b := token_body stk s in
  let r := skipn (length b) s in
  (scanned stk b /\ ends r) \/ (stuck stk b /\ r = []).
Proof.
  induction s as [|c s IH]; intros stk Hst; cbn [token_body].
  - cbn. destruct stk as [|e stk].
    + left. split; [constructor; constructor|exact I].
    + right. split; [apply stuck_here; constructor|auto].
  - destruct stk as [|e stk].
    + destruct (is_delimiter c || (c =? 61)) eqn:Ed.
      * left. split; [constructor; constructor|]. cbn. unfold eq_char. chr_red.
        apply orb_prop in Ed as [Ed|Ed]; [left; now apply is_delimiter_iff|right; lia].
      * assert (lvl [] c) as Hl by (apply plainc_iff; unfold plainc; now rewrite Ed).
        destruct (pars c) as [e|] eqn:Ep.
        -- apply pars_iff in Ep.
           destruct (IH [e]) as [[H1 H2]|[H1 H2]];
             [constructor; [now exists c|constructor]| |].
           ++ left. split; auto. eapply scanned_open; eauto.
           ++ right. split; auto. eapply stuck_open; eauto.
        -- apply pars_none in Ep. destruct (IH []) as [[H1 H2]|[H1 H2]]; auto.
           ++ left. split; auto. now apply scanned_cons.
           ++ right. split; auto. now apply stuck_cons.
    + inversion Hst; subst. destruct (Z.eqb_spec c e) as [->|Hce].
      * destruct (IH stk) as [[H3 H4]|[H3 H4]]; auto.
        -- left. split; auto. apply (scanned_up e stk []); auto. constructor.
        -- right. split; auto. apply (stuck_up e stk []); auto. constructor.
      * destruct (pars c) as [e'|] eqn:Ep.
        -- apply pars_iff in Ep.
           destruct (IH (e' :: e :: stk)) as [[H3 H4]|[H3 H4]];
             [constructor; [now exists c|auto]| |].
           ++ left. split; auto. eapply scanned_open; eauto.
           ++ right. split; auto. eapply stuck_open; eauto.
        -- apply pars_none in Ep. destruct (IH (e :: stk)) as [[H3 H4]|[H3 H4]]; auto.
           ++ left. split; auto. apply scanned_cons; auto.
           ++ right. split; auto. apply stuck_cons; auto.
Qed.

(** ** the head of a token *)
Lemma forallb_Forall {A} (f : A -> bool) (P : A -> Prop) l :
  (forall x, f x = true <-> P x) -> (forallb f l = true <-> Forall P l).
Proof.
  intros H. rewrite forallb_forall, Forall_forall. split; intros Hl x Hx; apply H; auto.
Qed.
Lemma token_head_lead u : lead (token_head u).
Proof.
  rewrite token_head_eq.
  destruct (match drop_while is_space u with c :: _ => c =? 61 | [] => false end).
  - right. eexists _, _. split; [|split; [|chr_red; reflexivity]];
      (apply (forallb_Forall is_space); [apply is_space_iff|apply take_while_all]).
  - left. apply (forallb_Forall (fun c => is_space c || (c =? 44))); [|apply take_while_all].
    intros x. rewrite <- is_space_iff. chr_red. destruct (is_space x); cbn; lia.
Qed.

Lemma get_token_sound u h b r : get_token u = (h, b, r) ->
  lead h /\ ((token b /\ ends r) \/ (unfinished_token b /\ r = [])).
Proof.
  unfold get_token. intros [= <- <- <-]. split; [apply token_head_lead|].
  rewrite <- skipn_skipn.
  destruct (token_body_sound (skipn (length (token_head u)) u) []) as [[H1 H2]|[H1 H2]]; auto.
  - left. split; auto. now inversion H1.
  - right. split; auto. now inversion H1.
Qed.

Lemma ends_body r : ends r -> token_body [] r = [].
Proof.
  destruct r as [|c r]; [auto|]. cbn. unfold eq_char. chr_red. rewrite <- is_delimiter_iff.
  intros [->| ->]; cbn; auto.
Qed.
Lemma token_first b : token b -> b <> [] -> exists c b', b = c :: b' /\ c <> 44 /\ c <> 61.
Proof.
  unfold token. intros H Hn.
  inversion H as [|P c s HP Ho Hs|P o e g s Hb Hg Hs]; subst; [congruence| |].
  - exists c, s. unfold token_char, sep_char, eq_char in HP. chr_red. repeat split; lia.
  - eexists o, _. split; [reflexivity|]. destruct Hb; chr_red; lia.
Qed.
(** the head of [h ++ x], when [x] cannot extend [h] *)
Lemma token_head_app h x : lead h ->
  match x with [] => True | c :: _ => is_space c = false /\ c <> 44 /\ c <> 61 end ->
  token_head (h ++ x) = h.
Proof.
  intros Hl Hx. rewrite token_head_eq.
  assert (forall y, match y with [] => True | c :: _ => is_space c = false end ->
          forall a, Forall blank a -> take_while is_space (a ++ y) = a
                    /\ drop_while is_space (a ++ y) = y) as Htw.
  { intros y Hy a Ha. apply (forallb_Forall is_space) in Ha; [|apply is_space_iff].
    split; [apply take_while_app|apply drop_while_app]; auto. }
  destruct Hl as [Hl|[a [b [Ha [Hb ->]]]]].
  - (* blanks and commas *)
    assert (forall l, Forall (fun c => blank c \/ c = chr ",") l ->
      match drop_while is_space (l ++ x) with c :: _ => c =? 61 | [] => false end = false) as Hno.
    { induction l as [|c l IH]; intros HF; cbn.
      - destruct x as [|c x]; [auto|]. cbn. destruct Hx as [-> [_ H3]]. lia.
      - inversion HF as [|? ? Hc HF']; subst. destruct (is_space c) eqn:E; [auto|].
        destruct Hc as [Hc|Hc]; [apply is_space_iff in Hc; congruence|]. subst c. chr_red. lia. }
    rewrite Hno by auto. apply take_while_app.
    + apply (forallb_Forall _ (fun c => blank c \/ c = chr ",")); [|auto].
      intros c. rewrite <- is_space_iff. chr_red. destruct (is_space c); cbn; lia.
    + destruct x as [|c x]; [auto|]. destruct Hx as [-> [H2 _]]. cbn. lia.
  - chr_red. rewrite <- app_assoc. cbn [app].
    destruct (Htw (61 :: b ++ x) eq_refl a Ha) as [-> ->]. cbn [tl]. rewrite Z.eqb_refl.
    destruct (Htw x) with (a := b) as [-> _]; auto.
    destruct x as [|c x]; tauto.
Qed.
Lemma get_token_complete h b r :
  lead h -> token b -> solid b -> ends r -> get_token (h ++ b ++ r) = (h, b, r).
Proof.
  intros Hh Hb Hs Hr. unfold get_token.
  assert (token_head (h ++ b ++ r) = h) as E.
  { apply token_head_app; auto. destruct b as [|c b]; [destruct Hs|]. cbn in *.
    split; [now apply is_space_false|].
    destruct (token_first _ Hb) as [c' [b' [[= <- <-] [H1 H2]]]]; [discriminate|]. auto. }
  rewrite E, skipn_len_app.
  rewrite (token_body_closed _ _ Hb []) by auto. rewrite ends_body, app_nil_r by auto.
  f_equal. rewrite app_assoc, <- app_length. apply skipn_len_app.
Qed.
Lemma token_body_open P g : unclosed P g ->
  forall stk, P = lvl stk -> Forall closer stk -> token_body stk g = g.
Proof.
  induction 1 as [P p o e g Hp Hb Hg|P p o e g Hp Hb Hg IH]; intros stk -> Hst;
    (rewrite (token_body_closed _ _ Hp) by auto; f_equal;
     assert (pars o = Some e) as Ep by (now apply pars_iff); cbn [token_body]; rewrite Ep;
     assert (closer e) as He by (now exists o)).
  - assert (forall k, Forall closer k -> token_body (e :: k) g = g) as K.
    { intros k Hk. rewrite <- (app_nil_r g) at 1. rewrite (token_body_closed _ _ Hg) by auto.
      cbn. apply app_nil_r. }
    destruct stk as [|e' stk].
    + replace (is_delimiter o || (o =? 61)) with false by (destruct Hb; reflexivity).
      now rewrite K.
    + destruct (Z.eqb_spec o e') as [->|]; [|now rewrite K].
      inversion Hst; subst. exfalso. eapply opener_not_closer; eauto.
  - assert (forall k, Forall closer k -> token_body (e :: k) g = g) as K.
    { intros k Hk. apply IH; auto. }
    destruct stk as [|e' stk].
    + replace (is_delimiter o || (o =? 61)) with false by (destruct Hb; reflexivity).
      now rewrite K.
    + destruct (Z.eqb_spec o e') as [->|]; [|now rewrite K].
      inversion Hst; subst. exfalso. eapply opener_not_closer; eauto.
Qed.
Lemma unfinished_first b : unfinished_token b -> exists c b', b = c :: b' /\ c <> 44 /\ c <> 61.
Proof.
  unfold unfinished_token. intros H.
  assert (exists p o e g, b = p ++ o :: g /\ closed token_char p /\ bracket o e) as (p & o & e & g & -> & Hp & Hb).
  { inversion H as [P p o e g Hp Hb Hg|P p o e g Hp Hb Hg]; subst; exists p, o, e, g; auto. }
  destruct p as [|c p].
  - exists o, g. split; [reflexivity|]. destruct Hb; chr_red; lia.
  - destruct (token_first (c :: p)) as [c' [b' [[= <- <-] H1]]]; auto; [discriminate|].
    exists c, (p ++ o :: g). auto.
Qed.
Lemma get_token_unfinished h b :
  lead h -> unfinished_token b -> solid b -> get_token (h ++ b) = (h, b, []).
Proof.
  intros Hh Hb Hs. unfold get_token.
  assert (token_head (h ++ b) = h) as E.
  { apply token_head_app; auto. destruct b as [|c b]; [destruct Hs|]. cbn in *.
    split; [now apply is_space_false|].
    destruct (unfinished_first _ Hb) as [c' [b' [[= <- <-] [H1 H2]]]]; auto. }
  rewrite E, skipn_len_app, (token_body_open _ _ Hb []) by auto.
  f_equal. rewrite <- app_length. apply skipn_all.
Qed.
(** an empty token: what follows the lead is the end or (after no "=") an "=" *)
Lemma get_token_lead h : lead h -> get_token h = (h, [], []).
Proof.
  intros Hh. unfold get_token.
  assert (token_head h = h) as ->.
  { rewrite <- (app_nil_r h) at 1. now apply token_head_app. }
  rewrite skipn_all. cbn. rewrite Nat.add_0_r, skipn_all. reflexivity.
Qed.

Lemma token_exclusive : forall b, token b -> unfinished_token b -> False.
Proof.
  intros b H1 H2.
  assert (token_body [] (b ++ [44]) = b) as A.
  { rewrite (token_body_closed _ _ H1) by auto. cbn. apply app_nil_r. }
  assert (forall P g, unclosed P g -> forall stk, P = lvl stk -> Forall closer stk ->
            exists e stk', Forall closer (e :: stk') /\
            forall x, token_body stk (g ++ x) = g ++ token_body (e :: stk') x) as K.
  { clear. induction 1 as [P p o e g Hp Hb Hg|P p o e g Hp Hb Hg IH]; intros stk -> Hst.
    - exists e, stk. split; [constructor; auto; now exists o|]. intros x.
      rewrite <- app_assoc. rewrite (token_body_closed _ _ Hp) by auto. cbn [app].
      assert (closer e) by (now exists o).
      assert (pars o = Some e) as Ep by (now apply pars_iff). cbn [token_body]. rewrite Ep.
      destruct stk as [|e' stk].
      + replace (is_delimiter o || (o =? 61)) with false by (destruct Hb; reflexivity).
        rewrite (token_body_closed _ _ Hg) by auto. now rewrite <- app_assoc.
      + destruct (Z.eqb_spec o e') as [->|].
        * inversion Hst; subst. exfalso. eapply opener_not_closer; eauto.
        * rewrite (token_body_closed _ _ Hg) by auto. now rewrite <- app_assoc.
    - assert (closer e) by (now exists o).
      destruct (IH (e :: stk)) as (e1 & stk1 & H1 & H2); auto.
      exists e1, stk1. split; auto. intros x.
      rewrite <- app_assoc. rewrite (token_body_closed _ _ Hp) by auto. cbn [app].
      assert (pars o = Some e) as Ep by (now apply pars_iff). cbn [token_body]. rewrite Ep.
      destruct stk as [|e' stk].
      + replace (is_delimiter o || (o =? 61)) with false by (destruct Hb; reflexivity).
        rewrite H2. now rewrite <- app_assoc.
      + destruct (Z.eqb_spec o e') as [->|].
        * inversion Hst; subst. exfalso. eapply opener_not_closer; eauto.
        * rewrite H2. now rewrite <- app_assoc. }
  destruct (K _ _ H2 [] eq_refl (Forall_nil _)) as (e & stk & He & Hx).
  rewrite Hx in A. inversion He as [|? ? Hc _]; subst.
  assert (token_body (e :: stk) [44] = [44]) as B by (destruct Hc as [o []]; reflexivity).
  rewrite B in A. apply (f_equal (@length Z)) in A. rewrite app_length in A. cbn in A. lia.
Qed.

(** ** scan_paren and parse_func (C04) *)
Lemma scan_stk_rest s : forall e stk p q r,
  scan_stk e stk s = (p, q, r) -> (length r <= length s)%nat.
Proof.
  induction s as [|c s IH]; intros e stk p q r; cbn; [intros [= <- <- <-]; auto|].
  destruct (c =? e).
  - destruct stk as [|e' stk]; [intros [= <- <- <-]; auto|].
    destruct (scan_stk e' stk s) as [[p1 q1] r1] eqn:E. intros [= <- <- <-].
    apply IH in E. lia.
  - destruct (pars c) as [e2|].
    + destruct (scan_stk e2 (e :: stk) s) as [[p1 q1] r1] eqn:E. intros [= <- <- <-].
      apply IH in E. lia.
    + destruct (scan_stk e stk s) as [[p1 q1] r1] eqn:E. intros [= <- <- <-].
      apply IH in E. lia.
Qed.
Lemma scan_stk_nest n : forall s e e' stk, (length s <= n)%nat ->
  scan_stk e (e' :: stk) s =
  let '(p, q, r) := scan_stk e [] s in
  let '(p', q', r') := scan_stk e' stk r in (p ++ q ++ p', q', r').
Proof.
  induction n as [|n IH]; intros [|c s] e e' stk Hn; cbn in Hn; try lia; cbn; auto.
  destruct (c =? e); cbn; [destruct (scan_stk e' stk s) as [[p q] r]; auto|].
  destruct (pars c) as [e2|].
  - rewrite (IH s e2 e (e' :: stk)), (IH s e2 e []) by lia.
    destruct (scan_stk e2 [] s) as [[p q] r] eqn:E.
    apply scan_stk_rest in E. rewrite (IH r e e' stk) by lia.
    destruct (scan_stk e [] r) as [[p1 q1] r1].
    destruct (scan_stk e' stk r1) as [[p2 q2] r2]. cbn. now rewrite <- !app_assoc.
  - rewrite (IH s e e' stk) by lia. destruct (scan_stk e [] s) as [[p q] r].
    destruct (scan_stk e' stk r) as [[p1 q1] r1]. reflexivity.
Qed.
(** the nested-call equation of the source, util.py:29-43 *)
Lemma scan_unfold e c s :
  scan_paren e (c :: s) =
  if c =? e then ([], [c], s)
  else match pars c with
       | Some e2 => let '(p, q, r) := scan_paren e2 s in
                    let '(p', q', r') := scan_paren e r in (c :: p ++ q ++ p', q', r')
       | None => let '(p, q, r) := scan_paren e s in (c :: p, q, r)
       end.
Proof.
  unfold scan_paren. cbn. destruct (c =? e); [auto|]. destruct (pars c) as [e2|]; [|auto].
  rewrite (scan_stk_nest (length s)) by lia.
  destruct (scan_stk e2 [] s) as [[p q] r]. destruct (scan_stk e [] r) as [[p1 q1] r1]. reflexivity.
Qed.
Lemma scan_paren_sound n : forall s e p q r, (length s <= n)%nat -> scan_paren e s = (p, q, r) ->
  (q = [e] /\ s = p ++ e :: r /\ closed (fun c => c <> e) p)
  \/ (q = [] /\ r = [] /\ s = p /\ (closed (fun c => c <> e) p \/ unclosed (fun c => c <> e) p)).
Proof.
  induction n as [|n IH]; intros [|c s] e p q r Hn; cbn [length] in Hn; try lia;
    try (cbn; intros [= <- <- <-]; right; repeat split; left; constructor).
  rewrite scan_unfold. destruct (Z.eqb_spec c e) as [->|Hce].
  - intros [= <- <- <-]. left. repeat split. constructor.
  - destruct (pars c) as [e2|] eqn:Ep.
    + apply pars_iff in Ep. destruct (scan_paren e2 s) as [[p1 q1] r1] eqn:E1.
      destruct (scan_paren e r1) as [[p2 q2] r2] eqn:E2. intros [= <- <- <-].
      pose proof (scan_stk_rest _ _ _ _ _ _ E1) as Hr.
      apply IH in E1; [|lia]. apply IH in E2; [|lia].
      destruct E1 as [[-> [-> H1]]|[-> [-> [-> H1]]]].
      * destruct E2 as [[-> [-> H2]]|[-> [-> [-> H2]]]].
        -- left. repeat split; [cbn; now rewrite <- app_assoc|]. cbn. now constructor.
        -- right. repeat split. cbn. destruct H2 as [H2|H2]; [left; now constructor|right].
           now apply unclosed_grp.
      * destruct E2 as [[-> [H0 H2]]|[-> [-> [<- H2]]]]; [destruct p2; discriminate|].
        right. repeat split; [now rewrite app_nil_r|]. rewrite app_nil_r. right.
        destruct H1 as [H1|H1]; [apply (unclosed_here _ [] c e2)|apply (unclosed_in _ [] c e2)];
          auto; constructor.
    + apply pars_none in Ep. destruct (scan_paren e s) as [[p1 q1] r1] eqn:E1.
      intros [= <- <- <-]. apply IH in E1; [|lia].
      destruct E1 as [[-> [-> H1]]|[-> [-> [-> H1]]]].
      * left. repeat split. now constructor.
      * right. repeat split. destruct H1; [left; now constructor|right; now apply unclosed_cons].
Qed.
Lemma scan_paren_app P p : closed P p -> forall e s, closer e -> P = (fun c => c <> e) ->
  scan_paren e (p ++ s) = let '(p', q', r') := scan_paren e s in (p ++ p', q', r').
Proof.
  induction 1 as [P|P c p Hc Ho Hp IH|P o e' g p Hb Hg IHg Hp IHp]; intros e s He ->.
  - cbn [app]. now destruct (scan_paren e s) as [[p' q'] r'].
  - cbn [app]. rewrite scan_unfold. destruct (Z.eqb_spec c e); [congruence|].
    apply pars_none in Ho. rewrite Ho, IH; auto. now destruct (scan_paren e s) as [[p' q'] r'].
  - cbn [app]. rewrite scan_unfold. destruct (Z.eqb_spec o e) as [->|].
    { exfalso. eapply opener_not_closer; eauto. }
    assert (pars o = Some e') as -> by now apply pars_iff.
    rewrite <- app_assoc. cbn [app]. rewrite (IHg e'); [|now exists o|auto].
    rewrite scan_unfold, Z.eqb_refl, IHp by auto. destruct (scan_paren e s) as [[p' q'] r'].
    rewrite app_nil_r. cbn. now rewrite <- app_assoc.
Qed.
Lemma scan_paren_closed e p r : closer e -> closed (fun c => c <> e) p ->
  scan_paren e (p ++ e :: r) = (p, [e], r).
Proof.
  intros He Hp. rewrite (scan_paren_app _ _ Hp) by auto.
  rewrite scan_unfold, Z.eqb_refl, app_nil_r. reflexivity.
Qed.
Lemma scan_paren_open P p : unclosed P p -> forall e, closer e -> P = (fun c => c <> e) ->
  scan_paren e p = (p, [], []).
Proof.
  induction 1 as [P p o e' g Hp Hb Hg|P p o e' g Hp Hb Hg IH]; intros e He ->;
    (rewrite (scan_paren_app _ _ Hp) by auto; rewrite scan_unfold;
     destruct (Z.eqb_spec o e) as [->|]; [exfalso; eapply opener_not_closer; eauto|];
     assert (pars o = Some e') as -> by now apply pars_iff).
  - rewrite <- (app_nil_r g), (scan_paren_app _ _ Hg); [|now exists o|auto].
    cbn. now rewrite !app_nil_r.
  - rewrite (IH e'); [|now exists o|auto]. cbn. now rewrite !app_nil_r.
Qed.
Lemma scan_paren_unclosed e p : closer e ->
  closed (fun c => c <> e) p \/ unclosed (fun c => c <> e) p -> scan_paren e p = (p, [], []).
Proof.
  intros He [H|H]; [|now eapply scan_paren_open; eauto].
  rewrite <- (app_nil_r p) at 1. rewrite (scan_paren_app _ _ H) by auto. cbn. now rewrite app_nil_r.
Qed.
Lemma parse_func_go_app tot s : forall name u, (forall c, In c u -> ~ opener c) ->
  parse_func_go tot name (u ++ s) = parse_func_go tot (name ++ u) s.
Proof.
  intros name u; revert name; induction u as [|c u IH]; intros name H; cbn.
  - now rewrite app_nil_r.
  - assert (pars c = None) as -> by (apply pars_none, H; now left).
    rewrite IH by (intros; apply H; now right). now rewrite <- app_assoc.
Qed.
Lemma parse_func_plain s : (forall c, In c s -> ~ opener c) -> parse_func s = Ok (s, None).
Proof.
  intros H. unfold parse_func. rewrite <- (app_nil_r s) at 2. now rewrite parse_func_go_app.
Qed.
Lemma parse_func_group name o e p :
  (forall c, In c name -> ~ opener c) -> bracket o e -> closed (fun c => c <> e) p ->
  parse_func (name ++ o :: p ++ [e]) = Ok (name, Some p).
Proof.
  intros Hn Hb Hp. unfold parse_func. rewrite parse_func_go_app by auto. cbn [app parse_func_go].
  assert (pars o = Some e) as -> by now apply pars_iff.
  rewrite scan_paren_closed; [|now exists o|auto].
  rewrite !app_length. cbn [length]. rewrite app_length. cbn [length].
  replace (Nat.eqb _ _) with true by (symmetry; apply Nat.eqb_eq; lia). reflexivity.
Qed.
Lemma parse_func_open name o e p :
  (forall c, In c name -> ~ opener c) -> bracket o e ->
  closed (fun c => c <> e) p \/ unclosed (fun c => c <> e) p ->
  parse_func (name ++ o :: p) = Ok (name, Some p).
Proof.
  intros Hn Hb Hp. unfold parse_func. rewrite parse_func_go_app by auto. cbn [app parse_func_go].
  assert (pars o = Some e) as -> by now apply pars_iff.
  rewrite scan_paren_unclosed; [|now exists o|auto].
  rewrite !app_length. cbn [length].
  replace (Nat.eqb _ _) with true by (symmetry; apply Nat.eqb_eq; lia). reflexivity.
Qed.
Lemma parse_func_trailing name o e p x r :
  (forall c, In c name -> ~ opener c) -> bracket o e -> closed (fun c => c <> e) p ->
  parse_func (name ++ o :: p ++ e :: x :: r) = Raise AssertionError.
Proof.
  intros Hn Hb Hp. unfold parse_func. rewrite parse_func_go_app by auto. cbn [app parse_func_go].
  assert (pars o = Some e) as -> by now apply pars_iff.
  rewrite scan_paren_closed; [|now exists o|auto].
  rewrite !app_length. cbn [length]. rewrite app_length. cbn [length].
  replace (Nat.eqb _ _) with false by (symmetry; apply Nat.eqb_neq; lia). reflexivity.
Qed.
(** every text has one of the four shapes *)
Lemma first_opener s : (forall c, In c s -> ~ opener c) \/
  exists name o e s', s = name ++ o :: s' /\ (forall c, In c name -> ~ opener c) /\ bracket o e.
Proof.
  induction s as [|c s IH]; [left; intros c []|].
  destruct (pars c) as [e|] eqn:Ep.
  - right. exists [], c, e, s. repeat split; [intros ? []|now apply pars_iff].
  - apply pars_none in Ep. destruct IH as [H|[name [o [e [s' [-> [H Hb]]]]]]].
    + left. intros x [<-|Hx]; auto.
    + right. exists (c :: name), o, e, s'. repeat split; auto. intros x [<-|Hx]; auto.
Qed.
Lemma parse_func_cases s :
  (forall c, In c s -> ~ opener c) \/
  exists name o e p, (forall c, In c name -> ~ opener c) /\ bracket o e /\
    ((closed (fun c => c <> e) p /\ s = name ++ o :: p ++ [e])
     \/ ((closed (fun c => c <> e) p \/ unclosed (fun c => c <> e) p) /\ s = name ++ o :: p)
     \/ (closed (fun c => c <> e) p /\ exists x r, s = name ++ o :: p ++ e :: x :: r)).
Proof.
  destruct (first_opener s) as [H|[name [o [e [s' [-> [H Hb]]]]]]]; [auto|]. right.
  destruct (scan_paren e s') as [[p q] r] eqn:E. exists name, o, e, p. repeat split; auto.
  apply (scan_paren_sound (length s')) in E; [|auto].
  destruct E as [[-> [-> Hc]]|[-> [-> [-> Hc]]]].
  - destruct r as [|x r]; [left; auto|]. right; right. split; auto. now exists x, r.
  - right; left. auto.
Qed.

(** ** integer literals (C06) *)
Ltac digs := unfold digit_in, digit, is_hex, is_dec, is_oct, is_hexl, is_hexu; chr_red.
Lemma is_hex_iff c : is_hex c = true <-> digit_in 16 c.
Proof.
  digs. split.
  - intros H. destruct ((48 <=? c) && (c <=? 57)) eqn:E1; [eexists; split; [reflexivity|]; lia|].
    destruct ((97 <=? c) && (c <=? 102)) eqn:E2; [eexists; split; [reflexivity|]; lia|].
    destruct ((65 <=? c) && (c <=? 70)) eqn:E3; [eexists; split; [reflexivity|]; lia|]. discriminate.
  - intros [d [H1 H2]]. destruct ((48 <=? c) && (c <=? 57)) eqn:E1; [auto|].
    destruct ((97 <=? c) && (c <=? 102)) eqn:E2; [auto|].
    destruct ((65 <=? c) && (c <=? 70)) eqn:E3; [auto|]. discriminate.
Qed.
Lemma is_dec_iff c : is_dec c = true <-> digit_in 10 c.
Proof.
  digs. split.
  - intros H. rewrite H. eexists; split; [reflexivity|]; lia.
  - intros [d [H1 H2]]. destruct ((48 <=? c) && (c <=? 57)) eqn:E1; [auto|].
    destruct ((97 <=? c) && (c <=? 102)) eqn:E2; [injection H1 as <-; lia|].
    destruct ((65 <=? c) && (c <=? 70)) eqn:E3; [injection H1 as <-; lia|]. discriminate.
Qed.
Lemma is_oct_iff c : is_oct c = true <-> digit_in 8 c.
Proof.
  digs. split.
  - intros H. replace ((48 <=? c) && (c <=? 57)) with true by lia.
    eexists; split; [reflexivity|]; lia.
  - intros [d [H1 H2]]. destruct ((48 <=? c) && (c <=? 57)) eqn:E1; [injection H1 as <-; lia|].
    destruct ((97 <=? c) && (c <=? 102)) eqn:E2; [injection H1 as <-; lia|].
    destruct ((65 <=? c) && (c <=? 70)) eqn:E3; [injection H1 as <-; lia|]. discriminate.
Qed.
Lemma digit_in_mono a b c : a <= b -> digit_in a c -> digit_in b c.
Proof. intros H [d [H1 H2]]. exists d. split; auto. lia. Qed.
Lemma digit_val_digit c d : digit c = Some d -> digit_val c = d.
Proof.
  unfold digit, digit_val, is_dec, is_hexl. chr_red.
  destruct ((48 <=? c) && (c <=? 57)); [congruence|].
  destruct ((97 <=? c) && (c <=? 102)); [intros [= <-]; lia|].
  destruct ((65 <=? c) && (c <=? 70)); [intros [= <-]; lia|]. discriminate.
Qed.
Lemma digits_val_app b s t :
  fold_left (fun v c => v * b + digit_val c) t s =
  s * b ^ Z.of_nat (length t) + digits_val b t.
Proof.
  unfold digits_val. revert s. induction t as [|c t IH]; intros s; cbn [fold_left length].
  - cbn. lia.
  - rewrite IH, (IH (0 * b + digit_val c)).
    rewrite Nat2Z.inj_succ, Z.pow_succ_r by lia. ring.
Qed.
Lemma digits_val_value b s : Forall (digit_in 16) s -> digits_val b s = value b s.
Proof.
  induction 1 as [|c s [d [Hd _]] Hs IH]; [reflexivity|].
  unfold digits_val. cbn [fold_left value]. rewrite digits_val_app, IH.
  rewrite (digit_val_digit _ _ Hd), Hd. ring.
Qed.
Lemma numeral_hex b s : b <= 16 -> numeral b s -> Forall (digit_in 16) s.
Proof. intros Hb [_ H]. eapply Forall_impl; [|exact H]. intros c. now apply digit_in_mono. Qed.
Lemma int_digits_numeral b s : b <= 16 -> numeral b s -> int_digits b s = Ok (value b s).
Proof.
  intros Hb H. unfold int_digits. pose proof (numeral_hex _ _ Hb H).
  destruct s; [destruct H; congruence|]. now rewrite digits_val_value.
Qed.

(** the longest digit prefix *)
Lemma longest_split f s : s = firstn (longest s f) s ++ skipn (longest s f) s
  /\ firstn (longest s f) s = take_while f s /\ skipn (longest s f) s = drop_while f s.
Proof.
  unfold longest. rewrite firstn_take_while, skipn_take_while. now rewrite take_drop.
Qed.
Lemma stops_drop b f s : (forall c, f c = true <-> digit_in b c) -> stops b (drop_while f s).
Proof.
  intros H. pose proof (drop_while_head f s) as Hd. unfold stops.
  destruct (drop_while f s) as [|c r]; [auto|]. rewrite <- H, Hd. discriminate.
Qed.
Lemma digits_take b f s : (forall c, f c = true <-> digit_in b c) -> Forall (digit_in b) (take_while f s).
Proof. intros H. apply (forallb_Forall f); [exact H|]. apply take_while_all. Qed.
Lemma longest_numeral b f ds r : (forall c, f c = true <-> digit_in b c) ->
  Forall (digit_in b) ds -> stops b r -> longest (ds ++ r) f = length ds.
Proof.
  intros H Hd Hr. unfold longest. rewrite take_while_app; auto.
  - now apply (forallb_Forall f _ _ H).
  - destruct r as [|c r]; [auto|]. cbn in Hr. rewrite <- H in Hr. now destruct (f c).
Qed.
(** [int(u[k:l], b)] on the longest digit run *)
Lemma int_longest b f s v : b <= 16 -> (forall c, f c = true <-> digit_in b c) ->
  int_digits b (firstn (longest s f) s) = Ok v ->
  exists ds r, s = ds ++ r /\ numeral b ds /\ stops b r /\ longest s f = length ds /\ v = value b ds.
Proof.
  intros Hb Hf Hv. destruct (longest_split f s) as [E1 [E2 E3]]. rewrite E2 in *. rewrite E3 in E1.
  exists (take_while f s), (drop_while f s).
  assert (numeral b (take_while f s)) as Hn.
  { split; [|now apply digits_take]. intros E. rewrite E in Hv. discriminate. }
  rewrite int_digits_numeral in Hv by auto. injection Hv as <-.
  repeat split; auto; try apply Hn. now apply stops_drop.
Qed.
Lemma slice_skip {A} k n (u : list A) : slice k (k + n) u = firstn n (skipn k u).
Proof. unfold slice. f_equal. lia. Qed.


Lemma parseInt_reads u v l : parseInt u = Ok (v, l) -> reads u v l.
Proof.
  unfold parseInt. destruct (startswith $"-" u) eqn:E1.
  { apply startswith_iff in E1 as [s ->]. cbn [s2t app]. rewrite slice_skip. cbn [skipn].
    intros H. mon H. injection H as <- <-.
    apply (int_longest 10) in Ea as (ds & r & -> & Hn & Hs & -> & ->); [|lia|apply is_dec_iff].
    now apply reads_neg. }
  destruct (startswith $"0x" u || startswith $"0X" u) eqn:E2.
  { assert (exists x s, (x = chr "x" \/ x = chr "X") /\ u = chr "0" :: x :: s) as (x & s & Hx & ->).
    { apply orb_prop in E2 as [E2|E2]; apply startswith_iff in E2 as [s ->];
        eexists _, s; split; try reflexivity; auto. }
    rewrite slice_skip. cbn [skipn]. intros H. mon H. injection H as <- <-.
    apply (int_longest 16) in Ea as (ds & r & -> & Hn & Hs & -> & ->); [|lia|apply is_hex_iff].
    now apply reads_hex. }
  destruct (startswith $"0" u && (2 <? length u)%nat
            && match nth_error u 1 with Some c => is_oct c | None => false end) eqn:E3.
  { apply andb_prop in E3 as [E3 E4]. apply andb_prop in E3 as [E3 _].
    apply startswith_iff in E3 as [s ->]. cbn [s2t app]. rewrite slice_skip. cbn [skipn].
    intros H. mon H. injection H as <- <-.
    apply (int_longest 8) in Ea as (ds & r & -> & Hn & Hs & -> & ->); [|lia|apply is_oct_iff].
    now apply reads_oct. }
  intros H. mon H. injection H as <- <-.
  apply (int_longest 10) in Ea as (ds & r & -> & Hn & Hs & -> & ->); [|lia|apply is_dec_iff].
  destruct (Nat.le_gt_cases (length (ds ++ r)) 2) as [Hl|Hl].
  - (* at most two characters: "0d" is both octal and decimal *)
    destruct ds as [|d [|d' [|]]]; [destruct Hn; congruence| |
      |rewrite app_length in Hl; cbn in Hl; lia].
    + apply reads_dec; auto; [discriminate|]. intros x r' [= ->] ->. chr_red. cbn in E2.
      change (chr "x") with 120. change (chr "X") with 88. lia.
    + destruct r; [|rewrite app_length in Hl; cbn in Hl; lia].
      destruct (Z.eq_dec d 48) as [->|Hd].
      * destruct (is_oct d') eqn:Eo.
        -- assert (numeral 8 [d']) as Hn8.
           { split; [discriminate|]. constructor; [now apply is_oct_iff|constructor]. }
           change (value 10 [48; d']) with (0 * 10 + value 8 [d']).
           apply (reads_oct [d'] []); auto.
        -- apply reads_dec; auto; [|discriminate].
           intros a b [= <- <-] Ha. apply is_oct_iff in Ha. congruence.
      * apply reads_dec; auto; [|discriminate]. intros a b E _. injection E as E _ _. now destruct Hd.
  - apply reads_dec; auto.
    + intros d ds' -> Hd. apply is_oct_iff in Hd.
      change (startswith $"0" ((chr "0" :: d :: ds') ++ r)) with true in E3.
      change (nth_error ((chr "0" :: d :: ds') ++ r) 1) with (Some d) in E3.
      cbn match in E3. rewrite Hd, andb_true_r in E3. cbn [andb] in E3.
      apply Nat.ltb_ge in E3. lia.
    + intros x r' -> ->. cbn in E2. change (chr "x") with 120. change (chr "X") with 88. lia.
Qed.
Lemma parseInt_err u : (exists v l, parseInt u = Ok (v, l)) \/ parseInt u = Raise ValueError.
Proof.
  unfold parseInt.
  assert (forall b s, (exists v, int_digits b s = Ok v) \/ int_digits b s = Raise ValueError) as K.
  { intros b [|c s]; cbn; eauto. }
  destruct (startswith $"-" u); [|destruct (startswith $"0x" u || startswith $"0X" u);
    [|destruct (startswith $"0" u && (2 <? length u)%nat
            && match nth_error u 1 with Some c => is_oct c | None => false end)]];
  match goal with |- context [int_digits ?b ?s] => destruct (K b s) as [[v ->]| ->] end;
  cbn; eauto.
Qed.
Lemma reads_parseInt u v l : reads u v l -> parseInt u = Ok (v, l).
Proof.
  assert (forall b ds, numeral b ds -> b <= 16 -> forall r, firstn (length ds) (ds ++ r) = ds
            /\ int_digits b ds = Ok (value b ds)) as K.
  { intros b ds H Hb r. split; [apply firstn_len_app|now apply int_digits_numeral]. }
  assert (forall ds r, numeral 10 ds -> stops 10 r ->
          firstn (longest (ds ++ r) is_dec) (ds ++ r) = ds /\ longest (ds ++ r) is_dec = length ds) as K10.
  { intros ds r H Hr. rewrite (longest_numeral 10) by (auto using is_dec_iff; apply H).
    split; [apply firstn_len_app|auto]. }
  destruct 1 as [ds r Hn Hs|x ds r Hx Hn Hs|ds r Hn Hs|ds r Hn Hs Hoct Hhex].
  - unfold parseInt. change (startswith $"-" (chr "-" :: ds ++ r)) with true. cbn beta match.
    rewrite slice_skip. cbn [skipn]. destruct (K10 ds r) as [-> ->]; auto.
    rewrite int_digits_numeral by (auto; lia). reflexivity.
  - unfold parseInt.
    replace (startswith $"-" (chr "0" :: x :: ds ++ r)) with false by reflexivity.
    replace (startswith $"0x" (chr "0" :: x :: ds ++ r) || startswith $"0X" (chr "0" :: x :: ds ++ r))
      with true by (destruct Hx; subst x; reflexivity). cbn match.
    rewrite slice_skip. cbn [skipn].
    rewrite (longest_numeral 16) by (auto using is_hex_iff; apply Hn).
    destruct (K 16 ds Hn ltac:(lia) r) as [-> ->]. reflexivity.
  - unfold parseInt.
    replace (startswith $"-" (chr "0" :: ds ++ r)) with false by reflexivity.
    destruct ds as [|d ds]; [destruct Hn; congruence|].
    assert (is_oct d = true) as Hd.
    { apply is_oct_iff. destruct Hn as [_ Hn]. now inversion Hn. }
    replace (startswith $"0x" (chr "0" :: (d :: ds) ++ r) || startswith $"0X" (chr "0" :: (d :: ds) ++ r))
      with false.
    2:{ symmetry. unfold is_oct in Hd. cbn. chr_red. lia. }
    replace (startswith $"0" (chr "0" :: (d :: ds) ++ r)) with true by reflexivity.
    change (nth_error (chr "0" :: (d :: ds) ++ r) 1) with (Some d). cbn match. rewrite Hd.
    rewrite andb_true_r. cbn [andb]. destruct (2 <? length (chr "0" :: (d :: ds) ++ r))%nat eqn:El.
    + rewrite slice_skip. cbn [skipn].
      rewrite (longest_numeral 8) by (auto using is_oct_iff; apply Hn).
      destruct (K 8 (d :: ds) Hn ltac:(lia) r) as [-> ->]. reflexivity.
    + apply Nat.ltb_ge in El. cbn [app length] in El. rewrite app_length in El.
      destruct ds; [|cbn in El; lia]. destruct r; [|cbn in El; lia].
      assert (numeral 10 [48; d]) as Hn10.
      { split; [discriminate|]. constructor; [now apply is_dec_iff|]. constructor; [|constructor].
        apply (digit_in_mono 8); [lia|]. now apply is_oct_iff. }
      change (chr "0" :: [d] ++ []) with ([48; d] ++ []).
      destruct (K10 [48; d] [] Hn10 I) as [-> ->].
      rewrite int_digits_numeral by (auto; lia). reflexivity.
  - unfold parseInt. destruct ds as [|d ds]; [destruct Hn; congruence|].
    assert (is_dec d = true) as Hd.
    { apply is_dec_iff. destruct Hn as [_ Hn']. now inversion Hn'. }
    replace (startswith $"-" ((d :: ds) ++ r)) with false by (unfold is_dec in Hd; cbn; lia).
    replace (startswith $"0x" ((d :: ds) ++ r) || startswith $"0X" ((d :: ds) ++ r)) with false.
    2:{ symmetry. destruct ds as [|d' ds].
        - destruct r as [|x r]; cbn; [lia|]. destruct (Z.eq_dec d 48) as [->|]; cbn; [|lia].
          destruct (Hhex x r eq_refl eq_refl) as [H1 H2]. chr_red. lia.
        - assert (is_dec d' = true) as Hd'.
          { apply is_dec_iff. destruct Hn as [_ Hn']. inversion Hn'; subst. now inversion H2. }
          unfold is_dec in Hd'. cbn. lia. }
    replace (startswith $"0" ((d :: ds) ++ r) && (2 <? length ((d :: ds) ++ r))%nat
             && match nth_error ((d :: ds) ++ r) 1 with Some c => is_oct c | None => false end) with false.
    2:{ symmetry. destruct (Z.eqb_spec d 48) as [->|]; [|cbn; destruct (Z.eqb_spec 48 d); [congruence|auto]].
        destruct ds as [|d' ds].
        - destruct r as [|x r]; [reflexivity|].
          destruct (is_oct x) eqn:Ex; [exfalso|cbn; rewrite Ex; now rewrite andb_false_r].
           apply Hs. apply (digit_in_mono 8); [lia|]. now apply is_oct_iff.
        - destruct (is_oct d') eqn:Ex; [|cbn; now rewrite Ex, andb_false_r].
          exfalso. eapply (Hoct d' ds); [reflexivity|]. now apply is_oct_iff. }
    destruct (K10 (d :: ds) r) as [-> ->]; auto.
    rewrite int_digits_numeral by (auto; lia). reflexivity.
Qed.
