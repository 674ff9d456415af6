(** Tokens, calls, numbers and field names: the reader's functions are the relations of
    SpecActText. *)
From Verif Require Import Base PyNum Util PyLib OxmCodec OxmTables Oxm Nx Spec SpecOxm SpecText SpecOfp SpecActText.
From Verif Require Import BaseFacts UtilFacts NumFacts PyLibFacts OxmRead OxmPrint OxmFacts OxmFrame OxmMore ActBase ActRead ActFrame ActDenote GramLib OxmGram OxmExact.
From Coq Require Import Strings.Ascii.

(** ** Tokens *)
Lemma lead_eq h : lead h -> has_char 61 h = true <-> SpecActText.eq_lead h.
Proof.
  intros L. split.
  - intros E. destruct (op_gap h L E) as (a & b & -> & Ha & Hb). now exists a, b.
  - intros (a & b & _ & _ & ->). unfold has_char. rewrite existsb_app. cbn. now rewrite orb_true_r.
Qed.
Lemma eq_lead_lead h : SpecActText.eq_lead h -> lead h.
Proof. intros (a & b & Ha & Hb & ->). right. now exists a, b. Qed.
Lemma blank_spaces l : Forall blank l -> forallb is_space l = true.
Proof. intros Hl. apply forallb_forall. intros k Hk. apply is_space_iff. rewrite Forall_forall in Hl. auto. Qed.
Lemma get_token_vacant h r : lead h -> vacant h r -> get_token (h ++ r) = (h, [], r).
Proof.
  intros L V. assert (token_head (h ++ r) = h /\ ends r) as [Eh He].
  { destruct V as [->|[[Hq (c & r' & -> & Hc)]|(Hf & Hin & r' & ->)]].
    - rewrite app_nil_r. pose proof (get_token_lead h L) as E. unfold get_token in E. injection E as E _. split; [exact E|exact I].
    - destruct Hq as (a & b & Ha & Hb & ->). split.
      + assert (is_space c = false) as Hs by (destruct Hc as [-> | ->]; reflexivity).
        rewrite token_head_eq, <- app_assoc. cbn [app]. change (chr "=") with 61. rewrite (drop_while_app is_space a) by (reflexivity || auto using blank_spaces). cbn [tl Z.eqb Pos.eqb].
        rewrite !take_while_app by (reflexivity || auto using blank_spaces). reflexivity.
      + cbn. unfold sep_char, eq_char. tauto.
    - change (chr "=") with 61. change (chr ",") with 44 in Hin. split; [|right; reflexivity]. rewrite token_head_eq.
      assert (match drop_while is_space (h ++ 61 :: r') with c :: _ => c =? 61 | [] => false end = false) as ->.
      { apply in_split in Hin as (x & y & ->). clear L. revert Hf. induction x as [|k x IH]; intros Hf; cbn.
        - reflexivity.
        - inversion Hf as [|? ? Hk Hr]; subst. destruct (is_space k) eqn:Ek; [apply IH; exact Hr|].
          destruct Hk as [Hk| ->]; [apply is_space_iff in Hk; congruence|]. reflexivity. }
      rewrite take_while_app; [reflexivity| |reflexivity]. apply forallb_forall. intros k Hk. rewrite Forall_forall in Hf. destruct (Hf k Hk) as [Hb| ->]; [apply is_space_iff in Hb; now rewrite Hb|apply orb_true_r]. }
  unfold get_token. rewrite Eh, skipn_len_app, (ends_body r He). cbn [length]. now rewrite Nat.add_0_r, skipn_len_app.
Qed.
Lemma next_get u h p r : next u h p r -> get_token u = (h, p, r).
Proof.
  intros [h' p' r' L [Hs [[Ht He]|[Ht ->]]]|h' r' L V].
  - now apply get_token_complete.
  - rewrite app_nil_r. now apply get_token_unfinished.
  - now apply get_token_vacant.
Qed.
Lemma get_next u h p r : get_token u = (h, p, r) -> next u h p r.
Proof.
  intros E. pose proof (get_token_concat _ _ _ _ E) as <-. destruct (get_token_sound _ _ _ _ E) as [L T].
  destruct p as [|c p]; [|apply next_token; auto; split; auto; eapply name_solid; [eassumption|discriminate]].
  cbn [app] in *. apply next_none; [exact L|]. destruct r as [|c r]; [now left|right].
  destruct T as [[_ T]|[_ T]]; [|discriminate T].
  cbn in T. destruct (has_char 61 h) eqn:Eq.
  - left. split; [now apply lead_eq|]. exists c, r. split; [reflexivity|]. destruct T as [T|T]; [left|now right].
    destruct (body_solid _ _ _ _ E Eq) as [K|K]; [discriminate|]. cbn in K. unfold sep_char in T. unfold blank in K. chr_red. lia.
  - right. pose proof (head_filler h L Eq) as Hf. split; [exact Hf|].
    apply token_split in E as [Eh Es]. destruct (after_head (h ++ c :: r)) as [_ Ha]. rewrite Eh in Ha. specialize (Ha Eq). rewrite Es in Ha. cbn in Ha.
    assert (c = 61) as ->. { destruct T as [T|T]; [|exact T]. destruct Ha. unfold filler, blank. unfold sep_char in T. chr_red. lia. }
    split; [|now exists r]. destruct (in_dec Z.eq_dec 44 h) as [|N]; [assumption|]. exfalso.
    assert (Forall blank h) as Hb. { apply Forall_forall. intros k Hk. rewrite Forall_forall in Hf. destruct (Hf k Hk) as [|K]; [assumption|]. subst k. contradiction. }
    rewrite token_head_eq, (drop_while_app is_space h) in Eh by (auto using blank_spaces). cbn [Z.eqb Pos.eqb] in Eh. rewrite <- Eh in Eq.
    unfold has_char in Eq. rewrite existsb_app in Eq. cbn in Eq. now rewrite orb_true_r in Eq.
Qed.
Lemma next_iff u h p r : get_token u = (h, p, r) <-> next u h p r.
Proof. split; [apply get_next|apply next_get]. Qed.
Lemma next_cat u h p r : next u h p r -> u = h ++ p ++ r.
Proof. now intros []. Qed.
Lemma next_len u h p r : next u h p r -> (length h + length p)%nat = (length u - length r)%nat.
Proof. intros N. apply next_cat in N as ->. rewrite !app_length. lia. Qed.
Lemma next_lead u h p r : next u h p r -> lead h.
Proof. now intros []. Qed.
Lemma next_ends u h p r : next u h p r -> ends r.
Proof.
  intros N. apply next_get, get_token_sound in N as [_ [[_ He]|[_ ->]]]; [exact He|exact I].
Qed.
Lemma next_fun u h p r h' p' r' : next u h p r -> next u h' p' r' -> h = h' /\ p = p' /\ r = r'.
Proof. intros A%next_get B%next_get. rewrite A in B. injection B as -> -> ->. auto. Qed.

(** ** Calls *)
Lemma func_parse p n a : func p n a -> parse_func p = Ok (n, a).
Proof.
  intros [q H|name o e x H Hb Hx|name o e x H Hb Hx]; rewrite Forall_forall in H.
  - now apply parse_func_plain.
  - now apply parse_func_group.
  - now apply (parse_func_open _ _ e).
Qed.
Lemma parse_func_func p n a : parse_func p = Ok (n, a) -> func p n a.
Proof.
  intros E. destruct (parse_func_cases p) as [H|(name & o & e & x & H & Hb & [[Hx ->]|[[Hx ->]|[Hx (c & r & ->)]]])].
  - rewrite (parse_func_plain p H) in E. injection E as <- <-. constructor. now apply Forall_forall.
  - rewrite parse_func_group in E by assumption. injection E as <- <-. constructor; auto. now apply Forall_forall.
  - rewrite (parse_func_open _ _ e) in E by assumption. injection E as <- <-. apply (func_open _ _ e); auto. now apply Forall_forall.
  - rewrite parse_func_trailing in E by assumption. discriminate.
Qed.
Lemma func_iff p n a : parse_func p = Ok (n, a) <-> func p n a.
Proof. split; [apply parse_func_func|apply func_parse]. Qed.
Lemma func_fun p n a n' a' : func p n a -> func p n' a' -> n = n' /\ a = a'.
Proof. intros A%func_parse B%func_parse. rewrite A in B. injection B as -> ->. auto. Qed.
Lemma given_some a x : given a x <-> exists c y, a = Some (c :: y) /\ x = c :: y.
Proof. unfold given. split; [intros [-> H]; destruct x; [now destruct H|eauto]|intros (c & y & -> & ->); split; [reflexivity|discriminate]]. Qed.

(** ** Items *)
Lemma split_level P g : closed P g -> forall stk tok r, P = lvl stk -> stk <> [] -> Forall closer stk -> split_go stk tok (g ++ r) = split_go stk (tok ++ g) r.
Proof.
  intros Hg. induction Hg as [P|P c g Hc Ho Hg IH|P o e g s0 Hb Hg IHg Hs IHs]; intros stk tok r EP Hn Hk.
  - now rewrite app_nil_r.
  - destruct stk as [|x stk]; [congruence|]. cbn [app split_go]. subst P. cbn [lvl] in Hc. apply Z.eqb_neq in Hc. rewrite Hc.
    apply pars_none in Ho. rewrite Ho, (IH (x :: stk)) by auto. now rewrite <- app_assoc.
  - destruct stk as [|x stk]; [congruence|]. cbn [app split_go]. rewrite <- app_assoc. inversion Hk as [|? ? Hx Hkr]; subst.
    pose proof (opener_not_closer _ _ _ Hb Hx) as Hne. apply Z.eqb_neq in Hne. rewrite Hne. apply pars_iff in Hb as Hp. rewrite Hp.
    rewrite (IHg (e :: x :: stk)); [|reflexivity|discriminate|constructor; [now apply bracket_closer in Hb|exact Hk]].
    cbn [app split_go]. rewrite Z.eqb_refl. rewrite (IHs (x :: stk)) by auto. now rewrite <- !app_assoc.
Qed.
Lemma split_go_nil stk tok : split_go stk tok [] = keep tok.
Proof. now destruct tok, stk. Qed.
Lemma split_open P g : unclosed P g -> forall stk tok, P = lvl stk -> stk <> [] -> Forall closer stk -> split_go stk tok g = keep (tok ++ g).
Proof.
  assert (forall p o e g stk tok, closed (lvl stk) p -> bracket o e -> stk <> [] -> Forall closer stk -> split_go stk tok (p ++ o :: g) = split_go (e :: stk) (tok ++ p ++ [o]) g) as A.
  { intros p o e g0 stk tok Hp Hb Hn Hk. rewrite (split_level _ p Hp stk) by auto. destruct stk as [|x stk]; [congruence|]. cbn [split_go].
    inversion Hk as [|? ? Hx Hkr]; subst. pose proof (opener_not_closer _ _ _ Hb Hx) as Hne. apply Z.eqb_neq in Hne. rewrite Hne. apply pars_iff in Hb. rewrite Hb. now rewrite <- app_assoc. }
  intros H. induction H as [P p o e g Hp Hb Hg|P p o e g Hp Hb Hg IH]; intros stk tok -> Hn Hk; rewrite (A p o e) by auto.
  - rewrite <- (app_nil_r g) at 1. rewrite (split_level _ g Hg (e :: stk)); [|reflexivity|discriminate|constructor; [now apply bracket_closer in Hb|exact Hk]].
    rewrite split_go_nil. now rewrite <- !app_assoc.
  - rewrite IH; [|reflexivity|discriminate|constructor; [now apply bracket_closer in Hb|exact Hk]]. now rewrite <- !app_assoc.
Qed.
Lemma split_piece s t : piece s t -> forall tok r, split_go [] tok (s ++ r) = split_go [] (tok ++ t) r.
Proof.
  intros H. induction H as [|c s0 t0 Hs Ho Hp IH|o e g s0 t0 Hb Hg Hp IH]; intros tok r.
  - now rewrite app_nil_r.
  - cbn [app split_go]. apply is_delimiter_false in Hs. rewrite Hs. apply pars_none in Ho. rewrite Ho, IH. now rewrite <- app_assoc.
  - cbn [app split_go]. assert (is_delimiter o = false) as -> by (destruct Hb; reflexivity). apply pars_iff in Hb as Hq. rewrite Hq.
    rewrite <- app_assoc. rewrite (split_level (fun c => c <> e) g Hg [e]); [|reflexivity|discriminate|repeat constructor; now apply bracket_closer in Hb].
    cbn [app split_go]. rewrite Z.eqb_refl, IH. now rewrite <- !app_assoc.
Qed.
Lemma split_of_split s l : split_of s l -> split s = l.
Proof.
  unfold split. intros H. induction H as [s t [s' t' Hp|s' t' o e g Hp Hb Hg]|s t c r l Hp Hc Hs IH].
  - rewrite <- (app_nil_r s'), (split_piece _ _ Hp). apply split_go_nil.
  - rewrite (split_piece _ _ Hp). cbn [app split_go]. assert (is_delimiter o = false) as -> by (destruct Hb; reflexivity). apply pars_iff in Hb as Hq. rewrite Hq.
    assert (closer e) as He by (now apply bracket_closer in Hb).
    destruct Hg as [Hg|Hg]; [rewrite <- (app_nil_r g) at 1; rewrite (split_level _ g Hg [e]) by (reflexivity || discriminate || auto); apply split_go_nil|].
    apply (split_open _ g Hg); auto. discriminate.
  - rewrite (split_piece _ _ Hp). cbn [app split_go]. apply is_delimiter_iff in Hc. rewrite Hc. destruct t; cbn [keep app]; now rewrite IH.
Qed.
Lemma first_piece n : forall s, (length s <= n)%nat -> (exists t, last_piece s t) \/ exists p t c r, s = p ++ c :: r /\ piece p t /\ sep_char c.
Proof.
  induction n as [|n IH]; intros s Hn; [destruct s; [|cbn in Hn; lia]; left; exists []; repeat constructor|].
  destruct s as [|c s]; [left; exists []; repeat constructor|]. cbn in Hn.
  destruct (is_delimiter c) eqn:Ed.
  { right. exists [], [], c, s. split; [reflexivity|]. split; [constructor|]. now apply is_delimiter_iff. }
  apply is_delimiter_false in Ed. destruct (pars c) as [e|] eqn:Ep.
  - apply pars_iff in Ep. destruct (scan_paren e s) as [[p q] r] eqn:Es.
    destruct (scan_paren_sound (length s) s e p q r (le_n _) Es) as [(-> & -> & Hp)|(-> & -> & -> & Hp)].
    + rewrite app_length in Hn. cbn in Hn. destruct (IH r ltac:(lia)) as [(t & Ht)|(p' & t & c' & r' & -> & Ht & Hc)].
      * left. destruct Ht as [s t Ht|s t o' e' g Ht Hb' Hg].
        -- exists (p ++ e :: t). constructor. now constructor.
        -- exists ((p ++ e :: t) ++ g). replace (c :: p ++ e :: s ++ o' :: g) with ((c :: p ++ e :: s) ++ o' :: g) by (cbn; now rewrite <- app_assoc).
           apply (last_open _ _ _ e'); auto. now constructor.
      * right. exists (c :: p ++ e :: p'), (p ++ e :: t), c', r'. split; [cbn; now rewrite <- app_assoc|]. split; [now constructor|exact Hc].
    + left. exists p. apply (last_open [] [] c e p); auto. constructor.
  - apply pars_none in Ep. destruct (IH s ltac:(lia)) as [(t & Ht)|(p' & t & c' & r' & -> & Ht & Hc)].
    + left. destruct Ht as [s t Ht|s t o' e' g Ht Hb' Hg]; [exists (c :: t); constructor; now constructor|].
      exists ((c :: t) ++ g). apply (last_open (c :: s) (c :: t) o' e'); auto. now constructor.
    + right. exists (c :: p'), (c :: t), c', r'. split; [reflexivity|]. split; [now constructor|exact Hc].
Qed.
Lemma split_split_of s : split_of s (split s).
Proof.
  assert (forall n s, (length s <= n)%nat -> exists l, split_of s l) as T.
  { induction n as [|n IH]; intros u Hn; (destruct (first_piece (length u) u (le_n _)) as [(t & Ht)|(p & t & c & r & -> & Hp & Hc)]; [exists (keep t); now constructor|]);
      rewrite app_length in Hn; cbn in Hn; [lia|]. destruct (IH r ltac:(lia)) as (l & Hl). exists (keep t ++ l). now constructor. }
  destruct (T (length s) s (le_n _)) as (l & Hl). now rewrite (split_of_split _ _ Hl).
Qed.
Lemma split_iff s l : split s = l <-> split_of s l.
Proof. split; [intros <-; apply split_split_of|apply split_of_split]. Qed.

(** ** Numbers *)
Lemma numberish_iff u v : numberish u v <-> exists l, parseInt u = Ok (v, l).
Proof. split; intros (l & H); exists l; [now apply reads_parseInt|now apply parseInt_reads]. Qed.
Lemma literal_iff u v : literal u v <-> parseInt u = Ok (v, length u).
Proof. split; [apply reads_parseInt|apply parseInt_reads]. Qed.
Lemma numberish_fun u v v' : numberish u v -> numberish u v' -> v = v'.
Proof. intros (l & A)%numberish_iff (l' & B)%numberish_iff. congruence. Qed.
Lemma py_number_iff u v : py_int u = Ok v <-> py_number u v.
Proof.
  split; [intros H; destruct (py_int_inv u v H) as (a & g & d & ds & b & E & Ha & Hb & Hu & _ & Hv); exists a, g, d, ds, b; auto|].
  intros (a & s & d & ds & b & -> & Ha & Hb & Hu & Hv). unfold py_int.
  destruct (underscored_ends d ds Hu) as [Hso (x & c & Ed & Hc)].
  assert (match s ++ d with [] => True | c :: _ => ~ int_blank c end) as Hs. { destruct Hv as [[[-> | ->] _]|[-> _]]; cbn; auto; unfold int_blank, blank; lia. }
  replace (a ++ s ++ d ++ b) with (a ++ (s ++ d) ++ b) by now rewrite <- !app_assoc.
  rewrite (strip_reads a (s ++ d) b Ha Hb Hs); [|exists (s ++ x), c; rewrite Ed; now rewrite app_assoc].
  assert (exists k w d', d = k :: d' /\ decimal_digit k w) as (k & w & d' & -> & Hk) by (inversion Hu; eauto 6).
  assert (k <> 43 /\ k <> 45) as [K1 K2] by (apply decimal_char in Hk; lia).
  pose proof (underscored_digits _ _ Hu) as Hds.
  assert (digits_val 10 ds = value 10 ds) as Ev. { apply digits_val_value. eapply Forall_impl; [|exact Hds]. intros z. apply digit_in_mono. lia. }
  destruct Hv as [[[-> | ->] ->]|[-> ->]]; cbn [app].
  - apply us_digits_reads in Hu. clear - Hu Ev K1 K2. destruct k as [|q|q]; try (now rewrite Hu, Ev). repeat (destruct q as [q|q|]; try (now rewrite Hu, Ev); try congruence).
  - change (($"+" ++ k :: d')) with (43 :: k :: d'). cbn [app]. rewrite (us_digits_reads _ _ Hu). now rewrite Ev.
  - change (($"-" ++ k :: d')) with (45 :: k :: d'). cbn [app]. rewrite (us_digits_reads _ _ Hu). now rewrite Ev.
Qed.
Lemma py_number_fun u v v' : py_number u v -> py_number u v' -> v = v'.
Proof. intros A%py_number_iff B%py_number_iff. congruence. Qed.
Lemma py_or_iff d u v : (o <- opt_int u ;; Ok (opt_or o d)) = Ok v <-> py_or d u v.
Proof.
  unfold py_or. destruct u as [|c u]; cbn [opt_int bind opt_or].
  - split; [intros [= <-]; left; auto|intros [[_ ->]|[H _]]; congruence].
  - rewrite <- py_number_iff. destruct (py_int (c :: u)) as [z|e|]; cbn [bind opt_or]; split; intros H.
    + injection H as ->. right. split; [discriminate|reflexivity].
    + destruct H as [[H _]|[_ H]]; [discriminate|congruence].
    + discriminate.
    + destruct H as [[H _]|[_ H]]; discriminate.
    + discriminate.
    + destruct H as [[H _]|[_ H]]; discriminate.
Qed.
Lemma raises_iff c w : upper_c c = w <-> raises c w.
Proof.
  unfold upper_c, raises. chr_red. split.
  - intros <-. destruct (Z.leb_spec 97 c), (Z.leb_spec c 122); cbn [andb]; try (right; left; split; lia); destruct (Z.eqb_spec c 305), (Z.eqb_spec c 383); subst; try lia; auto 6 with zarith; left; repeat split; lia.
  - intros [(-> & H & H1 & H2)|[(H & ->)|[(-> & ->)|(-> & ->)]]]; try reflexivity.
    + destruct (Z.leb_spec 97 w), (Z.leb_spec w 122); cbn [andb]; try lia; destruct (Z.eqb_spec w 305), (Z.eqb_spec w 383); lia.
    + destruct (Z.leb_spec 97 c), (Z.leb_spec c 122); cbn [andb]; lia.
Qed.
Lemma any_case_iff u w : upper u = w <-> any_case u w.
Proof.
  unfold upper, any_case. split.
  - intros <-. induction u as [|c u IH]; cbn; constructor; [now apply raises_iff|exact IH].
  - induction 1 as [|c k u w H _ IH]; cbn; [reflexivity|]. apply raises_iff in H. congruence.
Qed.
