(** Printing arbitrary bytes: instructions, flow rules, groups and multipart replies. *)
From Verif Require Import Base PyNum Util PyLib OxmCodec OxmTables Oxm Nx Ofp4 Spec SpecOxm SpecText SpecShow SpecOfp SpecMp SpecShowOfp SpecShowMsg.
From Verif Require Import BaseFacts UtilFacts NumFacts PyLibFacts OxmRead OxmPrint OxmFacts OxmFrame OxmMore ActBase ActFrame GramLib OxmGram ShowLib.
From Verif Require Import TermFacts OfpLoop ActPrint ActReadNx FlowMod MpBase ShowAct ShowAct2 ShowAct3.
From Coq Require Import Strings.Ascii.

(** ** Loops over entries *)
Fixpoint gloop (short : bytes -> bool) (size : bytes -> nat) (one : bytes -> res (list text)) (fuel : nat) (m : bytes) : res (list text) :=
  if short m then Ok []
  else match fuel with
       | O => Diverge
       | S f => ts <- one m ;; us <- gloop short size one f (skipn (size m) m) ;; Ok (ts ++ us)
       end.
Section Loop.
  Variable short : bytes -> bool.
  Variable shortp : bytes -> Prop.
  Variable size : bytes -> nat.
  Variable one : bytes -> res (list text).
  Variable R : bytes -> list text -> Prop.
  Variable D : bytes -> Prop.
  Hypothesis Hshort : forall m, short m = true <-> shortp m.
  Hypothesis Hempty : shortp [].
  Hypothesis HR : forall m ts, ~ shortp m -> (one m = Ok ts <-> R m ts).
  Hypothesis HD : forall m, ~ shortp m -> (one m = Diverge <-> D m).
  Lemma short_false m : short m = false <-> ~ shortp m.
  Proof. rewrite <- Hshort. destruct (short m); split; congruence. Qed.
  Lemma long_length m : ~ shortp m -> (0 < length m)%nat.
  Proof. intros H. destruct m; [contradiction|cbn; lia]. Qed.
  Lemma zero_no_end m ts : entries shortp size R m ts -> ~ shortp m -> size m <> 0%nat.
  Proof.
    intros H. induction H as [m Hs|m ts us Hs Ho He IH]; intros N E0; [contradiction|]. rewrite E0 in *. cbn [skipn] in *. now apply IH.
  Qed.
  Lemma gloop_inv f : forall m ts, gloop short size one f m = Ok ts -> entries shortp size R m ts.
  Proof.
    induction f as [|f IH]; intros m ts; cbn [gloop]; (destruct (short m) eqn:E; [intros [= <-]; constructor; now apply Hshort|]); [discriminate|].
    apply short_false in E. destruct (one m) as [us| |] eqn:Eo; [|discriminate..]. cbn [bind]. apply HR in Eo; [|exact E].
    destruct (gloop _ _ _ f _) as [vs| |] eqn:Eg; [|discriminate..]. cbn [bind]. intros [= <-]. apply en_next; auto.
  Qed.
  Lemma gloop_ok m ts : entries shortp size R m ts -> forall f, (length m <= f)%nat -> gloop short size one f m = Ok ts.
  Proof.
    intros H. induction H as [m Hs|m ts us Hs Ho He IH]; intros f Lf.
    - apply Hshort in Hs. destruct f; cbn [gloop]; now rewrite Hs.
    - pose proof (long_length m Hs) as Hl. destruct f as [|f]; [lia|]. cbn [gloop]. rewrite (proj2 (short_false m) Hs).
      rewrite (proj2 (HR m ts Hs) Ho). cbn [bind]. pose proof (zero_no_end m (ts ++ us) ltac:(now apply en_next) Hs) as Hz.
      rewrite IH by (rewrite skipn_length; lia). reflexivity.
  Qed.
  Lemma gloop_div f : forall m, (length m <= f)%nat -> gloop short size one f m = Diverge -> entries_loop shortp size R D m.
  Proof.
    induction f as [|f IH]; intros m Lf; cbn [gloop]; (destruct (short m) eqn:E; [discriminate|]); apply short_false in E; [pose proof (long_length m E); lia|].
    destruct (one m) as [us| |] eqn:Eo; cbn [bind]; [|discriminate|intros _; apply el_stuck; [exact E|now apply HD]].
    apply HR in Eo; [|exact E]. destruct (gloop _ _ _ f _) as [vs| |] eqn:Eg; [discriminate..|]. intros _.
    destruct (Nat.eq_dec (size m) 0) as [E0|N0]; [now apply (el_here _ _ _ _ m us)|]. apply (el_next _ _ _ _ m us); auto. apply IH; [rewrite skipn_length; pose proof (long_length m E); lia|exact Eg].
  Qed.
  Lemma gloop_loops m : entries_loop shortp size R D m -> forall f, gloop short size one f m = Diverge.
  Proof.
    intros H. induction H as [m ts Hs Ho E0|m Hs Hd|m ts Hs Ho He IH]; intros f.
    - induction f as [|f IH]; cbn [gloop]; rewrite (proj2 (short_false m) Hs); [reflexivity|]. rewrite (proj2 (HR m ts Hs) Ho). cbn [bind]. rewrite E0. cbn [skipn]. now rewrite IH.
    - destruct f; cbn [gloop]; rewrite (proj2 (short_false m) Hs); [reflexivity|]. now rewrite (proj2 (HD m Hs) Hd).
    - destruct f; cbn [gloop]; rewrite (proj2 (short_false m) Hs); [reflexivity|]. rewrite (proj2 (HR m ts Hs) Ho). cbn [bind]. now rewrite IH.
  Qed.
  Lemma gloop_shown f m ts : (length m <= f)%nat -> (gloop short size one f m = Ok ts <-> entries shortp size R m ts).
  Proof. intros L. split; [apply gloop_inv|intros H; now apply gloop_ok]. Qed.
  Lemma gloop_endless f m : (length m <= f)%nat -> (gloop short size one f m = Diverge <-> entries_loop shortp size R D m).
  Proof. intros L. split; [now apply gloop_div|intros H; now apply gloop_loops]. Qed.
End Loop.
Lemma entries_mono short size (R S : bytes -> list text -> Prop) m ts : (forall m ts, R m ts -> S m ts) -> entries short size R m ts -> entries short size S m ts.
Proof. intros RS H. induction H; eauto using entries. Qed.
Lemma entries_some short size (R S : bytes -> list text -> Prop) m ts : (forall m ts, R m ts -> exists us, S m us) -> entries short size R m ts -> exists us, entries short size S m us.
Proof.
  intros RS H. induction H as [m Hs|m ts us Hs Ho He (vs & IH)]; [exists []; now constructor|]. apply RS in Ho as (ws & Ho). exists (ws ++ vs). now apply en_next.
Qed.
Lemma eloop_some short size (R S : bytes -> list text -> Prop) (D E : bytes -> Prop) m :
  (forall m ts, R m ts -> exists us, S m us) -> (forall m, D m -> E m) -> entries_loop short size R D m -> entries_loop short size S E m.
Proof.
  intros RS DE H. induction H as [m ts Hs Ho E0|m Hs Hd|m ts Hs Ho He IH].
  - apply RS in Ho as (us & Ho). now apply (el_here _ _ _ _ m us).
  - apply el_stuck; auto.
  - apply RS in Ho as (us & Ho). now apply (el_next _ _ _ _ m us).
Qed.
Lemma eloop_iff short size (R S : bytes -> list text -> Prop) (D : bytes -> Prop) m :
  (forall m, (exists ts, R m ts) <-> exists us, S m us) -> entries_loop short size R D m <-> entries_loop short size S D m.
Proof. intros RS. split; apply eloop_some; auto; intros z ts H; apply RS; eauto. Qed.
Lemma below_b n m : (length m <? n)%nat = true <-> below n m.
Proof. apply Nat.ltb_lt. Qed.
(** grouping the texts of one entry *)
Lemma commas_cons t ts us : commas ((t :: ts) ++ us) = match us with [] => commas (t :: ts) | _ => commas (t :: ts) ++ $"," ++ commas us end.
Proof. rewrite commas_app0. destruct us; reflexivity. Qed.
Lemma group_text_eq (g : list text -> list text) ts vs ws : commas (g ts) = commas ts -> g ts <> [] -> ts <> [] -> commas vs = commas ws -> (vs = [] <-> ws = []) ->
  commas (g ts ++ vs) = commas (ts ++ ws) /\ (g ts ++ vs = [] <-> ts ++ ws = []).
Proof.
  intros Eg N1 N2 Ec En. rewrite !commas_app0, Ec, Eg. split.
  - destruct (g ts) as [|a l]; [contradiction|]. destruct ts as [|b l']; [contradiction|].
    destruct vs as [|v vs]; destruct ws as [|w ws]; try reflexivity; [discriminate (proj1 En eq_refl)|discriminate (proj2 En eq_refl)].
  - split; intros K; apply app_eq_nil in K as [K _]; contradiction.
Qed.
Lemma entries_group short size (R : bytes -> list text -> Prop) (g : list text -> list text) :
  (forall m ts, R m ts -> commas (g ts) = commas ts /\ g ts <> [] /\ ts <> []) ->
  forall m us, entries short size (fun m us => exists ts, R m ts /\ us = g ts) m us -> exists ts, entries short size R m ts /\ commas us = commas ts /\ (us = [] <-> ts = []).
Proof.
  intros HG m us H. induction H as [m Hs|m us vs Hs (ts & Ho & ->) He (ws & IH & Ec & En)]; [exists []; repeat split; now constructor|].
  exists (ts ++ ws). split; [now apply en_next|]. destruct (HG _ _ Ho) as (Eg & N1 & N2). now apply group_text_eq.
Qed.
Lemma entries_ungroup short size (R : bytes -> list text -> Prop) (g : list text -> list text) :
  (forall m ts, R m ts -> commas (g ts) = commas ts /\ g ts <> [] /\ ts <> []) ->
  forall m ts, entries short size R m ts -> exists us, entries short size (fun m us => exists ts, R m ts /\ us = g ts) m us /\ commas us = commas ts /\ (us = [] <-> ts = []).
Proof.
  intros HG m ts H. induction H as [m Hs|m ts ws Hs Ho He (vs & IH & Ec & En)]; [exists []; repeat split; now constructor|].
  exists (g ts ++ vs). split; [apply en_next; eauto|]. destruct (HG _ _ Ho) as (Eg & N1 & N2). now apply group_text_eq.
Qed.

(** ** no text is empty *)
Lemma act_nonnil Q m t : act_shown Q m t -> t <> [].
Proof.
  intros H. destruct H as [t Hs|t E Hs|N K|E R Nv|t E Ev R Hs|E Ev R K|t E Ev R E25 Hs]; try discriminate.
  - destruct Hs; try discriminate; destruct k; discriminate.
  - destruct Hs; discriminate.
Qed.
Lemma acts_nonnil Q m ts : acts_shown Q m ts -> Forall (fun t => t <> []) ts.
Proof. intros H. induction H; constructor; [now apply (act_nonnil Q m)|assumption]. Qed.
Lemma names_nonnil f : In f bare \/ shown_field f -> fname f <> [].
Proof.
  intros H. assert (In f (bare ++ shown_list_b)) as Hi by (apply in_app_iff; destruct H as [H|H]; [now left|right; now apply shown_in]).
  assert (forallb (fun f => negb (Nat.eqb (length (fname f)) 0)) (bare ++ shown_list_b) = true) as K by (vm_compute; reflexivity).
  pose proof (proj1 (forallb_forall _ _) K f Hi) as E. cbv beta in E. destruct (fname f); [discriminate|discriminate].
Qed.
Lemma match_nonnil Q m ts : shown_list Q m ts -> Forall (fun t => t <> []) ts.
Proof.
  intros H. induction H; constructor; try assumption; try discriminate.
  match goal with K : token_of _ _ _ _ _ |- _ => destruct K as [f p hm u Hf Hs|f p hm Hf] end.
  - pose proof (names_nonnil f (or_intror Hf)) as N. destruct (fname f); [contradiction|discriminate].
  - now apply (names_nonnil f (or_introl Hf)).
Qed.
Lemma inst_nonnil Q m ts : inst_shown Q m ts -> ts <> [] /\ Forall (fun t => t <> []) ts.
Proof. intros H. destruct H; (split; [discriminate|]); repeat constructor; try discriminate; now apply acts_nonnil in H1. Qed.
Lemma entries_forall (P : text -> Prop) short size (R : bytes -> list text -> Prop) m ts : (forall m ts, R m ts -> Forall P ts) -> entries short size R m ts -> Forall P ts.
Proof. intros HP H. induction H as [|m ts us Hs Ho He IH]; [constructor|]. apply Forall_app. split; [now apply (HP m)|exact IH]. Qed.
Lemma insts_nonnil Q m ts : insts_shown Q m ts -> Forall (fun t => t <> []) ts.
Proof. apply entries_forall. intros z us H. now apply inst_nonnil in H. Qed.

(** ** Instructions *)
Definition two (ts : list text) : list text := match ts with [] => [] | [t] => [t] | t :: r => [t; commas r] end.
Lemma two_ok t r : commas (two (t :: r)) = commas (t :: r) /\ two (t :: r) <> [].
Proof. destruct r as [|a r]; [split; [reflexivity|discriminate]|]. split; [|discriminate]. reflexivity. Qed.
Definition inst_toks (m : bytes) : res (list text) := '(ts, _) <- inst2str_one m ;; Ok ts.
Lemma inst_rest m ts r : inst2str_one m = Ok (ts, r) -> r = skipn (len2 m) m.
Proof.
  unfold inst2str_one. rewrite from_words. cbn [calcsize fold_right fwidth Nat.add]. destruct (4 <=? length m)%nat; [|discriminate]. cbn [bind]. words.
  change (Z.to_nat (word 2 2 m)) with (len2 m). cbv zeta.
  match goal with |- (_ <- ?x ;; _) = _ -> _ => destruct x as [u| |]; [|discriminate..] end. cbn [bind].
  intros H. apply (f_equal (fun x => match x with Ok (_, r) => r | _ => [] end)) in H. now symmetry.
Qed.
Lemma mod8_z n : (Z.of_nat n mod 8 =? 0) = (n mod 8 =? 0)%nat.
Proof. change 8 with (Z.of_nat 8) at 1. rewrite <- Nat2Z.inj_mod. destruct (Nat.eqb_spec (n mod 8) 0) as [->|N]; [reflexivity|]. apply Z.eqb_neq. lia. Qed.
Lemma acts_toks name part : 
  (forall us, (arg <- act2str part true ;; Ok (match arg with [] => [name] | _ => [name; arg] end)) = Ok us <-> exists ts, acts_shown qpt part ts /\ us = two (name :: ts))
  /\ ((arg <- act2str part true ;; Ok (match arg with [] => [name] | _ => [name; arg] end)) = @Diverge (list text) <-> acts_loop qpt part).
Proof.
  split.
  - intros us. split.
    + destruct (act2str part true) as [arg| |] eqn:E; [|discriminate..]. cbn [bind]. intros [= <-]. apply acts_text in E as (ts & H & ->). exists ts. split; [exact H|].
      pose proof (acts_nonnil _ _ _ H) as N. destruct ts as [|t ts]; [reflexivity|]. destruct (commas (t :: ts)) eqn:Ec; [|cbn [two]; now rewrite Ec].
      apply commas_nil in Ec; [discriminate|exact N].
    + intros (ts & H & ->). pose proof (acts_nonnil _ _ _ H) as N. rewrite (proj2 (acts_text _ _) (ex_intro _ ts (conj H eq_refl))). cbn [bind]. f_equal.
      destruct ts as [|t ts]; [reflexivity|]. cbn [two]. destruct (commas (t :: ts)) eqn:Ec; [|reflexivity]. apply commas_nil in Ec; [discriminate|exact N].
  - rewrite <- acts_endless. destruct (act2str part true); cbn [bind]; split; congruence.
Qed.
Lemma inst_one m : ~ below 5 m ->
  (forall us, inst_toks m = Ok us <-> exists ts, inst_shown qpt m ts /\ us = two ts) /\ (inst_toks m = Diverge <-> inst_stuck qpt m).
Proof.
  unfold below. intros L. unfold inst_toks, inst2str_one. rewrite from_words. cbn [calcsize fold_right fwidth Nat.add]. replace (4 <=? length m)%nat with true by (symmetry; apply Nat.leb_le; lia). cbn [bind]. words.
  change (Z.to_nat (word 2 2 m)) with (len2 m). cbv zeta.
  assert (word 2 2 m = Z.of_nat (len2 m)) as El by (unfold len2; rewrite Z2Nat.id; [reflexivity|apply word_nonneg]). rewrite El, mod8_z. rewrite part_slice.
  assert (forall k, (Z.of_nat (len2 m) =? Z.of_nat k) = (len2 m =? k)%nat) as Ek by (intros k; destruct (Nat.eqb_spec (len2 m) k); [apply Z.eqb_eq|apply Z.eqb_neq]; lia).
  change 8 with (Z.of_nat 8). change 24 with (Z.of_nat 24). rewrite !Ek.
  assert (forall n o, (o + n <= 5)%nat -> unpack_from [FU n] m o = Ok [word n o m]) as U.
  { intros n o H. rewrite from_words. cbn [calcsize fold_right fwidth Nat.add]. replace (o + (n + 0) <=? length m)%nat with true by (symmetry; apply Nat.leb_le; lia). words. now rewrite Nat.add_0_r. }
  assert (forall (x : res (list text)), (forall us, ('(ts, _) <- (toks <- x ;; Ok (toks, skipn (len2 m) m)) ;; Ok ts) = Ok us <-> x = Ok us)
    /\ (('(ts, _) <- (toks <- x ;; Ok (toks, skipn (len2 m) m)) ;; Ok ts) = Diverge <-> x = Diverge)) as Hx by (intros [y| |]; cbn [bind]; split; intros; split; congruence).
  pose proof (acts_toks $"@write" (part_of 8 (len2 m) m)) as [W1 W2]. pose proof (acts_toks $"@apply" (part_of 8 (len2 m) m)) as [A1 A2].
  destruct (Z.eqb_spec (word 2 0 m) 1) as [E1|N1].
  { destruct (Nat.eqb_spec (len2 m) 8) as [E8|N8].
    - rewrite U by lia. cbn [bind nth]. nums. split; [|split; [discriminate|intros ([K|K] & _); lia]]. intros us. split; [intros [= <-]; eexists; split; [now apply is_goto|reflexivity]|].
      intros (ts & H & ->). destruct H; try lia. reflexivity.
    - split; [|split; [discriminate|intros ([K|K] & _); lia]]. intros us. split; [discriminate|]. intros (ts & H & ->). destruct H; lia. }
  destruct (Z.eqb_spec (word 2 0 m) 2) as [E2|N2].
  { destruct (Nat.eqb_spec (len2 m) 24) as [E8|N8].
    - rewrite from_words. cbn [calcsize fold_right fwidth Nat.add]. destruct (Nat.leb_spec 24 (length m)) as [L24|L24].
      + cbn [bind]. words. nums. split; [|split; [discriminate|intros ([K|K] & _); lia]]. intros us. split.
        * intros [= <-]. eexists. split; [now apply is_metadata|]. destruct (word 8 16 m =? 0); [now rewrite app_nil_r|reflexivity].
        * intros (ts & H & ->). destruct H; try lia. cbn [two]. destruct (word 8 16 m =? 0); [now rewrite app_nil_r|reflexivity].
      + cbn [bind]. split; [|split; [discriminate|intros ([K|K] & _); lia]]. intros us. split; [discriminate|]. intros (ts & H & ->). unfold reaches in *. destruct H; unfold reaches in *; lia.
    - split; [|split; [discriminate|intros ([K|K] & _); lia]]. intros us. split; [discriminate|]. intros (ts & H & ->). destruct H; lia. }
  destruct (Z.eqb_spec (word 2 0 m) 3) as [E3|N3].
  { destruct (Nat.eqb_spec (len2 m mod 8) 0) as [E8|N8].
    - destruct (Hx (arg <- act2str (part_of 8 (len2 m) m) true ;; Ok (match arg with [] => [$"@write"] | _ => [$"@write"; arg] end))) as [X1 X2].
      split; [intros us; rewrite X1, W1|rewrite X2, W2].
      + split; [intros (ts & H & ->); exists ($"@write" :: ts); split; [now apply is_write|reflexivity]|]. intros (ts & H & ->). destruct H; try lia. eauto.
      + unfold inst_stuck, acts_part. split; [intros H; repeat split; auto|now intros (_ & _ & H)].
    - cbn [bind]. split; [|split; [discriminate|intros (_ & K & _); lia]]. intros us. split; [discriminate|]. intros (ts & H & ->). destruct H; lia. }
  destruct (Z.eqb_spec (word 2 0 m) 4) as [E4|N4].
  { destruct (Nat.eqb_spec (len2 m mod 8) 0) as [E8|N8].
    - destruct (Hx (arg <- act2str (part_of 8 (len2 m) m) true ;; Ok (match arg with [] => [$"@apply"] | _ => [$"@apply"; arg] end))) as [X1 X2].
      split; [intros us; rewrite X1, A1|rewrite X2, A2].
      + split; [intros (ts & H & ->); exists ($"@apply" :: ts); split; [now apply is_apply|reflexivity]|]. intros (ts & H & ->). destruct H; try lia. eauto.
      + unfold inst_stuck, acts_part. split; [intros H; repeat split; auto|now intros (_ & _ & H)].
    - cbn [bind]. split; [|split; [discriminate|intros (_ & K & _); lia]]. intros us. split; [discriminate|]. intros (ts & H & ->). destruct H; lia. }
  destruct (Z.eqb_spec (word 2 0 m) 5) as [E5|N5].
  { destruct (Nat.eqb_spec (len2 m) 8) as [E8|N8].
    - cbn [bind]. split; [|split; [discriminate|intros ([K|K] & _); lia]]. intros us. split; [intros [= <-]; eexists; split; [now apply is_clear|reflexivity]|].
      intros (ts & H & ->). destruct H; try lia. reflexivity.
    - split; [|split; [discriminate|intros ([K|K] & _); lia]]. intros us. split; [discriminate|]. intros (ts & H & ->). destruct H; lia. }
  destruct (Z.eqb_spec (word 2 0 m) 6) as [E6|N6].
  { destruct (Nat.eqb_spec (len2 m) 8) as [E8|N8].
    - rewrite from_words. cbn [calcsize fold_right fwidth Nat.add]. destruct (Nat.leb_spec 8 (length m)) as [L24|L24].
      + cbn [bind]. words. cbn [nth]. nums. split; [|split; [discriminate|intros ([K|K] & _); lia]]. intros us. split; [intros [= <-]; eexists; split; [now apply is_meter|reflexivity]|].
        intros (ts & H & ->). destruct H; try lia. reflexivity.
      + cbn [bind]. split; [|split; [discriminate|intros ([K|K] & _); lia]]. intros us. split; [discriminate|]. intros (ts & H & ->). destruct H; unfold reaches in *; lia.
    - split; [|split; [discriminate|intros ([K|K] & _); lia]]. intros us. split; [discriminate|]. intros (ts & H & ->). destruct H; lia. }
  cbn [bind]. split; [|split; [discriminate|intros ([K|K] & _); lia]]. intros us. split; [intros [= <-]; eexists; split; [apply is_unknown; lia|reflexivity]|].
  intros (ts & H & ->). destruct H; try lia. reflexivity.
Qed.
Lemma inst_loop_eq f : forall m, inst2str_go f true m = gloop (fun m => (length m <? 5)%nat) len2 inst_toks f m.
Proof.
  induction f as [|f IH]; intros m; cbn [inst2str_go gloop]; change (length m <? 5)%nat with (length m <=? 4)%nat; destruct (length m <=? 4)%nat; try reflexivity.
  unfold inst_toks. destruct (inst2str_one m) as [[ts r]| |] eqn:E; try reflexivity. cbn [bind]. pose proof (inst_rest _ _ _ E) as ->. now rewrite IH.
Qed.
Lemma below_nil n : (0 < n)%nat -> below n [].
Proof. unfold below. cbn. lia. Qed.
Lemma two_group Q m ts : inst_shown Q m ts -> commas (two ts) = commas ts /\ two ts <> [] /\ ts <> [].
Proof. intros H. pose proof (inst_nonnil _ _ _ H) as [N _]. destruct ts as [|t ts]; [contradiction|]. destruct (two_ok t ts). now repeat split. Qed.
Theorem insts_text m t : inst2str m true = Ok t <-> exists ts, insts_shown qpt m ts /\ t = commas ts.
Proof.
  pose proof (gloop_shown (fun m => (length m <? 5)%nat) (below 5) len2 inst_toks (fun m us => exists ts, inst_shown qpt m ts /\ us = two ts) (inst_stuck qpt)
    (below_b 5) (below_nil 5 ltac:(lia)) (fun m us H => proj1 (inst_one m H) us) (fun m H => proj2 (inst_one m H)) (length m) m) as G.
  unfold inst2str. rewrite inst_loop_eq. split.
  - destruct (gloop _ _ _ _ m) as [us| |] eqn:E; [|discriminate..]. cbn [bind]. intros [= <-]. clear E. pose proof (proj1 (G us (le_n _)) eq_refl) as E.
    apply entries_group in E as (ts & He & Ec & _); [|apply two_group]. exists ts. split; [exact He|]. now rewrite commas_join.
  - intros (ts & H & ->). apply (entries_ungroup _ _ _ two) in H as (us & He & Ec & _); [|apply two_group]. apply G in He; [|lia]. rewrite He. cbn [bind]. now rewrite commas_join, Ec.
Qed.
Theorem insts_endless m : inst2str m true = Diverge <-> insts_loop qpt m.
Proof.
  pose proof (gloop_endless (fun m => (length m <? 5)%nat) (below 5) len2 inst_toks (fun m us => exists ts, inst_shown qpt m ts /\ us = two ts) (inst_stuck qpt)
    (below_b 5) (below_nil 5 ltac:(lia)) (fun m us H => proj1 (inst_one m H) us) (fun m H => proj2 (inst_one m H)) (length m) m (le_n _)) as G.
  unfold inst2str. rewrite inst_loop_eq. unfold insts_loop.
  rewrite <- (eloop_iff (below 5) len2 (fun m us => exists ts, inst_shown qpt m ts /\ us = two ts) (inst_shown qpt) (inst_stuck qpt) m)
    by (intros z; split; [intros (us & ts & H & _); eauto|intros (ts & H); eauto]).
  rewrite <- G. destruct (gloop _ _ _ _ m); cbn [bind]; split; congruence.
Qed.
