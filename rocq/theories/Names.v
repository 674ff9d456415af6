(** What becomes of a field name that is not known, as an argument of an action. *)
From Coq Require Import Strings.Ascii.
From Verif Require Import Base PyNum Util PyLib OxmCodec OxmTables Oxm Nx Ofp4 Spec SpecOxm SpecText SpecOfp SpecActText SpecName.
From Verif Require Import BaseFacts UtilFacts OxmFacts ActReadLearn OfpTerm OxmGram OxmExact GramTok GramField GramAct GramStr.

Lemma words_fun u ps r : words u ps r -> forall ps' r', words u ps' r' -> length ps = length ps' -> ps = ps' /\ r = r'.
Proof.
  induction 1 as [u|u h p u' ps r N _ IH]; intros ps' r' W L; destruct ps' as [|p' ps']; try discriminate.
  - inversion W; subst. auto.
  - inversion W as [|? h' ? u2 ? ? N' W']; subst. destruct (next_fun _ _ _ _ _ _ _ N N') as (_ & <- & <-). destruct (IH _ _ W') as [-> ->]; auto.
Qed.
(** the arguments of a call decide *)
Lemma called_says s name a r b n : called s name a r -> act_name name -> str2act s = Ok (b, n) -> exists r', says notation name false a b r' /\ Z.of_nat (length b) <= 65535.
Proof.
  intros (h & p & N & F & Ha) Hn H. apply str2act_sound in H as (r1 & H & _).
  destruct H as [s h' p' r' name' a' b r2 N' F' Ha' Hs L|s h' p' u b r2 N' Hs L|s h' p' r' x a' h2 q u ts r2 N' F' Ha' Hx N2 O L|s h' x u name' a' h2 q r' ts r2 N' F' Hg Hx N2 O L|s h' p' u name' a' N' F' Hg Hx Hw];
    destruct (next_fun _ _ _ _ _ _ _ N N') as (<- & E & <-); subst.
  - destruct (func_fun _ _ _ _ _ F F') as [<- E]. injection E as <-. eauto.
  - exfalso. destruct (table_read _ _ _ _ _ Hs L) as (f & E & _). rewrite (func_no_act _ _ _ F) in E. discriminate.
  - exfalso. destruct (func_fun _ _ _ _ _ F F') as [-> _]. contradiction.
  - exfalso. destruct (func_fun _ _ _ _ _ F F') as [_ <-]. destruct Hg as [Hg|Hg]; [discriminate|]. injection Hg as ->. contradiction.
  - exfalso. destruct (func_fun _ _ _ _ _ F F') as [<- <-]. exact (Hg a (conj eq_refl Ha) Hn).
Qed.
Lemma called_reads s name a r b r' : called s name a r -> says notation name false a b r' -> Z.of_nat (length b) <= 65535 -> str2act s = Ok (b, (length s - length r)%nat).
Proof. intros (h & p & N & F & Ha) H L. apply str2act_read. eapply ar_call; eauto. Qed.
(** a call that says nothing is refused *)
Lemma called_refused s name a r : called s name a r -> act_name name -> (forall b r', ~ says notation name false a b r') -> exists e, str2act s = Raise e.
Proof.
  intros H Hn K. destruct (str2act s) as [[b n]|e|] eqn:E; [|eauto|now apply str2act_nd in E].
  destruct (called_says _ _ _ _ _ _ H Hn E) as (r' & Hs & _). now apply K in Hs.
Qed.
Ltac only_says H := match type of H with says _ ?nm _ _ _ _ => let name := fresh "name" in let ra := fresh "ra" in let E := fresh "E" in let Er := fresh "Er" in
  remember nm as name eqn:E; match type of H with says _ _ ?fl _ _ _ => remember fl as ra eqn:Er end;
  destruct H; subst; try discriminate; try (vm_compute in E; discriminate E);
  try (match goal with k : _ |- _ => solve [destruct k; discriminate] end); try (match goal with K : _ \/ _ |- _ => solve [destruct K as [K|K]; try destruct K; discriminate] end) end.
Lemma range_known p f lo n : bit_range p f lo n -> ~ misspelt p.
Proof.
  intros H (name & a & F & U). destruct H as [a' R F' _|a' x y lo hi R F' _ _ _]; destruct (func_fun _ _ _ _ _ F F') as [-> _]; exact (U _ R eq_refl).
Qed.
Lemma move_known u b r : says notation $"reg_move" false u b r -> exists p q, words u [p; q] r /\ ~ misspelt p /\ ~ misspelt q.
Proof. intros H. only_says H. exists p, q. split; auto. split; eapply range_known; eauto. Qed.
Lemma multipath_known u b r : says notation $"multipath" false u b r -> exists p1 p2 p3 p4 p5 p, words u [p1; p2; p3; p4; p5; p] r /\ ~ misspelt p.
Proof. intros H. only_says H. do 6 eexists. split; eauto. eapply range_known; eauto. Qed.
Theorem move_unknown s a r p q r' : called s $"reg_move" a r -> words a [p; q] r' -> misspelt p \/ misspelt q -> exists e, str2act s = Raise e.
Proof.
  intros C W M. eapply called_refused; eauto; [vm_compute; tauto|]. intros b r2 H. destruct (move_known _ _ _ H) as (p' & q' & W' & Hp & Hq).
  destruct (words_fun _ _ _ W _ _ W' eq_refl) as [E _]. injection E as <- <-. tauto.
Qed.
Theorem multipath_unknown s a r p1 p2 p3 p4 p5 p r' : called s $"multipath" a r -> words a [p1; p2; p3; p4; p5; p] r' -> misspelt p -> exists e, str2act s = Raise e.
Proof.
  intros C W M. eapply called_refused; eauto; [vm_compute; tauto|]. intros b r2 H. destruct (multipath_known _ _ _ H) as (? & ? & ? & ? & ? & p' & W' & Hp).
  destruct (words_fun _ _ _ W _ _ W' eq_refl) as [E _]. injection E as <- <- <- <- <- <-. tauto.
Qed.
(** reg_load and reg_load2 *)
Lemma item_known u t r h p v : one_field notation u [t] r -> next u h p v -> exists f, readable f /\ p = fname f.
Proof.
  intros H N. inversion H as [|f h' a b p' w m r' u' Hf Hh Ha Hb Hc Hn Eu Et Er|]; subst. exists f. split; auto.
  apply accepted_readable in Hf. destruct (value_tokens f p' a b h' r Hf Hc Ha Hb Hh) as [E _]. apply next_iff in N. congruence.
Qed.
Theorem load_unknown name s a r h p u : name = $"reg_load" \/ name = $"reg_load2" -> called s name a r -> next a h p u -> no_field p -> exists e, str2act s = Raise e.
Proof.
  intros Hn C N U. eapply called_refused; eauto; [destruct Hn; subst; vm_compute; tauto|]. intros b r2 H.
  assert (K : exists t r', one_field notation a [t] r') by (destruct Hn; subst; only_says H; eauto). destruct K as (t & r' & K). destruct (item_known _ _ _ _ _ _ K N) as (f & Hf & ->). exact (U f Hf eq_refl).
Qed.
(** output_reg *)
Lemma output_known name u b r : name = $"output_reg" \/ name = $"output_reg2" -> says notation name false u b r -> exists p m, words u [p; m] r /\ (forall x, func p x None -> ~ no_field x).
Proof.
  intros Hn H. assert (K : exists p pm b' lo hi, words u [p; pm] r /\ reg_src p b' lo hi).
  { destruct Hn; subst; only_says H; eauto 10. }
  destruct K as (p & pm & b' & lo & hi & W & Hr). exists p, pm. split; auto. intros x F U. destruct Hr as [f a R F' _|nm a x' y b' lo hi F' _ _ _ _]; destruct (func_fun _ _ _ _ _ F F') as [-> E]; [exact (U _ R eq_refl)|discriminate].
Qed.
Theorem output_unknown name s a r p m r' : name = $"output_reg" \/ name = $"output_reg2" -> called s name a r -> words a [p; m] r' -> func p p None -> no_field p -> exists e, str2act s = Raise e.
Proof.
  intros Hn C W F U. eapply called_refused; eauto; [destruct Hn; subst; vm_compute; tauto|]. intros b r2 H. destruct (output_known _ _ _ _ Hn H) as (p' & m' & W' & K).
  destruct (words_fun _ _ _ W _ _ W' eq_refl) as [E _]. injection E as <- <-. exact (K _ F U).
Qed.
(** learn *)
Lemma dst_known d f lo n : learn_dst d f lo n -> ~ misspelt d.
Proof.
  intros H (name & a & F & U). destruct H as [a' R F' _|a' x y lo hi R F' _ _ _|a' x lo R F' _ _]; destruct (func_fun _ _ _ _ _ F F') as [-> _]; exact (U _ R eq_refl).
Qed.
Lemma src_known p s n : learn_src p s n -> ~ no_value p.
Proof.
  intros H (name & a & F & U & V). destruct H as [p f lo n _ H _|p nm a' v F' _ Hv].
  - apply (range_known _ _ _ _ H). now exists name, a.
  - destruct (func_fun _ _ _ _ _ F F') as [-> _]. exact (V _ Hv).
Qed.
Lemma spec_known p d m s : learn_spec p d m s -> ~ no_value p /\ (m <> Some $"output" -> ~ misspelt d).
Proof.
  intros H. destruct H as [s k f lo n d' T Hs _ Hd _ _ _|s n -> Hs _|v -> Hs _]; (split; [eapply src_known; eauto|]).
  - intros _. eapply dst_known; eauto.
  - intros []; reflexivity.
  - intros []; reflexivity.
Qed.
Lemma learn_known : forall t m x y, learn_has t m x y -> forall l, learn_list t l -> (m = None -> forall k, x <> lkey_name k) -> ~ no_value y /\ (m <> Some $"output" -> ~ misspelt x).
Proof.
  assert (E : forall t h d u h' p r, next t h d u -> next u h' p r -> eq_lead h' -> ~ Forall filler t).
  { intros t h d u h' p r N N' (a & b & _ & _ & ->) F. apply next_cat in N, N'. subst. apply Forall_app in F as [_ F]. apply Forall_app in F as [_ F].
    apply Forall_app in F as [F _]. apply Forall_app in F as [_ F]. inversion F as [|? ? K]; subst. destruct K as [K|K]; [|discriminate]. unfold blank in K. change (chr "=") with 61 in K. lia. }
  assert (G : forall t h d u, next t h d u -> d <> [] -> ~ Forall filler t).
  { intros t h d u N Hd F. pose proof (next_cat _ _ _ _ N) as C. inversion N as [h' p' r' Hl Hc|]; subst; [|contradiction].
    assert (Fd : Forall filler d) by (apply Forall_app in F as [_ F]; now apply Forall_app in F). destruct d as [|c d]; [contradiction|]. destruct Hc as [Hs Hc]. inversion Fd as [|? ? K]; subst. cbn in Hs.
    destruct K as [K| ->]; [contradiction|]. assert (T : ~ token_char (chr ",")) by (intros [T _]; apply T; unfold sep_char; tauto).
    assert (O : forall e, ~ bracket (chr ",") e) by (intros e B; inversion B).
    destruct Hc as [[Hc _]|[Hc _]]; [inversion Hc as [|? ? Q|? ? ? ? B]; subst; [contradiction|eapply O; eauto]|].
    assert (J : exists p o e g, closed token_char p /\ bracket o e /\ chr "," :: d = p ++ o :: g) by (remember (chr "," :: d) as w; destruct Hc; eauto 10).
    destruct J as (q & o & e & g & Hp & B & J). destruct q as [|z q]; cbn [app] in J; injection J as <- J; [eapply O; eauto|]. inversion Hp as [|? ? Q|? ? ? ? B']; subst; [contradiction|eapply O; eauto]. }
  induction 1 as [t h d u h' p r N Hh N' He|t h d u m a h1 x u1 h2 y u2 N Hh Hu F N1 N2|t h d u h' p r m x y N Hh N' He _ IH|t h d u m x y N Hd Hh Hu _ IH]; intros l L K.
  - destruct L as [t1 F1|t1 h0 k u0 h0' p0 r0 v l N0 _ N0' _ _ _|t1 h0 d0 u0 h0' p0 r0 s l N0 _ _ N0' _ S _|t1 h0 d0 u0 m a g1 x0 v1 g2 y0 v2 s l N0 _ Q _ _ _ _ _ _ _].
    + exact (False_ind _ (E _ _ _ _ _ _ _ N N' He F1)).
    + exfalso. destruct (next_fun _ _ _ _ _ _ _ N N0) as (_ & -> & _). now apply (K eq_refl k).
    + destruct (next_fun _ _ _ _ _ _ _ N N0) as (_ & <- & <-). destruct (next_fun _ _ _ _ _ _ _ N' N0') as (_ & <- & _). eapply spec_known; eauto.
    + exfalso. destruct (next_fun _ _ _ _ _ _ _ N N0) as (_ & <- & <-). eapply Q; eauto.
  - destruct L as [t1 F1|t1 h0 k u0 h0' p0 r0 v l N0 _ N0' Q _ _|t1 h0 d0 u0 h0' p0 r0 s l N0 _ _ N0' Q S _|t1 h0 d0 u0 m0 a0 g1 x0 v1 g2 y0 v2 s l N0 _ Q F0 _ M1 M2 _ S _].
    + exfalso. refine (G _ _ _ _ N _ F1). intros ->. destruct (func_bracket _ _ _ F) as (o & e & z & _ & Ez & _). destruct m; discriminate.
    + exfalso. destruct (next_fun _ _ _ _ _ _ _ N N0) as (_ & _ & <-). eapply Hu; eauto.
    + exfalso. destruct (next_fun _ _ _ _ _ _ _ N N0) as (_ & _ & <-). eapply Hu; eauto.
    + destruct (next_fun _ _ _ _ _ _ _ N N0) as (_ & <- & <-). destruct (func_fun _ _ _ _ _ F F0) as [<- Ea]. injection Ea as <-.
      destruct (next_fun _ _ _ _ _ _ _ N1 M1) as (_ & <- & <-). destruct (next_fun _ _ _ _ _ _ _ N2 M2) as (_ & <- & _). eapply spec_known; eauto.
  - destruct L as [t1 F1|t1 h0 k u0 h0' p0 r0 v l N0 _ N0' _ _ L|t1 h0 d0 u0 h0' p0 r0 s l N0 _ _ N0' _ S L|t1 h0 d0 u0 m0 a g1 x0 v1 g2 y0 v2 s l N0 _ Q _ _ _ _ _ _ L].
    + exact (False_ind _ (E _ _ _ _ _ _ _ N N' He F1)).
    + destruct (next_fun _ _ _ _ _ _ _ N N0) as (_ & _ & <-). destruct (next_fun _ _ _ _ _ _ _ N' N0') as (_ & _ & <-). eapply IH; eauto.
    + destruct (next_fun _ _ _ _ _ _ _ N N0) as (_ & _ & <-). destruct (next_fun _ _ _ _ _ _ _ N' N0') as (_ & _ & <-). eapply IH; eauto.
    + exfalso. destruct (next_fun _ _ _ _ _ _ _ N N0) as (_ & _ & <-). eapply Q; eauto.
  - destruct L as [t1 F1|t1 h0 k u0 h0' p0 r0 v l N0 _ N0' Q _ _|t1 h0 d0 u0 h0' p0 r0 s l N0 _ _ N0' Q S _|t1 h0 d0 u0 m0 a0 g1 x0 v1 g2 y0 v2 s l N0 _ Q F0 _ M1 M2 _ S L].
    + exact (False_ind _ (G _ _ _ _ N Hd F1)).
    + exfalso. destruct (next_fun _ _ _ _ _ _ _ N N0) as (_ & _ & <-). eapply Hu; eauto.
    + exfalso. destruct (next_fun _ _ _ _ _ _ _ N N0) as (_ & _ & <-). eapply Hu; eauto.
    + destruct (next_fun _ _ _ _ _ _ _ N N0) as (_ & _ & <-). eapply IH; eauto.
Qed.
Theorem learn_unknown s a r m x y : called s $"learn" a r -> learn_has a m x y -> (m = None -> forall k, x <> lkey_name k) ->
  no_value y \/ misspelt x /\ m <> Some $"output" -> exists e, str2act s = Raise e.
Proof.
  intros C H K U. eapply called_refused; eauto; [vm_compute; tauto|]. intros b r2 L. assert (J : exists l, learn_list a l) by (only_says L; eauto). destruct J as (l & J).
  destruct (learn_known _ _ _ _ H _ J K). tauto.
Qed.
(** where it is dropped *)
Theorem bundle_drops s u r h pb b a pt ps ports r' : called s $"bundle" u r -> words u [hash_name h; pb; bdalg_name a; pt; ps] r' -> numberish pb b -> in_bytes 2 b -> no_field pt -> slaves_any ps ports ->
  let x := nx_act 12 (be 2 (bdalg_id a) ++ be 2 (hash_id h) ++ be 2 b ++ be 2 (Z.of_nat (length ports)) ++ be 2 0 ++ be 4 0 ++ pad 4 ++ all_be 2 ports) in
  Z.of_nat (length x) <= 65535 -> str2act s = Ok (x, (length s - length r)%nat).
Proof. intros C W Hb Hi U Hs x L. eapply called_reads; eauto. exact (s_bundle notation u h pb b a pt [] ps ports r' W Hb Hi (id_none true pt U) Hs). Qed.
Theorem bundle_load_drops s u r h pb b a pt t pd n c x y lo hi ps ports r' : called s $"bundle_load" u r -> words u [hash_name h; pb; bdalg_name a; pt; pd; ps] r' -> numberish pb b -> in_bytes 2 b ->
  field_id true pt t -> func pd n (Some c) -> no_field n -> pair_text c x y -> py_number x lo -> py_number y hi -> in_bytes 2 (ofs_nbits lo hi) -> slaves_any ps ports ->
  let m := nx_act 13 (be 2 (bdalg_id a) ++ be 2 (hash_id h) ++ be 2 b ++ t ++ be 2 (Z.of_nat (length ports)) ++ be 2 (ofs_nbits lo hi) ++ pad 4 ++ all_be 2 ports) in
  Z.of_nat (length m) <= 65535 -> str2act s = Ok (m, (length s - length r)%nat).
Proof.
  intros C W Hb Hi Ht F U Hp Hx Hy Ho Hs m L. eapply called_reads; eauto.
  exact (s_bundle_load notation u h pb b a pt t pd [] lo hi ps ports r' W Hb Hi Ht (ld_bits pd n c x y [] lo hi F (id_none true n U) Hp Hx Hy) Ho Hs).
Qed.
Theorem output_drops s u r p pm n c x y lo hi m r' : called s $"output_reg" u r -> words u [p; pm] r' -> func p n (Some c) -> no_field n -> pair_text c x y -> py_number x lo -> py_number y hi ->
  pm = [] /\ m = 0xffff \/ pm <> [] /\ numberish pm m -> in_bytes 2 m -> in_bytes 2 (ofs_nbits lo (hi mod 64)) ->
  str2act s = Ok (nx_act 15 (be 2 (ofs_nbits lo (hi mod 64)) ++ be 2 m ++ pad 6), (length s - length r)%nat).
Proof.
  intros C W F U Hp Hx Hy Hm Hi Ho. eapply called_reads; eauto.
  - exact (s_output_reg notation $"output_reg" false false u p pm [] lo hi m r' (or_introl (conj eq_refl eq_refl)) W (rs_bits p n c x y [] lo hi F (id_none false n U) Hp Hx Hy) Hm Hi Ho).
  - unfold nx_act. cbn. lia.
Qed.
