(** Reading flow rules: the loop of str2dict over a written rule. *)
From Coq Require Import Strings.Ascii.
From Verif Require Import Base PyNum Util PyLib OxmCodec OxmTables Oxm Nx Ofp4 Spec SpecOxm SpecOfp.
From Verif Require Import BaseFacts UtilFacts NumFacts OxmRead OxmPrint OxmFacts OxmFrame OxmMore TermFacts OfpTerm.
From Verif Require Import ActBase ActRead ActReadNx ActReadReg ActReadLearn ActPrint ActText.

(** ** The loop, with enough fuel *)
Definition dict_run (st : dstate) (s : text) : res dstate := dict_go (length s) st s.
Lemma dict_go_fuel f : forall f' st s, (length s <= f)%nat -> (length s <= f')%nat -> dict_go f st s = dict_go f' st s.
Proof.
  induction f as [|f IH]; intros f' st s H H'.
  - destruct s; [destruct f'; reflexivity|cbn in H; lia].
  - destruct s as [|c s]; [destruct f'; reflexivity|]. destruct f' as [|f']; [cbn in H'; lia|]. cbn [dict_go].
    destruct (dict_step st (c :: s)) as [[st' r]|e|] eqn:E; cbn [bind]; auto.
    apply dict_step_shorter in E; [|discriminate]. apply IH; cbn [length] in *; lia.
Qed.
Lemma dict_run_eq st s : s <> [] -> dict_run st s = ('(st', r) <- dict_step st s ;; dict_run st' r).
Proof.
  intros H. unfold dict_run. destruct s as [|c s]; [contradiction|]. cbn [length dict_go].
  destruct (dict_step st (c :: s)) as [[st' r]|e|] eqn:E; cbn [bind]; auto.
  apply dict_step_shorter in E; [|discriminate]. apply dict_go_fuel; cbn [length] in *; lia.
Qed.
Lemma dict_run_step st s st' r : s <> [] -> dict_step st s = Ok (st', r) -> dict_run st s = dict_run st' r.
Proof. intros H E. rewrite dict_run_eq by auto. now rewrite E. Qed.
Lemma str2dict_run s : str2dict s = ('(DState i func actions _) <- dict_run (DState info0 None [] PhMatch) s ;; flush_acts func actions i).
Proof. reflexivity. Qed.
Definition flushed (st : dstate) : res info := flush_acts (d_func st) (d_acts st) (d_info st).

(** ** Tokens *)
Lemma word_token h u r c u' : Forall filler h -> u = c :: u' -> plain c ->
  exists x y, get_token (h ++ u ++ r) = (h, c :: x, y) /\ (c :: x) ++ y = u ++ r.
Proof.
  intros Hh -> Hc. assert (Eh : token_head (h ++ (c :: u') ++ r) = h).
  { apply token_head_app; [now apply filler_lead|]. cbn. pose proof (plain_not_blank c Hc) as Hb. apply is_space_false in Hb.
    unfold plain in Hc. repeat split; auto; lia. }
  assert (Eb : exists x, token_body [] ((c :: u') ++ r) = c :: x).
  { cbn [app token_body]. pose proof (plain_token_char c Hc) as Ht. apply plainc_iff in Ht. unfold plainc in Ht. apply negb_true_iff in Ht. rewrite Ht.
    rewrite (proj2 (pars_none c) (plain_not_opener c Hc)). eauto. }
  destruct Eb as [x Eb]. destruct (get_token (h ++ (c :: u') ++ r)) as [[h' b] y] eqn:E.
  assert (h' = h /\ b = c :: x) as [-> ->].
  { unfold get_token in E. rewrite Eh, skipn_len_app, Eb in E. split; congruence. }
  exists x, y. split; auto. apply get_token_concat in E. now apply app_inv_head in E.
Qed.
Lemma assigned_tokens name u s h r : assigned name u s -> Forall plain name -> name <> [] -> Forall plain u -> u <> [] ->
  Forall filler h -> follow r ->
  exists op t, get_token (h ++ s ++ r) = (h, name, t) /\ get_token t = (op, u, r) /\ has_char 61 op = true.
Proof.
  intros [a b Ha Hb] Hn Hn0 Hu Hu0 Hh Hr. exists (a ++ 61 :: b), (a ++ 61 :: b ++ u ++ r). split; [|split].
  - replace (h ++ (name ++ a ++ $"=" ++ b ++ u) ++ r) with (h ++ name ++ (a ++ 61 :: b ++ u ++ r))
      by (change $"=" with [61]; rewrite <- !app_assoc; reflexivity).
    apply get_token_complete; auto using filler_lead, plain_token, plain_solid, gap_eq_ends.
  - apply tok_eq; auto using plain_token, plain_solid.
  - apply eq_has.
Qed.
Lemma assigned_nonnil name u s h r : assigned name u s -> h ++ s ++ r <> [].
Proof. intros [a b _ _] E. apply app_eq_nil in E as [_ E]. apply app_eq_nil in E as [E _]. destruct name; [|discriminate]. destruct a; discriminate. Qed.

(** ** Entries *)
Definition apply_info (i : info) (e : entry) : info :=
  match e with
  | EMatch t => add_match i (wire t)
  | ESet (STable n) => set_table i n
  | ESet (SPriority n) => set_priority i n
  | ESet (SIdle n) => set_idle i n
  | ESet (SHard n) => set_hard i n
  | ESet (SBuffer n) => set_buffer i n
  | ESet (SCookie c None) => set_cookie i c
  | ESet (SCookie c (Some m)) => set_cookie_mask (set_cookie i c) m
  | ESet (SPort p) => set_out_port i p
  | ESet (SGroup g) => set_out_group i g
  | ESet (SFlag f) => set_flags i (Z.lor (opt_or (i_flags i) 0) (fflag_bit f))
  end.
Lemma tidy_no_slash u : Forall tidy u -> has_char 47 u = false.
Proof.
  intros H. apply Bool.not_true_iff_false. intros E. unfold has_char in E. apply existsb_exists in E as (c & Hc & E). apply Z.eqb_eq in E. subst c.
  apply (proj1 (Forall_forall _ _) H) in Hc. unfold tidy in Hc. tauto.
Qed.
Lemma int_arg_ok t op u v r : get_token t = (op, u, r) -> has_char 61 op = true -> literal u v -> int_arg t = Ok (v, r).
Proof.
  intros Et Ho Hl. unfold int_arg. rewrite Et, Ho. destruct (literal_tidy _ _ Hl) as [Ht _]. rewrite tidy_no_slash by auto. cbn [negb andb assert bind].
  rewrite (literal_alone _ _ Hl). cbn [bind]. now rewrite Nat.eqb_refl.
Qed.
Lemma step_word i st func acts ph h name t s : st = DState i func acts ph -> get_token s = (h, name, t) -> Forall filler h -> startswith $"@" name = false ->
  dict_step st s = match ph with
    | PhMatch => '(i, rest) <- match_token i name t ;; Ok (DState i func acts ph, rest)
    | PhAction => '(act, l) <- str2act (name ++ t) ;;
        if Nat.eqb l 0 then Raise ValueError else Ok (DState i func (acts ++ act) ph, skipn l (name ++ t))
    | PhNoarg => Raise ValueError
    end.
Proof. intros -> E Hh Hn. unfold dict_step. rewrite E, (filler_no_eq h Hh). cbn [negb assert bind]. now rewrite Hn. Qed.

Lemma plains s : forallb plainb s = true -> Forall plain s.
Proof. intros H. apply Forall_forall. intros c Hc. apply plainb_plain. now apply (proj1 (forallb_forall _ _) H). Qed.
Ltac pl := apply plains; reflexivity.
Definition tidyb (c : Z) : bool := plainb c && negb (c =? 47) && negb (c =? 58).
Lemma tidys s : forallb tidyb s = true -> Forall tidy s.
Proof.
  intros H. apply Forall_forall. intros c Hc. apply (proj1 (forallb_forall _ _) H) in Hc. unfold tidyb in Hc.
  apply andb_prop in Hc as [Hc H3]. apply andb_prop in Hc as [H1 H2]. apply negb_true_iff in H2, H3. apply Z.eqb_neq in H2, H3. split; auto using plainb_plain.
Qed.
Lemma lit_set name set i func acts u n s h r : assoc_t name proc_fields = Some set -> Forall plain name -> name <> [] -> startswith $"@" name = false ->
  literal u n -> assigned name u s -> Forall filler h -> follow r ->
  dict_step (DState i func acts PhMatch) (h ++ s ++ r) = Ok (DState (set i n) func acts PhMatch, r).
Proof.
  intros Hs Hp Hn Hat Hl Ha Hh Hr. destruct (literal_plain _ _ Hl) as [Hu Hu0].
  destruct (assigned_tokens name u s h r) as (op & t & E1 & E2 & E3); auto.
  rewrite (step_word i _ func acts PhMatch h name t) by auto. unfold match_token. rewrite Hs.
  rewrite (int_arg_ok t op u n r) by auto. reflexivity.
Qed.
Lemma group_of_num u g : group_of u g -> named_num ofpg u = Ok g /\ Forall tidy u /\ u <> [].
Proof.
  intros [v w Hl|w nm Hin].
  - destruct (literal_tidy _ _ Hl) as [Ht H0]. split; auto. unfold named_num.
    assert (E : fold_left (fun r (pn : Z * text) => if text_eqb (snd pn) v then Some (fst pn) else r) ofpg None = None).
    { destruct (literal_first v w Hl) as (c & r & -> & Hc). unfold ofpg. cbn [fold_left snd fst].
      repeat (match goal with |- context [text_eqb ?a ?b] =>
        let E := fresh in assert (E : text_eqb a b = false); [apply Bool.not_true_iff_false; intros E; apply text_eqb_eq in E; cbn in E; injection E; intros; lia|rewrite E] end).
      reflexivity. }
    rewrite E, (literal_alone _ _ Hl). cbn [bind]. now rewrite Nat.eqb_refl.
  - cbn in Hin. destruct Hin as [E|[E|[E|[]]]]; injection E as <- <-; (split; [reflexivity|split; [|discriminate]]); apply tidys; reflexivity.
Qed.
Lemma port_of_named u p : port_of u p -> named_num ofpp u = Ok p.
Proof.
  intros H. pose proof (port_of_num u p H) as E. unfold named_num. unfold ofpp_num in E. destruct (fold_left _ _ _); auto.
  destruct (parseInt u) as [[n l]|e|]; cbn [bind] in *; try discriminate. rewrite Nat.eqb_sym. exact E.
Qed.
Lemma named_arg_ok l t op u v r : get_token t = (op, u, r) -> has_char 61 op = true -> Forall tidy u -> named_num l u = Ok v -> named_arg l t = Ok (v, r).
Proof. intros Et Ho Ht Hn. unfold named_arg. rewrite Et, Ho, tidy_no_slash by auto. cbn [negb andb assert bind]. now rewrite Hn. Qed.

Definition reserved_words : list text :=
  map fst proc_fields ++ map fst ofpff ++ [$"cookie"; $"out_port"; $"out_group"].
Lemma fields_not_words : forallb (fun f => negb (existsb (text_eqb (fname f)) reserved_words) && negb (startswith $"@" (fname f))) accepted_fields = true.
Proof. vm_compute. reflexivity. Qed.
Lemma set_step i func acts s u h r : writes_set s u -> Forall filler h -> follow r ->
  dict_step (DState i func acts PhMatch) (h ++ u ++ r) = Ok (DState (apply_info i (ESet s)) func acts PhMatch, r).
Proof.
  intros Hw Hh Hr. destruct Hw.
  - apply (lit_set $"table" set_table i func acts u n); auto; [pl|discriminate].
  - apply (lit_set $"priority" set_priority i func acts u n); auto; [pl|discriminate].
  - apply (lit_set $"idle_timeout" set_idle i func acts u n); auto; [pl|discriminate].
  - apply (lit_set $"hard_timeout" set_hard i func acts u n); auto; [pl|discriminate].
  - apply (lit_set $"buffer" set_buffer i func acts u n); auto; [pl|discriminate].
  - destruct (literal_plain _ _ H) as [Hu Hu0]. destruct (assigned_tokens $"cookie" u s h r) as (op & t & E1 & E2 & E3); auto; [pl|discriminate|].
    rewrite (step_word i _ func acts PhMatch h $"cookie" t) by auto. unfold match_token.
    change (assoc_t $"cookie" proc_fields) with (@None (info -> Z -> info)). change (assoc_t $"cookie" ofpff) with (@None Z). cbn match.
    change (text_eqb $"cookie" $"cookie") with true. cbn match. rewrite E2, E3. cbn [assert bind]. destruct (literal_tidy _ _ H) as [Ht _].
    rewrite split1_none by (apply tidy_no; auto). rewrite (literal_alone _ _ H). cbn [bind]. rewrite Nat.eqb_refl. reflexivity.
  - destruct (literal_plain _ _ H) as [Hu Hu0]. destruct (literal_plain _ _ H0) as [Hu' _].
    destruct (assigned_tokens $"cookie" (u ++ $"/" ++ u') s h r) as (op & t & E1 & E2 & E3); auto using plain_slash; [pl|discriminate|apply slash_nonnil|].
    rewrite (step_word i _ func acts PhMatch h $"cookie" t) by auto. unfold match_token.
    change (assoc_t $"cookie" proc_fields) with (@None (info -> Z -> info)). change (assoc_t $"cookie" ofpff) with (@None Z). cbn match.
    change (text_eqb $"cookie" $"cookie") with true. cbn match. rewrite E2, E3. cbn [assert bind]. destruct (literal_tidy _ _ H) as [Ht _].
    rewrite slash_text, split1_some by (apply tidy_no; auto). rewrite (literal_alone _ _ H). cbn [bind]. rewrite Nat.eqb_refl. cbn [assert bind].
    rewrite (literal_alone _ _ H0). reflexivity.
  - destruct (port_of_tidy _ _ H) as [Ht H1]. destruct (assigned_tokens $"out_port" u s h r) as (op & t & E1 & E2 & E3); auto using tidy_plain; [pl|discriminate|].
    rewrite (step_word i _ func acts PhMatch h $"out_port" t) by auto. unfold match_token.
    change (assoc_t $"out_port" proc_fields) with (@None (info -> Z -> info)). change (assoc_t $"out_port" ofpff) with (@None Z). cbn match.
    change (text_eqb $"out_port" $"cookie") with false. change (text_eqb $"out_port" $"out_port") with true. cbn match.
    rewrite (named_arg_ok ofpp t op u p r) by auto using port_of_named. reflexivity.
  - destruct (group_of_num _ _ H) as (En & Ht & H1). destruct (assigned_tokens $"out_group" u s h r) as (op & t & E1 & E2 & E3); auto using tidy_plain; [pl|discriminate|].
    rewrite (step_word i _ func acts PhMatch h $"out_group" t) by auto. unfold match_token.
    change (assoc_t $"out_group" proc_fields) with (@None (info -> Z -> info)). change (assoc_t $"out_group" ofpff) with (@None Z). cbn match.
    change (text_eqb $"out_group" $"cookie") with false. change (text_eqb $"out_group" $"out_port") with false.
    change (text_eqb $"out_group" $"out_group") with true. cbn match.
    rewrite (named_arg_ok ofpg t op u g r) by auto. reflexivity.
  - rewrite (step_word i _ func acts PhMatch h (fflag_name f) r); auto.
    + destruct f; reflexivity.
    + apply tok_plain; auto; destruct f; try discriminate; pl.
    + destruct f; reflexivity.
Qed.
Lemma match_step i func acts t u h r : item t u -> Forall filler h -> follow r ->
  dict_step (DState i func acts PhMatch) (h ++ u ++ r) = Ok (DState (add_match i (wire t)) func acts PhMatch, r).
Proof.
  intros Hi Hh Hr. pose proof (item_reads t [] u r Hi (Forall_nil _) Hr) as E. cbn [app length Nat.add] in E. pose proof (item_nonnil _ _ Hi) as Hn.
  destruct (item_inv t u Hi) as (f & v & m & w & a & b & -> & Eu & Hf & Hw & Ha & Hb).
  destruct (item_tokens f w v m a b h r Hf Hw Ha Hb Hh Hr) as [E1 _]. rewrite <- Eu in E1.
  pose proof (proj1 (forallb_forall _ _) fields_not_words f Hf) as K. cbv beta in K. apply andb_prop in K as [K1 K2]. apply negb_true_iff in K1, K2.
  rewrite (step_word i _ func acts PhMatch h (fname f) (a ++ 61 :: b ++ w ++ r)) by auto. unfold match_token.
  assert (Nw : forall x, In x reserved_words -> text_eqb (fname f) x = false).
  { intros x Hx. apply Bool.not_true_iff_false. intros Hy. assert (existsb (text_eqb (fname f)) reserved_words = true); [|congruence]. apply existsb_exists. eauto. }
  assert (N1 : assoc_t (fname f) proc_fields = None).
  { unfold proc_fields, assoc_t. now rewrite !Nw by (cbn; auto 20). }
  assert (N2 : assoc_t (fname f) ofpff = None).
  { unfold ofpff, assoc_t. now rewrite !Nw by (cbn; auto 20). }
  rewrite N1, N2, !Nw by (cbn; auto 20).
  replace (fname f ++ a ++ 61 :: b ++ w ++ r) with (u ++ r) by (rewrite Eu; change $"=" with [61]; rewrite <- !app_assoc; reflexivity).
  rewrite E. cbn [bind]. destruct (Nat.eqb_spec (length u) 0) as [H0|_]; [destruct u; [contradiction|discriminate]|]. cbn [bind].
  now rewrite skipn_len_app.
Qed.
Lemma entry_step i func acts e u h r : writes_entry e u -> Forall filler h -> follow r ->
  dict_step (DState i func acts PhMatch) (h ++ u ++ r) = Ok (DState (apply_info i e) func acts PhMatch, r).
Proof. intros [s v H|t v H] Hh Hr; [now apply set_step|now apply match_step]. Qed.
Lemma writes_set_nonnil s u : writes_set s u -> u <> [].
Proof. intros []; try (match goal with H : assigned _ _ _ |- _ => pose proof (assigned_nonnil _ _ _ [] [] H) as K; cbn [app] in K; now rewrite app_nil_r in K end). destruct f; discriminate. Qed.
Lemma entry_nonnil e u : writes_entry e u -> u <> [].
Proof. intros [s v H|t v H]; [now apply (writes_set_nonnil s)|now apply (item_nonnil t)]. Qed.

(** ** Actions and instructions *)
Lemma act_first a u : writes_act a u -> act_ok a -> exists c u', u = c :: u' /\ 97 <= c <= 122.
Proof.
  intros Hw Hok.
  assert (K : forall name (v s : text), (exists c n', name = c :: n' /\ 97 <= c <= 122) -> one_arg name v s -> exists c u', s = c :: u' /\ 97 <= c <= 122).
  { intros name v s (c & n' & -> & Hc) Ho. destruct Ho; cbn [app call]; eauto. }
  destruct Hw; try (eapply K; [|eassumption]; eexists _, _; split; [reflexivity|now cbv]); try (cbn [app call]; eexists _, _; split; [reflexivity|now cbv]).
  - destruct k; eexists _, _; (split; [reflexivity|now cbv]).
  - eapply K; [|eassumption]. destruct k; eexists _, _; (split; [reflexivity|now cbv]).
  - destruct v2; eexists _, _; (split; [reflexivity|now cbv]).
  - destruct v2; eexists _, _; (split; [reflexivity|now cbv]).
Qed.
Lemma letter_plain c : 97 <= c <= 122 -> plain c.
Proof. unfold plain. lia. Qed.
Lemma act_step i func acts a u h r : writes_act a u -> act_ok a -> Forall filler h -> follow r ->
  dict_step (DState i func acts PhAction) (h ++ u ++ r) = Ok (DState i func (acts ++ act_wire a) PhAction, r).
Proof.
  intros Hw Hok Hh Hr. destruct (act_first a u Hw Hok) as (c & u' & Eu & Hc).
  destruct (word_token h u r c u' Hh Eu (letter_plain c Hc)) as (x & y & E1 & E2).
  assert (E3 : startswith $"@" (c :: x) = false) by (cbn; destruct (Z.eqb_spec 64 c); [lia|reflexivity]).
  rewrite (step_word i _ func acts PhAction h (c :: x) y) by auto. rewrite E2.
  pose proof (act_reads a u [] r Hw Hok (Forall_nil _) Hr) as E. cbn [app length Nat.add] in E. rewrite E. cbn [bind].
  destruct (Nat.eqb_spec (length u) 0) as [H0|_]; [rewrite Eu in H0; discriminate|]. now rewrite skipn_len_app.
Qed.
Lemma writes_acts_follow l r : writes_acts l r -> follow r.
Proof. intros [|a l' g u r' Hg]; [exact I|]. now apply gap_follow. Qed.
Lemma follow_app a r : follow a -> follow r -> follow (a ++ r).
Proof. destruct a; auto. Qed.
Lemma mid_nonnil' {A} (h u r : list A) : u <> [] -> h ++ u ++ r <> [].
Proof. apply mid_nonnil. Qed.
Lemma acts_run i func l s : writes_acts l s -> Forall act_ok l -> forall acts r, follow r ->
  dict_run (DState i func acts PhAction) (s ++ r) = dict_run (DState i func (acts ++ acts_wire l) PhAction) r.
Proof.
  induction 1 as [|a l g u s Hg Hu Hs IH]; intros Hok acts r Hr.
  - cbn [acts_wire flat_map app]. now rewrite app_nil_r.
  - inversion Hok; subst. rewrite <- !app_assoc. erewrite dict_run_step.
    2:{ apply mid_nonnil. destruct (act_first a u) as (c & u' & -> & _); auto. discriminate. }
    2:{ apply act_step; eauto using gap_filler, follow_app, writes_acts_follow. }
    rewrite IH by auto. unfold acts_wire. cbn [flat_map]. now rewrite app_assoc.
Qed.
Lemma step_at st i h name t s : get_token s = (h, name, t) -> Forall filler h -> startswith $"@" name = true -> flushed st = Ok i ->
  dict_step st s = inst_token i (d_acts st) name t.
Proof.
  intros E Hh Hn Hi. destruct st as [j func acts ph]. unfold dict_step, flushed in *. cbn [d_acts d_func d_info] in *. rewrite E, (filler_no_eq h Hh). cbn [negb assert bind].
  now rewrite Hn, Hi.
Qed.
Lemma spells_plain n u : spells n u -> Forall plain u /\ u <> [] /\ startswith $"@" u = true.
Proof. intros [-> | ->]; destruct n; (split; [pl|split; [discriminate|reflexivity]]). Qed.
Lemma std_pack t p : in_bytes 2 t -> Z.of_nat (length (std_act t p)) <= 65535 -> pack [sH; sH] [t; Z.of_nat (4 + length p)] = Ok (be 2 t ++ be 2 (Z.of_nat (4 + length p))).
Proof. intros Ht Hl. rewrite std_act_length in Hl. apply std_pack2; auto. apply in_bytes_2. lia. Qed.
(** the pending instruction *)
Lemma flush_pending t i l : in_bytes 2 t -> Z.of_nat (length (std_act t (pad 4 ++ acts_wire l))) <= 65535 ->
  flush_acts (Some t) (acts_wire l) i = Ok (add_inst i (std_act t (pad 4 ++ acts_wire l))).
Proof.
  intros Ht Hl. rewrite std_act_length in Hl. unfold flush_acts.
  assert (H8 : in_bytes 2 (8 + Z.of_nat (length (acts_wire l)))) by (apply in_bytes_2; rewrite app_length, pad_length in Hl; lia).
  packs. unfold std_act. rewrite app_length, pad_length.
  replace (Z.of_nat (4 + (4 + length (acts_wire l)))) with (8 + Z.of_nat (length (acts_wire l))) by lia. now rewrite <- !app_assoc.
Qed.
Lemma instr_nonnil ins u : writes_instr ins u -> u <> [].
Proof.
  intros H. destruct H; try (match goal with H : assigned _ _ _ |- _ => pose proof (assigned_nonnil _ _ _ [] [] H) as K; cbn [app] in K; now rewrite app_nil_r in K end);
    destruct (spells_plain _ _ H) as (_ & Hn & _); auto; intros E; apply app_eq_nil in E; tauto.
Qed.
(** the state after an instruction *)
Definition after_instr (i : info) (acts : bytes) (ins : instr) : dstate :=
  match ins with
  | WriteActions l => DState i (Some 3) (acts_wire l) PhAction
  | ApplyActions l => DState i (Some 4) (acts_wire l) PhAction
  | _ => DState (add_inst i (instr_wire ins)) None acts PhNoarg
  end.
Lemma after_flushed i acts ins : instr_ok ins -> flushed (after_instr i acts ins) = Ok (add_inst i (instr_wire ins)).
Proof.
  intros [Hok Hlen]. unfold flushed. destruct ins; try reflexivity; cbn [after_instr d_func d_acts d_info]; apply flush_pending; auto; fits.
Qed.
Lemma instr_run st i ins u h r : writes_instr ins u -> instr_ok ins -> Forall filler h -> follow r -> flushed st = Ok i ->
  dict_run st (h ++ u ++ r) = dict_run (after_instr i (d_acts st) ins) r.
Proof.
  intros Hw [Hok Hlen] Hh Hr Hi. pose proof (instr_nonnil _ _ Hw) as Hne.
  destruct Hw as [nm u n s Hn Hl Ha|nm u v s Hn Hl Ha|nm u v u' m s Hn Hl Hl' Ha|nm l s Hn Hs|nm l s Hn Hs|nm Hn|u n s Hl Ha].
  - destruct (spells_plain _ _ Hn) as (Hp & H0 & Hat). destruct (literal_plain _ _ Hl) as [Hu Hu0].
    destruct (assigned_tokens nm u s h r) as (op & t & E1 & E2 & E3); auto.
    cbn [after_instr]. apply dict_run_step; [now apply mid_nonnil|]; rewrite (step_at st i h nm t) by auto; unfold inst_token.
    replace (in_names nm [$"@goto"; $"@goto_table"]) with true by (destruct Hn as [-> | ->]; reflexivity).
      rewrite E2, E3. cbn [assert bind]. rewrite (literal_alone _ _ Hl). cbn [bind]. rewrite Nat.eqb_refl. cbn [assert bind].
      cbn [instr_ok] in Hok. packs. unfold instr_wire, std_act. rewrite ?app_length, ?be_length, ?pad_length. reflexivity.
  - destruct (spells_plain _ _ Hn) as (Hp & H0 & Hat). destruct (literal_plain _ _ Hl) as [Hu Hu0]. destruct (literal_tidy _ _ Hl) as [Ht _].
    destruct (assigned_tokens nm u s h r) as (op & t & E1 & E2 & E3); auto.
    cbn [after_instr]. apply dict_run_step; [now apply mid_nonnil|]; rewrite (step_at st i h nm t) by auto; unfold inst_token.
    replace (in_names nm [$"@goto"; $"@goto_table"]) with false by (destruct Hn as [-> | ->]; reflexivity).
      replace (in_names nm [$"@metadata"; $"@write_metadata"]) with true by (destruct Hn as [-> | ->]; reflexivity).
      rewrite E2, E3. cbn [assert bind]. rewrite split1_none by (apply tidy_no; auto). rewrite (literal_alone _ _ Hl). cbn [bind]. rewrite Nat.eqb_refl.
      cbn [assert bind]. destruct Hok as [Hv Hm]. packs. unfold instr_wire, std_act. rewrite ?app_length, ?be_length, ?pad_length. reflexivity.
  - destruct (spells_plain _ _ Hn) as (Hp & H0 & Hat). destruct (literal_plain _ _ Hl) as [Hu Hu0]. destruct (literal_plain _ _ Hl') as [Hu' _].
    destruct (literal_tidy _ _ Hl) as [Ht _].
    destruct (assigned_tokens nm (u ++ $"/" ++ u') s h r) as (op & t & E1 & E2 & E3); auto using plain_slash; [apply slash_nonnil|].
    cbn [after_instr]. apply dict_run_step; [now apply mid_nonnil|]; rewrite (step_at st i h nm t) by auto; unfold inst_token.
    replace (in_names nm [$"@goto"; $"@goto_table"]) with false by (destruct Hn as [-> | ->]; reflexivity).
      replace (in_names nm [$"@metadata"; $"@write_metadata"]) with true by (destruct Hn as [-> | ->]; reflexivity).
      rewrite E2, E3. cbn [assert bind]. rewrite slash_text, split1_some by (apply tidy_no; auto). rewrite (literal_alone _ _ Hl). cbn [bind]. rewrite Nat.eqb_refl.
      cbn [assert bind]. rewrite (literal_alone _ _ Hl'). cbn [bind]. rewrite Nat.eqb_refl. cbn [assert bind]. destruct Hok as [Hv Hm]. packs. unfold instr_wire, std_act. rewrite ?app_length, ?be_length, ?pad_length. reflexivity.
  - destruct (spells_plain _ _ Hn) as (Hp & H0 & Hat). pose proof (writes_acts_follow _ _ Hs) as Hf.
    cbn [after_instr].
    rewrite <- app_assoc. erewrite dict_run_step; [|now apply mid_nonnil|].
      2:{ rewrite (step_at st i h nm (s ++ r)); auto; [|apply tok_plain; auto using follow_app]. unfold inst_token.
        replace (in_names nm [$"@goto"; $"@goto_table"]) with false by (destruct Hn as [-> | ->]; reflexivity).
        replace (in_names nm [$"@metadata"; $"@write_metadata"]) with false by (destruct Hn as [-> | ->]; reflexivity).
        replace (in_names nm [$"@apply"; $"@apply_actions"]) with false by (destruct Hn as [-> | ->]; reflexivity).
        replace (in_names nm [$"@write"; $"@write_actions"]) with true by (destruct Hn as [-> | ->]; reflexivity). reflexivity. }
      now rewrite (acts_run i (Some 3) l s Hs Hok [] r Hr).
  - destruct (spells_plain _ _ Hn) as (Hp & H0 & Hat). pose proof (writes_acts_follow _ _ Hs) as Hf.
    cbn [after_instr].
    rewrite <- app_assoc. erewrite dict_run_step; [|now apply mid_nonnil|].
      2:{ rewrite (step_at st i h nm (s ++ r)); auto; [|apply tok_plain; auto using follow_app]. unfold inst_token.
        replace (in_names nm [$"@goto"; $"@goto_table"]) with false by (destruct Hn as [-> | ->]; reflexivity).
        replace (in_names nm [$"@metadata"; $"@write_metadata"]) with false by (destruct Hn as [-> | ->]; reflexivity).
        replace (in_names nm [$"@apply"; $"@apply_actions"]) with true by (destruct Hn as [-> | ->]; reflexivity). reflexivity. }
      now rewrite (acts_run i (Some 4) l s Hs Hok [] r Hr).
  - destruct (spells_plain _ _ Hn) as (Hp & H0 & Hat).
    cbn [after_instr]. apply dict_run_step; [now apply mid_nonnil|]; rewrite (step_at st i h nm r) by (auto; apply tok_plain; auto); unfold inst_token.
    replace (in_names nm [$"@goto"; $"@goto_table"]) with false by (destruct Hn as [-> | ->]; reflexivity).
      replace (in_names nm [$"@metadata"; $"@write_metadata"]) with false by (destruct Hn as [-> | ->]; reflexivity).
      replace (in_names nm [$"@apply"; $"@apply_actions"]) with false by (destruct Hn as [-> | ->]; reflexivity).
      replace (in_names nm [$"@write"; $"@write_actions"]) with false by (destruct Hn as [-> | ->]; reflexivity).
      replace (in_names nm [$"@clear"; $"@clear_actions"]) with true by (destruct Hn as [-> | ->]; reflexivity). packs. unfold instr_wire, std_act. rewrite ?app_length, ?be_length, ?pad_length. reflexivity.
  - destruct (literal_plain _ _ Hl) as [Hu Hu0]. destruct (literal_tidy _ _ Hl) as [Ht _].
    destruct (assigned_tokens $"@meter" u s h r) as (op & t & E1 & E2 & E3); auto; [pl|discriminate|].
    cbn [after_instr]. apply dict_run_step; [now apply mid_nonnil|]; rewrite (step_at st i h $"@meter" t) by auto; unfold inst_token.
    change (in_names $"@meter" [$"@goto"; $"@goto_table"]) with false. change (in_names $"@meter" [$"@metadata"; $"@write_metadata"]) with false.
      change (in_names $"@meter" [$"@apply"; $"@apply_actions"]) with false. change (in_names $"@meter" [$"@write"; $"@write_actions"]) with false.
      change (in_names $"@meter" [$"@clear"; $"@clear_actions"]) with false. change (text_eqb $"@meter" $"@meter") with true. cbn match.
      rewrite E2, E3, tidy_no_slash by auto. cbn [assert bind negb]. rewrite (literal_alone _ _ Hl). cbn [bind]. rewrite Nat.eqb_refl. cbn [assert bind].
      cbn [instr_ok] in Hok. packs. unfold instr_wire, std_act. rewrite ?app_length, ?be_length, ?pad_length. reflexivity.
Qed.

(** ** Whole rules *)
Lemma tail_follow es is s : writes_tail es is s -> follow s.
Proof. intros []; [exact I|now apply gap_follow|now apply gap_follow]. Qed.
Definition add_instrs (i : info) (is : list instr) : info := fold_left (fun i n => add_inst i (instr_wire n)) is i.
Lemma instrs_run is s : writes_tail [] is s -> forall st i, Forall instr_ok is -> flushed st = Ok i ->
  exists st', dict_run st s = Ok st' /\ flushed st' = Ok (add_instrs i is).
Proof.
  remember ([] : list entry) as es eqn:Ees. induction 1 as [|n is g u r Hg Hu Hs IH|e es is g u r Hg Hu Hs IH]; intros st i Hok Hi; [..|discriminate].
  - exists st. split; auto.
  - inversion Hok as [|? ? Hn Hok']; subst. pose proof (instr_run st i n u g r Hu Hn (gap_filler _ Hg) (tail_follow _ _ _ Hs) Hi) as E1.
    destruct (IH eq_refl _ _ Hok' (after_flushed i (d_acts st) n Hn)) as (st' & E' & F'). exists st'. split; [congruence|exact F'].
Qed.
Lemma tail_run es is s : writes_tail es is s -> forall i acts, Forall instr_ok is ->
  exists st', dict_run (DState i None acts PhMatch) s = Ok st' /\ flushed st' = Ok (add_instrs (fold_left apply_info es i) is).
Proof.
  induction 1 as [|n is g u r Hg Hu Hs IH|e es is g u r Hg Hu Hs IH]; intros i acts Hok.
  - eexists. split; reflexivity.
  - apply instrs_run; auto. now constructor.
  - destruct (IH (apply_info i e) acts Hok) as (st' & E & F). exists st'. split; [|exact F]. rewrite <- E. apply dict_run_step.
    + apply mid_nonnil. eapply entry_nonnil; eauto.
    + apply entry_step; eauto using gap_filler, tail_follow.
Qed.
Theorem flow_dict es is s : writes_flow es is s -> Forall instr_ok is ->
  str2dict s = Ok (add_instrs (fold_left apply_info es info0) is).
Proof.
  intros Hw Hok. rewrite str2dict_run.
  assert (K : exists st', dict_run (DState info0 None [] PhMatch) s = Ok st' /\ flushed st' = Ok (add_instrs (fold_left apply_info es info0) is)).
  { destruct Hw as [|n is h u r Hh Hu Hs|e es is h u r Hh Hu Hs].
    - eexists. split; reflexivity.
    - inversion Hok as [|? ? Hn Hok']; subst. pose proof (instr_run (DState info0 None [] PhMatch) info0 n u h r Hu Hn Hh (tail_follow _ _ _ Hs) eq_refl) as E1.
      rewrite E1. destruct (instrs_run is r Hs _ _ Hok' (after_flushed info0 [] n Hn)) as (st' & E' & F'). eauto.
    - destruct (tail_run es is r Hs (apply_info info0 e) [] Hok) as (st' & E & F). exists st'. split; [|exact F]. rewrite <- E. apply dict_run_step.
      + apply mid_nonnil. eapply entry_nonnil; eauto.
      + apply entry_step; eauto using tail_follow. }
  destruct K as ([i func acts ph] & E & F). rewrite E. exact F.
Qed.
(** the dictionary seen with the defaults [d] *)
Definition view (d : fixedp) (i : info) : fixedp :=
  Fixed (opt_or (i_cookie i) (x_cookie d)) (opt_or (i_cookie_mask i) (x_mask d)) (opt_or (i_table i) (x_table d)) (opt_or (i_priority i) (x_priority d))
    (opt_or (i_idle i) (x_idle d)) (opt_or (i_hard i) (x_hard d)) (opt_or (i_buffer i) (x_buffer d)) (opt_or (i_out_port i) (x_port d))
    (opt_or (i_out_group i) (x_group d)) (opt_or (i_flags i) (x_flags d)).
Lemma add_instrs_parts is : forall i, i_match (add_instrs i is) = i_match i /\ i_inst (add_instrs i is) = i_inst i ++ instrs_wire is
  /\ forall d, view d (add_instrs i is) = view d i.
Proof.
  induction is as [|n is IH]; intros i; cbn [add_instrs fold_left instrs_wire flat_map].
  - now rewrite app_nil_r.
  - destruct (IH (add_inst i (instr_wire n))) as (H1 & H2 & H3). unfold add_instrs in *. rewrite H1, H2. destruct i as [a1 a2 a3 a4 a5 a6 a7 a8 a9 a10 a11 a12]. cbn [add_inst i_match i_inst].
    rewrite <- app_assoc. split; [reflexivity|split; [reflexivity|]]. intros d. now rewrite H3.
Qed.
Lemma apply_parts es : forall i d, x_flags d = 0 ->
  i_match (fold_left apply_info es i) = i_match i ++ flat_map wire (matches_of es) /\ i_inst (fold_left apply_info es i) = i_inst i
  /\ view d (fold_left apply_info es i) = fixed_of (view d i) es.
Proof.
  induction es as [|e es IH]; intros i d Hd.
  - cbn. now rewrite app_nil_r.
  - cbn [fold_left]. destruct (IH (apply_info i e) d Hd) as (H1 & H2 & H3). rewrite H1, H2, H3.
    destruct i as [a1 a2 a3 a4 a5 a6 a7 a8 a9 a10 a11 a12], d as [c1 c2 c3 c4 c5 c6 c7 c8 c9 c10]. cbn [x_flags] in Hd. subst. destruct e as [[]|t].
    10:{ cbn [apply_info matches_of flat_map i_match add_match app]. split; [now rewrite <- app_assoc|split; reflexivity]. }
    all: try (destruct m); try reflexivity; (split; [reflexivity|split; reflexivity]) || (destruct a8; split; [reflexivity|split; reflexivity|reflexivity|split; reflexivity]).
Qed.
Theorem flow_reads es is s : writes_flow es is s -> Forall instr_ok is ->
  exists i, str2dict s = Ok i /\ i_match i = flat_map wire (matches_of es) /\ i_inst i = instrs_wire is
  /\ forall d, x_flags d = 0 -> view d i = fixed_of d es.
Proof.
  intros Hw Hok. exists (add_instrs (fold_left apply_info es info0) is). split; [now apply flow_dict|].
  destruct (add_instrs_parts is (fold_left apply_info es info0)) as (H1 & H2 & H3). rewrite H1, H2.
  destruct (apply_parts es info0 (defaults 0) eq_refl) as (H4 & H5 & _). rewrite H4, H5. repeat split; auto.
  intros d Hd. rewrite H3. destruct (apply_parts es info0 d Hd) as (_ & _ & ->). destruct d. reflexivity.
Qed.
