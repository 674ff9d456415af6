(** The grammar of flow rule texts is what [str2dict] and [str2mod] read. *)
From Coq Require Import Strings.Ascii.
From Verif Require Import Base PyNum Util PyLib OxmCodec OxmTables Oxm Nx Ofp4 Spec SpecOxm SpecText SpecOfp SpecActText SpecFlowText.
From Verif Require Import BaseFacts UtilFacts NumFacts OxmRead OxmPrint OxmFacts OxmFrame OxmGram OxmExact TermFacts OfpTerm.
From Verif Require Import ActBase ActRead ActReadNx ActReadLearn ActFrame ActDenote FlowRead FlowMod FlowFrame.
From Verif Require Import GramLib GramTok GramField GramAct GramStr.

(** ** Words and values *)
Lemma valued_get u p r : valued u p r -> exists h, get_token u = (h, p, r) /\ has_char 61 h = true.
Proof. intros (h & H & E). exists h. split; [now apply next_iff|]. apply lead_eq; auto. now apply eq_lead_lead. Qed.
Lemma get_valued u h p r : get_token u = (h, p, r) -> has_char 61 h = true -> valued u p r.
Proof. intros H E. apply next_iff in H. exists h. split; auto. apply lead_eq; auto. eapply next_lead; eauto. Qed.
Lemma word_get s nm u : word s nm u -> exists h, get_token s = (h, nm, u) /\ has_char 61 h = false.
Proof.
  intros (h & H & E). exists h. split; [now apply next_iff|]. destruct (has_char 61 h) eqn:K; auto. apply lead_eq in K; [contradiction|]. eapply next_lead; eauto.
Qed.
Lemma get_word s h nm u : get_token s = (h, nm, u) -> has_char 61 h = false -> word s nm u.
Proof.
  intros H E. apply next_iff in H. exists h. split; auto. intros K. apply lead_eq in K; [congruence|]. eapply next_lead; eauto.
Qed.
Lemma word_some s nm u : word s nm u -> nm ++ u <> [] -> s <> [].
Proof. intros (h & H & _) K ->. apply next_cat in H. symmetry in H. apply app_eq_nil in H as [_ H]. contradiction. Qed.
Lemma at_iff nm : startswith $"@" nm = true <-> at_word nm.
Proof.
  split.
  - intros H. exists (skipn 1 nm). destruct nm as [|c nm]; [discriminate|]. cbn in H. rewrite andb_true_r in H. apply Z.eqb_eq in H. subst. reflexivity.
  - intros (x & ->). reflexivity.
Qed.
Lemma at_no nm : startswith $"@" nm = false <-> ~ at_word nm.
Proof. rewrite <- at_iff. destruct (startswith $"@" nm); intuition congruence. Qed.

Lemma int_arg_iff s n r : int_arg s = Ok (n, r) <-> exists p, valued s p r /\ literal p n.
Proof.
  split.
  - unfold int_arg. destruct (get_token s) as [[op p] rest] eqn:Et. intros H. mons H. apply andb_prop in Eb as [E1 E2].
    injection H as <- <-. exists p. split; [eapply get_valued; eauto|]. rewrite literal_iff. apply Nat.eqb_eq in Eb0. now subst.
  - intros (p & V & L). destruct (valued_get _ _ _ V) as (h & E1 & E2). eapply int_arg_ok; eauto.
Qed.
Lemma named_num_group p n : named_num ofpg p = Ok n <-> group_of p n.
Proof.
  split; [|intros H; now apply group_of_num in H].
  unfold named_num, ofpg. cbn [fold_left fst snd].
  destruct (text_eqb $"any" p) eqn:E1; [intros H; injection H as <-; apply text_eqb_eq in E1; subst; apply group_nm; cbn; auto|].
  destruct (text_eqb $"all" p) eqn:E2; [intros H; injection H as <-; apply text_eqb_eq in E2; subst; apply group_nm; cbn; auto|].
  destruct (text_eqb $"max" p) eqn:E3; [intros H; injection H as <-; apply text_eqb_eq in E3; subst; apply group_nm; cbn; auto|].
  intros H. mons H. injection H as <-. apply Nat.eqb_eq in Eb. subst. apply group_lit. now apply literal_iff.
Qed.
Lemma named_num_port p n : named_num ofpp p = Ok n <-> port_of p n.
Proof.
  split; [|apply port_of_named]. intros H. apply port_read_inv. unfold named_num in H. unfold ofpp_num. destruct (fold_left _ _ _); auto.
  destruct (parseInt p) as [[k l]|e|]; cbn [bind] in *; try discriminate. rewrite Nat.eqb_sym. exact H.
Qed.
Lemma port_tidy p n : port_of p n -> has_char 47 p = false.
Proof. intros H. apply tidy_no_slash. now apply port_of_tidy in H. Qed.
Lemma group_tidy p n : group_of p n -> has_char 47 p = false.
Proof. intros H. apply tidy_no_slash. now apply group_of_num in H. Qed.
Lemma named_arg_inv l s n r : named_arg l s = Ok (n, r) -> exists p, valued s p r /\ named_num l p = Ok n.
Proof.
  unfold named_arg. destruct (get_token s) as [[op p] rest] eqn:Et. intros H. mons H. apply andb_prop in Eb as [E1 E2].
  injection H as <- <-. exists p. split; [eapply get_valued; eauto|auto].
Qed.
Lemma named_arg_read l s p n r : valued s p r -> has_char 47 p = false -> named_num l p = Ok n -> named_arg l s = Ok (n, r).
Proof. intros V Hs H. destruct (valued_get _ _ _ V) as (h & E1 & E2). unfold named_arg. rewrite E1, E2, Hs. cbn [negb andb assert bind]. rewrite H. reflexivity. Qed.

Lemma slash_split p : (exists x y, p = x ++ $"/" ++ y /\ split1 47 p = (x, Some y)) \/ split1 47 p = (p, None) /\ ~ In 47 p.
Proof.
  pose proof (split1_spec 47 p) as H. destruct (split1 47 p) as [x [y|]].
  - left. exists x, y. split; auto. tauto.
  - right. destruct H as [-> H]. auto.
Qed.
Lemma literal_no_slash p n : literal p n -> ~ In 47 p.
Proof. intros H. apply tidy_no; auto. now apply literal_tidy in H. Qed.

(** ** Entries *)
Lemma sets_names nm u st r : sets nm u st r -> In nm fixed_names /\ ~ at_word nm.
Proof.
  intros H. assert (K : In nm fixed_names) by (destruct H; try (cbn; tauto); destruct f; cbn; tauto). split; auto.
  apply at_no. cbn in K. repeat destruct K as [<-|K]; try reflexivity. contradiction.
Qed.
Lemma sets_read i nm u st r : sets nm u st r -> match_token i nm u = Ok (apply_info i (ESet st), r).
Proof.
  intros H. destruct H as [u p r n V L|u p r n V L|u p r n V L|u p r n V L|u p r n V L|u p r n V L|u x y r n m V L M|u p r n V L|u p r n V L|f u]; unfold match_token.
  1-5: match goal with |- context [assoc_t ?n proc_fields] => let s := eval vm_compute in (assoc_t n proc_fields) in replace (assoc_t n proc_fields) with s by reflexivity end;
       rewrite (proj2 (int_arg_iff u n r)) by eauto; reflexivity.
  - change (assoc_t $"cookie" proc_fields) with (@None (info -> Z -> info)). change (assoc_t $"cookie" ofpff) with (@None Z). cbn match.
    change (text_eqb $"cookie" $"cookie") with true. cbn match. destruct (valued_get _ _ _ V) as (h & E1 & E2). rewrite E1, E2. cbn [assert bind].
    rewrite split1_none by (eapply literal_no_slash; eauto). rewrite (literal_alone _ _ L). cbn [bind]. rewrite Nat.eqb_refl. reflexivity.
  - change (assoc_t $"cookie" proc_fields) with (@None (info -> Z -> info)). change (assoc_t $"cookie" ofpff) with (@None Z). cbn match.
    change (text_eqb $"cookie" $"cookie") with true. cbn match. destruct (valued_get _ _ _ V) as (h & E1 & E2). rewrite E1, E2. cbn [assert bind].
    rewrite slash_text, split1_some by (eapply literal_no_slash; eauto). rewrite (literal_alone _ _ L). cbn [bind]. rewrite Nat.eqb_refl. cbn [assert bind].
    apply numberish_iff in M as (k & M). rewrite M. reflexivity.
  - change (assoc_t $"out_port" proc_fields) with (@None (info -> Z -> info)). change (assoc_t $"out_port" ofpff) with (@None Z). cbn match.
    change (text_eqb $"out_port" $"cookie") with false. change (text_eqb $"out_port" $"out_port") with true. cbn match.
    rewrite (named_arg_read ofpp u p n r V (port_tidy p n L) (port_of_named p n L)). reflexivity.
  - change (assoc_t $"out_group" proc_fields) with (@None (info -> Z -> info)). change (assoc_t $"out_group" ofpff) with (@None Z). cbn match.
    change (text_eqb $"out_group" $"cookie") with false. change (text_eqb $"out_group" $"out_port") with false.
    change (text_eqb $"out_group" $"out_group") with true. cbn match.
    rewrite (named_arg_read ofpg u p n r V (group_tidy p n L)) by (now apply named_num_group). reflexivity.
  - destruct f; reflexivity.
Qed.
Definition add_tlvs (i : info) (ts : list tlv) : info := add_match i (flat_map wire ts).
Lemma other_token i nm u : ~ In nm fixed_names -> match_token i nm u =
  ('(oxm, l) <- str2oxm (nm ++ u) false ;; if Nat.eqb l 0 then Raise ValueError else Ok (add_match i oxm, skipn l (nm ++ u))).
Proof.
  intros H. unfold match_token.
  assert (N : forall x, In x fixed_names -> text_eqb nm x = false) by (intros x Hx; apply Bool.not_true_iff_false; intros E; apply text_eqb_eq in E; subst; contradiction).
  replace (assoc_t nm proc_fields) with (@None (info -> Z -> info)) by (unfold proc_fields; cbn [assoc_t]; rewrite !N by (cbn; tauto); reflexivity).
  replace (assoc_t nm ofpff) with (@None Z) by (unfold ofpff; cbn [assoc_t]; rewrite !N by (cbn; tauto); reflexivity).
  rewrite !N by (cbn; tauto). reflexivity.
Qed.
Lemma skip_rest (u r : text) : ends_with u r -> skipn (length u - length r) u = r.
Proof.
  intros (x & ->). replace (length (x ++ r) - length r)%nat with (length x) by (rewrite app_length; unfold text; lia). apply skipn_len_app.
Qed.
Lemma consumed (u r : text) : ends_with u r -> (length u - length r)%nat = 0%nat <-> r = u.
Proof.
  intros (x & ->). split.
  - intros H. destruct x as [|c x]; [reflexivity|]. cbn [app length] in H. rewrite app_length in H. unfold text in *. lia.
  - intros H. apply (f_equal (@length Z)) in H. unfold text in *. rewrite app_length in *. lia.
Qed.
Lemma entry_sound i nm u i' r : match_token i nm u = Ok (i', r) ->
  (exists st, sets nm u st r /\ i' = apply_info i (ESet st))
  \/ (~ In nm fixed_names /\ exists ts, one_field notation (nm ++ u) ts r /\ r <> nm ++ u /\ i' = add_tlvs i ts).
Proof.
  intros H. destruct (in_dec (list_eq_dec Z.eq_dec) nm fixed_names) as [Hn|Hn].
  - left. unfold match_token in H. destruct (assoc_t nm proc_fields) as [set|] eqn:Ep.
    { mons H. injection H as <- <-. apply int_arg_iff in Ea as (p & V & L). apply assoc_in in Ep. cbn [proc_fields In] in Ep.
      repeat destruct Ep as [Ep|Ep]; try contradiction; injection Ep as <- <-;
        [exists (STable z)|exists (SPriority z)|exists (SIdle z)|exists (SHard z)|exists (SBuffer z)]; (split; [econstructor; eauto|reflexivity]). }
    destruct (assoc_t nm ofpff) as [fl|] eqn:Ef.
    { injection H as <- <-. apply assoc_in in Ef. cbn [ofpff In] in Ef. repeat destruct Ef as [Ef|Ef]; try contradiction; injection Ef as <- <-;
        [exists (SFlag SendFlowRem)|exists (SFlag CheckOverlap)|exists (SFlag ResetCounts)|exists (SFlag NoPktCounts)|exists (SFlag NoBytCounts)];
        (split; [match goal with |- sets _ _ (SFlag ?f) _ => exact (st_flag f u) end|reflexivity]). }
    destruct (text_eqb nm $"cookie") eqn:E1.
    { apply text_eqb_eq in E1. subst nm. destruct (get_token u) as [[op pl] rest] eqn:E2. mon H. 
      destruct (slash_split pl) as [(x & y & Hp & E)|[E Hp]]; rewrite E in H; mons H.
      - injection H as <- <-. apply Nat.eqb_eq in Eb0. subst pl. exists (SCookie z (Some z0)). split; [|reflexivity].
        apply (st_cookie_mask u x y rest z z0); [eapply get_valued; eauto|apply literal_iff; now subst|apply numberish_iff; eauto].
      - injection H as <- <-. apply Nat.eqb_eq in Eb0. exists (SCookie z None). split; [|reflexivity].
        apply (st_cookie u pl rest z); [eapply get_valued; eauto|apply literal_iff; now subst]. }
    destruct (text_eqb nm $"out_port") eqn:E2.
    { apply text_eqb_eq in E2. subst nm. mons H. injection H as <- <-. apply named_arg_inv in Ea as (p & V & L). apply named_num_port in L.
      exists (SPort z). split; [eapply st_port; eauto|reflexivity]. }
    destruct (text_eqb nm $"out_group") eqn:E3.
    { apply text_eqb_eq in E3. subst nm. mons H. injection H as <- <-. apply named_arg_inv in Ea as (p & V & L). apply named_num_group in L.
      exists (SGroup z). split; [eapply st_group; eauto|reflexivity]. }
    exfalso. cbn in Hn. repeat destruct Hn as [<-|Hn]; try discriminate; contradiction.
  - right. split; auto. rewrite other_token in H by auto. mons H. destruct (Nat.eqb_spec n 0) as [|Hz]; [discriminate|].
    apply one_field_sound in Ea as (ts & r' & F & -> & ->). pose proof (one_field_end _ _ _ _ F) as He. rewrite skip_rest in H by auto.
    assert (i' = add_match i (flat_map wire ts) /\ r = r') as [-> ->] by (split; congruence). exists ts. split; auto. split; [|reflexivity].
    intros E. apply Hz, consumed; auto.
Qed.
Lemma entry_read i nm u ts r : ~ In nm fixed_names -> one_field notation (nm ++ u) ts r -> r <> nm ++ u -> match_token i nm u = Ok (add_tlvs i ts, r).
Proof.
  intros Hn F Hr. rewrite other_token by auto. pose proof (one_field_end _ _ _ _ F) as He. rewrite (one_field_read _ _ _ F). cbn [bind].
  destruct (Nat.eqb_spec (length (nm ++ u) - length r) 0) as [E|_]; [apply consumed in E; auto; contradiction|]. now rewrite skip_rest.
Qed.
(** a match field does not begin with "@" *)
Lemma field_no_at N s nm u ts r : word s nm u -> one_field N (nm ++ u) ts r -> r <> nm ++ u -> ~ at_word nm.
Proof.
  intros (h & K & _) F Hr A. assert (Hu : exists x, nm ++ u = 64 :: x) by (destruct A as (x & ->); exists (x ++ u); reflexivity).
  destruct Hu as (x & Hu). rewrite Hu in F. assert (B : forall f h' y, readable f -> Forall filler h' -> 64 :: x = h' ++ fname f ++ y -> False).
  { intros f h' y Hf Hh E. destruct h' as [|c h'].
    - cbn [app] in E. apply accepted_readable in Hf. pose proof (proj1 (forallb_forall _ _) fields_not_words f Hf) as W. apply andb_prop in W as [_ W].
      apply negb_true_iff in W. destruct (fname f) as [|c n] eqn:En; [now apply (name_some f [] []) in Hf; rewrite En in Hf|].
      cbn in W, E. injection E as <- _. discriminate.
    - injection E as <- _. inversion Hh as [|? ? Hc]; subst. destruct Hc as [Hc|Hc]; [unfold blank in Hc; lia|discriminate]. }
  inversion F; subst; eapply B; eauto.
Qed.

(** ** Instructions *)
Lemma two_names nm n : in_names nm [short_name n; long_name n] = true <-> spells n nm.
Proof.
  unfold in_names, spells. cbn [existsb]. rewrite orb_false_r, orb_true_iff, !text_eqb_eq. reflexivity.
Qed.
Lemma names_other nm n n' : spells n nm -> n <> n' -> in_names nm [short_name n'; long_name n'] = false.
Proof. intros [->| ->] H; destruct n, n'; try reflexivity; congruence. Qed.
Lemma spells_at n nm : spells n nm -> at_word nm.
Proof. intros [->| ->]; apply at_iff; destruct n; reflexivity. Qed.
Lemma instructs_at nm u i r : instructs nm u i r -> at_word nm.
Proof. intros H. destruct H; try (eapply spells_at; eassumption). now exists $"meter". Qed.
Lemma acts_at nm t : acts_name nm t -> at_word nm.
Proof. intros H. destruct H; eapply spells_at; eassumption. Qed.
Lemma inst_sound i acts nm s st r : inst_token i acts nm s = Ok (st, r) ->
  (exists ins, instructs nm s ins r /\ st = DState (add_inst i (instr_wire ins)) None acts PhNoarg)
  \/ (exists t, acts_name nm t /\ s = r /\ st = DState i (Some t) [] PhAction).
Proof.
  unfold inst_token. intros H.
  destruct (in_names nm [$"@goto"; $"@goto_table"]) eqn:E1.
  { left. apply (two_names nm NGoto) in E1. destruct (get_token s) as [[op pl] rest] eqn:Et. mons H. assert (st = DState (add_inst i a) None acts PhNoarg /\ r = rest) as [-> ->] by (split; congruence).
    apply pack_u_inv in Ea0 as (_ & a1 & Ea0 & ->). apply pack_u_inv in Ea0 as (_ & a2 & Ea0 & ->). apply pack_u_inv in Ea0 as (Hz & a3 & Ea0 & ->).
    apply pack_x_inv in Ea0 as (a4 & Ea0 & ->). apply pack_nil_inv in Ea0 as ->. apply Nat.eqb_eq in Eb0.
    exists (Goto z). split; [|reflexivity]. apply (is_goto nm s pl rest z); auto; [eapply get_valued; eauto|apply literal_iff; now subst]. }
  destruct (in_names nm [$"@metadata"; $"@write_metadata"]) eqn:E2.
  { left. apply (two_names nm NMetadata) in E2. destruct (get_token s) as [[op pl] rest] eqn:Et. mon H.
    destruct (slash_split pl) as [(x & y & Hp & E)|[E Hp]]; rewrite E in H; mons H.
    - assert (st = DState (add_inst i a0) None acts PhNoarg /\ r = rest) as [-> ->] by (split; congruence).
      mons Ea0. injection Ea0 as <-. apply pack_u_inv in Ea1 as (_ & a1 & Ea1 & ->). apply pack_u_inv in Ea1 as (_ & a2 & Ea1 & ->). apply pack_x_inv in Ea1 as (a4 & Ea1 & ->).
      apply pack_u_inv in Ea1 as (Hz & a5 & Ea1 & ->). apply pack_u_inv in Ea1 as (Hm & a6 & Ea1 & ->). apply pack_nil_inv in Ea1 as ->. apply Nat.eqb_eq in Eb0, Eb1.
      exists (WriteMetadata z z0). split; [|reflexivity]. apply (is_metadata_mask nm s x y rest z z0); auto; [rewrite <- Hp; eapply get_valued; eauto|apply literal_iff; now subst|apply literal_iff; now subst].
    - assert (st = DState (add_inst i a) None acts PhNoarg /\ r = rest) as [-> ->] by (split; congruence).
      apply pack_u_inv in Ea0 as (_ & a1 & Ea0 & ->). apply pack_u_inv in Ea0 as (_ & a2 & Ea0 & ->). apply pack_x_inv in Ea0 as (a4 & Ea0 & ->).
      apply pack_u_inv in Ea0 as (Hz & a5 & Ea0 & ->). apply pack_u_inv in Ea0 as (Hm & a6 & Ea0 & ->). apply pack_nil_inv in Ea0 as ->. apply Nat.eqb_eq in Eb0.
      exists (WriteMetadata z 0). split; [|reflexivity]. apply (is_metadata nm s pl rest z); auto; [eapply get_valued; eauto|apply literal_iff; now subst]. }
  destruct (in_names nm [$"@apply"; $"@apply_actions"]) eqn:E3.
  { right. exists 4. injection H as <- <-. apply (two_names nm NApply) in E3. split; [now constructor|auto]. }
  destruct (in_names nm [$"@write"; $"@write_actions"]) eqn:E4.
  { right. exists 3. injection H as <- <-. apply (two_names nm NWrite) in E4. split; [now constructor|auto]. }
  destruct (in_names nm [$"@clear"; $"@clear_actions"]) eqn:E5.
  { left. apply (two_names nm NClear) in E5. mons H. assert (st = DState (add_inst i a) None acts PhNoarg /\ r = s) as [-> ->] by (split; congruence).
    apply pack_u_inv in Ea as (_ & a1 & Ea & ->). apply pack_u_inv in Ea as (_ & a2 & Ea & ->). apply pack_x_inv in Ea as (a4 & Ea & ->). apply pack_nil_inv in Ea as ->.
    exists ClearActions. split; [now constructor|reflexivity]. }
  destruct (text_eqb nm $"@meter") eqn:E6; [|discriminate].
  left. destruct (get_token s) as [[op pl] rest] eqn:Et. mons H. assert (st = DState (add_inst i a) None acts PhNoarg /\ r = rest) as [-> ->] by (split; congruence).
  apply pack_u_inv in Ea0 as (_ & a1 & Ea0 & ->). apply pack_u_inv in Ea0 as (_ & a2 & Ea0 & ->). apply pack_u_inv in Ea0 as (Hz & a3 & Ea0 & ->). apply pack_nil_inv in Ea0 as ->.
  apply text_eqb_eq in E6. subst nm. exists (Meter z). split; [|reflexivity]. apply Nat.eqb_eq in Eb1.
  apply (is_meter s pl rest z); auto; [eapply get_valued; eauto|apply literal_iff; now subst].
Qed.
Lemma inst_read i acts nm u ins r : instructs nm u ins r -> inst_token i acts nm u = Ok (DState (add_inst i (instr_wire ins)) None acts PhNoarg, r).
Proof.
  intros H. destruct H as [nm u p r n Hn V L B|nm u p r v Hn V L B|nm u x y r v m Hn V L M B B'|nm u Hn|u p r n V L B]; unfold inst_token.
  - replace (in_names nm [$"@goto"; $"@goto_table"]) with true by (destruct Hn as [-> | ->]; reflexivity).
    destruct (valued_get _ _ _ V) as (h & E1 & E2). rewrite E1, E2. cbn [assert bind]. rewrite (literal_alone _ _ L). cbn [bind]. rewrite Nat.eqb_refl. cbn [assert bind].
    packs. unfold instr_wire, std_act. rewrite ?app_length, ?be_length, ?pad_length. reflexivity.
  - replace (in_names nm [$"@goto"; $"@goto_table"]) with false by (destruct Hn as [-> | ->]; reflexivity).
    replace (in_names nm [$"@metadata"; $"@write_metadata"]) with true by (destruct Hn as [-> | ->]; reflexivity).
    destruct (valued_get _ _ _ V) as (h & E1 & E2). rewrite E1, E2. cbn [assert bind]. rewrite split1_none by (eapply literal_no_slash; eauto).
    rewrite (literal_alone _ _ L). cbn [bind]. rewrite Nat.eqb_refl. cbn [assert bind].
    assert (B' : in_bytes 8 0) by (unfold in_bytes; cbn; lia). packs. unfold instr_wire, std_act. rewrite ?app_length, ?be_length, ?pad_length. reflexivity.
  - replace (in_names nm [$"@goto"; $"@goto_table"]) with false by (destruct Hn as [-> | ->]; reflexivity).
    replace (in_names nm [$"@metadata"; $"@write_metadata"]) with true by (destruct Hn as [-> | ->]; reflexivity).
    destruct (valued_get _ _ _ V) as (h & E1 & E2). rewrite E1, E2. cbn [assert bind]. rewrite slash_text, split1_some by (eapply literal_no_slash; eauto).
    rewrite (literal_alone _ _ L). cbn [bind]. rewrite Nat.eqb_refl. cbn [assert bind]. rewrite (literal_alone _ _ M). cbn [bind]. rewrite Nat.eqb_refl. cbn [assert bind].
    packs. unfold instr_wire, std_act. rewrite ?app_length, ?be_length, ?pad_length. reflexivity.
  - replace (in_names nm [$"@goto"; $"@goto_table"]) with false by (destruct Hn as [-> | ->]; reflexivity).
    replace (in_names nm [$"@metadata"; $"@write_metadata"]) with false by (destruct Hn as [-> | ->]; reflexivity).
    replace (in_names nm [$"@apply"; $"@apply_actions"]) with false by (destruct Hn as [-> | ->]; reflexivity).
    replace (in_names nm [$"@write"; $"@write_actions"]) with false by (destruct Hn as [-> | ->]; reflexivity).
    replace (in_names nm [$"@clear"; $"@clear_actions"]) with true by (destruct Hn as [-> | ->]; reflexivity). packs. unfold instr_wire, std_act. rewrite ?app_length, ?be_length, ?pad_length. reflexivity.
  - change (in_names $"@meter" [$"@goto"; $"@goto_table"]) with false. change (in_names $"@meter" [$"@metadata"; $"@write_metadata"]) with false.
    change (in_names $"@meter" [$"@apply"; $"@apply_actions"]) with false. change (in_names $"@meter" [$"@write"; $"@write_actions"]) with false.
    change (in_names $"@meter" [$"@clear"; $"@clear_actions"]) with false. change (text_eqb $"@meter" $"@meter") with true. cbn match.
    destruct (valued_get _ _ _ V) as (h & E1 & E2). rewrite E1, E2, tidy_no_slash by (now apply literal_tidy in L). cbn [assert bind negb].
    rewrite (literal_alone _ _ L). cbn [bind]. rewrite Nat.eqb_refl. cbn [assert bind].
    packs. unfold instr_wire, std_act. rewrite ?app_length, ?be_length, ?pad_length. reflexivity.
Qed.
Lemma acts_read i acts nm u t : acts_name nm t -> inst_token i acts nm u = Ok (DState i (Some t) [] PhAction, u).
Proof. intros H. destruct H as [nm [->| ->]|nm [->| ->]]; reflexivity. Qed.

(** ** The whole rule *)
Definition entries_of (l : list rpart) : list entry :=
  flat_map (fun p => match p with RSet s => [ESet s] | RMatch t => [EMatch t] | _ => [] end) l.
Definition built (i : info) (pend : option (Z * bytes)) (l : list rpart) : info :=
  add_inst (fold_left apply_info (entries_of l) i) (concat (r_insts pend l)).
Definition fits (l : list bytes) : Prop := Forall (fun b => Z.of_nat (length b) <= 65535) l.
Definition pend_type (pend : option (Z * bytes)) : Prop := match pend with Some (t, _) => t = 3 \/ t = 4 | None => True end.

Lemma std_len t p : length (std_act t p) = (4 + length p)%nat.
Proof. unfold std_act. rewrite !app_length, !be_length. lia. Qed.
Lemma instr_len nm u i r : instructs nm u i r -> Z.of_nat (length (instr_wire i)) <= 65535.
Proof. intros H. destruct H; unfold instr_wire; rewrite std_len, ?app_length, ?be_length; cbn; lia. Qed.
Lemma flushed_iff st j : proper st -> flushed st = Ok j <-> fits (pending (pend_of st)) /\ j = add_inst (d_info st) (concat (pending (pend_of st))).
Proof.
  destruct st as [i func acts ph]. unfold proper, flushed, pend_of. cbn [d_info d_func d_acts d_phase]. intros Hp. destruct func as [t|].
  - assert (Ht : t = 3 \/ t = 4) by (destruct ph; try discriminate; destruct Hp as [Hp|Hp]; injection Hp as ->; auto). cbn [pending concat]. rewrite app_nil_r. split.
    + intros H. split.
      * constructor; [|constructor]. rewrite std_len, app_length. unfold flush_acts in H. mons H. apply pack_u_inv in Ea as (_ & a1 & Ea & _). apply pack_u_inv in Ea as (Hl & _).
        unfold in_bytes in Hl. cbn [pad repeat length] in *. change (256 ^ Z.of_nat 2) with 65536 in Hl. lia.
      * apply flush_inv in H. exact H.
    + intros [Hf ->]. inversion Hf as [|? ? Hl _]; subst. unfold flush_acts. rewrite std_len in Hl. cbn [length] in Hl.
      rewrite pack_u by (destruct Ht as [->| ->]; unfold in_bytes; cbn; lia). rewrite pack_u by (unfold in_bytes; change (256 ^ Z.of_nat 2) with 65536; lia).
      rewrite pack_x. change (pack [] []) with (Ok (@nil byte)). cbn [bind]. f_equal. f_equal. unfold std_act. rewrite app_length. cbn [pad repeat length].
      rewrite <- !app_assoc. cbn [app]. replace (8 + Z.of_nat (length acts)) with (Z.of_nat (4 + (4 + length acts))) by lia. reflexivity.
  - cbn [pending concat flush_acts]. split.
    + intros H. injection H as <-. split; [constructor|]. destruct i. unfold add_inst. now rewrite app_nil_r.
    + intros [_ ->]. destruct i. unfold add_inst. now rewrite app_nil_r.
Qed.

Lemma add_inst_twice i a b : add_inst (add_inst i a) b = add_inst i (a ++ b).
Proof. destruct i. unfold add_inst. now rewrite app_assoc. Qed.
Lemma add_inst_nil i : add_inst i [] = i.
Proof. destruct i. unfold add_inst. now rewrite app_nil_r. Qed.
Lemma apply_inst es : forall i b, fold_left apply_info es (add_inst i b) = add_inst (fold_left apply_info es i) b.
Proof.
  induction es as [|e es IH]; intros i b; [reflexivity|]. cbn [fold_left]. rewrite <- IH. f_equal. destruct i, e as [[]|]; try destruct m; reflexivity.
Qed.
Lemma apply_tlvs ts : forall i, fold_left apply_info (map EMatch ts) i = add_tlvs i ts.
Proof.
  induction ts as [|t ts IH]; intros i; cbn [map fold_left]; unfold add_tlvs in *; [destruct i; cbn; now rewrite app_nil_r|].
  rewrite IH. destruct i. cbn [apply_info add_match flat_map]. now rewrite app_assoc.
Qed.
Lemma entries_tlvs ts l : entries_of (map RMatch ts ++ l) = map EMatch ts ++ entries_of l.
Proof. unfold entries_of. induction ts as [|t ts IH]; [reflexivity|]. cbn [map app flat_map]. now rewrite IH. Qed.
Lemma insts_tlvs ts pend l : r_insts pend (map RMatch ts ++ l) = r_insts pend l.
Proof. induction ts; auto. Qed.
Lemma fits_app a b : fits (a ++ b) <-> fits a /\ fits b.
Proof. apply Forall_app. Qed.

Lemma rule_sound fuel : forall st s st' j, dict_go fuel st s = Ok st' -> flushed st' = Ok j -> proper st ->
  exists l, rule_reads notation (place_of (d_phase st)) s l /\ fits (r_insts (pend_of st) l) /\ j = built (d_info st) (pend_of st) l.
Proof.
  induction fuel as [|fuel IH]; intros st [|c s] st' j H Hj Hp; cbn [dict_go] in H; try discriminate;
    try (injection H as <-; exists []; split; [constructor|]; apply flushed_iff in Hj; [exact Hj|exact Hp]).
  mons H. rename d into st1, t into rest. remember (c :: s) as u eqn:Eu. clear Eu c s. destruct st as [i func acts ph]. unfold dict_step in Ea.
  destruct (get_token u) as [[h nm] r0] eqn:Et. mons Ea. rewrite negb_true_iff in Eb. pose proof (get_word _ _ _ _ Et Eb) as Hw. cbn [d_phase d_info d_func d_acts] in *.
  destruct (startswith $"@" nm) eqn:Es.
  - mons Ea. rename a into i1. apply (flushed_iff (DState i func acts ph)) in Ea0 as [Hf Hi]; [|exact Hp]. cbn [d_info] in Hi.
    destruct (inst_sound _ _ _ _ _ _ Ea) as [(ins & Hn & Est)|(t & Hn & Hx & Est)].
    + destruct (IH st1 rest st' j H Hj) as (l & A1 & A2 & A3); [rewrite Est; reflexivity|]. rewrite Est in A1, A2, A3. cbn [d_phase place_of d_info pend_of d_func] in *.
      exists (RInstr ins :: l). split; [eapply rr_instr; eauto|]. split.
      * cbn [r_insts]. apply fits_app. split; [exact Hf|]. constructor; [eapply instr_len; eauto|exact A2].
      * rewrite A3, Hi. unfold built. cbn [entries_of flat_map app r_insts]. fold (entries_of l). rewrite !apply_inst, !add_inst_twice, concat_app. cbn [concat]. now rewrite <- ?app_assoc.
    + destruct (IH st1 rest st' j H Hj) as (l & A1 & A2 & A3); [rewrite Est; destruct Hn; [left|right]; reflexivity|]. rewrite Est in A1, A2, A3. cbn [d_phase place_of d_info pend_of d_func d_acts] in *.
      subst rest. exists (RActs t :: l). split; [eapply rr_acts; eauto|]. split.
      * cbn [r_insts]. apply fits_app. auto.
      * rewrite A3, Hi. unfold built. cbn [entries_of flat_map app r_insts]. fold (entries_of l). rewrite !apply_inst, !add_inst_twice, concat_app. now rewrite <- ?app_assoc.
  - apply at_no in Es. destruct ph; [| |discriminate].
    + mons Ea. rename i0 into i1. assert (Est : st1 = DState i1 func acts PhMatch /\ rest = t) by (split; congruence). destruct Est as [Est ->]. clear Ea.
      destruct (IH st1 t st' j H Hj) as (l & A1 & A2 & A3); [rewrite Est; exact Hp|]. rewrite Est in A1, A2, A3. cbn [d_phase place_of d_info] in *.
      destruct (entry_sound _ _ _ _ _ Ea0) as [(se & Hs & ->)|(Hn & ts & Hf & Hr & ->)].
      * exists (RSet se :: l). split; [eapply rr_set; eauto|]. split; [exact A2|exact A3].
      * exists (map RMatch ts ++ l). split; [eapply rr_match; eauto|]. split; [rewrite insts_tlvs; exact A2|].
        rewrite A3. unfold built. rewrite entries_tlvs, insts_tlvs, fold_left_app, apply_tlvs. reflexivity.
    + mons Ea. destruct (Nat.eqb_spec n 0) as [|Hn0]; [discriminate|]. assert (Est : st1 = DState i func (acts ++ b) PhAction /\ rest = skipn n (nm ++ r0)) by (split; congruence).
      destruct Est as [Est ->]. clear Ea. apply str2act_sound in Ea0 as (r & Ha & ->). pose proof (action_end _ _ _ _ Ha) as He. rewrite skip_rest in H by auto.
      destruct (IH st1 _ st' j H Hj) as (l & A1 & A2 & A3); [rewrite Est; exact Hp|]. rewrite Est in A1, A2, A3. cbn [d_phase place_of d_info pend_of d_func d_acts] in *.
      exists (RAct b :: l). split; [eapply rr_act; eauto; intros E; apply Hn0, consumed; auto|].
      unfold built in *. cbn [r_insts entries_of flat_map app]. fold (entries_of l). unfold pend_of, proper in *. cbn [d_phase d_func d_acts option_map] in *.
      destruct Hp as [-> | ->]; cbn [option_map]; auto.
Qed.
Lemma rule_read w s l : rule_reads notation w s l -> forall st, place_of (d_phase st) = w -> proper st -> fits (r_insts (pend_of st) l) ->
  exists st', dict_run st s = Ok st' /\ flushed st' = Ok (built (d_info st) (pend_of st) l).
Proof.
  induction 1 as [w|s nm u se r l W Hs _ IH|s nm u ts r l W Hn Hf Hr _ IH|w s nm u ins r l W Hi _ IH|w s nm u t l W Ha _ IH|s nm u b r l W Hn Ha Hr _ IH]; intros st Hw Hp Hfit.
  - exists st. split; [reflexivity|]. apply flushed_iff; auto.
  - destruct (word_get _ _ _ W) as (h & Et & Eb). destruct st as [i func acts ph]. destruct ph; try discriminate. cbn [d_info] in *.
    destruct (sets_names _ _ _ _ Hs) as [Hin Hat].
    destruct (IH (DState (apply_info i (ESet se)) func acts PhMatch)) as (st' & R & F); auto. exists st'. split; [|exact F]. rewrite <- R. apply dict_run_step.
    + eapply word_some; eauto. cbn in Hin. repeat destruct Hin as [<-|Hin]; try discriminate. contradiction.
    + unfold dict_step. rewrite Et, Eb. cbn [negb assert bind]. apply at_no in Hat. rewrite Hat. rewrite (sets_read i nm u se r Hs). reflexivity.
  - destruct (word_get _ _ _ W) as (h & Et & Eb). destruct st as [i func acts ph]. destruct ph; try discriminate. cbn [d_info] in *.
    pose proof (field_no_at _ _ _ _ _ _ W Hf Hr) as Hat. pose proof (one_field_end _ _ _ _ Hf) as He. rewrite insts_tlvs in Hfit.
    destruct (IH (DState (add_tlvs i ts) func acts PhMatch)) as (st' & R & F); auto. exists st'. split.
    + rewrite <- R. apply dict_run_step.
      * eapply word_some; eauto. intros E. rewrite E in He, Hr. destruct He as (x & He). symmetry in He. apply app_eq_nil in He as [_ ->]. contradiction.
      * unfold dict_step. rewrite Et, Eb. cbn [negb assert bind]. apply at_no in Hat. rewrite Hat. rewrite (entry_read i nm u ts r Hn Hf Hr). reflexivity.
    + rewrite F. unfold built. cbn [d_info]. unfold pend_of. cbn [d_func d_acts]. rewrite entries_tlvs, insts_tlvs, fold_left_app, apply_tlvs. reflexivity.
  - destruct (word_get _ _ _ W) as (h & Et & Eb). pose proof (instructs_at _ _ _ _ Hi) as Hat. cbn [r_insts] in Hfit. apply fits_app in Hfit as [F1 F2]. inversion F2 as [|? ? _ F3]; subst.
    assert (Hfl : flushed st = Ok (add_inst (d_info st) (concat (pending (pend_of st))))) by (apply flushed_iff; auto).
    destruct (IH (DState (add_inst (add_inst (d_info st) (concat (pending (pend_of st)))) (instr_wire ins)) None (d_acts st) PhNoarg)) as (st' & R & F); auto; [reflexivity|].
    exists st'. split.
    + rewrite <- R. apply dict_run_step; [eapply word_some; eauto; destruct Hat as (x & ->); discriminate|]. apply at_iff in Hat.
      rewrite (step_at st _ h nm u s Et (head_filler _ _ _ _ Et Eb) Hat Hfl). now apply inst_read.
    + rewrite F. unfold built. cbn [d_info pend_of d_func entries_of flat_map app r_insts]. fold (entries_of l). rewrite !apply_inst, !add_inst_twice, concat_app. cbn [concat]. now rewrite <- ?app_assoc.
  - destruct (word_get _ _ _ W) as (h & Et & Eb). pose proof (acts_at _ _ Ha) as Hat. cbn [r_insts] in Hfit. apply fits_app in Hfit as [F1 F2].
    assert (Hfl : flushed st = Ok (add_inst (d_info st) (concat (pending (pend_of st))))) by (apply flushed_iff; auto).
    destruct (IH (DState (add_inst (d_info st) (concat (pending (pend_of st)))) (Some t) [] PhAction)) as (st' & R & F); auto; [destruct Ha; [left|right]; reflexivity|].
    exists st'. split.
    + rewrite <- R. apply dict_run_step; [eapply word_some; eauto; destruct Hat as (x & ->); discriminate|]. apply at_iff in Hat.
      rewrite (step_at st _ h nm u s Et (head_filler _ _ _ _ Et Eb) Hat Hfl). now apply acts_read.
    + rewrite F. unfold built. cbn [d_info pend_of d_func d_acts entries_of flat_map app r_insts]. fold (entries_of l). rewrite !apply_inst, !add_inst_twice, concat_app. now rewrite <- ?app_assoc.
  - destruct (word_get _ _ _ W) as (h & Et & Eb). destruct st as [i func acts ph]. destruct ph; try discriminate. cbn [d_info] in *.
    pose proof (action_end _ _ _ _ Ha) as He. unfold proper, pend_of in *. cbn [d_phase d_func d_acts] in *.
    destruct (IH (DState i func (acts ++ b) PhAction)) as (st' & R & F); auto; [cbn [d_func d_acts]; destruct Hp as [-> | ->]; exact Hfit|]. exists st'. split.
    + rewrite <- R. apply dict_run_step.
      * eapply word_some; eauto. intros E. rewrite E in He, Hr. destruct He as (x & He). symmetry in He. apply app_eq_nil in He as [_ ->]. contradiction.
      * unfold dict_step. rewrite Et, Eb. cbn [negb assert bind]. apply at_no in Hn. rewrite Hn. rewrite (str2act_read _ _ _ Ha). cbn [bind].
        destruct (Nat.eqb_spec (length (nm ++ u) - length r) 0) as [E|_]; [apply consumed in E; auto; contradiction|]. now rewrite skip_rest.
    + rewrite F. unfold built. cbn [d_info d_func d_acts entries_of flat_map app r_insts]. fold (entries_of l). destruct Hp as [-> | ->]; reflexivity.
Qed.
Lemma dict_sound s i : str2dict s = Ok i -> exists l, rule_reads notation AtEntry s l /\ fits (r_insts None l) /\ i = built info0 None l.
Proof.
  rewrite str2dict_run. unfold dict_run. intros H. mon H. destruct a as [i1 func acts ph].
  apply (rule_sound _ _ _ _ _ Ea H). reflexivity.
Qed.
Lemma dict_read s l : rule_reads notation AtEntry s l -> fits (r_insts None l) -> str2dict s = Ok (built info0 None l).
Proof.
  intros H F. rewrite str2dict_run. destruct (rule_read _ _ _ H (DState info0 None [] PhMatch)) as (st & R & Hf); auto; [reflexivity|].
  rewrite R. cbn [bind]. destruct st as [i1 func acts ph]. exact Hf.
Qed.

(** ** The message *)
Lemma built_parts d l : x_flags d = 0 ->
  i_match (built info0 None l) = flat_map wire (r_match l) /\ i_inst (built info0 None l) = concat (r_insts None l)
  /\ view d (built info0 None l) = fold_left apply_set (r_sets l) d.
Proof.
  intros Hd. unfold built. destruct (apply_parts (entries_of l) info0 d Hd) as (A1 & A2 & A3).
  destruct (add_inst_parts (fold_left apply_info (entries_of l) info0) (concat (r_insts None l))) as [-> ->].
  rewrite A1, A2. cbn [i_match i_inst info0 app].
  assert (M : matches_of (entries_of l) = r_match l) by (unfold matches_of, entries_of, r_match; clear; induction l as [|[] l IH]; cbn [flat_map app]; rewrite ?IH; reflexivity).
  assert (S : sets_of (entries_of l) = r_sets l) by (unfold sets_of, entries_of, r_sets; clear; induction l as [|[] l IH]; cbn [flat_map app]; rewrite ?IH; reflexivity).
  rewrite M. split; [reflexivity|split; [reflexivity|]].
  replace (view d (add_inst (fold_left apply_info (entries_of l) info0) (concat (r_insts None l)))) with (view d (fold_left apply_info (entries_of l) info0)) by (destruct (fold_left apply_info (entries_of l) info0); reflexivity).
  rewrite A3. unfold fixed_of. rewrite S. f_equal. destruct d. cbn in Hd. subst. reflexivity.
Qed.
Lemma fits_concat l : Z.of_nat (length (concat l)) <= 65535 -> fits l.
Proof.
  induction l as [|b l IH]; intros H; constructor; cbn [concat] in H; rewrite app_length in H; [lia|]. apply IH. lia.
Qed.
Lemma message_sound s cmd xid m : str2mod s cmd xid = Ok m -> rule_message notation s cmd xid m.
Proof.
  intros H. unfold str2mod in H. mons H. rename a into i, a0 into mb, a1 into hd. rewrite mod_view in Ea1.
  destruct (dict_sound _ _ Ea) as (l & A1 & A2 & A3). apply match_block_inv in Ea0.
  destruct (built_parts (defaults cmd) l) as (B1 & B2 & B3); [unfold defaults; destruct (deleting cmd); reflexivity|]. rewrite <- A3 in B1, B2, B3.
  exists l. split; [exact A1|]. cbv zeta. rewrite <- B3. set (x := view (defaults cmd) i) in *.
  unfold mod_fmt in Ea1. do 15 next_field Ea1. apply pack_x_inv in Ea1 as (b14 & Ea1 & ->). apply pack_nil_inv in Ea1 as ->.
  rewrite B1, B2 in *. set (L := 48 + Z.of_nat (align8 (4 + length (flat_map wire (r_match l)))) + Z.of_nat (length (concat (r_insts None l)))) in *.
  assert (Em : m = mod_head cmd xid L x ++ match_wire (r_match l) ++ concat (r_insts None l)).
  { assert (E : m = (be 1 4 ++ be 1 14 ++ be 2 L ++ be 4 xid ++ be 8 (x_cookie x) ++ be 8 (x_mask x) ++ be 1 (x_table x) ++ be 1 cmd
    ++ be 2 (x_idle x) ++ be 2 (x_hard x) ++ be 2 (x_priority x) ++ be 4 (x_buffer x) ++ be 4 (x_port x) ++ be 4 (x_group x) ++ be 2 (x_flags x) ++ pad 2 ++ []) ++ mb ++ concat (r_insts None l))
     by congruence.
    rewrite E, Ea0. unfold mod_head, match_wire. rewrite app_nil_r, <- !app_assoc. reflexivity. }
  assert (EL : L = Z.of_nat (length m)).
  { rewrite Em, !app_length, match_length. unfold mod_head. rewrite !app_length, !be_length. unfold L. change (length (pad 2)) with 2%nat. lia. }
  assert (HL : 0 <= L <= 65535). { match goal with K : in_bytes 2 L |- _ => unfold in_bytes in K; change (256 ^ Z.of_nat 2) with 65536 in K; lia end. }
  rewrite <- EL. repeat match goal with |- _ /\ _ => split end; auto; try lia. unfold fixed_ok. auto 12.
Qed.
Lemma message_read s cmd xid m : rule_message notation s cmd xid m -> str2mod s cmd xid = Ok m.
Proof.
  intros (l & A1 & Hc & Hx & Hf & Hl & Em). cbv zeta in *. destruct (built_parts (defaults cmd) l) as (B1 & B2 & B3); [unfold defaults; destruct (deleting cmd); reflexivity|].
  rewrite <- B3 in *. set (x := view (defaults cmd) (built info0 None l)) in *.
  set (L := 48 + Z.of_nat (align8 (4 + length (flat_map wire (r_match l)))) + Z.of_nat (length (concat (r_insts None l)))).
  assert (EL : Z.of_nat (length m) = L).
  { rewrite Em, !app_length, match_length. unfold mod_head. rewrite !app_length, !be_length. unfold L. change (length (pad 2)) with 2%nat. lia. }
  rewrite EL in *. assert (HL : in_bytes 2 L) by (unfold in_bytes; change (256 ^ Z.of_nat 2) with 65536; unfold L in *; lia).
  pose proof (align8_ge (4 + length (flat_map wire (r_match l)))) as Ha.
  unfold str2mod. rewrite (dict_read s l A1) by (apply fits_concat; unfold L in Hl; lia). cbn [bind]. cbv zeta. rewrite mod_view.
  fold x. rewrite B1, B2. fold L. rewrite match_block_ok by (unfold L in Hl; lia). cbn [bind].
  destruct Hf as (? & ? & ? & ? & ? & ? & ? & ? & ? & ?). unfold mod_fmt. packs. rewrite Em.
  unfold mod_head, match_wire. rewrite <- !app_assoc. reflexivity.
Qed.
