(** Reading note, bundle_load and learn; then every action. *)
From Coq Require Import Strings.Ascii.
From Verif Require Import Base PyNum Util PyLib OxmCodec OxmTables Oxm Nx Ofp4 Spec SpecOxm SpecOfp.
From Verif Require Import BaseFacts UtilFacts NumFacts OxmRead OxmPrint OxmFacts OxmMore ActBase ActRead ActReadNx ActReadReg.

(** ** note *)
Lemma note_plain b : Forall note_byte b -> Forall plain (map byte_val b).
Proof.
  intros H. apply Forall_map. eapply Forall_impl; [|exact H]. intros c [Hc Hn]. unfold plain. revert Hn. chr_red. cbn [In]. lia.
Qed.
Lemma fix_len_ok p sub : Z.of_nat (10 + length p) <= 65535 ->
  fix_act_len (nx_head sub ++ p) = Ok (std_act 0xffff (be 4 0x2320 ++ be 2 sub ++ p)).
Proof.
  intros H. unfold fix_act_len. rewrite app_length, nx_head_length. rewrite pack_u by (apply in_bytes_2; lia). rewrite pack_nil. cbn [bind].
  unfold nx_head, std_act. rewrite <- !app_assoc. rewrite (firstn_app_exact 2) by apply be_length.
  replace (skipn 4 (be 2 65535 ++ be 2 10 ++ be 4 8992 ++ be 2 sub ++ p)) with (be 4 8992 ++ be 2 sub ++ p)
    by (symmetry; rewrite (app_assoc (be 2 65535)); apply skipn_app_exact; len).
  rewrite !app_length, !be_length. reflexivity.
Qed.
Lemma note_arg b : act_ok (Note b) -> reads_arg (qp_str2act 8) (map byte_val b) (act_wire (Note b)).
Proof.
  intros [[Hb Hn] Hl]. pose proof (note_plain b Hb) as Hp. cbn [act_wire] in *. revert Hl. unfold std_act. len. intros Hl.
  apply tok_reads; auto; [destruct b; [congruence|discriminate]|].
  intros h r ra Ha Hr E. unfold qp_str2act. rewrite E.
  replace (negb ra || has_char 61 h) with true by (destruct ra; [now rewrite Ha|reflexivity]). cbn [assert bind].
  rewrite nxast_hdr_ok by fits. cbn [bind]. rewrite a2b_qp_plain by auto. cbn [bind]. rewrite fix_len_ok by lia. reflexivity.
Qed.

(** ** bundle_load *)
Lemma id_read_mask f : In f registry -> str2oxmid (fname f) true = Ok (id_wire true f).
Proof.
  intros Hf. pose proof (ids_read true [f]) as H. cbn [map sepby flat_map] in H. rewrite app_nil_r in H. apply H. apply Forall_cons; [now apply reg_accepted|constructor].
Qed.
Lemma range_func f o e lo hi : In f registry -> bracket o e -> 0 <= lo -> 0 <= hi ->
  parse_func (call o e (fname f) (dec lo ++ $":" ++ dec hi)) = Ok (fname f, Some (dec lo ++ $":" ++ dec hi))
  /\ (match dec lo ++ $":" ++ dec hi with c :: a => int_range (c :: a) | [] => Ok (0, None) end) = Ok (lo, Some hi).
Proof.
  intros Hf Ho Hlo Hhi. destruct (name_reg f (reg_accepted f Hf)) as [Hp Hn]. split.
  - apply call_func; auto. apply plain_closed_quiet. apply (range_plain lo hi); auto.
  - change (dec lo ++ $":" ++ dec hi) with (dec lo ++ 58 :: dec hi). assert (E0 : exists c a, dec lo ++ 58 :: dec hi = c :: a).
    { destruct (dec lo); cbn; eauto. } destruct E0 as (c & a & E0). rewrite E0. rewrite <- E0. unfold int_range.
    rewrite split1_some by (apply (range_no_colon _ lo); auto). now rewrite !py_int_dec by auto.
Qed.
Lemma bundle_load_range h ub b a f d lo n us ps o' e' o'' e'' g s s' : literal ub b -> Forall2 literal us ps ->
  bracket o' e' -> bracket o'' e'' -> Forall filler g -> plain_args us s' ->
  args [hash_name h; ub; bdalg_name a; fname f; call o'' e'' (fname d) (dec lo ++ $":" ++ dec n); call o' e' $"slaves" s'] s ->
  In f registry -> (exists n, fkind f = KPort n) -> In d registry -> in_bytes 2 b -> 0 <= lo -> 1 <= n -> in_bytes 2 (ofs_nbits lo n) -> Forall (in_bytes 2) ps ->
  let p := be 2 (bdalg_id a) ++ be 2 (hash_id h) ++ be 2 b ++ id_wire false f
             ++ be 2 (Z.of_nat (length ps)) ++ be 2 (ofs_nbits lo n) ++ id_wire true d ++ pad 4 ++ all_be 2 ps in
  nx_fits 13 p -> exists k, bundle_load_str2act (g ++ s) false = Ok (nx_act 13 p, k).
Proof.
  intros Hb Hu Hbr Hbr' Hg Hs' Hs Hf Hk Hd Hi Hlo Hn Ho Hps p Hlen. pose proof (literals_plain _ _ Hu) as Hup.
  apply args_cons_inv in Hs as (g1 & s1 & -> & Hg1 & Hs). apply args_cons_inv in Hs as (g2 & s2 & -> & Hg2 & Hs).
  apply args_cons_inv in Hs as (g3 & s3 & -> & Hg3 & Hs). apply args_cons_inv in Hs as (g4 & s4 & -> & Hg4 & Hs).
  apply args_cons_inv in Hs as (g5 & s5 & -> & Hg5 & Hs).
  apply args_last_inv in Hs as (t & -> & Ht).
  destruct (hash_plain h) as [Hp1 Hn1], (bdalg_plain a) as [Hp2 Hn2], (literal_plain _ _ Hb) as [Hp3 Hn3], (name_reg f (reg_accepted f Hf)) as [Hp4 Hn4],
    (name_reg d (reg_accepted d Hd)) as [Hp6 Hn6].
  pose proof (plain_args_quiet _ _ Hs' Hup) as Hq. destruct slaves_plain as [Hp5 Hn5].
  assert (Hq' : closed quiet (dec lo ++ $":" ++ dec n)) by (apply plain_closed_quiet; apply (range_plain lo n); auto).
  destruct (range_func d o'' e'' lo n) as [E1 E2]; auto; try lia.
  unfold bundle_load_str2act. rewrite (tok_plain g) by auto using gap_follow.
  rewrite (tok_plain g1) by auto using gap_follow, gap_filler. rewrite (tok_plain g2) by auto using gap_follow, gap_filler.
  rewrite (tok_plain g3) by auto using gap_follow, gap_filler. rewrite (tok g4) by auto using gap_follow, gap_filler, call_token, call_solid.
  rewrite (tok g5) by auto using tail_gap_follow, gap_filler, call_token, call_solid.
  rewrite hash_index. cbn [bind]. rewrite (literal_alone _ _ Hb). cbn [bind]. rewrite bdalg_index. cbn [bind].
  rewrite E1. cbn [bind]. rewrite id_read_mask by auto. cbn [bind].
  destruct (dec lo ++ $":" ++ dec n) as [|c0 r0] eqn:Er; [exfalso; revert Er; apply (mid_nonnil (dec lo)); discriminate|]. rewrite E2. cbn [bind].
  rewrite (slave_list_ok us ps) by auto. cbn [bind]. rewrite nxast_hdr_ok by fits. cbn [bind].
  apply nx_fits_len in Hlen as Hl'. revert Hl'. unfold p. len. intros Hl'.
  assert (Hl2 : in_bytes 2 (Z.of_nat (length ps))) by (apply in_bytes_2; lia). pose proof (hash_in h). pose proof (bdalg_in a).
  rewrite id_read_flag by auto. cbn [range_end snd fst bind].
  rewrite load_ofs by auto.
  packs. rewrite pack_all by auto. cbn [bind]. eexists. rewrite <- !app_assoc. now apply nx_finish.
Qed.
Lemma bundle_load_args h ub b a f d n us ps o' e' o'' e'' g s s' : literal ub b -> Forall2 literal us ps ->
  bracket o' e' -> bracket o'' e'' -> Forall filler g -> plain_args us s' ->
  args [hash_name h; ub; bdalg_name a; fname f; call o'' e'' (fname d) (dec 0 ++ $":" ++ dec n); call o' e' $"slaves" s'] s ->
  act_ok (BundleLoad h b a f d n ps) ->
  exists k, bundle_load_str2act (g ++ s) false = Ok (act_wire (BundleLoad h b a f d n ps), k).
Proof.
  intros Hb Hu Hbr Hbr' Hg Hs' Hs [(Hf & Hk & Hd & Hi & Hn & Hps) Hlen].
  apply (bundle_load_range h ub b a f d 0 n us ps o' e' o'' e'' g s s'); auto; try lia. apply in_bytes_2; unfold ofs_nbits; lia.
Qed.

(** ** learn: flow specs *)
Lemma id_size_head f : In f registry -> fclass f <> Stratos ->
  exists k1 k2 l, oxm_hdr (id_wire false f) 0 = Ok (k1, k2, l) /\ (forall b, bits f = Some b -> l * 8 = b).
Proof.
  intros Hf Hc. destruct (id_head f [] Hf) as (l & Eh & El). rewrite app_nil_r in Eh. do 3 eexists. split; [exact Eh|].
  intros b Hb. unfold bits in Hb. destruct (width (fkind f)) as [w|] eqn:Ew; [|discriminate]. injection Hb as <-. pose proof (reg_width f w Hf Ew).
  rewrite El. replace (exp_id (fclass f)) with (@nil byte) by (destruct (fclass f); auto; congruence). cbn [length]. lia.
Qed.
Definition src_range (size : Z) (arg : option text) : res (Z * Z) :=
  match arg with
  | Some (c :: a) =>
      '(r0, r1) <- opt_range (c :: a) ;;
      let sshift := opt_or r0 0 in
      r1 <- r1 ;;
      Ok (sshift, opt_or r1 (size * 8) - sshift)
  | _ => Ok (0, size * 8)
  end.
Definition dst_range_of (size : Z) (arg : option text) : res (Z * Z) :=
  match arg with
  | Some (c :: a) =>
      '(r0, r1) <- opt_range (c :: a) ;;
      let dshift := opt_or r0 0 in
      r1 <- r1 ;;
      Ok (dshift, match r1 with Some e => e - dshift | None => size * 8 end)
  | _ => Ok (0, size * 8)
  end.
Lemma opt_range_ok x y lo hi : 0 <= lo -> 0 <= hi -> x = dec lo \/ (x = [] /\ lo = 0) -> y = dec hi \/ y = [] ->
  exists a, opt_range (x ++ 58 :: y) = Ok (a, Ok (match y with [] => None | _ => Some hi end)) /\ opt_or a 0 = lo.
Proof.
  intros Hlo Hhi Hx Hy. unfold opt_range. rewrite split1_some by (apply (range_no_colon x lo); tauto).
  assert (Ey : opt_int y = Ok (match y with [] => None | _ => Some hi end)).
  { destruct Hy as [->| ->]; [|reflexivity]. rewrite opt_int_dec by auto. destruct (dec hi) eqn:E; [now apply dec_nonnil in E|reflexivity]. }
  destruct Hx as [->|[-> ->]].
  - rewrite opt_int_dec by auto. cbn [bind]. rewrite Ey. cbn [bind]. eauto.
  - cbn [opt_int bind]. rewrite Ey. cbn [bind]. eauto.
Qed.
Lemma colon_cons x y : exists c a, x ++ $":" ++ y = c :: a /\ c :: a = x ++ 58 :: y.
Proof. destruct x as [|c x]; cbn [app]; do 2 eexists; split; reflexivity. Qed.
Lemma src_range_ok f lo n u : In f registry -> fclass f <> Stratos -> bits_of f lo n u ->
  exists arg k1 k2 l, parse_func u = Ok (fname f, arg) /\ oxm_hdr (id_wire false f) 0 = Ok (k1, k2, l) /\ src_range l arg = Ok (lo, n).
Proof.
  intros Hf Hc H. destruct (name_reg f (reg_accepted f Hf)) as [Hp Hn]. destruct (id_size_head f Hf Hc) as (k1 & k2 & l & Eh & Hb).
  destruct H as [b Eb|o e lo hi x y Ho Hlo Hhi Hx Hy].
  - exists None, k1, k2, l. split; [now apply plain_func|]. split; auto. cbn. now rewrite (Hb b).
  - exists (Some (x ++ $":" ++ y)), k1, k2, l. split; [|split; auto].
    + apply call_func; auto. apply plain_closed_quiet. apply (range_plain lo hi); tauto.
    + destruct (colon_cons x y) as (c & a & -> & E). cbn [src_range]. rewrite E.
      destruct (opt_range_ok x y lo hi) as (a0 & -> & E0); auto; [tauto|]. cbn [bind]. rewrite E0. do 2 f_equal.
      destruct Hy as [->|[-> Eb]]; [destruct (dec hi) eqn:E'; [now apply dec_nonnil in E'|reflexivity]|]. cbn [opt_or]. now rewrite (Hb hi).
Qed.
Lemma dst_range_ok f lo n u : In f registry -> fclass f <> Stratos -> dst_bits_of f lo n u ->
  exists arg k1 k2 l, parse_func u = Ok (fname f, arg) /\ oxm_hdr (id_wire false f) 0 = Ok (k1, k2, l) /\ dst_range_of l arg = Ok (lo, n).
Proof.
  intros Hf Hc H. destruct (name_reg f (reg_accepted f Hf)) as [Hp Hn]. destruct (id_size_head f Hf Hc) as (k1 & k2 & l & Eh & Hb).
  destruct H as [b Eb|o e lo hi x y Ho Hlo Hhi Hx Hy].
  - exists None, k1, k2, l. split; [now apply plain_func|]. split; auto. cbn. now rewrite (Hb b).
  - exists (Some (x ++ $":" ++ y)), k1, k2, l. split; [|split; auto].
    + apply call_func; auto. apply plain_closed_quiet. apply (range_plain lo hi); tauto.
    + destruct (colon_cons x y) as (c & a & -> & E). cbn [dst_range_of]. rewrite E.
      destruct (opt_range_ok x y lo hi) as (a0 & -> & E0); auto; [tauto|]. cbn [bind]. rewrite E0. do 2 f_equal.
      destruct Hy as [->|(-> & -> & Eb)]; [destruct (dec hi) eqn:E'; [now apply dec_nonnil in E'|reflexivity]|]. rewrite (Hb hi) by auto. lia.
Qed.
Lemma name_letter_all : forallb (fun f => match fname f with c :: _ => (97 <=? c) && (c <=? 122) | [] => false end) accepted_fields = true.
Proof. vm_compute. reflexivity. Qed.
Lemma literal_no_id u v : literal u v -> str2oxmid u false = Ok [].
Proof.
  intros H. destruct (literal_plain _ _ H) as [Hp Hn].
  assert (Hf : ~ In u (map fname accepted_fields)).
  { intros Hi. apply in_map_iff in Hi as (f & Ef & Hi). pose proof (proj1 (forallb_forall _ _) name_letter_all f Hi) as L. cbv beta in L. rewrite Ef in L.
    destruct (literal_first _ _ H) as (c & r & -> & Hc). lia. }
  unfold str2oxmid. pose proof (unknown_ignored u [] [] false (length u - 1) (plain_token u Hp) (plain_solid u Hp Hn) Hn Hf (Forall_nil _) I) as E.
  cbn [app] in E. rewrite app_nil_r in E. destruct u as [|c u]; [congruence|]. cbn [length] in *. rewrite Nat.sub_succ, Nat.sub_0_r in E. rewrite E. now destruct (length u).
Qed.
Lemma be_bytes_imm n v : be_bytes (Z.to_nat ((n + 15) / 16 * 2)) v = be (imm_size n) v.
Proof. rewrite be_bytes_spec. unfold imm_size. f_equal. lia. Qed.

Definition src_ok (n : Z) (s : lsrc) : Prop := match s with FromBits f lo => lbits_ok f lo | FromValue v => in_bytes (imm_size n) v end.
Lemma src_text n s u : src_of n s u -> src_ok n s -> token u /\ solid u /\ closed quiet u /\ u <> [].
Proof.
  intros [f lo u' H|u' v H] Hok.
  - destruct Hok as (Hf & _ & _). now apply (bits_of_quiet f lo n).
  - destruct (literal_plain _ _ H). auto using plain_token, plain_solid, plain_closed_quiet.
Qed.
Lemma dst_text f lo n u : In f registry -> dst_bits_of f lo n u -> token u /\ solid u /\ closed quiet u /\ u <> [].
Proof.
  intros Hf H. apply (bits_of_quiet f lo n); auto. destruct H as [b Hb|o e lo hi x y Ho Hlo Hhi Hx Hy]; constructor; auto. tauto.
Qed.
(** a spec with a destination *)
Lemma spec_dst_ok n s us d lo ud (load : bool) mode : src_of n s us -> dst_bits_of d lo n ud ->
  lspec_ok (LSpec n s (if load then ToLoad d lo else ToMatch d lo)) -> mode = (if load then Some $"reg_load" else None) ->
  flow_mod_spec us (Some ud) mode = Ok (lspec_wire (LSpec n s (if load then ToLoad d lo else ToMatch d lo))).
Proof.
  intros Hs Hd (Hn & Hsk & Hdk) ->. cbn [l_bits l_src l_dst] in *.
  assert (Hdk' : lbits_ok d lo) by now destruct load. clear Hdk. destruct Hdk' as (Hf & Hc & Hlo).
  destruct (dst_range_ok d lo n ud Hf Hc Hd) as (darg & k1 & k2 & l & Ed1 & Ed2 & Ed3). unfold dst_range_of in Ed3.
  assert (L4 : length (id_wire false d) = 4%nat) by (rewrite id_length; destruct (fclass d); auto; congruence).
  assert (Eload : (match (if load then Some $"reg_load" else None) with Some m => text_eqb m $"output" | None => false end) = false) by (destruct load; reflexivity).
  assert (Eload' : (match (if load then Some $"reg_load" else None) with Some m => text_eqb m $"reg_load" | None => false end) = load) by (destruct load; reflexivity).
  unfold flow_mod_spec. rewrite Eload, Eload'. clear Eload Eload'.
  destruct Hs as [f slo us Hs|us v Hs].
  - destruct Hsk as (Hf' & Hc' & Hslo). destruct (src_range_ok f slo n us Hf' Hc' Hs) as (sarg & j1 & j2 & l' & Es1 & Es2 & Es3). unfold src_range in Es3.
    rewrite Es1. cbn [bind]. rewrite id_read by auto. cbn [bind].
    assert (L4' : length (id_wire false f) = 4%nat) by (rewrite id_length; destruct (fclass f); auto; congruence).
    destruct (id_wire false f) as [|b0 w0] eqn:Ew; [discriminate|]. rewrite <- Ew in *. rewrite L4'. cbn [Nat.eqb assert bind].
    rewrite Es2. cbn [bind]. rewrite Es3. cbn [bind]. packs. rewrite Ed1. cbn [bind]. rewrite id_read by auto. cbn [bind]. rewrite L4. cbn [Nat.eqb assert bind].
    rewrite Ed2. cbn [bind]. rewrite Ed3. cbn [bind opt_or]. destruct (Z.eqb_spec n 0); [lia|]. rewrite Z.eqb_refl. cbn [assert bind]. packs.
    cbv zeta.
    assert (Hh : in_bytes 2 ((if load then 0 + Z.shiftl 1 10 else 0) + n)) by (apply in_bytes_2; destruct load; cbn; lia). packs.
    unfold lspec_wire. destruct load; cbn [l_bits l_src l_dst]; unfold bits_wire; (match goal with |- Ok (be 2 ?a ++ _) = Ok (be 2 ?b ++ _) => replace a with b by (cbn; lia) end); reflexivity.
  - cbn [src_ok] in Hsk. destruct (literal_plain _ _ Hs) as [Hp0 Hn0]. rewrite plain_func by auto. cbn [bind]. rewrite (literal_no_id _ _ Hs). cbn [bind].
    rewrite (literal_alone _ _ Hs). cbn [bind]. rewrite Ed1. cbn [bind]. rewrite id_read by auto. cbn [bind]. rewrite L4. cbn [Nat.eqb assert bind].
    rewrite Ed2. cbn [bind]. rewrite Ed3. cbn [bind opt_or]. change (0 =? 0) with true. cbn [assert bind]. packs. cbv zeta. rewrite be_bytes_imm.
    assert (Hh : in_bytes 2 ((if load then Z.shiftl 1 12 + Z.shiftl 1 10 else Z.shiftl 1 12) + n)) by (apply in_bytes_2; destruct load; cbn; lia). packs.
    unfold lspec_wire. destruct load; cbn [l_bits l_src l_dst]; unfold bits_wire; (match goal with |- Ok (be 2 ?a ++ _) = Ok (be 2 ?b ++ _) => replace a with b by (cbn; lia) end); reflexivity.
Qed.
Lemma spec_output_ok n s us dst : src_of n s us -> lspec_ok (LSpec n s ToOutput) ->
  flow_mod_spec us dst (Some $"output") = Ok (lspec_wire (LSpec n s ToOutput)).
Proof.
  intros Hs (Hn & Hsk & Hdk). cbn [l_bits l_src l_dst] in *. unfold flow_mod_spec.
  change (text_eqb $"output" $"output") with true.
  destruct Hs as [f slo us Hs|us v Hs].
  - destruct Hsk as (Hf' & Hc' & Hslo). destruct (src_range_ok f slo n us Hf' Hc' Hs) as (sarg & j1 & j2 & l' & Es1 & Es2 & Es3). unfold src_range in Es3.
    rewrite Es1. cbn [bind]. rewrite id_read by auto. cbn [bind].
    assert (L4' : length (id_wire false f) = 4%nat) by (rewrite id_length; destruct (fclass f); auto; congruence).
    destruct (id_wire false f) as [|b0 w0] eqn:Ew; [discriminate|]. rewrite <- Ew in *. rewrite L4'. cbn [Nat.eqb assert bind].
    rewrite Es2. cbn [bind]. rewrite Es3. cbn [bind]. packs. cbv zeta. cbn [opt_or].
    assert (Hh : in_bytes 2 (0 + Z.shiftl 2 10 + n)) by (apply in_bytes_2; cbn; lia). packs. unfold lspec_wire. cbn [l_bits l_src l_dst]. rewrite app_nil_r.
    match goal with |- Ok (be 2 ?a ++ _) = Ok (be 2 ?b ++ _) => replace a with b by (cbn; lia) end. reflexivity.
  - destruct (literal_plain _ _ Hs) as [Hp0 Hn0]. rewrite plain_func by auto. cbn [bind]. rewrite (literal_no_id _ _ Hs). cbn [bind].
    rewrite (literal_alone _ _ Hs). cbn [bind]. cbv zeta. subst n. change (in_bytes 2 v) in Hsk. packs. unfold lspec_wire. cbn [l_bits l_src l_dst]. now rewrite app_nil_r.
Qed.

(** ** learn: the argument loop *)
Lemma tok_before g u w x : Forall filler g -> token u -> solid u -> eq_sep w -> get_token (g ++ u ++ w ++ x) = (g, u, w ++ x).
Proof.
  intros Hg Hu Hs [a b Ha Hb]. apply get_token_complete; auto using filler_lead. rewrite <- app_assoc. now apply gap_eq_ends.
Qed.
Lemma tok_after w u r : eq_sep w -> token u -> solid u -> follow r -> get_token (w ++ u ++ r) = (w, u, r) /\ has_char 61 w = true.
Proof.
  intros [a b Ha Hb] Hu Hs Hr. split; [|apply eq_has]. rewrite <- !app_assoc. change ($"=" ++ b ++ u ++ r) with (61 :: b ++ u ++ r). now rewrite tok_eq by auto.
Qed.
Lemma eq_sep_quiet w : eq_sep w -> closed quiet w.
Proof.
  intros [a b Ha Hb]. apply closed_app; [apply filler_closed, blank_lead; now apply gap_eq_blank|].
  apply closed_app; [apply quiet_closed; constructor; [exact eq_quiet|constructor]|apply filler_closed; now apply blank_lead].
Qed.
Lemma learn_keys_plain k : In k learn_keys -> Forall plain k.
Proof.
  intros H. assert (Hk : forallb (fun k => forallb plainb k) learn_keys = true) by reflexivity.
  apply (proj1 (forallb_forall _ _) Hk) in H. apply Forall_forall. intros c Hc. apply plainb_plain. exact (proj1 (forallb_forall _ _) H c Hc).
Qed.
Lemma key_names_all : forallb (fun f => negb (in_names (fname f) learn_keys)) accepted_fields = true.
Proof. vm_compute. reflexivity. Qed.
Lemma dst_no_key d lo n u : In d registry -> dst_bits_of d lo n u -> in_names u learn_keys = false.
Proof.
  intros Hf [b Hb|o e lo' hi x y Ho _ _ _ _].
  - apply negb_true_iff. exact (proj1 (forallb_forall _ _) key_names_all d (reg_accepted d Hf)).
  - apply not_true_iff_false. intros H. unfold in_names in H. apply existsb_exists in H as (k & Hk & E). apply text_eqb_eq in E. subst k.
    apply learn_keys_plain in Hk. now apply (bracket_not_plain o e (fname d) (x ++ $":" ++ y)).
Qed.
Lemma key_is_key k : in_names (lkey_name k) learn_keys = true.
Proof. now destruct k. Qed.
Lemma key_plain k : Forall plain (lkey_name k) /\ lkey_name k <> [].
Proof.
  split; [|now destruct k]. apply learn_keys_plain. pose proof (key_is_key k) as H. apply existsb_exists in H as (x & Hx & E). apply text_eqb_eq in E. now subst.
Qed.
Lemma single_args name o e h ud w us t : bracket o e -> Forall plain name -> Forall filler h -> tail_gap t -> eq_sep w ->
  token ud -> solid ud -> closed quiet ud -> ud <> [] -> token us -> solid us -> closed quiet us ->
  learn_single (call o e name (h ++ ud ++ w ++ us ++ t)) = flow_mod_spec us (Some ud) (Some name).
Proof.
  intros Ho Hn Hh Ht Hw H1 H2 H3 H4 H5 H6 H7. unfold learn_single.
  rewrite call_func; auto.
  2:{ apply closed_app; [now apply filler_closed|]. apply closed_app; auto. apply closed_app; [now apply eq_sep_quiet|]. apply closed_app; auto using filler_closed, tail_gap_filler. }
  cbn [bind]. destruct (h ++ ud ++ w ++ us ++ t) as [|c a] eqn:E; [exfalso; revert E; now apply mid_nonnil|]. rewrite <- E. clear E.
  rewrite tok_before by auto. destruct (tok_after w us t Hw H5 H6 (tail_gap_follow _ Ht)) as [-> ->]. reflexivity.
Qed.
Lemma safe_text u : Forall safe_char u -> u <> [] -> token u /\ solid u /\ closed quiet u.
Proof. intros H Hn. assert (Hp : Forall plain u) by (eapply Forall_impl; [|exact H]; intros c Hc; now apply safe_plain). auto using plain_token, plain_solid, plain_closed_quiet. Qed.

Definition linfo (l : list lentry) (info : list (text * Z)) : list (text * Z) :=
  fold_left (fun i e => match e with LSet k v => (lkey_name k, v) :: i | LAdd _ => i end) l info.
Lemma learn_tail t fuel info specs left p : tail_gap t -> learn_flush left = Ok p -> (length t <= fuel)%nat ->
  learn_go fuel info specs left t = Ok (info, specs ++ p).
Proof.
  intros Ht Hp Hl. destruct Ht as [->|Ht]; [destruct fuel; cbn [learn_go]; now rewrite Hp|].
  assert (Ht' : tail_gap t) by now right. apply tail_gap_filler in Ht'. apply gap_nonnil in Ht as Hn.
  destruct t as [|c t]; [congruence|]. destruct fuel as [|fuel]; [cbn in Hl; lia|]. cbn [learn_go]. rewrite tok_gap by auto.
  rewrite filler_no_eq by auto. rewrite Hp. cbn [bind]. destruct fuel; cbn [learn_go learn_flush bind]; now rewrite app_nil_r.
Qed.
Lemma learn_pair g u w v r fuel info specs left p : Forall filler g -> token u -> solid u -> eq_sep w -> token v -> solid v -> follow r ->
  learn_flush left = Ok p -> u <> [] -> v <> [] -> (length (g ++ u ++ w ++ v ++ r) <= fuel)%nat ->
  exists fuel', (length r <= fuel')%nat /\
  learn_go fuel info specs left (g ++ u ++ w ++ v ++ r) =
   (if in_names u learn_keys then
      '(x, _) <- parseInt v ;; learn_go fuel' ((u, x) :: info) (specs ++ p) None r
    else
      s <- flow_mod_spec v (Some u) None ;; learn_go fuel' info ((specs ++ p) ++ s) None r).
Proof.
  intros Hg Hu Hu' Hw Hv Hv' Hr Hp Hn Hnv Hl. rewrite !app_length in Hl.
  assert (length u <> 0%nat) by (destruct u; [congruence|discriminate]). assert (length v <> 0%nat) by (destruct v; [congruence|discriminate]).
  destruct fuel as [|[|fuel]]; [lia|lia|]. exists fuel. split; [lia|].
  assert (E1 : g ++ u ++ w ++ v ++ r <> []) by now apply mid_nonnil.
  assert (E2 : w ++ v ++ r <> []) by now apply mid_nonnil.
  pose proof (tok_before g u w (v ++ r) Hg Hu Hu' Hw) as T1. destruct (tok_after w v r Hw Hv Hv' Hr) as [T2 T3].
  destruct (g ++ u ++ w ++ v ++ r) as [|c0 r0]; [congruence|]. cbn [learn_go]. rewrite T1. rewrite filler_no_eq by auto. rewrite Hp. cbn [bind].
  destruct (w ++ v ++ r) as [|c1 r1]; [congruence|]. rewrite T2, T3. reflexivity.
Qed.
Lemma learn_call g u r fuel info specs left p : Forall filler g -> token u -> solid u -> follow r ->
  learn_flush left = Ok p -> u <> [] -> (length (g ++ u ++ r) <= fuel)%nat ->
  exists fuel', (length r <= fuel')%nat /\
  learn_go fuel info specs left (g ++ u ++ r) = learn_go fuel' info (specs ++ p) (Some u) r.
Proof.
  intros Hg Hu Hu' Hr Hp Hn Hl. rewrite !app_length in Hl.
  assert (length u <> 0%nat) by (destruct u; [congruence|discriminate]).
  destruct fuel as [|fuel]; [lia|]. exists fuel. split; [lia|].
  assert (E1 : g ++ u ++ r <> []) by now apply mid_nonnil.
  pose proof (tok g u r Hg Hu Hu' Hr) as T1.
  destruct (g ++ u ++ r) as [|c0 r0]; [congruence|]. cbn [learn_go]. rewrite T1. rewrite filler_no_eq by auto. now rewrite Hp.
Qed.
Definition lentry_wire (e : lentry) : bytes := match e with LSet _ _ => [] | LAdd s => lspec_wire s end.
Lemma lspec_src s : lspec_ok s -> src_ok (l_bits s) (l_src s).
Proof. intros (_ & H & _). unfold src_ok. destruct (l_src s); auto. Qed.
Lemma learn_entry e u g r fuel info specs left p : writes_lentry e u -> lentry_ok e -> Forall filler g -> follow r ->
  learn_flush left = Ok p -> (length (g ++ u ++ r) <= fuel)%nat ->
  exists fuel' left' specs' p', (length r <= fuel')%nat /\ learn_flush left' = Ok p' /\ specs' ++ p' = specs ++ p ++ lentry_wire e /\
  learn_go fuel info specs left (g ++ u ++ r) = learn_go fuel' (linfo [e] info) specs' left' r.
Proof.
  intros Hw Hok Hg Hr Hp Hl. destruct Hw as [k v u w Hu Hw|s u Hs].
  - destruct (key_plain k) as [K1 K2], (literal_plain _ _ Hu) as [U1 U2]. rewrite <- !app_assoc in *.
    destruct (learn_pair g (lkey_name k) w u r fuel info specs left p) as (f' & Hf & E); auto using plain_token, plain_solid.
    rewrite E, key_is_key, (literal_alone _ _ Hu). cbn [bind]. exists f', None, (specs ++ p), []. cbn [lentry_wire]. rewrite !app_nil_r. auto.
  - pose proof (lspec_src s Hok) as Hso. destruct Hs as [n s us d lo ud w Hs Hd Hw|n s us d lo ud w o e h t Hs Hd Hw Ho Hh Ht|n s us ud w o e h t Hs Hud Hun Hw Ho Hh Ht];
      cbn [l_bits l_src l_dst] in Hso.
    + assert (Hin : In d registry) by (destruct Hok as (_ & _ & Hk); cbn in Hk; apply Hk).
      destruct (src_text n s us Hs Hso) as (A1 & A2 & A3 & A4). destruct (dst_text d lo n ud Hin Hd) as (B1 & B2 & B3 & B4). rewrite <- !app_assoc in *.
      destruct (learn_pair g ud w us r fuel info specs left p) as (f' & Hf & E); auto.
      rewrite E, (dst_no_key d lo n) by auto. rewrite (spec_dst_ok n s us d lo ud false None) by auto. cbn [bind].
      exists f', None. do 2 eexists. split; [auto|]. split; [reflexivity|]. split; [|reflexivity]. cbn [lentry_wire]. now rewrite app_nil_r, <- app_assoc.
    + assert (Hin : In d registry) by (destruct Hok as (_ & _ & Hk); cbn in Hk; apply Hk).
      destruct (src_text n s us Hs Hso) as (A1 & A2 & A3 & A4). destruct (dst_text d lo n ud Hin Hd) as (B1 & B2 & B3 & B4).
      assert (Hn : Forall plain $"reg_load" /\ $"reg_load" <> []) by now apply (act_name_plain _ (reg_load_str2act 7)). destruct Hn as [N1 N2].
      set (q := h ++ ud ++ w ++ us ++ t) in *.
      assert (Hq : closed quiet q).
      { apply closed_app; [now apply filler_closed|]. apply closed_app; auto. apply closed_app; [now apply eq_sep_quiet|]. apply closed_app; auto using filler_closed, tail_gap_filler. }
      destruct (learn_call g (call o e $"reg_load" q) r fuel info specs left p) as (f' & Hf & E);
        auto using call_token, call_solid; [unfold call; discriminate|].
      exists f', (Some (call o e $"reg_load" q)), (specs ++ p), (lspec_wire (LSpec n s (ToLoad d lo))). split; [auto|]. split; [|split; [now rewrite <- app_assoc|exact E]].
      change (learn_flush (Some (call o e $"reg_load" q))) with (learn_single (call o e $"reg_load" q)). unfold q. rewrite single_args by auto.
      exact (spec_dst_ok n s us d lo ud true _ Hs Hd Hok eq_refl).
    + destruct (src_text n s us Hs Hso) as (A1 & A2 & A3 & A4). destruct (safe_text ud Hud Hun) as (B1 & B2 & B3).
      assert (Hn : Forall plain $"output" /\ $"output" <> []) by now apply (act_name_plain _ output_str2act). destruct Hn as [N1 N2].
      set (q := h ++ ud ++ w ++ us ++ t) in *.
      assert (Hq : closed quiet q).
      { apply closed_app; [now apply filler_closed|]. apply closed_app; auto. apply closed_app; [now apply eq_sep_quiet|]. apply closed_app; auto using filler_closed, tail_gap_filler. }
      destruct (learn_call g (call o e $"output" q) r fuel info specs left p) as (f' & Hf & E);
        auto using call_token, call_solid; [unfold call; discriminate|].
      exists f', (Some (call o e $"output" q)), (specs ++ p), (lspec_wire (LSpec n s ToOutput)). split; [auto|]. split; [|split; [now rewrite <- app_assoc|exact E]].
      change (learn_flush (Some (call o e $"output" q))) with (learn_single (call o e $"output" q)). unfold q. rewrite single_args by auto.
      now apply spec_output_ok.
Qed.
Lemma lspecs_wire l : flat_map lspec_wire (lspecs l) = flat_map lentry_wire l.
Proof. unfold lspecs. induction l as [|[k v|s] l IH]; cbn; auto. now rewrite <- IH. Qed.
Lemma linfo_cons e l info : linfo (e :: l) info = linfo l (linfo [e] info).
Proof. reflexivity. Qed.
Lemma learn_go_ok us s : args us s -> forall l g fuel info specs left p, Forall2 writes_lentry l us -> Forall lentry_ok l -> Forall filler g ->
  learn_flush left = Ok p -> (length (g ++ s) <= fuel)%nat ->
  learn_go fuel info specs left (g ++ s) = Ok (linfo l info, specs ++ p ++ flat_map lentry_wire l).
Proof.
  induction 1 as [u t Ht|u v us gp r Hgp Hr IH]; intros l g fuel info specs left p Hw Hok Hg Hp Hl.
  - inversion Hw as [|e ? l' ? He Hw']; subst. inversion Hw'; subst. inversion Hok; subst.
    destruct (learn_entry e u g t fuel info specs left p) as (f' & left' & specs' & p' & L & F & S & ->); auto using tail_gap_follow.
    rewrite (learn_tail t f' _ specs' left' p') by auto. rewrite S. cbn [flat_map]. now rewrite app_nil_r.
  - inversion Hw as [|e ? l' ? He Hw']; subst. inversion Hok; subst.
    destruct (learn_entry e u g (gp ++ r) fuel info specs left p) as (f' & left' & specs' & p' & L & F & S & ->); auto using gap_follow.
    rewrite (IH l' gp f' _ specs' left' p') by auto using gap_filler. rewrite linfo_cons. do 2 f_equal. rewrite app_assoc, S. cbn [flat_map]. now rewrite <- !app_assoc.
Qed.
Lemma key_eqb k j : text_eqb (lkey_name k) (lkey_name j) = lkey_eqb k j.
Proof. now destruct k, j. Qed.
Lemma linfo_lookup k l : forall info, opt_or (assoc_t (lkey_name k) (linfo l info)) 0 = lvalue k (opt_or (assoc_t (lkey_name k) info) 0) l.
Proof.
  induction l as [|[j v|s] l IH]; intros info; [reflexivity| |].
  - rewrite linfo_cons. rewrite IH. cbn [linfo fold_left assoc_t lvalue]. rewrite key_eqb. now destruct (lkey_eqb k j).
  - rewrite linfo_cons. rewrite IH. reflexivity.
Qed.
Lemma lvalue_in k l : forall d, in_bytes (lkey_size k) d -> Forall lentry_ok l -> in_bytes (lkey_size k) (lvalue k d l).
Proof.
  induction l as [|[j v|s] l IH]; intros d Hd Hl; cbn [lvalue]; auto; inversion Hl; subst; apply IH; auto.
  destruct (lkey_eqb k j) eqn:E; auto. assert (k = j) as -> by (destruct k, j; auto; discriminate). auto.
Qed.
Lemma learn_args us s g l : args us s -> Forall2 writes_lentry l us -> act_ok (Learn l) -> Forall filler g ->
  exists k, learn_str2act (g ++ s) false = Ok (act_wire (Learn l), k).
Proof.
  intros Hs Hw [Hok Hl] Hg. unfold learn_str2act. rewrite (learn_go_ok us s Hs l g _ [] [] None []) by auto. cbn [bind app].
  rewrite nxast_hdr_ok by fits. cbn [bind].
  change (map (fun k => opt_or (assoc_t k (linfo l [])) 0) learn_keys) with
    (map (fun k => opt_or (assoc_t (lkey_name k) (linfo l [])) 0) [LIdle; LHard; LPriority; LCookie; LFlags; LTable; LFinIdle; LFinHard]).
  cbn [map]. rewrite !linfo_lookup. cbn [assoc_t opt_or].
  assert (Hz : forall k, in_bytes (lkey_size k) (lvalue k 0 l)).
  { intros k. apply lvalue_in; auto. destruct k; unfold in_bytes; cbn; lia. }
  unfold learn_fmt.
  pose proof (Hz LIdle) as Z1. pose proof (Hz LHard) as Z2. pose proof (Hz LPriority) as Z3. pose proof (Hz LCookie) as Z4.
  pose proof (Hz LFlags) as Z5. pose proof (Hz LTable) as Z6. pose proof (Hz LFinIdle) as Z7. pose proof (Hz LFinHard) as Z8. clear Hz.
  cbn [lkey_size] in *. packs. eexists. cbn [act_wire] in *. rewrite lspecs_wire in *. rewrite nx_finish; [|exact Hl]. reflexivity.
Qed.

Lemma lentry_quiet e u : writes_lentry e u -> lentry_ok e -> closed quiet u /\ u <> [].
Proof.
  intros Hw Hok. destruct Hw as [k v u w Hu Hw|s u Hs].
  - destruct (key_plain k) as [K1 K2], (literal_plain _ _ Hu) as [U1 U2]. split.
    + apply closed_app; [now apply plain_closed_quiet|]. apply closed_app; [now apply eq_sep_quiet|now apply plain_closed_quiet].
    + intros E. apply app_eq_nil in E as [E _]. congruence.
  - pose proof (lspec_src s Hok) as Hso. destruct Hs as [n s us d lo ud w Hs Hd Hw|n s us d lo ud w o e h t Hs Hd Hw Ho Hh Ht|n s us ud w o e h t Hs Hud Hun Hw Ho Hh Ht];
      cbn [l_bits l_src l_dst] in Hso; destruct (src_text n s us Hs Hso) as (A1 & A2 & A3 & A4).
    + assert (Hin : In d registry) by (destruct Hok as (_ & _ & Hk); cbn in Hk; apply Hk). destruct (dst_text d lo n ud Hin Hd) as (B1 & B2 & B3 & B4). split.
      * apply closed_app; auto. apply closed_app; auto. now apply eq_sep_quiet.
      * intros E. apply app_eq_nil in E as [E _]. congruence.
    + assert (Hin : In d registry) by (destruct Hok as (_ & _ & Hk); cbn in Hk; apply Hk). destruct (dst_text d lo n ud Hin Hd) as (B1 & B2 & B3 & B4).
      split; [|unfold call; discriminate]. apply call_quiet; auto; [now apply (act_name_plain _ (reg_load_str2act 7))|].
      apply closed_app; [now apply filler_closed|]. apply closed_app; auto. apply closed_app; [now apply eq_sep_quiet|]. apply closed_app; auto using filler_closed, tail_gap_filler.
    + destruct (safe_text ud Hud Hun) as (B1 & B2 & B3).
      split; [|unfold call; discriminate]. apply call_quiet; auto; [now apply (act_name_plain _ output_str2act)|].
      apply closed_app; [now apply filler_closed|]. apply closed_app; auto. apply closed_app; [now apply eq_sep_quiet|]. apply closed_app; auto using filler_closed, tail_gap_filler.
Qed.
Lemma lentries_quiet l us : Forall2 writes_lentry l us -> Forall lentry_ok l -> Forall (closed quiet) us.
Proof. induction 1 as [|e u l us He Hl IH]; intros Hok; constructor; inversion Hok; subst; auto. now apply (lentry_quiet e). Qed.

(** ** every action *)
Theorem act_reads a u h r : writes_act a u -> act_ok a -> Forall filler h -> follow r ->
  str2act (h ++ u ++ r) = Ok (act_wire a, (length h + length u)%nat).
Proof.
  intros Hw Hok Hh Hr. destruct Hw.
  - destruct Hok as [[Hp Hm] _]. destruct (output_arg u p [] 65535 H Hp Hm) as (Hpl & Hn & Ha); auto. rewrite app_nil_r in *.
    apply (arg_reads $"output" output_str2act u); auto.
  - destruct Hok as [[Hp Hm] _]. destruct (output_arg u p ($":" ++ w) m H Hp Hm) as (Hpl & Hn & Ha); eauto.
    apply (arg_reads $"output" output_str2act (u ++ $":" ++ w)); auto.
  - now apply noarg_reads.
  - destruct Hok as [Hn _]. destruct (literal_plain _ _ H) as [Hp H1]. apply (arg_reads $"set_mpls_ttl" (uint_str2act 15 [sB; sx 3]) u); auto.
    apply (uint_arg _ _ u n); auto; try fits; [|len]. cbn [act_ok] in Hn. packs. reflexivity.
  - destruct Hok as [Hn _]. destruct (literal_plain _ _ H) as [Hp H1]. apply (arg_reads $"set_queue" (uint_str2act 21 [sI]) u); auto.
    apply (uint_arg _ _ u n); auto; try fits; [|len]. packs. reflexivity.
  - destruct Hok as [Hn _]. destruct (literal_plain _ _ H) as [Hp H1]. apply (arg_reads $"group" (uint_str2act 22 [sI]) u); auto.
    apply (uint_arg _ _ u n); auto; try fits; [|len]. packs. reflexivity.
  - destruct Hok as [Hn _]. destruct (literal_plain _ _ H) as [Hp H1]. apply (arg_reads (ether_name k) (push_str2act (ether_type k)) u); auto.
    + destruct k; reflexivity.
    + apply push_arg; auto. destruct k; unfold in_bytes; cbn; lia.
  - destruct Hok as [_ Hl]. now apply field_reads_eq.
  - destruct Hok as [_ Hl]. now apply field_reads_call.
  - destruct Hok as [Hp Hl]. destruct (nx_port_plain _ _ H) as [Hpl Hn]. apply (arg_reads $"resubmit" (resubmit_str2act 1) u); auto.
    apply resubmit_arg; auto.
  - destruct Hok as [[Hp _] Hl]. destruct (nx_port_plain _ _ H) as [Hpl Hn]. apply (arg_reads $"resubmit_table" (resubmit_str2act 14) u); auto.
    apply resubmit_arg; auto.
  - now apply (resubmit_reads u p w n).
  - destruct Hok as [Hi Hl]. destruct (literal_plain _ _ H) as [Hp H2]. apply (arg_reads $"set_tunnel" (set_tunnel_str2act 2) u); auto.
    apply tunnel_arg; auto. fits.
  - destruct Hok as [Hi Hl]. destruct (literal_plain _ _ H) as [Hp H2]. apply (arg_reads $"set_tunnel" (set_tunnel_str2act 2) u); auto.
    apply tunnel64_arg; auto.
  - destruct Hok as [Hi Hl]. destruct (literal_plain _ _ H) as [Hp H2]. apply (arg_reads $"set_tunnel64" (set_tunnel_str2act 9) u); auto.
    apply tunnel64_arg; auto.
  - now apply (ids_reads_call us).
  - now apply (ids_reads_eq us).
  - apply (load_quiet_call $"reg_load" (reg_load_str2act 7) (load_tlv f lo n v)); auto. apply load_args; auto.
  - apply (load_quiet_call $"reg_load2" (reg_load_str2act 33) t); auto. apply load2_args; auto.
  - destruct (move_args s slo d dlo n u w a b h0 t) as [k E]; auto.
    destruct Hok as [(Hs & Hd & _) _]. destruct (move_quiet d dlo n w s slo n u a b h0 t) as [Hq Hn]; auto.
    apply (call_reads $"reg_move" reg_move_str2act o e _ _ k); auto.
  - destruct (multipath_args h0 ub b a ul l ua arg d lo n ud g s) as [k E]; auto.
    apply (call_reads $"multipath" multipath_str2act o e _ _ k); auto.
    + apply closed_app; [now apply filler_closed|]. apply (args_quiet _ _ H5).
      destruct Hok as [(Hin & _) _]. destruct (bits_of_quiet _ _ _ _ Hin H2) as (_ & _ & Hq & _).
      repeat (apply Forall_cons || apply Forall_nil); auto; apply plain_closed_quiet;
        first [apply hash_plain|apply mpalg_plain|eapply literal_plain; eassumption].
    + apply (args_nonnil _ _ _ _ H5). apply hash_plain.
  - destruct (bundle_args h0 ub b a f us ps o' e' g s s') as [k E]; auto.
    apply (call_reads $"bundle" bundle_str2act o e _ _ k); auto.
    + apply closed_app; [now apply filler_closed|]. apply (args_quiet _ _ H5). destruct Hok as [(Hin & _) _].
      repeat (apply Forall_cons || apply Forall_nil);
        try (apply plain_closed_quiet; first [apply hash_plain|apply bdalg_plain|eapply literal_plain; eassumption|apply name_reg; now apply reg_accepted]).
      apply call_quiet; auto; [apply slaves_plain|]. apply (plain_args_quiet us); auto. now apply (literals_plain us ps).
    + apply (args_nonnil _ _ _ _ H5). apply hash_plain.
  - assert (Ha : args [u] (u ++ t)) by now constructor.
    destruct (output_reg_args v2 f n 65535 u h0 (u ++ t)) as [k E]; auto.
    destruct Hok as [(Hin & _) _]. destruct (bits_of_quiet _ _ _ _ Hin (full_bits _ _ _ _ H)) as (_ & _ & Hq & Hn).
    destruct v2; [apply (call_reads $"output_reg2" (output_reg_str2act 32) o e _ _ k)|apply (call_reads $"output_reg" (output_reg_str2act 15) o e _ _ k)];
      auto; first [now apply mid_nonnil|apply mid_quiet; auto using tail_gap_filler].
  - destruct (output_reg_args v2 f n m u h0 s) as [k E]; eauto.
    destruct Hok as [(Hin & _) _]. destruct (bits_of_quiet _ _ _ _ Hin (full_bits _ _ _ _ H)) as (_ & _ & Hq & Hn).
    assert (Hqs : closed quiet (h0 ++ s)).
    { apply closed_app; [now apply filler_closed|]. apply (args_quiet _ _ H3). repeat constructor; auto. apply plain_closed_quiet. now apply (literal_plain _ m). }
    pose proof (args_nonnil _ _ _ h0 H3 Hn).
    destruct v2; [apply (call_reads $"output_reg2" (output_reg_str2act 32) o e _ _ k)|apply (call_reads $"output_reg" (output_reg_str2act 15) o e _ _ k)]; auto.
  - apply (null_reads $"pop_queue" 5 PopQueue); auto. fits.
  - apply (null_reads $"exit" 17 Exit); auto. fits.
  - destruct Hok as [Hn _]. destruct (literal_plain _ _ H) as [Hp H1]. apply (arg_reads $"set_nw_ttl" (uint_str2act 23 [sB]) u); auto.
    apply (uint_arg _ _ u n); auto; try fits; [|len]. cbn [act_ok] in Hn. packs. reflexivity.
  - destruct Hok as [Hn Hl]. apply (arg_reads $"note" (qp_str2act 8) (map byte_val b)); auto.
    + now apply note_plain.
    + destruct Hn as [_ Hn]. destruct b; [congruence|discriminate].
    + now apply note_arg.
  - destruct (bundle_load_args h0 ub b a f d n us ps o' e' o'' e'' g s s') as [k E]; auto.
    apply (call_reads $"bundle_load" bundle_load_str2act o e _ _ k); auto.
    + apply closed_app; [now apply filler_closed|]. match goal with Ha : args _ s |- _ => apply (args_quiet _ _ Ha) end. destruct Hok as [(Hin & _ & Hd & _) _].
      repeat (apply Forall_cons || apply Forall_nil);
        try (apply plain_closed_quiet; first [apply hash_plain|apply bdalg_plain|eapply literal_plain; eassumption|apply name_reg; now apply reg_accepted]).
      * apply call_quiet; auto; [apply name_reg; now apply reg_accepted|]. apply plain_closed_quiet. apply (range_plain 0 n); auto.
      * apply call_quiet; auto; [apply slaves_plain|]. apply (plain_args_quiet us); auto. now apply (literals_plain us ps).
    + match goal with Ha : args _ s |- _ => apply (args_nonnil _ _ _ _ Ha) end. apply hash_plain.
  - match goal with Ha : args _ _, Hf : Forall2 _ _ _ |- _ => pose proof Ha as Hargs; pose proof Hf as Hents end.
    destruct (learn_args us s h0 l) as [k E]; auto.
    apply (call_reads $"learn" learn_str2act o e _ _ k); auto.
    + apply closed_app; [now apply filler_closed|]. apply (args_quiet _ _ Hargs). destruct Hok as [Hok _]. now apply (lentries_quiet l).
    + destruct Hok as [Hok _]. destruct us as [|u us]; [inversion Hargs|]. apply (args_nonnil _ _ _ _ Hargs).
      apply (lentries_quiet l (u :: us)) in Hok as Hq; auto. inversion Hents; subst. inversion Hok; subst. eapply lentry_quiet; eauto.
Qed.
