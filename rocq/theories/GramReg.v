(** The texts taken as actions: registers, multipath and bundles. *)
From Verif Require Import Base PyNum Util PyLib OxmCodec OxmTables Oxm Nx Ofp4 Spec SpecOxm SpecText SpecOfp SpecActText.
From Verif Require Import BaseFacts UtilFacts NumFacts PyLibFacts OxmRead OxmPrint OxmFacts OxmFrame OxmMore ActBase ActRead ActReadNx ActReadReg ActReadLearn ActFrame ActDenote GramLib OxmGram OxmExact GramTok GramField GramAct.
From Coq Require Import Strings.Ascii.

(** ** reg_load *)
Lemma mask_bits_some d : forall v s k, 0 <= v -> mask_bits v d s (Some k) = (s, Some (k + low_ones d v)).
Proof.
  induction d as [|d IH]; intros v s k Hv; cbn [mask_bits low_ones opt_or]; [do 2 f_equal; lia|].
  rewrite <- Z.negb_even. destruct (Z.even v) eqn:E; cbn [negb]; [do 2 f_equal; lia|].
  rewrite Z.shiftr_div_pow2 by lia. change (2 ^ 1) with 2. rewrite IH by (apply Z.div_pos; lia). do 2 f_equal. lia.
Qed.
Lemma mask_bits_shift d : forall v s, mask_bits v d s None = (s + fst (mask_bits v d 0 None), snd (mask_bits v d 0 None)).
Proof.
  assert (forall e v s k, fst (mask_bits v e s (Some k)) = s /\ snd (mask_bits v e s (Some k)) = snd (mask_bits v e 0 (Some k))) as A.
  { induction e as [|e IH]; intros v s k; cbn [mask_bits opt_or]; [auto|]. destruct (Z.odd v); [apply IH|auto]. }
  induction d as [|d IH]; intros v s; cbn [mask_bits opt_or fst snd]; [f_equal; lia|]. destruct (Z.odd v).
  - destruct (A d (Z.shiftr v 1) s (0 + 1)) as [A1 A2]. destruct (A d (Z.shiftr v 1) 0 (0 + 1)) as [A3 _].
    rewrite (surjective_pairing (mask_bits (Z.shiftr v 1) d s (Some (0 + 1)))), A1, A2, A3. f_equal. lia.
  - rewrite (IH _ (s + 1)), (IH _ 1). cbn [fst snd]. f_equal. lia.
Qed.
Definition all_bytes : list Z := map Z.of_nat (seq 0 256).
Lemma mask_bytes_scan : forallb (fun v => match mask_bits v 8 0 None with
    | (s, None) => (v =? 0) && (s =? 8)
    | (s, Some k) => negb (v =? 0) && (s =? low_zeros 8 v) && (k =? low_ones 8 (v / 2 ^ low_zeros 8 v)) end) all_bytes = true.
Proof. vm_compute. reflexivity. Qed.
Lemma mask_byte b s : mask_bits (b2z b) 8 s None =
  if byte_val b =? 0 then (s + 8, None) else (s + low_zeros 8 (byte_val b), Some (low_ones 8 (byte_val b / 2 ^ low_zeros 8 (byte_val b)))).
Proof.
  rewrite mask_bits_shift. change (byte_val b) with (b2z b). pose proof (b2z_range b) as R.
  pose proof (proj1 (forallb_forall _ _) mask_bytes_scan (b2z b)) as E. specialize (E ltac:(apply in_map_iff; exists (Z.to_nat (b2z b)); split; [lia|apply in_seq; lia])). cbv beta in E.
  destruct (mask_bits (b2z b) 8 0 None) as [z [k|]]; cbn [fst snd].
  - apply andb_true_iff in E as [[E1 E2]%andb_true_iff E3]. apply negb_true_iff in E1. rewrite E1. apply Z.eqb_eq in E2, E3. now rewrite E2, E3 at 1.
  - apply andb_true_iff in E as [E1 E2]. rewrite E1. apply Z.eqb_eq in E2. now subst z.
Qed.
Definition scan_step (st : Z * option Z) (b : byte) : Z * option Z := let '(s, n) := st in mask_bits (b2z b) 8 s n.
Lemma scan_some l : forall s k, fold_left scan_step l (s, Some k) = (s, Some (k + fold_right Z.add 0 (map (fun c => low_ones 8 (byte_val c)) l))).
Proof.
  induction l as [|b l IH]; intros s k; cbn [fold_left map fold_right scan_step]; [do 2 f_equal; lia|].
  rewrite mask_bits_some by (pose proof (b2z_range b); lia). rewrite IH. change (byte_val b) with (b2z b). do 2 f_equal. lia.
Qed.
Lemma scan_run l : forall s, match mask_run l with
  | Some (lo, n) => fold_left scan_step l (s, None) = (s + lo, Some n)
  | None => snd (fold_left scan_step l (s, None)) = None end.
Proof.
  induction l as [|b l IH]; intros s; cbn [mask_run fold_left]; [reflexivity|]. cbn [scan_step]. rewrite mask_byte. destruct (byte_val b =? 0).
  - specialize (IH (s + 8)). destruct (mask_run l) as [[lo n]|]; cbn [option_map]; [rewrite IH; f_equal; lia|exact IH].
  - apply scan_some.
Qed.
Lemma mask_scan_run mask lo n : mask_scan mask = (lo, Some n) <-> mask_run (rev mask) = Some (lo, n).
Proof.
  change (mask_scan mask) with (fold_left scan_step (rev mask) (0, None)). pose proof (scan_run (rev mask) 0) as R. destruct (mask_run (rev mask)) as [[lo' n']|].
  - rewrite R, Z.add_0_l. split; intros [= <- <-]; reflexivity.
  - split; [|discriminate]. intros E. rewrite E in R. discriminate.
Qed.
Lemma load_data_eq t : skipn (if class_id (fclass (tfield t)) =? 0xffff then 6 else 4) (wire t) = load_data t.
Proof.
  unfold wire, hdr, load_data. destruct (fclass (tfield t)) eqn:E; cbn [class_id exp_id]; rewrite ?app_nil_r; [reflexivity..|]. reflexivity.
Qed.
Lemma mask_some t : has_mask (tmask t) = true <-> tmask t <> None.
Proof. destruct (tmask t); cbn; split; congruence. Qed.
Lemma class_in_bytes c : in_bytes 2 (class_id c).
Proof. destruct c; unfold in_bytes; cbn; lia. Qed.
Definition load_payload (t : tlv) : res bytes :=
  let payload := load_data t in
  let hm := has_mask (tmask t) in
  let size := if hm then (length payload / 2)%nat else length payload in
  let '(shift, nbits) := if hm then mask_scan (skipn size payload) else (0, Some (Z.of_nat size * 8)) in
  let value := Z.shiftr (be_val (firstn size payload)) shift in
  match nbits with
  | None => Raise TypeError
  | Some nb => pack [sH; sH; sB; sB; sQ] [Z.shiftl shift 6 + (nb - 1); class_id (fclass (tfield t)); 2 * fnum (tfield t); Z.of_nat size; value]
  end.
Lemma ofs_eq' lo n : Z.shiftl lo 6 + (n - 1) = ofs_nbits lo n.
Proof. unfold ofs_nbits. rewrite Z.shiftl_mul_pow2 by lia. reflexivity. Qed.
Lemma mask_run_pos l lo n : mask_run l = Some (lo, n) -> 0 <= lo.
Proof.
  assert (forall d v, 0 <= low_zeros d v) as A. { induction d as [|d IH]; intros v; cbn [low_zeros]; [lia|]. destruct (Z.even v); [specialize (IH (v / 2)); lia|lia]. }
  revert lo n. induction l as [|b l IH]; intros lo n; cbn [mask_run]; [discriminate|]. destruct (byte_val b =? 0).
  - destruct (mask_run l) as [[lo' n']|]; [|discriminate]. cbn. intros [= <- <-]. specialize (IH lo' n' eq_refl). lia.
  - intros E. apply (f_equal (option_map fst)) in E. cbn [option_map fst] in E. injection E as <-. apply (A 8%nat).
Qed.
Lemma load_payload_iff t b : readable (tfield t) -> load_payload t = Ok b <-> load_any t b.
Proof.
  intros Hf%accepted_readable. pose proof (fnum_reg _ Hf) as Hn. pose proof (class_in_bytes (fclass (tfield t))) as Hc.
  assert (in_bytes 1 (2 * fnum (tfield t))) as Hf1 by (unfold in_bytes; lia).
  unfold load_payload. cbv zeta. split.
  - destruct (tmask t) eqn:Em; cbn [has_mask].
    + destruct (mask_scan _) as [lo [nb|]] eqn:Es; [|discriminate]. intros H. unpack_inv H. apply mask_scan_run in Es. rewrite ofs_eq', app_nil_r in *.
      pose proof (mask_run_pos _ _ _ Es). rewrite Z.shiftr_div_pow2, be_val_spec in * by lia.
      eapply (load_masked t (length (load_data t) / 2)); eauto; congruence.
    + intros H. unpack_inv H. rewrite firstn_all, Z.shiftr_0_r, be_val_spec in *. rewrite ofs_eq', app_nil_r in *. rewrite (Z.mul_comm _ 8) in *.
      apply load_whole; auto.
  - intros [d Em -> H1 H2 H3|n lo k v Em -> Es -> H1 H2 H3].
    + rewrite Em. cbn [has_mask]. rewrite firstn_all, Z.shiftr_0_r, be_val_spec, ofs_eq', (Z.mul_comm _ 8). rewrite !pack_u by auto. cbn [pack bind]. now rewrite app_nil_r.
    + apply mask_some in Em. rewrite Em. apply mask_scan_run in Es as Es'. rewrite Es'. pose proof (mask_run_pos _ _ _ Es). rewrite Z.shiftr_div_pow2, be_val_spec, ofs_eq' by lia.
      rewrite !pack_u by auto. cbn [pack bind]. now rewrite app_nil_r.
Qed.
Lemma load_unfold (u : text) t (r : text) : readable (tfield t) -> str2oxm u false = Ok (wire t, (length u - length r)%nat) -> (length r < length u)%nat ->
  reg_load_str2act 7 u false = nxast_str2act (h <- nxast_hdr 7 ;; p <- load_payload t ;; Ok (h ++ p, (length u - length r)%nat)).
Proof.
  intros Hf%accepted_readable E Hl. unfold reg_load_str2act. rewrite E. cbn [bind]. destruct (Nat.eqb_spec (length u - length r) 0) as [K|K]; [lia|]. clear K.
  destruct (wire_head t Hf) as [l El]. rewrite El. cbn [bind Z.eqb Pos.eqb]. rewrite load_data_eq, odd_flag, land_fe by (now apply fnum_reg). unfold load_payload. cbv zeta.
  rewrite nxast_hdr_ok by (apply in_bytes_2; lia). cbn [bind]. f_equal.
  destruct (if has_mask (tmask t) then _ else _) as [s [nb|]]; reflexivity.
Qed.
Lemma flat_one t : flat_map wire [t] = wire t.
Proof. apply app_nil_r. Qed.
Lemma sound_load : sound notation $"reg_load" (reg_load_str2act 7).
Proof.
  intros u ra b n H. destruct ra; [discriminate|].
  assert (exists x k, str2oxm u false = Ok (x, k)) as (x & k & E). { unfold reg_load_str2act in H. nx_start H. mons Er. eauto. }
  apply one_field_sound in E as E'. destruct E' as (ts & r & Ho & -> & ->). inversion Ho as [|f h a b' p v m r' u' Hf Hh Ha Hb Hc Hn Eu E1 E2 E3|f h a b' r' u' Hf Hh Ha Hb Hc Hk Eu E1 E2 E3]; subst ts.
  - subst. discriminate.
  - rewrite flat_one in E. destruct (one_field_len _ _ _ _ Ho) as [Hl _]. subst u' r'. rewrite (load_unfold _ (Tlv f v m) r) in H by auto.
    nx_start H. mons Er. injection Er as <- <-. hdr_inv. apply load_payload_iff in Ea0; [|exact Hf]. apply nx_done in Ef as [-> L]. exists r. split; [|split; [exact L|reflexivity]].
    eapply s_load; eauto.
  - unfold reg_load_str2act in H. rewrite E in H. cbn [bind flat_map] in H. nx_start H. destruct (Nat.eqb _ 0); discriminate.
Qed.
Lemma read_load u t r b : one_field notation u [t] r -> load_any t b -> reads_as (reg_load_str2act 7) false u (nx_act 7 b) r.
Proof.
  intros Ho Hb L. destruct (one_field_len _ _ _ _ Ho) as (Hl & f & Hf & Ef & _). subst f. apply one_field_read in Ho. rewrite flat_one in Ho. rewrite (load_unfold u t r) by auto.
  apply load_payload_iff in Hb; [|exact Hf]. rewrite nxast_hdr_ok by (apply in_bytes_2; lia). cbn [bind]. rewrite Hb. cbn [bind]. now apply nx_read.
Qed.
Lemma sound_load2 : sound notation $"reg_load2" (reg_load_str2act 33).
Proof.
  intros u ra b n H. destruct ra; [discriminate|]. unfold reg_load_str2act in H. nx_start H. mon Er. destruct a as [x k].
  apply one_field_sound in Ea as E'. destruct E' as (ts & r & Ho & -> & ->). inversion Ho as [|f h a b' p v mk r' u' Hf Hh Ha Hb Hc Hn Eu E1 E2 E3|f h a b' r' u' Hf Hh Ha Hb Hc Hk Eu E1 E2 E3]; subst ts.
  - subst. discriminate.
  - destruct (one_field_len _ _ _ _ Ho) as [Hl _]. destruct (Nat.eqb_spec (length u - length r) 0) as [K|K]; [lia|]. mons Er. cbn [Z.eqb Pos.eqb] in Er. mons Er. injection Er as <- <-. hdr_inv.
    cbn [flat_map] in Ef; rewrite app_nil_r in Ef. apply nx_done in Ef as [-> L]. exists r. split; [|split; [exact L|reflexivity]]. eapply (s_load2 _ u (Tlv f v mk)); eauto.
  - destruct (Nat.eqb _ 0); discriminate.
Qed.
Lemma read_load2 u t r : one_field notation u [t] r -> reads_as (reg_load_str2act 33) false u (act_wire (RegLoad2 t)) r.
Proof.
  intros Ho L. destruct (one_field_len _ _ _ _ Ho) as (Hl & f & Hf & Ef & _). subst f. apply one_field_read in Ho. rewrite flat_one in Ho.
  unfold reg_load_str2act. rewrite Ho. cbn [bind]. destruct (Nat.eqb_spec (length u - length r) 0) as [K|K]; [lia|]. apply accepted_readable in Hf. destruct (wire_head t Hf) as [l El]. rewrite El.
  cbn [bind Z.eqb Pos.eqb]. cbv zeta. rewrite nxast_hdr_ok by (apply in_bytes_2; lia). cbn [bind]. now apply nx_read.
Qed.

(** ** reg_move *)
Lemma sound_move N : sound N $"reg_move" reg_move_str2act.
Proof.
  intros u ra b n H. destruct ra; [discriminate|]. unfold reg_move_str2act in H. nx_start H. mons Er. injection Er as <- <-. hdr_inv. apply Z.eqb_eq in Eb. subst.
  apply get_bits_iff in Ea as (h & p & d & Nx & Hd & ->). apply get_bits_iff in Ea0 as (h' & q & s & Nx' & Hs & ->). unpack_inv Ea2. rewrite app_nil_r, <- !app_assoc in Ef. apply nx_done in Ef as [-> L].
  eexists. split; [|split; [exact L|reflexivity]]. eapply (s_move N u p q _ s); eauto. eapply words_cons; eauto. eapply words_cons; eauto. constructor.
Qed.
Lemma read_move u p q r s slo d dlo n : words u [p; q] r -> bit_range p d dlo n -> bit_range q s slo n -> in_bytes 2 slo -> in_bytes 2 dlo -> in_bytes 2 n ->
  reads_as reg_move_str2act false u (act_wire (RegMove s slo d dlo n)) r.
Proof.
  intros (h & u1 & Nx & W)%words_inv1 Hd Hs H1 H2 H3 L. apply words_inv1 in W as (h2 & u2 & Nx2 & W). apply words_inv0 in W as ->. unfold reg_move_str2act.
  rewrite (proj2 (get_bits_iff u (id_wire false d) dlo n u1)) by eauto 8. cbn [bind]. rewrite (proj2 (get_bits_iff u1 (id_wire false s) slo n r)) by eauto 8. cbn [bind].
  rewrite Z.eqb_refl. cbn [assert bind]. rewrite nxast_hdr_ok by (apply in_bytes_2; lia). cbn [bind]. rewrite !pack_u by auto. cbn [pack bind]. rewrite app_nil_r, <- !app_assoc. now apply nx_read.
Qed.

(** ** multipath *)
Lemma hash_name_inv n i : index_of n nx_hash_names = Ok i -> exists h, n = hash_name h /\ i = hash_id h.
Proof.
  unfold nx_hash_names. cbn [index_of].
  destruct (text_eqb n $"eth_src") eqn:E1; [intros [= <-]; exists EthSrc; apply text_eqb_eq in E1; auto|].
  destruct (text_eqb n $"symmetric_l4") eqn:E2; [intros [= <-]; exists SymmetricL4; apply text_eqb_eq in E2; auto|discriminate].
Qed.
Lemma mpalg_name_inv n i : index_of n nx_mp_alg_names = Ok i -> exists h, n = mpalg_name h /\ i = mpalg_id h.
Proof.
  unfold nx_mp_alg_names. cbn [index_of].
  destruct (text_eqb n $"modulo_n") eqn:E1; [intros [= <-]; exists ModuloN; apply text_eqb_eq in E1; auto|].
  destruct (text_eqb n $"hash_threshold") eqn:E2; [intros [= <-]; exists HashThreshold; apply text_eqb_eq in E2; auto|].
  destruct (text_eqb n $"hrw") eqn:E3; [intros [= <-]; exists MpHrw; apply text_eqb_eq in E3; auto|].
  destruct (text_eqb n $"iter_hash") eqn:E4; [intros [= <-]; exists IterHash; apply text_eqb_eq in E4; auto|discriminate].
Qed.
Lemma bdalg_name_inv n i : index_of n nx_bd_alg_names = Ok i -> exists h, n = bdalg_name h /\ i = bdalg_id h.
Proof.
  unfold nx_bd_alg_names. cbn [index_of].
  destruct (text_eqb n $"active_backup") eqn:E1; [intros [= <-]; exists ActiveBackup; apply text_eqb_eq in E1; auto|].
  destruct (text_eqb n $"hrw") eqn:E2; [intros [= <-]; exists BdHrw; apply text_eqb_eq in E2; auto|discriminate].
Qed.
Lemma hash_read h : index_of (hash_name h) nx_hash_names = Ok (hash_id h) /\ in_bytes 2 (hash_id h).
Proof. destruct h; (split; [reflexivity|unfold in_bytes; cbn; lia]). Qed.
Lemma mpalg_read h : index_of (mpalg_name h) nx_mp_alg_names = Ok (mpalg_id h) /\ in_bytes 2 (mpalg_id h).
Proof. destruct h; (split; [reflexivity|unfold in_bytes; cbn; lia]). Qed.
Lemma bdalg_read h : index_of (bdalg_name h) nx_bd_alg_names = Ok (bdalg_id h) /\ in_bytes 2 (bdalg_id h).
Proof. destruct h; (split; [reflexivity|unfold in_bytes; cbn; lia]). Qed.
Lemma sound_multipath N : sound N $"multipath" multipath_str2act.
Proof.
  intros u ra b n H. destruct ra; [discriminate|]. unfold multipath_str2act in H. revert H.
  destruct (get_token u) as [[h1 p1] u1] eqn:E1. destruct (get_token u1) as [[h2 p2] u2] eqn:E2. destruct (get_token u2) as [[h3 p3] u3] eqn:E3.
  destruct (get_token u3) as [[h4 p4] u4] eqn:E4. destruct (get_token u4) as [[h5 p5] u5] eqn:E5. destruct (get_token u5) as [[h6 p6] u6] eqn:E6. intros H.
  apply next_iff in E1, E2, E3, E4, E5, E6. nx_start H. mons Er. injection Er as <- <-. hdr_inv.
  apply hash_name_inv in Ea as (hh & -> & ->). apply mpalg_name_inv in Ea1 as (aa & -> & ->). apply Nat.eqb_eq in Eb, Eb0. subst.
  apply get_bits_token in Ea4 as (d & Hd & -> & ->); [|eauto using next_named]. unfold multipath_fmt in Ea6. unpack_inv Ea6. rewrite ofs_eq', app_nil_r, <- !app_assoc in *. apply nx_done in Ef as [-> L].
  exists u6. split; [|split; [exact L|reflexivity]].
  eapply (s_multipath N u hh p2 z aa p4 z0 p5 z1 p6 d); eauto; try (now apply literal_iff); try (apply numberish_iff; eauto).
  repeat (eapply words_cons; eauto). constructor.
Qed.
Lemma read_multipath u h pb b a pl l pa arg pd d lo n r : words u [hash_name h; pb; mpalg_name a; pl; pa; pd] r -> literal pb b -> literal pl l -> numberish pa arg ->
  bit_range pd d lo n -> in_bytes 2 b -> in_bytes 2 l -> in_bytes 4 arg -> in_bytes 2 (ofs_nbits lo n) -> reads_as multipath_str2act false u (act_wire (Multipath h b a l arg d lo n)) r.
Proof.
  intros (h1 & u1 & N1 & W)%words_inv1 Hb%literal_iff Hl%literal_iff (ll & Ha)%numberish_iff Hd H1 H2 H3 H4 L.
  apply words_inv1 in W as (h2 & u2 & N2 & W). apply words_inv1 in W as (h3 & u3 & N3 & W). apply words_inv1 in W as (h4 & u4 & N4 & W).
  apply words_inv1 in W as (h5 & u5 & N5 & W). apply words_inv1 in W as (h6 & u6 & N6 & W). apply words_inv0 in W as ->. pose proof (next_named _ _ _ _ N6) as Hn.
  destruct (hash_read h) as [E1 F1]. destruct (mpalg_read a) as [E2 F2]. apply next_get in N1, N2, N3, N4, N5, N6.
  unfold multipath_str2act. rewrite N1, E1. cbn [bind]. rewrite N2, Hb. cbn [bind]. rewrite Nat.eqb_refl. cbn [assert bind]. rewrite N3, E2. cbn [bind]. rewrite N4, Hl. cbn [bind]. rewrite Nat.eqb_refl. cbn [assert bind].
  rewrite N5, Ha. cbn [bind]. rewrite N6, (token_get_bits _ _ _ _ Hn Hd). cbn [bind length Nat.eqb assert]. rewrite nxast_hdr_ok by (apply in_bytes_2; lia). cbn [bind]. rewrite ofs_eq'. unfold multipath_fmt.
  repeat first [rewrite pack_u by auto | rewrite pack_x]. cbn [pack bind]. rewrite app_nil_r, <- !app_assoc. now apply nx_read.
Qed.
