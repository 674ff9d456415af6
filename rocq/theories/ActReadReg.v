(** Reading the Nicira register actions; the reading theorem for all actions. *)
From Coq Require Import Strings.Ascii.
From Verif Require Import Base PyNum Util PyLib OxmCodec OxmTables Oxm Nx Ofp4 Spec SpecOxm SpecOfp.
From Verif Require Import BaseFacts UtilFacts NumFacts OxmRead OxmPrint OxmFacts OxmMore ActBase ActRead ActReadNx.

(** ** calls in general *)
Lemma call_reads name f o e args w n h r : assoc_t name str2act_tbl = Some f -> bracket o e -> closed quiet args -> args <> [] ->
  f args false = Ok (w, n) -> Forall filler h -> follow r ->
  str2act (h ++ call o e name args ++ r) = Ok (w, (length h + length (call o e name args))%nat).
Proof.
  intros Hf Hb Hq Hn He Hh Hr. destruct (act_name_plain _ _ Hf) as [Hp H0]. rewrite (act_call name f) by auto. now rewrite He.
Qed.
Lemma mid_nonnil {A} (a u b : list A) : u <> [] -> a ++ u ++ b <> [].
Proof. intros H E. apply app_eq_nil in E as [_ E]. apply app_eq_nil in E as [E _]. congruence. Qed.
Lemma filler_closed g : Forall filler g -> closed quiet g.
Proof. intros H. now apply quiet_closed, filler_quiets. Qed.
Lemma mid_quiet g u t : Forall filler g -> closed quiet u -> Forall filler t -> closed quiet (g ++ u ++ t).
Proof. intros. apply closed_app; [|apply closed_app]; auto using filler_closed. Qed.
Lemma item_quiet t u : item t u -> closed quiet u /\ u <> [].
Proof.
  intros H. split; [|now apply (item_nonnil t)]. destruct (item_inv t u H) as (f & v & m & w & a & b & -> & -> & Hf & Hw & Ha & Hb).
  destruct (name_reg f Hf) as [Hp _]. destruct (writes_plain _ _ _ _ Hw) as [Hpw _].
  apply closed_app; [now apply plain_closed_quiet|]. apply closed_app; [apply filler_closed, blank_lead; now apply gap_eq_blank|].
  apply closed_app; [apply quiet_closed; constructor; [exact eq_quiet|constructor]|].
  apply closed_app; [apply filler_closed; now apply blank_lead|now apply plain_closed_quiet].
Qed.

(** ** reg_load *)
(** the mask of [n] bits at [lo] is found again *)
Definition scan_ok (w : nat) (lo n : Z) : bool :=
  match mask_scan (be w ((2 ^ n - 1) * 2 ^ lo)) with (a, Some b) => (a =? lo) && (b =? n) | _ => false end.
Lemma scan_all : forallb (fun w => forallb (fun lo => forallb (fun n => scan_ok w lo (n + 1)) (map Z.of_nat (seq 0 (8 * w - Z.to_nat lo))))
                                           (map Z.of_nat (seq 0 (8 * w)))) (seq 0 9) = true.
Proof. vm_compute. reflexivity. Qed.
Lemma mask_scan_ok w lo n : (w <= 8)%nat -> 0 <= lo -> 1 <= n -> lo + n <= 8 * Z.of_nat w ->
  mask_scan (be w ((2 ^ n - 1) * 2 ^ lo)) = (lo, Some n).
Proof.
  intros Hw Hlo Hn Hs. pose proof (proj1 (forallb_forall _ _) scan_all w) as H1. specialize (H1 ltac:(apply in_seq; lia)). cbv beta in H1.
  pose proof (proj1 (forallb_forall _ _) H1 lo) as H2. specialize (H2 ltac:(apply in_below; lia)). cbv beta in H2.
  pose proof (proj1 (forallb_forall _ _) H2 (n - 1)) as H3. specialize (H3 ltac:(apply in_below; lia)). cbv beta in H3.
  replace (n - 1 + 1) with n in H3 by lia. unfold scan_ok in H3. destruct (mask_scan _) as [a [b|]]; [|discriminate].
  apply andb_prop in H3 as [Ha Hb]. apply Z.eqb_eq in Ha, Hb. now subst.
Qed.
Lemma odd_flag n hm : Z.odd (2 * n + flag hm) = hm.
Proof. rewrite Z.odd_add, Z.odd_mul. destruct hm; reflexivity. Qed.
Lemma land_fe n hm : 0 <= n < 128 -> Z.land (2 * n + flag hm) 0xfe = 2 * n.
Proof.
  intros H. assert (E : forallb (fun n => (Z.land (2 * n + 0) 254 =? 2 * n) && (Z.land (2 * n + 1) 254 =? 2 * n)) (map Z.of_nat (seq 0 128)) = true) by (vm_compute; reflexivity).
  pose proof (proj1 (forallb_forall _ _) E n (in_below 128 n H)) as E'. cbv beta in E'. apply andb_prop in E' as [E1 E2].
  apply Z.eqb_eq in E1, E2. destruct hm; cbn [flag]; auto.
Qed.
Lemma flag_eq hm : flag hm = if hm then 1 else 0.
Proof. destruct hm; reflexivity. Qed.
Lemma wire_head t : In (tfield t) accepted_fields -> exists l,
  oxm_hdr (wire t) 0 = Ok (class_id (fclass (tfield t)), 2 * fnum (tfield t) + flag (has_mask (tmask t)), l).
Proof.
  intros Hf. unfold oxm_hdr, wire. rewrite hdr_head by (try apply fnum_reg; auto; lia). cbn [bind]. eauto.
Qed.
Lemma wire_payload t : fclass (tfield t) <> Stratos -> skipn 4 (wire t) = tval t ++ mask_bytes (tmask t).
Proof.
  intros Hc. unfold wire. apply skipn_app_exact. rewrite hdr_length. destruct (fclass (tfield t)); [reflexivity..|congruence].
Qed.
Lemma id_wire_bytes f w : In f registry -> fclass f <> Stratos -> width (fkind f) = Some w ->
  id_wire false f = be 2 (class_id (fclass f)) ++ be 1 (2 * fnum f) ++ be 1 (Z.of_nat w).
Proof.
  intros Hf Hc Hw. pose proof (reg_width f w Hf Hw). unfold id_wire. cbn [andb]. rewrite Hw. unfold hdr. rewrite Z.add_0_r, !be1.
  replace (exp_id (fclass f)) with (@nil byte) by (destruct (fclass f); auto; congruence). cbn [length app].
  rewrite Z.min_r by lia. reflexivity.
Qed.
Lemma load_parts f lo n v w : width (fkind f) = Some w ->
  tfield (load_tlv f lo n v) = f.
Proof. intros H. unfold load_tlv. rewrite H. destruct (_ && _); reflexivity. Qed.
Lemma pow_8 w : 256 ^ Z.of_nat w = 2 ^ (8 * Z.of_nat w).
Proof. destruct (pow256 (Z.of_nat w)); lia. Qed.
Lemma load_value w lo n v : 0 <= lo -> 1 <= n -> lo + n <= 8 * Z.of_nat w -> 0 <= v < 2 ^ n ->
  Z.shiftr (be_val (be w (v * 2 ^ lo))) lo = v.
Proof.
  intros Hlo Hn Hs Hv. rewrite be_val_spec, in_bytes_num.
  - rewrite Z.shiftr_div_pow2 by auto. apply Z.div_mul. lia.
  - unfold in_bytes. rewrite pow_8. split; [lia|]. apply Z.lt_le_trans with (2 ^ n * 2 ^ lo); [nia|].
    rewrite <- Z.pow_add_r by lia. apply Z.pow_le_mono_r; lia.
Qed.
Lemma load_ofs lo n : 0 <= lo -> Z.shiftl lo 6 + (n - 1) = ofs_nbits lo n.
Proof. intros H. unfold ofs_nbits. rewrite Z.shiftl_mul_pow2 by lia. reflexivity. Qed.
Lemma pow2_in w n v : 0 <= v < 2 ^ n -> n <= 8 * Z.of_nat w -> in_bytes w v.
Proof.
  intros H Hn. unfold in_bytes. rewrite pow_8. destruct (Z_lt_le_dec n 0); [rewrite Z.pow_neg_r in H by lia; lia|].
  pose proof (Z.pow_le_mono_r 2 n (8 * Z.of_nat w) ltac:(lia) Hn). lia.
Qed.
Lemma class_in f : in_bytes 2 (class_id (fclass f)).
Proof. destruct (fclass f); cbn; unfold in_bytes; lia. Qed.
Lemma load_args f lo n v g u t : item (load_tlv f lo n v) u -> act_ok (RegLoad f lo n v) -> Forall filler g -> tail_gap t ->
  exists k, reg_load_str2act 7 (g ++ u ++ t) false = Ok (act_wire (RegLoad f lo n v), k).
Proof.
  intros Hi [(Hf & Hc & (w & Hw & Hw8 & Hs) & Hlo & Hn & Hv) Hl] Hg Ht. unfold reg_load_str2act.
  rewrite (item_reads _ g u t Hi) by auto using tail_gap_follow. cbn [bind].
  pose proof (load_parts f lo n v w Hw) as Hpf. pose proof (item_nonnil _ _ Hi) as Hun.
  destruct (Nat.eqb_spec (length g + length u) 0) as [E|_]; [destruct u; cbn in E; [congruence|lia]|].
  destruct (wire_head (load_tlv f lo n v)) as [l El]; [rewrite Hpf; auto using reg_accepted|]. rewrite El. cbn [bind].
  rewrite Hpf. destruct (Z.eqb_spec (class_id (fclass f)) 65535) as [E|_]; [apply fclass_ids in E; congruence|].
  rewrite wire_payload by now rewrite Hpf. rewrite odd_flag, land_fe by (apply fnum_reg; auto using reg_accepted).
  pose proof (fnum_reg f (reg_accepted f Hf)) as Hnum.
  replace (7 =? 7) with true by reflexivity. cbv zeta.
  assert (Ep : forall k, nxast_str2act
     (h <- nxast_hdr 7 ;; p <- pack [sH; sH; sB; sB; sQ] [Z.shiftl lo 6 + (n - 1); class_id (fclass f); 2 * fnum f; Z.of_nat w; v] ;; Ok (h ++ p, k))
     = Ok (act_wire (RegLoad f lo n v), k)).
  { intros k. rewrite nxast_hdr_ok by fits. cbn [bind]. rewrite load_ofs by auto.
    pose proof (class_in f) as Hci. assert (Ho : in_bytes 2 (ofs_nbits lo n)) by (apply in_bytes_2; unfold ofs_nbits; lia).
    assert (Hv8 : in_bytes 8 v) by (apply (pow2_in 8 n); lia).
    packs. cbn [act_wire] in *. rewrite id_wire_bytes with (w := w) in * by auto. rewrite <- !app_assoc in *. now apply nx_finish. }
  unfold load_tlv. rewrite Hw. destruct ((lo =? 0) && (n =? 8 * Z.of_nat w)) eqn:E; cbn [tval tmask has_mask mask_bytes].
  - apply andb_prop in E as [E1 E2]. apply Z.eqb_eq in E1, E2. rewrite app_nil_r, be_length.
    rewrite firstn_all2 by (rewrite be_length; lia).
    replace (Z.shiftr (be_val (be w v)) 0) with v.
    2:{ rewrite be_val_spec, in_bytes_num; [now rewrite Z.shiftr_0_r|]. apply (pow2_in w n); lia. }
    replace (Z.of_nat w * 8) with n by lia. rewrite <- E1. eexists. apply Ep.
  - rewrite half by now rewrite !be_length. rewrite skipn_app_exact by reflexivity.
    rewrite mask_scan_ok by auto. rewrite firstn_app_exact by reflexivity. rewrite load_value with (n := n) by auto. rewrite be_length.
    eexists. apply Ep.
Qed.
Lemma load_quiet_call name (f : text -> bool -> res (bytes * nat)) t u o e g t' h r w : assoc_t name str2act_tbl = Some f -> item t u ->
  bracket o e -> Forall filler g -> tail_gap t' -> (exists k, f (g ++ u ++ t') false = Ok (w, k)) ->
  Forall filler h -> follow r -> str2act (h ++ call o e name (g ++ u ++ t') ++ r) = Ok (w, (length h + length (call o e name (g ++ u ++ t')))%nat).
Proof.
  intros Hf Hi Hb Hg Ht [k E] Hh Hr. destruct (item_quiet t u Hi) as [Hq Hn].
  apply (call_reads name f o e _ w k); auto; [apply mid_quiet; auto using tail_gap_filler|now apply mid_nonnil].
Qed.
Lemma load2_args t g u t' : item t u -> act_ok (RegLoad2 t) -> Forall filler g -> tail_gap t' ->
  exists k, reg_load_str2act 33 (g ++ u ++ t') false = Ok (act_wire (RegLoad2 t), k).
Proof.
  intros Hi [_ Hl] Hg Ht. unfold reg_load_str2act. rewrite (item_reads _ g u t' Hi) by auto using tail_gap_follow. cbn [bind].
  pose proof (item_nonnil _ _ Hi) as Hun.
  destruct (Nat.eqb_spec (length g + length u) 0) as [E|_]; [destruct u; cbn in E; [congruence|lia]|].
  destruct (wire_head t) as [l El].
  { destruct (item_inv t u Hi) as (f & v & m & w & a & b & -> & -> & Hf & _). exact Hf. }
  rewrite El. cbn [bind]. cbv zeta. replace (33 =? 7) with false by reflexivity. replace (33 =? 33) with true by reflexivity.
  rewrite nxast_hdr_ok by fits. cbn [bind]. eexists. now apply nx_finish.
Qed.

(** ** reg_move *)
Lemma move_args s slo d dlo n u w a b g t : bits_of s slo n u -> bits_of d dlo n w -> gap_eq a -> Forall blank b ->
  act_ok (RegMove s slo d dlo n) -> Forall filler g -> tail_gap t ->
  exists k, reg_move_str2act (g ++ w ++ a ++ $"=" ++ b ++ u ++ t) false = Ok (act_wire (RegMove s slo d dlo n), k).
Proof.
  intros Hu Hw Ha Hb [(Hs & Hd & Hi1 & Hi2 & Hi3) Hl] Hg Ht. unfold reg_move_str2act.
  change (a ++ $"=" ++ b ++ u ++ t) with (a ++ 61 :: b ++ u ++ t).
  rewrite (get_bits_ok d dlo n w g) by auto using filler_lead, gap_eq_ends. cbn [bind].
  replace (a ++ 61 :: b ++ u ++ t) with ((a ++ 61 :: b) ++ u ++ t) by (rewrite <- app_assoc; reflexivity).
  rewrite (get_bits_ok s slo n u (a ++ 61 :: b) t) by auto using eq_lead, follow_ends, tail_gap_follow. cbn [bind].
  rewrite Z.eqb_refl. cbn [assert bind]. rewrite nxast_hdr_ok by fits. cbn [bind]. packs.
  eexists. cbn [act_wire] in *. rewrite <- !app_assoc. now apply nx_finish.
Qed.
Lemma move_quiet d dlo n w s slo m u a b g t : In s registry -> In d registry -> bits_of s slo m u -> bits_of d dlo n w -> gap_eq a -> Forall blank b ->
  Forall filler g -> tail_gap t -> closed quiet (g ++ w ++ a ++ $"=" ++ b ++ u ++ t) /\ g ++ w ++ a ++ $"=" ++ b ++ u ++ t <> [].
Proof.
  intros Hs Hd Hu Hw Ha Hb Hg Ht. destruct (bits_of_quiet _ _ _ _ Hs Hu) as (_ & _ & Hq1 & _). destruct (bits_of_quiet _ _ _ _ Hd Hw) as (_ & _ & Hq2 & Hn).
  split; [|now apply mid_nonnil]. apply closed_app; [now apply filler_closed|]. apply closed_app; auto.
  apply closed_app; [apply filler_closed, blank_lead; now apply gap_eq_blank|].
  apply closed_app; [apply quiet_closed; constructor; [exact eq_quiet|constructor]|].
  apply closed_app; [apply filler_closed; now apply blank_lead|]. apply closed_app; auto using filler_closed, tail_gap_filler.
Qed.

(** ** argument lists *)
Lemma args_cons_inv u v us s : args (u :: v :: us) s -> exists g r, s = u ++ g ++ r /\ gap g /\ args (v :: us) r.
Proof. intros H. inversion H; subst; eauto. Qed.
Lemma args_last_inv u s : args [u] s -> exists t, s = u ++ t /\ tail_gap t.
Proof. intros H. inversion H; subst; eauto. Qed.
Lemma args_quiet us s : args us s -> Forall (closed quiet) us -> closed quiet s.
Proof.
  induction 1 as [u t Ht|u v us g r Hg Hr IH]; intros H; inversion H as [|x l Hx Hl]; subst.
  - apply closed_app; auto using filler_closed, tail_gap_filler.
  - apply closed_app; auto. apply closed_app; auto using filler_closed, gap_filler.
Qed.
Lemma args_nonnil u us s g : args (u :: us) s -> u <> [] -> g ++ s <> [].
Proof. intros H Hn. inversion H; subst; now apply mid_nonnil. Qed.

Lemma hash_plain h : Forall plain (hash_name h) /\ hash_name h <> [].
Proof. destruct h; (split; [|discriminate]); repeat (apply Forall_cons; [unfold plain; cbn; lia|]); constructor. Qed.
Lemma mpalg_plain h : Forall plain (mpalg_name h) /\ mpalg_name h <> [].
Proof. destruct h; (split; [|discriminate]); repeat (apply Forall_cons; [unfold plain; cbn; lia|]); constructor. Qed.
Lemma bdalg_plain h : Forall plain (bdalg_name h) /\ bdalg_name h <> [].
Proof. destruct h; (split; [|discriminate]); repeat (apply Forall_cons; [unfold plain; cbn; lia|]); constructor. Qed.
Lemma hash_index h : index_of (hash_name h) nx_hash_names = Ok (hash_id h).
Proof. destruct h; reflexivity. Qed.
Lemma mpalg_index h : index_of (mpalg_name h) nx_mp_alg_names = Ok (mpalg_id h).
Proof. destruct h; reflexivity. Qed.
Lemma bdalg_index h : index_of (bdalg_name h) nx_bd_alg_names = Ok (bdalg_id h).
Proof. destruct h; reflexivity. Qed.
Lemma hash_in h : in_bytes 2 (hash_id h).
Proof. destruct h; unfold in_bytes; cbn; lia. Qed.
Lemma mpalg_in h : in_bytes 2 (mpalg_id h).
Proof. destruct h; unfold in_bytes; cbn; lia. Qed.
Lemma bdalg_in h : in_bytes 2 (bdalg_id h).
Proof. destruct h; unfold in_bytes; cbn; lia. Qed.

Lemma multipath_args h ub b a ul l ua arg d lo n ud g s : literal ub b -> literal ul l -> literal ua arg -> bits_of d lo n ud ->
  Forall filler g -> args [hash_name h; ub; mpalg_name a; ul; ua; ud] s -> act_ok (Multipath h b a l arg d lo n) ->
  exists k, multipath_str2act (g ++ s) false = Ok (act_wire (Multipath h b a l arg d lo n), k).
Proof.
  intros Hb Hl Ha Hd Hg Hs [(Hin & Hi1 & Hi2 & Hi3 & Hlo & Hn) Hlen].
  apply args_cons_inv in Hs as (g1 & s1 & -> & Hg1 & Hs). apply args_cons_inv in Hs as (g2 & s2 & -> & Hg2 & Hs).
  apply args_cons_inv in Hs as (g3 & s3 & -> & Hg3 & Hs). apply args_cons_inv in Hs as (g4 & s4 & -> & Hg4 & Hs).
  apply args_cons_inv in Hs as (g5 & s5 & -> & Hg5 & Hs). apply args_last_inv in Hs as (t & -> & Ht).
  destruct (hash_plain h) as [Hp1 Hn1], (mpalg_plain a) as [Hp2 Hn2], (literal_plain _ _ Hb) as [Hp3 Hn3],
    (literal_plain _ _ Hl) as [Hp4 Hn4], (literal_plain _ _ Ha) as [Hp5 Hn5].
  destruct (bits_of_quiet _ _ _ _ Hin Hd) as (Ht6 & Hs6 & _ & _).
  unfold multipath_str2act. rewrite (tok_plain g) by auto using gap_follow. rewrite hash_index. cbn [bind].
  rewrite (tok_plain g1) by auto using gap_follow, gap_filler. rewrite (literal_alone _ _ Hb). cbn [bind]. rewrite Nat.eqb_refl. cbn [assert bind].
  rewrite (tok_plain g2) by auto using gap_follow, gap_filler. rewrite mpalg_index. cbn [bind].
  rewrite (tok_plain g3) by auto using gap_follow, gap_filler. rewrite (literal_alone _ _ Hl). cbn [bind]. rewrite Nat.eqb_refl. cbn [assert bind].
  rewrite (tok_plain g4) by auto using gap_follow, gap_filler. rewrite (literal_alone _ _ Ha). cbn [bind].
  rewrite (tok g5) by auto using tail_gap_follow, gap_filler.
  pose proof (get_bits_ok d lo n ud [] [] Hin Hd (or_introl (Forall_nil _)) I) as Eb. rewrite app_nil_r in Eb. cbn [app] in Eb. rewrite Eb.
  cbn [bind length Nat.eqb assert]. rewrite nxast_hdr_ok by fits. cbn [bind]. rewrite load_ofs by lia. unfold multipath_fmt.
  assert (Ho : in_bytes 2 (ofs_nbits lo n)) by (apply in_bytes_2; unfold ofs_nbits; lia).
  pose proof (hash_in h). pose proof (mpalg_in a). packs. cbn [act_wire] in *. eexists. rewrite <- !app_assoc. now apply nx_finish.
Qed.

(** ** bundle *)
Lemma slave_ports us ps : Forall2 literal us ps -> mapM slave_port us = Ok ps.
Proof.
  induction 1 as [|u v us ps Hu H IH]; cbn [mapM]; auto. unfold slave_port at 1. rewrite (ofpp_num_literal _ _ Hu), (literal_alone _ _ Hu).
  cbn [bind]. now rewrite IH.
Qed.
Lemma slaves_plain : Forall plain $"slaves" /\ $"slaves" <> [].
Proof. split; [|discriminate]. repeat (apply Forall_cons; [unfold plain; cbn; lia|]); constructor. Qed.
Lemma slave_list_ok us ps o e s : Forall2 literal us ps -> bracket o e -> plain_args us s -> slave_list (call o e $"slaves" s) = Ok ps.
Proof.
  intros Hu Hb Hs. pose proof (literals_plain _ _ Hu) as Hp. unfold slave_list.
  rewrite call_func by (eauto using plain_args_quiet; apply slaves_plain). cbn [bind]. rewrite text_eqb_refl. cbn [assert bind].
  pose proof (split_args us s Hs Hp) as E. destruct s as [|c s].
  - cbn in E. subst. now inversion Hu.
  - rewrite E. now apply slave_ports.
Qed.
Lemma id_read_flag f : In f registry -> (exists n, fkind f = KPort n) -> str2oxmid (fname f) true = Ok (id_wire false f).
Proof.
  intros Hf [n Hk]. pose proof (ids_read true [f]) as H. cbn [map sepby flat_map] in H. rewrite app_nil_r in H.
  rewrite H by (apply Forall_cons; [now apply reg_accepted|constructor]). unfold id_wire. rewrite Hk. reflexivity.
Qed.
Lemma bundle_args h ub b a f us ps o' e' g s s' : literal ub b -> Forall2 literal us ps -> bracket o' e' -> Forall filler g -> plain_args us s' ->
  args [hash_name h; ub; bdalg_name a; fname f; call o' e' $"slaves" s'] s -> act_ok (Bundle h b a f ps) ->
  exists k, bundle_str2act (g ++ s) false = Ok (act_wire (Bundle h b a f ps), k).
Proof.
  intros Hb Hu Hbr Hg Hs' Hs [(Hf & Hk & Hi & Hps) Hlen]. pose proof (literals_plain _ _ Hu) as Hup.
  apply args_cons_inv in Hs as (g1 & s1 & -> & Hg1 & Hs). apply args_cons_inv in Hs as (g2 & s2 & -> & Hg2 & Hs).
  apply args_cons_inv in Hs as (g3 & s3 & -> & Hg3 & Hs). apply args_cons_inv in Hs as (g4 & s4 & -> & Hg4 & Hs).
  apply args_last_inv in Hs as (t & -> & Ht).
  destruct (hash_plain h) as [Hp1 Hn1], (bdalg_plain a) as [Hp2 Hn2], (literal_plain _ _ Hb) as [Hp3 Hn3], (name_reg f (reg_accepted f Hf)) as [Hp4 Hn4].
  pose proof (plain_args_quiet _ _ Hs' Hup) as Hq. destruct slaves_plain as [Hp5 Hn5].
  unfold bundle_str2act. rewrite (tok_plain g) by auto using gap_follow.
  rewrite (tok_plain g1) by auto using gap_follow, gap_filler. rewrite (tok_plain g2) by auto using gap_follow, gap_filler.
  rewrite (tok_plain g3) by auto using gap_follow, gap_filler. rewrite (tok g4) by auto using tail_gap_follow, gap_filler, call_token, call_solid.
  rewrite hash_index. cbn [bind]. rewrite (literal_alone _ _ Hb). cbn [bind]. rewrite bdalg_index. cbn [bind].
  rewrite id_read_flag by auto. cbn [bind]. rewrite (slave_list_ok us ps) by auto. cbn [bind]. rewrite nxast_hdr_ok by fits. cbn [bind].
  cbn [act_wire] in *. apply nx_fits_len in Hlen as Hl'. revert Hl'. len. intros Hl'.
  assert (Hl2 : in_bytes 2 (Z.of_nat (length ps))) by (apply in_bytes_2; lia). pose proof (hash_in h). pose proof (bdalg_in a).
  packs. rewrite pack_all by auto. cbn [bind]. eexists. rewrite <- !app_assoc. now apply nx_finish.
Qed.

(** ** output_reg *)
Lemma full_bits f lo n u : full_bits_of f lo n u -> bits_of f lo n u.
Proof. intros [b H|o e lo' hi Hb Hlo Hhi]; constructor; auto. Qed.
Lemma full_range_ok f lo n u : In f registry -> fclass f <> Stratos -> full_bits_of f lo n u ->
  exists arg, parse_func u = Ok (fname f, arg) /\
  (match arg with
   | Some (c :: a) => int_range (c :: a)
   | _ => '(_, _, size) <- oxm_hdr (id_wire false f) 0 ;; Ok (0, Some (size * 8))
   end) = Ok (lo, Some (lo + n)).
Proof.
  intros Hf Hc H. destruct (name_reg f (reg_accepted f Hf)) as [Hp Hn]. destruct H as [b Hb|o e lo hi Ho Hlo Hhi].
  - exists None. split; [now apply plain_func|]. destruct (id_head f [] Hf) as (l & Eh & El). rewrite app_nil_r in Eh. rewrite Eh. cbn [bind].
    unfold bits in Hb. destruct (width (fkind f)) as [w|] eqn:Ew; [|discriminate]. injection Hb as <-. pose proof (reg_width f w Hf Ew).
    replace (exp_id (fclass f)) with (@nil byte) in El by (destruct (fclass f); auto; congruence). cbn [length] in El. do 3 f_equal. lia.
  - exists (Some (dec lo ++ $":" ++ dec hi)). split.
    + apply call_func; auto. apply plain_closed_quiet. apply (range_plain lo hi); auto.
    + change (dec lo ++ $":" ++ dec hi) with (dec lo ++ 58 :: dec hi). assert (E0 : exists c a, dec lo ++ 58 :: dec hi = c :: a).
      { destruct (dec lo); cbn; eauto. } destruct E0 as (c & a & E0). rewrite E0. rewrite <- E0. unfold int_range.
      rewrite split1_some by (apply (range_no_colon _ lo); auto). rewrite !py_int_dec by auto. cbn [bind]. do 3 f_equal. lia.
Qed.
Lemma id_length f : length (id_wire false f) = (4 + length (exp_id (fclass f)))%nat.
Proof. unfold id_wire. cbn [andb]. apply hdr_length. Qed.
Lemma land_3f n : 0 <= n < 64 -> Z.land n 0x3f = n.
Proof. intros H. change 63 with (Z.ones 6). rewrite Z.land_ones by lia. now apply Z.mod_small. Qed.
Lemma output_reg_args (v2 : bool) f n m u g s : full_bits_of f 0 n u -> act_ok (OutputReg v2 f n m) -> Forall filler g ->
  (m = 0xffff /\ args [u] s) \/ (exists w, literal w m /\ args [u; w] s) ->
  exists k, output_reg_str2act (if v2 then 32 else 15) (g ++ s) false = Ok (act_wire (OutputReg v2 f n m), k).
Proof.
  intros Hu [(Hf & Hc & Hn & Hm) Hl] Hg Hs. destruct (bits_of_quiet _ _ _ _ Hf (full_bits _ _ _ _ Hu)) as (Ht & Hsu & _ & _).
  destruct (full_range_ok f 0 n u Hf Hc Hu) as (arg & Epf & Er). unfold output_reg_str2act.
  assert (E : exists s' s2 wt, get_token (g ++ s) = (g, u, s') /\ get_token s' = (wt, s2, skipn (length wt + length s2) s') /\
              (if Nat.eqb (length s2) 0 then Ok 0xffff else '(v, _) <- parseInt s2 ;; Ok v) = Ok m).
  { destruct Hs as [[-> Hs]|(w & Hw & Hs)].
    - apply args_last_inv in Hs as (t & -> & Htg). exists t, [], t. rewrite (tok g u t) by auto using tail_gap_follow.
      rewrite (tok_gap t) by now apply tail_gap_filler. repeat split. cbn [length]. rewrite Nat.add_0_r, skipn_all. reflexivity.
    - apply args2 in Hs as (g2 & t & -> & Hg2 & Htg). destruct (literal_plain _ _ Hw) as [Hpw Hnw].
      exists (g2 ++ w ++ t), w, g2. rewrite (tok g u) by auto using gap_follow. rewrite (tok_plain g2 w t) by auto using tail_gap_follow, gap_filler.
      repeat split. + f_equal. rewrite app_assoc, <- app_length. now rewrite skipn_len_app.
      + destruct w; [congruence|]. cbn [length Nat.eqb]. rewrite (literal_alone _ _ Hw). reflexivity. }
  destruct E as (s' & s2 & wt & -> & E2 & Em). rewrite Epf. cbn [bind]. rewrite id_read by auto. cbn [bind]. rewrite Er. cbn [bind].
  rewrite E2. rewrite Em. cbn [bind]. rewrite id_length.
  replace (length (exp_id (fclass f))) with 0%nat by (destruct (fclass f); auto; congruence). cbn [Nat.add Nat.ltb Nat.leb].
  rewrite nxast_hdr_ok by (destruct v2; fits). cbn [bind range_end snd fst]. cbn [Z.add]. rewrite land_3f by lia.
  replace (Z.shiftl 0 6 + (n - 1)) with (ofs_nbits 0 n) by (unfold ofs_nbits; rewrite Z.shiftl_0_l; lia).
  assert (Ho : in_bytes 2 (ofs_nbits 0 n)) by (apply in_bytes_2; unfold ofs_nbits; lia).
  destruct v2; cbn [Z.eqb Pos.eqb]; packs; eexists; cbn [act_wire] in *; rewrite <- ?app_assoc; now apply nx_finish.
Qed.

(** ** All actions *)
Lemma noarg_reads k h r : Forall filler h -> follow r ->
  str2act (h ++ noarg_name k ++ r) = Ok (act_wire (Noarg k), (length h + length (noarg_name k))%nat).
Proof.
  intros Hh Hr. assert (E : assoc_t (noarg_name k) str2act_tbl = Some (generic_str2act (noarg_type k))) by (destruct k; reflexivity).
  destruct (act_name_plain _ _ E) as [Hp Hn]. rewrite (act_word _ _ h r E) by auto using follow_ends. unfold generic_str2act.
  assert (Ht : in_bytes 2 (noarg_type k)) by (destruct k; unfold in_bytes; cbn; lia). packs. cbn [act_wire]. unfold std_act.
  rewrite Nat.add_0_r. reflexivity.
Qed.
Lemma null_reads name sub a h r : assoc_t name str2act_tbl = Some (null_str2act sub) -> in_bytes 2 sub -> act_wire a = nx_act sub [] ->
  Forall filler h -> follow r -> str2act (h ++ name ++ r) = Ok (act_wire a, (length h + length name)%nat).
Proof.
  intros E Hs Ew Hh Hr. destruct (act_name_plain _ _ E) as [Hp Hn]. rewrite (act_word _ _ h r E) by auto using follow_ends. unfold null_str2act.
  rewrite nxast_hdr_ok by auto. cbn [bind]. rewrite <- (app_nil_r (nx_head sub)), nx_finish.
  - cbn [bind]. rewrite Ew. do 2 f_equal. lia.
  - rewrite nx_act_length. cbn. lia.
Qed.
Lemma arg_reads name f u w s h r : assoc_t name str2act_tbl = Some f -> Forall plain u -> u <> [] -> reads_arg f u w -> one_arg name u s ->
  Forall filler h -> follow r -> str2act (h ++ s ++ r) = Ok (w, (length h + length s)%nat).
Proof.
  intros Hf Hu Hn Ha Hs Hh Hr. destruct (act_name_plain _ _ Hf) as [Hp H0]. apply (one_arg_reads name f u w); auto using plain_closed_quiet.
Qed.
