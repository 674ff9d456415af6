(** Printing actions. *)
From Coq Require Import Strings.Ascii.
From Verif Require Import Base PyNum Util PyLib OxmCodec OxmTables Oxm Nx Ofp4 Spec SpecOxm SpecOfp.
From Verif Require Import BaseFacts UtilFacts NumFacts OxmRead OxmPrint OxmFacts OxmMore ActBase ActRead ActReadNx ActReadReg ActReadLearn.

(** ** Framing *)
Lemma skipn_at {A} (a b : list A) n : length a = n -> skipn n (a ++ b) = b.
Proof. intros <-. apply skipn_len_app. Qed.
Lemma unpack_from_0 fs m : (calcsize fs <= length m)%nat -> unpack_from fs m 0 = Ok (unpack_raw fs m).
Proof. exact (unpack_from_ok fs m). Qed.
Lemma std_act_length t p : length (std_act t p) = (4 + length p)%nat.
Proof. unfold std_act. len. Qed.
Lemma padded_act_eq t p : padded_act t p = std_act t (p ++ zeros (align8 (4 + length p) - (4 + length p))).
Proof. unfold padded_act. now rewrite pad_to8_align. Qed.
Lemma std_step t p r : in_bytes 2 t -> t <> 0xffff -> Z.of_nat (4 + length p) <= 65535 ->
  act2str_one (std_act t p ++ r)
  = (tok <- (if t =? 25 then x <- oxm2str (p ++ r) false ;; Ok ($"set_" ++ x)
             else match assoc_z t std_act2str_tbl with Some act => act p | None => Ok $"?" end) ;;
     Ok (tok, r)).
Proof.
  intros Ht Hn Hl. unfold act2str_one. unfold std_act. rewrite <- !app_assoc. rewrite unpack_from_ok by len.
  assert (Hl2 : in_bytes 2 (Z.of_nat (4 + length p))) by (apply in_bytes_2; lia). unpacks. cbn [bind].
  destruct (Z.eqb_spec t 65535) as [|_]; [congruence|]. cbn [bind].
  replace (skipn 4 (be 2 t ++ be 2 (Z.of_nat (4 + length p)) ++ p ++ r)) with (p ++ r)
    by (rewrite app_assoc; symmetry; apply skipn_at; len).
  rewrite Nat2Z.id. unfold act2str_get.
  replace (slice 4 (4 + length p) (be 2 t ++ be 2 (Z.of_nat (4 + length p)) ++ p ++ r)) with p
    by (rewrite (app_assoc (be 2 t)); symmetry; apply slice_mid; len).
  replace (skipn (4 + length p) (be 2 t ++ be 2 (Z.of_nat (4 + length p)) ++ p ++ r)) with r
    by (rewrite !app_assoc; symmetry; apply skipn_at; len).
  reflexivity.
Qed.
Lemma nx_raw sub q r act : in_bytes 2 sub -> sub <> 25 -> Z.of_nat (10 + length q) <= 65535 -> assoc_z sub nx_act2str_tbl = Some act ->
  act2str_one (std_act 0xffff (be 4 0x2320 ++ be 2 sub ++ q) ++ r) = (tok <- act q ;; Ok (tok, r)).
Proof.
  intros Hs H25 Hl Ha. unfold std_act. set (l := (4 + length (be 4 8992 ++ be 2 sub ++ q))%nat).
  assert (El : l = (10 + length q)%nat) by (unfold l; len). clearbody l. unfold act2str_one. rewrite <- !app_assoc. rewrite unpack_from_ok by len.
  assert (Hl2 : in_bytes 2 (Z.of_nat l)) by (apply in_bytes_2; lia). unpacks. cbn [bind]. rewrite Z.eqb_refl.
  rewrite (app_assoc (be 2 65535)), unpack_from_off by len. rewrite unpack_from_ok by len. unpacks. cbn [bind]. rewrite Z.eqb_refl.
  rewrite (app_assoc (_ ++ _) (be 4 _)), unpack_from_off by len. rewrite unpack_from_ok by len. unpacks. cbn [bind].
  destruct (Z.eqb_spec sub 25) as [|_]; [congruence|]. unfold act2str_get. rewrite Ha.
  rewrite (app_assoc (_ ++ _) (be 2 sub)). rewrite slice_mid by len. f_equal.
  rewrite (app_assoc _ q r), skipn_at by len. reflexivity.
Qed.
Lemma nx_step_zeros sub p r act : in_bytes 2 sub -> sub <> 25 -> Z.of_nat (length (nx_act sub p)) <= 65535 -> assoc_z sub nx_act2str_tbl = Some act ->
  exists k, act2str_one (nx_act sub p ++ r) = (tok <- act (p ++ zeros k) ;; Ok (tok, r)).
Proof.
  intros Hs H25 Hl Ha. rewrite nx_act_length in Hl. pose proof (align8_ge (10 + length p)) as Hg. unfold nx_act. rewrite padded_act_eq.
  set (k := (_ - _)%nat). assert (Hk : k = (align8 (10 + length p) - (10 + length p))%nat).
  { unfold k. replace (4 + length (be 4 8992 ++ be 2 sub ++ p))%nat with (10 + length p)%nat by len. reflexivity. }
  clearbody k. exists k. rewrite <- !app_assoc. apply nx_raw; auto. rewrite app_length, zeros_length. lia.
Qed.
Lemma nx_step sub p r act : in_bytes 2 sub -> sub <> 25 -> Z.of_nat (length (nx_act sub p)) <= 65535 -> assoc_z sub nx_act2str_tbl = Some act ->
  exists z, act2str_one (nx_act sub p ++ r) = (tok <- act (p ++ z) ;; Ok (tok, r)).
Proof. intros Hs H25 Hl Ha. destruct (nx_step_zeros sub p r act) as [k E]; eauto. Qed.

(** ** Identifiers *)
Lemma id_print_any hm f r : In f registry -> fname f <> $"nxm_ip_frag" -> oxmid2str (id_wire hm f ++ r) false = Ok (fname f).
Proof.
  intros Hf Hn. unfold oxmid2str. pose proof (id_wire_length hm f).
  assert (Hl : (4 <= length (id_wire hm f ++ r))%nat) by (rewrite app_length; lia).
  destruct (length (id_wire hm f ++ r)) as [|n] eqn:E; [lia|]. cbn [oxmid2str_go]. rewrite E.
  destruct (Nat.ltb_spec (S n) 4); [lia|]. rewrite id_one by auto. cbn [bind join]. unfold id_name.
  destruct (text_eqb (fname f) $"nxm_ip_frag") eqn:Et; [apply text_eqb_eq in Et; congruence|]. reflexivity.
Qed.
Lemma id_print f r : In f registry -> fname f <> $"nxm_ip_frag" -> oxmid2str (id_wire false f ++ r) false = Ok (fname f).
Proof. apply id_print_any. Qed.
Lemma id_print0 f b : In f registry -> fname f <> $"nxm_ip_frag" -> oxmid2str (id_wire false f) b = Ok (fname f).
Proof.
  intros Hf Hn. destruct b.
  - pose proof (ids_print false [f] ltac:(apply Forall_cons; auto)) as H. cbn [flat_map map sepby] in H. rewrite app_nil_r in H. rewrite H.
    unfold id_name. destruct (text_eqb (fname f) $"nxm_ip_frag") eqn:Et; [apply text_eqb_eq in Et; congruence|]. reflexivity.
  - rewrite <- (app_nil_r (id_wire false f)). now apply id_print.
Qed.
Lemma printable_name t : printable t -> fname (tfield t) <> $"nxm_ip_frag".
Proof. intros H E. apply H. unfold misprinted. apply in_or_app. right. left. auto. Qed.
Lemma id_len4 f : fclass f <> Stratos -> length (id_wire false f) = 4%nat.
Proof. intros H. rewrite id_length. destruct (fclass f); auto; congruence. Qed.
Lemma id_size f w r : In f registry -> fclass f <> Stratos -> width (fkind f) = Some w ->
  oxm_hdr (id_wire false f ++ r) 0 = Ok (class_id (fclass f), 2 * fnum f, Z.of_nat w).
Proof.
  intros Hf Hc Hw. destruct (id_head f r Hf) as (l & -> & ->). rewrite Hw. pose proof (reg_width f w Hf Hw).
  replace (exp_id (fclass f)) with (@nil byte) by (destruct (fclass f); auto; congruence). cbn [length]. rewrite Z.min_r by lia. reflexivity.
Qed.

(** ** Numbers *)
Lemma fmt_x_hex n : 0 <= n -> fmt_x 0 n = hex n.
Proof. intros H. rewrite fmt_x_hexw by auto. reflexivity. Qed.
Lemma join_commas ts : join $"," ts = commas ts.
Proof. exact (join_sepby 44 ts). Qed.
Lemma commas_cons t u ts : commas (t :: u :: ts) = t ++ $"," ++ commas (u :: ts).
Proof. reflexivity. Qed.
Lemma ofs_shift lo n : 0 <= lo -> 1 <= n <= 64 -> Z.shiftr (ofs_nbits lo n) 6 = lo /\ Z.land (ofs_nbits lo n) 0x3f + 1 = n.
Proof.
  intros Hlo Hn. unfold ofs_nbits. split.
  - rewrite Z.shiftr_div_pow2 by lia. change (2 ^ 6) with 64. rewrite Z.div_add_l by lia. rewrite Z.div_small by lia. lia.
  - change 63 with (Z.ones 6). rewrite Z.land_ones by lia. change (2 ^ 6) with 64. rewrite (Z.add_comm (lo * 64)), Z.mod_add by lia.
    rewrite Z.mod_small by lia. lia.
Qed.
Lemma bits_text_range f lo n : bits_text (fname f) lo (lo + n) = range_str f lo n.
Proof. unfold bits_text, range_str. now rewrite !fmt_d_dec. Qed.
Lemma unpack_all n l r : Forall (in_bytes n) l -> unpack_raw (repeat (FU n) (length l)) (all_be n l ++ r) = l.
Proof.
  induction 1 as [|v l Hv Hl IH]; [reflexivity|]. cbn [length repeat]. unfold all_be in *. cbn [flat_map]. rewrite <- app_assoc.
  rewrite unpack_u by auto. now rewrite IH.
Qed.
Lemma calcsize_all n k : calcsize (repeat (FU n) k) = (n * k)%nat.
Proof. unfold calcsize. induction k as [|k IH]; cbn; [lia|]. cbn in IH. rewrite IH. lia. Qed.
Lemma slave_plain p : 0 <= p -> plain_port p -> slave_name p = dec p.
Proof.
  intros Hp H. unfold slave_name. rewrite <- (fmt_d_dec p).
  assert (E : forall l r, (forall q, In q (map fst l) -> Z.land q 65535 <> p) ->
    fold_left (fun r (pn : Z * text) => if Z.land (fst pn) 65535 =? p then Some (snd pn) else r) l r = r).
  { induction l as [|[q t] l IH]; intros r Hl; auto. cbn [fold_left fst snd map] in *. destruct (Z.eqb_spec (Z.land q 65535) p) as [Eq|_].
    - exfalso. apply (Hl q); auto. left. auto.
    - apply IH. intros q' Hq. apply Hl. now right. }
  rewrite E; [reflexivity|]. intros q Hq. change 65535 with (Z.ones 16). rewrite Z.land_ones by lia. change (2 ^ 16) with 65536. apply H. exact Hq.
Qed.
Lemma port_names : forallb (fun p => match fclass p with Stratos => false | _ => true end) (filter (fun f => match fkind f with KPort _ => true | _ => false end) registry) = true.
Proof. vm_compute. reflexivity. Qed.
Lemma port_class f n : In f registry -> fkind f = KPort n -> fclass f <> Stratos.
Proof.
  intros Hf Hk E. pose proof (proj1 (forallb_forall _ _) port_names f) as H. cbv beta in H. rewrite E in H.
  discriminate H. apply filter_In. split; auto. now rewrite Hk.
Qed.
Lemma frag_port f n : In f registry -> fkind f = KPort n -> fname f <> $"nxm_ip_frag".
Proof.
  intros Hf Hk E.
  assert (H : forallb (fun f => negb (text_eqb (fname f) $"nxm_ip_frag") || match fkind f with KPort _ => false | _ => true end) registry = true) by (vm_compute; reflexivity).
  pose proof (proj1 (forallb_forall _ _) H f Hf) as H'. cbv beta in H'. rewrite E, Hk in H'. discriminate H'.
Qed.

(** ** Actions *)
Lemma output_prints p m : in_bytes 4 p -> in_bytes 2 m -> p = 0xfffffffd \/ m = 0xffff ->
  output_act2str (be 4 p ++ be 2 m ++ pad 6) = Ok (act_text (Output p m)).
Proof.
  intros Hp Hm H. unfold output_act2str. rewrite unpack_ok by len.
  replace (be 4 p ++ be 2 m ++ pad 6) with (be 4 p ++ be 2 m ++ pad 6 ++ []) by now rewrite app_nil_r. unpacks. cbn [bind].
  assert (E : match assoc_z p ofpp with Some n => n | None => fmt_d p end = port_text 4 p).
  { unfold port_text, ofpp, reserved. cbn [assoc_z find fst snd]. rewrite fmt_d_dec.
    repeat match goal with |- context [?a mod 256 ^ Z.of_nat 4] => change (a mod 256 ^ Z.of_nat 4) with a end.
    rewrite !(Z.eqb_sym _ p).
    repeat match goal with |- context [if ?b then _ else _] => destruct b; [reflexivity|] end. reflexivity. }
  rewrite E. cbn [act_text]. destruct (Z.eqb_spec m 65535) as [Em|Em].
  - rewrite andb_false_r, app_nil_r. reflexivity.
  - destruct H as [H|]; [|congruence]. rewrite H, Z.eqb_refl. cbn [andb negb]. rewrite fmt_x_hex; [reflexivity|]. unfold in_bytes in Hm. lia.
Qed.
Lemma load_prints f lo n v z : act_ok (RegLoad f lo n v) -> act_printable (RegLoad f lo n v) ->
  reg_load_act2str ((be 2 (ofs_nbits lo n) ++ id_wire false f ++ be 8 v) ++ z) = Ok (act_text (RegLoad f lo n v)).
Proof.
  intros [(Hf & Hc & (w & Hw & Hw8 & Hs) & Hlo & Hn & Hv) _] [Hg Hp]. pose proof (load_parts f lo n v w Hw) as Hpf.
  pose proof (id_len4 f Hc) as H4. unfold reg_load_act2str. rewrite <- !app_assoc.
  assert (Ho : in_bytes 2 (ofs_nbits lo n)) by (apply in_bytes_2; unfold ofs_nbits; lia). pose proof (class_in f) as Hci.
  pose proof (reg_accepted f Hf) as Hfa. pose proof (fnum_reg f Hfa) as Hnum. pose proof (reg_width f w Hf Hw) as Hww.
  assert (Hi1 : in_bytes 1 (2 * fnum f)) by (unfold in_bytes; lia). assert (Hi2 : in_bytes 1 (Z.of_nat w)) by (unfold in_bytes; lia).
  assert (Hv8 : in_bytes 8 v) by (apply (pow2_in 8 n); lia).
  replace (slice 2 6 (be 2 (ofs_nbits lo n) ++ id_wire false f ++ be 8 v ++ z)) with (id_wire false f) by (symmetry; apply slice_mid; [len|lia]).
  assert (Hnm : fname f <> $"nxm_ip_frag") by (rewrite <- Hpf; now apply printable_name).
  rewrite id_print0 by auto.
  rewrite (id_wire_bytes f w) at 1 by auto. rewrite <- !app_assoc. rewrite unpack_from_ok by len. unpacks. cbn [bind].
  rewrite id_read by auto. cbn [bind]. pose proof (id_size f w [] Hf Hc Hw) as Eh. rewrite app_nil_r in Eh. rewrite Eh. cbn [bind].
  destruct (ofs_shift lo n) as [E1 E2]; [lia|lia|]. rewrite E1, E2. cbv zeta. rewrite Nat2Z.id.
  assert (Et : load_tlv f lo n v = if (lo =? 0) && (n =? Z.of_nat w * 8) then Tlv f (be w v) None
              else Tlv f (be w (v * 2 ^ lo)) (Some (be w ((2 ^ n - 1) * 2 ^ lo)))).
  { unfold load_tlv. rewrite Hw. now rewrite (Z.mul_comm (Z.of_nat w)). }
  pose proof (oxm2str_prints [load_tlv f lo n v] ltac:(auto) ltac:(auto)) as Ep.
  cbn [flat_map] in Ep. rewrite app_nil_r in Ep. change (texts [load_tlv f lo n v]) with (text_of (load_tlv f lo n v)) in Ep.
  cbn [act_text]. rewrite Et in Ep at 1. clear Et. destruct ((lo =? 0) && (n =? Z.of_nat w * 8)) eqn:E.
  - rewrite be_bytes_spec.
    replace (id_wire false f ++ be w v) with (wire (Tlv f (be w v) None)).
    2:{ unfold wire, id_wire. cbn [tfield tval tmask has_mask mask_bytes andb]. rewrite app_nil_r, be_length, Hw. reflexivity. }
    rewrite Ep. reflexivity.
  - rewrite !be_bytes_spec, !Z.shiftl_mul_pow2 by lia.
    assert (Ho1 : Z.lor (2 * fnum f) 1 = 2 * fnum f + 1).
    { assert (A : forallb (fun k => Z.lor (2 * k) 1 =? 2 * k + 1) (map Z.of_nat (seq 0 128)) = true) by (vm_compute; reflexivity).
      apply Z.eqb_eq. exact (proj1 (forallb_forall _ _) A _ (in_below 128 _ Hnum)). }
    rewrite Ho1. assert (Hi3 : in_bytes 1 (2 * fnum f + 1)) by (unfold in_bytes; lia). assert (Hi4 : in_bytes 1 (Z.of_nat w * 2)) by (unfold in_bytes; lia).
    packs. rewrite <- !app_assoc.
    replace (be 2 (class_id (fclass f)) ++ be 1 (2 * fnum f + 1) ++ be 1 (Z.of_nat w * 2) ++ be w (v * 2 ^ lo) ++ be w ((2 ^ n - 1) * 2 ^ lo))
      with (wire (Tlv f (be w (v * 2 ^ lo)) (Some (be w ((2 ^ n - 1) * 2 ^ lo))))).
    2:{ unfold wire, hdr. cbn [tfield tval tmask has_mask mask_bytes]. rewrite app_length, !be_length, !be1.
        replace (exp_id (fclass f)) with (@nil byte) by (destruct (fclass f); auto; congruence). cbn [length app]. rewrite <- !app_assoc. cbn [app].
        rewrite Z.min_r by lia. do 4 f_equal. lia. }
    rewrite Ep. reflexivity.
Qed.
Lemma move_prints s slo d dlo n z : act_ok (RegMove s slo d dlo n) -> act_printable (RegMove s slo d dlo n) ->
  reg_move_act2str ((be 2 n ++ be 2 slo ++ be 2 dlo ++ id_wire false s ++ id_wire false d) ++ z) = Ok (act_text (RegMove s slo d dlo n)).
Proof.
  intros [(Hs & Hd & Hi1 & Hi2 & Hi3) _] (Hcs & Hcd & Hns & Hnd & Hbs & Hbd & Hb). unfold reg_move_act2str. rewrite <- !app_assoc.
  rewrite unpack_from_ok by len. unpacks. cbn [bind].
  unfold bits in *. destruct (width (fkind s)) as [ws|] eqn:Ews; [|now elim Hbs]. destruct (width (fkind d)) as [wd|] eqn:Ewd; [|now elim Hbd].
  cbn [option_map] in *.
  pose proof (id_len4 s Hcs) as L1. pose proof (id_len4 d Hcd) as L2.
  set (h := be 2 n ++ be 2 slo ++ be 2 dlo).
  assert (Hh : length h = 6%nat) by (unfold h; len).
  replace (be 2 n ++ be 2 slo ++ be 2 dlo ++ id_wire false s ++ id_wire false d ++ z) with (h ++ id_wire false s ++ id_wire false d ++ z)
    by (unfold h; now rewrite <- !app_assoc).
  rewrite (skipn_at h) by auto. rewrite id_print by auto. cbn [bind].
  assert (E : forall r, oxm_hdr (h ++ r) 6 = oxm_hdr r 0) by (intros r; unfold oxm_hdr; now rewrite unpack_from_off by auto).
  rewrite E, (id_size s ws) by auto. cbn [bind].
  destruct (Z.eqb_spec (class_id (fclass s)) 65535) as [Ec|_]; [apply fclass_ids in Ec; congruence|].
  assert (Hh2 : length (h ++ id_wire false s) = 10%nat) by (rewrite app_length; lia).
  rewrite (app_assoc h). rewrite (skipn_at (h ++ id_wire false s)) by auto. rewrite id_print by auto. cbn [bind].
  assert (E' : forall r, oxm_hdr ((h ++ id_wire false s) ++ r) 10 = oxm_hdr r 0) by (intros r; unfold oxm_hdr; now rewrite unpack_from_off by auto).
  rewrite E', (id_size d wd) by auto. cbn [bind]. cbn [act_text]. unfold bits_str, bits. rewrite Ews, Ewd. cbn [option_map]. rewrite !bits_text_range.
  rewrite !(Z.mul_comm (Z.of_nat _)).
  assert (E3 : (dlo =? 0) && (n =? 8 * Z.of_nat ws) = (dlo =? 0) && (n =? 8 * Z.of_nat wd)).
  { destruct Hb as [Hb|[Hb|[Hb1 Hb2]]].
    - injection Hb as Hb. do 2 f_equal. lia.
    - destruct (Z.eqb_spec dlo 0); [congruence|reflexivity].
    - f_equal. destruct (Z.eqb_spec n (8 * Z.of_nat ws)), (Z.eqb_spec n (8 * Z.of_nat wd)); auto; congruence. }
  rewrite E3. destruct ((dlo =? 0) && (n =? 8 * Z.of_nat wd)); now rewrite <- ?app_assoc.
Qed.
Lemma multipath_prints h b a l arg d lo n z : act_ok (Multipath h b a l arg d lo n) -> act_printable (Multipath h b a l arg d lo n) ->
  multipath_act2str ((be 2 (hash_id h) ++ be 2 b ++ pad 2 ++ be 2 (mpalg_id a) ++ be 2 l ++ be 4 arg ++ pad 2
                      ++ be 2 (ofs_nbits lo n) ++ id_wire false d) ++ z) = Ok (act_text (Multipath h b a l arg d lo n)).
Proof.
  intros [(Hd & Hb & Hl & Ha & Hlo & Hn) _] Hp. cbn in Hp. unfold multipath_act2str. rewrite <- !app_assoc.
  assert (Ho : in_bytes 2 (ofs_nbits lo n)) by (apply in_bytes_2; unfold ofs_nbits; lia). pose proof (hash_in h). pose proof (mpalg_in a).
  rewrite unpack_from_ok by (unfold multipath_fmt; len). unfold multipath_fmt. unpacks. cbn [bind].
  destruct (ofs_shift lo n) as [E1 E2]; [lia|lia|]. rewrite E1, E2. cbv zeta.
  rewrite !app_assoc. rewrite <- (app_assoc _ (id_wire false d) z). rewrite skipn_at by len. rewrite id_print by auto. cbn [bind].
  replace (py_nth nx_hash_names (Z.to_nat (hash_id h))) with (Ok (hash_name h)) by (destruct h; reflexivity). cbn [bind].
  replace (py_nth nx_mp_alg_names (Z.to_nat (mpalg_id a))) with (Ok (mpalg_name a)) by (destruct a; reflexivity). cbn [bind].
  rewrite bits_text_range, !fmt_d_dec, fmt_x_hex by (unfold in_bytes in Ha; lia). cbn [act_text]. rewrite !commas_cons. unfold commas. cbn [sepby]. rewrite <- !app_assoc. reflexivity.
Qed.
Lemma bundle_prints h b a f ps z : act_ok (Bundle h b a f ps) -> act_printable (Bundle h b a f ps) ->
  bundle_act2str ((be 2 (bdalg_id a) ++ be 2 (hash_id h) ++ be 2 b ++ id_wire false f
                   ++ be 2 (Z.of_nat (length ps)) ++ be 2 0 ++ be 4 0 ++ pad 4 ++ all_be 2 ps) ++ z) = Ok (act_text (Bundle h b a f ps)).
Proof.
  intros [(Hf & (k & Hk) & Hb & Hps) Hlen] Hp. cbn in Hp. pose proof (port_class f k Hf Hk) as Hc. pose proof (frag_port f k Hf Hk) as Hnm.
  pose proof (id_len4 f Hc) as H4. cbn [act_wire] in Hlen. apply nx_fits_len in Hlen as Hl'. revert Hl'. len. intros Hl'.
  assert (Hl2 : in_bytes 2 (Z.of_nat (length ps))) by (apply in_bytes_2; lia). pose proof (hash_in h). pose proof (bdalg_in a).
  unfold bundle_act2str. rewrite <- !app_assoc.
  assert (Hw : exists c, in_bytes 4 c /\ id_wire false f = be 4 c).
  { exists (num_be (id_wire false f)). split; [|now rewrite <- H4, be_num_be].
    unfold in_bytes. rewrite <- H4. apply num_be_range. }
  destruct Hw as (c & Hc4 & Ec).
  rewrite unpack_from_ok by (rewrite Ec; unfold bundle_fmt; len). rewrite Ec at 1. unfold bundle_fmt at 1. unpacks. cbn [bind].
  rewrite Nat2Z.id.
  assert (E1 : unpack_from (repeat sH (length ps)) (be 2 (bdalg_id a) ++ be 2 (hash_id h) ++ be 2 b ++ id_wire false f
                   ++ be 2 (Z.of_nat (length ps)) ++ be 2 0 ++ be 4 0 ++ pad 4 ++ all_be 2 ps ++ z) (calcsize bundle_fmt) = Ok ps).
  { rewrite !app_assoc. rewrite <- (app_assoc _ (all_be 2 ps) z). rewrite unpack_from_off by (rewrite Ec; len; reflexivity).
    rewrite unpack_from_ok by (rewrite app_length, all_be_length, calcsize_all; lia). now rewrite unpack_all. }
  rewrite E1. cbn [bind].
  replace (py_nth nx_hash_names (Z.to_nat (hash_id h))) with (Ok (hash_name h)) by (destruct h; reflexivity). cbn [bind].
  replace (py_nth nx_bd_alg_names (Z.to_nat (bdalg_id a))) with (Ok (bdalg_name a)) by (destruct a; reflexivity). cbn [bind].
  rewrite 2 app_assoc. rewrite slice_mid by (len; rewrite H4; reflexivity). rewrite id_print0 by auto. cbn [bind].
  rewrite !fmt_d_dec. cbn [act_text].
  replace (map slave_name ps) with (map dec ps).
  2:{ apply map_ext_in. intros p Hin. symmetry. apply slave_plain; [|now apply (proj1 (Forall_forall _ _) Hp)].
      pose proof (proj1 (Forall_forall _ _) Hps p Hin) as Hi. unfold in_bytes in Hi. lia. }
  rewrite join_commas, !commas_cons. change (commas [?t]) with t. rewrite <- !app_assoc. reflexivity.
Qed.
Lemma output_reg_prints (v2 : bool) f n m r : act_ok (OutputReg v2 f n m) -> act_printable (OutputReg v2 f n m) ->
  act2str_one (act_wire (OutputReg v2 f n m) ++ r) = Ok (act_text (OutputReg v2 f n m), r).
Proof.
  intros [(Hf & Hc & Hn & Hm) Hl] (Hnm & Hb & _). pose proof (id_len4 f Hc) as H4.
  unfold bits in Hb. destruct (width (fkind f)) as [w|] eqn:Hw; [|now elim Hb].
  assert (Ho : in_bytes 2 (ofs_nbits 0 n)) by (apply in_bytes_2; unfold ofs_nbits; lia). pose proof (class_in f) as Hci.
  pose proof (reg_accepted f Hf) as Hfa. pose proof (fnum_reg f Hfa) as Hnum. pose proof (reg_width f w Hf Hw) as Hww.
  assert (Hi1 : in_bytes 1 (2 * fnum f)) by (unfold in_bytes; lia). assert (Hi2 : in_bytes 1 (Z.of_nat w)) by (unfold in_bytes; lia).
  destruct (ofs_shift 0 n) as [E1 E2]; [lia|lia|].
  assert (Et : forall pre, reg_text pre (fname f) (ofs_nbits 0 n) (Z.of_nat w) = pre ++ bits_str f 0 n ++ $")").
  { intros pre. unfold reg_text, bits_str, bits. rewrite Hw. cbn [option_map]. rewrite E1, E2, bits_text_range.
    now rewrite (Z.mul_comm (Z.of_nat w)). }
  destruct v2; cbn [act_wire] in *.
  - destruct (nx_step 32 (be 2 (ofs_nbits 0 n) ++ be 2 m ++ id_wire false f) r output_reg2_act2str) as [z ->]; auto; try fits; try lia.
    unfold output_reg2_act2str. rewrite <- !app_assoc. rewrite (id_wire_bytes f w) at 1 by auto. rewrite <- !app_assoc.
    rewrite unpack_from_ok by len. unpacks. cbn [bind].
    rewrite (app_assoc (be 2 _) (be 2 m)), skipn_at by len. rewrite id_print by auto. cbn [bind]. rewrite Et. reflexivity.
  - destruct (nx_step 15 (be 2 (ofs_nbits 0 n) ++ id_wire false f ++ be 2 m ++ pad 6) r output_reg_act2str) as [z ->]; auto; try fits; try lia.
    unfold output_reg_act2str. rewrite <- !app_assoc. rewrite (id_wire_bytes f w) at 1 by auto. rewrite <- !app_assoc.
    rewrite unpack_from_ok by len. unpacks. cbn [bind].
    rewrite slice_mid by (len; rewrite H4; reflexivity). rewrite id_print0 by auto. cbn [bind]. rewrite Et. reflexivity.
Qed.

(** ** bundle_load *)
Lemma id_len4_any hm f : fclass f <> Stratos -> length (id_wire hm f) = 4%nat.
Proof. intros H. unfold id_wire. destruct (hm && flaggable (fkind f)); rewrite hdr_length; destruct (fclass f); auto; congruence. Qed.
Lemma id_be4 hm f : fclass f <> Stratos -> exists c, in_bytes 4 c /\ id_wire hm f = be 4 c.
Proof.
  intros H. pose proof (id_len4_any hm f H) as H4. exists (num_be (id_wire hm f)). split; [|now rewrite <- H4, be_num_be].
  unfold in_bytes. rewrite <- H4. apply num_be_range.
Qed.
Definition bundle_load_payload h b a f d lo n ps : bytes :=
  be 2 (bdalg_id a) ++ be 2 (hash_id h) ++ be 2 b ++ id_wire false f
    ++ be 2 (Z.of_nat (length ps)) ++ be 2 (ofs_nbits lo n) ++ id_wire true d ++ pad 4 ++ all_be 2 ps.
Definition bundle_load_text h b a f d lo n ps : text :=
  $"bundle_load(" ++ commas [hash_name h; dec b; bdalg_name a; fname f; range_str d lo n; $"slaves(" ++ commas (map dec ps) ++ $")"] ++ $")".
Lemma bundle_load_prints_at h b a f d lo n ps z : In f registry -> (exists k, fkind f = KPort k) -> In d registry -> in_bytes 2 b -> 0 <= lo < 1024 -> 1 <= n <= 64 ->
  Forall (in_bytes 2) ps -> nx_fits 13 (bundle_load_payload h b a f d lo n ps) -> fclass d <> Stratos -> fname d <> $"nxm_ip_frag" -> Forall plain_port ps ->
  bundle_load_act2str (bundle_load_payload h b a f d lo n ps ++ z) = Ok (bundle_load_text h b a f d lo n ps).
Proof.
  intros Hf (k & Hk) Hd Hb Hlo Hn Hps Hlen Hcd Hnd Hp. pose proof (port_class f k Hf Hk) as Hc. pose proof (frag_port f k Hf Hk) as Hnm.
  pose proof (id_len4 f Hc) as H4. pose proof (id_len4_any true d Hcd) as H4'. apply nx_fits_len in Hlen as Hl'. revert Hl'. unfold bundle_load_payload. len. intros Hl'.
  assert (Hl2 : in_bytes 2 (Z.of_nat (length ps))) by (apply in_bytes_2; lia). pose proof (hash_in h). pose proof (bdalg_in a).
  assert (Ho : in_bytes 2 (ofs_nbits lo n)) by (apply in_bytes_2; unfold ofs_nbits; lia).
  unfold bundle_load_act2str. rewrite <- !app_assoc.
  destruct (id_be4 false f Hc) as (c & Hc4 & Ec). destruct (id_be4 true d Hcd) as (c' & Hc4' & Ec').
  rewrite unpack_from_ok by (rewrite Ec, Ec'; unfold bundle_fmt; len). rewrite Ec, Ec' at 1. unfold bundle_fmt at 1. unpacks. cbn [bind].
  rewrite Nat2Z.id.
  assert (E1 : unpack_from (repeat sH (length ps)) (be 2 (bdalg_id a) ++ be 2 (hash_id h) ++ be 2 b ++ id_wire false f
                   ++ be 2 (Z.of_nat (length ps)) ++ be 2 (ofs_nbits lo n) ++ id_wire true d ++ pad 4 ++ all_be 2 ps ++ z) (calcsize bundle_fmt) = Ok ps).
  { rewrite !app_assoc. rewrite <- (app_assoc _ (all_be 2 ps) z). rewrite unpack_from_off by (rewrite Ec, Ec'; len; reflexivity).
    rewrite unpack_from_ok by (rewrite app_length, all_be_length, calcsize_all; lia). now rewrite unpack_all. }
  rewrite E1. cbn [bind].
  replace (py_nth nx_hash_names (Z.to_nat (hash_id h))) with (Ok (hash_name h)) by (destruct h; reflexivity). cbn [bind].
  replace (py_nth nx_bd_alg_names (Z.to_nat (bdalg_id a))) with (Ok (bdalg_name a)) by (destruct a; reflexivity). cbn [bind].
  match goal with |- context [slice 14 18 ?w] => replace (slice 14 18 w) with (id_wire true d) end.
  2:{ rewrite 5 app_assoc. symmetry. apply slice_mid; [len; rewrite H4; reflexivity|lia]. }
  rewrite 2 app_assoc. rewrite slice_mid by (len; rewrite H4; reflexivity). rewrite id_print0 by auto. cbn [bind].
  rewrite <- (app_nil_r (id_wire true d)), id_print_any by auto. cbn [bind].
  destruct (ofs_shift lo n) as [E2 E3]; [lia|lia|]. rewrite E2, E3. rewrite bits_text_range.
  rewrite !fmt_d_dec. unfold bundle_load_text.
  replace (map slave_name ps) with (map dec ps).
  2:{ apply map_ext_in. intros p Hin. symmetry. apply slave_plain; [|now apply (proj1 (Forall_forall _ _) Hp)].
      pose proof (proj1 (Forall_forall _ _) Hps p Hin) as Hi. unfold in_bytes in Hi. lia. }
  rewrite join_commas, !commas_cons. change (commas [?t]) with t. rewrite <- !app_assoc. reflexivity.
Qed.
Lemma bundle_load_prints h b a f d n ps z : act_ok (BundleLoad h b a f d n ps) -> act_printable (BundleLoad h b a f d n ps) ->
  bundle_load_act2str ((be 2 (bdalg_id a) ++ be 2 (hash_id h) ++ be 2 b ++ id_wire false f
                   ++ be 2 (Z.of_nat (length ps)) ++ be 2 (ofs_nbits 0 n) ++ id_wire true d ++ pad 4 ++ all_be 2 ps) ++ z) = Ok (act_text (BundleLoad h b a f d n ps)).
Proof.
  intros [(Hf & Hk & Hd & Hb & Hn & Hps) Hlen] (Hcd & Hnd & Hp). apply bundle_load_prints_at; auto. lia.
Qed.

(** ** learn *)
Lemma id_bytes f : In f registry -> fclass f <> Stratos ->
  exists l, in_bytes 1 l /\ id_wire false f = be 2 (class_id (fclass f)) ++ be 1 (2 * fnum f) ++ be 1 l /\
    (match bits f with Some b => l * 8 = b | None => l = 255 end).
Proof.
  intros Hf Hc. exists (Z.of_nat (match width (fkind f) with Some n => n | None => 255%nat end)). unfold bits.
  assert (Hl : in_bytes 1 (Z.of_nat (match width (fkind f) with Some n => n | None => 255%nat end))).
  { unfold in_bytes. destruct (width (fkind f)) as [w|] eqn:Ew; [pose proof (reg_width f w Hf Ew)|]; lia. }
  split; auto. split.
  - unfold id_wire. cbn [andb]. unfold hdr. cbn [flag]. rewrite !be1. replace (exp_id (fclass f)) with (@nil byte) by (destruct (fclass f); auto; congruence).
    cbn [length app]. rewrite ?app_nil_r. unfold in_bytes in Hl. rewrite Z.min_r by lia. do 3 f_equal. lia.
  - destruct (width (fkind f)); cbn [option_map]; lia.
Qed.
Lemma learn_obj_prints f lo n r : lbits_ok f lo -> fname f <> $"nxm_ip_frag" -> 1 <= n < 1024 ->
  learn_obj (bits_wire f lo ++ r) n = Ok (bits_str f lo n).
Proof.
  intros (Hf & Hc & Hlo) Hn Hb. unfold learn_obj, bits_wire. rewrite <- app_assoc. rewrite id_print by auto. cbn [bind].
  destruct (id_bytes f Hf Hc) as (l & Hl & E & Hbits). rewrite E, <- !app_assoc. pose proof (class_in f).
  pose proof (fnum_reg f (reg_accepted f Hf)) as Hnum. assert (Hi1 : in_bytes 1 (2 * fnum f)) by (unfold in_bytes; lia).
  rewrite unpack_from_ok by len. unpacks. cbn [bind]. rewrite bits_text_range. unfold bits_str. destruct (bits f) as [b|].
  - rewrite Hbits. now rewrite (Z.eqb_sym b).
  - subst l. destruct (Z.eqb_spec (255 * 8) n); [lia|]. now rewrite andb_false_r.
Qed.
Lemma bits_wire_length f lo : fclass f <> Stratos -> length (bits_wire f lo) = 6%nat.
Proof. intros H. unfold bits_wire. rewrite app_length, id_len4 by auto. len. Qed.
Lemma spec_head n dk sk : 1 <= n < 1024 -> 0 <= dk <= 2 -> 0 <= sk <= 1 -> let v := n + 1024 * dk + 4096 * sk in
  in_bytes 2 v /\ (v =? 0) = false /\ Z.land v 0x3ff = n /\ Z.land (Z.shiftr v 10) 3 = dk /\ Z.land (Z.shiftr v 12) 1 = sk /\ (Z.shiftr v 13 =? 0) = true.
Proof.
  intros Hn Hd Hs. cbv zeta. change 1023 with (Z.ones 10). change 3 with (Z.ones 2). replace (Z.land (Z.shiftr (n + 1024 * dk + 4096 * sk) 12) 1) with (Z.land (Z.shiftr (n + 1024 * dk + 4096 * sk) 12) (Z.ones 1)) by reflexivity. rewrite !Z.land_ones by lia.
  rewrite !Z.shiftr_div_pow2 by lia. change (2 ^ 10) with 1024. change (2 ^ 12) with 4096. change (2 ^ 13) with 8192. change (2 ^ 2) with 4. change (2 ^ 1) with 2.
  split; [apply in_bytes_2; lia|]. split; [lia|]. split; [lia|]. split; [lia|]. split; [lia|]. lia.
Qed.
Definition lspec_named (s : lspec) : Prop :=
  match l_src s with FromBits f _ => fname f <> $"nxm_ip_frag" | FromValue _ => True end
  /\ match l_dst s with ToMatch f _ | ToLoad f _ => fname f <> $"nxm_ip_frag" | ToOutput => True end.
Lemma learn_specs_end fuel t k : (k <= fuel)%nat -> learn_specs fuel t (zeros k) = Ok [].
Proof.
  intros H. destruct k as [|[|[|k]]]; [now destruct fuel|now destruct fuel|now destruct fuel|]. destruct fuel as [|fuel]; [lia|].
  cbn [learn_specs]. rewrite zeros_length. reflexivity.
Qed.
Lemma lspec_step s fuel t r : lspec_ok s -> lspec_named s -> (length (lspec_wire s ++ r) <= fuel)%nat ->
  exists fuel', (length r <= fuel')%nat /\
  learn_specs fuel t (lspec_wire s ++ r) = (x <- learn_specs fuel' (Some (lspec_text s)) r ;; Ok (lspec_text s :: x)).
Proof.
  intros (Hn & Hs & Hd) (Ns & Nd) Hl. destruct s as [n src dst]. cbn [l_bits l_src l_dst] in *.
  set (sk := match src with FromBits _ _ => 0 | FromValue _ => 1 end).
  set (sw := match src with FromBits f lo => bits_wire f lo | FromValue v => be (imm_size n) v end).
  set (dk := match dst with ToMatch _ _ => 0 | ToLoad _ _ => 1 | ToOutput => 2 end).
  set (dw := match dst with ToMatch f lo | ToLoad f lo => bits_wire f lo | ToOutput => [] end).
  assert (E : lspec_wire (LSpec n src dst) = be 2 (n + 1024 * dk + 4096 * sk) ++ sw ++ dw).
  { unfold lspec_wire, sk, sw, dk, dw. cbn [l_bits l_src l_dst]. destruct src, dst; reflexivity. }
  destruct (spec_head n dk sk) as (V1 & V2 & V3 & V4 & V5 & V6); auto; [unfold dk; destruct dst; lia|unfold sk; destruct src; lia|].
  set (v := n + 1024 * dk + 4096 * sk) in *. clearbody v.
  assert (Lw : (2 <= length sw)%nat).
  { unfold sw. destruct src as [f lo|x]; [rewrite bits_wire_length by apply Hs; lia|]. rewrite be_length. unfold imm_size. pose proof (Z.div_le_lower_bound (n + 15) 16 1). lia. }
  rewrite E in *. rewrite <- !app_assoc in *. rewrite !app_length, be_length in Hl. destruct fuel as [|fuel]; [lia|]. exists fuel. split; [lia|].
  cbn [learn_specs]. destruct (Nat.leb_spec (length (be 2 v ++ sw ++ dw ++ r)) 2) as [Hc|_]; [rewrite !app_length, be_length in Hc; lia|].
  rewrite (firstn_app_exact 2), (skipn_at (be 2 v)) by apply be_length.
  rewrite be_val_spec. rewrite in_bytes_num by auto. rewrite V2, V3, V4, V5, V6. cbn [assert bind].
  match goal with |- bind ?X _ = _ => assert (Es : exists si st, X = Ok (si, st, dw ++ r)
      /\ match si with Some x => fmt_x 0 x | None => st end = match src with FromBits f lo => bits_str f lo n | FromValue x => hex x end
      /\ match si with Some x => fmt_d x | None => st end = match src with FromBits f lo => bits_str f lo n | FromValue x => dec x end) end.
  { unfold sk, sw. destruct src as [f lo|x].
    - cbn [Z.eqb]. rewrite learn_obj_prints by auto. cbn [bind]. rewrite skipn_at by (apply bits_wire_length; apply Hs). eauto.
    - cbn [Z.eqb Pos.eqb]. cbv zeta. replace (Z.to_nat ((n + 15) / 16 * 2)) with (imm_size n) by (unfold imm_size; lia).
      rewrite (firstn_app_exact (imm_size n)), skipn_at by apply be_length. rewrite be_val_spec, in_bytes_num by auto. do 2 eexists. split; [reflexivity|].
      cbv beta iota. unfold in_bytes in Hs. rewrite fmt_x_hex by lia. now rewrite fmt_d_dec. }
  destruct Es as (si & st & -> & Ex & Ed). cbn [bind]. unfold lspec_text. cbn [l_bits l_src l_dst]. unfold dk, dw in *. destruct dst as [f lo|f lo|]; cbn [Z.eqb Pos.eqb negb].
  - rewrite learn_obj_prints by auto. cbn [bind]. rewrite skipn_at by (apply bits_wire_length; apply Hd). rewrite Ex. reflexivity.
  - rewrite learn_obj_prints by auto. cbn [bind]. rewrite skipn_at by (apply bits_wire_length; apply Hd). rewrite Ex. reflexivity.
  - cbn [bind app]. rewrite Ed. destruct src; reflexivity.
Qed.
Lemma learn_specs_print k ss : forall fuel t, Forall lspec_ok ss -> Forall lspec_named ss -> (length (flat_map lspec_wire ss ++ zeros k) <= fuel)%nat ->
  learn_specs fuel t (flat_map lspec_wire ss ++ zeros k) = Ok (map lspec_text ss).
Proof.
  induction ss as [|s ss IH]; intros fuel t Hok Hn Hl; cbn [flat_map app map] in *.
  - apply learn_specs_end. now rewrite zeros_length in Hl.
  - inversion Hok; subst. inversion Hn; subst. rewrite <- app_assoc in *. destruct (lspec_step s fuel t (flat_map lspec_wire ss ++ zeros k)) as (f' & L & ->); auto.
    rewrite IH by auto. reflexivity.
Qed.
Lemma adds_value k l : forall d, Forall (fun e => match e with LAdd _ => True | LSet _ _ => False end) l -> lvalue k d l = d.
Proof. induction l as [|[j v|s] l IH]; intros d H; cbn [lvalue]; auto; inversion H; subst; [contradiction|auto]. Qed.
Lemma learn_prints l k : Forall lspec_ok (lspecs l) -> Forall lspec_named (lspecs l) -> (forall k, lvalue k 0 l = 0) ->
  learn_act2str ((lfixed_wire l ++ flat_map lspec_wire (lspecs l)) ++ zeros k) = Ok (act_text (Learn l)).
Proof.
  intros Hok Hn Hz. unfold learn_act2str.
  assert (E : lfixed_wire l = be 2 0 ++ be 2 0 ++ be 2 0 ++ be 8 0 ++ be 2 0 ++ be 1 0 ++ pad 1 ++ be 2 0 ++ be 2 0).
  { unfold lfixed_wire. rewrite !Hz. reflexivity. }
  rewrite E. clear E. rewrite <- !app_assoc. rewrite unpack_from_ok by (unfold learn_fmt; len).
  assert (in_bytes 2 0) by fits. assert (in_bytes 8 0) by fits. assert (in_bytes 1 0) by fits. unfold learn_fmt at 1. unpacks. cbn [bind existsb Z.eqb negb orb].
  rewrite !app_assoc. rewrite <- (app_assoc _ (flat_map lspec_wire (lspecs l))). rewrite skipn_at by (len; reflexivity).
  rewrite learn_specs_print by (auto; rewrite !app_length; lia). cbn [bind]. rewrite join_commas. reflexivity.
Qed.

(** every printable action prints as its text *)
Theorem act_prints a r : good_act a -> act2str_one (act_wire a ++ r) = Ok (act_text a, r).
Proof.
  intros [Hok Hp].
  destruct a as [p m|k|n|n|n|k n|t|p|p t|v|v|ids|f lo n v|t|s slo d dlo n|h b a l arg d lo n|h b a f ps|v2 f n m| | |n|b|h b a f d n ps|l].
  - destruct Hok as [[H1 H2] Hl]. cbn [act_wire]. rewrite std_step by (try fits; try lia; len). cbn [Z.eqb assoc_z std_act2str_tbl].
    rewrite output_prints by auto. reflexivity.
  - destruct k; cbn [act_wire noarg_type]; (rewrite std_step by (try fits; try lia; len)); reflexivity.
  - destruct Hok as [H1 Hl]. cbn in H1. cbn [act_wire]. rewrite std_step by (try fits; try lia; len). cbn [Z.eqb Pos.eqb assoc_z std_act2str_tbl].
    unfold uint_act2str. rewrite unpack_from_ok by len. rewrite unpack_u by auto. cbn [bind]. cbn [unpack_raw]. rewrite fmt_d_dec. reflexivity.
  - destruct Hok as [H1 Hl]. cbn in H1. cbn [act_wire]. rewrite std_step by (try fits; try lia; len). cbn [Z.eqb Pos.eqb assoc_z std_act2str_tbl].
    unfold uint_act2str. rewrite unpack_from_ok by len. rewrite <- (app_nil_r (be 4 n)), unpack_u by auto. cbn [bind unpack_raw]. rewrite fmt_d_dec. reflexivity.
  - destruct Hok as [H1 Hl]. cbn in H1. cbn [act_wire]. rewrite std_step by (try fits; try lia; len). cbn [Z.eqb Pos.eqb assoc_z std_act2str_tbl].
    unfold uint_act2str. rewrite unpack_from_ok by len. rewrite <- (app_nil_r (be 4 n)), unpack_u by auto. cbn [bind unpack_raw]. rewrite fmt_d_dec. reflexivity.
  - destruct Hok as [H1 Hl]. cbn in H1.
    assert (E : forall nm, push_act2str nm (be 2 n ++ pad 2) = Ok (nm ++ $"=" ++ hexw 4 n)).
    { intros nm. unfold push_act2str. rewrite unpack_from_ok by len. rewrite unpack_u by auto. cbn [bind unpack_raw].
      rewrite fmt_x_hexw by (unfold in_bytes in H1; lia). reflexivity. }
    destruct k; cbn [act_wire ether_type]; (rewrite std_step by (try fits; try lia; len)); cbn [Z.eqb Pos.eqb assoc_z std_act2str_tbl]; rewrite E; reflexivity.
  - destruct Hok as [_ Hl], Hp as [Hg Hpr]. cbn [act_wire] in *. rewrite padded_act_eq in *. rewrite std_act_length in Hl.
    rewrite std_step by (try fits; try lia; len). cbn [Z.eqb Pos.eqb]. rewrite <- app_assoc, oxm2str_prints1 by auto. reflexivity.
  - destruct Hok as [H1 Hl]. cbn in H1. cbn [act_wire] in *. pose proof (nx_port_in p H1) as Hp2.
    destruct (nx_step 1 (be 2 p ++ be 1 255) r resubmit_act2str) as [z ->]; auto; try fits; try lia.
    unfold resubmit_act2str. rewrite <- app_assoc. rewrite unpack_from_ok by len. unpacks. cbn [bind]. unfold resubmit_port.
    cbn [act_text]. unfold nx_port_str. rewrite fmt_d_dec. reflexivity.
  - destruct Hok as [[H1 H2] Hl]. cbn [act_wire] in *. pose proof (nx_port_in p H1) as Hp2.
    destruct (nx_step 14 (be 2 p ++ be 1 t) r resubmit_table_act2str) as [z ->]; auto; try fits; try lia.
    unfold resubmit_table_act2str. rewrite <- app_assoc. rewrite unpack_from_ok by len. unpacks. cbn [bind]. unfold resubmit_port.
    cbn [act_text]. unfold nx_port_str. rewrite !fmt_d_dec. reflexivity.
  - destruct Hok as [H1 Hl]. cbn in H1. cbn [act_wire] in *.
    destruct (nx_step 2 (be 4 v) r (set_tunnel_act2str sI $"set_tunnel(")) as [z ->]; auto; try fits; try lia.
    unfold set_tunnel_act2str. rewrite unpack_from_ok by len. unpacks. cbn [bind]. rewrite fmt_x_hex by (unfold in_bytes in H1; lia). reflexivity.
  - destruct Hok as [H1 Hl]. cbn in H1. cbn [act_wire] in *.
    destruct (nx_step 9 (be 8 v) r (set_tunnel_act2str sQ $"set_tunnel64(")) as [z ->]; auto; try fits; try lia.
    unfold set_tunnel_act2str. rewrite unpack_from_ok by len. unpacks. cbn [bind]. rewrite fmt_x_hex by (unfold in_bytes in H1; lia). reflexivity.
  - destruct Hok as [H1 Hl]. cbn in H1. cbn [act_wire] in *. apply nx_fits_len in Hl as Hl'. revert Hl'. len. intros Hl'.
    assert (Hl2 : in_bytes 2 (Z.of_nat (length ids))) by (apply in_bytes_2; lia).
    destruct (nx_step 21 (be 2 (Z.of_nat (length ids)) ++ pad 4 ++ all_be 2 ids) r cnt_ids_act2str) as [z ->]; auto; try fits; try lia.
    unfold cnt_ids_act2str. rewrite <- !app_assoc. rewrite unpack_from_ok by len. unpacks. cbn [bind]. rewrite Nat2Z.id.
    rewrite (app_assoc (be 2 _) (pad 4)), unpack_from_off by len. rewrite unpack_from_ok by (rewrite app_length, all_be_length, calcsize_all; lia).
    rewrite unpack_all by auto. cbn [bind]. rewrite join_commas. cbn [act_text].
    rewrite (map_ext_in (fmt_x 0) hex); [reflexivity|]. intros i Hi. apply fmt_x_hex. pose proof (proj1 (Forall_forall _ _) H1 i Hi) as Hi'. unfold in_bytes in Hi'. lia.
  - cbn [act_wire]. destruct Hok as [Hok Hl]. cbn [act_wire] in Hl.
    destruct (nx_step 7 (be 2 (ofs_nbits lo n) ++ id_wire false f ++ be 8 v) r reg_load_act2str) as [z ->]; auto; try fits; try lia.
    rewrite load_prints; auto. split; auto.
  - destruct Hok as [_ Hl], Hp as [Hg Hpr]. cbn [act_wire] in *.
    destruct (nx_step 33 (wire t) r reg_load2_act2str) as [z ->]; auto; try fits; try lia.
    unfold reg_load2_act2str. rewrite oxm2str_prints1 by auto. reflexivity.
  - cbn [act_wire]. destruct Hok as [Hok Hl]. cbn [act_wire] in Hl.
    destruct (nx_step 6 (be 2 n ++ be 2 slo ++ be 2 dlo ++ id_wire false s ++ id_wire false d) r reg_move_act2str) as [z ->]; auto; try fits; try lia.
    rewrite move_prints; auto. split; auto.
  - cbn [act_wire]. destruct Hok as [Hok Hl]. cbn [act_wire] in Hl.
    destruct (nx_step 10 (be 2 (hash_id h) ++ be 2 b ++ pad 2 ++ be 2 (mpalg_id a) ++ be 2 l ++ be 4 arg ++ pad 2
                      ++ be 2 (ofs_nbits lo n) ++ id_wire false d) r multipath_act2str) as [z ->]; auto; try fits; try lia.
    rewrite multipath_prints; auto. split; auto.
  - cbn [act_wire]. destruct Hok as [Hok Hl]. cbn [act_wire] in Hl.
    destruct (nx_step 12 (be 2 (bdalg_id a) ++ be 2 (hash_id h) ++ be 2 b ++ id_wire false f
                   ++ be 2 (Z.of_nat (length ps)) ++ be 2 0 ++ be 4 0 ++ pad 4 ++ all_be 2 ps) r bundle_act2str) as [z ->]; auto; try fits; try lia.
    rewrite bundle_prints; auto. split; auto.
  - now apply output_reg_prints.
  - destruct Hok as [_ Hl]. cbn [act_wire] in *. destruct (nx_step 5 [] r (null_act2str $"pop_queue")) as [z ->]; auto; try fits; try lia.
  - destruct Hok as [_ Hl]. cbn [act_wire] in *. destruct (nx_step 17 [] r (null_act2str $"exit")) as [z ->]; auto; try fits; try lia.
  - destruct Hok as [H1 Hl]. cbn in H1. cbn [act_wire]. rewrite std_step by (try fits; try lia; len). cbn [Z.eqb Pos.eqb assoc_z std_act2str_tbl].
    unfold uint_act2str. rewrite unpack_from_ok by len. rewrite <- (app_nil_r (be 1 n)), unpack_u by auto. cbn [bind unpack_raw]. rewrite fmt_d_dec. reflexivity.
  - destruct Hok as [[H1 H2] Hl], Hp as [Hp1 Hp2]. cbn [act_wire] in *. rewrite std_act_length in Hl. revert Hl. len. intros Hl.
    rewrite (nx_raw 8 b r (qp_act2str $"note(")) by (auto; try fits; lia). unfold qp_act2str. cbn [bind]. rewrite b2a_qp_plain by auto using note_plain. reflexivity.
  - cbn [act_wire]. destruct Hok as [Hok Hl]. cbn [act_wire] in Hl.
    destruct (nx_step 13 (be 2 (bdalg_id a) ++ be 2 (hash_id h) ++ be 2 b ++ id_wire false f
                   ++ be 2 (Z.of_nat (length ps)) ++ be 2 (ofs_nbits 0 n) ++ id_wire true d ++ pad 4 ++ all_be 2 ps) r bundle_load_act2str) as [z ->]; auto; try fits; try lia.
    rewrite bundle_load_prints; auto. split; auto.
  - cbn [act_wire]. destruct Hok as [Hok Hl], Hp as [_ Hp]. cbn [act_wire] in Hl.
    destruct (nx_step_zeros 16 (lfixed_wire l ++ flat_map lspec_wire (lspecs l)) r learn_act2str) as [k ->]; auto; try fits; try lia.
    rewrite learn_prints; auto.
    + clear -Hok. induction Hok as [|[j v|s] l He Hl IH]; cbn [lspecs flat_map app]; auto; constructor; auto.
    + clear -Hp. induction Hp as [|[j v|s] l He Hl IH]; cbn [lspecs flat_map app]; auto; constructor; auto.
      destruct He as [A B]. split; auto. destruct (l_dst s); auto.
    + intros j. apply adds_value. eapply Forall_impl; [|exact Hp]. intros [? ?|?]; auto.
Qed.
