(** The texts taken as actions: bundles and output to a register's port. *)
From Verif Require Import Base PyNum Util PyLib OxmCodec OxmTables Oxm Nx Ofp4 Spec SpecOxm SpecText SpecOfp SpecActText.
From Verif Require Import BaseFacts UtilFacts NumFacts PyLibFacts OxmRead OxmPrint OxmFacts OxmFrame OxmMore ActBase ActRead ActReadNx ActReadReg ActReadLearn ActFrame ActDenote GramLib OxmGram OxmExact GramTok GramField GramAct GramReg.
From Coq Require Import Strings.Ascii.
Import Init.Byte.

Lemma slave_port_iff p v : in_bytes 2 v -> slave_port p = Ok v <-> numberish p v.
Proof.
  intros Hv. rewrite numberish_iff. unfold slave_port. destruct (ofpp_num p) as [n|] eqn:E.
  - apply ofpp_num_inv in E as (up & E). cbn [In reserved] in E.
    repeat (destruct E as [E|E]; [injection E as <- <- <-; split; [intros K; exfalso; injection K as <-; unfold in_bytes in Hv; cbn in Hv; lia|intros (l & K); vm_compute in K; discriminate K]|]). contradiction.
  - split; [intros H; mons H; injection H as <-; eauto|intros (l & ->); reflexivity].
Qed.
Lemma slave_list_iff p ps : slave_list p = Ok ps /\ Forall (in_bytes 2) ps <-> slaves_any p ps.
Proof.
  unfold slave_list, slaves_any. split.
  - intros [H Hb]. mon H. destruct a as [name o]. mon H. apply func_iff in Ea. apply text_eqb_eq in Eb. subst name. exists o. split; [exact Ea|]. destruct o as [[|c a]|].
    + left. split; [now right|congruence].
    + right. exists (c :: a), (split (c :: a)). split; [split; [reflexivity|discriminate]|]. split; [apply split_split_of|]. split; [|exact Hb].
      clear Ea. revert ps H Hb. induction (split (c :: a)) as [|x us IH]; intros ps H Hb; cbn [mapM] in H; [injection H as <-; constructor|].
      mons H. injection H as <-. inversion Hb; subst. constructor; [now apply slave_port_iff|auto].
    + left. split; [now left|congruence].
  - intros (a & F & [[Hg ->]|(x & us & [-> Hx] & Hs & Hn & Hb)]); apply func_iff in F; rewrite F; cbn [bind]; change (text_eqb $"slaves" $"slaves") with true; cbn [assert bind].
    + split; [|constructor]. destruct Hg as [->| ->]; reflexivity.
    + split; [|exact Hb]. destruct x as [|c x]; [congruence|]. rewrite (split_of_split _ _ Hs). clear - Hn Hb.
      induction Hn as [|u v us ps Hu Hn IH]; [reflexivity|]. inversion Hb; subst. cbn [mapM]. rewrite (proj2 (slave_port_iff u v ltac:(assumption)) Hu). cbn [bind]. now rewrite IH.
Qed.
Lemma count_fits sub x (ps : list Z) : Z.of_nat (length (nx_act sub (x ++ all_be 2 ps))) <= 65535 -> in_bytes 2 (Z.of_nat (length ps)).
Proof. intros Hl. apply nx_fits_len in Hl. revert Hl. len. intros Hl. apply in_bytes_2. lia. Qed.
Lemma sound_bundle N : sound N $"bundle" bundle_str2act.
Proof.
  intros u ra b n H. destruct ra; [discriminate|]. unfold bundle_str2act in H. revert H.
  destruct (get_token u) as [[h1 p1] u1] eqn:E1. destruct (get_token u1) as [[h2 p2] u2] eqn:E2. destruct (get_token u2) as [[h3 p3] u3] eqn:E3.
  destruct (get_token u3) as [[h4 p4] u4] eqn:E4. destruct (get_token u4) as [[h5 p5] u5] eqn:E5. intros H.
  apply next_iff in E1, E2, E3, E4, E5. nx_start H. mons Er. injection Er as <- <-. hdr_inv.
  apply hash_name_inv in Ea as (hh & -> & ->). apply bdalg_name_inv in Ea1 as (aa & -> & ->). apply field_id_iff in Ea2; [|eauto using next_named].
  unpack_inv Ea5. unpack_inv Ea6. apply pack_all_inv in Ea7 as [Hi ->]. rewrite ?app_nil_r, <- ?app_assoc in Ef. apply nx_done in Ef as [-> L].
  exists u5. split; [|split; [exact L|reflexivity]].
  eapply (s_bundle N u hh p2 z aa p4 a1 p5); eauto; [|apply numberish_iff; eauto|now apply slave_list_iff].
  repeat (eapply words_cons; eauto). constructor.
Qed.
Lemma read_bundle u h pb b a pt t ps ports r : words u [hash_name h; pb; bdalg_name a; pt; ps] r -> numberish pb b -> in_bytes 2 b -> field_id true pt t -> slaves_any ps ports ->
  reads_as bundle_str2act false u (nx_act 12 (be 2 (bdalg_id a) ++ be 2 (hash_id h) ++ be 2 b ++ t ++ be 2 (Z.of_nat (length ports)) ++ be 2 0 ++ be 4 0 ++ pad 4 ++ all_be 2 ports)) r.
Proof.
  intros (h1 & u1 & N1 & W)%words_inv1 (ll & Hb)%numberish_iff Hbb Ht (Hs & Hi)%slave_list_iff L.
  apply words_inv1 in W as (h2 & u2 & N2 & W). apply words_inv1 in W as (h3 & u3 & N3 & W). apply words_inv1 in W as (h4 & u4 & N4 & W).
  apply words_inv1 in W as (h5 & u5 & N5 & W). apply words_inv0 in W as ->. apply field_id_iff in Ht; [|eauto using next_named].
  destruct (hash_read h) as [E1 F1]. destruct (bdalg_read a) as [E2 F2]. apply next_get in N1, N2, N3, N4, N5.
  assert (in_bytes 2 (Z.of_nat (length ports))) as Hc. { apply (count_fits 12 (be 2 (bdalg_id a) ++ be 2 (hash_id h) ++ be 2 b ++ t ++ be 2 (Z.of_nat (length ports)) ++ be 2 0 ++ be 4 0 ++ pad 4)). now rewrite <- !app_assoc. }
  unfold bundle_str2act. rewrite N1, N2, N3, N4, N5, E1. cbn [bind]. rewrite Hb. cbn [bind]. rewrite E2. cbn [bind]. rewrite Ht. cbn [bind]. rewrite Hs. cbn [bind].
  rewrite nxast_hdr_ok by (apply in_bytes_2; lia). cbn [bind]. rewrite !pack_u by auto. rewrite pack_u by (unfold in_bytes; cbn; lia). rewrite pack_u by (unfold in_bytes; cbn; lia). rewrite pack_x, pack_all by auto. cbn [pack bind]. rewrite !app_nil_r, <- !app_assoc. now apply nx_read.
Qed.
Lemma int_range_iff x lo hi : int_range x = Ok (lo, Some hi) <-> exists a b, pair_text x a b /\ py_number a lo /\ py_number b hi.
Proof.
  unfold int_range. split.
  - destruct (split1 58 x) as [a [b|]] eqn:E; intros H; mons H; [|discriminate]. injection H as <- <-. apply pair_split in E. exists a, b. split; [exact E|]. split; now apply py_number_iff.
  - intros (a & b & Hp & Ha & Hb). apply pair_split in Hp. apply py_number_iff in Ha, Hb. rewrite Hp, Ha. cbn [bind]. now rewrite Hb.
Qed.
Lemma unpack_id : forallb (fun f => match unpack [sH; sB; sB] (id_wire true f) with
    | Ok [_; _; l] => (l =? len_byte true f) && negb (match fclass f with Stratos => true | _ => false end)
    | Ok _ => false
    | _ => match fclass f with Stratos => true | _ => false end end) accepted_fields = true.
Proof. vm_compute. reflexivity. Qed.
Definition dst_end (dargs : option text) (d : bytes) : res (Z * option Z) :=
  match dargs with
  | Some (c :: a) => int_range (c :: a)
  | _ => vs <- unpack [sH; sB; sB] d ;; match vs with [_; _; size] => Ok (0, Some (size * 8)) | _ => Raise StructError end
  end.
Lemma dst_end_iff p dname dargs d lo hi : func p dname dargs -> field_id true dname d -> dst_end dargs d = Ok (lo, Some hi) -> load_dst p d lo hi.
Proof.
  intros F Hd. unfold dst_end. assert (not_given dargs -> (vs <- unpack [sH; sB; sB] d ;; match vs with [_; _; size] => Ok (0, Some (size * 8)) | _ => Raise StructError end) = Ok (lo, Some hi) -> load_dst p d lo hi) as A.
  { intros Hg H. mons H. destruct Hd as [f Hf ->|]; [|discriminate]. pose proof Hf as Hr. apply accepted_readable in Hf. pose proof (proj1 (forallb_forall _ _) unpack_id f Hf) as E. cbv beta in E. rewrite Ea in E.
    destruct a as [|x [|y [|l [|]]]]; try discriminate. apply andb_true_iff in E as [E1 E2]. apply Z.eqb_eq in E1. subst l. injection H as <- <-. rewrite Z.mul_comm. eapply ld_whole; eauto. intros K. rewrite K in E2. discriminate. }
  destruct dargs as [[|c a]|]; [apply A; now right| |apply A; now left].
  intros (x & y & Hp & Hx & Hy)%int_range_iff. eapply ld_bits; eauto.
Qed.
Lemma load_dst_inv p d lo hi : load_dst p d lo hi -> exists dname dargs, func p dname dargs /\ field_id true dname d /\ dst_end dargs d = Ok (lo, Some hi).
Proof.
  intros [f a Hf Hc F Hg|name a x y b lo' hi' F Hd Hp Hx Hy].
  - exists (fname f), a. split; [exact F|]. split; [now constructor|]. pose proof Hf as Hr. apply accepted_readable in Hf. pose proof (proj1 (forallb_forall _ _) unpack_id f Hf) as E. cbv beta in E.
    unfold dst_end. destruct (unpack [sH; sB; sB] (id_wire true f)) as [v|e|]; [|destruct (fclass f); congruence|destruct (fclass f); congruence].
    destruct v as [|v1 [|v2 [|l [|]]]]; try discriminate. apply andb_true_iff in E as [E1 _]. apply Z.eqb_eq in E1. subst l. destruct Hg as [->| ->]; cbn [bind]; now rewrite Z.mul_comm.
  - exists name, (Some a). split; [exact F|]. split; [exact Hd|]. destruct (pair_some _ _ _ Hp) as (c & a' & ->). unfold dst_end. apply int_range_iff. eauto 6.
Qed.
Lemma sound_bundle_load N : sound N $"bundle_load" bundle_load_str2act.
Proof.
  intros u ra b n H. destruct ra; [discriminate|]. unfold bundle_load_str2act in H. revert H.
  destruct (get_token u) as [[h1 p1] u1] eqn:E1. destruct (get_token u1) as [[h2 p2] u2] eqn:E2. destruct (get_token u2) as [[h3 p3] u3] eqn:E3.
  destruct (get_token u3) as [[h4 p4] u4] eqn:E4. destruct (get_token u4) as [[h5 p5] u5] eqn:E5. destruct (get_token u5) as [[h6 p6] u6] eqn:E6. intros H.
  apply next_iff in E1, E2, E3, E4, E5, E6. nx_start H. mons Er. injection Er as <- <-. hdr_inv.
  apply hash_name_inv in Ea as (hh & -> & ->). apply bdalg_name_inv in Ea1 as (aa & -> & ->). apply func_iff in Ea2. pose proof (func_named _ _ _ (next_named _ _ _ _ E5) Ea2) as Hn.
  apply field_id_iff in Ea3; [|exact Hn]. apply field_id_iff in Ea8; [|eauto using next_named].
  change (dst_end o a1 = Ok a2) in Ea4. change (x00 :: x00 :: x00 :: x00 :: a9) with (pad 4 ++ a9) in Ef. destruct a2 as [lo [hi|]]; [|discriminate Ea9]. cbn [range_end snd fst] in *. injection Ea9 as <-. apply (dst_end_iff _ _ _ _ _ _ Ea2 Ea3) in Ea4.
  unpack_inv Ea7. unpack_inv Ea10. apply pack_all_inv in Ea11 as [Hi ->]. rewrite ?ofs_eq', ?app_nil_r, <- ?app_assoc in *. apply nx_done in Ef as [-> L].
  exists u6. split; [|split; [exact L|reflexivity]].
  eapply (s_bundle_load N u hh p2 z aa p4 a6 p5 a1 lo hi p6); eauto; [|apply numberish_iff; eauto|now apply slave_list_iff].
  repeat (eapply words_cons; eauto). constructor.
Qed.
Lemma read_bundle_load u h pb b a pt t pd d lo hi ps ports r : words u [hash_name h; pb; bdalg_name a; pt; pd; ps] r -> numberish pb b -> in_bytes 2 b -> field_id true pt t ->
  load_dst pd d lo hi -> in_bytes 2 (ofs_nbits lo hi) -> slaves_any ps ports ->
  reads_as bundle_load_str2act false u (nx_act 13 (be 2 (bdalg_id a) ++ be 2 (hash_id h) ++ be 2 b ++ t ++ be 2 (Z.of_nat (length ports)) ++ be 2 (ofs_nbits lo hi) ++ d ++ pad 4 ++ all_be 2 ports)) r.
Proof.
  intros (h1 & u1 & N1 & W)%words_inv1 (ll & Hb)%numberish_iff Hbb Ht (dname & dargs & F & Hd & He)%load_dst_inv Ho (Hs & Hi)%slave_list_iff L.
  apply words_inv1 in W as (h2 & u2 & N2 & W). apply words_inv1 in W as (h3 & u3 & N3 & W). apply words_inv1 in W as (h4 & u4 & N4 & W).
  apply words_inv1 in W as (h5 & u5 & N5 & W). apply words_inv1 in W as (h6 & u6 & N6 & W). apply words_inv0 in W as ->. apply field_id_iff in Ht; [|eauto using next_named].
  pose proof (func_named _ _ _ (next_named _ _ _ _ N5) F) as Hn. apply field_id_iff in Hd; [|exact Hn]. apply func_iff in F.
  destruct (hash_read h) as [E1 F1]. destruct (bdalg_read a) as [E2 F2]. apply next_get in N1, N2, N3, N4, N5, N6.
  assert (in_bytes 2 (Z.of_nat (length ports))) as Hc. { apply (count_fits 13 (be 2 (bdalg_id a) ++ be 2 (hash_id h) ++ be 2 b ++ t ++ be 2 (Z.of_nat (length ports)) ++ be 2 (ofs_nbits lo hi) ++ d ++ pad 4)). now rewrite <- !app_assoc. }
  unfold bundle_load_str2act. rewrite N1, N2, N3, N4, N5, N6, E1. cbn [bind]. rewrite Hb. cbn [bind]. rewrite E2. cbn [bind]. rewrite F. cbn [bind]. rewrite Hd. cbn [bind].
  unfold dst_end in He. rewrite He. cbn [bind]. rewrite Hs. cbn [bind]. rewrite nxast_hdr_ok by (apply in_bytes_2; lia). cbn [bind]. rewrite !pack_u by auto. change (pack [] []) with (Ok (@nil byte)). cbn [bind]. rewrite Ht. cbn [bind range_end snd fst]. rewrite ofs_eq'.
  rewrite !pack_u by auto. rewrite pack_all by auto. cbn [pack bind]. rewrite !app_nil_r, <- !app_assoc. now apply nx_read.
Qed.

(** ** output_reg *)
Definition src_end (arg : option text) (b : bytes) : res (Z * option Z) :=
  match arg with
  | Some (c :: a) => int_range (c :: a)
  | _ => '(_, _, size) <- oxm_hdr b 0 ;; Ok (0, Some (size * 8))
  end.
Lemma src_end_iff p name arg b lo hi : func p name arg -> field_id false name b -> src_end arg b = Ok (lo, Some hi) -> reg_src p b lo hi.
Proof.
  intros F Hd. unfold src_end. assert (not_given arg -> ('(_, _, size) <- oxm_hdr b 0 ;; Ok (0, Some (size * 8))) = Ok (lo, Some hi) -> reg_src p b lo hi) as A.
  { intros Hg H. mons H. destruct Hd as [f Hf ->|]; [|discriminate]. destruct (id_hdr f Hf) as (c & k & E & _). rewrite E in Ea. injection Ea as <- <- <-. injection H as <- <-. rewrite Z.mul_comm. eapply rs_whole; eauto. }
  destruct arg as [[|c a]|]; [apply A; now right| |apply A; now left].
  intros (x & y & Hp & Hx & Hy)%int_range_iff. eapply rs_bits; eauto.
Qed.
Lemma reg_src_inv p b lo hi : reg_src p b lo hi -> exists name arg, func p name arg /\ field_id false name b /\ src_end arg b = Ok (lo, Some hi).
Proof.
  intros [f a Hf F Hg|name a x y b' lo' hi' F Hd Hp Hx Hy].
  - exists (fname f), a. split; [exact F|]. split; [now constructor|]. destruct (id_hdr f Hf) as (c & k & E & _). unfold src_end. rewrite E. destruct Hg as [->| ->]; cbn [bind]; now rewrite Z.mul_comm.
  - exists name, (Some a). split; [exact F|]. split; [exact Hd|]. destruct (pair_some _ _ _ Hp) as (c & a' & ->). unfold src_end. apply int_range_iff. eauto 6.
Qed.
Lemma land_63 v : Z.land v 0x3f = v mod 64.
Proof. change 63 with (Z.ones 6). apply Z.land_ones. lia. Qed.
Lemma max_len_iff p m : (if Nat.eqb (length p) 0 then Ok 0xffff else '(v, _) <- parseInt p ;; Ok v) = Ok m <-> p = [] /\ m = 0xffff \/ p <> [] /\ numberish p m.
Proof.
  destruct p as [|c p]; cbn [length Nat.eqb].
  - split; [intros [= <-]; auto|intros [[_ ->]|[K _]]; [reflexivity|congruence]].
  - rewrite numberish_iff. split; [intros H; mons H; injection H as <-; right; split; [discriminate|eauto]|intros [[K _]|[_ [l ->]]]; [discriminate|reflexivity]].
Qed.
Definition out_reg (wide : bool) (b : bytes) (lo hi m : Z) : bytes :=
  if wide || (4 <? length b)%nat then nx_act 32 (be 2 (ofs_nbits lo (hi mod 64)) ++ be 2 m ++ b)
  else nx_act 15 (be 2 (ofs_nbits lo (hi mod 64)) ++ b ++ be 2 m ++ pad 6).
Lemma sound_output_reg (wide : bool) u ra b n : output_reg_str2act (if wide then 32 else 15) u ra = Ok (b, n) ->
  exists p pm r b' lo hi m, words u [p; pm] r /\ reg_src p b' lo hi /\ (pm = [] /\ m = 0xffff \/ pm <> [] /\ numberish pm m) /\ in_bytes 2 m /\ in_bytes 2 (ofs_nbits lo (hi mod 64)) /\
    b = out_reg wide b' lo hi m /\ Z.of_nat (length b) <= 65535 /\ n = (length u - length r)%nat.
Proof.
  unfold output_reg_str2act. destruct (get_token u) as [[h1 p1] u1] eqn:E1. destruct (get_token u1) as [[h2 p2] u2] eqn:E2. intros H. apply next_iff in E1, E2. nx_start H. mons Er.
  apply func_iff in Ea. pose proof (func_named _ _ _ (next_named _ _ _ _ E1) Ea) as Hn. apply field_id_iff in Ea0; [|exact Hn]. apply max_len_iff in Ea2.
  change (src_end o a = Ok a0) in Ea1. destruct a0 as [lo [hi|]]; [|discriminate Ea4]. cbn [range_end snd fst] in *. injection Ea4 as <-. apply (src_end_iff _ _ _ _ _ _ Ea Ea0) in Ea1. rewrite land_63, ofs_eq' in Er.
  assert (words u [p1; p2] u2) as W by (repeat (eapply words_cons; eauto); constructor).
  unfold out_reg. exists p1, p2, u2, a, lo, hi, a1. destruct (4 <? length a)%nat.
  - cbn [Z.eqb Pos.eqb] in Er. mons Er. injection Er as <- <-. hdr_inv. unpack_inv Ea4. rewrite app_nil_r, <- ?app_assoc in Ef. apply nx_done in Ef as [-> L]. rewrite orb_true_r. repeat (split; auto).
  - destruct wide; cbn [Z.eqb Pos.eqb] in Er; mons Er; injection Er as <- <-; hdr_inv; unpack_inv Ea4.
    + rewrite app_nil_r, <- ?app_assoc in Ef. apply nx_done in Ef as [-> L]. repeat (split; auto).
    + unpack_inv Ea5. rewrite !app_nil_r in Ef. apply nx_done in Ef as [-> L]. repeat (split; auto).
Qed.
Lemma read_output_reg (wide : bool) ra u p pm b lo hi m r : words u [p; pm] r -> reg_src p b lo hi -> pm = [] /\ m = 0xffff \/ pm <> [] /\ numberish pm m -> in_bytes 2 m -> in_bytes 2 (ofs_nbits lo (hi mod 64)) ->
  reads_as (output_reg_str2act (if wide then 32 else 15)) ra u (out_reg wide b lo hi m) r.
Proof.
  intros (h1 & u1 & N1 & W)%words_inv1 (name & arg & F & Hd & He)%reg_src_inv Hm%max_len_iff Hb Ho L. apply words_inv1 in W as (h2 & u2 & N2 & W). apply words_inv0 in W as ->.
  pose proof (func_named _ _ _ (next_named _ _ _ _ N1) F) as Hn. apply field_id_iff in Hd; [|exact Hn]. apply func_iff in F. apply next_get in N1, N2.
  unfold output_reg_str2act. rewrite N1, F. cbn [bind]. rewrite Hd. cbn [bind]. unfold src_end in He. rewrite He. cbn [bind]. rewrite N2, Hm. cbn [bind]. unfold out_reg in *.
  destruct (4 <? length b)%nat.
  - rewrite orb_true_r in *. cbn [Z.eqb Pos.eqb]. rewrite nxast_hdr_ok by (apply in_bytes_2; lia). cbn [bind range_end snd fst]. cbv zeta. rewrite land_63, ofs_eq'. rewrite !pack_u by auto. cbn [pack bind]. rewrite app_nil_r, <- !app_assoc. now apply nx_read.
  - destruct wide; cbn [orb] in *; cbn [Z.eqb Pos.eqb]; (rewrite nxast_hdr_ok by (apply in_bytes_2; lia)); cbn [bind range_end snd fst]; cbv zeta; rewrite land_63, ofs_eq'; rewrite !pack_u by auto; cbn [pack bind].
    + rewrite app_nil_r, <- !app_assoc. now apply nx_read.
    + rewrite !app_nil_r. now apply nx_read.
Qed.
Lemma sound_reg N : sound N $"output_reg" (output_reg_str2act 15).
Proof.
  intros u ra b n H. apply (sound_output_reg false) in H as (p & pm & r & b' & lo & hi & m & W & Hs & Hp & Hm & Ho & -> & L & ->). exists r. split; [|split; [exact L|reflexivity]].
  eapply (s_output_reg N $"output_reg" false); eauto.
Qed.
Lemma sound_reg2 N : sound N $"output_reg2" (output_reg_str2act 32).
Proof.
  intros u ra b n H. apply (sound_output_reg true) in H as (p & pm & r & b' & lo & hi & m & W & Hs & Hp & Hm & Ho & -> & L & ->). exists r. split; [|split; [exact L|reflexivity]].
  eapply (s_output_reg N $"output_reg2" true); eauto.
Qed.
