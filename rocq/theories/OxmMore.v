(** Further facts about match fields: one-item texts, field identities, lost masks,
    prefix-length masks. *)
From Verif Require Import Base PyNum Util PyLib OxmCodec OxmTables Oxm Spec SpecOxm.
From Verif Require Import BaseFacts UtilFacts NumFacts PyLibFacts OxmRead OxmPrint OxmFacts OxmFrame.
From Coq Require Import Strings.Ascii.

(** ** name=body alone *)
Lemma field_reads f u v m : In f accepted_fields -> writes (fkind f) u v m ->
  str2oxm (fname f ++ $"=" ++ u) true = Ok (wire (Tlv f v m), length (fname f ++ $"=" ++ u)).
Proof.
  intros Hf Hw. pose proof (fun fuel => str2oxm_step f u v m [] [] [] [] fuel true Hf Hw (or_introl eq_refl) (Forall_nil _) (Forall_nil _) I) as S.
  cbn [app] in S. rewrite app_nil_r in S. unfold str2oxm. remember (fname f ++ $"=" ++ u) as w.
  destruct (length w) as [|fuel] eqn:El; [subst w; rewrite !app_length in El; cbn in El; lia|].
  rewrite S. replace (str2oxm_go fuel true []) with (Ok ([] : bytes, [] : text)) by (destruct fuel; reflexivity).
  cbn [bind length]. now rewrite app_nil_r, Nat.sub_0_r.
Qed.
Definition roundtrip (t : tlv) : Prop :=
  oxm2str (wire t) true = Ok (text_of t) /\ str2oxm (text_of t) true = Ok (wire t, length (text_of t)).
Lemma good_reads t : good t -> str2oxm (text_of t) true = Ok (wire t, length (text_of t)).
Proof.
  intros H. pose proof (texts_written [t] (Forall_cons _ H (Forall_nil _))) as W. unfold texts in W. cbn in W.
  apply written_reads in W. cbn [flat_map] in W. now rewrite app_nil_r in W.
Qed.
Lemma good_prints t : good t -> printable t -> oxm2str (wire t) true = Ok (text_of t).
Proof.
  intros H Hp. pose proof (oxm2str_prints [t] (Forall_cons _ H (Forall_nil _)) (Forall_cons _ Hp (Forall_nil _))) as P.
  cbn [flat_map] in P. rewrite app_nil_r in P. exact P.
Qed.
Lemma good_roundtrip t : good t -> printable t -> roundtrip t.
Proof. intros H Hp. split; [now apply good_prints|now apply good_reads]. Qed.

(** only integers are misprinted *)
Lemma misprinted_ints : forallb (fun f => negb (misprintedb f) || match fkind f with KInt _ _ _ => true | _ => false end) registry = true.
Proof. vm_compute. reflexivity. Qed.
Lemma printable_kind f v m : In f registry -> match fkind f with KInt _ _ _ => False | _ => True end -> printable (Tlv f v m).
Proof.
  intros Hf Hk Hin. pose proof (proj1 (forallb_forall _ _) misprinted_ints f Hf) as E. cbv beta in E. cbn [tfield] in Hin.
  assert (misprintedb f = true) as Em.
  { unfold misprintedb. apply existsb_exists. exists (fname f). split; auto. unfold eqb_of. destruct (text_dec _ _); congruence. }
  rewrite Em in E. cbn in E. destruct (fkind f); try discriminate. exact Hk.
Qed.
(** every width fits *)
Lemma widths_fit : forallb (fun f => match width (fkind f) with Some n => (4 + 2 * n <=? 255)%nat | None => true end) registry = true.
Proof. vm_compute. reflexivity. Qed.
Lemma fits_width f v m n : In f registry -> width (fkind f) = Some n -> length v = n ->
  match m with Some m => length m = length v | None => True end -> fits (Tlv f v m).
Proof.
  intros Hf Hw Hv Hm. pose proof (proj1 (forallb_forall _ _) widths_fit f Hf) as E. cbv beta in E. rewrite Hw in E. apply Nat.leb_le in E.
  unfold fits. cbn [tfield tval tmask]. rewrite app_length.
  assert (length (exp_id (fclass f)) <= 4)%nat by (destruct (fclass f); cbn; lia).
  destruct m as [m|]; cbn [mask_bytes length]; lia.
Qed.

(** one TLV is printed by its codec *)
Lemma single_print f v m c : 0 <= fnum f < 128 -> assoc_k (key_of f) bin2str_tbl = Some c -> fits (Tlv f v m) ->
  oxm2str (wire (Tlv f v m)) true = run_b2s c (v ++ mask_bytes m) (has_mask m).
Proof.
  intros Hn Ec Hfit. pose proof (one_token f v m [] _ Hn Ec Hfit) as T. rewrite app_nil_r in T.
  unfold oxm2str. pose proof (wire_length (Tlv f v m)) as Hl.
  destruct (length (wire (Tlv f v m))) as [|fuel] eqn:El; [lia|]. cbn [oxm2str_go]. rewrite El.
  replace (S fuel <? 4)%nat with false by (symmetry; apply Nat.ltb_ge; lia).
  rewrite T. destruct (run_b2s c (v ++ mask_bytes m) (has_mask m)) as [t|e|]; [|reflexivity|reflexivity]. cbn [bind].
  replace (oxm2str_go fuel true []) with (Ok ([] : list text)) by (destruct fuel; reflexivity).
  reflexivity.
Qed.

(** ** masks the format string has no place for *)
Lemma nomask_same fmt : (forall c, In c fmt -> c <> 47) -> fmt_nomask fmt = fmt.
Proof. intros H. unfold fmt_nomask. rewrite split1_none; [reflexivity|]. intros Hi. now apply (H 47). Qed.
Definition maskless_fmts : bool :=
  forallb (fun f => match fkind f, assoc_k (key_of f) bin2str_tbl with
                    | KInt _ _ None, Some (Buint fmt) => forallb (fun c => negb (c =? 47)) fmt
                    | KInt _ _ None, _ => false
                    | _, _ => true
                    end) registry.
Lemma maskless : maskless_fmts = true.
Proof. vm_compute. reflexivity. Qed.
Lemma mask_lost f n s v m : In f registry -> ~ In (fname f) misprinted -> fkind f = KInt n s None ->
  length v = n -> length m = n -> oxm2str (wire (Tlv f v (Some m))) true = Ok (text_of (Tlv f v None)).
Proof.
  intros Hf Hp Ek Hv Hm. destruct (bin2str_reg f Hf Hp) as (c & Ec & Hc). unfold b2s_for in Hc. rewrite Ek in Hc.
  destruct Hc as (fmt & -> & h & Hh & E1 & _).
  pose proof (proj1 (forallb_forall _ _) maskless f Hf) as M. cbv beta in M. rewrite Ek, Ec in M.
  rewrite nomask_same in E1.
  2:{ intros x Hx. pose proof (proj1 (forallb_forall _ _) M x Hx). lia. }
  assert (Hfit : fits (Tlv f v (Some m))) by (eapply fits_width; eauto; [now rewrite Ek|congruence]).
  pose proof (fnum_reg f (reg_accepted f Hf)) as Hn.
  rewrite (single_print f v (Some m) _ Hn Ec Hfit). cbn [mask_bytes has_mask run_b2s].
  unfold uint_bin2str, py_format. rewrite half, firstn_len_app, skipn_len_app, E1, fmt_run_lits by congruence. cbn [fmt_run bind].
  rewrite (fmt_hole_number s h) by (auto; apply be_val_nonneg). rewrite be_val_spec.
  unfold text_of, body. cbn [tfield tval tmask]. rewrite Ek. cbn [value_str]. rewrite !app_nil_r. now rewrite <- app_assoc.
Qed.

(** ** identities *)
Lemma id_enc f hm : In f accepted_fields -> run_s2b (s2b_of f) (ABool hm) = Ok (id_wire hm f, 0%nat).
Proof.
  intros Hf. pose proof (fnum_reg f Hf) as Hn. pose proof (own_key_reg f Hf) as Hk. symmetry in Hk. unfold s2b_of, id_wire.
  destruct (fkind f) eqn:Ek; cbn [run_s2b own_key width flaggable] in *;
    unfold uint_str2bin, port_str2bin, mac_str2bin, ipv4_str2bin, ipv6_str2bin, pkt_str2bin, hex_str2bin, ssid_str2bin, le_str2bin,
      rate_str2bin, ch_str2bin, comp_str2bin, vht_str2bin, s8_str2bin;
    rewrite ?packs_size; change (calcsize vht_packs) with 12%nat; unfold hdr_cat; rewrite <- ?Hk; rewrite header_hdr by auto;
    cbn [bind]; rewrite app_nil_r, ?andb_true_r, ?andb_false_r; destruct hm; reflexivity.
Qed.
Definition names (fs : list field) : text := flat_map (fun f => 44 :: fname f) fs.
Lemma names_sepby f fs : sepby 44 (map fname (f :: fs)) = fname f ++ names fs.
Proof.
  revert f. induction fs as [|g fs IH]; intros f; [cbn; now rewrite app_nil_r|].
  change (sepby 44 (map fname (f :: g :: fs))) with (fname f ++ 44 :: sepby 44 (map fname (g :: fs))). now rewrite IH.
Qed.
Lemma underscore_reg : forallb (fun f => negb (text_eqb (fname f) $"_")) accepted_fields = true.
Proof. vm_compute. reflexivity. Qed.
Lemma id_step f h r fuel hm : In f accepted_fields -> Forall filler h -> follow r ->
  str2oxmid_go (S fuel) hm (h ++ fname f ++ r) = (x <- str2oxmid_go fuel hm r ;; Ok (id_wire hm f ++ x)).
Proof.
  intros Hf Hh Hr. destruct (name_reg f Hf) as [Hp Hn].
  assert (get_token (h ++ fname f ++ r) = (h, fname f, r)) as E.
  { apply get_token_complete; auto using filler_lead, plain_token, plain_solid, follow_ends. }
  assert (h ++ fname f ++ r <> []) as Hne.
  { intros E'. apply app_eq_nil in E' as [_ E']. now apply app_eq_nil in E' as [E' _]. }
  destruct (h ++ fname f ++ r) as [|c0 s0] eqn:Es; [congruence|]. cbn [str2oxmid_go]. rewrite E.
  pose proof (proj1 (forallb_forall _ _) underscore_reg f Hf) as U. cbv beta in U. apply negb_true_iff in U. rewrite U.
  rewrite str2bin_reg, id_enc by auto. reflexivity.
Qed.
Lemma names_follow fs : follow (names fs).
Proof. destruct fs; [exact I|left; reflexivity]. Qed.
Lemma comma_filler : Forall filler [44].
Proof. constructor; [right; reflexivity|constructor]. Qed.
Lemma names_read hm fs : Forall (fun f => In f accepted_fields) fs -> forall fuel, (length (names fs) <= fuel)%nat ->
  str2oxmid_go fuel hm (names fs) = Ok (flat_map (id_wire hm) fs).
Proof.
  intros H. induction H as [|f fs Hf Hfs IH]; intros fuel Hl; [destruct fuel; reflexivity|].
  unfold names in Hl |- *. cbn [flat_map] in Hl |- *. fold (names fs) in Hl |- *. cbn [length app] in Hl. rewrite app_length in Hl.
  destruct fuel as [|fuel]; [lia|].
  change (str2oxmid_go (S fuel) hm ([44] ++ fname f ++ names fs) = Ok (id_wire hm f ++ flat_map (id_wire hm) fs)).
  rewrite id_step; auto using names_follow, comma_filler. rewrite IH by lia. reflexivity.
Qed.
Lemma ids_read hm fs : Forall (fun f => In f accepted_fields) fs ->
  str2oxmid (sepby 44 (map fname fs)) hm = Ok (flat_map (id_wire hm) fs).
Proof.
  intros H. destruct H as [|f fs Hf Hfs]; [reflexivity|]. rewrite names_sepby. unfold str2oxmid. destruct (name_reg f Hf) as [_ Hn].
  destruct (length (fname f ++ names fs)) as [|fuel] eqn:El; [rewrite app_length in El; destruct (fname f); [congruence|discriminate]|].
  pose proof (id_step f [] (names fs) fuel hm Hf (Forall_nil _) (names_follow fs)) as S. cbn [app] in S. rewrite S.
  rewrite (names_read hm fs Hfs); [reflexivity|]. rewrite app_length in El. destruct (fname f); [congruence|cbn in El; lia].
Qed.
Definition id_name (f : field) : text := if text_eqb (fname f) $"nxm_ip_frag" then $"nxm_icmp_type" else fname f.
Lemma id_names : forallb (fun f => match assoc_k (key_of f) bin2str_tbl with Some c => text_eqb (b2s_name c) (id_name f) | None => false end) registry = true.
Proof. vm_compute. reflexivity. Qed.
Lemma id_one hm f r : In f registry -> oxmid2str_one (id_wire hm f ++ r) = Ok (id_name f, r).
Proof.
  intros Hf. pose proof (fnum_reg f (reg_accepted f Hf)) as Hn.
  pose proof (proj1 (forallb_forall _ _) id_names f Hf) as E. cbv beta in E.
  destruct (assoc_k (key_of f) bin2str_tbl) as [c|] eqn:Ec; [|discriminate]. apply text_eqb_eq in E.
  assert (forall b l, 0 <= l -> oxmid2str_one (hdr f b l ++ r) = Ok (id_name f, r)) as K.
  { intros b l Hl. unfold oxmid2str_one. rewrite hdr_head by lia. cbn [bind]. rewrite (dispatch_hdr f b l r c) by auto. cbn [bind].
    rewrite E. do 2 f_equal. replace (if class_id (fclass f) =? OFPXMC_EXPERIMENTER then 8%nat else 4%nat) with (length (hdr f b l)).
    - now apply skipn_app_exact.
    - rewrite hdr_length. destruct (fclass f); reflexivity. }
  unfold id_wire. destruct (hm && flaggable (fkind f)); apply K; lia.
Qed.
Lemma id_wire_length hm f : (4 <= length (id_wire hm f))%nat.
Proof. unfold id_wire. destruct (hm && flaggable (fkind f)); rewrite hdr_length; lia. Qed.
Lemma ids_print hm fs : Forall (fun f => In f registry) fs ->
  oxmid2str (flat_map (id_wire hm) fs) true = Ok (sepby 44 (map id_name fs)).
Proof.
  intros H. unfold oxmid2str.
  assert (forall fuel, (length (flat_map (id_wire hm) fs) <= fuel)%nat -> oxmid2str_go fuel true (flat_map (id_wire hm) fs) = Ok (map id_name fs)) as K.
  { induction H as [|f fs Hf Hfs IH]; intros fuel Hl; [destruct fuel; reflexivity|]. cbn [flat_map] in *. pose proof (id_wire_length hm f) as L.
    rewrite app_length in Hl. destruct fuel as [|fuel]; [lia|]. cbn [oxmid2str_go].
    replace (length (id_wire hm f ++ flat_map (id_wire hm) fs) <? 4)%nat with false by (symmetry; apply Nat.ltb_ge; rewrite app_length; lia).
    rewrite id_one by auto. cbn [bind]. rewrite IH by lia. reflexivity. }
  rewrite K by auto. cbn [bind]. f_equal. exact (join_sepby 44 _).
Qed.
(** unknown names *)
Lemma not_in_names n l : existsb (text_eqb n) l = false -> ~ In n l.
Proof. intros E H. assert (existsb (text_eqb n) l = true) by (apply existsb_exists; exists n; split; [auto|now apply text_eqb_eq]). congruence. Qed.
Lemma unknown_raises n h r loop : token n -> solid n -> n <> [] -> ~ In n (map fname accepted_fields) -> Forall filler h -> ends r ->
  exists e, str2oxm (h ++ n ++ r) loop = Raise e.
Proof.
  intros Hp Hso Hn Hu Hh Hr.
  assert (get_token (h ++ n ++ r) = (h, n, r)) as E by (apply get_token_complete; auto using filler_lead).
  assert (h ++ n ++ r <> []) as Hne.
  { intros E'. apply app_eq_nil in E' as [_ E']. now apply app_eq_nil in E' as [E' _]. }
  unfold str2oxm. destruct (h ++ n ++ r) as [|c0 s0] eqn:Es; [congruence|]. cbn [length str2oxm_go]. rewrite E.
  destruct (get_token r) as [[op pl] u2]. destruct (negb (has_char 61 h) && has_char 61 op); cbn [assert bind]; [|eexists; reflexivity].
  unfold str2bin. rewrite str2bin_unknown by auto. eexists. reflexivity.
Qed.
Lemma unknown_ignored n h r hm fuel : token n -> solid n -> n <> [] -> ~ In n (map fname accepted_fields) -> Forall filler h -> ends r ->
  str2oxmid_go (S fuel) hm (h ++ n ++ r) = str2oxmid_go fuel hm r.
Proof.
  intros Hp Hso Hn Hu Hh Hr.
  assert (get_token (h ++ n ++ r) = (h, n, r)) as E by (apply get_token_complete; auto using filler_lead).
  assert (h ++ n ++ r <> []) as Hne.
  { intros E'. apply app_eq_nil in E' as [_ E']. now apply app_eq_nil in E' as [E' _]. }
  destruct (h ++ n ++ r) as [|c0 s0] eqn:Es; [congruence|]. cbn [str2oxmid_go]. rewrite E, str2bin_unknown by auto.
  replace (if text_eqb n $"_" then Ok [] else Ok []) with (Ok ([] : bytes)) by now destruct (text_eqb n $"_"). cbn [bind app].
  destruct (str2oxmid_go fuel hm r); reflexivity.
Qed.

(** ** the codec decides *)
Lemma field_run f u loop : In f accepted_fields -> Forall plain u -> u <> [] ->
  str2oxm (fname f ++ $"=" ++ u) loop =
  ('(b, n) <- run_s2b (s2b_of f) (AText u) ;;
   if Nat.eqb n 0 then Ok ([], length (fname f ++ $"=" ++ u))
   else assert! (Nat.eqb n (length u)) ;; Ok (b, length (fname f ++ $"=" ++ u))).
Proof.
  intros Hf Hu Hn. destruct (name_reg f Hf) as [Hp Hpn].
  assert (get_token (fname f ++ $"=" ++ u) = ([], fname f, $"=" ++ u)) as E1.
  { apply (get_token_complete []); auto using plain_token, plain_solid. - apply filler_lead. constructor. - right. reflexivity. }
  assert (get_token ($"=" ++ u) = ($"=", u, [])) as E2.
  { pose proof (get_token_complete $"=" u []) as T. rewrite app_nil_r in T. apply T; auto using plain_token, plain_solid.
    - right. exists [], []. repeat constructor. - exact I. }
  unfold str2oxm. remember (fname f ++ $"=" ++ u) as w.
  destruct w as [|c0 s0]; [symmetry in Heqw; apply app_eq_nil in Heqw as [? ?]; congruence|]. cbn [length str2oxm_go].
  rewrite E1, E2. change (negb (has_char 61 []) && has_char 61 $"=") with true. cbn [assert bind]. unfold str2bin.
  rewrite str2bin_reg by auto. cbn [bind]. destruct (run_s2b (s2b_of f) (AText u)) as [[b n]|e|]; try reflexivity. cbn [bind].
  destruct (Nat.eqb n 0); [cbn [bind length]; now rewrite Nat.sub_0_r|]. destruct (Nat.eqb n (length u)); [|reflexivity]. cbn [assert bind].
  destruct loop; [destruct (length s0)|]; cbn [str2oxm_go bind length]; rewrite ?app_nil_r, ?Nat.sub_0_r; reflexivity.
Qed.

(** ** prefix lengths *)
Definition upto (n : nat) : list Z := map Z.of_nat (seq 0 n).
Lemma in_upto n v : 0 <= v < Z.of_nat n -> In v (upto n).
Proof. intros H. apply in_map_iff. exists (Z.to_nat v). split; [lia|]. apply in_seq. lia. Qed.
Definition is_ok (r : res bytes) (b : bytes) : bool := match r with Ok x => if list_eq_dec Byte.byte_eq_dec x b then true else false | _ => false end.
Lemma is_ok_eq r b : is_ok r b = true -> r = Ok b.
Proof. destruct r; cbn; try discriminate. destruct (list_eq_dec _ _ _); congruence. Qed.
Lemma mask4 n : 0 <= n < 256 -> ipv4_mask (dec n) = Ok (be 4 n).
Proof.
  intros H. pose proof (in_upto 256 n H) as Hi.
  assert (forallb (fun n => is_ok (ipv4_mask (dec n)) (be 4 n)) (upto 256) = true) as E by (vm_compute; reflexivity).
  apply is_ok_eq. exact (proj1 (forallb_forall _ _) E n Hi).
Qed.
Lemma mask6 n : 0 <= n < 128 -> ipv6_mask (dec n) = Raise StructError.
Proof.
  intros H. pose proof (in_upto 128 n H) as Hi.
  assert (forallb (fun n => match ipv6_mask (dec n) with Raise StructError => true | _ => false end) (upto 128) = true) as E by (vm_compute; reflexivity).
  pose proof (proj1 (forallb_forall _ _) E n Hi) as K. cbv beta in K.
  destruct (ipv6_mask (dec n)) as [|[] |]; try discriminate. reflexivity.
Qed.
Lemma prefix4 f v n loop : In f registry -> fkind f = KIPv4 -> length v = 4%nat -> 0 <= n < 256 ->
  str2oxm (fname f ++ $"=" ++ ipv4_str v ++ $"/" ++ dec n) loop =
  Ok (wire (Tlv f v (Some (be 4 n))), length (fname f ++ $"=" ++ ipv4_str v ++ $"/" ++ dec n)).
Proof.
  intros Hf Ek Hv Hn. pose proof (reg_accepted f Hf) as Ha. destruct (ipv4_chars v) as [Hp Hs].
  rewrite field_run by (auto using plain_slash, slash_nonnil, dec_plain_str).
  pose proof (own_key_reg f Ha) as Hk. pose proof (fnum_reg f Ha) as Hfn. unfold s2b_of. rewrite Ek. cbn [run_s2b]. unfold ipv4_str2bin.
  rewrite get_token_alone by (auto using plain_slash, slash_nonnil, dec_plain_str). rewrite slash_text, split1_some by auto.
  rewrite <- quad_ipv4, inet_aton_quad, mask4 by auto. cbn [bind]. rewrite hdr_cat_mask by (auto using be_length). cbn [bind].
  rewrite !quad_ipv4. cbn [length Nat.add]. destruct (Nat.eqb_spec (length (ipv4_str v ++ 47 :: dec n)) 0) as [E|E].
  - rewrite !app_length in E. cbn in E. lia.
  - rewrite Nat.eqb_refl. reflexivity.
Qed.
Lemma prefix6 f v u n loop : In f registry -> fkind f = KIPv6 -> ipv6_of u v -> 0 <= n < 128 ->
  str2oxm (fname f ++ $"=" ++ u ++ $"/" ++ dec n) loop = Raise StructError.
Proof.
  intros Hf Ek Hv Hn. pose proof (reg_accepted f Hf) as Ha. destruct (inet_pton6_of u v Hv) as (E & Hp & Hs & Hnn & Hl).
  rewrite field_run by (auto using plain_slash, slash_nonnil, dec_plain_str).
  unfold s2b_of. rewrite Ek. cbn [run_s2b]. unfold ipv6_str2bin.
  rewrite get_token_alone by (auto using plain_slash, slash_nonnil, dec_plain_str). rewrite slash_text, split1_some by auto.
  rewrite E. cbn [bind]. rewrite mask6 by auto. reflexivity.
Qed.
Lemma prefix6_full f v u loop : In f registry -> fkind f = KIPv6 -> ipv6_of u v ->
  str2oxm (fname f ++ $"=" ++ u ++ $"/128") loop = Ok (wire (Tlv f v (Some (prefix_mask 16 128))), length (fname f ++ $"=" ++ u ++ $"/128")).
Proof.
  intros Hf Ek Hv. change ($"/128") with ($"/" ++ dec 128). pose proof (reg_accepted f Hf) as Ha. destruct (inet_pton6_of u v Hv) as (E & Hp & Hs & Hnn & Hl).
  rewrite field_run by (auto using plain_slash, slash_nonnil, dec_plain_str). pose proof (own_key_reg f Ha) as Hk. pose proof (fnum_reg f Ha) as Hfn.
  unfold s2b_of. rewrite Ek. cbn [run_s2b]. unfold ipv6_str2bin.
  rewrite get_token_alone by (auto using plain_slash, slash_nonnil, dec_plain_str). rewrite slash_text, split1_some by auto.
  rewrite E. cbn [bind]. assert (ipv6_mask (dec 128) = Ok (prefix_mask 16 128)) as -> by (vm_compute; reflexivity). cbn [bind].
  rewrite hdr_cat_mask by (auto; vm_compute; reflexivity). cbn [bind].
  cbn [length Nat.add]. destruct (Nat.eqb_spec (length (u ++ 47 :: dec 128)) 0) as [E'|E'].
  - rewrite !app_length in E'. cbn in E'. lia.
  - rewrite Nat.eqb_refl. reflexivity.
Qed.

(** ** printed wrongly *)
Lemma reg_printed i v m : 0 <= i < 8 -> length v = 4%nat -> match m with Some m => length m = 4%nat | None => True end ->
  oxm2str (wire (Tlv (Field ($"nxm_reg" ++ dec i) Nxm1 i (KInt 4 (Hex 0) (Some (Hex 0)))) v m)) true = Ok ($"nxm_reg" ++ dec i).
Proof.
  intros Hi Hv Hm. set (f := Field ($"nxm_reg" ++ dec i) Nxm1 i (KInt 4 (Hex 0) (Some (Hex 0)))).
  assert (assoc_k (key_of f) bin2str_tbl = Some (Buint ($"nxm_reg" ++ dec i))) as Ec.
  { assert (i = 0 \/ i = 1 \/ i = 2 \/ i = 3 \/ i = 4 \/ i = 5 \/ i = 6 \/ i = 7) as K by lia.
    repeat (destruct K as [->|K]; [vm_compute; reflexivity|]). subst i. vm_compute. reflexivity. }
  rewrite (single_print f v m (Buint ($"nxm_reg" ++ dec i))); [|cbn; lia|exact Ec|].
  2:{ unfold fits. cbn [tfield tval tmask]. rewrite app_length. cbn [f fclass exp_id length]. destruct m; cbn [mask_bytes length] in *; lia. }
  assert (i = 0 \/ i = 1 \/ i = 2 \/ i = 3 \/ i = 4 \/ i = 5 \/ i = 6 \/ i = 7) as K by lia.
  cbn [run_b2s]. destruct m as [m|]; cbn [mask_bytes has_mask]; unfold uint_bin2str.
  - repeat (destruct K as [->|K]; [reflexivity|]). subst i. reflexivity.
  - repeat (destruct K as [->|K]; [reflexivity|]). subst i. reflexivity.
Qed.
Lemma frag_printed v : in_bytes 1 v ->
  oxm2str (wire (Tlv (Field $"nxm_ip_frag" Nxm1 26 (KInt 1 Dec (Some Dec))) (be 1 v) None)) true = Ok ($"nxm_icmp_type=" ++ dec v).
Proof.
  intros Hv. set (f := Field $"nxm_ip_frag" Nxm1 26 (KInt 1 Dec (Some Dec))).
  rewrite (single_print f (be 1 v) None (Buint $"nxm_icmp_type={:d}/{:d}")); [|cbn; lia|vm_compute; reflexivity|].
  2:{ unfold fits. cbn [tfield tval tmask mask_bytes]. rewrite app_length, be_length. cbn. lia. }
  cbn [mask_bytes run_b2s]. rewrite app_nil_r. unfold uint_bin2str. cbn [has_mask].
  change (fmt_nomask $"nxm_icmp_type={:d}/{:d}") with $"nxm_icmp_type={:d}".
  rewrite be_val_spec, num_be_be, Z.mod_small by exact Hv. unfold py_format.
  match goal with |- context [fmt_segs ?x] => let y := eval vm_compute in (fmt_segs x) in change (fmt_segs x) with y end.
  cbn [fmt_run bind fmt_hole]. rewrite app_nil_r, fmt_d_dec. reflexivity.
Qed.

(** ** little-endian masks *)
Lemma le_mask_raises f n s ms u v u' v' : In f registry -> fkind f = KLe n s ms -> literal u v -> literal u' v' ->
  str2oxm (fname f ++ $"=" ++ u ++ $"/" ++ u') true = Raise TypeError.
Proof.
  intros Hf Ek Hu Hu'. pose proof (reg_accepted f Hf) as Ha.
  destruct (literal_plain u v Hu) as [Hp Hn], (literal_plain u' v' Hu') as [Hp' Hn'].
  rewrite field_run by (auto using plain_slash, slash_nonnil). unfold s2b_of. rewrite Ek. cbn [run_s2b]. unfold le_str2bin.
  rewrite slash_text, (literal_app u v) by (auto; left; reflexivity). cbn [bind].
  rewrite skipn_app_exact, sw_slash, skipn_one by reflexivity.
  pose proof (literal_app u' v' [] Hu' I) as E. rewrite app_nil_r in E. rewrite E. cbn [bind].
  pose proof (proj1 (forallb_forall _ _) le_widths f Ha) as W. cbv beta in W. rewrite Ek in W. destruct n; [discriminate|reflexivity].
Qed.

(** ** lists *)
Lemma filter_all {A} (p : A -> bool) l : (forall x, In x l -> p x = true) -> filter p l = l.
Proof. induction l as [|a l IH]; intros H; [reflexivity|]. cbn. rewrite (H a) by now left. f_equal. apply IH. intros x Hx. apply H. now right. Qed.
Lemma filter_none {A} (p : A -> bool) l : (forall x, In x l -> p x = false) -> filter p l = [].
Proof. induction l as [|a l IH]; intros H; [reflexivity|]. cbn. rewrite (H a) by now left. apply IH. intros x Hx. apply H. now right. Qed.
Fixpoint nodupb {A} (eqb : A -> A -> bool) (l : list A) : bool :=
  match l with [] => true | a :: l' => negb (existsb (eqb a) l') && nodupb eqb l' end.
Lemma nodupb_NoDup {A} (eqb : A -> A -> bool) l : (forall a, eqb a a = true) -> nodupb eqb l = true -> NoDup l.
Proof.
  intros R. induction l as [|a l IH]; [constructor|]. cbn. intros H. apply andb_prop in H as [H1 H2]. constructor; auto.
  intros Hi. apply negb_true_iff in H1. assert (existsb (eqb a) l = true) by (apply existsb_exists; eauto). congruence.
Qed.
Definition class_eqb (a b : class) : bool := class_id a =? class_id b.
Lemma registry_unique : NoDup (map fname registry) /\ NoDup (map (fun f => (fclass f, fnum f)) registry).
Proof.
  split.
  - apply (nodupb_NoDup text_eqb); [intros a; now apply text_eqb_eq|vm_compute; reflexivity].
  - apply (nodupb_NoDup (fun a b => class_eqb (fst a) (fst b) && (snd a =? snd b))); [|vm_compute; reflexivity].
    intros a. unfold class_eqb. now rewrite !Z.eqb_refl.
Qed.
