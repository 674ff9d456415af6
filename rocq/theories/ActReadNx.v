(** Reading the Nicira actions. *)
From Coq Require Import Strings.Ascii.
From Verif Require Import Base PyNum Util PyLib OxmCodec OxmTables Oxm Nx Ofp4 Spec SpecOxm SpecOfp.
From Verif Require Import BaseFacts UtilFacts NumFacts OxmRead OxmPrint OxmFacts OxmMore ActBase ActRead.

(** ** split *)
Lemma split_plain u tok s : Forall plain u -> split_go [] tok (u ++ s) = split_go [] (tok ++ u) s.
Proof.
  intros H. revert tok. induction H as [|c u Hc Hu IH]; intros tok; cbn [app]; [now rewrite app_nil_r|]. cbn [split_go].
  rewrite (proj2 (is_delimiter_false c)) by (apply plain_token_char in Hc; apply Hc).
  rewrite (proj2 (pars_none c)) by now apply plain_not_opener. rewrite IH, <- app_assoc. reflexivity.
Qed.
Lemma split_sep c tok s : sep_char c -> split_go [] tok (c :: s) = match tok with [] => split_go [] [] s | _ => tok :: split_go [] [] s end.
Proof. intros H. cbn [split_go]. now rewrite (proj2 (is_delimiter_iff c) H). Qed.
Lemma split_seps h s : Forall sep_char h -> split_go [] [] (h ++ s) = split_go [] [] s.
Proof. induction 1 as [|c h Hc Hh IH]; cbn [app]; auto. now rewrite split_sep. Qed.
Lemma split_args us s : plain_args us s -> Forall (fun u => Forall plain u /\ u <> []) us -> split s = us.
Proof.
  unfold split. induction 1 as [t Ht|h u us r Hh Hr IH He]; intros H.
  - rewrite <- (app_nil_r t), split_seps by auto. reflexivity.
  - inversion H as [|x l [Hp Hn] Hl]; subst. rewrite split_seps, split_plain by auto. cbn [app].
    specialize (IH Hl). destruct r as [|c r].
    + destruct He as [->|[]]. destruct u; [congruence|reflexivity].
    + assert (Hc : sep_char c).
      { destruct He as [->|He]; [|exact He]. inversion Hr. now inversion H0. }
      rewrite split_sep in * by auto. destruct u; [congruence|]. now rewrite IH.
Qed.
Lemma plain_args_quiet us s : plain_args us s -> Forall (fun u => Forall plain u /\ u <> []) us -> closed quiet s.
Proof.
  induction 1 as [t Ht|h u us r Hh Hr IH He]; intros H.
  - apply quiet_closed, filler_quiets, sep_fillers; auto.
  - inversion H as [|x l [Hp Hn] Hl]; subst. apply closed_app; [now apply quiet_closed, filler_quiets, sep_fillers|].
    apply closed_app; [now apply plain_closed_quiet|auto].
Qed.
Lemma literals_plain us ids : Forall2 literal us ids -> Forall (fun u => Forall plain u /\ u <> []) us.
Proof. induction 1; constructor; auto. now apply (literal_plain _ y). Qed.
Lemma plain_args_nonnil us s : plain_args us s -> us <> [] -> Forall (fun u => Forall plain u /\ u <> []) us -> s <> [].
Proof.
  intros [t Ht|h u us' r Hh Hr He] H Hf E; [congruence|]. inversion Hf as [|x l [_ Hn] _]; subst.
  apply app_eq_nil in E as [_ E]. apply app_eq_nil in E as [E _]. congruence.
Qed.

(** ** cnt_ids *)
Lemma parse_ids_ok us ids : Forall2 literal us ids -> parse_ids us = Ok ids.
Proof.
  unfold parse_ids. induction 1 as [|u v us ids Hu H IH]; cbn [mapM]; auto. rewrite (literal_alone _ _ Hu). cbn [bind].
  rewrite IH. reflexivity.
Qed.
Lemma pack_all n ids : Forall (in_bytes n) ids -> pack (repeat (FU n) (length ids)) ids = Ok (all_be n ids).
Proof.
  induction 1 as [|v ids Hv H IH]; cbn [length repeat]; [reflexivity|]. rewrite pack_u by auto. rewrite IH. reflexivity.
Qed.
Lemma all_be_length n l : length (all_be n l) = (n * length l)%nat.
Proof. induction l; cbn; [lia|]. rewrite app_length, be_length. unfold all_be in IHl. rewrite IHl. lia. Qed.
#[global] Hint Rewrite all_be_length : len.
Definition nx_fits (sub : Z) (p : bytes) : Prop := Z.of_nat (length (nx_act sub p)) <= 65535.
Lemma nx_fits_len sub p : nx_fits sub p -> Z.of_nat (10 + length p) <= 65535.
Proof. unfold nx_fits. rewrite nx_act_length. pose proof (align8_ge (10 + length p)). lia. Qed.
Lemma cnt_ids_body us ids n : Forall2 literal us ids -> Forall (in_bytes 2) ids -> Z.of_nat (length (act_wire (CntIds ids))) <= 65535 ->
  nxast_str2act (ids <- parse_ids us ;;
    h <- nxast_hdr 21 ;;
    p <- pack (sH :: sx 4 :: repeat sH (length ids)) (Z.of_nat (length ids) :: ids) ;;
    Ok (h ++ p, n)) = Ok (act_wire (CntIds ids), n).
Proof.
  intros Hu Hi Hl. rewrite (parse_ids_ok _ _ Hu). cbn [bind]. rewrite nxast_hdr_ok by fits. cbn [bind].
  cbn [act_wire] in *. apply nx_fits_len in Hl as Hl'. revert Hl'. len. intros Hl'.
  rewrite pack_u by (apply in_bytes_2; lia). rewrite pack_x, pack_all by auto. cbn [bind]. now apply nx_finish.
Qed.
Lemma ids_reads_call us ids o e s h r : Forall2 literal us ids -> us <> [] -> bracket o e -> plain_args us s ->
  act_ok (CntIds ids) -> Forall filler h -> follow r ->
  str2act (h ++ call o e $"cnt_ids" s ++ r) = Ok (act_wire (CntIds ids), (length h + length (call o e $"cnt_ids" s))%nat).
Proof.
  intros Hu H0 Hb Hs [Hi Hl] Hh Hr. pose proof (literals_plain _ _ Hu) as Hp.
  destruct (act_name_plain $"cnt_ids" cnt_ids_str2act eq_refl) as [Hn Hn0].
  rewrite (act_call $"cnt_ids" cnt_ids_str2act) by eauto using plain_args_quiet, plain_args_nonnil.
  unfold cnt_ids_str2act. cbn [bind]. rewrite (split_args us s) by auto.
  rewrite (cnt_ids_body us ids) by auto. reflexivity.
Qed.
Lemma ids_reads_eq us ids a b h r : Forall2 literal us ids -> us <> [] -> gap_eq a -> Forall blank b ->
  act_ok (CntIds ids) -> Forall filler h -> follow r ->
  str2act (h ++ ($"cnt_ids" ++ a ++ $"=" ++ b ++ sepby (chr ":") us) ++ r)
  = Ok (act_wire (CntIds ids), (length h + length ($"cnt_ids" ++ a ++ $"=" ++ b ++ sepby (chr ":") us))%nat).
Proof.
  intros Hu H0 Ha Hb [Hi Hl] Hh Hr.
  destruct (act_name_plain $"cnt_ids" cnt_ids_str2act eq_refl) as [Hn Hn0].
  assert (Ht : Forall (Forall tidy) us) by (clear -Hu; induction Hu; constructor; auto; now apply (literal_tidy _ y)).
  assert (Hw : Forall plain (sepby (chr ":") us)) by (apply tame_plain; now apply sepby_tame).
  assert (Hw0 : sepby (chr ":") us <> []).
  { destruct us as [|u [|u' us]]; [congruence| |apply sepby_nonnil; cbn; lia]. inversion Hu; subst. now apply (literal_plain _ y). }
  rewrite (act_eq $"cnt_ids" cnt_ids_str2act) by auto. unfold cnt_ids_str2act.
  rewrite (tok_eq a b _ r) by auto using plain_token, plain_solid. rewrite eq_has. cbn [assert bind].
  change (chr ":") with 58 in *. rewrite split_sepby by auto. rewrite (cnt_ids_body us ids) by auto. cbn [bind].
  do 2 f_equal. change $"=" with [61]. len.
Qed.

(** ** resubmit *)
Lemma nx_port_plain u p : nx_port_of u p -> Forall plain u /\ u <> [].
Proof.
  intros [u' p' H _| |]; [now apply (literal_plain _ p')| |]; (split; [|discriminate]); repeat (apply Forall_cons; [unfold plain; cbn; lia|]); constructor.
Qed.
Lemma upper_literal u v w : literal u v -> match w with c :: _ => 65 <= c <= 90 | [] => False end -> text_eqb (upper u) w = false.
Proof.
  intros H Hw. destruct (literal_first u v H) as (c & r & -> & Hc). destruct w as [|d w]; [contradiction|].
  cbn [upper map text_eqb]. apply andb_false_iff. left. apply Z.eqb_neq. unfold upper_c.
  destruct (Z.leb_spec 97 c); [lia|]. cbn [andb]. destruct (Z.eqb_spec c 305); [lia|]. destruct (Z.eqb_spec c 383); lia.
Qed.
Lemma nx_port_num u p : nx_port_of u p ->
  (if text_eqb (upper u) $"IN_PORT" then Ok 0xfff8
   else '(port, rlen) <- parseInt u ;; assert! (Nat.eqb (length u) rlen) ;; assert! (port <? 0xff00) ;; Ok port) = Ok p.
Proof.
  intros [u' p' H Hp| |]; [|reflexivity|reflexivity].
  rewrite (upper_literal _ _ _ H) by (cbn; lia). rewrite (literal_alone _ _ H). cbn [bind]. rewrite Nat.eqb_refl. cbn [assert bind].
  now rewrite (proj2 (Z.ltb_lt p' 65280)).
Qed.
Lemma table_plain u t : table_of u t -> Forall plain u /\ u <> [].
Proof.
  intros [u' t' H| |]; [now apply (literal_plain _ t')| |]; (split; [|discriminate]); repeat (apply Forall_cons; [unfold plain; cbn; lia|]); constructor.
Qed.
Lemma table_num u t : table_of u t ->
  (if Nat.eqb (length u) 0 || text_eqb (upper u) $"ALL" then Ok 0xff
   else '(table, rlen) <- parseInt u ;; assert! (Nat.eqb rlen (length u)) ;; Ok table) = Ok t.
Proof.
  intros [u' t' H| |]; [|reflexivity|reflexivity].
  rewrite (upper_literal _ _ _ H) by (cbn; lia). destruct (literal_plain _ _ H) as [_ Hn]. destruct u' as [|c u']; [congruence|].
  cbn [length Nat.eqb orb]. rewrite (literal_alone _ _ H). cbn [bind length]. now rewrite Nat.eqb_refl.
Qed.
Lemma nx_port_in p : nx_port p -> in_bytes 2 p.
Proof. intros H. apply in_bytes_2. unfold nx_port in H. lia. Qed.
Lemma resubmit_pack sub port t n : in_bytes 2 sub -> in_bytes 2 port -> in_bytes 1 t -> nx_fits sub (be 2 port ++ be 1 t) ->
  nxast_str2act (hd <- nxast_hdr sub ;; pl <- pack [sH; sB] [port; t] ;; Ok (hd ++ pl, n)) = Ok (nx_act sub (be 2 port ++ be 1 t), n).
Proof. intros H1 H2 H3 H4. rewrite nxast_hdr_ok by auto. cbn [bind]. packs. now apply nx_finish. Qed.
Lemma follow_no_colon r : follow r -> startswith $":" r = false.
Proof.
  destruct r as [|c r]; [reflexivity|]. cbn [follow s2t startswith]. unfold sep_char. chr_red. intros H.
  apply andb_false_iff. left. apply Z.eqb_neq. change (Z.of_N (Ascii.N_of_ascii ":")) with 58. lia.
Qed.
Lemma resubmit_arg sub u p : (sub = 1 \/ sub = 14) -> nx_port_of u p -> nx_port p ->
  nx_fits sub (be 2 p ++ be 1 255) -> reads_arg (resubmit_str2act sub) u (nx_act sub (be 2 p ++ be 1 255)).
Proof.
  intros Hs Hu Hp Hl. destruct (nx_port_plain _ _ Hu) as [Hpl Hn]. apply nx_port_in in Hp as Hi.
  assert (Hsub : in_bytes 2 sub) by (destruct Hs; subst; unfold in_bytes; lia).
  split.
  - intros h t Hh Ht. unfold resubmit_str2act. rewrite (tok_plain h u t) by auto using tail_gap_follow.
    rewrite (nx_port_num _ _ Hu). cbn [bind].
    destruct Hs as [->| ->]; [|rewrite (tok_gap t) by now apply tail_gap_filler]; cbn [Z.eqb Pos.eqb bind length Nat.eqb orb];
      (rewrite resubmit_pack by (auto; unfold in_bytes; lia)); eauto.
  - intros a b r Ha Hb Hr. unfold resubmit_str2act. rewrite (tok_eq a b u r) by auto using plain_token, plain_solid.
    rewrite (nx_port_num _ _ Hu). cbn [bind]. rewrite eq_has. cbn [assert bind]. rewrite follow_no_colon, andb_false_r by auto.
    cbn [bind length Nat.eqb orb]. rewrite resubmit_pack by (auto; unfold in_bytes; lia). do 2 f_equal. len.
Qed.
(** two arguments *)
Lemma args2 u w s : args [u; w] s -> exists g t, s = u ++ g ++ w ++ t /\ gap g /\ tail_gap t.
Proof.
  intros H. inversion H as [|u0 v us g r Hg Hr]; subst. inversion Hr as [u0 t Ht|]; subst. exists g, t. auto.
Qed.
Lemma gap_nonnil g : gap g -> g <> [].
Proof. intros (c & r & -> & _). discriminate. Qed.
Lemma resubmit_reads u p w n o e g s h r : nx_port_of u p -> table_of w n -> bracket o e -> Forall filler g -> args [u; w] s ->
  act_ok (ResubmitTable p n) -> Forall filler h -> follow r ->
  str2act (h ++ call o e $"resubmit_table" (g ++ s) ++ r)
  = Ok (act_wire (ResubmitTable p n), (length h + length (call o e $"resubmit_table" (g ++ s)))%nat).
Proof.
  intros Hu Hw Hb Hg Hs [[Hp Hn] Hl] Hh Hr. destruct (nx_port_plain _ _ Hu) as [Hpu Hu0]. destruct (table_plain _ _ Hw) as [Hpw Hw0].
  destruct (args2 _ _ _ Hs) as (g2 & t & -> & Hg2 & Ht).
  assert (Hq : closed quiet (g ++ u ++ g2 ++ w ++ t)).
  { repeat apply closed_app; auto using quiet_closed, filler_quiets, gap_filler, tail_gap_filler, plain_quiets. }
  assert (Hq0 : g ++ u ++ g2 ++ w ++ t <> []) by (intros E; apply app_eq_nil in E as [_ E]; apply app_eq_nil in E as [E _]; congruence).
  destruct (act_name_plain $"resubmit_table" _ eq_refl) as [Hn1 Hn0].
  rewrite (act_call $"resubmit_table" (resubmit_str2act 14)) by (auto; reflexivity).
  unfold resubmit_str2act. rewrite (tok_plain g u (g2 ++ w ++ t)) by auto using gap_follow.
  rewrite (nx_port_num _ _ Hu). cbn [bind Z.eqb Pos.eqb]. rewrite (tok_plain g2 w t) by auto using gap_filler, tail_gap_follow.
  cbn [bind]. rewrite (table_num _ _ Hw). cbn [bind]. rewrite resubmit_pack by (auto using nx_port_in; unfold in_bytes; lia). reflexivity.
Qed.

(** ** set_tunnel *)
Lemma tunnel_arg sub u v : in_bytes 2 sub -> literal u v -> v <= 0xffffffff -> in_bytes 4 v -> nx_fits sub (be 4 v) ->
  reads_arg (set_tunnel_str2act sub) u (nx_act sub (be 4 v)).
Proof.
  intros Hs Hu Hv Hi Hl. destruct (literal_plain _ _ Hu) as [Hp Hn]. apply tok_reads; auto.
  intros h r ra Hra Hr E. unfold set_tunnel_str2act. rewrite E.
  replace (negb ra || has_char 61 h) with true by (destruct ra; [now rewrite Hra|reflexivity]).
  rewrite (literal_alone _ _ Hu). cbn [assert bind]. rewrite Nat.eqb_refl. cbn [assert bind].
  destruct (Z.ltb_spec 4294967295 v); [lia|]. rewrite nxast_hdr_ok by auto. cbn [bind]. packs. now apply nx_finish.
Qed.
Lemma tunnel64_arg sub u v : literal u v -> 0xffffffff < v -> in_bytes 8 v -> nx_fits 9 (be 8 v) ->
  reads_arg (set_tunnel_str2act sub) u (nx_act 9 (be 8 v)).
Proof.
  intros Hu Hv Hi Hl. destruct (literal_plain _ _ Hu) as [Hp Hn]. apply tok_reads; auto.
  intros h r ra Hra Hr E. unfold set_tunnel_str2act. rewrite E.
  replace (negb ra || has_char 61 h) with true by (destruct ra; [now rewrite Hra|reflexivity]).
  rewrite (literal_alone _ _ Hu). cbn [assert bind]. rewrite Nat.eqb_refl. cbn [assert bind].
  destruct (Z.ltb_spec 4294967295 v); [|lia]. rewrite nxast_hdr_ok by fits. cbn [bind]. packs. now apply nx_finish.
Qed.

(** ** field headers *)
Lemma reg_width f n : In f registry -> width (fkind f) = Some n -> (4 + 2 * n <= 255)%nat.
Proof.
  intros Hf Hw. pose proof (proj1 (forallb_forall _ _) widths_fit f Hf) as E. cbv beta in E. rewrite Hw in E. now apply Nat.leb_le.
Qed.
Lemma fclass_ids f : class_id (fclass f) = 0xffff <-> fclass f = Stratos.
Proof. destruct (fclass f); cbn; split; congruence. Qed.
Lemma id_head f r : In f registry -> exists l,
  oxm_hdr (id_wire false f ++ r) 0 = Ok (class_id (fclass f), 2 * fnum f, l) /\
  l = Z.min 255 (Z.of_nat (length (exp_id (fclass f))) + Z.of_nat (match width (fkind f) with Some n => n | None => 255%nat end)).
Proof.
  intros Hf. eexists. split; [|reflexivity]. unfold oxm_hdr, id_wire. cbn [andb].
  rewrite hdr_head by (try apply fnum_reg; auto using reg_accepted; lia). cbn [bind flag]. rewrite Z.add_0_r. reflexivity.
Qed.
Lemma id_read f : In f registry -> str2oxmid (fname f) false = Ok (id_wire false f).
Proof.
  intros Hf. pose proof (ids_read false [f]) as H. cbn [map sepby flat_map] in H. rewrite app_nil_r in H. apply H. apply Forall_cons; [now apply reg_accepted|constructor].
Qed.

(** ** py_int of decimals *)
Lemma dec_value_dec c : is_dec c = true -> dec_value c = Some (c - 48).
Proof. unfold is_dec. intros H. unfold dec_value, dec_zeros. cbn [find]. change (48 + 9) with 57. now rewrite H. Qed.
Lemma us_digits_all ds : forallb is_dec ds = true -> us_digits false ds = Some ds.
Proof.
  induction ds as [|c ds IH]; [auto|]. cbn [forallb us_digits]. intros H. apply andb_prop in H as [Hc H]. rewrite dec_value_dec, IH by auto. cbn. do 2 f_equal. lia.
Qed.
Lemma drop_none {A} (f : A -> bool) s : match s with [] => True | c :: _ => f c = false end -> drop_while f s = s.
Proof. destruct s; cbn; auto. now intros ->. Qed.
Lemma strip_tidy s : Forall plain s -> strip s = s.
Proof.
  intros H. assert (Hs : forall t, Forall plain t -> drop_while is_int_space t = t).
  { intros t Ht. apply drop_none. destruct t as [|c t]; auto. inversion Ht; subst. unfold is_int_space. replace (is_space c) with false; [reflexivity|]. symmetry. apply is_space_false. now apply plain_not_blank. }
  unfold strip. rewrite (Hs s H), Hs by now apply Forall_rev. apply rev_involutive.
Qed.
Lemma py_int_dec n : 0 <= n -> py_int (dec n) = Ok n.
Proof.
  intros Hn. unfold py_int. rewrite strip_tidy by (apply dec_plain_str). rewrite dec_nonneg by auto.
  destruct (dec_digits n Hn) as [Hc Hv]. rewrite dec_nonneg in Hc, Hv by auto.
  pose proof (canon_numeral 10 _ ltac:(lia) Hc) as [Hd0 Hd].
  assert (Hall : forallb is_dec (digits 10 n) = true) by (apply (proj2 (forallb_Forall _ _ _ is_dec_iff)); auto).
  destruct (digits 10 n) as [|c ds] eqn:E; [congruence|].
  assert (Hc' : is_dec c = true) by (cbn in Hall; now apply andb_prop in Hall).
  assert (Hsg : c <> 45 /\ c <> 43) by (unfold is_dec in Hc'; lia).
  assert (Em : forall A (x y z : A), match c with 43 => x | 45 => y | _ => z end = z).
  { intros A x y z. destruct c as [|p|p]; auto. do 6 (destruct p as [p|p|]; auto); lia. }
  cbn [us_digits]. rewrite Em.
  cbn [us_digits]. rewrite (dec_value_dec c Hc'). cbn [forallb] in Hall. rewrite Hc' in Hall. cbn [andb] in Hall. rewrite us_digits_all by auto. cbn [option_map]. replace (48 + (c - 48)) with c by lia.
  rewrite digits_val_value; [now rewrite Hv|]. eapply Forall_impl; [|exact Hd]. intros k. apply digit_in_mono. lia.
Qed.
Lemma dec_nonnil n : dec n <> [].
Proof. apply (literal_plain _ n). apply dec_literal. Qed.
Lemma opt_int_dec n : 0 <= n -> opt_int (dec n) = Ok (Some n).
Proof. intros H. unfold opt_int. rewrite py_int_dec by auto. pose proof (dec_nonnil n). destruct (dec n); [congruence|reflexivity]. Qed.

(** ** bit ranges *)
Lemma range_no_colon x n : x = dec n \/ x = [] -> ~ In 58 x.
Proof. intros [->| ->] H; [|contradiction]. revert H. apply tidy_no; auto. apply (literal_tidy _ n). apply dec_literal. Qed.
Lemma range_plain lo hi x y : (x = dec lo \/ x = []) -> (y = dec hi \/ y = []) -> Forall plain (x ++ $":" ++ y).
Proof. intros [->| ->] [->| ->]; apply colon_plain; try apply dec_plain_str; constructor. Qed.
Lemma bits_of_quiet f lo n u : In f registry -> bits_of f lo n u -> token u /\ solid u /\ closed quiet u /\ u <> [].
Proof.
  intros Hf H. destruct (name_reg f (reg_accepted f Hf)) as [Hp Hn]. destruct H as [b Hb|o e lo hi x y Ho Hlo Hhi Hx Hy].
  - auto using plain_token, plain_solid, plain_closed_quiet.
  - assert (Hq : closed quiet (x ++ $":" ++ y)) by (apply plain_closed_quiet; apply (range_plain lo hi); tauto).
    repeat split; auto using call_token, call_solid, call_quiet. unfold call. destruct (fname f); discriminate.
Qed.
Lemma get_bits_ok f lo n u h r : In f registry -> bits_of f lo n u -> lead h -> ends r ->
  get_bits (h ++ u ++ r) = Ok (id_wire false f, lo, n, r).
Proof.
  intros Hf Hu Hh Hr. destruct (bits_of_quiet f lo n u Hf Hu) as (Ht & Hs & _ & _).
  destruct (name_reg f (reg_accepted f Hf)) as [Hp Hn]. unfold get_bits. rewrite get_token_complete by auto.
  destruct (id_head f [] Hf) as (l & Eh & El). rewrite app_nil_r in Eh.
  assert (Hsz : forall b, bits f = Some b -> (if class_id (fclass f) =? 0xffff then l - 4 else l) * 8 = b).
  { intros b Hb. unfold bits in Hb. destruct (width (fkind f)) as [w|] eqn:Ew; [|discriminate]. injection Hb as <-.
    pose proof (reg_width f w Hf Ew). rewrite El. destruct (fclass f); cbn [exp_id length class_id Z.eqb Pos.eqb be_length];
      rewrite ?be_length; lia. }
  destruct Hu as [b Hb|o e lo hi x y Ho Hlo Hhi Hx Hy].
  - rewrite plain_func by auto. cbn [bind]. rewrite id_read by auto. cbn [bind]. rewrite Eh. cbn [bind]. now rewrite (Hsz _ Hb).
  - rewrite call_func by (auto; apply plain_closed_quiet; apply (range_plain lo hi); tauto). cbn [bind]. rewrite id_read by auto. cbn [bind].
    rewrite Eh. cbn [bind].
    replace (x ++ $":" ++ y) with (x ++ 58 :: y) by reflexivity.
    assert (Es : split1 58 (x ++ 58 :: y) = (x, Some y)) by (apply split1_some; apply (range_no_colon x lo); tauto).
    assert (E0 : exists c a, x ++ 58 :: y = c :: a) by (destruct x; cbn; eauto). destruct E0 as (c & a & E0).
    rewrite E0. rewrite <- E0, Es.
    assert (Ex : exists s, opt_int x = Ok s /\ opt_or s 0 = lo).
    { destruct Hx as [->|[-> ->]]; [rewrite opt_int_dec by auto|]; eexists; split; reflexivity. }
    assert (Ey : exists s, opt_int y = Ok s /\ opt_or s ((if class_id (fclass f) =? 0xffff then l - 4 else l) * 8) = hi).
    { destruct Hy as [->|[-> Hb]]; [rewrite opt_int_dec by auto; eexists; split; reflexivity|].
      eexists. split; [reflexivity|]. cbn [opt_or]. now apply Hsz. }
    destruct Ex as (sx & -> & Esx), Ey as (sy & -> & Esy). cbn [bind]. now rewrite Esx, Esy.
Qed.
