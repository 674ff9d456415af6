(** Printing arbitrary bytes: quoted-printable texts and the value printers. *)
From Verif Require Import Base PyNum Util PyLib OxmCodec OxmTables Oxm Spec SpecOxm SpecText SpecShow.
From Verif Require Import BaseFacts UtilFacts NumFacts PyLibFacts OxmRead OxmPrint OxmFacts OxmFrame OxmMore ActFrame GramLib OxmGram.
From Coq Require Import Strings.Ascii.

(** ** quoted-printable *)
(** what the encoder has written: whole characters, escapes and soft line breaks *)
Inductive enc (crlf : bool) : text -> bytes -> Prop :=
| enc_nil : enc crlf [] []
| enc_char t b c : enc crlf t b -> 0 <= c <= 126 -> c <> 61 -> quoted_char c -> enc crlf (t ++ [c]) (b ++ [byte_of c])
| enc_esc t b c : enc crlf t b -> 0 <= c < 256 -> enc crlf (t ++ qp_esc c) (b ++ [byte_of c])
| enc_soft t b : enc crlf t b -> enc crlf (t ++ 61 :: map byte_val (eol crlf)) b.

Lemma esc_pair c : 0 <= c < 256 -> pair_of [hexu_char (c / 16); hexu_char (c mod 16)] (byte_of c).
Proof.
  intros H. assert (forall d, 0 <= d < 16 -> digit (hexu_char d) = Some d) as K.
  { intros d Hd. assert (In d (map Z.of_nat (seq 0 16))) as Hi by (apply in_map_iff; exists (Z.to_nat d); split; [lia|apply in_seq; lia]).
    clear Hd. revert d Hi. apply Forall_forall. vm_compute. repeat constructor. }
  replace (byte_of c) with (byte_of (16 * (c / 16) + c mod 16)) by (f_equal; symmetry; apply Z.div_mod; lia).
  apply pair_hex; apply K; [split; [apply Z.div_pos; lia|apply Z.div_lt_upper_bound; lia]|apply Z.mod_pos_bound; lia].
Qed.
Lemma enc_qp crlf t b : enc crlf t b -> forall s r, qp s r -> qp (t ++ s) (b ++ r).
Proof.
  intros H. induction H as [|t b c H IH Hc H1 Hq|t b c H IH Hc|t b H IH]; intros s r Hs; rewrite <- ?app_assoc; [exact Hs|apply IH..].
  - cbn [app]. apply qp_char; auto. unfold seven_bit. lia.
  - unfold qp_esc. cbn [app]. apply (qp_byte _ _ (byte_of c) s r); auto. now apply esc_pair.
  - cbn [app]. destruct crlf; cbn [eol map app].
    + change (byte_val x0d) with 13. change (byte_val x0a) with 10. apply (qp_cr [] s r); auto.
    + change (byte_val x0a) with 10. now apply qp_lf.
Qed.
Lemma esc_chars c : 0 <= c < 256 -> Forall quoted_char (qp_esc c).
Proof.
  intros H. assert (forall d, 0 <= d < 16 -> quoted_char (hexu_char d)) as K.
  { intros d Hd. unfold quoted_char, hexu_char. destruct (d <? 10) eqn:E; lia. }
  unfold qp_esc. repeat (apply Forall_cons || apply Forall_nil); [unfold quoted_char; lia|apply K..].
  - split; [apply Z.div_pos; lia|apply Z.div_lt_upper_bound; lia].
  - apply Z.mod_pos_bound; lia.
Qed.
Lemma enc_chars crlf t b : enc crlf t b -> Forall quoted_char t.
Proof.
  intros H. induction H as [|t b c H IH Hc H1 Hq|t b c H IH Hc|t b H IH]; [constructor|apply Forall_app; split; auto..].
  - now apply esc_chars.
  - constructor; [unfold quoted_char; lia|]. destruct crlf; repeat constructor; unfold quoted_char; cbn; lia.
Qed.
(** a blank at the end can only be a character *)
Lemma enc_blank crlf t b w : enc crlf (t ++ [w]) b -> w = 32 \/ w = 9 -> exists b', b = b' ++ [byte_of w] /\ enc crlf t b'.
Proof.
  intros H Hw. remember (t ++ [w]) as u eqn:Eu. destruct H as [|t0 b0 c H Hc H1 Hq|t0 b0 c H Hc|t0 b0 H].
  - destruct t; discriminate.
  - apply app_inj_tail in Eu as [-> ->]. eauto.
  - exfalso. unfold qp_esc in Eu. assert (t0 ++ [61; hexu_char (c / 16); hexu_char (c mod 16)] = (t0 ++ [61; hexu_char (c / 16)]) ++ [hexu_char (c mod 16)]) as E by now rewrite <- app_assoc.
    rewrite E in Eu. apply app_inj_tail in Eu as [_ Eu]. pose proof (Z.mod_pos_bound c 16 ltac:(lia)). unfold hexu_char in Eu. destruct (c mod 16 <? 10) eqn:E9; lia.
  - exfalso. destruct crlf; cbn [eol map] in Eu.
    + assert (t0 ++ [61; byte_val x0d; byte_val x0a] = (t0 ++ [61; byte_val x0d]) ++ [byte_val x0a]) as E by now rewrite <- app_assoc.
      rewrite E in Eu. apply app_inj_tail in Eu as [_ Eu]. cbn in Eu. lia.
    + assert (t0 ++ [61; byte_val x0a] = (t0 ++ [61]) ++ [byte_val x0a]) as E by now rewrite <- app_assoc.
      rewrite E in Eu. apply app_inj_tail in Eu as [_ Eu]. cbn in Eu. lia.
Qed.
Lemma enc_eol crlf t b : enc crlf t b -> enc crlf (t ++ map byte_val (eol crlf)) (b ++ eol crlf).
Proof.
  intros H. destruct crlf; cbn [eol map].
  - pose proof (enc_char true t b 13 H ltac:(lia) ltac:(lia) ltac:(unfold quoted_char; lia)) as K.
    pose proof (enc_char true _ _ 10 K ltac:(lia) ltac:(lia) ltac:(unfold quoted_char; lia)) as K2. rewrite <- !app_assoc in K2. exact K2.
  - exact (enc_char false t b 10 H ltac:(lia) ltac:(lia) ltac:(unfold quoted_char; lia)).
Qed.
Lemma nl_eol (crlf : bool) : rev (if crlf then [10; 13] else [10]) = map byte_val (eol crlf).
Proof. destruct crlf; reflexivity. Qed.
Lemma qp_quote_no ll c n : 0 <= c < 256 -> qp_quote ll c n = false -> c <= 126 /\ c <> 61 /\ quoted_char c.
Proof. unfold qp_quote, quoted_char. intros H E. rewrite !orb_false_iff in E. destruct E as [[[[E1 E2] E3] E4] E5]. lia. Qed.
Lemma qp_go_enc crlf : forall n s linelen out b, (length s <= n)%nat -> enc crlf (rev out) b ->
  exists r, same_eol crlf s r /\ enc crlf (b2a_qp_go crlf linelen out (map byte_val s)) (b ++ r).
Proof.
  induction n as [|n IH]; intros s linelen out b Hn Hb.
  { destruct s; [|cbn in Hn; lia]. exists []. rewrite app_nil_r. split; [constructor|exact Hb]. }
  destruct s as [|x s]; [exists []; rewrite app_nil_r; split; [constructor|exact Hb]|].
  cbn [length] in Hn. cbn [map b2a_qp_go]. set (c := byte_val x). pose proof (b2z_range x) as Hx. change (b2z x) with c in Hx.
  assert (byte_of c = x) as Ex by (unfold c; apply z2b_b2z).
  assert (forall o l k, enc crlf (rev o) (b ++ k) -> (forall r, same_eol crlf s r -> same_eol crlf (x :: s) (k ++ r)) ->
    exists r, same_eol crlf (x :: s) r /\ enc crlf (b2a_qp_go crlf l o (map byte_val s)) (b ++ r)) as Step.
  { intros o l k Ho Hk. destruct (IH s l o (b ++ k) ltac:(lia) Ho) as (r & Hr & Er). exists (k ++ r). split; [now apply Hk|]. now rewrite app_assoc. }
  assert (forall l0 : text, rev (rev l0) = l0) as RR by apply rev_involutive.
  destruct (qp_quote linelen c _) eqn:Eq.
  - assert (x <> x0a /\ (x = x0d -> forall b', s <> x0a :: b')) as [N1 N2].
    { assert (c <> 10 /\ c <> 13) as [K1 K2]. { unfold qp_quote in Eq. clear -Eq. lia. }
      split; [intros ->; now apply K1|intros ->; now destruct K2]. }
    destruct (76 <=? linelen + 3)%nat; apply (Step _ _ [x]).
    + rewrite !rev_app_distr, RR, <- Ex, nl_eol. cbn [rev app].
      apply enc_esc; auto. rewrite <- app_assoc. cbn [app]. now apply enc_soft.
    + intros r Hr. now apply eol_other.
    + rewrite rev_app_distr, RR, <- Ex. now apply enc_esc.
    + intros r Hr. now apply eol_other.
  - apply qp_quote_no in Eq as (Q1 & Q2 & Q3); [|lia].
    destruct (Z.eqb_spec c 10) as [E10|N10]; cbn [orb].
    + assert (x = x0a) as -> by (rewrite <- Ex, E10; reflexivity). rewrite E10. cbn [Z.eqb Pos.eqb].
      apply (Step _ _ (eol crlf)).
      * rewrite rev_app_distr, nl_eol. apply enc_eol. destruct out as [|w o]; [exact Hb|].
        destruct ((w =? 32) || (w =? 9)) eqn:Ew; [|exact Hb]. cbn [rev] in Hb. apply enc_blank in Hb as (b' & -> & Hb'); [|lia].
        rewrite rev_app_distr, RR. apply enc_esc; auto. lia.
      * intros r Hr. now apply eol_lf.
    + destruct ((c =? 13) && _) eqn:Ec.
      * apply andb_prop in Ec as [E13 E2]. rewrite E13. apply Z.eqb_eq in E13. assert (x = x0d) as -> by (rewrite <- Ex, E13; reflexivity).
        destruct s as [|y s]; [discriminate|]. cbn [map] in *. apply Z.eqb_eq in E2.
        assert (y = x0a) as -> by (rewrite <- (z2b_b2z y); change (b2z y) with (byte_val y); rewrite E2; reflexivity).
        cbn [length] in Hn. match goal with |- context [b2a_qp_go crlf 0 ?o _] => destruct (IH s 0%nat o (b ++ eol crlf)) as (r & Hr & Er); [lia| |] end.
        -- rewrite rev_app_distr, nl_eol. apply enc_eol. destruct out as [|w o]; [exact Hb|].
           destruct ((w =? 32) || (w =? 9)) eqn:Ew; [|exact Hb]. cbn [rev] in Hb. apply enc_blank in Hb as (b' & -> & Hb'); [|lia].
           rewrite rev_app_distr, RR. apply enc_esc; auto. lia.
        -- exists (eol crlf ++ r). split; [now apply eol_crlf|]. now rewrite app_assoc.
      * assert (x <> x0a /\ (x = x0d -> forall b', s <> x0a :: b')) as [M1 M2].
        { split; [intros ->; now apply N10|]. intros -> b' ->. cbn in Ec. discriminate. }
        assert (enc crlf (rev (c :: out)) (b ++ [x])) as Hc. { cbn [rev]. rewrite <- Ex. apply enc_char; auto. lia. }
        assert (enc crlf (rev (c :: (if crlf then [10; 13] else [10]) ++ [61] ++ out)) (b ++ [x])) as Hc2.
        { cbn [rev app]. rewrite rev_app_distr. cbn [rev]. rewrite nl_eol, <- !app_assoc. cbn [app].
          rewrite app_comm_cons, app_assoc, <- Ex. apply enc_char; auto; [|lia]. now apply enc_soft. }
        destruct (_ && (76 <=? linelen + 1)%nat); apply (Step _ _ [x]); auto; intros r Hr; now apply eol_other.
Qed.
Lemma crlf_go p s : (qp_crlf (byte_val p) (map byte_val s) = true <-> (p = x0d /\ exists r, s = x0a :: r) \/ crlf_first s).
Proof.
  revert p. induction s as [|x s IH]; intros p; cbn [map qp_crlf].
  - split; [discriminate|]. intros [[_ [r E]]|(q & r & E & _)]; [discriminate|]. destruct q; discriminate.
  - destruct (Z.eqb_spec (byte_val x) 10) as [E|N].
    + assert (x = x0a) as -> by (rewrite <- (z2b_b2z x); change (b2z x) with (byte_val x); rewrite E; reflexivity).
      rewrite Z.eqb_eq. split.
      * intros H. left. split; [rewrite <- (z2b_b2z p); change (b2z p) with (byte_val p); rewrite H; reflexivity|eauto].
      * intros [[-> _]|(q & r & E2 & N)]; [reflexivity|]. exfalso. destruct q as [|y q]; [discriminate|]. injection E2 as <- _. apply N. now left.
    + rewrite IH. split.
      * intros [[-> (r & ->)]|(q & r & -> & Hq)]; right.
        -- exists [], r. split; [reflexivity|]. intros [].
        -- exists (x :: q), r. split; [reflexivity|]. intros [->|K]; [now apply N|auto].
      * intros [[_ (r & E)]|(q & r & E & Hq)].
        -- injection E as -> ->. now destruct N.
        -- destruct q as [|y q]; cbn [app] in E; injection E as -> ->; [left; eauto|]. right. exists q, r. split; [reflexivity|]. intros K. apply Hq. now right.
Qed.
Lemma b2a_qp_quoted b : quoted b (b2a_qp b).
Proof.
  unfold b2a_qp. change b2z with byte_val. set (crlf := qp_crlf 0 (map byte_val b)).
  destruct (qp_go_enc crlf (length b) b 0 [] [] (le_n _) (enc_nil crlf)) as (r & Hr & He). cbn [app] in He.
  split; [now apply enc_chars in He|]. exists crlf, r. split; [|split; auto].
  - unfold crlf. change 0 with (byte_val x00). rewrite crlf_go. split; [intros [[E _]|H]; [discriminate|exact H]|now right].
  - pose proof (enc_qp _ _ _ He [] [] qp_nil) as K. now rewrite !app_nil_r in K.
Qed.

(** ** values *)
Definition qpt (p : bytes) (t : text) : Prop := t = b2a_qp p.
Lemma halves_cut p v m : halves p v m -> v = firstn (length p / 2) p /\ m = skipn (length p / 2) p.
Proof.
  intros [-> H]. assert ((length (v ++ m) / 2)%nat = length v) as E.
  { rewrite app_length. symmetry. apply (Nat.div_unique _ 2 _ (length m - length v)); lia. }
  rewrite E, firstn_len_app, skipn_len_app. auto.
Qed.
Lemma cut_halves p : halves p (firstn (length p / 2) p) (skipn (length p / 2) p).
Proof.
  split; [now rewrite firstn_skipn|]. rewrite firstn_length, skipn_length. pose proof (Nat.div_mod (length p) 2 ltac:(lia)).
  pose proof (Nat.mod_upper_bound (length p) 2 ltac:(lia)). lia.
Qed.
Lemma vht_collect_any v r : length v = 12%nat -> vht_collect (v ++ r) = Ok (vht_str v).
Proof.
  intros Hl. destruct (all_zero (firstn 4 (skipn 4 v))) eqn:Hz; [|apply vht_collect_str; now split].
  destruct v as [|b0 [|b1 [|b2 [|b3 [|b4 [|b5 [|b6 [|b7 [|b8 [|b9 [|b10 [|b11 [|]]]]]]]]]]]]]; try discriminate.
  unfold vht_collect, unpack_from. rewrite app_length.
  replace (0 + calcsize vht_packs <=? _)%nat with true by (symmetry; apply Nat.leb_le; cbn; lia).
  cbn [app skipn vht_packs unpack_raw firstn bind]. unfold vht_str. cbn [firstn skipn] in *. rewrite Hz.
  rewrite !le_val_spec. unfold opt_number.
  assert (forall l, (0 <? num_le l) = negb (num_le l =? 0)) as Ep.
  { intros l. pose proof (num_le_range l). destruct (Z.ltb_spec 0 (num_le l)), (Z.eqb_spec (num_le l) 0); cbn; lia. }
  rewrite !Ep, !fmt_x_hexw, !fmt_d_dec by apply num_le_range.
  assert (num_le [b4] + num_le [b5] + num_le [b6] + num_le [b7] =? 0 = true) as Es.
  { unfold all_zero in Hz. cbn [forallb] in Hz. cbn [num_le]. lia. }
  rewrite Es. cbn [negb]. cbn [sepby]. chr_red.
  destruct (num_le [b0; b1] =? 0), (num_le [b2] =? 0), (num_le [b8] =? 0); cbn [negb number Nat.sub];
    rewrite ?app_nil_r, <- ?app_assoc; reflexivity.
Qed.
Lemma vht_short d : (length d < 12)%nat -> vht_collect d = Raise StructError.
Proof. intros H. unfold vht_collect, unpack_from. replace (0 + calcsize vht_packs <=? length d)%nat with false by (symmetry; apply Nat.leb_gt; cbn; lia). reflexivity. Qed.
Lemma comp_short l fmts d : (length d < comp_size l)%nat -> comp_collect (packs_of l) fmts d = Raise StructError.
Proof. intros H. unfold comp_collect, unpack_from. rewrite packs_size. replace (0 + comp_size l <=? length d)%nat with false by (symmetry; apply Nat.leb_gt; lia). reflexivity. Qed.
Lemma last_nonzero (l : bytes) : last l x00 <> x00 -> exists i b, l = i ++ [b] /\ b <> x00.
Proof. destruct l as [|b i] using rev_ind; [now intros []|]. rewrite last_last. eauto. Qed.
Lemma b2z_zero b : (b2z b =? 0) = true <-> b = x00.
Proof. rewrite Z.eqb_eq. split; [|now intros ->]. intros E. rewrite <- (z2b_b2z b), E. reflexivity. Qed.
Lemma rev_pad k : rev (pad k) = pad k.
Proof. unfold pad. induction k as [|k IH]; [reflexivity|]. cbn [repeat rev]. rewrite IH. symmetry. apply repeat_cons. Qed.
Lemma strip0_any k name : last name x00 <> x00 -> strip0_rev (rev (name ++ pad k)) = Ok (rev name).
Proof.
  intros H. apply last_nonzero in H as (i & b & -> & Hb). rewrite rev_app_distr, rev_pad, rev_app_distr. unfold pad.
  induction k as [|k IH]; cbn [repeat app rev strip0_rev]; [|exact IH].
  destruct (b2z b =? 0) eqn:E; [|reflexivity]. now apply b2z_zero in E.
Qed.
Lemma strip0_inv l n : strip0_rev l = Ok n -> exists k, rev l = rev n ++ pad k /\ last (rev n) x00 <> x00.
Proof.
  revert n. induction l as [|b l IH]; intros n H; cbn [strip0_rev] in H; [discriminate|].
  destruct (b2z b =? 0) eqn:E.
  - apply b2z_zero in E as ->. apply IH in H as (k & E & K). exists (S k). split; auto. cbn [rev]. rewrite E, <- app_assoc. f_equal.
    unfold pad. cbn [repeat]. symmetry. apply repeat_cons.
  - injection H as <-. exists 0%nat. unfold pad. cbn [repeat]. rewrite app_nil_r. split; auto. cbn [rev]. rewrite last_last.
    intros ->. discriminate.
Qed.
(** a printer whose format has no mask part ignores the mask *)
Definition drops_mask (f : field) (fmt : text) : Prop :=
  match fkind f with KInt _ _ None | KLe _ _ None => fmt_nomask fmt = fmt | _ => True end.
Definition plain_fmt (f : field) (c : b2s) : Prop :=
  match c with Buint fmt | Ble fmt => drops_mask f fmt | _ => True end.

Lemma show_ok f c p hm u : b2s_for f c -> plain_fmt f c -> shows qpt (fkind f) p hm u -> run_b2s c p hm = Ok (fname f ++ $"=" ++ u).
Proof.
  intros Hc Hp H.
  assert (forall v m, good_value (fkind f) v -> good_mask (fkind f) v m -> match fkind f with KMac | KIPv4 | KIPv6 | KPkt | KChan | KPort _ | KS8 => True | _ => False end ->
    run_b2s c (v ++ mask_bytes m) (has_mask m) = Ok (text_of (Tlv f v m))) as P.
  { intros v m Hv Hm Hk. change (prints (Tlv f v m) c).
    destruct (fkind f) eqn:Ek; try destruct Hk; eauto using prints_port, prints_mac, prints_ipv4, prints_ipv6, prints_pkt, prints_chan, prints_s8. }
  unfold text_of, body in P. cbn [tfield tval tmask] in P.
  unfold b2s_for in Hc. unfold plain_fmt, drops_mask in Hp.
  remember (fkind f) as k eqn:Ek. destruct H.
  all: try (destruct Hc as (fmt & -> & h & Hh & E1 & E2); cbn [run_b2s]).
  - unfold uint_bin2str, py_format. rewrite E1, fmt_run_lits. cbn [fmt_run bind].
    rewrite (fmt_hole_number s h), be_val_spec, eq_text, app_nil_r by (auto using be_val_nonneg). reflexivity.
  - apply halves_cut in H as [-> ->]. unfold uint_bin2str, py_format. destruct E2 as (h' & Hh' & E2). rewrite E2, fmt_run_lits. cbn [fmt_run bind].
    rewrite !(fmt_hole_number s h), !(fmt_hole_number ms h'), !be_val_spec, eq_text, app_nil_r by (auto using be_val_nonneg). reflexivity.
  - apply halves_cut in H as [-> ->]. unfold uint_bin2str, py_format. rewrite <- Hp, E1, fmt_run_lits. cbn [fmt_run bind].
    rewrite (fmt_hole_number s h), be_val_spec, eq_text, app_nil_r by (auto using be_val_nonneg). reflexivity.
  - unfold le_bin2str, py_format. rewrite E1, fmt_run_lits. cbn [fmt_run bind].
    rewrite (fmt_hole_number s h), le_val_spec, eq_text, app_nil_r by (auto using le_val_nonneg). reflexivity.
  - apply halves_cut in H as [-> ->]. unfold le_bin2str, py_format. destruct E2 as (h' & Hh' & E2). rewrite E2, fmt_run_lits. cbn [fmt_run bind].
    rewrite !(fmt_hole_number s h), !(fmt_hole_number ms h'), !le_val_spec, eq_text, app_nil_r by (auto using le_val_nonneg). reflexivity.
  - apply halves_cut in H as [-> ->]. unfold le_bin2str, py_format. rewrite <- Hp, E1, fmt_run_lits. cbn [fmt_run bind].
    rewrite (fmt_hole_number s h), le_val_spec, eq_text, app_nil_r by (auto using le_val_nonneg). reflexivity.
  - specialize (P p None H I I). cbn [mask_bytes has_mask] in P. rewrite !app_nil_r in P. exact P.
  - specialize (P p None H I I). cbn [mask_bytes has_mask] in P. rewrite !app_nil_r in P. exact P.
  - exact (P v (Some m) H (conj (eq_trans H0 (eq_sym H)) I) I).
  - specialize (P p None H I I). cbn [mask_bytes has_mask] in P. rewrite !app_nil_r in P. exact P.
  - exact (P v (Some m) H (conj (eq_trans H0 (eq_sym H)) I) I).
  - specialize (P p None H I I). cbn [mask_bytes has_mask] in P. rewrite !app_nil_r in P. exact P.
  - exact (P v (Some m) H (conj (eq_trans H0 (eq_sym H)) I) I).
  - specialize (P p None H I I). cbn [mask_bytes has_mask] in P. rewrite !app_nil_r in P. exact P.
  - subst c. cbn [run_b2s]. unfold hex_bin2str. now rewrite b2a_hex_eq.
  - subst c. apply halves_cut in H as [-> ->]. cbn [run_b2s]. unfold hex_bin2str. now rewrite !b2a_hex_eq.
  - destruct Hc as [-> ->]. cbn [run_b2s]. unfold ssid_bin2str. now rewrite H.
  - destruct Hc as [-> ->]. apply halves_cut in H as [Ev ->]. cbn [run_b2s]. unfold ssid_bin2str. rewrite <- Ev, H0, strip0_any by auto. cbn [bind].
    rewrite rev_involutive, b2a_hex_eq, H2. reflexivity.
  - destruct Hc as [-> ->]. cbn [run_b2s]. unfold rate_bin2str, unpack_from. cbn [negb assert bind length calcsize fold_right fwidth Nat.add Nat.leb skipn unpack_raw firstn].
    destruct b; reflexivity.
  - specialize (P p None H I I). cbn [mask_bytes has_mask] in P. rewrite !app_nil_r in P. exact P.
  - exact (P v (Some m) H (conj (eq_trans H0 (eq_sym H)) I) I).
  - destruct Hc as (fmts & -> & HF). cbn [run_b2s]. unfold comp_bin2str. rewrite comp_collect_str by auto. reflexivity.
  - destruct Hc as (fmts & -> & HF). cbn [run_b2s]. unfold comp_bin2str. rewrite comp_collect_str by auto. cbn [bind].
    rewrite packs_size, skipn_app_exact, comp_collect_str by auto. reflexivity.
  - destruct Hc as [-> ->]. cbn [run_b2s]. unfold vht_bin2str. rewrite vht_collect_any by auto. reflexivity.
  - destruct Hc as [-> ->]. cbn [run_b2s]. unfold vht_bin2str. rewrite vht_collect_any by auto. cbn [bind].
    change (calcsize vht_packs) with 12%nat. rewrite skipn_app_exact, vht_collect_any by auto. reflexivity.
  - specialize (P [b] None eq_refl I I). cbn [mask_bytes has_mask app] in P. rewrite !app_nil_r in P. rewrite P. cbn [value_str num_be length].
    change (256 ^ Z.of_nat 0) with 1. now rewrite Z.mul_1_r, Z.add_0_r.
Qed.
Lemma show_inv f c p hm t : b2s_for f c -> run_b2s c p hm = Ok t -> exists u, shows qpt (fkind f) p hm u.
Proof.
  intros Hc H. unfold b2s_for in Hc. destruct (fkind f) as [n s m|n| | | | | | |n s m| | |l| |] eqn:Ek.
  - destruct hm; [destruct m|]; eauto using shows, cut_halves.
  - subst c. cbn [run_b2s] in H. unfold port_bin2str in H. destruct hm; [discriminate|]. cbn [negb assert bind] in H.
    destruct (Nat.eqb_spec (length p) n); [|discriminate]. eauto using shows.
  - subst c. cbn [run_b2s] in H. unfold mac_bin2str in H. destruct (mac_text6 _); [|discriminate..]. cbn [bind] in H. destruct hm.
    + destruct (Nat.eqb_spec (length p) 12) as [E|]; [|discriminate]. rewrite <- (firstn_skipn 6 p). eexists. apply s_macm; [rewrite firstn_length|rewrite skipn_length]; lia.
    + destruct (Nat.eqb_spec (length p) 6) as [E|]; [|discriminate]. eauto using shows.
  - subst c. cbn [run_b2s] in H. unfold ipv4_bin2str in H. destruct (inet_ntoa _); [|discriminate..]. cbn [bind] in H. destruct hm.
    + destruct (Nat.eqb_spec (length p) 8) as [E|]; [|discriminate]. rewrite <- (firstn_skipn 4 p). eexists. apply s_ipv4m; [rewrite firstn_length|rewrite skipn_length]; lia.
    + destruct (Nat.eqb_spec (length p) 4) as [E|]; [|discriminate]. eauto using shows.
  - subst c. cbn [run_b2s] in H. unfold ipv6_bin2str in H. destruct (inet_ntop6 _); [|discriminate..]. cbn [bind] in H. destruct hm.
    + destruct (Nat.eqb_spec (length p) 32) as [E|]; [|discriminate]. rewrite <- (firstn_skipn 16 p). eexists. apply s_ipv6m; [rewrite firstn_length|rewrite skipn_length]; lia.
    + destruct (Nat.eqb_spec (length p) 16) as [E|]; [|discriminate]. eauto using shows.
  - destruct Hc as [-> _]. cbn [run_b2s] in H. unfold pkt_bin2str in H. destruct hm; [discriminate|]. cbn [negb assert bind] in H.
    destruct (Nat.eqb_spec (length p) 4); [|discriminate]. eauto using shows.
  - destruct hm; eauto using shows, cut_halves.
  - destruct Hc as [-> _]. cbn [run_b2s] in H. unfold ssid_bin2str in H. destruct hm; [|eexists; apply s_ssid; reflexivity].
    destruct (strip0_rev _) as [n| |] eqn:E; [|discriminate..]. apply strip0_inv in E as (k & E & K). rewrite rev_involutive in E.
    eexists. eapply s_ssidm; [apply cut_halves|exact E|exact K|reflexivity].
  - destruct hm; [destruct m|]; eauto using shows, cut_halves.
  - destruct Hc as [-> _]. cbn [run_b2s] in H. unfold rate_bin2str in H. destruct hm; [discriminate|]. destruct p as [|b r]; [discriminate|]. eauto using shows.
  - destruct Hc as [-> _]. cbn [run_b2s] in H. unfold ch_bin2str in H. destruct hm.
    + destruct (Nat.eqb_spec (length p) 8) as [E|]; [|discriminate]. rewrite <- (firstn_skipn 4 p). eexists. apply s_chanm; [rewrite firstn_length|rewrite skipn_length]; lia.
    + destruct (Nat.eqb_spec (length p) 4) as [E|]; [|discriminate]. eauto using shows.
  - destruct Hc as (fmts & -> & HF). cbn [run_b2s] in H. unfold comp_bin2str in H.
    destruct (Nat.lt_ge_cases (length p) (comp_size l)) as [L|L]; [rewrite comp_short in H by auto; discriminate|].
    rewrite <- (firstn_skipn (comp_size l) p) in H |- *. assert (length (firstn (comp_size l) p) = comp_size l) as Lv by (rewrite firstn_length; lia).
    destruct hm; [|eexists; now apply s_comp]. set (v := firstn _ p) in *. set (r := skipn (comp_size l) p) in *. clearbody v r.
    rewrite comp_collect_str in H by auto. cbn [bind] in H. rewrite packs_size, skipn_app_exact in H by auto.
    destruct (Nat.lt_ge_cases (length r) (comp_size l)) as [L2|L2]; [rewrite comp_short in H by auto; discriminate|].
    rewrite <- (firstn_skipn (comp_size l) r). eexists. apply s_compm; auto. rewrite firstn_length; lia.
  - destruct Hc as [-> _]. cbn [run_b2s] in H. unfold vht_bin2str in H.
    destruct (Nat.lt_ge_cases (length p) 12) as [L|L]; [rewrite vht_short in H by auto; discriminate|].
    rewrite <- (firstn_skipn 12 p) in H |- *. assert (length (firstn 12 p) = 12%nat) as Lv by (rewrite firstn_length; lia).
    destruct hm; [|eexists; now apply s_vht]. set (v := firstn _ p) in *. set (r := skipn 12 p) in *. clearbody v r.
    rewrite vht_collect_any in H by auto. cbn [bind] in H. change (calcsize vht_packs) with 12%nat in H. rewrite skipn_app_exact in H by auto.
    destruct (Nat.lt_ge_cases (length r) 12) as [L2|L2]; [rewrite vht_short in H by auto; discriminate|].
    rewrite <- (firstn_skipn 12 r). eexists. apply s_vhtm; auto. rewrite firstn_length; lia.
  - subst c. cbn [run_b2s] in H. unfold s8_bin2str in H. destruct hm; [discriminate|]. cbn [negb assert bind] in H. unfold unpack in H.
    destruct p as [|b [|]]; try discriminate. eauto using shows.
Qed.

(** ** the printer's dictionary *)
Definition frag_field : field := Field $"nxm_icmp_type" Nxm1 26 (KInt 1 Dec (Some Dec)).
Definition shown_list_b : list field := filter (fun f => negb (misprintedb f)) registry ++ [ct_label; frag_field].
Lemma shown_in f : shown_field f <-> In f shown_list_b.
Proof.
  unfold shown_field, shown_list_b. rewrite in_app_iff, filter_In. cbn [In]. fold frag_field.
  assert (~ In (fname f) misprinted <-> negb (misprintedb f) = true) as E.
  { unfold misprintedb. rewrite negb_true_iff. split.
    - intros H. apply not_true_is_false. intros K. apply existsb_exists in K as (n & Hn & K). apply eqb_of_eq in K. now subst.
    - intros H K. assert (existsb (fun n => eqb_of text_dec n (fname f)) misprinted = true); [|congruence].
      apply existsb_exists. exists (fname f). split; auto. unfold eqb_of. now destruct (text_dec (fname f) (fname f)). }
  rewrite E. intuition (subst; auto).
Qed.
Definition plain_fmtb (f : field) (c : b2s) : bool :=
  match c with
  | Buint fmt | Ble fmt => match fkind f with KInt _ _ None | KLe _ _ None => text_eqb (fmt_nomask fmt) fmt | _ => true end
  | _ => true
  end.
Lemma plain_fmtb_fmt f c : plain_fmtb f c = true -> plain_fmt f c.
Proof.
  unfold plain_fmtb, plain_fmt, drops_mask. destruct c; auto; destruct (fkind f); auto; destruct m; auto; intros H; now apply text_eqb_eq in H.
Qed.
Lemma shown_tbl : forallb (fun f => match assoc_k (key_of f) bin2str_tbl with Some c => b2sb f c && plain_fmtb f c | None => false end) shown_list_b = true.
Proof. vm_compute. reflexivity. Qed.
Lemma shown_codec f : shown_field f -> exists c, assoc_k (key_of f) bin2str_tbl = Some c /\ b2s_for f c /\ plain_fmt f c.
Proof.
  intros H. apply shown_in in H. pose proof (proj1 (forallb_forall _ _) shown_tbl f H) as E. cbv beta in E.
  destruct (assoc_k (key_of f) bin2str_tbl) as [c|]; [|discriminate]. apply andb_prop in E as [E1 E2]. exists c. auto using b2sb_for, plain_fmtb_fmt.
Qed.
Lemma bare_tbl : map (fun f => assoc_k (key_of f) bin2str_tbl) bare = map (fun f => Some (Buint (fname f))) bare.
Proof. vm_compute. reflexivity. Qed.
Lemma bare_codec f : In f bare -> assoc_k (key_of f) bin2str_tbl = Some (Buint (fname f)).
Proof. intros H. exact (ext_in_map bare_tbl f H). Qed.
Lemma bare_fmts : forallb (fun f => segs_eqb (fmt_segs (fname f)) (map SLit (fname f)) && text_eqb (fmt_nomask (fname f)) (fname f)) bare = true.
Proof. vm_compute. reflexivity. Qed.
Lemma bare_run f p hm : In f bare -> run_b2s (Buint (fname f)) p hm = Ok (fname f).
Proof.
  intros H. pose proof (proj1 (forallb_forall _ _) bare_fmts f H) as E. apply andb_prop in E as [E1 E2].
  apply (eqb_of_eq (list_eq_dec seg_dec)) in E1. apply text_eqb_eq in E2. cbn [run_b2s]. unfold uint_bin2str, py_format. rewrite E2, E1.
  rewrite <- (app_nil_r (map SLit _)). destruct hm; rewrite fmt_run_lits; cbn [fmt_run bind]; now rewrite app_nil_r.
Qed.
(** every entry of the dictionary is one of these *)
Lemma tbl_fields : forallb (fun kc => existsb (fun f => key_eqb (key_of f) (fst kc)) (bare ++ shown_list_b)) bin2str_tbl = true.
Proof. vm_compute. reflexivity. Qed.
Lemma assoc_k_in {A} k (l : list (key * A)) c : assoc_k k l = Some c -> exists k', In (k', c) l /\ key_eqb k k' = true.
Proof.
  induction l as [|[k' v] l IH]; cbn [assoc_k]; [discriminate|]. destruct (key_eqb k k') eqn:E.
  - intros H. injection H as ->. exists k'. split; [now left|auto].
  - intros H. destruct (IH H) as (x & Hx & Ex). exists x. split; [now right|auto].
Qed.
Lemma key_eqb_eq a b : key_eqb a b = true -> a = b.
Proof. destruct a as [[] x], b as [[] y]; unfold key_eqb; cbn; intros H; try discriminate; f_equal; lia. Qed.
Lemma tbl_field k c : assoc_k k bin2str_tbl = Some c -> exists f, key_of f = k /\ (In f bare \/ shown_field f).
Proof.
  intros H. apply assoc_k_in in H as (k' & Hi & Ek). apply key_eqb_eq in Ek as <-.
  pose proof (proj1 (forallb_forall _ _) tbl_fields (k, c) Hi) as E. cbn [fst] in E. apply existsb_exists in E as (f & Hf & E).
  apply key_eqb_eq in E. exists f. split; auto. apply in_app_iff in Hf as [Hf|Hf]; [now left|right]. now apply shown_in.
Qed.
Lemma shown_num : forallb (fun f => (0 <=? fnum f) && (fnum f <? 128)) (bare ++ shown_list_b) = true.
Proof. vm_compute. reflexivity. Qed.

(** ** one entry *)
Lemma token_ok f p hm t : token_of qpt f p hm t -> exists c, assoc_k (key_of f) bin2str_tbl = Some c /\ run_b2s c p hm = Ok t /\ 0 <= fnum f < 128.
Proof.
  assert (forall f, In f bare \/ shown_field f -> 0 <= fnum f < 128) as N.
  { intros g Hg. assert (In g (bare ++ shown_list_b)) as Hi by (apply in_app_iff; destruct Hg as [Hg|Hg]; [now left|right; now apply shown_in]).
    pose proof (proj1 (forallb_forall _ _) shown_num g Hi) as E. cbv beta in E. lia. }
  intros H. destruct H as [f p hm u Hf Hs|f p hm Hf].
  - destruct (shown_codec f Hf) as (c & E & Hc & Hp). exists c. split; [exact E|]. split; [now apply show_ok|]. apply N. now right.
  - exists (Buint (fname f)). split; [now apply bare_codec|]. split; [now apply bare_run|]. apply N. now left.
Qed.
Lemma token_inv k c p hm t : assoc_k k bin2str_tbl = Some c -> run_b2s c p hm = Ok t -> exists f, key_of f = k /\ token_of qpt f p hm t /\ 0 <= fnum f < 128.
Proof.
  intros Hc H. destruct (tbl_field k c Hc) as (f & <- & [Hf|Hf]).
  - pose proof (bare_codec f Hf) as E. rewrite E in Hc. injection Hc as <-. rewrite bare_run in H by auto. injection H as <-.
    exists f. split; [reflexivity|]. split; [now apply tok_bare|]. assert (In f (bare ++ shown_list_b)) as Hi by (apply in_app_iff; now left).
    pose proof (proj1 (forallb_forall _ _) shown_num f Hi) as K. cbv beta in K. lia.
  - destruct (shown_codec f Hf) as (c' & E & Hb & Hp). rewrite E in Hc. injection Hc as ->.
    destruct (show_inv f c p hm t Hb H) as (u & Hu). pose proof (show_ok f c p hm u Hb Hp Hu) as K. rewrite K in H. injection H as <-.
    exists f. split; [reflexivity|]. split; [now apply tok_field|]. assert (In f (bare ++ shown_list_b)) as Hi by (apply in_app_iff; right; now apply shown_in).
    pose proof (proj1 (forallb_forall _ _) shown_num f Hi) as K2. cbv beta in K2. lia.
Qed.

(** ** lists *)
Lemma skipn4 {A} (a b c d : A) l n : skipn (4 + n) (a :: b :: c :: d :: l) = skipn n l.
Proof. reflexivity. Qed.
Lemma one_head a b x l r : unpack_from [sH; sB; sB] (a :: b :: x :: l :: r) 0 = Ok [num_be [a; b]; byte_val x; byte_val l].
Proof.
  unfold unpack_from. replace (0 + calcsize [sH; sB; sB] <=? length (a :: b :: x :: l :: r))%nat with true by (symmetry; apply Nat.leb_le; cbn; lia).
  cbn [skipn unpack_raw firstn]. rewrite !be_val_spec. f_equal. f_equal. f_equal; [|f_equal]; cbn [num_be length]; change (256 ^ Z.of_nat 0) with 1; lia.
Qed.
Lemma flags_of x : exists n hm, 0 <= n < 128 /\ byte_val x = 2 * n + flag_of hm.
Proof.
  pose proof (b2z_range x) as H. change (b2z x) with (byte_val x) in H. exists (byte_val x / 2), (Z.odd (byte_val x)).
  split; [split; [apply Z.div_pos; lia|apply Z.div_lt_upper_bound; lia]|]. unfold flag_of. pose proof (Z.div_mod (byte_val x) 2 ltac:(lia)).
  rewrite Zmod_odd in H0. exact H0.
Qed.
Lemma flag_of_shift n hm : Z.shiftr (2 * n + flag_of hm) 1 = n.
Proof. exact (flag_shift n hm). Qed.
Lemma flag_of_bit n hm : (Z.land (2 * n + flag_of hm) 1 =? 1) = hm.
Proof. exact (flag_bit n hm). Qed.
Lemma exp_word b : (4 <= length b)%nat -> unpack_from [sI] (x00 :: x00 :: x00 :: x00 :: b) 4 = Ok [num_be (firstn 4 b)].
Proof.
  intros H. unfold unpack_from. replace (4 + calcsize [sI] <=? _)%nat with true by (symmetry; apply Nat.leb_le; cbn; lia). cbn [skipn unpack_raw].
  now rewrite be_val_spec.
Qed.
Lemma unpack_exp a c x l b : unpack_from [sI] (a :: c :: x :: l :: b) 4 = if (4 <=? length b)%nat then Ok [num_be (firstn 4 b)] else Raise StructError.
Proof.
  unfold unpack_from. cbn [length calcsize fold_right fwidth Nat.add]. destruct (Nat.leb_spec 4 (length b)).
  - replace (8 <=? S (S (S (S (length b)))))%nat with true by (symmetry; apply Nat.leb_le; lia). cbn [skipn unpack_raw]. now rewrite be_val_spec.
  - replace (8 <=? S (S (S (S (length b)))))%nat with false by (symmetry; apply Nat.leb_gt; lia). reflexivity.
Qed.
Lemma num_be_eq b n v : length b = n -> in_bytes n v -> (num_be b = v <-> b = be n v).
Proof.
  intros Hb Hv. split; [intros <-; now rewrite be_of|]. intros ->. rewrite num_be_be. apply Z.mod_small. exact Hv.
Qed.
Lemma id4 b : (4 <= length b)%nat -> (num_be (firstn 4 b) = 0xff00e04d <-> firstn 4 b = exp_id Stratos).
Proof. intros H. apply num_be_eq; [rewrite firstn_length; lia|unfold in_bytes; lia]. Qed.
Lemma class_bytes c : be 2 (class_id c) = match c with Basic => [x80; x00] | Nxm0 => [x00; x00] | Nxm1 => [x00; x01] | Stratos => [xff; xff] end.
Proof. destruct c; reflexivity. Qed.

(** the outcome of one iteration, by class *)
Definition field_of (c : class) (x l : byte) (b : bytes) : res (text * bytes) :=
  match assoc_k (cls_of c, Z.shiftr (byte_val x) 1) bin2str_tbl with
  | Some k => t <- run_b2s k (skipn (length (exp_id c)) (firstn (Z.to_nat (byte_val l)) b)) (Z.land (byte_val x) 1 =? 1) ;;
              Ok (t, skipn (Z.to_nat (byte_val l)) b)
  | None => Raise KeyError
  end.
Lemma one_class a c x l b : oxm2str_one (a :: c :: x :: l :: b) =
  if num_be [a; c] =? 0xffff then
    if (4 <=? length b)%nat
    then if num_be (firstn 4 b) =? 0xff00e04d then field_of Stratos x l b else Ok ($"?", skipn (Z.to_nat (byte_val l)) b)
    else Raise StructError
  else if num_be [a; c] =? 0x8000 then field_of Basic x l b
  else if num_be [a; c] =? 0 then field_of Nxm0 x l b
  else if num_be [a; c] =? 1 then field_of Nxm1 x l b
  else Ok ($"?", skipn (Z.to_nat (byte_val l)) b).
Proof.
  unfold oxm2str_one. rewrite one_head. cbn [bind]. unfold oxm_dispatch, bin2str, field_of.
  assert (forall d m, slice 4 (4 + m) (d :: c :: x :: l :: b) = firstn m b) as S4.
  { intros d m. unfold slice. now replace (4 + m - 4)%nat with m by lia. }
  assert (forall d m, slice 8 (4 + m) (d :: c :: x :: l :: b) = skipn 4 (firstn m b)) as S8.
  { intros d m. unfold slice. rewrite skipn_firstn_comm. now replace (4 + m - 8)%nat with (m - 4)%nat by lia. }
  destruct (num_be [a; c] =? 0xffff).
  - rewrite unpack_exp. destruct (4 <=? length b)%nat; [|reflexivity]. cbn [bind]. destruct (num_be (firstn 4 b) =? 0xff00e04d); [|reflexivity].
    cbn [cls_of]. destruct (assoc_k _ bin2str_tbl); [|reflexivity]. cbn [bind exp_id]. rewrite S8. reflexivity.
  - destruct (num_be [a; c] =? 0x8000); [|destruct (num_be [a; c] =? 0); [|destruct (num_be [a; c] =? 1)]];
      cbn [cls_of]; try (destruct (assoc_k _ bin2str_tbl); [|reflexivity]; cbn [bind exp_id]; rewrite S4); reflexivity.
Qed.
Lemma cls_of_inj a b : cls_of a = cls_of b -> a = b.
Proof. destruct a, b; try reflexivity; discriminate. Qed.
Lemma field_inv c x l b t r : field_of c x l b = Ok (t, r) -> r = skipn (Z.to_nat (byte_val l)) b /\
  exists f hm, fclass f = c /\ x = byte_of (2 * fnum f + flag_of hm) /\ token_of qpt f (skipn (length (exp_id c)) (firstn (Z.to_nat (byte_val l)) b)) hm t.
Proof.
  unfold field_of. intros H. destruct (assoc_k _ bin2str_tbl) as [k|] eqn:Ek; [|discriminate]. destruct (run_b2s k _ _) as [t'| |] eqn:Er; [|discriminate..].
  cbn [bind] in H. injection H as -> <-. split; [reflexivity|]. destruct (flags_of x) as (n & hm & Hn & Ex). rewrite Ex, flag_of_shift in Ek. rewrite Ex, flag_of_bit in Er.
  destruct (token_inv _ _ _ _ _ Ek Er) as (f & Ef & Ht & _). unfold key_of in Ef. injection Ef as Ec En. apply cls_of_inj in Ec. exists f, hm.
  split; [exact Ec|]. split; [|exact Ht]. rewrite En, <- Ex. symmetry. apply z2b_b2z.
Qed.
Lemma field_ok f hm l b t : token_of qpt f (skipn (length (exp_id (fclass f))) (firstn (Z.to_nat (byte_val l)) b)) hm t ->
  field_of (fclass f) (byte_of (2 * fnum f + flag_of hm)) l b = Ok (t, skipn (Z.to_nat (byte_val l)) b).
Proof.
  intros H. destruct (token_ok _ _ _ _ H) as (c & Ec & Er & Hn). unfold field_of.
  assert (byte_val (byte_of (2 * fnum f + flag_of hm)) = 2 * fnum f + flag_of hm) as E by (apply byte_of_val; unfold flag_of; destruct hm; lia).
  rewrite E, flag_of_shift, flag_of_bit. unfold key_of in Ec. rewrite Ec, Er. reflexivity.
Qed.
Lemma two_bytes a c v : in_bytes 2 v -> (num_be [a; c] = v <-> [a; c] = be 2 v).
Proof. now apply num_be_eq. Qed.
Lemma go_shown fuel : forall msg ts, (length msg <= fuel)%nat -> oxm2str_go fuel true msg = Ok ts -> shown_list qpt msg ts.
Proof.
  induction fuel as [|fuel IH]; intros msg ts Hl H.
  - destruct msg; [|cbn in Hl; lia]. injection H as <-. constructor. cbn. lia.
  - cbn [oxm2str_go] in H. destruct (Nat.ltb_spec (length msg) 4) as [L|L]; [injection H as <-; now constructor|].
    destruct msg as [|a [|c [|x [|l b]]]]; try (cbn in L; lia). destruct (oxm2str_one _) as [[t r]| |] eqn:E1; [|discriminate..]. cbn [bind] in H.
    destruct (oxm2str_go fuel true r) as [ts'| |] eqn:Er; [|discriminate..]. cbn [bind] in H. injection H as <-.
    cbn [length] in Hl. assert (length (skipn (Z.to_nat (byte_val l)) b) <= fuel)%nat as Hs by (rewrite skipn_length; lia).
    rewrite one_class in E1.
    assert (forall k, [a; c] = be 2 (class_id k) -> (exists r', b = exp_id k ++ r') -> field_of k x l b = Ok (t, r) -> shown_list qpt (a :: c :: x :: l :: b) (t :: ts')) as F.
    { intros k Ek (r' & Eb) Hf. apply field_inv in Hf as [-> (f & hm & Ec & -> & Ht)]. subst k.
      change (a :: c :: byte_of (2 * fnum f + flag_of hm) :: l :: b) with ([a; c] ++ byte_of (2 * fnum f + flag_of hm) :: l :: b). rewrite Ek.
      eapply sl_field; eauto. }
    destruct (Z.eqb_spec (num_be [a; c]) 0xffff) as [E|N1].
    + apply two_bytes in E; [|unfold in_bytes; lia]. destruct (Nat.leb_spec 4 (length b)) as [L4|]; [|discriminate].
      destruct (Z.eqb_spec (num_be (firstn 4 b)) 0xff00e04d) as [E4|N4].
      * apply (F Stratos); auto. exists (skipn 4 b). apply id4 in E4; auto. rewrite <- E4. now rewrite firstn_skipn.
      * injection E1 as <- <-. change (a :: c :: x :: l :: b) with ([a; c] ++ x :: l :: b). rewrite E. apply sl_exp; auto. intros K. apply N4. now apply id4.
    + destruct (Z.eqb_spec (num_be [a; c]) 0x8000) as [E|N2]; [apply two_bytes in E; [|unfold in_bytes; lia]; apply (F Basic); auto; now exists b|].
      destruct (Z.eqb_spec (num_be [a; c]) 0) as [E|N3]; [apply two_bytes in E; [|unfold in_bytes; lia]; apply (F Nxm0); auto; now exists b|].
      destruct (Z.eqb_spec (num_be [a; c]) 1) as [E|N4]; [apply two_bytes in E; [|unfold in_bytes; lia]; apply (F Nxm1); auto; now exists b|].
      injection E1 as <- <-. apply sl_class; auto. cbn [In]. intuition congruence.
Qed.
Lemma shown_go msg ts : shown_list qpt msg ts -> forall fuel, (length msg <= fuel)%nat -> oxm2str_go fuel true msg = Ok ts.
Proof.
  intros H. induction H as [b L|f hm l b r t ts Ht Eb H IH|a c x l b ts Hn H IH|x l b ts L Hx H IH]; intros fuel Hl.
  - destruct fuel; cbn [oxm2str_go]; (destruct (Nat.ltb_spec (length b) 4); [reflexivity|lia]).
  - rewrite class_bytes in *. set (hd := match fclass f with Basic => _ | Nxm0 => _ | Nxm1 => _ | Stratos => _ end) in *.
    assert (exists a c, hd = [a; c] /\ num_be [a; c] = class_id (fclass f)) as (a & c & Eh & Ec) by (unfold hd; destruct (fclass f); eexists _, _; split; reflexivity).
    rewrite Eh in *. cbn [app length] in *. destruct fuel as [|fuel]; [lia|]. cbn [oxm2str_go]. replace (length _ <? 4)%nat with false by (symmetry; apply Nat.ltb_ge; cbn; lia).
    rewrite one_class, Ec. pose proof (field_ok f hm l b t Ht) as K.
    assert (oxm2str_go fuel true (skipn (Z.to_nat (byte_val l)) b) = Ok ts) as Er by (apply IH; rewrite skipn_length; lia).
    destruct (fclass f); cbn [class_id Z.eqb Pos.eqb]; try (rewrite K; cbn [bind]; now rewrite Er).
    assert (4 <= length b)%nat as L4 by (rewrite Eb, app_length; cbn; lia). replace (4 <=? length b)%nat with true by (symmetry; now apply Nat.leb_le).
    assert (num_be (firstn 4 b) = 0xff00e04d) as E4 by (apply id4; auto; rewrite Eb; now rewrite firstn_app_exact).
    rewrite E4. cbn [Z.eqb Pos.eqb]. rewrite K. cbn [bind]. now rewrite Er.
  - cbn [length] in Hl. destruct fuel as [|fuel]; [lia|]. cbn [oxm2str_go]. replace (length _ <? 4)%nat with false by (symmetry; apply Nat.ltb_ge; cbn; lia).
    rewrite one_class. cbn [In] in Hn. destruct (Z.eqb_spec (num_be [a; c]) 0xffff); [exfalso; intuition|]. destruct (Z.eqb_spec (num_be [a; c]) 0x8000); [exfalso; intuition|].
    destruct (Z.eqb_spec (num_be [a; c]) 0); [exfalso; intuition|]. destruct (Z.eqb_spec (num_be [a; c]) 1); [exfalso; intuition|]. cbn [bind].
    rewrite IH by (rewrite skipn_length; lia). reflexivity.
  - change (be 2 0xffff) with [xff; xff] in *. cbn [app length] in *. destruct fuel as [|fuel]; [lia|]. cbn [oxm2str_go]. replace (length _ <? 4)%nat with false by (symmetry; apply Nat.ltb_ge; cbn; lia).
    rewrite one_class. change (num_be [xff; xff] =? 0xffff) with true. cbv beta iota. replace (4 <=? length b)%nat with true by (symmetry; now apply Nat.leb_le).
    destruct (Z.eqb_spec (num_be (firstn 4 b)) 0xff00e04d) as [E4|N4]; [apply id4 in E4; auto; contradiction|]. cbn [bind].
    rewrite IH by (rewrite skipn_length; lia). reflexivity.
Qed.
Lemma oxm_shown b t : oxm2str b true = Ok t <-> exists ts, shown_list qpt b ts /\ t = sepby (chr ",") ts.
Proof.
  unfold oxm2str. split.
  - intros H. destruct (oxm2str_go _ true b) as [ts| |] eqn:E; [|discriminate..]. cbn [bind] in H. injection H as <-. exists ts. split; [now apply (go_shown (length b))|]. apply join_sepby.
  - intros (ts & H & ->). rewrite (shown_go b ts H) by auto. cbn [bind]. now rewrite <- join_sepby.
Qed.

(** ** other ways of quoting *)
Lemma shows_mono (Q R : bytes -> text -> Prop) k p hm t : (forall p t, Q p t -> R p t) -> shows Q k p hm t -> shows R k p hm t.
Proof. intros QR H. destruct H; eauto using shows. Qed.
Lemma token_mono (Q R : bytes -> text -> Prop) f p hm t : (forall p t, Q p t -> R p t) -> token_of Q f p hm t -> token_of R f p hm t.
Proof. intros QR H. destruct H; [apply tok_field; eauto using shows_mono|now apply tok_bare]. Qed.
Lemma shown_mono (Q R : bytes -> text -> Prop) b ts : (forall p t, Q p t -> R p t) -> shown_list Q b ts -> shown_list R b ts.
Proof. intros QR H. induction H; eauto using shown_list, token_mono. Qed.
Lemma shows_some (Q R : bytes -> text -> Prop) k p hm t : (forall p, exists t, R p t) -> shows Q k p hm t -> exists t', shows R k p hm t'.
Proof. intros QR H. destruct H; eauto using shows; [destruct (QR p)|destruct (QR name)]; eauto using shows. Qed.
Lemma shown_some (Q R : bytes -> text -> Prop) b ts : (forall p, exists t, R p t) -> shown_list Q b ts -> exists ts', shown_list R b ts'.
Proof.
  intros QR H. induction H as [b L|f hm l b r t ts Ht Eb H [ts' IH]|a c x l b ts Hn H [ts' IH]|x l b ts L Hx H [ts' IH]]; eauto using shown_list.
  remember (skipn (length (exp_id (fclass f))) (firstn (Z.to_nat (byte_val l)) b)) as p eqn:Ep. destruct Ht as [f p hm u Hf Hs|f p hm Hf].
  - apply (shows_some Q R) in Hs as (u' & Hs); auto. eexists. eapply sl_field; [rewrite <- Ep; apply tok_field; eauto|eauto..].
  - eexists. eapply sl_field; [rewrite <- Ep; apply tok_bare; eauto|eauto..].
Qed.
