(** Printing: each codec of oxm.py prints SpecOxm.body, which SpecOxm.writes allows. *)
From Verif Require Import Base PyNum Util PyLib OxmCodec OxmTables Oxm Spec SpecOxm.
From Verif Require Import BaseFacts UtilFacts NumFacts PyLibFacts OxmRead.
From Coq Require Import Strings.Ascii.

(** ** IPv6 notation *)
Fixpoint zp_b (l : list bool) : nat := match l with true :: l' => S (zp_b l') | _ => O end.
Fixpoint bz_b (l : list bool) : nat * nat :=
  match l with
  | [] => (0, 0)%nat
  | _ :: l' => let '(p, n) := bz_b l' in if (n <=? zp_b l)%nat then (0%nat, zp_b l) else (S p, n)
  end.
Fixpoint zr_b (ws : list bool) (i : nat) (cur best : option (nat * nat)) : option (nat * nat) :=
  match ws with
  | [] => best_upd best cur
  | w :: ws' =>
      if w then zr_b ws' (S i) (match cur with None => Some (i, 1%nat) | Some (b, l) => Some (b, S l) end) best
      else zr_b ws' (S i) None (best_upd best cur)
  end.
Definition isz (w : Z) : bool := w =? 0.
Lemma zero_prefix_b l : zero_prefix l = zp_b (map isz l).
Proof. induction l as [|w l IH]; [reflexivity|]. cbn. destruct w; cbn; auto. Qed.
Lemma best_zeros_b l : best_zeros l = bz_b (map isz l).
Proof.
  induction l as [|w l IH]; [reflexivity|].
  change (best_zeros (w :: l)) with (let '(p, n) := best_zeros l in
    if (n <=? zero_prefix (w :: l))%nat then (0%nat, zero_prefix (w :: l)) else (S p, n)).
  rewrite IH, zero_prefix_b. reflexivity.
Qed.
Lemma zero_runs_b ws : forall i c b, zero_runs ws i c b = zr_b (map isz ws) i c b.
Proof. induction ws as [|w ws IH]; intros i c b; [reflexivity|]. cbn. unfold isz at 1. destruct (w =? 0); apply IH. Qed.
Lemma best_run_zeros ws : length ws = 8%nat ->
  best_run ws = (let '(p, n) := best_zeros ws in if (n <? 2)%nat then None else Some (p, n)).
Proof.
  intros H. unfold best_run. rewrite zero_runs_b, best_zeros_b.
  assert (length (map isz ws) = 8%nat) as Hl by now rewrite map_length.
  destruct (map isz ws) as [|b0 [|b1 [|b2 [|b3 [|b4 [|b5 [|b6 [|b7 [|]]]]]]]]]; try discriminate.
  destruct b0, b1, b2, b3, b4, b5, b6, b7; reflexivity.
Qed.
Lemma ntop6_form b : length b = 16%nat -> ntop6 b =
  match best_run (words b) with
  | None => groups (words b)
  | Some (p, n) =>
      if v4_form p n (nth 5 (words b) 0)
      then 58 :: 58 :: (if Nat.eqb n 6 then [] else digits 16 65535 ++ [58]) ++ quad (skipn 12 b)
      else groups (firstn p (words b)) ++ 58 :: 58 :: groups (skipn (p + n) (words b))
  end.
Proof.
  intros Hb. unfold ntop6. destruct (wbytes_words 8 b Hb) as [Ew El].
  destruct (best_run (words b)) as [[bb l]|] eqn:Eb; [|now rewrite ntop6_go_none].
  apply best_run_sound in Eb as (Hl & a & c & Es & Ha). remember (words b) as ws.
  assert (length a + l + length c = 8)%nat as H8.
  { rewrite <- El, Es, !app_length, repeat_length. lia. }
  rewrite ntoa_quad. destruct (v4_form bb l (nth 5 ws 0)) eqn:Ev.
  - unfold v4_form in Ev. apply andb_true_iff in Ev as [E0 Ev]. apply Nat.eqb_eq in E0.
    destruct a; [|cbn in Ha; lia]. cbn [app length] in *. subst bb.
    apply orb_true_iff in Ev as [Ev|Ev].
    + apply Nat.eqb_eq in Ev. subst l. rewrite Es at 2. rewrite ntop6_go_run by lia. cbn [Nat.add].
      destruct c as [|x [|y [|]]]; cbn in H8; try lia. reflexivity.
    + apply andb_true_iff in Ev as [Ev E5]. apply Nat.eqb_eq in Ev. apply Z.eqb_eq in E5. subst l.
      rewrite Es at 2. rewrite ntop6_go_run by lia. cbn [Nat.add].
      destruct c as [|z [|x [|y [|]]]]; cbn in H8; try lia. rewrite E5.
      assert (z = 65535) as -> by (rewrite Es in E5; exact E5). reflexivity.
  - rewrite Es at 2. rewrite ntop6_go_head by lia. change (Nat.eqb 0 0) with true. cbn match.
    rewrite ntop6_go_run by lia. rewrite ntop6_go_tail by (auto; lia).
    rewrite Es, firstn_app_exact by lia.
    rewrite app_assoc, skipn_app_exact by (rewrite app_length, repeat_length; lia). f_equal.
    destruct c as [|x c]; cbn [length] in H8.
    + replace (Nat.eqb (bb + l) 8) with true by (symmetry; apply Nat.eqb_eq; lia). reflexivity.
    + replace (Nat.eqb (bb + l) 8) with false by (symmetry; apply Nat.eqb_neq; lia).
      now rewrite groups_head, app_nil_r.
Qed.
Lemma Forall_firstn {A} (P : A -> Prop) n l : Forall P l -> Forall P (firstn n l).
Proof. intros H. rewrite <- (firstn_skipn n l) in H. now apply Forall_app in H. Qed.
Lemma Forall_skipn {A} (P : A -> Prop) n l : Forall P l -> Forall P (skipn n l).
Proof. intros H. rewrite <- (firstn_skipn n l) in H. now apply Forall_app in H. Qed.
Lemma ntop6_str b : length b = 16%nat -> ntop6 b = ipv6_str b.
Proof.
  intros Hb. rewrite ntop6_form by auto. destruct (wbytes_words 8 b Hb) as [Ew El].
  rewrite best_run_zeros by auto. unfold ipv6_str. change (groups16 ?l) with (words l). pose proof (words_ok b) as Hok.
  destruct (best_zeros (words b)) as [p n]. rewrite !groups_str_eq by (auto; unfold grp_ok; auto using Forall_firstn, Forall_skipn).
  rewrite quad_ipv4. unfold v4_form.
  destruct (Nat.ltb_spec n 2).
  - replace (Nat.eqb n 5) with false by (symmetry; apply Nat.eqb_neq; lia). rewrite andb_false_r. cbn [andb].
    destruct p; auto. do 6 (destruct n as [|n]; auto). lia.
  - destruct (Nat.eqb_spec p 0) as [->|Hp]; cbn [andb].
    + destruct (Nat.eqb_spec n 6) as [->|Hn6]; [reflexivity|]. cbn [orb].
      assert (forall X Y : text, match n with 6%nat => X | _ => Y end = Y) as K.
      { intros X Y. do 6 (destruct n as [|n]; auto). destruct n; auto. lia. }
      rewrite K. destruct (Nat.eqb_spec n 5) as [->|Hn5]; cbn [andb]; [|reflexivity].
      destruct (nth 5 (words b) 0 =? 65535); reflexivity.
    + destruct p; [lia|]. reflexivity.
Qed.
Lemma inet_ntop6_str b : length b = 16%nat -> inet_ntop6 b = Ok (ipv6_str b).
Proof. intros H. unfold inet_ntop6. now rewrite H, ntop6_str. Qed.
(** what is printed is one of the allowed notations *)
Lemma ipv6_str_of b : length b = 16%nat -> ipv6_of (ipv6_str b) b.
Proof.
  intros Hb. destruct (wbytes_words 8 b Hb) as [Ew El].
  unfold ipv6_str. pose proof (best_run_zeros (words b) El) as Er. change (groups16 ?l) with (words l).
  destruct (best_zeros (words b)) as [p n] eqn:E.
  destruct (Nat.ltb_spec n 2) as [Hn|Hn].
  - replace (Nat.eqb n 5) with false by (symmetry; apply Nat.eqb_neq; lia). rewrite andb_false_r. cbn [andb].
    assert (forall X Y : text, match p with O => match n with 6%nat => X | _ => Y end | _ => Y end = Y) as K.
    { intros X Y. destruct p; auto. do 6 (destruct n as [|n]; auto). lia. }
    rewrite K. now apply ipv6_full.
  - apply best_run_sound in Er as (_ & a & c & Es & Ha).
    assert (length a + n + length c = 8)%nat as H8 by (rewrite <- El, Es, !app_length, repeat_length; lia).
    assert (length (firstn 12 b) = 12%nat) as Hf by (rewrite firstn_length; lia).
    assert (words b = words (firstn 12 b) ++ words (skipn 12 b)) as Ew2.
    { rewrite <- (words_app2 6), firstn_skipn; [auto|]. lia. }
    destruct (wbytes_words 6 (firstn 12 b) Hf) as [_ E6].
    assert (words (firstn 12 b) = firstn 6 (words b)) as Ef.
    { rewrite Ew2, firstn_app_exact by auto. reflexivity. }
    assert (ipv6_of (groups_str (firstn p (words b)) ++ $"::" ++ groups_str (skipn (p + n) (words b))) b) as Ksh.
    { apply (ipv6_short _ n); [lia|auto|]. change (groups16 ?l) with (words l); rewrite Es at 1.
      rewrite Es, firstn_app_exact by auto. rewrite app_assoc, skipn_app_exact by (rewrite app_length, repeat_length; lia).
      now rewrite <- app_assoc. }
    assert (n = 6%nat -> p = 0%nat -> ipv6_of ($"::" ++ ipv4_str (skipn 12 b)) b) as K6.
    { intros -> Hp. apply (ipv6_mapped [] 6 b); [lia|auto|]. change (groups16 ?l) with (words l); rewrite Ef, Es.
      destruct a; [reflexivity|cbn in Ha; lia]. }
    assert (n = 5%nat -> p = 0%nat -> nth 5 (words b) 0 = 65535 -> ipv6_of ($"::ffff:" ++ ipv4_str (skipn 12 b)) b) as K5.
    { intros -> Hp H5. apply (ipv6_mapped [65535] 5 b); [lia|auto|]. change (groups16 ?l) with (words l); rewrite Ef, Es.
      destruct a; [|cbn in Ha; lia]. cbn [app] in *. rewrite Es in H5.
      destruct c as [|c0 c]; [cbn in H8; lia|]. cbn in H5. subst c0. reflexivity. }
    destruct p as [|p].
    + assert (n = 6%nat \/ forall X Y : text, match n with 6%nat => X | _ => Y end = Y) as [->|K].
      { destruct (Nat.eq_dec n 6); auto. right. intros X Y. do 6 (destruct n as [|n]; auto). destruct n; auto. lia. }
      * now apply K6.
      * rewrite K. destruct (Nat.eqb_spec n 5) as [->|]; cbn [Nat.eqb andb]; [|exact Ksh].
        destruct (Z.eqb_spec (nth 5 (words b) 0) 65535); [now apply K5|exact Ksh].
    + exact Ksh.
Qed.

(** ** which codec prints a field *)
Definition hole_of (s : nstyle) (h : hole) : Prop :=
  match s, h with
  | Dec, HD => True
  | Hex w, HX w' => (w' - 2)%nat = w
  | _, _ => False
  end.
Lemma fmt_hole_number s h n : hole_of s h -> 0 <= n -> fmt_hole h n = number s n.
Proof.
  destruct s, h; cbn [hole_of fmt_hole number]; try tauto; intros H Hn.
  - apply fmt_d_dec.
  - subst. now apply fmt_x_hexw.
Qed.
Definition int_fmt (f : field) (s : nstyle) (m : option nstyle) (fmt : text) : Prop :=
  exists h, hole_of s h /\ fmt_segs (fmt_nomask fmt) = map SLit (fname f ++ $"=") ++ [SHole h] /\
  match m with
  | None => True
  | Some ms => exists h', hole_of ms h' /\
                 fmt_segs fmt = map SLit (fname f ++ $"=") ++ [SHole h; SLit 47; SHole h']
  end.
Definition b2s_for (f : field) (c : b2s) : Prop :=
  match fkind f with
  | KInt n s m => exists fmt, c = Buint fmt /\ int_fmt f s m fmt
  | KLe n s m => exists fmt, c = Ble fmt /\ int_fmt f s m fmt
  | KPort n => c = Bport (fname f) n
  | KMac => c = Bmac (fname f)
  | KIPv4 => c = Bipv4 (fname f)
  | KIPv6 => c = Bipv6 (fname f)
  | KPkt => c = Bpkt /\ fname f = $"packet_type"
  | KHex => c = Bhex (fname f)
  | KSsid => c = Bssid /\ fname f = $"dot11_ssid"
  | KRate => c = Brate /\ fname f = $"radiotap_rate"
  | KChan => c = Bch /\ fname f = $"radiotap_channel"
  | KComp l => exists fmts, c = Bcomp (fname f) (packs_of l) fmts /\
      Forall2 (fun p fmt => exists h, fmt_segs fmt = [SHole h] /\ hole_of (snd p) h) l fmts
  | KVht => c = Bvht /\ fname f = $"radiotap_vht"
  | KS8 => c = Bs8 (fname f)
  end.
Definition prints (t : tlv) (c : b2s) : Prop :=
  run_b2s c (tval t ++ mask_bytes (tmask t)) (has_mask (tmask t)) = Ok (text_of t).

Lemma fmt_run_lits t l args : fmt_run (map SLit t ++ l) args = (r <- fmt_run l args ;; Ok (t ++ r)).
Proof.
  induction t as [|c t IH]; cbn [map app fmt_run]; [destruct (fmt_run l args); reflexivity|].
  rewrite IH. destruct (fmt_run l args); reflexivity.
Qed.
Lemma half {A} (v m : list A) : length m = length v -> (length (v ++ m) / 2)%nat = length v.
Proof. intros H. rewrite app_length, H. replace (length v + length v)%nat with (length v * 2)%nat by lia. apply Nat.div_mul. lia. Qed.
Lemma be_val_nonneg l : 0 <= be_val l.
Proof. rewrite be_val_spec. apply num_be_range. Qed.
Lemma le_val_nonneg l : 0 <= le_val l.
Proof. rewrite le_val_spec. apply num_le_range. Qed.
Lemma eq_text a r : (a ++ $"=") ++ r = a ++ $"=" ++ r. Proof. now rewrite <- app_assoc. Qed.
Lemma prints_int f n s mst v m c : fkind f = KInt n s mst -> good_value (KInt n s mst) v -> good_mask (KInt n s mst) v m ->
  b2s_for f c -> prints (Tlv f v m) c.
Proof.
  intros Ek Hv Hm Hc. unfold b2s_for in Hc. rewrite Ek in Hc. destruct Hc as (fmt & -> & h & Hh & E1 & E2).
  unfold prints, text_of, body. cbn [tval tmask tfield run_b2s]. rewrite Ek. cbn [value_str mask_str].
  unfold uint_bin2str, py_format. destruct m as [m|]; cbn [has_mask mask_bytes].
  - destruct Hm as [Hl Hs]. destruct mst as [ms|]; [|destruct Hs]. destruct E2 as (h' & Hh' & E2).
    rewrite half, firstn_len_app, skipn_len_app, E2, fmt_run_lits by auto. cbn [fmt_run bind].
    rewrite !(fmt_hole_number s h), !(fmt_hole_number ms h'), !be_val_spec by (auto using be_val_nonneg).
    rewrite app_nil_r, eq_text. reflexivity.
  - rewrite app_nil_r, E1, fmt_run_lits. cbn [fmt_run bind].
    rewrite (fmt_hole_number s h), be_val_spec by (auto using be_val_nonneg). now rewrite eq_text.
Qed.
Lemma prints_le f n s mst v m c : fkind f = KLe n s mst -> good_mask (KLe n s mst) v m ->
  b2s_for f c -> prints (Tlv f v m) c.
Proof.
  intros Ek Hm Hc. unfold b2s_for in Hc. rewrite Ek in Hc. destruct Hc as (fmt & -> & h & Hh & E1 & E2).
  unfold prints, text_of, body. cbn [tval tmask tfield run_b2s]. rewrite Ek. cbn [value_str mask_str].
  unfold le_bin2str, py_format. destruct m as [m|]; cbn [has_mask mask_bytes]; [destruct Hm as [_ []]|].
  rewrite app_nil_r, E1, fmt_run_lits. cbn [fmt_run bind].
  rewrite (fmt_hole_number s h), le_val_spec by (auto using le_val_nonneg). now rewrite eq_text.
Qed.
Lemma port_name_text n v : match port_name n ofpp v with Some nm => nm | None => fmt_d v end = port_text n v.
Proof.
  unfold port_text, ofpp, reserved. cbn [port_name find fst snd]. rewrite !land_wmask, fmt_d_dec.
  repeat match goal with |- context [if ?b then _ else _] => destruct b; [reflexivity|] end. reflexivity.
Qed.
Lemma prints_port f n v m c : fkind f = KPort n -> good_value (KPort n) v -> good_mask (KPort n) v m ->
  b2s_for f c -> prints (Tlv f v m) c.
Proof.
  intros Ek Hv Hm Hc. unfold b2s_for in Hc. rewrite Ek in Hc. subst c.
  unfold prints, text_of, body. cbn [tval tmask tfield run_b2s]. rewrite Ek. cbn [value_str].
  unfold port_bin2str. destruct m as [m|]; cbn [has_mask mask_bytes]; [destruct Hm as [_ []]|].
  cbn [negb assert bind]. rewrite !app_nil_r. cbn [good_value] in Hv. rewrite Hv, Nat.eqb_refl. cbn [assert bind].
  now rewrite port_name_text, be_val_spec.
Qed.
Lemma mac_text_str l : mac_text l = mac_str l.
Proof.
  unfold mac_text, mac_str. rewrite join_sepby. chr_red. f_equal. apply map_ext. intros b. apply fmt_02x_hex2.
Qed.
Lemma prints_mac f v m c : fkind f = KMac -> good_value KMac v -> good_mask KMac v m -> b2s_for f c -> prints (Tlv f v m) c.
Proof.
  intros Ek Hv Hm Hc. unfold b2s_for in Hc. rewrite Ek in Hc. subst c.
  unfold prints, text_of, body. cbn [tval tmask tfield run_b2s]. rewrite Ek. cbn [value_str mask_str]. cbn [good_value] in Hv.
  unfold mac_bin2str, mac_text6. rewrite firstn_app_exact, Hv, <- mac_text_str by auto. cbn [Nat.eqb bind].
  destruct m as [m|]; cbn [has_mask mask_bytes].
  - destruct Hm as [Hl _]. rewrite app_length, Hl, Hv. cbn [Nat.eqb Nat.add assert bind].
    rewrite skipn_app_exact, Hl, Hv by auto. cbn [Nat.eqb bind]. now rewrite <- mac_text_str.
  - rewrite !app_nil_r, Hv. cbn [Nat.eqb assert bind]. reflexivity.
Qed.
Lemma prints_ipv4 f v m c : fkind f = KIPv4 -> good_value KIPv4 v -> good_mask KIPv4 v m -> b2s_for f c -> prints (Tlv f v m) c.
Proof.
  intros Ek Hv Hm Hc. unfold b2s_for in Hc. rewrite Ek in Hc. subst c.
  unfold prints, text_of, body. cbn [tval tmask tfield run_b2s]. rewrite Ek. cbn [value_str mask_str]. cbn [good_value] in Hv.
  unfold ipv4_bin2str. rewrite firstn_app_exact, inet_ntoa_quad, quad_ipv4 by auto. cbn [bind].
  destruct m as [m|]; cbn [has_mask mask_bytes].
  - destruct Hm as [Hl _]. rewrite app_length, Hl, Hv. cbn [Nat.eqb Nat.add assert bind].
    rewrite skipn_app_exact, inet_ntoa_quad, quad_ipv4 by (auto; congruence). reflexivity.
  - rewrite !app_nil_r, Hv. reflexivity.
Qed.
Lemma prints_ipv6 f v m c : fkind f = KIPv6 -> good_value KIPv6 v -> good_mask KIPv6 v m -> b2s_for f c -> prints (Tlv f v m) c.
Proof.
  intros Ek Hv Hm Hc. unfold b2s_for in Hc. rewrite Ek in Hc. subst c.
  unfold prints, text_of, body. cbn [tval tmask tfield run_b2s]. rewrite Ek. cbn [value_str mask_str]. cbn [good_value] in Hv.
  unfold ipv6_bin2str. rewrite firstn_app_exact, inet_ntop6_str by auto. cbn [bind].
  destruct m as [m|]; cbn [has_mask mask_bytes].
  - destruct Hm as [Hl _]. rewrite app_length, Hl, Hv. cbn [Nat.eqb Nat.add assert bind].
    rewrite skipn_app_exact, inet_ntop6_str by (auto; congruence). reflexivity.
  - rewrite !app_nil_r, Hv. reflexivity.
Qed.
Lemma prints_pkt f v m c : fkind f = KPkt -> good_value KPkt v -> good_mask KPkt v m -> b2s_for f c -> prints (Tlv f v m) c.
Proof.
  intros Ek Hv Hm Hc. unfold b2s_for in Hc. rewrite Ek in Hc. destruct Hc as [-> En].
  unfold prints, text_of, body. cbn [tval tmask tfield run_b2s]. rewrite Ek, En. cbn [value_str mask_str]. cbn [good_value] in Hv.
  unfold pkt_bin2str. destruct m as [m|]; cbn [has_mask mask_bytes]; [destruct Hm as [_ []]|].
  rewrite !app_nil_r, Hv. cbn [negb Nat.eqb assert bind].
  rewrite !fmt_x_hexw, !be_val_spec by apply be_val_nonneg. reflexivity.
Qed.
Lemma prints_hex f v m c : fkind f = KHex -> good_mask KHex v m -> b2s_for f c -> prints (Tlv f v m) c.
Proof.
  intros Ek Hm Hc. unfold b2s_for in Hc. rewrite Ek in Hc. subst c.
  unfold prints, text_of, body. cbn [tval tmask tfield run_b2s]. rewrite Ek. cbn [value_str mask_str].
  unfold hex_bin2str. destruct m as [m|]; cbn [has_mask mask_bytes].
  - destruct Hm as [Hl _]. rewrite half, firstn_len_app, skipn_len_app, !b2a_hex_eq by auto. reflexivity.
  - rewrite !app_nil_r, b2a_hex_eq. reflexivity.
Qed.
Lemma prints_s8 f v m c : fkind f = KS8 -> good_value KS8 v -> good_mask KS8 v m -> b2s_for f c -> prints (Tlv f v m) c.
Proof.
  intros Ek Hv Hm Hc. unfold b2s_for in Hc. rewrite Ek in Hc. subst c.
  unfold prints, text_of, body. cbn [tval tmask tfield run_b2s]. rewrite Ek. cbn [value_str mask_str]. cbn [good_value] in Hv.
  unfold s8_bin2str. destruct m as [m|]; cbn [has_mask mask_bytes]; [destruct Hm as [_ []]|].
  destruct v as [|b [|]]; try discriminate. cbn [negb assert bind app]. unfold unpack. cbn [calcsize fold_right fwidth Nat.add length Nat.eqb].
  cbn [unpack_raw firstn bind]. rewrite fmt_d_dec, be_val_spec, app_nil_r. reflexivity.
Qed.
Lemma prints_rate f v m c : fkind f = KRate -> good_value KRate v -> good_mask KRate v m -> b2s_for f c -> prints (Tlv f v m) c.
Proof.
  intros Ek Hv Hm Hc. unfold b2s_for in Hc. rewrite Ek in Hc. destruct Hc as [-> En].
  unfold prints, text_of, body. cbn [tval tmask tfield run_b2s]. rewrite Ek, En. cbn [value_str mask_str]. cbn [good_value] in Hv.
  unfold rate_bin2str. destruct m as [m|]; cbn [has_mask mask_bytes]; [destruct Hm as [_ []]|].
  destruct v as [|b [|]]; try discriminate. destruct b; reflexivity.
Qed.
Lemma unpack2 v : length v = 4%nat -> unpack [sH; sH] v = Ok [num_be (firstn 2 v); num_be (skipn 2 v)].
Proof.
  intros H. unfold unpack. rewrite H. cbn [calcsize fold_right fwidth Nat.add Nat.eqb].
  destruct v as [|a [|b [|c [|d [|]]]]]; try discriminate. cbn [unpack_raw firstn skipn]. now rewrite !be_val_spec.
Qed.
Lemma prints_chan f v m c : fkind f = KChan -> good_value KChan v -> good_mask KChan v m -> b2s_for f c -> prints (Tlv f v m) c.
Proof.
  intros Ek Hv Hm Hc. unfold b2s_for in Hc. rewrite Ek in Hc. destruct Hc as [-> En].
  unfold prints, text_of, body. cbn [tval tmask tfield run_b2s]. rewrite Ek, En. cbn [value_str mask_str]. cbn [good_value] in Hv.
  unfold ch_bin2str. destruct m as [m|]; cbn [has_mask mask_bytes].
  - destruct Hm as [Hl _]. rewrite Hv in Hl. rewrite app_length, Hl, Hv. cbn [Nat.eqb Nat.add assert bind].
    assert (unpack [sH; sH; sH; sH] (v ++ m) =
            Ok [num_be (firstn 2 v); num_be (skipn 2 v); num_be (firstn 2 m); num_be (skipn 2 m)]) as E.
    { unfold unpack. rewrite app_length, Hl, Hv. cbn [calcsize fold_right fwidth Nat.add Nat.eqb].
      destruct v as [|a [|b [|c [|d [|]]]]]; try discriminate. destruct m as [|a' [|b' [|c' [|d' [|]]]]]; try discriminate.
      cbn [app unpack_raw firstn skipn]. now rewrite !be_val_spec. }
    rewrite E. cbn [bind]. rewrite !fmt_x_hexw, fmt_d_dec by apply num_be_range. unfold opt_number.
    destruct (num_be (firstn 2 m) =? 0); cbn [number Nat.sub]; now rewrite <- ?app_assoc.
  - rewrite app_nil_r, Hv, unpack2 by auto. cbn [Nat.eqb assert bind]. rewrite fmt_x_hexw, fmt_d_dec by apply num_be_range.
    now rewrite app_nil_r.
Qed.

(** *** component fields *)
Lemma unpack_comp l : forall b r, length b = comp_size l ->
  exists ns, unpack_raw (packs_of l) (b ++ r) = ns /\
    forall fmts, Forall2 (fun p fmt => exists h, fmt_segs fmt = [SHole h] /\ hole_of (snd p) h) l fmts ->
      comp_items ns fmts = Ok (comp_parts l b).
Proof.
  induction l as [|[n s] l IH]; intros b r Hb.
  - exists []. split; [reflexivity|]. intros fmts H. inversion H. reflexivity.
  - cbn [comp_size fold_right fst] in Hb. fold (comp_size l) in Hb.
    cbn [packs_of map unpack_raw fst]. fold (packs_of l).
    rewrite firstn_app_le, skipn_app_le by lia.
    destruct (IH (skipn n b) r) as (ns & E & K); [rewrite skipn_length; lia|].
    eexists. split; [reflexivity|]. intros fmts H. inversion H as [|? fmt ? fmts' (h & Eh & Hh) Hr]; subst.
    cbn [comp_items comp_parts]. unfold opt_number. rewrite K by auto. rewrite le_val_spec.
    destruct (num_le (firstn n b) =? 0); [reflexivity|]. unfold py_format. rewrite Eh. cbn [fmt_run bind snd] in *.
    rewrite (fmt_hole_number s h), app_nil_r by (auto; apply num_le_range). reflexivity.
Qed.
Lemma comp_collect_str l fmts b r : length b = comp_size l ->
  Forall2 (fun p fmt => exists h, fmt_segs fmt = [SHole h] /\ hole_of (snd p) h) l fmts ->
  comp_collect (packs_of l) fmts (b ++ r) = Ok (comp_str l b).
Proof.
  intros Hb H. unfold comp_collect, unpack_from. rewrite packs_size, app_length.
  replace (0 + comp_size l <=? length b + length r)%nat with true by (symmetry; apply Nat.leb_le; lia).
  destruct (unpack_comp l b r Hb) as (ns & E & K). rewrite skipn_O, E. cbn [bind]. rewrite K by auto. cbn [bind].
  now rewrite join_sepby.
Qed.
Lemma prints_comp f l v m c : fkind f = KComp l -> good_value (KComp l) v -> good_mask (KComp l) v m -> b2s_for f c -> prints (Tlv f v m) c.
Proof.
  intros Ek Hv Hm Hc. unfold b2s_for in Hc. rewrite Ek in Hc. destruct Hc as (fmts & -> & HF).
  unfold prints, text_of, body. cbn [tval tmask tfield run_b2s]. rewrite Ek. cbn [value_str mask_str]. cbn [good_value] in Hv.
  unfold comp_bin2str. rewrite comp_collect_str by auto. cbn [bind]. destruct m as [m|]; cbn [has_mask mask_bytes].
  - destruct Hm as [Hl _]. rewrite packs_size, skipn_app_exact by auto.
    rewrite <- (app_nil_r m) at 1. rewrite comp_collect_str by (auto; congruence). reflexivity.
  - now rewrite app_nil_r.
Qed.

(** *** VHT *)
Lemma vht_collect_str v r : good_value KVht v -> vht_collect (v ++ r) = Ok (vht_str v).
Proof.
  intros [Hl Hz].
  destruct v as [|b0 [|b1 [|b2 [|b3 [|b4 [|b5 [|b6 [|b7 [|b8 [|b9 [|b10 [|b11 [|]]]]]]]]]]]]]; try discriminate.
  unfold vht_collect, unpack_from. rewrite app_length.
  replace (0 + calcsize vht_packs <=? _)%nat with true by (symmetry; apply Nat.leb_le; cbn; lia).
  cbn [app skipn vht_packs unpack_raw firstn bind]. unfold vht_str. cbn [firstn skipn] in *. rewrite Hz.
  rewrite !le_val_spec. unfold opt_number.
  assert (forall l, (0 <? num_le l) = negb (num_le l =? 0)) as Ep.
  { intros l. pose proof (num_le_range l). destruct (Z.ltb_spec 0 (num_le l)), (Z.eqb_spec (num_le l) 0); cbn; lia. }
  rewrite !Ep, !fmt_x_hexw, !fmt_d_dec by apply num_le_range.
  assert (forall b, num_le [b] = b2z b) as E1 by (intros b; cbn [num_le]; change (byte_val b) with (b2z b); lia).
  assert (num_le [b4] + num_le [b5] + num_le [b6] + num_le [b7] =? 0 = false) as Es.
  { rewrite !E1. pose proof (b2z_range b4). pose proof (b2z_range b5). pose proof (b2z_range b6). pose proof (b2z_range b7).
    apply Z.eqb_neq. intros E. assert (all_zero [b4; b5; b6; b7] = true); [|congruence].
    unfold all_zero. cbn [forallb]. change byte_val with b2z.
    replace (b2z b4) with 0 by lia. replace (b2z b5) with 0 by lia. replace (b2z b6) with 0 by lia. replace (b2z b7) with 0 by lia. reflexivity. }
  rewrite Es. cbn [negb].
  rewrite !(E1 b4), !(E1 b5), !(E1 b6), !(E1 b7), !fmt_02x_hex2. cbn [sepby hex_string flat_map]. chr_red.
  unfold byte_hex. fold (hex2 b4) (hex2 b5) (hex2 b6) (hex2 b7).
  destruct (num_le [b0; b1] =? 0), (num_le [b2] =? 0), (num_le [b8] =? 0); cbn [negb number Nat.sub];
    rewrite ?app_nil_r, <- ?app_assoc; reflexivity.
Qed.
Lemma prints_vht f v m c : fkind f = KVht -> good_value KVht v -> good_mask KVht v m -> b2s_for f c -> prints (Tlv f v m) c.
Proof.
  intros Ek Hv Hm Hc. unfold b2s_for in Hc. rewrite Ek in Hc. destruct Hc as [-> En].
  unfold prints, text_of, body. cbn [tval tmask tfield run_b2s]. rewrite Ek, En. cbn [value_str mask_str].
  unfold vht_bin2str. rewrite vht_collect_str by auto. cbn [bind]. destruct m as [m|]; cbn [has_mask mask_bytes].
  - destruct Hm as [_ Hm]. rewrite skipn_app_exact by apply Hv. rewrite <- (app_nil_r m) at 1. rewrite vht_collect_str by auto. reflexivity.
  - now rewrite app_nil_r.
Qed.

(** *** SSID *)
Lemma b2a_qp_go_plain crlf s : forall linelen out, Forall plain s -> (linelen + length s <= 76)%nat ->
  (linelen = 0%nat -> s <> [46]) -> b2a_qp_go crlf linelen out s = rev out ++ s.
Proof.
  induction s as [|c s IH]; intros linelen out Hs Hl H46; cbn [b2a_qp_go]; [now rewrite app_nil_r|].
  inversion Hs as [|? ? Hc Hs']; subst. unfold plain in Hc.
  assert (match s with [] => True | n :: _ => 33 <= n <= 126 end) as Hn.
  { destruct s as [|n s]; [auto|]. inversion Hs' as [|? ? Hn]; subst. unfold plain in Hn. lia. }
  assert (qp_quote linelen c match s with [] => None | n :: _ => Some n end = false) as Eq.
  { unfold qp_quote. assert ((c =? 46) && Nat.eqb linelen 0 && match match s with [] => None | n :: _ => Some n end with
      | Some n => (n =? 10) || (n =? 13) || (n =? 0) | None => true end = false) as E.
    { destruct s as [|n s].
      - rewrite andb_true_r. destruct (Z.eqb_spec c 46); [|reflexivity]. subst. destruct (Nat.eqb_spec linelen 0); [|reflexivity].
        exfalso. now apply H46.
      - replace ((n =? 10) || (n =? 13) || (n =? 0)) with false by lia. apply andb_false_r. }
    rewrite E. replace ((c =? 9) || (c =? 32)) with false by lia. cbn [andb]. lia. }
  rewrite Eq. replace (c =? 10) with false by lia. replace (c =? 13) with false by lia. cbn [orb andb].
  cbn [length] in Hl.
  replace (match match s with [] => None | n :: _ => Some n end with Some n => negb (n =? 10) | None => false end && (76 <=? linelen + 1)%nat) with false.
  2:{ destruct s as [|n s]; [reflexivity|]. cbn [length] in Hl. replace (76 <=? linelen + 1)%nat with false by (symmetry; apply Nat.leb_gt; lia). now rewrite andb_false_r. }
  rewrite IH; [|auto|lia|lia]. cbn [rev]. now rewrite <- app_assoc.
Qed.
Lemma b2a_qp_plain v : Forall plain (map byte_val v) -> (length v <= 76)%nat -> v <> [x2e] -> b2a_qp v = map byte_val v.
Proof.
  intros H Hl Hn. unfold b2a_qp. change b2z with byte_val. rewrite b2a_qp_go_plain; [reflexivity| | |].
  - exact H.
  - rewrite map_length. lia.
  - intros _ E. apply Hn. destruct v as [|b [|]]; try discriminate. injection E as E. f_equal. apply b2z_inj. exact E.
Qed.
Lemma b2a_qp_safe v : Forall safe_byte v -> (length v <= 32)%nat -> v <> [x2e] -> b2a_qp v = map byte_val v.
Proof.
  intros H Hl Hn. apply b2a_qp_plain; auto; [|lia]. apply Forall_map. eapply Forall_impl; [|exact H]. intros b Hb. now apply safe_plain.
Qed.
Lemma safe_nonzero b : safe_byte b -> (byte_val b =? 0) = false.
Proof. intros H. apply safe_plain in H as [H _]. unfold plain in H. lia. Qed.
Lemma strip0_pad k v : v <> [] -> Forall safe_byte v -> strip0_rev (rev (v ++ pad k)) = Ok (rev v).
Proof.
  intros Hn H. rewrite rev_app_distr. unfold pad. replace (rev (repeat x00 k)) with (repeat x00 k).
  2:{ induction k as [|k IH]; [reflexivity|]. cbn [repeat rev]. rewrite <- IH. apply repeat_cons. }
  induction k as [|k IH]; cbn [repeat app]; [|exact IH].
  destruct v as [|b v] using rev_ind; [congruence|]. rewrite rev_app_distr. cbn [rev app strip0_rev].
  apply Forall_app in H as [_ H]. inversion H; subst. change (b2z b) with (byte_val b). now rewrite safe_nonzero.
Qed.
Lemma filter_pad k v : Forall safe_byte v -> filter (fun b => negb (byte_val b =? 0)) (v ++ pad k) = v.
Proof.
  intros H. induction H as [|b v Hb Hv IH]; cbn [app filter].
  - induction k as [|k IH]; [reflexivity|]. exact IH.
  - rewrite safe_nonzero by auto. cbn [negb]. now rewrite IH.
Qed.
Lemma last_pad k v : last (v ++ pad (S k)) x00 = x00.
Proof.
  unfold pad. cbn [repeat]. rewrite repeat_cons, app_assoc. apply last_last.
Qed.
Lemma prints_ssid f v m c : fkind f = KSsid -> good_value KSsid v -> good_mask KSsid v m -> b2s_for f c -> prints (Tlv f v m) c.
Proof.
  intros Ek (name & k & -> & Hn & Hl & Hs & Hd) Hm Hc. unfold b2s_for in Hc. rewrite Ek in Hc. destruct Hc as [-> En].
  unfold prints, text_of, body. cbn [tval tmask tfield run_b2s]. rewrite Ek, En. cbn [value_str mask_str]. rewrite filter_pad by auto.
  unfold ssid_bin2str. destruct m as [m|]; cbn [has_mask mask_bytes].
  - destruct Hm as [Hlm _]. rewrite half, firstn_len_app, skipn_len_app, strip0_pad by auto. cbn [bind].
    rewrite rev_involutive, b2a_qp_safe, b2a_hex_eq by auto. reflexivity.
  - cbn [good_mask] in Hm. destruct k as [|k]; [|now rewrite last_pad in Hm].
    change (pad 0) with (@nil byte). rewrite !app_nil_r, b2a_qp_safe by auto. reflexivity.
Qed.

Lemma prints_good t c : good t -> b2s_for (tfield t) c -> prints t c.
Proof.
  destruct t as [f v m]. intros (_ & Hv & Hm & _) Hc. cbn [tfield tval tmask] in *.
  destruct (fkind f) eqn:Ek; eauto using prints_int, prints_le, prints_port, prints_mac, prints_ipv4, prints_ipv6, prints_pkt,
    prints_hex, prints_ssid, prints_rate, prints_chan, prints_comp, prints_vht, prints_s8.
Qed.

(** ** the printed body is one of the ways of writing it *)
Lemma mac_str_of v : length v = 6%nat -> mac_of (mac_str v) v.
Proof.
  intros H. destruct v as [|a [|b [|c [|d [|e [|f [|]]]]]]]; try discriminate. unfold mac_str. cbn [map].
  apply mac_colons. exact (byte_hexes_pairs [a; b; c; d; e; f]).
Qed.
Lemma num_le_in n v : length v = n -> in_bytes n (num_le v).
Proof. intros <-. apply num_le_range. Qed.
Lemma num_be_in n v : length v = n -> in_bytes n (num_be v).
Proof. intros <-. apply num_be_range. Qed.
Lemma be_of n v : length v = n -> be n (num_be v) = v.
Proof. intros <-. apply be_num_be. Qed.
Lemma le_of n v : length v = n -> le n (num_le v) = v.
Proof. intros <-. apply le_num_le. Qed.
Lemma comp_str_of l : forall v, length v = comp_size l -> comp_of l (comp_parts l v) v.
Proof.
  induction l as [|[n s] l IH]; intros v Hv.
  - destruct v; [constructor|discriminate].
  - cbn [comp_size fold_right fst] in Hv. fold (comp_size l) in Hv. cbn [comp_parts].
    assert (length (firstn n v) = n) as Hn by (rewrite firstn_length; lia).
    rewrite <- (firstn_skipn n v) at 3. rewrite <- (le_of n (firstn n v) Hn) at 2.
    constructor; [| |apply IH; rewrite skipn_length; lia].
    + unfold opt_number. destruct (Z.eqb_spec (num_le (firstn n v)) 0) as [->|]; [constructor|].
      constructor. apply number_literal. apply num_le_range.
    + now apply num_le_in.
Qed.
Lemma opt_number_literal s n : 0 <= n -> opt_literal (opt_number s n) n.
Proof. intros H. unfold opt_number. destruct (Z.eqb_spec n 0) as [->|]; [constructor|constructor; now apply number_literal]. Qed.
Lemma vht_str_of v : good_value KVht v -> vht_of (vht_str v) v.
Proof.
  intros [Hl Hz].
  destruct v as [|b0 [|b1 [|b2 [|b3 [|b4 [|b5 [|b6 [|b7 [|b8 [|b9 [|b10 [|b11 [|]]]]]]]]]]]]]; try discriminate.
  unfold vht_str. cbn [firstn skipn] in *. rewrite Hz.
  change [b0; b1; b2; b3; b4; b5; b6; b7; b8; b9; b10; b11] with
    ([b0; b1] ++ [b2] ++ [b3] ++ [b4; b5; b6; b7] ++ [b8] ++ [b9] ++ [b10; b11]).
  rewrite <- (le_of 2 [b0; b1] eq_refl) at 2. rewrite <- (le_of 1 [b2] eq_refl) at 2. rewrite <- (le_of 1 [b3] eq_refl) at 2.
  rewrite <- (le_of 1 [b8] eq_refl) at 2. rewrite <- (le_of 1 [b9] eq_refl) at 2. rewrite <- (le_of 2 [b10; b11] eq_refl) at 2.
  pose proof num_le_range as R.
  constructor; try (now apply num_le_in); try (apply opt_number_literal; apply R); try reflexivity;
    try (apply opt_some; first [apply dec_literal | apply hexw_literal; apply R]).
  apply hex_string_of.
Qed.
Lemma port_text_writes n v : length v = n -> writes (KPort n) (port_text n (num_be v)) v None.
Proof.
  intros Hv. unfold port_text. destruct (find _ reserved) as [[p [lo up]]|] eqn:E.
  - apply find_some in E as [Hin E]. cbn [fst] in E. apply Z.eqb_eq in E.
    rewrite <- (be_of n v Hv), <- E, be_mod. eapply w_port_name; eauto.
  - rewrite <- (be_of n v Hv) at 2. constructor; [apply dec_literal|now apply num_be_in].
Qed.
Lemma mask_pad_same v m : length m = length v -> mask_pad v m = (v, Some m).
Proof. intros H. unfold mask_pad. rewrite H, Nat.sub_diag. unfold pad. cbn [repeat]. now rewrite !app_nil_r. Qed.
Lemma cut2 (v : bytes) n : v = firstn n v ++ skipn n v.
Proof. symmetry. apply firstn_skipn. Qed.
Definition wide_kind (k : kind) : Prop := match k with KComp l => (2 <= length l)%nat | _ => True end.
Lemma good_writes t : good_value (fkind (tfield t)) (tval t) -> good_mask (fkind (tfield t)) (tval t) (tmask t) ->
  wide_kind (fkind (tfield t)) -> writes (fkind (tfield t)) (body t) (tval t) (tmask t).
Proof.
  destruct t as [f v m]. unfold body. cbn [tfield tval tmask]. intros Hv Hm Hw.
  destruct (fkind f) as [n s ms|n| | | | | | |n s ms| | |l| | ] eqn:Ek; cbn [value_str mask_str good_value wide_kind] in *;
    (destruct m as [m|]; cbn [good_mask] in Hm; [destruct Hm as [Hl Hm]; try tauto|]); rewrite ?app_nil_r.
  - destruct ms as [ms|]; [|tauto]. rewrite <- (be_of n v Hv) at 2. rewrite <- (be_of n m) at 2 by congruence.
    constructor; apply number_literal; apply num_be_range.
  - rewrite <- (be_of n v Hv) at 2. constructor; apply number_literal; apply num_be_range.
  - now apply port_text_writes.
  - constructor; apply mac_str_of; congruence.
  - constructor; now apply mac_str_of.
  - constructor; split; congruence.
  - constructor; split; congruence.
  - constructor; apply ipv6_str_of; congruence.
  - constructor; now apply ipv6_str_of.
  - rewrite (cut2 v 2) at 3. assert (length (firstn 2 v) = 2%nat) as H1 by (rewrite firstn_length; lia).
    assert (length (skipn 2 v) = 2%nat) as H2 by (rewrite skipn_length; lia).
    rewrite <- (be_of 2 _ H1) at 2. rewrite <- (be_of 2 _ H2) at 2.
    constructor; try (now apply num_be_in); apply hexw_literal; apply num_be_range.
  - pose proof (w_hexm _ _ _ _ (hex_string_of v) (hex_string_of m)) as W. rewrite mask_pad_same in W by auto. exact W.
  - constructor; auto. apply hex_string_of.
  - destruct Hv as (nm & k & -> & Hn & Hk & Hs & Hd). rewrite filter_pad by auto.
    assert (exists m1, m = m1) as [m1 E] by eauto.
    pose proof (w_ssidm nm _ _ Hs (hex_string_of m)) as W. unfold mask_pad in W.
    unfold pad in Hl; rewrite app_length, repeat_length in Hl. rewrite Hl in W.
    replace (length nm + k - length nm)%nat with k in W by lia. replace (length nm - (length nm + k))%nat with 0%nat in W by lia.
    change (pad 0) with (@nil byte) in W. cbn [fst snd] in W. rewrite app_nil_r in W. exact W.
  - destruct Hv as (nm & k & -> & Hn & Hk & Hs & Hd). destruct k as [|k]; [|now rewrite last_pad in Hm].
    rewrite filter_pad by auto. change (pad 0) with (@nil byte). rewrite app_nil_r. now constructor.
  - rewrite <- (le_of n v Hv) at 2. constructor; apply number_literal; apply num_le_range.
  - rewrite <- (be_of 1 v Hv) at 2. constructor. pose proof (num_be_range v). rewrite Hv in *. cbn in *. lia.
  - assert (length (firstn 2 v) = 2%nat) as H1 by (rewrite firstn_length; lia).
    assert (length (skipn 2 v) = 2%nat) as H2 by (rewrite skipn_length; lia).
    assert (length (firstn 2 m) = 2%nat) as H3 by (rewrite firstn_length; lia).
    assert (length (skipn 2 m) = 2%nat) as H4 by (rewrite skipn_length; lia).
    rewrite (cut2 v 2) at 3. rewrite (cut2 m 2) at 3.
    rewrite <- (be_of 2 _ H1) at 2. rewrite <- (be_of 2 _ H2) at 2. rewrite <- (be_of 2 _ H3) at 2. rewrite <- (be_of 2 _ H4) at 2.
    rewrite <- !app_assoc.
    constructor; try (now apply num_be_in);
      first [apply dec_literal | apply hexw_literal; apply num_be_range | apply opt_number_literal; apply num_be_range].
  - assert (length (firstn 2 v) = 2%nat) as H1 by (rewrite firstn_length; lia).
    assert (length (skipn 2 v) = 2%nat) as H2 by (rewrite skipn_length; lia).
    rewrite (cut2 v 2) at 3. rewrite <- (be_of 2 _ H1) at 2. rewrite <- (be_of 2 _ H2) at 2.
    constructor; try (now apply num_be_in); first [apply dec_literal | apply hexw_literal; apply num_be_range].
  - unfold comp_str. constructor; auto; apply comp_str_of; congruence.
  - unfold comp_str. constructor; auto; apply comp_str_of; congruence.
  - constructor; now apply vht_str_of.
  - constructor; now apply vht_str_of.
  - assert (be 1 (signed (num_be v)) = v) as E.
    { rewrite <- (be_of 1 v Hv) at 2. unfold signed. destruct (num_be v <? 128); [reflexivity|].
      rewrite <- be_mod, <- (be_mod 1 (num_be v)). f_equal. change (256 ^ Z.of_nat 1) with 256.
      rewrite <- (Z_mod_plus_full (num_be v - 256) 1 256). f_equal. lia. }
    rewrite <- E at 2. constructor; [apply dec_literal|]. pose proof (num_be_range v) as R. rewrite Hv in R. cbn in R.
    unfold signed. destruct (Z.ltb_spec (num_be v) 128); lia.
Qed.
