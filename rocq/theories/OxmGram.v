(** Match texts: whatever the reader takes is a list of fields, each with a value in the
    notation of its type. *)
From Verif Require Import Base PyNum Util PyLib OxmCodec OxmTables Oxm Spec SpecOxm SpecRate SpecText.
From Verif Require Import BaseFacts UtilFacts NumFacts PyLibFacts OxmRead OxmPrint OxmFacts OxmFrame OxmMore ActFrame FloatFacts RateFacts GramLib.
From Coq Require Import Strings.Ascii.

(** what a codec may get: a token or an unfinished one, as [get_token] cuts it *)
Definition cutting (p : text) : Prop := (token p \/ unfinished_token p) /\ (p = [] \/ solid p).
Lemma cutting_token p : cutting p -> get_token p = ([], p, []).
Proof.
  assert (lead []) as L. { left. constructor. }
  intros [Ht [->|Hs]]; [reflexivity|]. destruct Ht as [Ht|Ht].
  - pose proof (get_token_complete [] p [] L Ht Hs I) as E. cbn [app] in E. now rewrite app_nil_r in E.
  - exact (get_token_unfinished [] p L Ht Hs).
Qed.
Definition noted (f : field) (p : text) (b : bytes) : Prop := exists v m, b = wire (Tlv f v m) /\ notation (fkind f) p v m.
Lemma at_next l (u : text) c r : skipn l u = c :: r -> skipn l u = c :: skipn (l + 1) u.
Proof. revert u. induction l as [|l IH]; intros [|x u]; cbn; try discriminate; [now intros [= <- <-]|]. apply IH. Qed.
Lemma slash_at l (u : text) : startswith $"/" (skipn l u) = true -> skipn l u = 47 :: skipn (l + 1) u.
Proof. intros H. apply startswith_iff in H as [r E]. exact (at_next l u 47 r E). Qed.
Lemma colon_at l (u : text) : startswith $":" (skipn l u) = true -> skipn l u = 58 :: skipn (l + 1) u.
Proof. intros H. apply startswith_iff in H as [r E]. exact (at_next l u 58 r E). Qed.
Lemma nth_at l (u : text) c : py_nth u l = Ok c -> skipn l u = c :: skipn (l + 1) u.
Proof.
  unfold py_nth. revert u. induction l as [|l IH]; intros [|x u]; cbn; try discriminate; [now intros [= <-]|]. intros H. now apply IH.
Qed.
Lemma whole (p a : text) n : p = a ++ skipn n p -> length a = n -> length p = n -> p = a.
Proof. intros E H1 H2. rewrite skipn_all2 in E by lia. now rewrite app_nil_r in E. Qed.

Lemma noted_int f n s ms p b : 0 <= fnum f < 128 -> fkind f = KInt n s ms ->
  uint_str2bin (key_of f) n (AText p) = Ok (b, length p) -> noted f p b.
Proof.
  intros Hf Ek H. unfold uint_str2bin in H. mon H. destruct a as [num rlen]. apply parsed in Ea as (u & Eu & Hl & Hu). unfold noted. rewrite Ek.
  destruct (startswith _ _) eqn:Es.
  - mon H. destruct a as [num2 e]. apply parsed in Ea as (u' & Eu' & Hl' & Hu'). apply slash_at in Es.
    rewrite !be_bytes_spec, hdr_cat_mask in H by (auto using be_length). injection H as <- Hp. eexists _, _. split; [reflexivity|].
    rewrite Es in Eu. rewrite Eu, (whole (skipn (rlen + 1) p) u' e); auto; [|rewrite skipn_length; lia]. now apply n_intm.
  - rewrite !be_bytes_spec, hdr_cat_plain in H by (auto using be_length). injection H as <- Hp. eexists _, _. split; [reflexivity|].
    rewrite (whole p u rlen) by auto. now apply n_int.
Qed.
Lemma noted_le f n s ms p b : 0 <= fnum f < 128 -> fkind f = KLe n s ms -> n <> 0%nat ->
  le_str2bin (key_of f) n (AText p) = Ok (b, length p) -> noted f p b.
Proof.
  intros Hf Ek Hn H. unfold le_str2bin in H. mon H. destruct a as [num rlen]. apply parsed in Ea as (u & Eu & Hl & Hu). unfold noted. rewrite Ek.
  destruct (startswith _ _).
  - mon H. destruct a as [num2 e]. destruct n; [congruence|discriminate].
  - rewrite !le_bytes_spec, hdr_cat_plain in H by (auto using le_length). injection H as <- Hp. eexists _, _. split; [reflexivity|].
    rewrite (whole p u rlen) by auto. now apply n_le.
Qed.
Lemma port_scan_inv u v l : port_scan u = Some (v, l) -> exists lo up, In (v, (lo, up)) reserved /\ length lo = l /\ length up = l /\ (startswith lo u = true \/ startswith up u = true).
Proof.
  assert (forall ps acc, fold_left (fun r (pn : Z * text) => let '(v, nm) := pn in if startswith (lower nm) u || startswith (upper nm) u then Some (v, length nm) else r) ps acc = Some (v, l) ->
    acc = Some (v, l) \/ exists nm, In (v, nm) ps /\ length nm = l /\ startswith (lower nm) u || startswith (upper nm) u = true) as F.
  { induction ps as [|[p nm] ps IH]; cbn [fold_left]; intros acc H; [now left|]. apply IH in H as [H|(nm' & Hin & H)].
    - destruct (startswith (lower nm) u || startswith (upper nm) u) eqn:E; [|now left]. injection H as <- <-. right. exists nm. repeat split; auto. now left.
    - right. exists nm'. split; [now right|auto]. }
  intros H. apply F in H as [H|(nm & Hin & <- & Hs)]; [discriminate|]. apply orb_true_iff in Hs.
  exists (lower nm), (upper nm). repeat split; [|unfold lower; now rewrite map_length|unfold upper; now rewrite map_length|auto].
  repeat (destruct Hin as [[= <- <-]|Hin]; [vm_compute; tauto|]). destruct Hin.
Qed.
Lemma noted_port f n p b : 0 <= fnum f < 128 -> fkind f = KPort n ->
  port_str2bin (key_of f) n (AText p) = Ok (b, length p) -> noted f p b.
Proof.
  intros Hf Ek H. unfold port_str2bin in H. unfold noted. rewrite Ek. destruct (port_scan p) as [[v l]|] eqn:E.
  - cbn [bind] in H. mon H. apply pack_u_inv in Ea as (Hr & b' & Eb & ->). apply pack_nil_inv in Eb as ->. rewrite app_nil_r, land_wmask, be_mod in H.
    rewrite hdr_cat_plain in H by (auto using be_length). injection H as <- Hp. eexists _, _. split; [reflexivity|].
    apply port_scan_inv in E as (lo & up & Hin & Hlo & Hup & Hs). apply (n_port_name n p v lo up Hin).
    destruct Hs as [Hs|Hs]; [left|right]; apply startswith_iff in Hs as [r ->]; rewrite app_length in Hp; (destruct r; [now rewrite app_nil_r|cbn in Hp; lia]).
  - mon H. destruct a as [num rlen]. apply parsed in Ea as (u & Eu & Hl & Hu). mon H. apply pack_u_inv in Ea as (Hr & b' & Eb & ->). apply pack_nil_inv in Eb as ->.
    rewrite app_nil_r, hdr_cat_plain in H by (auto using be_length). injection H as <- Hp. eexists _, _. split; [reflexivity|].
    rewrite (whole p u rlen) by auto. now apply n_port.
Qed.
Lemma noted_mac f p b : 0 <= fnum f < 128 -> fkind f = KMac ->
  mac_str2bin (key_of f) (AText p) = Ok (b, length p) -> noted f p b.
Proof.
  intros Hf Ek H. unfold mac_str2bin in H. mon H. destruct a as [value rlen]. apply mac_scan_inv in Ea as (u & Eu & Hl & Hv & Hu). unfold noted. rewrite Ek.
  destruct (startswith _ _) eqn:Es.
  - mon H. destruct a as [mask l]. apply mac_scan_inv in Ea as (u' & Eu' & Hl' & Hv' & Hu'). mon H. apply slash_at in Es.
    apply a2b_app in Ea as (b1 & b2 & E1 & E2 & ->); [|now rewrite Hv]. pose proof (a2b_length _ _ E1). pose proof (a2b_length _ _ E2).
    rewrite hdr_cat_mask in H by (auto; lia). injection H as <- Hp. eexists _, _. split; [reflexivity|].
    rewrite Es in Eu. rewrite Eu, (whole (skipn (rlen + 1) p) u' l); auto; [|rewrite skipn_length; lia]. apply n_macm; auto.
  - mon H. pose proof (a2b_length _ _ Ea). rewrite hdr_cat_plain in H by (auto; lia). injection H as <- Hp. eexists _, _. split; [reflexivity|].
    rewrite (whole p u rlen) by auto. apply n_mac; auto.
Qed.
Lemma flat_openers s : Forall flat s -> forall c, In c s -> ~ opener c.
Proof. intros H c Hc. apply flat_not_opener. rewrite Forall_forall in H. auto. Qed.
Lemma noted_ipv4 f p b : 0 <= fnum f < 128 -> fkind f = KIPv4 -> cutting p ->
  ipv4_str2bin (key_of f) (AText p) = Ok (b, length p) -> noted f p b.
Proof.
  intros Hf Ek Hc H. unfold ipv4_str2bin in H. rewrite (cutting_token p Hc) in H. pose proof (split1_spec 47 p) as S. destruct (split1 47 p) as [v [m|]];
    mon H; pose proof (inet_aton_length _ _ Ea) as L; unfold noted; rewrite Ek; apply inet_aton_inv in Ea as [Ha Hfl].
  - mon H. apply ipv4_mask_inv in Ea. pose proof (inet_aton_length _ _ Ea) as L'. destruct S as [-> _].
    rewrite hdr_cat_mask in H by auto. injection H as <-. eexists _, _. split; [reflexivity|]. apply n_ipv4m; [auto|].
    apply inet_aton_inv in Ea as [Ha' _]; [auto|]. pose proof (token_tight _ (proj1 Hc)) as T. change (v ++ 47 :: m) with (v ++ [47] ++ m) in T. rewrite app_assoc in T.
    apply tight_after in T; [auto|]. intros c Hin. apply in_app_or in Hin as [Hin|[<-|[]]]; [exact (flat_openers v Hfl c Hin)|]. apply plain_not_opener. unfold plain. lia.
  - destruct S as [-> _]. apply (tight_before v (47 :: m)). apply token_tight, (proj1 Hc).
  - destruct S as [-> _]. rewrite hdr_cat_plain in H by auto. injection H as <-. eexists _, _. split; [reflexivity|]. now apply n_ipv4.
  - destruct S as [-> _]. apply token_tight, (proj1 Hc).
Qed.
Lemma noted_ipv6 f p b : 0 <= fnum f < 128 -> fkind f = KIPv6 -> cutting p ->
  ipv6_str2bin (key_of f) (AText p) = Ok (b, length p) -> noted f p b.
Proof.
  intros Hf Ek Hc H. unfold ipv6_str2bin in H. rewrite (cutting_token p Hc) in H. pose proof (split1_spec 47 p) as S. destruct (split1 47 p) as [v [m|]];
    mon H; pose proof (inet_pton6_length _ _ Ea) as L; unfold noted; rewrite Ek; apply inet_pton6_inv in Ea; destruct S as [-> _].
  - mon H. apply ipv6_mask_inv in Ea0. assert (length a0 = 16%nat) as L'.
    { destruct Ea0 as [[us l Ht Hl|us x vs y n Hu Hv Hn Hl]|[_ ->]]; auto. }
    rewrite hdr_cat_mask in H by auto. injection H as <-. eexists _, _. split; [reflexivity|]. now apply n_ipv6m.
  - rewrite hdr_cat_plain in H by auto. injection H as <-. eexists _, _. split; [reflexivity|]. now apply n_ipv6.
Qed.
Lemma pack22 a c b : pack [sH; sH] [a; c] = Ok b -> in_bytes 2 a /\ in_bytes 2 c /\ b = be 2 a ++ be 2 c.
Proof. intros H. apply pack_u_inv in H as (H1 & b' & H & ->). apply pack_u_inv in H as (H2 & b'' & H & ->). apply pack_nil_inv in H as ->. rewrite app_nil_r. auto. Qed.
Lemma noted_pkt f p b : 0 <= fnum f < 128 -> key_of f = OFB "packet_type" -> fkind f = KPkt ->
  pkt_str2bin (AText p) = Ok (b, length p) -> noted f p b.
Proof.
  intros Hf Hk Ek H. unfold pkt_str2bin in H. rewrite <- Hk in H. mon H. destruct a as [ns l]. apply parsed in Ea as (u & Eu & Hl & Hu).
  mon H. mon H. apply nth_at in Ea. apply Z.eqb_eq in Eb as ->. destruct a0 as [nt l2]. apply parsed in Ea0 as (u' & Eu' & Hl' & Hu').
  mon H. apply pack22 in Ea0 as (H1 & H2 & ->). unfold noted. rewrite Ek.
  rewrite hdr_cat_plain in H by (auto; now rewrite app_length, !be_length). injection H as <- Hp. eexists _, _. split; [reflexivity|].
  rewrite Ea in Eu. rewrite Eu, (whole (skipn (l + 1) p) u' l2); auto; [|rewrite skipn_length; lia]. now apply n_pkt.
Qed.
Lemma noted_hex f p b : 0 <= fnum f < 128 -> fkind f = KHex -> cutting p ->
  hex_str2bin (key_of f) (AText p) = Ok (b, length p) -> noted f p b.
Proof.
  intros Hf Ek Hc H. unfold hex_str2bin in H. rewrite (cutting_token p Hc) in H. pose proof (split1_spec 47 p) as S. destruct (split1 47 p) as [v [m|]];
    mon H; unfold noted; rewrite Ek; apply a2b_hex_inv in Ea; destruct S as [-> _].
  - mon H. apply a2b_hex_inv in Ea0. rewrite mask_pad_wire in H by auto. injection H as <-. eexists _, _. split; [reflexivity|]. now apply n_hexm.
  - rewrite hdr_cat_plain in H by auto. injection H as <-. eexists _, _. split; [reflexivity|]. now apply n_hex.
Qed.
Lemma qp_skip s : (exists x s', s = x ++ 10 :: s' /\ ~ In 10 x /\ a2b_qp_go true s = a2b_qp_go false s') \/ ~ In 10 s /\ a2b_qp_go true s = [].
Proof.
  induction s as [|c s IH]; [right; auto|]. cbn [a2b_qp_go]. destruct (Z.eqb_spec c 10) as [->|Hc]; cbn [negb].
  - left. exists [], s. auto.
  - destruct IH as [(x & s' & -> & Hx & E)|[Hx E]]; [left|right].
    + exists (c :: x), s'. repeat split; auto. intros [->|K]; auto.
    + split; auto. intros [->|K]; auto.
Qed.
Lemma qp_sound n : forall s, (length s <= n)%nat -> Forall seven_bit s -> qp s (a2b_qp_go false s).
Proof.
  induction n as [|n IH]; intros [|c s] Hl Ha; cbn [length] in Hl; try lia; try constructor.
  inversion Ha as [|? ? Hc Ha']; subst. cbn [a2b_qp_go]. destruct (Z.eqb_spec c 61) as [->|Hn].
  2:{ change (z2b c) with (byte_of c). apply qp_char; auto. apply IH; auto. lia. }
  destruct s as [|d s]; [exact qp_end|]. cbn [length] in Hl. inversion Ha' as [|? ? Hd Ha2]; subst.
  destruct (Z.eqb_spec d 10) as [->|H10]; [apply qp_lf, IH; auto; lia|].
  destruct (Z.eqb_spec d 13) as [->|H13].
  { destruct (qp_skip s) as [(x & s' & -> & Hx & ->)|[Hx ->]].
    - apply Forall_app in Ha2 as [Hxa Ha2]. inversion Ha2; subst. rewrite app_length in Hl. cbn [length] in Hl. apply qp_cr; auto. apply IH; auto. lia.
    - now apply qp_cr_end. }
  destruct (Z.eqb_spec d 61) as [->|H61]; [change (z2b 61) with (byte_of (chr "=")); apply qp_equal, IH; auto; lia|].
  destruct s as [|e s].
  { change (z2b 61) with (byte_of (chr "=")). apply qp_lone; auto; [intros (_ & e & s' & E & _); discriminate|]. apply IH; auto. cbn. lia. }
  inversion Ha2; subst. cbn [length] in Hl. destruct (is_hex d && is_hex e) eqn:E.
  - apply andb_true_iff in E as [E1 E2]. apply qp_byte; [|apply IH; auto; lia]. apply is_hex_digit in E1, E2. rewrite Z.mul_comm. exact (pair_hex d e _ _ E1 E2).
  - change (z2b 61) with (byte_of (chr "=")). apply qp_lone; auto; [|apply IH; auto; cbn; lia].
    intros (Hd' & e' & s' & [= <- <-] & He). apply is_hex_iff in Hd', He. rewrite Hd', He in E. discriminate.
Qed.
Lemma a2b_qp_inv s b : a2b_qp s = Ok b -> qp s b.
Proof.
  unfold a2b_qp. destruct (forallb is_ascii s) eqn:E; [|discriminate]. intros [= <-]. apply (qp_sound (length s)); auto.
  apply Forall_forall. intros c Hc. rewrite forallb_forall in E. apply E in Hc. unfold is_ascii in Hc. unfold seven_bit. lia.
Qed.
Lemma split_sepby_all c s : sepby c (split_all c s) = s /\ split_all c s <> [] /\ Forall (fun t => ~ In c t) (split_all c s).
Proof.
  induction s as [|x s (IH & Hn & Hf)]; cbn [split_all]; [repeat split; [discriminate|repeat constructor; auto]|].
  destruct (Z.eqb_spec x c) as [->|Hx].
  - repeat split; [rewrite sepby_cons by auto; cbn; now rewrite IH|discriminate|constructor; auto].
  - destruct (split_all c s) as [|h t]; [congruence|]. inversion Hf as [|? ? H1 H2]. repeat split; [|discriminate|constructor; auto].
    + rewrite <- IH. destruct t; reflexivity.
    + intros [E|E]; auto.
Qed.
Lemma noted_ssid f p b : 0 <= fnum f < 128 -> key_of f = STR "dot11_ssid" -> fkind f = KSsid -> cutting p ->
  ssid_str2bin (AText p) = Ok (b, length p) -> noted f p b.
Proof.
  intros Hf Hk Ek Hc H. unfold ssid_str2bin in H. rewrite <- Hk, (cutting_token p Hc) in H. destruct (split_sepby_all 47 p) as (Ep & Hn & Hs).
  destruct (split_all 47 p) as [|v l] eqn:El; [congruence|]. cbn [py_nth nth_error bind] in H. mon H. inversion Hs as [|? ? Hv Hs']. subst.
  unfold noted. rewrite Ek. destruct l as [|m l]; cbn [nth_error] in H.
  - rewrite hdr_cat_plain in H by auto. injection H as <-. eexists _, _. split; [reflexivity|]. apply n_ssid; [auto|]. now apply a2b_qp_inv.
  - mon H. apply a2b_hex_inv in Ea0. rewrite mask_pad_wire in H by auto. injection H as <-. eexists _, _. split; [reflexivity|].
    rewrite sepby_cons by discriminate.
    assert (exists r, sepby 47 (m :: l) = m ++ r /\ (r = [] \/ exists r', r = 47 :: r')) as (r & -> & Hr).
    { destruct l; [exists []; rewrite app_nil_r; auto|]. rewrite sepby_cons by discriminate. eexists. split; [reflexivity|right; eauto]. }
    apply (n_ssidm v a m a0 r); auto. now apply a2b_qp_inv.
Qed.
Lemma noted_s8 f p b : 0 <= fnum f < 128 -> fkind f = KS8 ->
  s8_str2bin (key_of f) (AText p) = Ok (b, length p) -> noted f p b.
Proof.
  intros Hf Ek H. unfold s8_str2bin in H. mon H. destruct a as [num rlen]. apply parsed in Ea as (u & Eu & Hl & Hu). mon H. cbn [pack] in Ea.
  destruct ((-128 <=? num) && (num <? 128)) eqn:Er; [|discriminate]. apply andb_true_iff in Er as [R1 R2]. apply Z.leb_le in R1. apply Z.ltb_lt in R2.
  rewrite <- byte_of_z2b in Ea. injection Ea as <-. unfold noted. rewrite Ek. rewrite hdr_cat_plain in H by auto. injection H as <- Hp.
  exists (be 1 num), None. split; [reflexivity|]. rewrite (whole p u rlen) by auto. apply n_s8; auto.
Qed.
Lemma noted_chan f p b : 0 <= fnum f < 128 -> key_of f = STR "channel" -> fkind f = KChan ->
  ch_str2bin (AText p) = Ok (b, length p) -> noted f p b.
Proof.
  intros Hf Hk Ek H. unfold ch_str2bin in H. rewrite <- Hk in H. mon H. destruct a as [v1 l]. apply parsed in Ea as (u & Eu & Hl & Hu).
  mon H. mon H. apply nth_at in Ea. apply Z.eqb_eq in Eb as ->. destruct a0 as [v2 l2]. apply parsed in Ea0 as (u' & Eu' & Hl' & Hu').
  mon H. apply pack22 in Ea0 as (H1 & H2 & ->). unfold noted. rewrite Ek. rewrite Ea in Eu.
  rewrite skipn_skipn in Eu'. replace (l2 + (l + 1))%nat with (l + 1 + l2)%nat in Eu' by lia. set (k := (l + 1 + l2)%nat) in *.
  destruct (startswith $"/" (skipn k p)) eqn:Es.
  - apply slash_at in Es. rewrite Es in Eu'.
    assert (forall m1 m2 x, in_bytes 2 m1 -> in_bytes 2 m2 -> p = u ++ 58 :: u' ++ 47 :: x -> notation KChan (u ++ $":" ++ u' ++ $"/" ++ x) (be 2 v1 ++ be 2 v2) (Some (be 2 m1 ++ be 2 m2)) ->
      b = wire (Tlv f (be 2 v1 ++ be 2 v2) (Some (be 2 m1 ++ be 2 m2))) ->
      exists v m, b = wire (Tlv f v m) /\ notation KChan p v m) as F.
    { intros m1 m2 x _ _ -> Hn ->. eexists _, _. split; [reflexivity|exact Hn]. }
    assert (p = u ++ 58 :: u' ++ 47 :: skipn (k + 1) p) as Ep by (rewrite Eu at 1; now rewrite Eu' at 1).
    assert (forall m1 m2 r, pack [sH; sH] [m1; m2] = Ok r -> in_bytes 2 m1 /\ in_bytes 2 m2 /\ r = be 2 m1 ++ be 2 m2) as P by (intros; now apply pack22).
    mon H. destruct a as [m1 l3]. mon H. destruct a as [m2 rlen2]. mon H. apply P in Ea2 as (R1 & R2 & ->).
    rewrite hdr_cat_mask in H by (auto; now rewrite app_length, !be_length). injection H as <- Hp.
    refine (F m1 m2 _ R1 R2 Ep _ eq_refl).
    assert (exists x, skipn (k + 1) p = x ++ skipn (k + 1 + l3) p /\ length x = l3 /\ opt_literal x m1 /\ (x = [] -> startswith $":" (skipn (k + 1 + l3) p) = true)
      /\ (x <> [] -> literal x m1)) as (x & Ex & Hx & Ho & Hx1 & Hx2).
    { destruct (startswith $":" (skipn (k + 1) p)) eqn:Ec.
      - injection Ea0 as <- <-. exists []. rewrite Nat.add_0_r. repeat split; auto; [constructor|congruence].
      - apply parsed in Ea0 as (x & Ex & Hx & Hlx). exists x. rewrite skipn_skipn in Ex. replace (l3 + (k + 1))%nat with (k + 1 + l3)%nat in Ex by lia.
        repeat split; auto; [now constructor|]. intros ->. apply literal_tidy in Hlx as [_ Hlx]. congruence. }
    destruct (startswith $":" (skipn (k + 1 + l3) p)) eqn:Ec.
    + mon Ea1. destruct a as [m2' l4]. apply parsed in Ea2 as (y & Ey & Hy & Hly). injection Ea1 as <- <-. apply colon_at in Ec. rewrite Ec in Ex.
      rewrite Ex, (whole (skipn (k + 1 + l3 + 1) p) y l4); auto; [|rewrite skipn_length; lia]. now apply n_chanm.
    + injection Ea1 as <- <-. rewrite (whole (skipn (k + 1) p) x l3); auto; [| |rewrite skipn_length; lia].
      * apply n_chanf; auto. apply Hx2. intros ->. specialize (Hx1 eq_refl). congruence.
      * rewrite skipn_skipn. now replace (l3 + (k + 1))%nat with (k + 1 + l3)%nat by lia.
  - rewrite hdr_cat_plain in H by (auto; now rewrite app_length, !be_length). injection H as <- Hp. eexists _, _. split; [reflexivity|].
    assert (skipn k p = []) as E0 by (apply skipn_all2; lia). rewrite E0, app_nil_r in Eu'. rewrite Eu, Eu'. now apply n_chan.
Qed.
Lemma pack_l_inv n v fs vs b : pack (FL n :: fs) (v :: vs) = Ok b -> in_bytes n v /\ exists b', pack fs vs = Ok b' /\ b = le n v ++ b'.
Proof.
  cbn [pack]. destruct (in_range n v) eqn:E; [|discriminate]. intros H. mon H. injection H as <-. rewrite le_bytes_spec. apply in_range_256 in E. split; eauto.
Qed.
Lemma comp_item_inv t v : comp_item t = Ok v -> opt_literal t v.
Proof.
  destruct t as [|c t]; cbn [comp_item]; [intros [= <-]; constructor|]. intros H. mon H. destruct a as [w l]. destruct (Nat.eqb_spec (length (c :: t)) l) as [E|]; [|discriminate H].
  cbn [assert bind] in H. injection H as <-. subst l. apply opt_some. now apply parsed_all.
Qed.
Lemma comp_parse_inv l t b : comp_parse (packs_of l) t = Ok b -> exists us, t = sepby 58 us /\ comp_of l us b.
Proof.
  unfold comp_parse. intros H. mon H. destruct (split_sepby_all 58 t) as (<- & _ & _). exists (split_all 58 t).
  split; [destruct (split_sepby_all 58 t) as (-> & _); reflexivity|]. revert l a b Ea H. induction (split_all 58 t) as [|u us IH]; cbn [mapM]; intros l a b Ea H.
  - injection Ea as <-. destruct l as [|[n s] l]; [|discriminate]. injection H as <-. constructor.
  - mon Ea. mon Ea. injection Ea as <-. destruct l as [|[n s] l]; [discriminate|]. change (packs_of ((n, s) :: l)) with (FL n :: packs_of l) in H.
    apply pack_l_inv in H as (Hr & b' & H & ->). constructor; auto; [now apply comp_item_inv|]. now apply (IH l a1).
Qed.
Lemma comp_of_size l us b : comp_of l us b -> length b = comp_size l.
Proof. induction 1; cbn; rewrite ?app_length, ?le_length; auto. Qed.
Lemma noted_comp f l p b : 0 <= fnum f < 128 -> fkind f = KComp l -> cutting p ->
  comp_str2bin (key_of f) (packs_of l) (AText p) = Ok (b, length p) -> noted f p b.
Proof.
  intros Hf Ek Hc H. unfold comp_str2bin in H. rewrite packs_size, (cutting_token p Hc) in H. pose proof (split1_spec 47 p) as S. destruct (split1 47 p) as [v [m|]];
    mon H; unfold noted; rewrite Ek; destruct S as [-> _]; apply comp_parse_inv in Ea as (us & -> & Hu); pose proof (comp_of_size _ _ _ Hu).
  - mon H. apply comp_parse_inv in Ea as (us' & -> & Hu'). pose proof (comp_of_size _ _ _ Hu'). rewrite hdr_cat_mask in H by auto. injection H as <-.
    eexists _, _. split; [reflexivity|]. now apply n_compm.
  - rewrite hdr_cat_plain in H by auto. injection H as <-. eexists _, _. split; [reflexivity|]. now apply n_comp.
Qed.
Lemma vht_items_inv ts : forall i vs, vht_items i ts = Ok vs -> vht_numbers i ts vs.
Proof.
  induction ts as [|t ts IH]; intros i vs H; cbn [vht_items] in H; [injection H as <-; constructor|]. mon H. mon H. injection H as <-. apply IH in Ea0.
  destruct (Nat.eqb_spec i 3) as [->|Hi].
  - mon Ea. injection Ea as <-. apply a2b_hex_inv in Ea1. now apply vht_hex.
  - destruct t as [|c t]; [injection Ea as <-; cbn [app]; apply vht_num; auto; constructor|]. mon Ea. destruct a1 as [v l]. injection Ea as <-. apply parseInt_reads in Ea1.
    apply vht_num; auto. econstructor. eassumption.
Qed.
Lemma vht_parse_inv t b : vht_parse t = Ok b -> vht_any t b /\ length b = 12%nat.
Proof.
  unfold vht_parse. intros H. mon H. split; [|now apply pack_length in H]. apply vht_items_inv in Ea. exists (split_all 58 t), a.
  destruct (split_sepby_all 58 t) as (E & _ & Hno). split; [auto|]. split; [auto|]. split; [auto|]. clear Ea E. unfold vht_packs in H.
  do 10 (destruct a as [|? a]; [discriminate H|]; apply pack_l_inv in H as (? & ? & H & ->)). destruct a; [|discriminate]. injection H as <-.
  split; [repeat (apply Forall2_cons; [assumption|]); constructor|]. cbn [le_list]. reflexivity.
Qed.
Lemma noted_vht f p b : 0 <= fnum f < 128 -> key_of f = STR "vht" -> fkind f = KVht -> cutting p ->
  vht_str2bin (AText p) = Ok (b, length p) -> noted f p b.
Proof.
  intros Hf Hk Ek Hc H. unfold vht_str2bin in H. change (calcsize vht_packs) with 12%nat in H. rewrite <- Hk, (cutting_token p Hc) in H. pose proof (split1_spec 47 p) as S. destruct (split1 47 p) as [v [m|]];
    mon H; unfold noted; rewrite Ek; destruct S as [-> S]; apply vht_parse_inv in Ea as [Ha Hl].
  - mon H. apply vht_parse_inv in Ea as [Ha' Hl']. rewrite hdr_cat_mask in H by auto. injection H as <-. eexists _, _. split; [reflexivity|]. now apply n_vhtm.
  - rewrite hdr_cat_plain in H by auto. injection H as <-. eexists _, _. split; [reflexivity|]. now apply n_vht.
Qed.
Lemma digit_not c b : digit_in b c -> c <> 75 /\ c <> 77 /\ c <> 46.
Proof. intros (d & E & _). repeat split; intros ->; discriminate E. Qed.
Lemma nth_in_digits ds r n (c : Z) : Forall (digit_in 10) ds -> (n < length ds)%nat -> py_nth (ds ++ r) n = Ok c -> digit_in 10 c.
Proof.
  intros Hd Hn H. unfold py_nth in H. rewrite nth_error_app1 in H by auto. destruct (nth_error ds n) eqn:E; [|discriminate]. injection H as <-.
  apply nth_error_In in E. rewrite Forall_forall in Hd. auto.
Qed.
Lemma parseFloat_inv u n l : parseFloat u = Ok (n, l) ->
  exists s ds r, u = s ++ ds ++ r /\ (s = [] \/ s = [45]) /\ numeral 10 ds /\
    (l = length ds /\ n = PInt (value 10 ds) \/ exists fs r', r = 46 :: fs ++ r' /\ numeral 10 fs /\ l = (length ds + length fs + 1)%nat /\ exists x, n = PFlt x /\ dec_float (value 10 ds) (value 10 fs) (Z.of_nat (length fs)) = Ok x).
Proof.
  intros H. unfold parseFloat in H. cbv zeta in H.
  assert (exists s t, u = s ++ t /\ (s = [] \/ s = [45]) /\ (if startswith $"-" u then skipn 1 u else u) = t) as (s & t & -> & Hs & Et).
  { destruct (startswith $"-" u) eqn:E; [|exists [], u; auto]. apply startswith_iff in E as [r ->]. exists [45], r. auto. }
  rewrite Et in H. clear Et. mon H. destruct (int_longest 10 is_dec t a ltac:(lia) is_dec_iff Ea) as (ds & r & -> & Hn & _ & Hl & ->). rewrite Hl in *.
  exists s, ds, r. repeat split; auto; try apply Hn. rewrite skipn_app, skipn_all, Nat.sub_diag in H. cbn [skipn app] in H.
  destruct (startswith $"." r) eqn:E; [|injection H as <- <-; now left]. apply startswith_iff in E as [r0 ->]. right.
  change (ds ++ $"." ++ r0) with (ds ++ 46 :: r0) in H. rewrite skipn_one in H. mon H.
  replace (length ds + longest r0 is_dec + 1)%nat with (length ds + 1 + longest r0 is_dec)%nat in Ea0 by lia. rewrite slice_skip, skipn_one in Ea0.
  destruct (int_longest 10 is_dec r0 a ltac:(lia) is_dec_iff Ea0) as (fs & r' & -> & Hn' & _ & Hl' & ->). rewrite Hl' in *.
  mon H. mon H. mon H. injection H as <- <-. exists fs, r'. split; [reflexivity|]. split; [exact Hn'|]. split; [lia|]. eexists. split; [reflexivity|]. unfold dec_float. now rewrite Ea1, Ea2, Ea3.
Qed.
Lemma noted_rate f p b : 0 <= fnum f < 128 -> key_of f = STR "rate" -> fkind f = KRate ->
  rate_str2bin (AText p) = Ok (b, length p) -> noted f p b.
Proof.
  intros Hf Hk Ek H. unfold rate_str2bin in H. rewrite <- Hk in H. mon H. destruct a as [num rlen]. apply parseFloat_inv in Ea as (s & ds & r & -> & Hs & Hd & Hn).
  mon H. mon H. mon H. pose proof (pack_length _ _ _ Ea1) as Hl1. apply pack_u_inv in Ea1 as (R & b' & Eb & ->). apply pack_nil_inv in Eb as ->. rewrite app_nil_r in *.
  rewrite hdr_cat_plain in H by (auto using be_length). injection H as <- Hp. unfold noted. rewrite Ek. eexists _, _. split; [reflexivity|]. apply n_rate.
  assert (a = 75 \/ a = 77) as Hc.
  { destruct (Z.eqb_spec a 75); [auto|]. destruct (Z.eqb_spec a 77); [auto|discriminate]. }
  assert (forall b0, digit_in b0 a -> False) as Hnd. { intros b0 Hb. apply digit_not in Hb. lia. }
  destruct Hs as [->| ->].
  - cbn [app] in *. destruct Hn as [[-> ->]|(fs & r' & -> & Hfs & -> & x & -> & Hx)].
    + apply nth_at in Ea. rewrite skipn_app, skipn_all, Nat.sub_diag in Ea. cbn [skipn app] in Ea. rewrite skipn_all2 in Ea by lia. subst r.
      destruct Hc as [-> | ->]; cbn [Z.eqb Pos.eqb OxmCodec.rate_k OxmCodec.rate_m] in Ea0.
      * apply int_500_val in Ea0 as ->. now apply rate_k.
      * injection Ea0 as <-. rewrite Z.mul_comm in *. now apply rate_m.
    + apply nth_at in Ea. rewrite skipn_all2 with (n := (length ds + length fs + 1 + 1)%nat) in Ea by lia.
      replace (ds ++ 46 :: fs ++ r') with ((ds ++ 46 :: fs) ++ r') in Ea by (rewrite <- app_assoc; reflexivity).
      replace (length ds + length fs + 1)%nat with (length (ds ++ 46 :: fs)) in Ea by (rewrite app_length; cbn [length]; lia). rewrite skipn_app, skipn_all, Nat.sub_diag in Ea.
      cbn [skipn app] in Ea. subst r'. change (rate_of a (PFlt x) = Ok a0) in Ea0.
      destruct (dec_ok _ _ _ x (value_pos 10 ds ltac:(lia)) (value_pos 10 fs ltac:(lia)) (Nat2Z.is_nonneg _) Hx) as (y & Dy & Hy). { intros ->. now apply inf_rate in Ea0. }
      destruct (unit_ok _ _ _ _ Hy Ea0) as (z & [[-> Rz]|[-> Rz]] & ->); [now apply (rate_frac_k ds fs y)|now apply (rate_frac_m ds fs y)].
  - exfalso. destruct Hn as [[-> ->]|(fs & r' & -> & Hfs & -> & x & -> & Hx)].
    + destruct ds as [|d0 ds] using rev_ind; [now destruct Hd|]. clear IHds. apply (Hnd 10). rewrite app_length in Ea. cbn [length] in Ea. rewrite Nat.add_1_r in Ea.
      change (py_nth (([45] ++ (ds ++ [d0])) ++ r) (S (length ds)) = Ok a) in Ea || rewrite app_assoc in Ea.
      unfold py_nth in Ea. cbn [nth_error app] in Ea. rewrite <- app_assoc, nth_error_app2, Nat.sub_diag in Ea by lia. cbn in Ea. injection Ea as <-.
      destruct Hd as [_ Hd]. apply Forall_app in Hd as [_ Hd]. now inversion Hd.
    + destruct fs as [|d0 fs] using rev_ind; [now destruct Hfs|]. clear IHfs. apply (Hnd 10). rewrite app_length in Ea. cbn [length] in Ea.
      replace (length ds + (length fs + 1) + 1)%nat with (S (length (ds ++ 46%Z :: fs))) in Ea by (rewrite app_length; cbn; lia).
      unfold py_nth in Ea. cbn [nth_error app] in Ea. replace (ds ++ 46 :: (fs ++ [d0]) ++ r') with ((ds ++ 46 :: fs) ++ d0 :: r') in Ea by (rewrite <- !app_assoc; reflexivity).
      rewrite nth_error_app2, Nat.sub_diag in Ea by lia. cbn in Ea. injection Ea as <-. destruct Hfs as [_ Hd']. apply Forall_app in Hd' as [_ Hd']. now inversion Hd'.
Qed.

(** ** one field *)
Lemma noted_field f p b : In f accepted_fields -> cutting p -> run_s2b (s2b_of f) (AText p) = Ok (b, length p) -> noted f p b.
Proof.
  intros Hf Hc H. pose proof (fnum_reg f Hf) as Hn. pose proof (own_key_reg f Hf) as Hk. unfold s2b_of in H.
  pose proof (proj1 (forallb_forall _ _) le_widths f Hf) as Hle. cbv beta in Hle.
  destruct (fkind f) eqn:Ek; cbn [run_s2b own_key] in *; symmetry in Hk.
  - eapply noted_int; eassumption.
  - eapply noted_port; eassumption.
  - eapply noted_mac; eassumption.
  - eapply noted_ipv4; eassumption.
  - eapply noted_ipv6; eassumption.
  - eapply noted_pkt; eassumption.
  - eapply noted_hex; eassumption.
  - eapply noted_ssid; eassumption.
  - eapply noted_le; try eassumption. destruct n; [discriminate|auto].
  - eapply noted_rate; eassumption.
  - eapply noted_chan; eassumption.
  - eapply noted_comp; eassumption.
  - eapply noted_vht; eassumption.
  - eapply noted_s8; eassumption.
Qed.
(** only a byte string or an SSID can be read from nothing *)
Lemma comp_sizes : forallb (fun f => match fkind f with KComp l => (2 <=? length l)%nat | _ => true end) accepted_fields = true.
Proof. vm_compute. reflexivity. Qed.
Lemma comp_of_nil l us b : comp_of l us b -> sepby 58 us = [] -> (length l <= 1)%nat.
Proof. intros [|n s l0 u v us0 b0 Hu Hv H]; cbn; [lia|]. inversion H; subst; cbn [length]; [lia|]. intros E. cbn [sepby] in E. destruct u; discriminate. Qed.
Lemma hdr_cat_len k n m p r b l : hdr_cat k n m p r = Ok (b, l) -> l = r.
Proof. unfold hdr_cat. intros H. mon H. now injection H. Qed.
Lemma parsed_pos u v l : parseInt u = Ok (v, l) -> l <> 0%nat.
Proof. intros H. apply parsed in H as (p & _ & <- & Hp). apply literal_tidy in Hp as [_ Hp]. now destruct p. Qed.
Lemma c_number_nil v : ~ c_number [] v.
Proof. intros H. inversion H as [| |ds [Hn _] _]; congruence. Qed.
Lemma aton_nil n l : ~ aton n [] l.
Proof.
  intros H. inversion H as [n' u v Hu Hv|n' u v r l' Hu Hv Hr E]; subst; [now apply c_number_nil in Hu|]. destruct u; discriminate.
Qed.
Lemma ipv6_nil l : ~ ipv6_any [] l.
Proof.
  intros H. inversion H as [us l' Ht Hl E|us a vs c n Hu Hv Hn Hl E]; subst.
  - destruct (tail_first us l Ht) as [->|(c & r & E' & _)]; [inversion Ht; subst; discriminate|]. change (chr ":") with 58 in E. congruence.
  - destruct (sepby (chr ":") us); discriminate.
Qed.
Lemma nothing_field f p b : In f accepted_fields -> cutting p -> run_s2b (s2b_of f) (AText p) = Ok (b, 0%nat) -> p = [] /\ (fkind f = KHex \/ fkind f = KSsid).
Proof.
  intros Hf Hc H. pose proof (noted_field f p b Hf Hc) as N. pose proof (proj1 (forallb_forall _ _) comp_sizes f Hf) as Hcs. cbv beta in Hcs.
  unfold s2b_of in H, N.
  assert (forall (x : nat), x = (length (@nil Z) + length p)%nat -> x = 0%nat -> p = [] /\ length p = 0%nat) as Z0. { intros x -> E. destruct p; [auto|discriminate]. }
  destruct (fkind f) eqn:Ek; cbn [run_s2b] in *.
  - exfalso. unfold uint_str2bin in H. mon H. destruct a as [v l]. apply parsed_pos in Ea. destruct (startswith _ _); [mon H; destruct a|]; apply hdr_cat_len in H; lia.
  - exfalso. unfold port_str2bin in H. mon H. destruct a as [v l]. mon H. apply hdr_cat_len in H. subst l. destruct (port_scan p) as [[v' l]|] eqn:E; [|now apply parsed_pos in Ea].
    injection Ea as _ ->. apply port_scan_inv in E as (lo & up & Hin & Hl & _). repeat (destruct Hin as [[= <- <- <-]|Hin]; [discriminate|]). destruct Hin.
  - exfalso. unfold mac_str2bin in H. mon H. destruct a as [v l].
    assert (l <> 0%nat). { unfold mac_scan, mac_rxs in Ea. cbn [mac_scan_go] in Ea. repeat match type of Ea with match ?x with Some _ => _ | None => _ end = _ => destruct x; [injection Ea as _ <-; discriminate|] end. discriminate. }
    destruct (startswith _ _); [mon H; destruct a|]; mon H; apply hdr_cat_len in H; lia.
  - exfalso. unfold ipv4_str2bin in *. rewrite (cutting_token p Hc) in *.
    assert (p = []) as ->. { destruct (split1 47 p) as [v [m|]]; mon H; [mon H|]; apply hdr_cat_len in H; symmetry in H; now apply (Z0 _ eq_refl). }
    destruct (N H) as (v & m & _ & Hn). rewrite Ek in Hn. inversion Hn; subst; [match goal with K : ipv4_any [] _ |- _ => destruct K as [_ K]; now apply aton_nil in K end|match goal with K : _ ++ _ = [] |- _ => apply app_eq_nil in K as [_ K]; discriminate end].
  - exfalso. unfold ipv6_str2bin in *. rewrite (cutting_token p Hc) in *.
    assert (p = []) as ->. { destruct (split1 47 p) as [v [m|]]; mon H; [mon H|]; apply hdr_cat_len in H; symmetry in H; now apply (Z0 _ eq_refl). }
    destruct (N H) as (v & m & _ & Hn). rewrite Ek in Hn. inversion Hn; subst; [match goal with K : ipv6_any [] _ |- _ => now apply ipv6_nil in K end|match goal with K : _ ++ _ = [] |- _ => apply app_eq_nil in K as [_ K]; discriminate end].
  - exfalso. unfold pkt_str2bin in H. mon H. destruct a as [v l]. mon H. mon H. destruct a0 as [v2 l2]. mon H. apply hdr_cat_len in H. lia.
  - unfold hex_str2bin in *. rewrite (cutting_token p Hc) in *. split; [|auto].
    destruct (split1 47 p) as [v [m|]]; mon H; [mon H; destruct (pad_mask _ _)|]; apply hdr_cat_len in H; symmetry in H; now apply (Z0 _ eq_refl).
  - unfold ssid_str2bin in *. rewrite (cutting_token p Hc) in *. split; [|auto].
    mon H. mon H. destruct (nth_error _ 1); [mon H; destruct (pad_mask _ _)|]; apply hdr_cat_len in H; symmetry in H; now apply (Z0 _ eq_refl).
  - exfalso. unfold le_str2bin in H. mon H. destruct a as [v l]. apply parsed_pos in Ea. destruct (startswith _ _); [mon H; destruct a; destruct n; [|discriminate]|]; apply hdr_cat_len in H; lia.
  - exfalso. unfold rate_str2bin in H. mon H. destruct a as [v l]. mon H. mon H. mon H. apply hdr_cat_len in H. lia.
  - exfalso. unfold ch_str2bin in H. mon H. destruct a as [v l]. mon H. mon H. destruct a0 as [v2 l2]. mon H. cbv zeta in H. destruct (startswith $"/" _); [|apply hdr_cat_len in H; lia].
    mon H. destruct a1 as [m1 l3]. mon H. destruct a1 as [m2 l4]. mon H. apply hdr_cat_len in H. subst l4. destruct (startswith $":" (skipn (l + 1 + l2 + 1 + l3) p)); [mon Ea4; destruct a2|]; injection Ea4; lia.
  - exfalso. unfold comp_str2bin in *. rewrite (cutting_token p Hc) in *.
    assert (p = []) as ->. { destruct (split1 47 p) as [v [m|]]; mon H; [mon H|]; apply hdr_cat_len in H; symmetry in H; now apply (Z0 _ eq_refl). }
    destruct (N H) as (v & m & _ & Hn). rewrite Ek in Hn. apply Nat.leb_le in Hcs. inversion Hn; subst.
    + match goal with K : comp_of _ _ _ |- _ => apply comp_of_nil in K; [lia|assumption] end.
    + match goal with K : _ ++ _ = [] |- _ => apply app_eq_nil in K as [_ K]; discriminate end.
  - exfalso. unfold vht_str2bin in *. rewrite (cutting_token p Hc) in *.
    assert (p = []) as ->. { destruct (split1 47 p) as [v [m|]]; mon H; [mon H|]; apply hdr_cat_len in H; symmetry in H; now apply (Z0 _ eq_refl). }
    discriminate H.
  - exfalso. unfold s8_str2bin in H. mon H. destruct a as [v l]. apply parsed_pos in Ea. mon H. apply hdr_cat_len in H. lia.
Qed.

(** ** lists *)
Lemma accepted_readable f : In f accepted_fields <-> readable f.
Proof. unfold accepted_fields, readable. cbn [In]. split; intros [H|H]; auto. Qed.
Lemma op_gap op : lead op -> has_char 61 op = true -> exists a b, op = a ++ 61 :: b /\ Forall blank a /\ Forall blank b.
Proof.
  intros [H|(a & b & Ha & Hb & ->)] Ho; [|now exists a, b]. exfalso. unfold has_char in Ho. apply existsb_exists in Ho as (c & Hc & E%Z.eqb_eq). subst c.
  rewrite Forall_forall in H. apply H in Hc as [Hc|Hc]; [unfold blank in Hc; lia|discriminate].
Qed.
Lemma head_filler h : lead h -> has_char 61 h = false -> Forall filler h.
Proof.
  intros [H|(a & b & Ha & Hb & ->)] Ho; [exact H|]. exfalso. unfold has_char in Ho. rewrite existsb_app in Ho. cbn in Ho. now rewrite orb_true_r in Ho.
Qed.
Lemma body_solid u h p r : get_token u = (h, p, r) -> has_char 61 h = true -> p ++ r = [] \/ solid (p ++ r).
Proof.
  intros E Hh. pose proof (get_token_concat _ _ _ _ E) as Eu. unfold get_token in E. injection E as Eh Ep _.
  clear Ep. remember (p ++ r) as q eqn:Eq. clear p r Eq. destruct q as [|c p]; [now left|right]. cbn [solid]. intros Hb. rewrite token_head_eq in Eh.
  destruct (drop_while is_space u) as [|x w] eqn:Ed.
  - pose proof (get_token_concat) as _. rewrite <- Eh in Hh. clear - Hh Ed. exfalso.
    unfold has_char in Hh. apply existsb_exists in Hh as (k & Hk & E%Z.eqb_eq). subst k. pose proof (take_while_all (fun c => is_space c || (c =? 44)) u) as T. rewrite forallb_forall in T.
    apply T in Hk. discriminate Hk.
  - destruct (Z.eqb_spec x 61) as [->|Hx].
    + assert (u = take_while is_space u ++ 61 :: take_while is_space w ++ drop_while is_space w) as E1 by (rewrite take_drop, <- Ed, take_drop; reflexivity).
      rewrite <- Eh in Eu. cbn [tl] in Eu. apply (fun e => eq_trans e E1) in Eu. rewrite <- app_assoc in Eu. apply app_inv_head in Eu. cbn [app] in Eu. injection Eu as Eu. apply app_inv_head in Eu.
      pose proof (drop_while_head is_space w) as D. rewrite <- Eu in D. cbn in D. apply is_space_iff in Hb. congruence.
    + exfalso. rewrite <- Eh in Hh. unfold has_char in Hh. apply existsb_exists in Hh as (k & Hk & E%Z.eqb_eq). subst k. pose proof (take_while_all (fun c => is_space c || (c =? 44)) u) as T. rewrite forallb_forall in T.
      apply T in Hk. discriminate Hk.
Qed.
Lemma str2oxm_go_grammar fuel : forall u b r, str2oxm_go fuel true u = Ok (b, r) -> exists ts, match_list notation ts u r /\ b = flat_map wire ts.
Proof.
  induction fuel as [|fuel IH]; intros [|c u] b r H; cbn [str2oxm_go] in H; try discriminate;
    try (injection H as <- <-; exists []; split; [constructor|reflexivity]).
  remember (c :: u) as w eqn:Ew. clear c u Ew. destruct (get_token w) as [[h nm] u1] eqn:E1. destruct (get_token u1) as [[op p] u2] eqn:E2. mon H. apply andb_true_iff in Eb as [Eh Eo]. apply negb_true_iff in Eh.
  mon H. mon H. destruct a0 as [bin len]. unfold str2bin in Ea. destruct (assoc_t nm str2bin_tbl) as [c'|] eqn:Ec; [|discriminate]. injection Ea as <-.
  apply str2bin_field in Ec as (f & Hf & <- & ->).
  pose proof (get_token_concat _ _ _ _ E1) as W1. pose proof (get_token_concat _ _ _ _ E2) as W2.
  destruct (get_token_sound _ _ _ _ E1) as [L1 T1]. destruct (get_token_sound _ _ _ _ E2) as [L2 T2].
  destruct (op_gap op L2 Eo) as (ga & gb & -> & Hga & Hgb). pose proof (head_filler h L1 Eh) as Hh.
  assert (gap_eq ga) as Hgap.
  { destruct ga as [|x ga]; [now left|right]. exists x, ga. destruct T1 as [[_ He]|[_ ->]]; [|discriminate W2]. rewrite <- W2 in He. cbn [app ends] in He.
    inversion Hga as [|? ? Hx Hr]; subst. repeat split; auto.
    - destruct He as [He|He]; auto. unfold eq_char in He. subst x. exfalso. unfold blank in Hx. cbn in Hx. lia.
    - intros ->. unfold blank in Hx. cbn in Hx. lia. }
  pose proof (body_solid _ _ _ _ E2 Eo) as Hso.
  assert (cutting p) as Hcut. { split; [tauto|]. destruct p; [now left|right]. destruct Hso as [K|K]; [discriminate|exact K]. }
  assert (w = h ++ fname f ++ ga ++ $"=" ++ gb ++ p ++ u2) as Ew. { rewrite <- W1, <- W2. rewrite <- !app_assoc. reflexivity. }
  destruct (Nat.eqb_spec len 0) as [->|Hl].
  - injection H as <- <-. apply nothing_field in Ea0 as [-> Hk]; auto. exists []. split; [|reflexivity].
    apply (ml_stop _ f h ga gb u2 w); auto; [now apply accepted_readable|]. destruct T2 as [[_ T2]|[_ ->]]; [|exact I]. clear - Hso T2. destruct u2 as [|c u2]; [exact I|]. destruct Hso as [K|K]; [discriminate|]. cbn [app solid cut_off ends] in *.
    destruct T2 as [T2|T2]; [left|now right]. unfold sep_char in T2. unfold blank in K. chr_red. lia.
  - mon H. destruct (Nat.eqb_spec len (length p)) as [->|]; [|discriminate Eb]. destruct a as [b' u3]. injection H as <- <-.
    apply noted_field in Ea0 as (v & m & -> & Hn); auto. apply IH in Ea as (ts & Hts & ->). exists (Tlv f v m :: ts). split; [|reflexivity].
    apply (ml_item _ f h ga gb p v m u2 ts w u3); auto; [now apply accepted_readable|]. split; [|exact T2]. destruct p; [now destruct Hl|]. destruct Hso as [K|K]; [discriminate|exact K].
Qed.
Lemma str2oxm_grammar u b n : str2oxm u true = Ok (b, n) -> exists ts r, match_list notation ts u r /\ b = flat_map wire ts /\ n = (length u - length r)%nat.
Proof. unfold str2oxm. intros H. mon H. destruct a as [msg rest]. injection H as <- <-. apply str2oxm_go_grammar in Ea as (ts & Hm & ->). eauto. Qed.
