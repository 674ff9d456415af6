(** Match texts: every text of the grammar is read, and as the grammar says. *)
From Verif Require Import Base PyNum Util PyLib OxmCodec OxmTables Oxm Spec SpecOxm SpecRate SpecText.
From Verif Require Import BaseFacts UtilFacts NumFacts PyLibFacts OxmRead OxmPrint OxmFacts OxmFrame OxmMore ActFrame FloatFacts RateFacts GramLib OxmGram.
From Coq Require Import Strings.Ascii.

(** ** MAC addresses *)
Lemma mac_any_scan u b r : mac_any u b -> exists ps, mac_scan (u ++ r) = Ok (concat ps, length u) /\ Forall2 pair_of ps b /\ length b = 6%nat.
Proof.
  intros [u0 l H|a0 b0 c0 d0 e0 f0 x y l H Hx Hy Hxy].
  - destruct (mac_scan_of u0 l r H) as (hs & ps & E & -> & Hp & Hl & _). eauto.
  - exists [a0; b0; c0; d0; e0; f0]. split; [|split; [exact H|apply F2_length in H; now symmetry]].
    assert (is_hex x && is_hex y = false) as E. { destruct (is_hex x) eqn:Ex, (is_hex y) eqn:Ey; auto. destruct Hxy. split; now apply is_hex_iff. }
    clear Hxy. pairs. repeat match goal with E : digit _ = Some _ |- _ => apply digit_hex in E as (E & _ & _) end.
    cbn [app]. unfold mac_scan, mac_rxs. cbn. repeat match goal with E : is_hex ?c = true |- context [is_hex ?c] => rewrite E end. cbn.
    apply Z.eqb_neq in Hx, Hy. rewrite Hx, Hy. cbn. destruct (is_hex x), (is_hex y); cbn; reflexivity || discriminate E.
Qed.
Lemma read_mac f p v mk : 0 <= fnum f < 128 -> notation KMac p v mk -> mac_str2bin (key_of f) (AText p) = Ok (wire (Tlv f v mk), length p).
Proof.
  intros Hf H. unfold mac_str2bin. inversion H as [| | | |? ? Hh|u v0 u' v' Hh Hh'| | | | | | | | | | | | | | | | | | |]; subst.
  - destruct (mac_any_scan p v [] Hh) as (ps & E & Hp & Hl). rewrite app_nil_r in E. rewrite E.
    cbn [bind]. rewrite skipn_all. cbn [startswith]. rewrite <- (app_nil_r (concat ps)), (a2b_pairs _ _ Hp). cbn [a2b_hex bind].
    rewrite (app_nil_r v). now apply hdr_cat_plain.
  - rewrite slash_text. destruct (mac_any_scan u v (47 :: u') Hh) as (ps & E & Hp & Hl). rewrite E.
    cbn [bind]. rewrite skipn_len_app, sw_slash, skipn_one.
    destruct (mac_any_scan u' v' [] Hh') as (ps' & E' & Hp' & Hl'). rewrite app_nil_r in E'. rewrite E'.
    cbn [bind]. rewrite (a2b_pairs _ _ Hp), <- (app_nil_r (concat ps')), (a2b_pairs _ _ Hp'). cbn [a2b_hex bind].
    rewrite (app_nil_r v'), hdr_cat_mask by auto. do 2 f_equal. rewrite app_length. cbn. lia.
Qed.

(** ** IPv4 addresses *)
Definition dot_or_end (r : text) : Prop := r = [] \/ exists r', r = 46 :: r'.
Lemma run_digits b f ds r : (forall c, f c = true <-> digit_in b c) -> f 46 = false -> b <= 16 -> Forall (digit_in b) ds -> dot_or_end r ->
  (digits_val b (take_while f (ds ++ r)), drop_while f (ds ++ r)) = (value b ds, r).
Proof.
  intros Hf H46 Hb Hd Hr.
  assert (forallb f ds = true) as Hds. { apply forallb_forall. intros c Hc. apply Hf. rewrite Forall_forall in Hd. auto. }
  assert (match r with [] => True | c :: _ => f c = false end) as Hs. { destruct Hr as [->|(r' & ->)]; auto. }
  rewrite take_while_app, drop_while_app by auto. rewrite digits_val_value; [reflexivity|]. eapply digits_hex; eauto.
Qed.
Lemma strtoul0_reads n v r : c_number n v -> dot_or_end r -> strtoul0 (n ++ r) = (v, r) /\ exists c n', n = c :: n' /\ is_dec c = true.
Proof.
  intros H Hr. destruct H as [x ds Hx [Hn Hd]|ds Hd|ds [Hn Hd] H0]; chr_red.
  - split; [|eauto]. destruct ds as [|h ds]; [congruence|]. cbn [app]. unfold strtoul0. assert ((x =? 120) || (x =? 88) = true) as -> by (destruct Hx; subst; reflexivity).
    inversion Hd as [|? ? Hh _]; subst. pose proof Hh as Hh'. apply is_hex_iff in Hh'. rewrite Hh'. cbn [andb skipn]. change (h :: ds ++ r) with ((h :: ds) ++ r).
    now apply (run_digits 16 is_hex); auto using is_hex_iff; lia.
  - split; [|eauto].
    assert (strtoul0 ((48 :: ds) ++ r) = (digits_val 8 (take_while is_oct ((48 :: ds) ++ r)), drop_while is_oct ((48 :: ds) ++ r))) as ->.
    { cbn [app]. unfold strtoul0. destruct (ds ++ r) as [|x [|h q]] eqn:E; [reflexivity|reflexivity|].
      assert ((x =? 120) || (x =? 88) = false) as ->; [|reflexivity].
      destruct ds as [|d ds]; cbn [app] in E.
      - destruct Hr as [->|(r' & ->)]; [discriminate|]. injection E as <- _. reflexivity.
      - injection E as -> _. inversion Hd as [|? ? Hx _]; subst. apply is_oct_iff in Hx. unfold is_oct in Hx. lia. }
    rewrite (run_digits 8 is_oct (48 :: ds)); [now rewrite value_zero|apply is_oct_iff|reflexivity|lia| |exact Hr]. constructor; auto. exists 0. split; [reflexivity|lia].
  - destruct ds as [|c ds]; [congruence|]. inversion Hd as [|? ? Hc _]; subst. pose proof Hc as Hc'. apply is_dec_iff in Hc'. split; [|eauto].
    assert (strtoul0 ((c :: ds) ++ r) = (digits_val 10 (take_while is_dec ((c :: ds) ++ r)), drop_while is_dec ((c :: ds) ++ r))) as ->.
    { cbn [app]. assert (c <> 48) as K by (intros ->; eapply H0; reflexivity). unfold strtoul0. destruct c as [|q|q]; try reflexivity.
      repeat (destruct q as [q|q|]; try reflexivity). now destruct K. }
    now apply (run_digits 10 is_dec); auto using is_dec_iff; lia.
Qed.
Lemma pow_le4 n : (n <= 4)%nat -> 256 ^ Z.of_nat n <= 2 ^ 32.
Proof. intros H. change (2 ^ 32) with (256 ^ 4). apply Z.pow_le_mono_r; lia. Qed.
Lemma aton_go_reads n : forall u l acc, aton (S n) u l -> (n <= 3)%nat -> aton_go n acc u = Some (acc ++ l).
Proof.
  induction n as [|n IH]; intros u l acc H Hn; inversion H as [n0 u0 v Hu Hv|n0 u0 v r l0 Hu Hv Hr]; subst; try (now inversion Hr).
  - destruct (strtoul0_reads u v [] Hu (or_introl eq_refl)) as [E (c & n' & -> & Hc)]. rewrite app_nil_r in E. cbn [aton_go]. rewrite Hc, E.
    destruct Hv as [Hv1 Hv2]. pose proof (pow_le4 1 ltac:(lia)). destruct (Z.ltb_spec 0xffffffff v); [lia|]. rewrite <- pow2_256 in Hv2. destruct (Z.ltb_spec v (2 ^ (8 * Z.of_nat 1))); [|lia]. now rewrite be_bytes_spec.
  - destruct (strtoul0_reads u v [] Hu (or_introl eq_refl)) as [E (c & n' & -> & Hc)]. rewrite app_nil_r in E. cbn [aton_go]. rewrite Hc, E.
    destruct Hv as [Hv1 Hv2]. pose proof (pow_le4 (S (S n)) ltac:(lia)). destruct (Z.ltb_spec 0xffffffff v); [lia|]. rewrite <- pow2_256 in Hv2. destruct (Z.ltb_spec v (2 ^ (8 * Z.of_nat (S (S n))))); [|lia]. now rewrite be_bytes_spec.
  - chr_red. destruct (strtoul0_reads u0 v (46 :: r) Hu) as [E (c & n' & -> & Hc)]; [right; eauto|]. cbn [app] in E. cbn [aton_go app]. rewrite Hc, E.
    destruct Hv as [Hv1 Hv2]. change (256 ^ Z.of_nat 1) with 256 in Hv2. destruct (Z.ltb_spec 0xffffffff v); [lia|]. cbn [Z.eqb Pos.eqb]. destruct (Z.ltb_spec 255 v); [lia|].
    rewrite (IH r l0) by (auto; lia). rewrite <- app_assoc. reflexivity.
Qed.
Lemma aton_flat n u l : aton n u l -> Forall flat u.
Proof.
  intros H. induction H as [n u v Hu _|n u v r l Hu _ H IH]; [now apply c_number_flat in Hu|]. apply Forall_app. split; [now apply c_number_flat in Hu|]. constructor; auto.
  split; [unfold plain; chr_red; lia|chr_red; lia].
Qed.
Lemma inet_aton_reads u l : ipv4_any u l -> inet_aton u = Ok l /\ ~ In 47 u /\ length l = 4%nat.
Proof.
  intros [Hl H]. pose proof (aton_flat _ _ _ H) as Hf. rewrite Forall_forall in Hf. unfold inet_aton. rewrite bad_cstr_false.
  - rewrite (aton_go_reads 3 u l []) by (auto; lia). split; [reflexivity|]. split; [|auto]. intros K. apply Hf in K as [_ K]. lia.
  - intros c Hc. apply Hf in Hc as [Hc _]. unfold plain in Hc. lia.
Qed.
Lemma read_ipv4 f p v mk : 0 <= fnum f < 128 -> cutting p -> notation KIPv4 p v mk -> ipv4_str2bin (key_of f) (AText p) = Ok (wire (Tlv f v mk), length p).
Proof.
  intros Hf Hc H. unfold ipv4_str2bin. rewrite (cutting_token p Hc).
  inversion H as [| | | | | |? ? Hh|u v0 u' v' Hh Hh'| | | | | | | | | | | | | | | | |]; subst.
  - destruct (inet_aton_reads p v Hh) as (E & Hs & Hl). rewrite split1_none, E by auto. cbn [bind]. now apply hdr_cat_plain.
  - destruct (inet_aton_reads u v Hh) as (E & Hs & Hl). destruct (inet_aton_reads u' v' Hh') as (E' & Hs' & Hl').
    rewrite slash_text, split1_some, E by auto. unfold ipv4_mask. rewrite E'. cbn [bind]. now apply hdr_cat_mask.
Qed.

(** ** IPv6 addresses *)
Lemma hextet_run ct tp cp u b r : hextet u b -> pton6_go ct tp cp 0 0 (u ++ r) = pton6_go ct tp cp (length u) (value 16 u) r /\ (0 < length u)%nat /\ b = be 2 (value 16 u).
Proof.
  intros [u' [Hn Hd] Hl]. split; [|split; [destruct u'; [congruence|cbn; lia]|reflexivity]].
  rewrite pton6_digits by (auto; apply forallb_forall; intros c Hc; apply is_hex_iff; rewrite Forall_forall in Hd; auto).
  f_equal. rewrite digits_val_value by auto. lia.
Qed.
Lemma sepby_some c us : us <> [] -> Forall (fun u => u <> []) us -> sepby c us <> [].
Proof. intros Hn H. destruct H as [|u us Hu _]; [congruence|]. destruct us; [exact Hu|]. rewrite sepby_cons by discriminate. destruct u; discriminate. Qed.
Lemma ipv4_str_some l : length l = 4%nat -> ipv4_str l <> [].
Proof. apply ipv4_nonnil. Qed.
Lemma tail6_some us l : tail6 us l -> Forall (fun u => u <> []) us.
Proof. induction 1 as [|l Hl|u b us l [u' [Hn _] _] _ IH]; repeat constructor; auto using ipv4_str_some. Qed.
Lemma tail6_run us l : tail6 us l -> forall tp cp, (length (tp ++ l) <= 16)%nat -> pton6_go (sepby 58 us) tp cp 0 0 (sepby 58 us) = Some (tp ++ l, cp).
Proof.
  intros H. induction H as [|l Hl|u b us l Hu H IH]; intros tp cp Hle.
  - cbn. now rewrite app_nil_r.
  - cbn [sepby]. rewrite <- quad_ipv4. apply quad_digits6; auto. rewrite app_length in Hle. lia.
  - rewrite !app_length in Hle. assert (length b = 2%nat) as Hb by (inversion Hu; apply be_length). destruct us as [|u' us].
    + inversion H; subst. cbn [sepby]. destruct (hextet_run u tp cp u b [] Hu) as (E & Hp & ->). rewrite app_nil_r in *. rewrite E. cbn [pton6_go]. destruct (Nat.ltb_spec 0 (length u)); [|lia].
      destruct (Nat.ltb_spec 16 (length tp + 2)); [lia|]. now rewrite be_bytes_spec.
    + pose proof (sepby_some 58 (u' :: us) ltac:(discriminate) (tail6_some _ _ H)) as Hs. rewrite sepby_cons by discriminate. set (S := sepby 58 (u' :: us)) in *. clearbody S.
      destruct (hextet_run (u ++ 58 :: S) tp cp u b (58 :: S) Hu) as (E & Hp & ->). rewrite E. cbn [pton6_go]. change (is_hex 58) with false. change (58 =? 58) with true. cbn match.
      destruct (Nat.eqb_spec (length u) 0); [lia|]. destruct S as [|c s]; [congruence|]. destruct (Nat.ltb_spec 16 (length tp + 2)); [lia|]. rewrite be_bytes_spec, IH by (rewrite !app_length; lia).
      now rewrite <- app_assoc.
Qed.
Lemma heads6_run us a : heads6 us a -> forall ct tp r, us <> [] -> (length (tp ++ a) <= 16)%nat ->
  pton6_go ct tp None 0 0 (sepby 58 us ++ 58 :: 58 :: r) = pton6_go r (tp ++ a) (Some (length (tp ++ a))) 0 0 r.
Proof.
  intros H. induction H as [|u b us a Hu H IH]; intros ct tp r Hn Hle; [congruence|]. rewrite !app_length in Hle. assert (length b = 2%nat) as Hb by (inversion Hu; apply be_length).
  destruct us as [|u' us].
  - inversion H; subst. cbn [sepby]. destruct (hextet_run ct tp None u b (58 :: 58 :: r) Hu) as (E & Hp & ->). rewrite E. cbn [pton6_go]. change (is_hex 58) with false. change (58 =? 58) with true. cbn match.
    destruct (Nat.eqb_spec (length u) 0); [lia|]. destruct (Nat.ltb_spec 16 (length tp + 2)); [lia|]. cbn [Nat.eqb]. now rewrite be_bytes_spec, app_nil_r.
  - rewrite sepby_cons, <- app_assoc by discriminate. cbn [app]. destruct (hextet_run ct tp None u b (58 :: sepby 58 (u' :: us) ++ 58 :: 58 :: r) Hu) as (E & Hp & ->). rewrite E.
    cbn [pton6_go]. change (is_hex 58) with false. change (58 =? 58) with true. cbn match. destruct (Nat.eqb_spec (length u) 0); [lia|]. destruct (Nat.ltb_spec 16 (length tp + 2)); [lia|].
    rewrite be_bytes_spec, IH by (discriminate || rewrite !app_length; lia). rewrite <- !app_assoc.
    destruct (sepby 58 (u' :: us) ++ 58 :: 58 :: r) eqn:E2; [|reflexivity]. apply app_eq_nil in E2 as [_ E2]. discriminate.
Qed.
Lemma tail6_chars us l : tail6 us l -> Forall (Forall v6_char) us.
Proof.
  induction 1 as [|l Hl|u b us l [u' [Hn Hd] _] _ IH]; repeat constructor; auto.
  - apply Forall_forall. intros c Hc. rewrite <- quad_ipv4 in Hc. eapply quad_v6; eauto.
  - eapply Forall_impl; [|exact Hd]. intros c Hc. left. now apply is_hex_iff.
Qed.
Lemma heads6_tail us a : heads6 us a -> tail6 us a.
Proof. induction 1; constructor; auto. Qed.
Lemma ipv6_chars u l : ipv6_any u l -> Forall v6_char u.
Proof.
  assert (v6_char 58) as H58 by (right; now left).
  intros [us l' Ht _|us a vs b n Hu Hv _ _]; chr_red; [apply sepby_chars; eauto using tail6_chars|].
  apply Forall_app. split; [apply sepby_chars; eauto using tail6_chars, heads6_tail|]. constructor; [auto|]. constructor; [auto|]. apply sepby_chars; eauto using tail6_chars.
Qed.
Lemma inet_pton6_reads u l : ipv6_any u l -> inet_pton6 u = Ok l /\ ~ In 47 u /\ length l = 16%nat.
Proof.
  intros H. pose proof (ipv6_chars u l H) as Hc. rewrite Forall_forall in Hc. split; [|split].
  - unfold inet_pton6. rewrite bad_cstr_false by (intros c K; apply Hc, v6_plain in K as [K _]; unfold plain in K; lia).
    enough (pton6 u = Some l) as -> by reflexivity. clear Hc. destruct H as [us l Ht Hl|us a vs b n Hu Hv Hn Hl]; chr_red.
    + destruct (tail_first us l Ht) as [->|(c & r & E & Hc)]; [inversion Ht; subst; discriminate|]. rewrite E, pton6_start, <- E by auto.
      rewrite (tail6_run us l Ht) by (cbn [app]; lia). unfold finish6. cbn [app]. now rewrite Hl.
    + unfold pad in *. rewrite !app_length, repeat_length in Hl.
      assert (finish6 (pton6_go (sepby 58 vs) a (Some (length a)) 0 0 (sepby 58 vs)) = Some (a ++ pad n ++ b)) as F.
      { rewrite (tail6_run vs b Hv) by (rewrite app_length; lia). rewrite finish6_colon by lia. replace (16 - length a - length b)%nat with n by lia. reflexivity. }
      change ($"::" ++ sepby 58 vs) with (58 :: 58 :: sepby 58 vs). destruct us as [|u us].
      * inversion Hu; subst. cbn [sepby app]. rewrite pton6_colon. exact F.
      * destruct (heads_first _ _ Hu) as [?|(c & r & E & Hc)]; [discriminate|]. rewrite E. cbn [app]. rewrite pton6_start by auto. change (c :: r ++ 58 :: 58 :: sepby 58 vs) with ((c :: r) ++ 58 :: 58 :: sepby 58 vs).
        rewrite <- E, (heads6_run _ _ Hu) by (discriminate || (cbn [app]; lia)). exact F.
  - intros K. apply Hc, v6_plain in K as [_ K]. auto.
  - destruct H; auto.
Qed.
Lemma ipv6_colon u l : ipv6_any u l -> In 58 u.
Proof.
  intros [us l' Ht Hl|us a vs b n Hu Hv _ _]; chr_red.
  - destruct Ht as [|l2 Hl'|w b us l2 Hw Ht]; [discriminate|lia|]. destruct us; [inversion Ht; subst; inversion Hw; subst; rewrite app_nil_r, be_length in Hl; discriminate|].
    rewrite sepby_cons by discriminate. apply in_or_app. right. now left.
  - apply in_or_app. right. now left.
Qed.

(** ** Python integers *)
Lemma us_digits_reads d ds : underscored d ds -> us_digits true d = Some ds.
Proof.
  enough (forall b, underscored d ds -> us_digits b d = Some ds) by auto. intros b H. revert b.
  induction H as [c v Hc|c v d ds Hc H IH|c v d ds Hc H IH]; intros b; replace v with (48 + (v - 48)) in * by lia; apply dec_value_iff in Hc; cbn [us_digits]; rewrite Hc.
  - reflexivity.
  - now rewrite IH.
  - chr_red. cbn [us_digits]. change (dec_value 95) with (@None Z). cbn match. cbn [Z.eqb Pos.eqb andb negb]. now rewrite IH.
Qed.
Lemma is_int_space_false c : is_int_space c = false <-> ~ int_blank c.
Proof. rewrite <- is_int_space_iff. destruct (is_int_space c); split; congruence. Qed.
Lemma strip_reads a t b : Forall int_blank a -> Forall int_blank b -> match t with [] => True | c :: _ => ~ int_blank c end -> (exists x c, t = x ++ [c] /\ ~ int_blank c) -> strip (a ++ t ++ b) = t.
Proof.
  intros Ha Hb Hs (x & c & -> & Hc). unfold strip.
  assert (forall l, Forall int_blank l -> forallb is_int_space l = true) as Hsp. { intros l Hl. apply forallb_forall. intros k Hk. apply is_int_space_iff. rewrite Forall_forall in Hl. auto. }
  rewrite (drop_while_app is_int_space a); auto.
  - rewrite rev_app_distr, (drop_while_app is_int_space (rev b)).
    + apply rev_involutive.
    + apply Hsp. now apply Forall_rev.
    + rewrite rev_app_distr. cbn [rev app]. now apply is_int_space_false.
  - destruct ((x ++ [c]) ++ b) as [|k y] eqn:E; [auto|]. apply is_int_space_false. destruct x; cbn [app] in *; injection E as -> _; auto.
Qed.
Lemma dec_not_blank c v : decimal_digit c v -> ~ int_blank c.
Proof. intros H. apply decimal_char in H. unfold int_blank. tauto. Qed.
Lemma underscored_ends d ds : underscored d ds -> match d with [] => True | c :: _ => ~ int_blank c end /\ exists x c, d = x ++ [c] /\ ~ int_blank c.
Proof.
  induction 1 as [c v Hc|c v d ds Hc H [_ IH]|c v d ds Hc H [_ IH]]; (split; [now apply (dec_not_blank c v)|]).
  - exists [], c. split; [reflexivity|now apply (dec_not_blank c v)].
  - destruct IH as (x & k & -> & Hk). now exists (c :: x), k.
  - destruct IH as (x & k & -> & Hk). now exists (c :: chr "_" :: x), k.
Qed.
Lemma underscored_digits d ds : underscored d ds -> Forall (digit_in 10) ds.
Proof. induction 1 as [c v H|c v d ds H _ IH|c v d ds H _ IH]; apply decimal_char in H; (constructor; [apply H|try exact IH; constructor]). Qed.
Lemma says_128_reads u : says_128 u -> py_int u = Ok 128.
Proof.
  intros (a & s & d & ds & b & -> & Ha & Hb & Hs & Hd & Hv). unfold py_int. destruct (underscored_ends d ds Hd) as (Hso & x & c & Ed & Hc).
  rewrite (app_assoc s), strip_reads; auto.
  - assert (us_digits true d = Some ds) as Eu by now apply us_digits_reads.
    assert (digits_val 10 ds = 128) as Ev. { rewrite digits_val_value; [exact Hv|]. eapply digits_hex; [|apply (underscored_digits d ds Hd)]. lia. }
    destruct Hs as [->| ->]; [|change ($"+" ++ d) with (43 :: d); cbv iota beta zeta; now rewrite Eu, Ev].
    destruct d as [|k d]; [discriminate|]. cbn [app]. assert (k <> 43 /\ k <> 45) as [K1 K2].
    { destruct (underscored_chars _ _ Hd k (or_introl eq_refl)) as [[v K]|K]; [apply decimal_char in K|]; lia. }
    clear - Eu Ev K1 K2. destruct k as [|q|q]; try (now rewrite Eu, Ev). repeat (destruct q as [q|q|]; try (now rewrite Eu, Ev); try congruence).
  - destruct Hs as [->| ->]; [exact Hso|]. cbn. chr_red. unfold int_blank, blank. lia.
  - exists (s ++ x), c. rewrite Ed, app_assoc. auto.
Qed.
Lemma says_128_colon u : says_128 u -> ~ In 58 u.
Proof.
  intros (a & s & d & ds & b & -> & Ha & Hb & Hs & Hd & _) K. rewrite Forall_forall in Ha, Hb. apply in_app_or in K as [K|K]; [apply Ha in K; unfold int_blank, blank in K; lia|].
  apply in_app_or in K as [K|K]; [destruct Hs as [->| ->]; [destruct K|destruct K as [K|[]]; discriminate]|].
  apply in_app_or in K as [K|K]; [|apply Hb in K; unfold int_blank, blank in K; lia]. apply (underscored_chars d ds Hd) in K as [[v K]|K]; [|discriminate]. apply decimal_char in K. lia.
Qed.
Lemma ipv6_mask_reads u l : ipv6_mask_any u l -> ipv6_mask u = Ok l /\ length l = 16%nat.
Proof.
  intros [H|[H ->]].
  - destruct (inet_pton6_reads u l H) as (E & _ & Hl). unfold ipv6_mask. now rewrite E.
  - split; [|reflexivity]. unfold ipv6_mask. destruct (inet_pton6 u) as [b|e|] eqn:E.
    + exfalso. apply inet_pton6_inv, ipv6_colon in E. now apply says_128_colon in E.
    + rewrite says_128_reads by auto. vm_compute. reflexivity.
    + rewrite says_128_reads by auto. vm_compute. reflexivity.
Qed.
Lemma read_ipv6 f p v mk : 0 <= fnum f < 128 -> cutting p -> notation KIPv6 p v mk -> ipv6_str2bin (key_of f) (AText p) = Ok (wire (Tlv f v mk), length p).
Proof.
  intros Hf Hc H. unfold ipv6_str2bin. rewrite (cutting_token p Hc).
  inversion H as [| | | | | | | |? ? Hh|u v0 u' v' Hh Hh'| | | | | | | | | | | | | | |]; subst.
  - destruct (inet_pton6_reads p v Hh) as (E & Hs & Hl). rewrite split1_none, E by auto. cbn [bind]. now apply hdr_cat_plain.
  - destruct (inet_pton6_reads u v Hh) as (E & Hs & Hl). destruct (ipv6_mask_reads u' v' Hh') as (E' & Hl').
    rewrite slash_text, split1_some, E, E' by auto. cbn [bind]. now apply hdr_cat_mask.
Qed.

(** ** SSIDs *)
Lemma qp_seven s b : qp s b -> Forall seven_bit s.
Proof.
  assert (seven_bit (chr "=") /\ seven_bit 10 /\ seven_bit 13) as (H61 & H10 & H13) by (chr_red; unfold seven_bit; lia).
  induction 1 as [|c s b _ Hc _ IH|d e x s b Hp _ IH|s b _ IH|d s b _ _ _ _ _ IH| |s b _ IH|x s b Hx _ _ IH|x Hx _]; repeat apply Forall_cons; try apply Forall_nil; auto;
    try (inversion Hp as [? ? ? ? D1 D2]; subst; apply digit_plain in D1 as [D1 _], D2 as [D2 _]; unfold plain in D1, D2; unfold seven_bit; lia).
  all: try (now inversion IH). apply Forall_app. split; auto.
Qed.
Lemma qp_skipped x s : ~ In 10 x -> a2b_qp_go true (x ++ 10 :: s) = a2b_qp_go false s /\ a2b_qp_go true x = [].
Proof.
  induction x as [|c x IH]; intros Hx; [auto|]. cbn [app a2b_qp_go]. destruct (Z.eqb_spec c 10) as [->|]; [destruct Hx; now left|].
  apply IH. intros K. apply Hx. now right.
Qed.
Lemma qp_reads s b : qp s b -> a2b_qp_go false s = b.
Proof.
  induction 1 as [|c s b Hc _ _ IH|d e x s b Hp _ IH|s b _ IH|d s b H61 H10 H13 He _ IH| |s b _ IH|x s b _ Hx _ IH|x _ Hx]; chr_red.
  - reflexivity.
  - cbn [a2b_qp_go]. revert Hc. chr_red. intros Hc. destruct (Z.eqb_spec c 61); [congruence|]. now rewrite IH.
  - revert IH. inversion Hp as [? ? vx vy D1 D2]; subst. intros IH. pose proof (digit_hex _ _ D1) as (X1 & V1 & _). pose proof (digit_hex _ _ D2) as (X2 & V2 & _). cbn [a2b_qp_go Z.eqb Pos.eqb].
    assert (d <> 10 /\ d <> 13 /\ d <> 61) as (K1 & K2 & K3) by (repeat split; intros ->; discriminate D1).
    destruct (Z.eqb_spec d 10); [congruence|]. destruct (Z.eqb_spec d 13); [congruence|]. destruct (Z.eqb_spec d 61); [congruence|].
    rewrite X1, X2, V1, V2, IH. cbn [andb]. now rewrite Z.mul_comm.
  - cbn [a2b_qp_go Z.eqb Pos.eqb]. now rewrite IH.
  - revert H61. chr_red. intros H61.
    assert (a2b_qp_go false (61 :: d :: s) = z2b 61 :: a2b_qp_go false (d :: s)) as ->; [|now rewrite IH].
    cbn [a2b_qp_go Z.eqb Pos.eqb]. destruct (Z.eqb_spec d 10); [congruence|]. destruct (Z.eqb_spec d 13); [congruence|]. destruct (Z.eqb_spec d 61); [congruence|].
    destruct s as [|e s]; [reflexivity|]. destruct (is_hex d && is_hex e) eqn:E; [|reflexivity]. apply andb_true_iff in E as [E1 E2]. destruct He. split; [now apply is_hex_iff|].
    exists e, s. split; [auto|]. now apply is_hex_iff.
  - reflexivity.
  - cbn [a2b_qp_go Z.eqb Pos.eqb]. exact IH.
  - cbn [a2b_qp_go Z.eqb Pos.eqb]. rewrite (proj1 (qp_skipped x s Hx)). exact IH.
  - cbn [a2b_qp_go Z.eqb Pos.eqb]. now apply qp_skipped.
Qed.
Lemma a2b_qp_reads s b : qp s b -> a2b_qp s = Ok b.
Proof.
  intros H. unfold a2b_qp. rewrite (qp_reads s b H). replace (forallb is_ascii s) with true; [reflexivity|]. symmetry. apply forallb_forall. intros c Hc.
  apply qp_seven in H. rewrite Forall_forall in H. apply H in Hc. unfold seven_bit in Hc. unfold is_ascii. lia.
Qed.
Lemma read_ssid f p v mk : 0 <= fnum f < 128 -> key_of f = STR "dot11_ssid" -> cutting p -> notation KSsid p v mk -> ssid_str2bin (AText p) = Ok (wire (Tlv f v mk), length p).
Proof.
  intros Hf Hk Hc H. unfold ssid_str2bin. rewrite <- Hk, (cutting_token p Hc).
  inversion H as [| | | | | | | | | | | | |u v0 Hs Hq|u v0 u' v' r Hs Hq Hh Hr| | | | | | | | | |]; subst; revert Hs; chr_red; intros Hs.
  - rewrite split_all_none by auto. unfold py_nth. cbn [nth_error bind]. rewrite (a2b_qp_reads _ _ Hq). cbn [bind]. now apply hdr_cat_plain.
  - pose proof (hex_of_tidy _ _ Hh) as Ht. pose proof (tidy_no 47 u' Ht (or_introl eq_refl)) as Hn. rewrite slash_text, split_all_cons by auto.
    assert (exists l, split_all 47 (u' ++ r) = u' :: l) as [l El]. { destruct Hr as [->|(r' & ->)]; [rewrite app_nil_r, split_all_none by auto; eauto|]. chr_red. rewrite split_all_cons by auto. eauto. }
    rewrite El. unfold py_nth. cbn [nth_error bind]. rewrite (a2b_qp_reads _ _ Hq). cbn [bind]. rewrite (a2b_hex_of _ _ Hh). cbn [bind]. now apply mask_pad_wire.
Qed.

(** ** Rates and channels *)
Lemma parseFloat_digits ds c : numeral 10 ds -> is_dec c = false -> c <> 46 -> parseFloat (ds ++ [c]) = Ok (PInt (value 10 ds), length ds).
Proof.
  intros [Hn Hd] Hc Hp. unfold parseFloat.
  assert (startswith $"-" (ds ++ [c]) = false) as E.
  { destruct ds as [|k s]; [congruence|]. inversion Hd as [|? ? Hk _]; subst. apply is_dec_iff in Hk. unfold is_dec in Hk.
    cbn. destruct (Z.eqb_spec 45 k); [lia|reflexivity]. }
  rewrite E. rewrite (longest_numeral 10 is_dec ds); auto using is_dec_iff.
  2:{ intros Hs. apply is_dec_iff in Hs. congruence. }
  rewrite firstn_len_app, int_digits_numeral by (try lia; split; auto). cbn [bind]. rewrite skipn_len_app.
  cbn. destruct (Z.eqb_spec 46 c); [congruence|reflexivity].
Qed.
Lemma parseFloat_point ds fs c : numeral 10 ds -> numeral 10 fs -> is_dec c = false ->
  parseFloat (ds ++ $"." ++ fs ++ [c]) = (x <- dec_float (value 10 ds) (value 10 fs) (Z.of_nat (length fs)) ;; Ok (PFlt x, (length ds + length fs + 1)%nat)).
Proof.
  intros [Hn Hd] [Hn' Hd'] Hc. unfold parseFloat.
  assert (startswith $"-" (ds ++ $"." ++ fs ++ [c]) = false) as E.
  { destruct ds as [|k s]; [congruence|]. inversion Hd as [|? ? Hk _]; subst. apply is_dec_iff in Hk. unfold is_dec in Hk.
    cbn. destruct (Z.eqb_spec 45 k); [lia|reflexivity]. }
  rewrite E. change ($"." ++ fs ++ [c]) with (46 :: fs ++ [c]). rewrite (longest_numeral 10 is_dec ds); auto using is_dec_iff.
  2:{ intros Hs. apply is_dec_iff in Hs. discriminate. }
  rewrite firstn_len_app, int_digits_numeral by (try lia; split; auto). cbn [bind]. rewrite skipn_len_app. change (startswith $"." (46 :: fs ++ [c])) with true. cbv iota.
  rewrite skipn_one, (longest_numeral 10 is_dec fs); auto using is_dec_iff.
  2:{ intros Hs. apply is_dec_iff in Hs. congruence. }
  cbv zeta. replace (length ds + length fs + 1)%nat with (length ds + 1 + length fs)%nat at 1 by lia. rewrite slice_skip, skipn_one, firstn_len_app, int_digits_numeral by (try lia; split; auto). cbn [bind].
  unfold dec_float. destruct (f_of_Z (value 10 fs)); cbn [bind]; try reflexivity. destruct (f_of_Z (10 ^ Z.of_nat (length fs))); cbn [bind]; try reflexivity.
  destruct (f_of_Z (value 10 ds)); reflexivity.
Qed.
Lemma read_fraction f ds fs c y z : 0 <= fnum f < 128 -> key_of f = STR "rate" -> numeral 10 ds -> numeral 10 fs ->
  decimal (value 10 ds) (value 10 fs) (Z.of_nat (length fs)) y -> unit_rounds c y z -> in_bytes 1 (fst z / snd z) ->
  ('(num, rlen) <- parseFloat (ds ++ $"." ++ fs ++ [c]) ;; c' <- py_nth (ds ++ $"." ++ fs ++ [c]) rlen ;;
   rate <- (if c' =? 75 then OxmCodec.rate_k num else if c' =? 77 then OxmCodec.rate_m num else Raise ValueError) ;;
   payload <- pack [sB] [rate] ;; hdr_cat (key_of f) 1 false payload (rlen + 1)) = Ok (wire (Tlv f (be 1 (fst z / snd z)) None), length (ds ++ $"." ++ fs ++ [c])).
Proof.
  intros Hf Hk Hd Hf' Hy Hz Hb. rewrite parseFloat_point; auto. 2: { destruct Hz as [[-> _]|[-> _]]; reflexivity. }
  destruct (dec_read _ _ _ _ (value_pos 10 ds ltac:(lia)) (value_pos 10 fs ltac:(lia)) (Nat2Z.is_nonneg _) Hy) as (x & -> & Hx). cbn [bind].
  assert (py_nth (ds ++ $"." ++ fs ++ [c]) (length ds + length fs + 1) = Ok c) as ->.
  { unfold py_nth. rewrite !app_assoc, nth_error_app2 by (rewrite !app_length; cbn; lia). rewrite !app_length. cbn [length s2t].
    replace (length ds + length fs + 1 - (length ds + 1 + length fs))%nat with 0%nat by lia. reflexivity. }
  cbn [bind]. fold (rate_of c (PFlt x)). rewrite (unit_read _ _ _ _ Hx Hz). cbn [bind]. rewrite pack1 by auto. cbn [bind]. rewrite hdr_cat_plain by auto. do 2 f_equal.
  rewrite !app_length. cbn [length s2t]. lia.
Qed.
Lemma read_rate f p v mk : 0 <= fnum f < 128 -> key_of f = STR "rate" -> notation KRate p v mk -> rate_str2bin (AText p) = Ok (wire (Tlv f v mk), length p).
Proof.
  intros Hf Hk H. inversion H as [| | | | | | | | | | | | | | | |u v0 Hr| | | | | | | |]; subst. unfold rate_str2bin. rewrite <- Hk.
  inversion Hr as [ds Hd Hb|ds Hd Hb|ds fs y z Hd Hf' Hy Hz Hb|ds fs y z Hd Hf' Hy Hz Hb]; subst.
  - change $"K" with [75]. rewrite parseFloat_digits by (auto; discriminate). cbn [bind]. unfold py_nth. rewrite nth_error_len. cbn [bind Z.eqb Pos.eqb OxmCodec.rate_k].
    rewrite int_500_small by (unfold in_bytes in Hb; change (256 ^ Z.of_nat 1) with 256 in Hb; lia). cbn [bind]. rewrite pack1 by auto. cbn [bind]. rewrite hdr_cat_plain by auto. do 2 f_equal. rewrite app_length. reflexivity.
  - change $"M" with [77]. rewrite parseFloat_digits by (auto; discriminate). cbn [bind]. unfold py_nth. rewrite nth_error_len. cbn [bind Z.eqb Pos.eqb OxmCodec.rate_m].
    rewrite (Z.mul_comm 2) in *. rewrite pack1 by auto. cbn [bind]. rewrite hdr_cat_plain by auto. do 2 f_equal. rewrite app_length. reflexivity.
  - now apply (read_fraction f ds fs 75 y z); [..|left|].
  - now apply (read_fraction f ds fs 77 y z); [..|right|].
Qed.
Lemma read_chan f p v mk : 0 <= fnum f < 128 -> key_of f = STR "channel" -> notation KChan p v mk -> ch_str2bin (AText p) = Ok (wire (Tlv f v mk), length p).
Proof.
  intros Hf Hk H. inversion H as [| | | | | | | | | | | | | | | | |u0 v0 u1 v1 L0 B0 L1 B1|u0 v0 u1 v1 x a y b L0 B0 L1 B1 Lx Bx Ly By|u0 v0 u1 v1 x a L0 B0 L1 B1 Lx Bx| | | | |]; subst.
  - apply enc_chan; auto. now constructor.
  - apply enc_chan; auto. now constructor.
  - unfold ch_str2bin. rewrite <- Hk. rewrite !colon_text, slash_text, (literal_app _ v0) by (auto; now right). cbn [bind].
    unfold py_nth. rewrite nth_error_len. cbn [bind].
    change (58 =? 58) with true. cbn [assert bind]. rewrite skipn_one, (literal_app _ v1) by (auto; now left). cbn [bind].
    rewrite pack2 by auto. cbn [bind]. cbv zeta.
    set (U := u0 ++ 58 :: u1 ++ 47 :: x).
    assert (U = (u0 ++ 58 :: u1) ++ 47 :: x) as EU by (unfold U; now rewrite <- app_assoc).
    assert (length (u0 ++ 58%Z :: u1) = length u0 + 1 + length u1)%nat as El by (rewrite app_length; cbn; lia).
    rewrite <- El. set (A := u0 ++ 58 :: u1) in *.
    rewrite EU, skipn_len_app, sw_slash, skipn_one.
    replace x with (x ++ []) at 1 by apply app_nil_r. rewrite (sw_colon_literal _ a) by auto. rewrite (literal_alone _ a) by auto. cbn [bind].
    assert (length (A ++ 47%Z :: x) = length A + 1 + length x)%nat as El' by (rewrite app_length; cbn; lia).
    rewrite <- El', skipn_all. change (startswith $":" []) with false. cbn iota. cbn [bind]. rewrite pack2 by (auto; unfold in_bytes; cbn; lia). cbn [bind].
    rewrite hdr_cat_mask by (auto; rewrite app_length, !be_length; reflexivity).
    do 2 f_equal. rewrite !app_length in *. cbn [length] in *. lia.
Qed.

(** ** VHT *)
Lemma vht_items_reads i us vs : vht_numbers i us vs -> vht_items i us = Ok vs.
Proof.
  induction 1 as [i|u b us vs Hh H IH|i u v us vs Hi Hv H IH]; [reflexivity|rewrite (vht_item3_of u b), IH by auto; reflexivity|].
  cbn [vht_items]. destruct (Nat.eqb_spec i 3); [lia|]. destruct Hv as [|u v l Hr]; [now rewrite IH|].
  destruct u as [|c u]; [inversion Hr; subst; match goal with K : _ ++ _ = [] |- _ => apply app_eq_nil in K as [-> _] end; match goal with K : numeral _ [] |- _ => now destruct K end|].
  rewrite (reads_parseInt _ _ _ Hr). cbn [bind]. now rewrite IH.
Qed.
Lemma split_sepby_no us : us <> [] -> Forall (fun t => ~ In 58 t) us -> split_all 58 (sepby 58 us) = us.
Proof.
  intros Hn H. induction H as [|u us Hu H IH]; [congruence|]. destruct us as [|u' us]; [cbn [sepby]; now apply split_all_none|].
  rewrite sepby_cons, split_all_cons, IH by (auto; discriminate). reflexivity.
Qed.
Lemma pack_le_reads ns vs : Forall2 in_bytes ns vs -> pack (map FL ns) vs = Ok (le_list ns vs).
Proof.
  induction 1 as [|n v ns vs H _ IH]; [reflexivity|]. cbn [map pack le_list]. rewrite in_bytes_range by auto. rewrite IH. cbn [bind]. now rewrite le_bytes_spec.
Qed.
Lemma vht_parse_reads u b : vht_any u b -> vht_parse u = Ok b /\ length b = 12%nat.
Proof.
  intros (us & vs & -> & Hn & Hc & Hb & ->). chr_red. unfold vht_parse. rewrite split_sepby_no.
  - rewrite (vht_items_reads _ _ _ Hn). cbn [bind]. split; [exact (pack_le_reads _ _ Hb)|].
    pose proof (pack_le_reads _ _ Hb) as E. now apply pack_length in E.
  - intros ->. inversion Hn; subst. inversion Hb.
  - exact Hc.
Qed.
Lemma read_vht f p v mk : 0 <= fnum f < 128 -> key_of f = STR "vht" -> cutting p -> notation KVht p v mk -> vht_str2bin (AText p) = Ok (wire (Tlv f v mk), length p).
Proof.
  intros Hf Hk Hc H. unfold vht_str2bin. rewrite <- Hk, (cutting_token p Hc). change (calcsize vht_packs) with 12%nat.
  inversion H as [| | | | | | | | | | | | | | | | | | | | | |u v0 Hs Hv|u v0 u' v' Hs Hv Hv'|]; subst; revert Hs; chr_red; intros Hs.
  - destruct (vht_parse_reads _ _ Hv) as (E & Hl). rewrite split1_none, E by auto. cbn [bind]. now apply hdr_cat_plain.
  - destruct (vht_parse_reads _ _ Hv) as (E & Hl). destruct (vht_parse_reads _ _ Hv') as (E' & Hl').
    rewrite slash_text, split1_some, E, E' by auto. cbn [bind]. now apply hdr_cat_mask.
Qed.

(** ** one field *)
Lemma read_field f p v mk : In f accepted_fields -> cutting p -> p <> [] -> notation (fkind f) p v mk -> run_s2b (s2b_of f) (AText p) = Ok (wire (Tlv f v mk), length p).
Proof.
  intros Hf Hc Hp H. pose proof (fnum_reg f Hf) as Hn. pose proof (own_key_reg f Hf) as Hk. pose proof (wide_reg f Hf) as Hw.
  pose proof (fun w => enc_field f p v mk Hf w) as E. unfold s2b_of in *.
  destruct (fkind f) eqn:Ek; cbn [run_s2b own_key wide_kind] in *; symmetry in Hk;
    eauto using read_mac, read_ipv4, read_ipv6, read_ssid, read_chan, read_vht; try (apply E; inversion H; subst; constructor; assumption).
  - apply E. inversion H; subst; [now constructor|eapply w_port_name; eauto].
  - apply E. inversion H as [| | | | | | | | | | |u v0 Hh|u v0 u' v' Hh Hh'| | | | | | | | | | | |]; subst; [|now constructor]. constructor; auto. intros ->. apply hex_of_length in Hh. now destruct p.
  - apply read_rate; auto.
Qed.

(** ** lists *)
Lemma value_tokens f p a b h r : In f accepted_fields -> cut p r -> gap_eq a -> Forall blank b -> Forall filler h ->
  get_token (h ++ fname f ++ a ++ $"=" ++ b ++ p ++ r) = (h, fname f, a ++ 61 :: b ++ p ++ r) /\
  get_token (a ++ 61 :: b ++ p ++ r) = (a ++ 61 :: b, p, r).
Proof.
  intros Hf [Hso Hc] Ha Hb Hh. destruct (name_reg f Hf) as [Hp Hpn]. split.
  - change (a ++ $"=" ++ b ++ p ++ r) with (a ++ 61 :: b ++ p ++ r). apply get_token_complete; auto using filler_lead, plain_token, plain_solid, gap_eq_ends.
  - assert (lead (a ++ 61 :: b)) as L by (right; exists a, b; auto using gap_eq_blank).
    replace (a ++ 61 :: b ++ p ++ r) with ((a ++ 61 :: b) ++ p ++ r) by (rewrite <- app_assoc; reflexivity).
    destruct Hc as [[Ht He]|[Ht ->]]; [now apply get_token_complete|]. rewrite app_nil_r. now apply get_token_unfinished.
Qed.
Lemma stop_tokens f a b h r : In f accepted_fields -> cut_off r -> gap_eq a -> Forall blank b -> Forall filler h ->
  get_token (h ++ fname f ++ a ++ $"=" ++ b ++ r) = (h, fname f, a ++ 61 :: b ++ r) /\
  get_token (a ++ 61 :: b ++ r) = (a ++ 61 :: b, [], r).
Proof.
  intros Hf Hc Ha Hb Hh. destruct (name_reg f Hf) as [Hp Hpn]. split.
  - change (a ++ $"=" ++ b ++ r) with (a ++ 61 :: b ++ r). apply get_token_complete; auto using filler_lead, plain_token, plain_solid, gap_eq_ends.
  - assert (forall l, Forall blank l -> forallb is_space l = true) as Hsp. { intros l Hl. apply forallb_forall. intros k Hk. apply is_space_iff. rewrite Forall_forall in Hl. auto. }
    assert (match r with [] => True | c :: _ => is_space c = false end) as Hr. { destruct r as [|c r]; [auto|]. cbn in Hc. chr_red. destruct Hc as [-> | ->]; reflexivity. }
    assert (token_head (a ++ 61 :: b ++ r) = a ++ 61 :: b) as Eh.
    { rewrite token_head_eq. pose proof (gap_eq_blank a Ha) as Hab. rewrite (drop_while_app is_space a) by auto. cbn [tl Z.eqb Pos.eqb]. rewrite !take_while_app by auto. reflexivity. }
    unfold get_token. rewrite Eh. replace (a ++ 61 :: b ++ r) with ((a ++ 61 :: b) ++ r) by (rewrite <- app_assoc; reflexivity). rewrite skipn_len_app.
    assert (token_body [] r = []) as ->. { apply ends_body. destruct r as [|c r]; [exact I|]. cbn in *. unfold sep_char, eq_char. tauto. }
    cbn [length]. rewrite Nat.add_0_r, skipn_len_app. reflexivity.
Qed.
Lemma name_some f (h r : text) : In f accepted_fields -> h ++ fname f ++ r <> [].
Proof. intros Hf E. destruct (name_reg f Hf) as [_ Hn]. apply app_eq_nil in E as [_ E]. now apply app_eq_nil in E as [E _]. Qed.
Lemma nothing_read f : In f accepted_fields -> fkind f = KHex \/ fkind f = KSsid -> exists b, run_s2b (s2b_of f) (AText []) = Ok (b, 0%nat).
Proof.
  intros Hf Hk. unfold s2b_of. pose proof (fnum_reg f Hf) as Hn. pose proof (own_key_reg f Hf) as Ho. destruct Hk as [Ek|Ek]; rewrite Ek in *; cbn [run_s2b own_key] in *.
  - unfold hex_str2bin. cbn [get_token split1 a2b_hex bind]. eexists. apply (hdr_cat_plain f [] 0); auto.
  - unfold ssid_str2bin. rewrite Ho. eexists. apply (hdr_cat_plain f [] 0); auto.
Qed.
Lemma match_list_reads ts u r : match_list notation ts u r -> forall fuel, (length u <= fuel)%nat -> str2oxm_go fuel true u = Ok (flat_map wire ts, r).
Proof.
  induction 1 as [|f h a b p v m r ts u r' Hf%accepted_readable Hh Ha Hb Hc Hn -> H IH|f h a b r u Hf%accepted_readable Hh Ha Hb Hc Hk ->]; intros fuel Hl.
  - destruct fuel; reflexivity.
  - destruct (value_tokens f p a b h r Hf Hc Ha Hb Hh) as [E1 E2].
    assert (length r < length (h ++ fname f ++ a ++ $"=" ++ b ++ p ++ r))%nat as Hlt. { rewrite !app_length. cbn [length s2t]. destruct p; [destruct Hc as [[] _]|cbn; lia]. }
    destruct fuel as [|fuel]; [lia|]. specialize (IH fuel ltac:(lia)).
    pose proof (name_some f h (a ++ $"=" ++ b ++ p ++ r) Hf) as Hne. destruct (h ++ fname f ++ a ++ $"=" ++ b ++ p ++ r) as [|c0 s0]; [congruence|].
    cbn [str2oxm_go]. rewrite E1, E2, filler_no_eq by auto.
    assert (has_char 61 (a ++ 61 :: b) = true) as -> by (apply has_char_true, in_or_app; right; left; reflexivity).
    cbn [negb andb assert bind]. unfold str2bin. rewrite str2bin_reg by auto. cbn [bind].
    destruct Hc as [Hso Hc]. assert (cutting p) as Hcut by (split; [tauto|now right]). assert (p <> []) as Hp by (intros ->; destruct Hso).
    rewrite (read_field f p v m) by auto. cbn [bind]. destruct (Nat.eqb_spec (length p) 0) as [E|E]; [destruct p; [congruence|discriminate]|].
    rewrite Nat.eqb_refl. cbn [assert bind]. rewrite IH. reflexivity.
  - destruct (stop_tokens f a b h r Hf Hc Ha Hb Hh) as [E1 E2]. pose proof (name_some f h (a ++ $"=" ++ b ++ r) Hf) as Hne.
    destruct (h ++ fname f ++ a ++ $"=" ++ b ++ r) as [|c0 s0]; [congruence|]. destruct fuel as [|fuel]; [cbn in Hl; lia|].
    cbn [str2oxm_go]. rewrite E1, E2, filler_no_eq by auto.
    assert (has_char 61 (a ++ 61 :: b) = true) as -> by (apply has_char_true, in_or_app; right; left; reflexivity).
    cbn [negb andb assert bind]. unfold str2bin. rewrite str2bin_reg by auto. cbn [bind]. destruct (nothing_read f Hf Hk) as [x ->]. reflexivity.
Qed.
Lemma match_list_read ts u r : match_list notation ts u r -> str2oxm u true = Ok (flat_map wire ts, (length u - length r)%nat).
Proof. intros H. unfold str2oxm. rewrite (match_list_reads ts u r H) by lia. reflexivity. Qed.
