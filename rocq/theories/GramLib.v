(** What the library readers accept: hex strings, MAC, IPv4 and IPv6 addresses, Python
    integers, seen as the notations of SpecText. *)
From Verif Require Import Base PyNum Util PyLib OxmCodec Spec SpecOxm SpecText.
From Verif Require Import BaseFacts UtilFacts NumFacts PyLibFacts OxmRead OxmFrame OxmMore ActFrame.
From Coq Require Import Strings.Ascii.

(** ** numbers *)
Lemma reads_prefix u v l : reads u v l -> exists p r, u = p ++ r /\ length p = l /\ literal p v.
Proof.
  intros H. inversion H as [ds r Hn Hs|x ds r Hx Hn Hs|ds r Hn Hs|ds r Hn Hs H1 H2]; subst.
  - exists (45 :: ds), r. repeat split. pose proof (reads_neg ds [] Hn I) as K. rewrite app_nil_r in K. exact K.
  - exists (48 :: x :: ds), r. repeat split. pose proof (reads_hex x ds [] Hx Hn I) as K. rewrite app_nil_r in K. exact K.
  - exists (48 :: ds), r. repeat split. pose proof (reads_oct ds [] Hn I) as K. rewrite app_nil_r in K. exact K.
  - exists ds, r. repeat split. pose proof (reads_dec ds [] Hn I H1 ltac:(discriminate)) as K. rewrite app_nil_r in K. exact K.
Qed.
Lemma parsed u v l : parseInt u = Ok (v, l) -> exists p, u = p ++ skipn l u /\ length p = l /\ literal p v.
Proof.
  intros H. apply parseInt_reads, reads_prefix in H as (p & r & -> & <- & Hl). exists p. now rewrite skipn_app, skipn_all, Nat.sub_diag.
Qed.
Lemma parsed_all u v : parseInt u = Ok (v, length u) -> literal u v.
Proof. apply parseInt_reads. Qed.
Lemma digits_hex (ds : text) b : b <= 16 -> Forall (digit_in b) ds -> Forall (digit_in 16) ds.
Proof. intros Hb. apply Forall_impl. intros c. now apply digit_in_mono. Qed.

(** ** hex *)
Lemma is_hex_digit c : is_hex c = true -> digit c = Some (digit_val c).
Proof. intros H. apply is_hex_iff in H as (d & E & _). now rewrite (digit_val_digit _ _ E). Qed.
Lemma a2b_pair c d s l : a2b_hex (c :: d :: s) = Ok l -> exists b l', pair_of [c; d] b /\ l = b :: l' /\ a2b_hex s = Ok l'.
Proof.
  cbn [a2b_hex]. destruct (is_hex c) eqn:Hc; [|discriminate]. destruct (is_hex d) eqn:Hd; [|discriminate]. cbn [andb]. intros H. mon H. injection H as <-.
  exists (z2b (digit_val c * 16 + digit_val d)), a. repeat split; auto. rewrite <- byte_of_z2b, Z.mul_comm.
  apply pair_hex; now apply is_hex_digit.
Qed.
Lemma a2b_hex_inv s : forall b, a2b_hex s = Ok b -> hex_of s b.
Proof.
  assert (forall n s b, (length s <= n)%nat -> a2b_hex s = Ok b -> hex_of s b) as K; [|intros b; eapply K; eauto].
  clear s. induction n as [|n IH]; intros [|c [|d s]] b Hl H; cbn in Hl; try lia; try discriminate.
  1,2: injection H as <-; exists []; split; [constructor|reflexivity].
  apply a2b_pair in H as (x & l' & Hp & -> & H). apply IH in H as (ps & Hps & ->); [|lia].
  exists ([c; d] :: ps). split; [now constructor|reflexivity].
Qed.
Lemma a2b_app s : forall t b, Nat.even (length s) = true -> a2b_hex (s ++ t) = Ok b ->
  exists b1 b2, a2b_hex s = Ok b1 /\ a2b_hex t = Ok b2 /\ b = b1 ++ b2.
Proof.
  assert (forall n s t b, (length s <= n)%nat -> Nat.even (length s) = true -> a2b_hex (s ++ t) = Ok b ->
    exists b1 b2, a2b_hex s = Ok b1 /\ a2b_hex t = Ok b2 /\ b = b1 ++ b2) as K; [|intros t b; eapply K; eauto].
  clear s. induction n as [|n IH]; intros [|c [|d s]] t b Hl He H; cbn in Hl; try lia; try discriminate.
  1,2: exists [], b; auto.
  cbn [app] in H. cbn [length Nat.even] in He. cbn [a2b_hex] in *. destruct (is_hex c && is_hex d); [|discriminate]. mon H. injection H as <-.
  apply IH in Ea as (b1 & b2 & E1 & E2 & ->); [|lia|auto]. rewrite E1, E2. cbn [bind]. eauto.
Qed.

(** ** MAC *)
Lemma rx_pair r u m : rx_match (rx_hex 2 ++ r) u = Some m ->
  exists c d u' m', u = c :: d :: u' /\ m = c :: d :: m' /\ rx_match r u' = Some m'.
Proof.
  destruct u as [|c [|d u]]; cbn; try discriminate; destruct (is_hex c); try discriminate. destruct (is_hex d); [|discriminate].
  cbn. destruct (rx_match r u) eqn:E; [|discriminate]. cbn. intros [= <-]. now exists c, d, u, t.
Qed.
Lemma rx_sep f r u m : rx_match ((false, f) :: r) u = Some m -> exists c u', u = c :: u' /\ f c = true /\ rx_match r u' = Some m.
Proof. destruct u as [|c u]; cbn; [discriminate|]. destruct (f c) eqn:E; [|discriminate]. destruct (rx_match r u) eqn:E2; [|discriminate]. cbn. intros [= <-]. now exists c, u. Qed.
Lemma rx_nil u m : rx_match [] u = Some m -> m = [].
Proof. cbn. now intros [= <-]. Qed.
Ltac rxp H :=
  let c := fresh "c" in let d := fresh "d" in let u := fresh "u" in let m := fresh "m" in
  match type of H with rx_match (_ :: _ :: ?r) _ = _ => apply (rx_pair r) in H as (c & d & u & m & -> & -> & H) end.
Lemma twelve c1 d1 c2 d2 c3 d3 c4 d4 c5 d5 c6 d6 l : a2b_hex [c1; d1; c2; d2; c3; d3; c4; d4; c5; d5; c6; d6] = Ok l ->
  Forall2 pair_of [[c1; d1]; [c2; d2]; [c3; d3]; [c4; d4]; [c5; d5]; [c6; d6]] l.
Proof. intros H. do 6 (apply a2b_pair in H as (? & ? & ? & -> & H); apply Forall2_cons; [assumption|]). injection H as <-. constructor. Qed.
Lemma mac_scan_inv u v n : mac_scan u = Ok (v, n) ->
  exists p, u = p ++ skipn n u /\ length p = n /\ length v = 12%nat /\ forall l, a2b_hex v = Ok l -> mac_any p l.
Proof.
  unfold mac_scan, mac_rxs. cbn [mac_scan_go].
  destruct (rx_match (rx_hex 12) u) as [m|] eqn:E.
  { intros [= <- <-]. change (rx_hex 12) with (rx_hex 2 ++ rx_hex 2 ++ rx_hex 2 ++ rx_hex 2 ++ rx_hex 2 ++ rx_hex 2 ++ []) in E.
    do 6 (apply rx_pair in E as (? & ? & ? & ? & -> & -> & E)). apply rx_nil in E as ->.
    eexists (_ :: _ :: _ :: _ :: _ :: _ :: _ :: _ :: _ :: _ :: _ :: _ :: []). cbn [app skipn]. split; [reflexivity|]. split; [reflexivity|]. split; [reflexivity|].
    intros l Hl. apply twelve in Hl. apply mac_std. apply (mac_plain _ _ _ _ _ _ _ Hl). }
  rename E into E0. destruct (rx_match (rx_join rx_any (rx_hex 4) 3) u) as [m|] eqn:E.
  { intros [= <- <-]. change (rx_join rx_any (rx_hex 4) 3) with (rx_hex 2 ++ rx_hex 2 ++ rx_any ++ rx_hex 2 ++ rx_hex 2 ++ rx_any ++ rx_hex 2 ++ rx_hex 2 ++ []) in E.
    do 2 (apply rx_pair in E as (? & ? & ? & ? & -> & -> & E)). apply rx_sep in E as (sx & ? & -> & Hx & E).
    do 2 (apply rx_pair in E as (? & ? & ? & ? & -> & -> & E)). apply rx_sep in E as (sy & ? & -> & Hy & E).
    do 2 (apply rx_pair in E as (? & ? & ? & ? & -> & -> & E)). apply rx_nil in E as ->.
    eexists (_ :: _ :: _ :: _ :: _ :: _ :: _ :: _ :: _ :: _ :: _ :: _ :: _ :: _ :: []). cbn [app skipn]. split; [reflexivity|]. split; [reflexivity|]. split; [reflexivity|].
    intros l Hl. apply twelve in Hl. apply (mac_seps _ _ _ _ _ _ sx sy _ Hl); try (intros ->; discriminate).
    intros [Dx%is_hex_iff Dy%is_hex_iff]. do 6 (let P := fresh "P" in inversion Hl as [|? ? ? ? P Hl']; clear Hl; subst; rename Hl' into Hl; inversion P; subst; clear P).
    repeat match goal with D : digit _ = Some _ |- _ => apply digit_hex in D as (D & _ & _) end.
    cbn in E0. repeat match goal with D : is_hex _ = true |- _ => rewrite D in E0; clear D end. discriminate E0. }
  clear E E0. destruct (rx_match (rx_join (rx_chr 58) (rx_hex 2) 6) u) as [m|] eqn:E.
  { intros [= <- <-]. change (rx_join (rx_chr 58) (rx_hex 2) 6) with (rx_hex 2 ++ rx_chr 58 ++ rx_hex 2 ++ rx_chr 58 ++ rx_hex 2 ++ rx_chr 58 ++ rx_hex 2 ++ rx_chr 58 ++ rx_hex 2 ++ rx_chr 58 ++ rx_hex 2 ++ []) in E.
    do 5 (apply rx_pair in E as (? & ? & ? & ? & -> & -> & E); apply rx_sep in E as (? & ? & -> & ?%Z.eqb_eq & E); subst).
    apply rx_pair in E as (? & ? & ? & ? & -> & -> & E). apply rx_nil in E as ->.
    eexists (_ :: _ :: _ :: _ :: _ :: _ :: _ :: _ :: _ :: _ :: _ :: _ :: _ :: _ :: _ :: _ :: _ :: []). cbn [app skipn]. split; [reflexivity|]. split; [reflexivity|]. split; [reflexivity|].
    intros l Hl. apply twelve in Hl. apply mac_std. apply (mac_colons _ _ _ _ _ _ _ Hl). }
  clear E. destruct (rx_match (rx_join (rx_chr 45) (rx_hex 2) 6) u) as [m|] eqn:E; [|discriminate].
  intros [= <- <-]. change (rx_join (rx_chr 45) (rx_hex 2) 6) with (rx_hex 2 ++ rx_chr 45 ++ rx_hex 2 ++ rx_chr 45 ++ rx_hex 2 ++ rx_chr 45 ++ rx_hex 2 ++ rx_chr 45 ++ rx_hex 2 ++ rx_chr 45 ++ rx_hex 2 ++ []) in E.
  do 5 (apply rx_pair in E as (? & ? & ? & ? & -> & -> & E); apply rx_sep in E as (? & ? & -> & ?%Z.eqb_eq & E); subst).
  apply rx_pair in E as (? & ? & ? & ? & -> & -> & E). apply rx_nil in E as ->.
  eexists (_ :: _ :: _ :: _ :: _ :: _ :: _ :: _ :: _ :: _ :: _ :: _ :: _ :: _ :: _ :: _ :: _ :: []). cbn [app skipn]. split; [reflexivity|]. split; [reflexivity|]. split; [reflexivity|].
  intros l Hl. apply twelve in Hl. apply mac_std. apply (mac_dashes _ _ _ _ _ _ _ Hl).
Qed.

(** ** IPv4 *)
Lemma take_digits b f s : b <= 16 -> (forall c, f c = true <-> digit_in b c) ->
  s = take_while f s ++ drop_while f s /\ Forall (digit_in b) (take_while f s) /\ digits_val b (take_while f s) = value b (take_while f s).
Proof.
  intros Hb Hf. pose proof (digits_take b f s Hf) as H. repeat split; auto; [now rewrite take_drop|]. apply digits_val_value. now apply (digits_hex _ b).
Qed.
Lemma value_zero b ds : value b (48 :: ds) = value b ds. Proof. reflexivity. Qed.
Lemma strtoul0_inv c s v r : is_dec c = true -> strtoul0 (c :: s) = (v, r) -> exists n, c :: s = n ++ r /\ c_number n v.
Proof.
  intros Hc H. destruct (Z.eq_dec c 48) as [->|Hn].
  - assert (forall t, strtoul0 (48 :: s) = (digits_val 8 (take_while is_oct (48 :: t)), drop_while is_oct (48 :: t)) -> s = t -> exists n, 48 :: s = n ++ r /\ c_number n v) as O.
    { intros t E <-. rewrite H in E. cbn [take_while drop_while is_oct] in E. change (is_oct 48) with true in E. cbn iota in E.
      destruct (take_digits 8 is_oct s) as (E1 & E2 & E3); [lia|apply is_oct_iff|].
      injection E as -> ->. exists (48 :: take_while is_oct s). split; [cbn [app]; now rewrite <- E1|].
      rewrite digits_val_value, value_zero by (apply (digits_hex _ 8); [lia|constructor; [exists 0; now split|auto]]).
      now apply c_oct. }
    destruct s as [|x [|h s]]; try (apply (O _ eq_refl eq_refl)).
    cbn [strtoul0] in H. destruct ((x =? 120) || (x =? 88)) eqn:Ex; [|apply (O (x :: h :: s)); [cbn [strtoul0]; now rewrite Ex|reflexivity]].
    destruct (is_hex h) eqn:Eh; [|apply (O (x :: h :: s)); [cbn [strtoul0]; now rewrite Ex, Eh|reflexivity]]. cbn [andb] in H. apply pair_equal_spec in H as [<- <-].
    change (skipn 2 (48 :: x :: h :: s)) with (h :: s).
    destruct (take_digits 16 is_hex (h :: s)) as (E1 & E2 & E3); [lia|apply is_hex_iff|].
    exists (48 :: x :: take_while is_hex (h :: s)). split; [rewrite E1 at 1; reflexivity|].
    change (skipn 2 (48 :: x :: h :: s)) with (h :: s). rewrite E3. apply c_hex; [apply orb_true_iff in Ex as [?|?]; [left|right]; now apply Z.eqb_eq|]. split; [|auto]. cbn [take_while]. now rewrite Eh.
  - assert (strtoul0 (c :: s) = (digits_val 10 (take_while is_dec (c :: s)), drop_while is_dec (c :: s))) as E.
    { unfold strtoul0. destruct c as [|p|p]; auto. repeat (destruct p as [p|p|]; auto). congruence. }
    rewrite H in E. apply pair_equal_spec in E as [-> ->]. destruct (take_digits 10 is_dec (c :: s)) as (E1 & E2 & E3); [lia|apply is_dec_iff|].
    exists (take_while is_dec (c :: s)). split; [exact E1|]. rewrite E3. cbn [take_while] in *. rewrite Hc in *.
    apply c_dec; [split; [discriminate|auto]|]. intros r' E'. apply Hn. now injection E'.
Qed.
Lemma pow2_256 n : 2 ^ (8 * Z.of_nat n) = 256 ^ Z.of_nat n.
Proof. rewrite Z.pow_mul_r by lia. reflexivity. Qed.
Lemma value_pos b ds : 0 <= b -> 0 <= value b ds.
Proof.
  intros Hb. induction ds as [|c ds IH]; cbn [value]; [lia|]. apply Z.add_nonneg_nonneg; [|auto]. apply Z.mul_nonneg_nonneg; [|apply Z.pow_nonneg; lia].
  destruct (digit c) as [d|] eqn:E; [|lia]. apply digit_hex in E. lia.
Qed.
Lemma c_number_nonneg n v : c_number n v -> 0 <= v.
Proof. intros H. inversion H; subst; apply value_pos; lia. Qed.
(** without a bracket before it, every character of a token is allowed in tokens *)
Lemma closed_plain P s : closed P s -> forall a d b, s = a ++ d :: b -> (forall c, In c (a ++ [d]) -> ~ opener c) -> P d.
Proof.
  induction 1 as [P|P c s Hc Ho Hs IH|P o e g s Hb Hg IHg Hs IH]; intros a d b E Ha.
  - now destruct a.
  - destruct a as [|x a]; cbn in E; injection E as -> E; [subst; auto|]. apply (IH a d b E). intros y Hy. apply Ha. now right.
  - destruct a as [|x a]; cbn in E; injection E as <- E; exfalso; apply (Ha o); try (now left); now exists e.
Qed.
Lemma open_prefix P p o g a d b : closed P p -> opener o -> p ++ o :: g = a ++ d :: b -> (forall c, In c (a ++ [d]) -> ~ opener c) -> P d.
Proof.
  intros Hp Ho E Ha. assert (exists b', p = a ++ d :: b') as [b' E'].
  { clear Hp. revert a E Ha. induction p as [|x p IH]; intros [|y a] E Ha; cbn in E; injection E as <- E.
    - exfalso. apply (Ha o); [now left|auto].
    - exfalso. apply (Ha o); [now left|auto].
    - now exists p.
    - destruct (IH a E) as [b' ->]; [intros z Hz; apply Ha; now right|]. now exists b'. }
  apply (closed_plain P p Hp a d b' E' Ha).
Qed.
Lemma unclosed_plain P s : unclosed P s -> forall a d b, s = a ++ d :: b -> (forall c, In c (a ++ [d]) -> ~ opener c) -> P d.
Proof.
  intros [Q p o e g Hp Hb Hg|Q p o e g Hp Hb Hg] a d b E Ha; apply (open_prefix Q p o g a d b Hp (ex_intro _ e Hb) E Ha).
Qed.
(** a text without a blank that is not preceded by a bracket *)
Definition tight (s : text) : Prop := forall a d b, s = a ++ d :: b -> (forall c, In c (a ++ [d]) -> ~ opener c) -> ~ sep_char d.
Lemma token_tight p : token p \/ unfinished_token p -> tight p.
Proof.
  intros [H|H] a d b E Ha; [apply (closed_plain _ _ H _ _ _ E Ha)|apply (unclosed_plain _ _ H _ _ _ E Ha)].
Qed.
Lemma tight_after a s : tight (a ++ s) -> (forall c, In c a -> ~ opener c) -> tight s.
Proof.
  intros H Ha x d b -> Hx. apply (H (a ++ x) d b); [now rewrite app_assoc|]. intros c Hc. rewrite <- app_assoc in Hc. apply in_app_or in Hc as [Hc|Hc]; auto.
Qed.
Lemma tight_before a s : tight (a ++ s) -> tight a.
Proof. intros H x d b -> Hx. apply (H x d (b ++ s)); [now rewrite <- app_assoc|auto]. Qed.
Lemma c_space_sep d : c_isspace d = true -> sep_char d /\ ~ opener d.
Proof.
  unfold c_isspace. intros H. split; [|apply pars_none; unfold pars; destruct (Z.eqb_spec d 40), (Z.eqb_spec d 123), (Z.eqb_spec d 91), (Z.eqb_spec d 60); subst; auto; discriminate].
  apply is_delimiter_iff. unfold is_delimiter. apply orb_true_iff in H as [H|H]; rewrite H; now rewrite ?orb_true_r.
Qed.
Definition flat (c : Z) : Prop := plain c /\ c <> 47.
Lemma flat_not_opener c : flat c -> ~ opener c. Proof. intros [H _]. now apply plain_not_opener. Qed.
Lemma digits_flat b ds : Forall (digit_in b) ds -> Forall flat ds.
Proof. apply Forall_impl. intros c (d & E & _). apply digit_plain in E. split; tauto. Qed.
Lemma c_number_flat n v : c_number n v -> Forall flat n.
Proof.
  assert (forall c, In c [48; 120; 88; 46] -> flat c) as K.
  { intros c Hc. split; [|intros ->; cbn in Hc; lia]. cbn in Hc. repeat destruct Hc as [<-|Hc]; try contradiction; unfold plain; cbn; lia. }
  intros H. inversion H as [x ds Hx [_ Hd] |ds Hd|ds [_ Hd] _]; subst.
  - constructor; [apply K; now left|]. constructor; [destruct Hx as [->| ->]; apply K; cbn; auto|]. now apply (digits_flat 16).
  - constructor; [apply K; now left|]. now apply (digits_flat 8).
  - now apply (digits_flat 10).
Qed.
Lemma aton_go_inv n : forall acc s b, aton_go n acc s = Some b -> tight s -> exists l, b = acc ++ l /\ aton (S n) s l /\ Forall flat s.
Proof.
  assert (flat 46) as F46. { split; [unfold plain; lia|lia]. }
  assert (forall n acc c s v r b, is_dec c = true -> strtoul0 (c :: s) = (v, r) -> tight (c :: s) ->
    (r = [] \/ exists d r', r = d :: r' /\ c_isspace d = true) ->
    (if v <? 2 ^ (8 * Z.of_nat (S n)) then Some (acc ++ be_bytes (S n) v) else None) = Some b ->
    exists l, b = acc ++ l /\ aton (S n) (c :: s) l /\ Forall flat (c :: s)) as F.
  { intros n0 acc c s v r b Hc E Ht Hr H. destruct (strtoul0_inv _ _ _ _ Hc E) as (u & Eu & Hu).
    destruct (Z.ltb_spec v (2 ^ (8 * Z.of_nat (S n0)))) as [Hv|]; [|discriminate]. injection H as <-.
    destruct Hr as [->|(d & r' & -> & Hd)].
    - rewrite app_nil_r in Eu. rewrite Eu. exists (be (S n0) v). rewrite be_bytes_spec. repeat split; [|now apply (c_number_flat u v)].
      apply aton_last; auto. split; [now apply (c_number_nonneg u)|]. now rewrite <- pow2_256.
    - exfalso. apply c_space_sep in Hd as [Hd Ho]. apply (Ht u d r' Eu); [|auto]. intros k Hk. apply in_app_or in Hk as [Hk|[<-|[]]]; [|auto].
      apply flat_not_opener. pose proof (c_number_flat u v Hu) as Hf. rewrite Forall_forall in Hf. auto. }
  induction n as [|n IH]; intros acc [|c s] b H Ht; cbn [aton_go] in H; try discriminate;
    destruct (is_dec c) eqn:Hc; try discriminate; destruct (strtoul0 (c :: s)) as [v rest] eqn:E; destruct (0xffffffff <? v); try discriminate;
    (destruct rest as [|d rest]; [refine (F _ _ _ _ _ _ _ Hc E Ht _ H); now left|]); destruct (Z.eqb_spec d 46) as [->|]; try discriminate;
    try (destruct (c_isspace d) eqn:Hd; [refine (F _ _ _ _ _ _ _ Hc E Ht _ H); right; eauto|discriminate]).
  destruct (Z.ltb_spec 255 v); [discriminate|]. destruct (strtoul0_inv _ _ _ _ Hc E) as (u & Eu & Hu). rewrite Eu in *.
  pose proof (c_number_flat u v Hu) as Hf.
  apply IH in H as (l & -> & Hl & Hs).
  - exists (byte_of v :: l). rewrite <- app_assoc. split; [reflexivity|]. split.
    + apply (aton_dot (S n) u v rest l); auto. split; [now apply (c_number_nonneg u)|]. change (256 ^ Z.of_nat 1) with 256. lia.
    + apply Forall_app. split; auto.
  - change (u ++ 46 :: rest) with (u ++ [46] ++ rest) in Ht. rewrite app_assoc in Ht. apply tight_after in Ht; [auto|].
    intros k Hk. apply flat_not_opener. apply in_app_or in Hk as [Hk|[<-|[]]]; [|auto]. rewrite Forall_forall in Hf. auto.
Qed.
Lemma inet_aton_inv s b : inet_aton s = Ok b -> tight s -> ipv4_any s b /\ Forall flat s.
Proof.
  intros H Ht. pose proof (inet_aton_length _ _ H) as Hl. unfold inet_aton in H. destruct (bad_cstr s); [discriminate|].
  destruct (aton_go 3 [] s) eqn:E; [|discriminate]. injection H as <-. apply aton_go_inv in E as (l & -> & Ha & Hf); [|auto]. now repeat split.
Qed.

(** ** Python's int() *)
Lemma is_int_space_iff c : is_int_space c = true <-> int_blank c.
Proof. unfold is_int_space, int_blank. rewrite <- is_space_iff. destruct (is_space c); cbn [andb]; lia. Qed.
Lemma strip_parts s : exists a b, s = a ++ strip s ++ b /\ Forall int_blank a /\ Forall int_blank b.
Proof.
  assert (forall l, Forall int_blank (take_while is_int_space l)) as T.
  { intros l. apply (forallb_Forall is_int_space int_blank); [apply is_int_space_iff|]. apply take_while_all. }
  unfold strip. set (t := drop_while is_int_space s). exists (take_while is_int_space s), (rev (take_while is_int_space (rev t))). repeat split; auto.
  - rewrite <- rev_app_distr, take_drop, rev_involutive. unfold t. now rewrite take_drop.
  - apply Forall_rev, T.
Qed.
Lemma zeros_same : dec_zeros = decimal_zeros. Proof. reflexivity. Qed.
Lemma zeros_apart : forallb (fun a => forallb (fun b => (a =? b) || (a + 9 <? b) || (b + 9 <? a)) dec_zeros) dec_zeros = true.
Proof. vm_compute. reflexivity. Qed.
Lemma ascii_digit v : 0 <= v <= 9 <-> digit_in 10 (48 + v).
Proof. rewrite <- is_dec_iff. unfold is_dec. lia. Qed.
Lemma dec_value_iff c v : dec_value c = Some v <-> decimal_digit c (48 + v).
Proof.
  unfold dec_value, decimal_digit. rewrite <- ascii_digit, <- zeros_same. chr_red. split.
  - destruct (find _ dec_zeros) as [z|] eqn:E; [|discriminate]. cbn [option_map]. intros [= <-]. apply find_some in E as [Hz E].
    apply andb_true_iff in E as [E1 E2]. apply Z.leb_le in E1, E2. split; [lia|]. exists z. split; [auto|lia].
  - intros (Hv & z & Hz & E). destruct (find _ dec_zeros) as [y|] eqn:F.
    + apply find_some in F as [Hy F]. apply andb_true_iff in F as [F1 F2]. apply Z.leb_le in F1, F2. cbn [option_map].
      pose proof (proj1 (forallb_forall _ _) (proj1 (forallb_forall _ _) zeros_apart z Hz) y Hy) as K. cbn beta in K.
      f_equal. clear - K E F1 F2 Hv. lia.
    + apply (find_none _ _ F) in Hz. lia.
Qed.
Lemma decimal_exists c d : decimal_digit c d -> exists v, d = 48 + v.
Proof. intros _. exists (d - 48). lia. Qed.
Lemma decimal_char c d : decimal_digit c d -> digit_in 10 d /\ (48 <= c <= 57 \/ 1632 <= c) /\ ~ blank c /\ ~ 0xd800 <= c <= 0xdfff.
Proof.
  intros (Hd & z & Hz & E). split; [exact Hd|]. apply is_dec_iff in Hd. unfold is_dec in Hd. revert E. chr_red. intros E.
  assert (c = z + (d - 48) /\ 0 <= d - 48 <= 9) as [Ec Hv] by lia. clear E Hd. set (v := d - 48) in *. clearbody v. subst c.
  cbn [decimal_zeros In] in Hz. unfold blank. repeat (destruct Hz as [<-|Hz]; [lia|]). destruct Hz.
Qed.
Lemma us_digits_inv s : forall ds, us_digits true s = Some ds -> underscored s ds /\ Forall (digit_in 10) ds.
Proof.
  assert (forall n s ds c v, (length s <= n)%nat -> dec_value c = Some v -> us_digits false s = Some ds -> underscored (c :: s) (48 + v :: ds) /\ Forall (digit_in 10) (48 + v :: ds)) as K.
  { induction n as [|n IH]; intros [|d s0] ds c v Hl Hc H; cbn [length] in Hl; try lia; apply dec_value_iff in Hc; destruct (decimal_char _ _ Hc) as [Hv _].
    1,2: injection H as <-; split; [now constructor|now repeat constructor].
    cbn [us_digits] in H. destruct (dec_value d) as [w|] eqn:Hd.
    - destruct (us_digits false s0) eqn:E; [|discriminate]. injection H as <-. apply (IH s0 t d w) in E as [E1 E2]; [|lia|auto].
      split; [now constructor|now constructor].
    - destruct (Z.eqb_spec d 95) as [->|]; [|discriminate]. cbn [andb negb] in H. destruct s0 as [|e s0]; [discriminate|]. cbn [us_digits] in H.
      destruct (dec_value e) as [w|] eqn:He; [|now rewrite andb_false_r in H]. destruct (us_digits false s0) eqn:E; [|discriminate]. injection H as <-.
      apply (IH s0 t e w) in E as [E1 E2]; [|cbn in Hl; lia|auto]. split; [now apply us_under|now constructor]. }
  intros ds H. destruct s as [|c s]; [discriminate|]. cbn [us_digits] in H. destruct (dec_value c) as [v|] eqn:Hc; [|now rewrite andb_false_r in H].
  destruct (us_digits false s) eqn:E; [|discriminate]. injection H as <-. eapply K; eauto.
Qed.
Lemma py_int_inv s v : py_int s = Ok v -> exists a g d ds b, s = a ++ g ++ d ++ b /\ Forall int_blank a /\ Forall int_blank b /\ underscored d ds /\ Forall (digit_in 10) ds
  /\ ((g = [] \/ g = [43]) /\ v = value 10 ds \/ g = [45] /\ v = - value 10 ds).
Proof.
  unfold py_int. destruct (strip_parts s) as (a & b & E & Ha & Hb). set (t := strip s) in *. clearbody t.
  assert (exists g d, t = g ++ d /\ match t with 45 :: r => (true, r) | 43 :: r => (false, r) | _ => (false, t) end = (match g with [45] => true | _ => false end, d)
    /\ (g = [] \/ g = [43] \/ g = [45])) as (g & d & Et & Em & Hg).
  { destruct t as [|c r]; [exists [], []; auto|]. destruct (Z.eq_dec c 45) as [->|H1]; [exists [45], r; auto|]. destruct (Z.eq_dec c 43) as [->|H2]; [exists [43], r; auto|].
    exists [], (c :: r). repeat split; auto. destruct c as [|p|p]; auto. repeat (destruct p as [p|p|]; auto); congruence. }
  rewrite Em. destruct (us_digits true d) as [ds|] eqn:Ed; [|discriminate]. apply us_digits_inv in Ed as [Hu Hd]. intros [= <-].
  exists a, g, d, ds, b. rewrite digits_val_value by (now apply (digits_hex _ 10)). subst. repeat split; auto.
  - now rewrite <- app_assoc.
  - destruct Hg as [->|[->| ->]]; auto.
Qed.
Lemma underscored_chars d ds : underscored d ds -> forall c, In c d -> (exists v, decimal_digit c v) \/ c = 95.
Proof. induction 1; cbn [In]; intros k Hk; repeat destruct Hk as [<-|Hk]; eauto; try contradiction. Qed.
(** the fallback for a ValueError of inet_aton is never of use *)
Lemma bad_not_int s v : bad_cstr s = true -> py_int s <> Ok v.
Proof.
  intros Hb H. apply py_int_inv in H as (a & g & d & ds & b & -> & Ha & Hb' & Hu & _ & Hg). unfold bad_cstr in Hb. apply existsb_exists in Hb as (c & Hc & Hk).
  assert (c = 0 \/ 0xd800 <= c <= 0xdfff) as K.
  { apply orb_true_iff in Hk as [Hk|Hk]; [left; now apply Z.eqb_eq|right]. apply andb_true_iff in Hk as [H1 H2]. apply Z.leb_le in H1, H2. lia. }
  clear Hk. assert (forall k, int_blank k -> k = 0 \/ 0xd800 <= k <= 0xdfff -> False) as B. { unfold int_blank, blank. intros k. lia. }
  apply in_app_or in Hc as [Hc|Hc]; [rewrite Forall_forall in Ha; apply (B c); auto|].
  apply in_app_or in Hc as [Hc|Hc]; [destruct Hg as [[[->| ->] _]|[-> _]]; cbn in Hc; [contradiction| |]; destruct Hc as [<-|[]]; lia|].
  apply in_app_or in Hc as [Hc|Hc]; [|rewrite Forall_forall in Hb'; apply (B c); auto].
  apply (underscored_chars d ds Hu) in Hc as [[w Hc]|Hc]; [|lia]. apply decimal_char in Hc. lia.
Qed.
Lemma ipv4_mask_inv s b : ipv4_mask s = Ok b -> inet_aton s = Ok b.
Proof.
  unfold ipv4_mask. destruct (inet_aton s) eqn:E; auto. destruct e; auto; try discriminate. intros H. mon H. exfalso. unfold inet_aton in E.
  destruct (bad_cstr s) eqn:Eb; [exact (bad_not_int _ _ Eb Ea)|]. destruct (aton_go 3 [] s); discriminate.
Qed.

(** ** IPv6 *)
Lemma dec_digit v d : 0 < v <= 25 -> 0 <= d < 10 -> dec (v * 10 + d) = dec v ++ [48 + d].
Proof.
  intros Hv Hd. assert (forallb (fun v => forallb (fun d => text_eqb (dec ((v + 1) * 10 + d)) (dec (v + 1) ++ [48 + d])) (upto 10)) (upto 25) = true) as E by (vm_compute; reflexivity).
  pose proof (proj1 (forallb_forall _ _) E (v - 1) (in_upto 25 (v - 1) ltac:(lia))) as E1. cbv beta in E1.
  pose proof (proj1 (forallb_forall _ _) E1 d (in_upto 10 d ltac:(lia))) as E2. cbv beta in E2. apply text_eqb_eq in E2. now replace (v - 1 + 1) with v in E2 by lia.
Qed.
Lemma dec_one c : is_dec c = true -> dec (c - 48) = [c].
Proof.
  intros H. assert (forallb (fun d => text_eqb (dec d) [48 + d]) (upto 10) = true) as E by (vm_compute; reflexivity).
  apply andb_true_iff in H as [H1 H2]. apply Z.leb_le in H1, H2.
  pose proof (proj1 (forallb_forall _ _) E (c - 48) (in_upto 10 (c - 48) ltac:(lia))) as E2. cbv beta in E2. apply text_eqb_eq in E2. now replace (48 + (c - 48)) with c in E2 by lia.
Qed.
Lemma ipv4_str_cons x l : ipv4_str (x :: l) = dec (byte_val x) ++ match l with [] => [] | _ => 46 :: ipv4_str l end.
Proof. destruct l; [cbn; now rewrite app_nil_r|reflexivity]. Qed.
Lemma pton4_inv s : forall acc cur b, pton4_go acc cur s = Some b ->
  match cur with
  | None => exists l, b = acc ++ l /\ l <> [] /\ s = ipv4_str l
  | Some v => 0 <= v < 256 -> exists ds x l, b = acc ++ x :: l /\ dec (byte_val x) = dec v ++ ds /\ s = ds ++ match l with [] => [] | _ => 46 :: ipv4_str l end
  end /\ length b = 4%nat.
Proof.
  induction s as [|c s IH]; intros acc cur b H; cbn [pton4_go] in H.
  - destruct cur as [v|]; [|discriminate]. destruct (Nat.eqb_spec (length acc) 3) as [E|]; [|discriminate]. injection H as <-. split; [|rewrite app_length; cbn; lia].
    intros Hv. exists [], (z2b v), []. rewrite byte_val_b2z, b2z_z2b, Z.mod_small, app_nil_r by lia. auto.
  - destruct (is_dec c) eqn:Hc.
    + pose proof Hc as Hr. apply andb_true_iff in Hr as [H1 H2]. apply Z.leb_le in H1, H2. destruct cur as [v|].
      * destruct (Z.eqb_spec v 0); [discriminate|]. destruct (Z.ltb_spec 255 (v * 10 + (c - 48))); [discriminate|]. apply IH in H as [H Hl]. split; [|auto].
        intros Hv. destruct H as (ds & x & l & -> & Ed & ->); [lia|]. exists (c :: ds), x, l. repeat split; auto. rewrite Ed, dec_digit by lia.
        rewrite <- app_assoc. do 2 f_equal. cbn [app]. f_equal. lia.
      * destruct (3 <? length acc)%nat; [discriminate|]. apply IH in H as [H Hl]. split; [|auto]. destruct H as (ds & x & l & -> & Ed & ->); [lia|].
        exists (x :: l). repeat split; [discriminate|]. rewrite ipv4_str_cons, Ed, dec_one by auto. reflexivity.
    + destruct (Z.eqb_spec c 46) as [->|]; [|discriminate]. destruct cur as [v|]; [|discriminate]. destruct (Nat.eqb (length acc) 3); [discriminate|].
      apply IH in H as [(l & -> & Hl & ->) Hlen]. split; [|auto]. intros Hv. exists [], (z2b v), l.
      rewrite byte_val_b2z, b2z_z2b, Z.mod_small, app_nil_r, <- app_assoc by lia. repeat split; auto. destruct l; [congruence|reflexivity].
Qed.
Definition gap6 (us vs : list text) : text := match us with [] => 58 :: sepby 58 vs | _ => sepby 58 us ++ 58 :: 58 :: sepby 58 vs end.
Lemma sepby_cons c u us : us <> [] -> sepby c (u :: us) = u ++ c :: sepby c us.
Proof. destruct us; [congruence|reflexivity]. Qed.
Lemma pton6_inv s : forall ct ds tp cp xd val tp' cp', pton6_go ct tp cp xd val s = Some (tp', cp') ->
  ct = ds ++ s -> Forall (digit_in 16) ds -> length ds = xd -> (xd <= 4)%nat -> val = value 16 ds ->
  cp' = cp /\ (exists us l, tail6 us l /\ ct = sepby 58 us /\ tp' = tp ++ l)
  \/ cp = None /\ exists us vs a b, heads6 us a /\ tail6 vs b /\ ct = gap6 us vs /\ tp' = tp ++ a ++ b /\ cp' = Some (length (tp ++ a)).
Proof.
  induction s as [|c s IH]; intros ct ds tp cp xd val tp' cp' H Ect Hds Hxd Hx4 Hval; cbn [pton6_go] in H.
  - destruct (Nat.ltb_spec 0 xd).
    + destruct (16 <? length tp + 2)%nat; [discriminate|]. injection H as <- <-. left. split; auto. exists [ds], (be 2 val ++ []).
      rewrite app_nil_r in Ect. rewrite be_bytes_spec, app_nil_r. subst ct val. repeat split. rewrite <- (app_nil_r (be 2 _)). apply tail6_cons; [|constructor].
      constructor; [|lia]. split; [|auto]. now destruct ds; [cbn in *; lia|].
    + injection H as <- <-. left. split; auto. exists [], []. destruct ds; [|cbn in *; lia]. subst ct. split; [constructor|]. split; [reflexivity|now rewrite app_nil_r].
  - destruct (is_hex c) eqn:Hc.
    + destruct (Nat.eqb_spec xd 4); [discriminate|]. apply (IH _ (ds ++ [c])) in H; auto.
      * now rewrite <- app_assoc.
      * apply Forall_app. split; auto. constructor; auto. now apply is_hex_iff.
      * rewrite app_length. cbn. lia.
      * lia.
      * rewrite value_app. cbn [length]. change (16 ^ Z.of_nat 1) with 16. cbn [value]. rewrite (is_hex_digit c Hc). cbn [length]. change (16 ^ Z.of_nat 0) with 1. lia.
    + destruct (Z.eqb_spec c 58) as [->|].
      * destruct (Nat.eqb_spec xd 0) as [->|Hx0].
        -- destruct cp as [k|]; [discriminate|]. destruct ds; [|cbn in *; lia]. cbn [app] in Ect. right. split; auto.
           apply (IH _ []) in H; auto. destruct H as [(-> & us & l & Ht & -> & ->)|(H & _)]; [|discriminate].
           exists [], us, [], l. rewrite !app_nil_r. repeat split; auto. constructor.
        -- destruct s as [|c' s']; [discriminate|]. destruct (16 <? length tp + 2)%nat; [discriminate|]. rewrite be_bytes_spec in H.
           assert (hextet ds (be 2 val)) as Hh. { subst val. constructor; [|lia]. split; [|auto]. now destruct ds; [cbn in *; lia|]. }
           apply (IH _ []) in H; auto; try (cbn; lia). destruct H as [(-> & us & l & Ht & E & ->)|(-> & us & vs & a & b & Hu & Hv & E & -> & ->)].
           ++ left. split; auto. exists (ds :: us), (be 2 val ++ l). rewrite <- app_assoc. repeat split; [now constructor|].
              rewrite sepby_cons by (intros ->; discriminate E). now rewrite <- E.
           ++ right. split; auto. exists (ds :: us), vs, (be 2 val ++ a), b. rewrite <- !app_assoc. repeat split; auto; [now constructor|].
              rewrite Ect, E. unfold gap6. destruct us as [|u us]; [reflexivity|]. rewrite (sepby_cons 58 ds) by discriminate. now rewrite <- app_assoc.
      * destruct ((c =? 46) && (length tp + 4 <=? 16)%nat); [|discriminate]. destruct (pton4_go [] None ct) eqn:E; [|discriminate]. injection H as <- <-.
        apply pton4_inv in E as [(l & -> & _ & ->) Hl]. left. split; auto. exists [ipv4_str l], l. repeat split. now constructor.
Qed.
Lemma heads_first us a : heads6 us a -> us = [] \/ exists c r, sepby 58 us = c :: r /\ c <> 58.
Proof.
  intros [|u b us' l [u' [Hn Hd] Hl] H]; [now left|right]. destruct u' as [|c r]; [congruence|]. exists c, (r ++ match us' with [] => [] | _ => 58 :: sepby 58 us' end).
  split; [destruct us'; cbn; now rewrite ?app_nil_r|]. intros ->. inversion Hd as [|? ? (d & E & _) _]. discriminate E.
Qed.
Lemma tail_first us l : tail6 us l -> us = [] \/ exists c r, sepby 58 us = c :: r /\ c <> 58.
Proof.
  intros [|l0 Hl|u b us' l0 [u' [Hn Hd] Hl] H]; [now left|right|right].
  - cbn [sepby]. destruct l0 as [|x l0]; [discriminate|]. rewrite ipv4_str_cons. destruct (dec_byte x) as (c & s & -> & Hc & _). eexists c, _. split; [reflexivity|]. intros ->. discriminate.
  - destruct u' as [|c r]; [congruence|]. exists c, (r ++ match us' with [] => [] | _ => 58 :: sepby 58 us' end).
    split; [destruct us'; cbn; now rewrite ?app_nil_r|]. intros ->. inversion Hd as [|? ? (d & E & _) _]. discriminate E.
Qed.
Lemma inet_pton6_inv s b : inet_pton6 s = Ok b -> ipv6_any s b.
Proof.
  unfold inet_pton6. destruct (bad_cstr s); [discriminate|]. destruct (pton6 s) as [b'|] eqn:E; [|discriminate]. intros [= <-].
  assert (forall ct, finish6 (pton6_go ct [] None 0 0 ct) = Some b' -> (exists us, tail6 us b' /\ length b' = 16%nat /\ ct = sepby 58 us)
    \/ exists us vs a n c, heads6 us a /\ tail6 vs c /\ (1 <= n)%nat /\ length (a ++ pad n ++ c) = 16%nat /\ b' = a ++ pad n ++ c /\ ct = gap6 us vs) as F.
  { intros ct H. unfold finish6 in H. destruct (pton6_go ct [] None 0 0 ct) as [[tp cp]|] eqn:Eg; [|discriminate].
    apply (pton6_inv ct ct []) in Eg; auto; try (cbn; lia). destruct Eg as [(-> & us & l & Ht & Ec & ->)|(_ & us & vs & a & c & Hu & Hv & Ec & -> & ->)]; cbn [app] in *.
    - left. destruct (Nat.eqb_spec (length l) 16); [|discriminate]. injection H as <-. eauto.
    - right. rewrite firstn_app, Nat.sub_diag, firstn_all, app_nil_r, skipn_app, Nat.sub_diag, skipn_all in H. cbn [firstn skipn app] in H.
      destruct (Nat.eqb_spec (length (a ++ c)) 16); [discriminate|].
      match type of H with (if Nat.eqb ?x 16 then _ else _) = _ => destruct (Nat.eqb_spec x 16) as [El|]; [|discriminate] end. injection H as <-.
      exists us, vs, a, (16 - length (a ++ c))%nat, c. change zeros with pad in *. repeat split; auto.
      unfold pad in El. rewrite !app_length, repeat_length in El. rewrite app_length in *. lia. }
  destruct s as [|c s]; [discriminate|]. destruct (Z.eq_dec c 58) as [->|Hc].
  - destruct s as [|c s]; [discriminate|]. destruct (Z.eq_dec c 58) as [->|Hc]; [|exfalso; unfold pton6 in E; destruct c as [|p|p]; try discriminate; repeat (destruct p as [p|p|]; try discriminate); congruence].
    rewrite pton6_colon in E. apply F in E as [(us & Ht & _ & Ec)|(us & vs & a & n & c & Hu & Hv & Hn & Hl & -> & Ec)].
    + exfalso. destruct (tail_first us b' Ht) as [->|(c & r & E2 & Hc)]; [discriminate|]. rewrite E2 in Ec. congruence.
    + unfold gap6 in Ec. destruct (heads_first us a Hu) as [->|(c' & r & E2 & Hc)].
      * rewrite Ec. inversion Hu. subst a. apply (ipv6_gap [] [] vs c n); auto.
      * exfalso. destruct us; [discriminate|]. rewrite E2 in Ec. cbn in Ec. congruence.
  - rewrite pton6_start in E by auto. apply F in E as [(us & Ht & Hl & ->)|(us & vs & a & n & c' & Hu & Hv & Hn & Hl & -> & Ec)].
    + now apply ipv6_whole.
    + unfold gap6 in Ec. destruct us as [|u us]; [congruence|]. rewrite Ec. now apply (ipv6_gap (u :: us) a vs c' n).
Qed.
Lemma ipv6_mask_inv s b : ipv6_mask s = Ok b -> ipv6_mask_any s b.
Proof.
  unfold ipv6_mask. assert (forall r : res bytes, (mask_len <- py_int s ;; v <- py_shl 0xFFFFFFFFFFFFFFFFFFFFFFFFFFFFFFFF (128 - mask_len) ;;
      pack [sQ; sQ] [Z.shiftr v 64; Z.land v 0xFFFFFFFFFFFFFFFF]) = Ok b -> ipv6_mask_any s b) as F.
  { intros _ H. mon H. mon H. right. unfold py_shl in Ea0. destruct (Z.ltb_spec (128 - a) 0); [discriminate|]. injection Ea0 as <-.
    assert (a = 128) as ->.
    { apply pack_u_inv in H as [[_ H] _]. change (256 ^ Z.of_nat 8) with (2 ^ 64) in H. rewrite Z.shiftr_div_pow2, Z.shiftl_mul_pow2 in H by lia.
      destruct (Z.eq_dec a 128); [auto|exfalso]. assert (2 <= 2 ^ (128 - a)) as K. { change 2 with (2 ^ 1) at 1. apply Z.pow_le_mono_r; lia. }
      assert (2 ^ 64 <= 0xFFFFFFFFFFFFFFFFFFFFFFFFFFFFFFFF * 2 ^ (128 - a) / 2 ^ 64); [|lia].
      apply Z.div_le_lower_bound; [reflexivity|]. apply Z.le_trans with (0xFFFFFFFFFFFFFFFFFFFFFFFFFFFFFFFF * 2); [vm_compute; discriminate|]. apply Z.mul_le_mono_nonneg_l; [discriminate|auto]. }
    split; [|assert (Ok b = Ok (prefix_mask 16 128)) as K by (rewrite <- H; vm_compute; reflexivity); now injection K].
    apply py_int_inv in Ea as (x & g & d & ds & y & -> & Hx & Hy & Hu & Hd & [[Hg Hv]|[_ Hv]]); [now exists x, g, d, ds, y|].
    exfalso. pose proof (value_pos 10 ds ltac:(lia)). lia. }
  destruct (inet_pton6 s) eqn:E; [|apply (F (Raise e))|apply (F Diverge)]. intros [= <-]. left. now apply inet_pton6_inv.
Qed.
