(** Printed integers: Python's format output (PyNum) against the standard library's
    numeral printing used in Spec.v. *)
From Coq Require Import Strings.Ascii DecimalString HexadecimalString DecimalFacts HexadecimalFacts
  DecimalN HexadecimalN DecimalZ.
From Verif Require Import Base PyNum Util Spec BaseFacts UtilFacts.

(** a digit string as the printer writes it: lower-case digits, no leading zero *)
Definition canon (b : Z) (s : text) : Prop :=
  Forall (fun c => exists d, c = digit_char d /\ 0 <= d < b) s
  /\ match s with [] => False | c :: s' => c = 48 -> s' = [] end.

Lemma digit_digit_char d : 0 <= d < 16 -> digit (digit_char d) = Some d.
Proof.
  intros H. unfold digit, digit_char. chr_red. destruct (Z.ltb_spec d 10).
  - replace ((48 <=? 48 + d) && (48 + d <=? 57)) with true by lia. f_equal; lia.
  - replace ((48 <=? 87 + d) && (87 + d <=? 57)) with false by lia.
    replace ((97 <=? 87 + d) && (87 + d <=? 102)) with true by lia. f_equal; lia.
Qed.
Lemma value_app b s t : value b (s ++ t) = value b s * b ^ Z.of_nat (length t) + value b t.
Proof.
  induction s as [|c s IH]; cbn [app value]; [lia|]. rewrite IH, app_length, Nat2Z.inj_add, Z.pow_add_r by lia.
  ring.
Qed.
Lemma value_snoc b s d : 0 <= d < 16 -> value b (s ++ [digit_char d]) = value b s * b + d.
Proof.
  intros H. rewrite value_app. cbn [value length]. rewrite digit_digit_char by auto.
  change (Z.of_nat 1) with 1. rewrite Z.pow_1_r. change (b ^ Z.of_nat 0) with 1. lia.
Qed.
Lemma value_nonneg b s : 2 <= b <= 16 -> Forall (fun c => exists d, c = digit_char d /\ 0 <= d < b) s ->
  0 <= value b s.
Proof.
  intros Hb H. induction H as [|c s [d [-> Hd]] Hs IH]; cbn [value]; [lia|].
  rewrite digit_digit_char by lia. pose proof (Z.pow_nonneg b (Z.of_nat (length s))). nia.
Qed.
Lemma canon_snoc b s c : 2 <= b <= 16 -> canon b (s ++ [c]) -> s <> [] -> canon b s /\ 0 < value b s.
Proof.
  intros Hb [H1 H2] Hn. apply Forall_app in H1 as [H1 _]. destruct s as [|x s]; [congruence|].
  assert (x <> 48) as Hx.
  { intros ->. cbn in H2. specialize (H2 eq_refl). destruct s; discriminate. }
  split; [split; [auto|congruence]|].
  inversion H1 as [|? ? [d [-> Hd]] Hs]; subst. cbn [value]. rewrite digit_digit_char by lia.
  pose proof (value_nonneg b s Hb Hs).
  assert (d <> 0) as Hd0 by (intros ->; apply Hx; reflexivity).
  assert (0 < b ^ Z.of_nat (length s)) by (apply Z.pow_pos_nonneg; lia). nia.
Qed.
Lemma digits_fuel_step b n f acc : 2 <= b -> 0 <= n -> (Z.to_nat (Z.log2 n) < f)%nat ->
  forall s, canon b s -> b <= 16 -> n = value b s -> digits_fuel f b n acc = s ++ acc.
Proof.
  intros Hb. revert n acc. induction f as [|f IH]; intros n acc Hn Hf s Hs Hb16 E; [lia|].
  destruct (exists_last (l := s)) as [s' [c ->]].
  { destruct Hs as [_ Hs]. intros ->. exact Hs. }
  pose proof Hs as [H1 H2]. apply Forall_app in H1 as [H0 H1]. inversion H1 as [|? ? [d [-> Hd]] _]; subst.
  rewrite value_snoc in * by lia. cbn [digits_fuel]. destruct s' as [|x s'].
  - cbn [value app]. replace (0 * b + d) with d by lia. now destruct (Z.ltb_spec d b); [|lia].
  - destruct (canon_snoc b (x :: s') (digit_char d)) as [Hc Hv]; auto; [discriminate|].
    destruct (Z.ltb_spec (value b (x :: s') * b + d) b); [nia|].
    rewrite Z.div_add_l, (Z.div_small d b), Z.add_0_r by lia.
    rewrite Z.add_comm, Z.mod_add, (Z.mod_small d b) by lia.
    rewrite (IH (value b (x :: s')) _) with (s := x :: s'); auto.
    + now rewrite <- app_assoc.
    + lia.
    + pose proof (Z.log2_nonneg (value b (x :: s'))).
      assert (Z.log2 (value b (x :: s')) < Z.log2 (value b (x :: s') * b + d)); [|lia].
      eapply Z.lt_le_trans with (Z.log2 (2 * value b (x :: s'))).
      * rewrite Z.log2_double by lia. lia.
      * apply Z.log2_le_mono. nia.
Qed.
Lemma digits_canon b s : 2 <= b <= 16 -> canon b s -> digits b (value b s) = s.
Proof.
  intros Hb Hs. unfold digits. rewrite (digits_fuel_step b) with (s := s); try lia; auto.
  - apply app_nil_r.
  - apply value_nonneg; [lia|]. apply Hs.
Qed.

Ltac dd := match goal with |- exists d, ?c = digit_char d /\ _ =>
             let v := eval vm_compute in (if 90 <? c then c - 87 else c - 48) in
             exists v; split; [reflexivity|lia] end.
(** ** decimal *)
Definition dtext (d : Decimal.uint) : text := s2t (DecimalString.NilEmpty.string_of_uint d).
Lemma dtext_digits d : Forall (fun c => exists k, c = digit_char k /\ 0 <= k < 10) (dtext d).
Proof. induction d; cbn [dtext DecimalString.NilEmpty.string_of_uint s2t]; constructor; auto; dd. Qed.
Ltac dstep d :=
  unfold dtext; cbn [DecimalString.NilEmpty.string_of_uint s2t length value]; fold (dtext d);
  match goal with |- context [digit ?c] => let v := eval vm_compute in (digit c) in change (digit c) with v end;
  cbn match.
Lemma dtext_value_acc d : forall acc, Z.pos (Pos.of_uint_acc d acc) =
  Z.pos acc * 10 ^ Z.of_nat (length (dtext d)) + value 10 (dtext d).
Proof.
  induction d; intros acc; cbn [Pos.of_uint_acc]; [unfold dtext; cbn; lia|..];
    rewrite IHd; dstep d;
    rewrite Nat2Z.inj_succ, Z.pow_succ_r by lia;
    generalize (10 ^ Z.of_nat (length (dtext d))) (value 10 (dtext d)); intros; lia.
Qed.
Lemma dtext_value d : Z.of_N (N.of_uint d) = value 10 (dtext d).
Proof.
  unfold N.of_uint. induction d; cbn [Pos.of_uint]; [reflexivity| |..].
  1: rewrite IHd; dstep d; lia.
  all: cbn [Z.of_N]; rewrite dtext_value_acc; dstep d; reflexivity.
Qed.
Lemma dtext_canon n : canon 10 (dtext (N.to_uint n)).
Proof.
  split; [apply dtext_digits|].
  assert (Decimal.unorm (N.to_uint n) = N.to_uint n) as E.
  { rewrite <- DecimalN.Unsigned.to_of, DecimalN.Unsigned.of_to. reflexivity. }
  unfold Decimal.unorm in E. pose proof (DecimalFacts.nzhead_nonzero (N.to_uint n)) as Hz.
  destruct (Decimal.nzhead (N.to_uint n)) eqn:Eh; rewrite <- E in *;
    unfold dtext; cbn [DecimalString.NilEmpty.string_of_uint s2t]; try (intros H; discriminate H); auto.
  destruct (Hz u eq_refl).
Qed.
Lemma dtext_digits_eq n : dtext (N.to_uint n) = digits 10 (Z.of_N n).
Proof.
  rewrite <- (digits_canon 10 (dtext (N.to_uint n))) by (try lia; apply dtext_canon).
  rewrite <- dtext_value. now rewrite DecimalN.Unsigned.of_to.
Qed.
(** ** hexadecimal *)
Definition htext (d : Hexadecimal.uint) : text := s2t (HexadecimalString.NilEmpty.string_of_uint d).
Lemma htext_digits d : Forall (fun c => exists k, c = digit_char k /\ 0 <= k < 16) (htext d).
Proof. induction d; cbn [htext HexadecimalString.NilEmpty.string_of_uint s2t]; constructor; auto; dd. Qed.
Ltac hstep d :=
  unfold htext; cbn [HexadecimalString.NilEmpty.string_of_uint s2t length value]; fold (htext d);
  match goal with |- context [digit ?c] => let v := eval vm_compute in (digit c) in change (digit c) with v end;
  cbn match.
Lemma htext_value_acc d : forall acc, Z.pos (Pos.of_hex_uint_acc d acc) =
  Z.pos acc * 16 ^ Z.of_nat (length (htext d)) + value 16 (htext d).
Proof.
  induction d; intros acc; cbn [Pos.of_hex_uint_acc]; [unfold htext; cbn; lia|..];
    rewrite IHd; hstep d;
    rewrite Nat2Z.inj_succ, Z.pow_succ_r by lia;
    generalize (16 ^ Z.of_nat (length (htext d))) (value 16 (htext d)); intros; lia.
Qed.
Lemma htext_value d : Z.of_N (N.of_hex_uint d) = value 16 (htext d).
Proof.
  unfold N.of_hex_uint. induction d; cbn [Pos.of_hex_uint]; [reflexivity| |..].
  1: rewrite IHd; hstep d; lia.
  all: cbn [Z.of_N]; rewrite htext_value_acc; hstep d; reflexivity.
Qed.
Lemma htext_canon n : canon 16 (htext (N.to_hex_uint n)).
Proof.
  split; [apply htext_digits|].
  assert (Hexadecimal.unorm (N.to_hex_uint n) = N.to_hex_uint n) as E.
  { rewrite <- HexadecimalN.Unsigned.to_of, HexadecimalN.Unsigned.of_to. reflexivity. }
  unfold Hexadecimal.unorm in E. pose proof (HexadecimalFacts.nzhead_nonzero (N.to_hex_uint n)) as Hz.
  destruct (Hexadecimal.nzhead (N.to_hex_uint n)) eqn:Eh; rewrite <- E in *;
    unfold htext; cbn [HexadecimalString.NilEmpty.string_of_uint s2t]; try (intros H; discriminate H); auto.
  destruct (Hz u eq_refl).
Qed.
Lemma htext_digits_eq n : htext (N.to_hex_uint n) = digits 16 (Z.of_N n).
Proof.
  rewrite <- (digits_canon 16 (htext (N.to_hex_uint n))) by (try lia; apply htext_canon).
  rewrite <- htext_value. now rewrite HexadecimalN.Unsigned.of_to.
Qed.

(** ** the printers *)
Lemma digits_range b n c : 2 <= b <= 16 -> 0 <= n -> In c (digits b n) -> exists k, c = digit_char k /\ 0 <= k < b.
Proof.
  intros Hb Hn. unfold digits.
  assert (forall f n acc, 0 <= n -> Forall (fun c => exists k, c = digit_char k /\ 0 <= k < b) acc ->
    Forall (fun c => exists k, c = digit_char k /\ 0 <= k < b) (digits_fuel f b n acc)) as K.
  { induction f as [|f IH]; intros m acc Hm Ha; cbn [digits_fuel]; [auto|].
    destruct (Z.ltb_spec m b).
    - constructor; auto. exists m. split; auto; lia.
    - apply IH; [apply Z.div_pos; lia|]. constructor; auto. exists (m mod b). split; auto.
      apply Z.mod_pos_bound. lia. }
  intros Hin. specialize (K (S (Z.to_nat (Z.log2 n))) n [] Hn (Forall_nil _)).
  rewrite Forall_forall in K. auto.
Qed.
Lemma dec_pos p : dec (Z.pos p) = dtext (N.to_uint (N.pos p)).
Proof.
  unfold dec, dtext. cbn [Z.to_int DecimalString.NilZero.string_of_int]. f_equal.
  change (N.to_uint (N.pos p)) with (Pos.to_uint p).
  pose proof (DecimalPos.Unsigned.to_uint_nonnil p) as H.
  destruct (Pos.to_uint p); [congruence|reflexivity..].
Qed.
Lemma dec_nonneg n : 0 <= n -> dec n = digits 10 n.
Proof.
  intros H. destruct n as [|p|p]; [reflexivity| |lia].
  rewrite dec_pos, dtext_digits_eq. reflexivity.
Qed.
Lemma dec_neg p : dec (Z.neg p) = 45 :: digits 10 (Z.pos p).
Proof.
  rewrite <- dec_nonneg by lia. unfold dec. cbn [Z.to_int DecimalString.NilZero.string_of_int].
  pose proof (DecimalPos.Unsigned.to_uint_nonnil p) as H.
  destruct (Pos.to_uint p); [congruence|reflexivity..].
Qed.
Lemma fmt_d_dec n : fmt_d n = dec n.
Proof.
  unfold fmt_d. destruct (Z.ltb_spec n 0).
  - destruct n as [|p|p]; try lia. now rewrite dec_neg.
  - now rewrite dec_nonneg by lia.
Qed.
Lemma hex_digits_eq n : 0 <= n -> hex_digits n = digits 16 n.
Proof.
  intros H. unfold hex_digits. rewrite <- (Z2N.id n) at 2 by auto. rewrite <- htext_digits_eq.
  unfold htext. pose proof (htext_canon (Z.to_N n)) as [_ Hc]. f_equal.
  destruct (N.to_hex_uint (Z.to_N n)); [destruct Hc|reflexivity..].
Qed.
Lemma zpad_pad0 w s : zpad w s = pad0 w s.
Proof. reflexivity. Qed.
Lemma fmt_x_hexw w n : 0 <= n -> fmt_x w n = hexw (w - 2) n.
Proof.
  intros H. unfold fmt_x, hexw. destruct (Z.ltb_spec n 0); [lia|].
  rewrite hex_digits_eq by auto. reflexivity.
Qed.
Lemma fmt_02x_eq n : 0 <= n -> fmt_02x n = zpad 2 (hex_digits n).
Proof. intros H. unfold fmt_02x. now rewrite hex_digits_eq. Qed.

(** values and shapes of what is printed *)
Lemma hex_digits_canon n : canon 16 (hex_digits n).
Proof.
  unfold hex_digits. pose proof (htext_canon (Z.to_N n)) as Hc. unfold htext in Hc.
  destruct (N.to_hex_uint (Z.to_N n)); [destruct Hc as [_ []]|exact Hc..].
Qed.
Lemma hex_digits_value n : 0 <= n -> value 16 (hex_digits n) = n.
Proof.
  intros H. rewrite hex_digits_eq by auto. rewrite <- (Z2N.id n) by auto.
  rewrite <- htext_digits_eq, <- htext_value. now rewrite HexadecimalN.Unsigned.of_to.
Qed.
Lemma dec_digits n : 0 <= n -> canon 10 (dec n) /\ value 10 (dec n) = n.
Proof.
  intros H. rewrite dec_nonneg by auto. rewrite <- (Z2N.id n) by auto.
  rewrite <- dtext_digits_eq, <- dtext_value. split; [apply dtext_canon|].
  now rewrite DecimalN.Unsigned.of_to.
Qed.
Lemma canon_numeral b s : 2 <= b <= 16 -> canon b s -> numeral b s.
Proof.
  intros Hb [H1 H2]. split; [intros ->; exact H2|].
  eapply Forall_impl; [|exact H1]. intros c [d [-> Hd]]. exists d.
  rewrite digit_digit_char by lia. split; auto; lia.
Qed.
Lemma value_zeros b n s : value b (repeat 48 n ++ s) = value b s.
Proof. induction n as [|n IH]; cbn [repeat app value]; [auto|]. rewrite IH. cbn. lia. Qed.
Lemma zpad_numeral w s : numeral 16 s -> numeral 16 (zpad w s) /\ value 16 (zpad w s) = value 16 s.
Proof.
  intros [H1 H2]. unfold zpad. chr_red. split; [split|apply value_zeros].
  - destruct s; [congruence|]. destruct (repeat 48 (w - length (z :: s))); discriminate.
  - apply Forall_app. split; auto. apply Forall_forall. intros x Hx. apply repeat_spec in Hx as ->.
    now apply is_hex_iff.
Qed.

(** ** printed integers read back (C05) *)
Definition dec_stops (n : Z) (r : text) : Prop :=
  stops 10 r /\ match r with [] => True | c :: _ => n = 0 -> c <> 120 /\ c <> 88 end.
Lemma reads_dec_text n r : dec_stops n r -> reads (dec n ++ r) n (length (dec n)).
Proof.
  intros [Hs Hx]. destruct n as [|p|p].
  - apply (reads_dec [48]); auto; try (intros; discriminate).
    + apply canon_numeral; [lia|]. split; [|auto]. constructor; [|constructor]. exists 0. cbn. lia.
    + intros x r' _ ->. chr_red. auto.
  - destruct (dec_digits (Z.pos p)) as [Hc Hv]; [lia|].
    assert (forall t, dec (Z.pos p) <> 48 :: t) as Hz.
    { intros t E. rewrite E in *. destruct Hc as [_ Hc]. rewrite (Hc eq_refl) in Hv.
      cbn in Hv. discriminate. }
    rewrite <- Hv at 2. apply reads_dec; auto.
    + apply canon_numeral; [lia|auto].
    + intros d ds' E. destruct (Hz _ E).
    + intros x r' E. destruct (Hz _ E).
  - destruct (dec_digits (Z.pos p)) as [Hc Hv]; [lia|].
    rewrite dec_neg, <- dec_nonneg by lia. cbn [app length].
    change (Z.neg p) with (- Z.pos p). rewrite <- Hv at 2.
    apply reads_neg; auto. apply canon_numeral; [lia|auto].
Qed.
Lemma reads_hex_text w n r : 0 <= n -> stops 16 r -> reads (hexw w n ++ r) n (length (hexw w n)).
Proof.
  intros Hn Hr.
  destruct (zpad_numeral w (hex_digits n)) as [H1 H2].
  { apply canon_numeral; [lia|apply hex_digits_canon]. }
  rewrite hex_digits_value in H2 by auto.
  rewrite <- H2 at 2. unfold hexw.
  apply (reads_hex 120); auto.
Qed.
Lemma parseInt_dec n r : dec_stops n r -> parseInt (dec n ++ r) = Ok (n, length (dec n)).
Proof. intros H. now apply reads_parseInt, reads_dec_text. Qed.
Lemma parseInt_hexw w n r : 0 <= n -> stops 16 r -> parseInt (hexw w n ++ r) = Ok (n, length (hexw w n)).
Proof. intros H1 H2. now apply reads_parseInt, reads_hex_text. Qed.
