(** Coq's SpecFloat operations (stdlib) round as SpecRate says; only for operands that are not
    negative, which is all the model needs. *)
From Verif Require Import Base SpecRate.
From Coq Require Import Floats.SpecFloat.

(** ** Shifting right with a round and a sticky bit *)
Definition stands (mrs : shr_record) (a b : Z) : Prop :=
  0 <= shr_m mrs /\ 0 < b /\
  let d := 2 * (a - shr_m mrs * b) in
  match shr_r mrs, shr_s mrs with
  | false, false => d = 0
  | false, true => 0 < d < b
  | true, false => d = b
  | true, true => b < d < 2 * b
  end.
Lemma shr_1_stands mrs a b : stands mrs a b -> stands (shr_1 mrs) a (2 * b).
Proof.
  destruct mrs as [m r s]. unfold stands. cbn [shr_m shr_r shr_s]. intros (Hm & Hb & H). cbv zeta in *.
  destruct m as [|[p|p|]|p]; try lia; cbn [shr_1 shr_m shr_r shr_s]; destruct r, s; cbn [orb]; nia.
Qed.
Lemma iter_stands p : forall mrs a b, stands mrs a b -> stands (iter_pos shr_1 p mrs) a (2 ^ Zpos p * b).
Proof.
  induction p as [p IH|p IH|]; intros mrs a b H; cbn [iter_pos].
  - replace (2 ^ Zpos p~1 * b) with (2 ^ Zpos p * (2 ^ Zpos p * (2 * b))).
    + apply IH, IH. now apply shr_1_stands.
    + replace (Zpos p~1) with (Zpos p + Zpos p + 1) by lia. rewrite !Z.pow_add_r by lia. ring.
  - replace (2 ^ Zpos p~0 * b) with (2 ^ Zpos p * (2 ^ Zpos p * b)).
    + now apply IH, IH.
    + replace (Zpos p~0) with (Zpos p + Zpos p) by lia. rewrite !Z.pow_add_r by lia. ring.
  - now apply shr_1_stands.
Qed.
Lemma stands_div mrs a b : stands mrs a b -> shr_m mrs = a / b.
Proof.
  destruct mrs as [m r s]. unfold stands. cbn [shr_m shr_r shr_s]. intros (Hm & Hb & H). cbv zeta in *.
  apply (Z.div_unique_pos a b m (a - m * b)); [|lia]. destruct r, s; lia.
Qed.
Lemma stands_even mrs a b : stands mrs a b -> round_nearest_even (shr_m mrs) (loc_of_shr_record mrs) = half_even (a, b).
Proof.
  intros H. pose proof (stands_div _ _ _ H) as E. unfold half_even. cbn [fst snd]. cbv zeta. rewrite Z.mod_eq by (destruct H as (_ & H & _); lia). rewrite <- E.
  destruct mrs as [m r s]. unfold stands in H. cbn [shr_m shr_r shr_s] in *. destruct H as (Hm & Hb & H). cbv zeta in *.
  destruct r, s; cbn [loc_of_shr_record round_nearest_even];
    destruct (Z.ltb_spec (2 * (a - b * m)) b), (Z.eqb_spec (2 * (a - b * m)) b); try lia; try reflexivity.
Qed.

(** ** Digits *)
Lemma digits_pos p : 2 ^ (Zpos (digits2_pos p) - 1) <= Zpos p < 2 ^ Zpos (digits2_pos p).
Proof.
  induction p as [p IH|p IH|]; cbn [digits2_pos]; [| |cbn; lia];
    rewrite !Pos2Z.inj_succ; replace (Z.succ (Zpos (digits2_pos p)) - 1) with (Z.succ (Zpos (digits2_pos p) - 1)) by lia; rewrite !Z.pow_succ_r by lia; lia.
Qed.
Lemma digits_le m d : 0 <= m < 2 ^ d -> 0 <= d -> Zdigits2 m <= d.
Proof.
  intros H Hd. destruct m as [|p|p]; cbn [Zdigits2]; try lia. pose proof (digits_pos p) as Hp.
  destruct (Z.le_gt_cases (Zpos (digits2_pos p)) d) as [|K]; [assumption|exfalso].
  assert (2 ^ d <= 2 ^ (Zpos (digits2_pos p) - 1)) by (apply Z.pow_le_mono_r; lia). lia.
Qed.

(** ** Scaling *)
Lemma two_pos e : 0 < two_to e.
Proof. unfold two_to. apply Z.pow_pos_nonneg; lia. Qed.
Lemma two_sum e k : 0 <= k -> two_to (e + k) * two_to (- e) = 2 ^ k * two_to e * two_to (- (e + k)).
Proof. intros Hk. unfold two_to. rewrite <- !Z.pow_add_r by lia. f_equal. lia. Qed.
(** equal fractions *)
Definition feq (x y : frac) : Prop := fst x * snd y = fst y * snd x.
Definition fine (x : frac) : Prop := 0 <= fst x /\ 0 < snd x.
Lemma half_even_eq x y : fine x -> fine y -> feq x y -> half_even x = half_even y.
Proof.
  destruct x as [a b], y as [c d]. unfold fine, feq, half_even. cbn [fst snd]. intros [Ha Hb] [Hc Hd] E.
  assert (Q : a / b = c / d).
  { rewrite <- (Z.div_mul_cancel_r a b d) by lia. rewrite E. rewrite (Z.mul_comm b d). now rewrite Z.div_mul_cancel_r by lia. }
  assert (R : (a mod b) * d = (c mod d) * b).
  { rewrite !Z.mod_eq by lia. rewrite <- Q. nia. }
  rewrite Q. set (r := a mod b) in *. set (r' := c mod d) in *. clearbody r r'. cbv zeta.
  assert (L1 : 2 * r < b <-> 2 * r' < d) by (split; nia). assert (L2 : 2 * r = b <-> 2 * r' = d) by (split; nia).
  destruct (Z.ltb_spec (2 * r) b), (Z.ltb_spec (2 * r') d), (Z.eqb_spec (2 * r) b), (Z.eqb_spec (2 * r') d); try reflexivity; lia.
Qed.
Lemma scaled_fine x e : fine x -> fine (scaled x e).
Proof. intros [H1 H2]. pose proof (two_pos e). pose proof (two_pos (- e)). split; cbn [scaled fst snd]; nia. Qed.
Lemma scaled_eq x y e : feq x y -> feq (scaled x e) (scaled y e).
Proof. unfold feq, scaled. cbn [fst snd]. intros E. replace (fst x * two_to (- e) * (snd y * two_to e)) with ((fst x * snd y) * (two_to (- e) * two_to e)) by ring. rewrite E. ring. Qed.
Lemma feq_lt x y k : fine x -> fine y -> feq x y -> fst x < k * snd x -> fst y < k * snd y.
Proof. unfold fine, feq. intros [H1 H2] [H3 H4] E L. nia. Qed.
Lemma feq_le x y k : fine x -> fine y -> feq x y -> k * snd x <= fst x -> k * snd y <= fst y.
Proof. unfold fine, feq. intros [H1 H2] [H3 H4] E L. nia. Qed.
Lemma feq_sym x y : feq x y -> feq y x.
Proof. unfold feq. lia. Qed.
Lemma rounds_eq x x' y : fine x -> fine x' -> feq x x' -> rounds x y -> rounds x' y.
Proof.
  intros F F' E (e & He & H1 & H2 & H3 & ->). exists e. pose proof (scaled_fine x e F) as G. pose proof (scaled_fine x' e F') as G'. pose proof (scaled_eq x x' e E) as E'.
  rewrite <- (half_even_eq _ _ G G' E').
  refine (conj He (conj (feq_lt _ _ _ G G' E' H1) (conj _ (conj H3 eq_refl)))).
  destruct H2 as [->|H2]; [now left|right]. now apply (feq_le _ _ _ G G' E').
Qed.
Definition at_exp (x : frac) (e : Z) : Prop :=
  -1074 <= e /\ fst (scaled x e) < 2 ^ 53 * snd (scaled x e) /\ (e = -1074 \/ 2 ^ 52 * snd (scaled x e) <= fst (scaled x e)).
Lemma at_exp_le x e e' : fine x -> at_exp x e -> at_exp x e' -> e' <= e.
Proof.
  intros [F1 F2] (H1 & H2 & _) (H1' & _ & H3'). destruct (Z.le_gt_cases e' e) as [|K]; [assumption|exfalso]. destruct H3' as [->|H3']; [lia|].
  cbn [scaled fst snd] in *. set (k := e' - e) in *. assert (E : e' = e + k) by lia. pose proof (two_sum e k ltac:(lia)) as S. rewrite <- E in S.
  pose proof (two_pos e). pose proof (two_pos e'). pose proof (two_pos (- e)). pose proof (two_pos (- e')).
  assert (2 <= 2 ^ k) by (change 2 with (2 ^ 1) at 1; apply Z.pow_le_mono_r; lia).
  set (A := two_to e) in *. set (B := two_to e') in *. set (C := two_to (- e)) in *. set (D := two_to (- e')) in *. set (P := 2 ^ k) in *.
  change (2 ^ 53) with (2 * 2 ^ 52) in H2. set (T := 2 ^ 52) in *. assert (0 < T) by reflexivity. clearbody A B C D P T.
  assert (X1 : fst x * C * D < 2 * T * (snd x * A) * D) by (apply Z.mul_lt_mono_pos_r; assumption).
  assert (X2 : T * (snd x * B) * C <= fst x * D * C) by (apply Z.mul_le_mono_nonneg_r; lia).
  assert (X3 : T * (snd x * B) * C = T * snd x * (P * A * D)) by (rewrite <- S; ring).
  assert (X4 : 2 * (T * snd x * (A * D)) <= P * (T * snd x * (A * D))) by (apply Z.mul_le_mono_nonneg_r; [|assumption]; repeat apply Z.mul_nonneg_nonneg; lia).
  nia.
Qed.
Lemma at_exp_eq x e e' : fine x -> at_exp x e -> at_exp x e' -> e = e'.
Proof. intros F H H'. apply Z.le_antisymm; eapply at_exp_le; eauto. Qed.
Definition fits_exp (m e : Z) : Prop := m * two_to e < 2 ^ 1024 * two_to (- e).
Lemma fits_small m e : 0 <= m < 2 ^ 53 -> e <= 971 -> fits_exp m e.
Proof.
  intros Hm He. unfold fits_exp. pose proof (two_pos (- e)). pose proof (two_pos e). assert (two_to e <= 2 ^ 971) by (apply Z.pow_le_mono_r; lia).
  change (2 ^ 1024) with (2 ^ 53 * 2 ^ 971). set (A := 2 ^ 53) in *. set (B := 2 ^ 971) in *. assert (0 < A) by reflexivity. assert (0 < B) by reflexivity. clearbody A B.
  assert (m * two_to e <= m * B) by (apply Z.mul_le_mono_nonneg_l; lia). assert (m * B < A * B) by (apply Z.mul_lt_mono_pos_r; lia). assert (A * B * 1 <= A * B * two_to (- e)) by (apply Z.mul_le_mono_nonneg_l; [|lia]; apply Z.mul_nonneg_nonneg; lia). lia.
Qed.
Lemma fits_top e : e <= 970 -> fits_exp (2 ^ 53) e.
Proof.
  intros He. unfold fits_exp. pose proof (two_pos (- e)). pose proof (two_pos e). assert (two_to e <= 2 ^ 970) by (apply Z.pow_le_mono_r; lia).
  change (2 ^ 1024) with (2 ^ 53 * (2 * 2 ^ 970)). set (A := 2 ^ 53) in *. set (B := 2 ^ 970) in *. assert (0 < A) by reflexivity. assert (0 < B) by reflexivity. clearbody A B.
  assert (A * two_to e <= A * B) by (apply Z.mul_le_mono_nonneg_l; lia). assert (0 < A * B) by (apply Z.mul_pos_pos; lia). assert (A * B * 1 <= A * B * two_to (- e)) by (apply Z.mul_le_mono_nonneg_l; lia). lia.
Qed.
Lemma fits_not m e k : 0 <= k <= 1023 -> 2 ^ k <= m -> 1024 - k <= e -> ~ fits_exp m e.
Proof.
  intros Hk Hm He. unfold fits_exp. replace (two_to (- e)) with 1 by (unfold two_to; now replace (Z.max (- e) 0) with 0 by lia).
  assert (2 ^ (1024 - k) <= two_to e) by (apply Z.pow_le_mono_r; lia). replace (2 ^ 1024) with (2 ^ k * 2 ^ (1024 - k)) by (rewrite <- Z.pow_add_r by lia; f_equal; lia).
  assert (0 < 2 ^ k) by (apply Z.pow_pos_nonneg; lia). assert (0 < 2 ^ (1024 - k)) by (apply Z.pow_pos_nonneg; lia). nia.
Qed.
Lemma rounds_iff x y e : fine x -> at_exp x e -> rounds x y <-> fits_exp (half_even (scaled x e)) e /\ y = (half_even (scaled x e) * two_to e, two_to (- e)).
Proof.
  intros F H. split.
  - intros (e' & H1 & H2 & H3 & H4 & ->). rewrite (at_exp_eq x e e' F H) by (repeat split; assumption). now split.
  - intros [H1 ->]. exists e. destruct H as (? & ? & ?). now repeat split.
Qed.

(** ** The value of a float *)
Definition holds (f : spec_float) (y : frac) : Prop :=
  fine y /\ match f with
            | S754_zero false => fst y = 0
            | S754_finite false m e => Zpos m < 2 ^ 53 /\ -1074 <= e <= 971 /\ feq y (Zpos m * two_to e, two_to (- e))
            | _ => False
            end.
Definition result (x : frac) (f : spec_float) : Prop :=
  (exists y, rounds x y /\ holds f y) \/ (f = S754_infinity false /\ forall y, ~ rounds x y).
Lemma half_even_bound a b : 0 < b -> a / b <= half_even (a, b) <= a / b + 1.
Proof. intros H. unfold half_even. cbn [fst snd]. cbv zeta. set (q := a / b); destruct (2 * (a mod b) <? b), (2 * (a mod b) =? b), (Z.even q); lia. Qed.
Lemma aux_rounds mx ex lx a b x : stands (shr_record_of_loc mx lx) a b -> fine x -> feq x (a * two_to ex, b * two_to (- ex)) ->
  ex <= fexp 53 1024 (Zdigits2 mx + ex) -> result x (binary_round_aux 53 1024 false mx ex lx).
Proof.
  intros S F E L. unfold binary_round_aux, shr_fexp. set (e1 := fexp 53 1024 (Zdigits2 mx + ex)) in *. set (k := e1 - ex) in *.
  assert (Hk : 0 <= k) by lia. assert (Ee : e1 = ex + k) by lia.
  assert (Sh : exists mrs, shr (shr_record_of_loc mx lx) ex k = (mrs, e1) /\ stands mrs a (2 ^ k * b)).
  { destruct k as [|p|p] eqn:Ek; [| |lia].
    - eexists. split; [cbn [shr]; f_equal; lia|]. now rewrite Z.mul_1_l.
    - eexists. split; [cbn [shr]; f_equal; lia|]. now apply iter_stands. }
  destruct Sh as (mrs & -> & St). rewrite (stands_even _ _ _ St). set (B := 2 ^ k * b) in *. set (m := half_even (a, B)) in *.
  assert (Hb : 0 < b) by (destruct S as (_ & H & _); exact H). assert (HB : 0 < B) by (destruct St as (_ & H & _); exact H).
  assert (Mx : shr_m (shr_record_of_loc mx lx) = mx) by (destruct lx as [|[]]; reflexivity).
  assert (Q : mx = a / b) by (rewrite <- Mx; now apply stands_div). assert (M0 : 0 <= mx) by (destruct S as (H & _); rewrite Mx in H; exact H).
  assert (A1 : mx * b <= a < (mx + 1) * b) by (pose proof (Z.div_mod a b ltac:(lia)); pose proof (Z.mod_pos_bound a b Hb); rewrite <- Q in *; nia).
  assert (A0 : 0 <= a) by nia.
  assert (Sc : feq (scaled x e1) (a, B)).
  { unfold feq in *. cbn [scaled fst snd] in *. pose proof (two_sum ex k Hk) as T. rewrite <- Ee in T. pose proof (two_pos (- ex)) as P.
    apply (Z.mul_reg_r _ _ (two_to (- ex))); [lia|]. unfold B.
    transitivity ((fst x * (b * two_to (- ex))) * 2 ^ k * two_to (- e1)); [ring|]. rewrite E.
    transitivity (a * snd x * (2 ^ k * two_to ex * two_to (- e1))); [ring|]. rewrite <- T. ring. }
  assert (FB : fine (a, B)) by (split; assumption). pose proof (scaled_fine x e1 F) as FS.
  assert (Em : half_even (scaled x e1) = m) by (apply half_even_eq; assumption).
  assert (Dg : forall d, 0 <= d -> mx < 2 ^ d \/ d < Zdigits2 mx).
  { intros d Hd. destruct mx as [|p|p]; [left; apply Z.pow_pos_nonneg; lia| |lia]. cbn [Zdigits2]. pose proof (digits_pos p).
    destruct (Z.le_gt_cases (Zpos (digits2_pos p)) d); [left|now right]. eapply Z.lt_le_trans; [apply H|]. apply Z.pow_le_mono_r; lia. }
  assert (E1 : -1074 <= e1 /\ Zdigits2 mx + ex - 53 <= e1 /\ (e1 = -1074 \/ e1 = Zdigits2 mx + ex - 53)) by (unfold e1, fexp, emin; lia).
  destruct E1 as (E1 & E2 & E3).
  assert (Up : a < 2 ^ 53 * B).
  { destruct (Dg (53 + k) ltac:(lia)) as [H|H]; [|lia]. unfold B. rewrite Z.mul_assoc, <- Z.pow_add_r by lia. nia. }
  assert (Lo : e1 = -1074 \/ 2 ^ 52 * B <= a).
  { destruct E3 as [->|E3]; [now left|right]. assert (Ed : Zdigits2 mx = 53 + k) by lia. destruct mx as [|p|p]; cbn [Zdigits2] in Ed; try lia.
    pose proof (digits_pos p) as H. rewrite Ed in H. replace (53 + k - 1) with (52 + k) in H by lia. unfold B. rewrite Z.mul_assoc, <- Z.pow_add_r by lia. nia. }
  assert (At : at_exp x e1).
  { split; [assumption|]. split; [apply (feq_lt (a, B)); auto using feq_sym|]. destruct Lo as [->|Lo]; [now left|right]. apply (feq_le (a, B)); auto using feq_sym. }
  pose proof (half_even_bound a B HB) as Hm. fold m in Hm.
  assert (Qu : a / B < 2 ^ 53) by (apply Z.div_lt_upper_bound; lia). assert (Ql : 0 <= a / B) by (apply Z.div_pos; lia).
  assert (Q2 : e1 = -1074 \/ 2 ^ 52 <= m) by (destruct Lo as [->|Lo]; [now left|right]; assert (2 ^ 52 <= a / B) by (apply Z.div_le_lower_bound; lia); lia).
  assert (Fy : fine (m * two_to e1, two_to (- e1))) by (pose proof (two_pos e1); pose proof (two_pos (- e1)); split; cbn [fst snd]; nia).
  pose proof (fun y => rounds_iff x y e1 F At) as R. rewrite Em in R. clearbody m. clear Em Sc FB FS Dg.
  destruct (Z.eq_dec m (2 ^ 53)) as [->|Nm].
  - replace (fexp 53 1024 (Zdigits2 (2 ^ 53) + e1) - e1) with 1 by (change (Zdigits2 (2 ^ 53)) with 54; unfold fexp, emin; lia).
    change (shr (shr_record_of_loc (2 ^ 53) loc_Exact) e1 1) with ({| shr_m := 2 ^ 52; shr_r := false; shr_s := false |}, e1 + 1). cbv beta iota.
    change (shr_m {| shr_m := 2 ^ 52; shr_r := false; shr_s := false |}) with (Zpos (2 ^ 52)). cbv iota.
    change (Zpos (2 ^ 52)) with (2 ^ 52). destruct (Zle_bool (e1 + 1) (1024 - 53)) eqn:K.
    + left. eexists. split; [apply R; split; [|reflexivity]; apply fits_top; apply Zle_bool_imp_le in K; lia|]. split; [exact Fy|].
      apply Zle_bool_imp_le in K. split; [reflexivity|]. split; [lia|]. unfold feq. cbn [fst snd]. change (Zpos (2 ^ 52)) with (2 ^ 52).
      pose proof (two_sum e1 1 ltac:(lia)) as T. change (2 ^ 53) with (2 ^ 52 * 2 ^ 1). set (W := 2 ^ 52). clearbody W. rewrite <- Z.mul_assoc.
      transitivity (W * (2 ^ 1 * two_to e1 * two_to (- (e1 + 1)))); [ring|]. rewrite <- T. ring.
    + right. split; [reflexivity|]. intros y Hy. apply R in Hy as [Hy _]. revert Hy. apply (fits_not _ _ 53); [lia|lia|].
      apply Z.leb_gt in K. lia.
  - assert (Lt : m < 2 ^ 53) by lia. pose proof (digits_le m 53 ltac:(lia) ltac:(lia)) as D.
    replace (shr (shr_record_of_loc m loc_Exact) e1 (fexp 53 1024 (Zdigits2 m + e1) - e1)) with ({| shr_m := m; shr_r := false; shr_s := false |}, e1).
    2: { assert (fexp 53 1024 (Zdigits2 m + e1) - e1 <= 0) as N by (unfold fexp, emin; lia). destruct (fexp 53 1024 (Zdigits2 m + e1) - e1); [reflexivity|lia|reflexivity]. }
    cbn [shr_m]. destruct m as [|p|p]; [| |lia].
    + left. eexists. split; [apply R; split; [|reflexivity]; unfold fits_exp; pose proof (two_pos (- e1)); nia|]. split; [exact Fy|reflexivity].
    + destruct (Zle_bool e1 (1024 - 53)) eqn:K.
      * apply Zle_bool_imp_le in K. left. eexists. split; [apply R; split; [|reflexivity]; apply fits_small; lia|]. split; [exact Fy|]. split; [exact Lt|]. split; [lia|]. reflexivity.
      * right. split; [reflexivity|]. intros y Hy. apply R in Hy as [Hy _]. revert Hy. apply Z.leb_gt in K. apply (fits_not _ _ 52); lia.
Qed.

(** ** The operations *)
Lemma digits_eq m d : 2 ^ (d - 1) <= m < 2 ^ d -> 1 <= d -> Zdigits2 m = d.
Proof.
  intros H Hd. assert (0 < 2 ^ (d - 1)) by (apply Z.pow_pos_nonneg; lia). destruct m as [|p|p]; try lia. pose proof (digits_le (Zpos p) d ltac:(lia) ltac:(lia)) as U. cbn [Zdigits2] in *. pose proof (digits_pos p) as Hp.
  destruct (Z.eq_dec (Zpos (digits2_pos p)) d) as [|N]; [assumption|exfalso]. assert (2 ^ Zpos (digits2_pos p) <= 2 ^ (d - 1)) by (apply Z.pow_le_mono_r; lia). lia.
Qed.
Lemma digits_shift p k : 0 <= k -> Zdigits2 (Zpos p * 2 ^ k) = Zdigits2 (Zpos p) + k.
Proof.
  intros Hk. pose proof (digits_pos p) as Hp. apply digits_eq; cbn [Zdigits2]; [|lia]. assert (0 < 2 ^ k) by (apply Z.pow_pos_nonneg; lia).
  replace (Zpos (digits2_pos p) + k - 1) with (Zpos (digits2_pos p) - 1 + k) by lia. rewrite !Z.pow_add_r by lia. nia.
Qed.
Lemma digits_low m d : 0 <= d -> 2 ^ d <= m -> d + 1 <= Zdigits2 m.
Proof.
  intros Hd H. assert (0 < 2 ^ d) by (apply Z.pow_pos_nonneg; lia). destruct m as [|p|p]; try lia. cbn [Zdigits2]. pose proof (digits_pos p) as Hp.
  destruct (Z.le_gt_cases (d + 1) (Zpos (digits2_pos p))) as [|N]; [assumption|exfalso]. assert (2 ^ Zpos (digits2_pos p) <= 2 ^ d) by (apply Z.pow_le_mono_r; lia). lia.
Qed.
Lemma align_left m e e' : e' <= e -> let '(p, k) := shl_align m e e' in Zpos p = Zpos m * 2 ^ (e - e') /\ k = e'.
Proof.
  intros H. unfold shl_align. destruct (e' - e) as [|d|d] eqn:E; [replace (e - e') with 0 by lia; split; lia|lia|].
  rewrite shift_pos_correct. split; [|lia]. replace (e - e') with (Zpos d) by lia. change (Z.pow_pos 2 d) with (2 ^ Zpos d). lia.
Qed.
Lemma align_none m e e' : e <= e' -> shl_align m e e' = (m, e).
Proof. intros H. unfold shl_align. destruct (e' - e) eqn:E; [reflexivity..|lia]. Qed.
Lemma stands_exact m : 0 <= m -> stands (shr_record_of_loc m loc_Exact) m 1.
Proof. intros H. unfold stands. cbn [shr_record_of_loc shr_m shr_r shr_s]. lia. Qed.
Definition dy (m e : Z) : frac := (m * two_to e, two_to (- e)).
Lemma dy_fine m e : 0 <= m -> fine (dy m e).
Proof. intros H. pose proof (two_pos e). pose proof (two_pos (- e)). split; cbn [dy fst snd]; nia. Qed.
Lemma feq_trans x y z : fine y -> feq x y -> feq y z -> feq x z.
Proof.
  unfold feq, fine. intros [_ H] E1 E2. apply (Z.mul_reg_r _ _ (snd y)); [lia|].
  transitivity (fst x * snd y * snd z); [ring|]. rewrite E1. transitivity (fst y * snd z * snd x); [ring|]. rewrite E2. ring.
Qed.
Lemma dy_shift m e k : 0 <= k -> feq (dy m (e + k)) (dy (m * 2 ^ k) e).
Proof.
  intros H. unfold feq. cbn [dy fst snd]. pose proof (two_sum e k H) as T. transitivity (m * (two_to (e + k) * two_to (- e))); [ring|]. rewrite T. ring.
Qed.
Lemma round_rounds p e x : fine x -> feq x (dy (Zpos p) e) -> result x (binary_round 53 1024 false p e).
Proof.
  intros F E. unfold binary_round. set (e' := fexp 53 1024 (Zpos (digits2_pos p) + e)).
  destruct (Z.le_gt_cases e e') as [H|H].
  - rewrite align_none by assumption. apply (aux_rounds _ _ _ (Zpos p) 1); [now apply stands_exact|assumption|now rewrite Z.mul_1_l|exact H].
  - pose proof (align_left p e e' ltac:(lia)) as A. destruct (shl_align p e e') as [mz ez]. destruct A as [A ->].
    apply (aux_rounds _ _ _ (Zpos mz) 1); [now apply stands_exact|assumption| |].
    + rewrite Z.mul_1_l, A. change (feq x (dy (Zpos p * 2 ^ (e - e')) e')). eapply feq_trans; [|exact E|]; [apply dy_fine; lia|]. replace e with (e' + (e - e')) at 1 by lia. apply dy_shift. lia.
    + rewrite A, digits_shift by lia. cbn [Zdigits2]. replace (Zpos (digits2_pos p) + (e - e') + e') with (Zpos (digits2_pos p) + e) by lia. fold e'. lia.
Qed.
Lemma result_zero x : fine x -> fst x = 0 -> result x (S754_zero false).
Proof.
  intros F H. left. assert (S0 : fst (scaled x (-1074)) = 0) by (cbn [scaled fst]; rewrite H; ring). pose proof (scaled_fine x (-1074) F) as [_ S1].
  assert (Hh : half_even (scaled x (-1074)) = 0).
  { unfold half_even. rewrite S0. rewrite Z.div_0_l, Z.mod_0_l by lia. cbv zeta. destruct (Z.ltb_spec (2 * 0) (snd (scaled x (-1074)))); [reflexivity|lia]. }
  exists (dy 0 (-1074)). split; [|split; [apply dy_fine; lia|reflexivity]].
  apply (rounds_iff x _ (-1074)); [assumption| |].
  - split; [lia|]. split; [rewrite S0; lia|now left].
  - rewrite Hh. split; [|reflexivity]. apply fits_small; lia.
Qed.
Lemma normalize_rounds z e x : 0 <= z -> fine x -> feq x (dy z e) -> result x (binary_normalize 53 1024 z e false).
Proof.
  intros Hz F E. destruct z as [|p|p]; cbn [binary_normalize]; [|now apply round_rounds|lia].
  apply result_zero; [assumption|]. unfold feq in E. cbn [dy fst snd] in E. pose proof (two_pos (- e)). nia.
Qed.
(** a float rounds to itself *)
Lemma self_rounds f y : holds f y -> exists y', rounds y y' /\ holds f y'.
Proof.
  intros [F H]. destruct f as [[]|[]| |[] m e]; try contradiction.
  - destruct (result_zero y F H) as [K|[K _]]; [exact K|discriminate].
  - destruct H as (Hm & He & E). set (e0 := fexp 53 1024 (Zdigits2 (Zpos m) + e)). pose proof (digits_le (Zpos m) 53 ltac:(lia) ltac:(lia)) as D.
    assert (Zdigits2 (Zpos m) = Zpos (digits2_pos m)) as Dm by reflexivity. pose proof (digits_pos m) as Hd.
    assert (E0 : -1074 <= e0 /\ e0 <= e /\ Zdigits2 (Zpos m) + e - 53 <= e0 /\ (e0 = -1074 \/ e0 = Zdigits2 (Zpos m) + e - 53)) by (unfold e0, fexp, emin; lia).
    destruct E0 as (E1 & E2 & E3 & E4). clearbody e0. assert (exists k, e = e0 + k /\ 0 <= k) as (k & Ee & K0) by (exists (e - e0); lia). set (M := Zpos m * 2 ^ k).
    assert (Hk : 0 < 2 ^ k) by (apply Z.pow_pos_nonneg; lia). assert (HM : 0 <= M) by (unfold M; nia).
    assert (EM : feq y (dy M e0)).
    { apply (feq_trans _ (dy (Zpos m) e)); [apply dy_fine; lia|exact E|]. rewrite Ee. unfold M. apply dy_shift; lia. }
    assert (Sc : feq (scaled y e0) (M, 1)).
    { unfold feq in *. cbn [dy scaled fst snd] in *. rewrite Z.mul_1_r, EM. ring. }
    pose proof (scaled_fine y e0 F) as FS. assert (FM : fine (M, 1)) by (split; cbn [fst snd]; lia).
    assert (Hh : half_even (scaled y e0) = M).
    { rewrite (half_even_eq _ _ FS FM Sc). unfold half_even. cbn [fst snd]. cbv zeta. now rewrite Z.div_1_r, Z.mod_1_r. }
    assert (Up : M < 2 ^ 53).
    { unfold M. assert (Zpos m * 2 ^ k < 2 ^ Zpos (digits2_pos m) * 2 ^ k) by nia. rewrite <- Z.pow_add_r in H by lia. eapply Z.lt_le_trans; [exact H|]. apply Z.pow_le_mono_r; lia. }
    assert (At : at_exp y e0).
    { split; [assumption|]. split; [apply (feq_lt (M, 1)); auto using feq_sym; cbn [fst snd]; lia|]. destruct E4 as [->|E4]; [now left|right].
      apply (feq_le (M, 1)); auto using feq_sym. cbn [fst snd]. unfold M. rewrite Z.mul_1_r. replace 52 with (Zpos (digits2_pos m) - 1 + k) by lia. rewrite Z.pow_add_r by lia. nia. }
    exists (dy M e0). split.
    + apply (rounds_iff y _ e0 F At). rewrite Hh. split; [|reflexivity]. apply fits_small; lia.
    + split; [apply dy_fine; lia|]. split; [exact Hm|]. split; [exact He|]. change (feq (dy M e0) (dy (Zpos m) e)). apply feq_sym. rewrite Ee. unfold M. apply dy_shift; lia.
Qed.
Lemma holds_eq f x y : holds f x -> fine y -> feq y x -> holds f y.
Proof.
  intros [F H] F' E. split; [assumption|]. destruct f as [[]|[]| |[] m e]; try contradiction.
  - unfold feq in E. destruct F. rewrite H in E. nia.
  - destruct H as (H1 & H2 & H3). split; [assumption|]. split; [assumption|]. now apply (feq_trans _ x).
Qed.
Lemma result_self f x y : holds f x -> fine y -> feq y x -> result y f.
Proof.
  intros H F E. apply (holds_eq f x y H F) in E. apply self_rounds in E as (y' & R & H'). left. eauto.
Qed.
Lemma feq_add x y a b e : fine x -> fine y -> feq x (dy a e) -> feq y (dy b e) -> feq (fadd x y) (dy (a + b) e).
Proof.
  unfold feq, fadd. cbn [dy fst snd]. intros _ _ E1 E2.
  transitivity (fst x * two_to (- e) * snd y + fst y * two_to (- e) * snd x); [ring|]. rewrite E1, E2. ring.
Qed.
Lemma fadd_fine x y : fine x -> fine y -> fine (fadd x y).
Proof. unfold fine, fadd. cbn [fst snd]. intros [] []. split; nia. Qed.
Lemma add_rounds f g x y : holds f x -> holds g y -> result (fadd x y) (SFadd 53 1024 f g).
Proof.
  intros Hf Hg. pose proof Hf as [Fx Kx]. pose proof Hg as [Fy Ky]. pose proof (fadd_fine x y Fx Fy) as FF.
  destruct f as [[]|[]| |[] m e]; try contradiction; destruct g as [[]|[]| |[] m' e']; try contradiction; cbn [SFadd Bool.eqb].
  - apply result_zero; [assumption|]. cbn [fadd fst]. rewrite Kx, Ky. ring.
  - apply (result_self _ y); [assumption..|]. unfold feq. cbn [fadd fst snd]. rewrite Kx. ring.
  - apply (result_self _ x); [assumption..|]. unfold feq. cbn [fadd fst snd]. rewrite Ky. ring.
  - destruct Kx as (Hm & He & Ex), Ky as (Hm' & He' & Ey). cbn [cond_Zopp].
    set (ez := Z.min e e'). pose proof (align_left m e ez ltac:(lia)) as A. pose proof (align_left m' e' ez ltac:(lia)) as A'.
    destruct (shl_align m e ez) as [p k], (shl_align m' e' ez) as [p' k']. cbn [fst]. destruct A as [A ->], A' as [A' ->].
    apply normalize_rounds; [lia|assumption|]. rewrite A, A'. apply feq_add; [assumption..| |].
    + eapply feq_trans; [|exact Ex|]; [apply dy_fine; lia|]. fold (dy (Zpos m) e). replace e with (ez + (e - ez)) at 1 by lia. apply dy_shift. lia.
    + eapply feq_trans; [|exact Ey|]; [apply dy_fine; lia|]. fold (dy (Zpos m') e'). replace e' with (ez + (e' - ez)) at 1 by lia. apply dy_shift. lia.
Qed.
Lemma location_stands m b : 0 <= m -> 0 < b -> stands (shr_record_of_loc (m / b) (new_location b (m mod b))) m b.
Proof.
  intros Hm Hb. pose proof (Z.div_mod m b ltac:(lia)) as E. pose proof (Z.mod_pos_bound m b Hb) as B. assert (Hq : 0 <= m / b) by (apply Z.div_pos; lia).
  set (q := m / b) in *. set (r := m mod b) in *. clearbody q r. unfold new_location. destruct (Z.even b) eqn:Ev.
  - unfold new_location_even. destruct (Zeq_bool r 0) eqn:R; [apply Zeq_bool_eq in R|apply Zeq_bool_neq in R].
    + unfold stands. cbn [shr_record_of_loc shr_m shr_r shr_s]. repeat split; try lia; nia.
    + destruct (Z.compare_spec (2 * r) b); unfold stands; cbn [shr_record_of_loc shr_m shr_r shr_s]; repeat split; try lia; nia.
  - unfold new_location_odd. destruct (Zeq_bool r 0) eqn:R; [apply Zeq_bool_eq in R|apply Zeq_bool_neq in R].
    + unfold stands. cbn [shr_record_of_loc shr_m shr_r shr_s]. repeat split; try lia; nia.
    + assert (2 * r <> b) by (intros <-; rewrite Z.even_mul in Ev; discriminate).
      destruct (Z.compare_spec (2 * r + 1) b); unfold stands; cbn [shr_record_of_loc shr_m shr_r shr_s]; repeat split; try lia; nia.
Qed.
Lemma fdiv_fine x y : fine x -> fine y -> fst y <> 0 -> fine (fdiv x y).
Proof. unfold fine, fdiv. cbn [fst snd]. intros [] [] N. split; nia. Qed.
Lemma holds_zero f y : holds f y -> fst y = 0 <-> f = S754_zero false.
Proof.
  intros [F H]. destruct f as [[]|[]| |[] m e]; try contradiction; [now split|]. destruct H as (H1 & H2 & H3). split; [|discriminate]. intros K. exfalso.
  unfold feq in H3. rewrite K in H3. cbn [fst snd] in H3. destruct F. pose proof (two_pos e). nia.
Qed.
Lemma div_rounds f g x y : holds f x -> holds g y -> fst y <> 0 -> result (fdiv x y) (SFdiv 53 1024 f g).
Proof.
  intros Hf Hg N. pose proof Hf as [Fx Kx]. pose proof Hg as [Fy Ky]. pose proof (fdiv_fine x y Fx Fy N) as FF.
  destruct g as [[]|[]| |[] m' e']; try contradiction; destruct f as [[]|[]| |[] m e]; try contradiction; cbn [SFdiv xorb].
  - apply result_zero; [assumption|]. cbn [fdiv fst]. rewrite Kx. ring.
  - destruct Kx as (Hm & He & Ex), Ky as (Hm' & He' & Ey). unfold SFdiv_core_binary.
    set (d1 := Zdigits2 (Zpos m)). set (d2 := Zdigits2 (Zpos m')). set (e3 := Z.min (fexp 53 1024 (d1 + e - (d2 + e'))) (e - e')). set (s := e - e' - e3).
    assert (Hs : 0 <= s) by lia.
    replace (match s with | 0 => Zpos m | Zpos _ => Z.shiftl (Zpos m) s | Zneg _ => 0 end) with (Zpos m * 2 ^ s).
    2: { destruct s eqn:Es; [lia| |lia]. rewrite Z.shiftl_mul_pow2 by lia. reflexivity. }
    set (M := Zpos m * 2 ^ s). assert (HM : 0 <= M) by (assert (0 < 2 ^ s) by (apply Z.pow_pos_nonneg; lia); unfold M; nia).
    destruct (Z.div_eucl M (Zpos m')) as [q r] eqn:De.
    assert (Eq : q = M / Zpos m') by (unfold Z.div; now rewrite De). assert (Er : r = M mod Zpos m') by (unfold Z.modulo; now rewrite De). subst q r.
    apply (aux_rounds _ _ _ M (Zpos m')); [now apply location_stands|assumption| |].
    + assert (T : two_to e * two_to (- e') * two_to (- e3) = 2 ^ s * two_to e3 * two_to (- e) * two_to e').
      { unfold two_to. rewrite <- !Z.pow_add_r by lia. f_equal. lia. }
      unfold feq in *. cbn [fdiv fst snd] in *. pose proof (two_pos (- e)). pose proof (two_pos e'). apply (Z.mul_reg_r _ _ (two_to (- e) * (Zpos m' * two_to e'))); [nia|].
      transitivity ((fst x * two_to (- e)) * (Zpos m' * two_to e' * snd y) * (Zpos m' * two_to (- e3))); [ring|]. rewrite Ex, <- Ey.
      transitivity (snd x * Zpos m' * Zpos m * fst y * (two_to e * two_to (- e') * two_to (- e3))); [ring|]. rewrite T. unfold M. ring.
    + assert (D : d1 + s - d2 <= Zdigits2 (M / Zpos m')).
      { destruct (Z.le_gt_cases 1 (d1 + s - d2)) as [H|H].
        - replace (d1 + s - d2) with (d1 + s - d2 - 1 + 1) by lia. apply digits_low; [lia|]. apply Z.div_le_lower_bound; [lia|].
          pose proof (digits_pos m) as P1. pose proof (digits_pos m') as P2. fold (Zdigits2 (Zpos m)) in P1. fold (Zdigits2 (Zpos m')) in P2. 
          change (Zpos (digits2_pos m)) with d1 in P1. change (Zpos (digits2_pos m')) with d2 in P2. assert (0 <= d2) by (unfold d2; cbn; lia). assert (1 <= d1) by (unfold d1; cbn; lia).
          assert (0 < 2 ^ (d1 + s - d2 - 1)) by (apply Z.pow_pos_nonneg; lia). assert (0 < 2 ^ s) by (apply Z.pow_pos_nonneg; lia).
          assert (PW : 2 ^ d2 * 2 ^ (d1 + s - d2 - 1) = 2 ^ (d1 - 1) * 2 ^ s) by (rewrite <- !Z.pow_add_r by lia; f_equal; lia). unfold M.
          apply (Z.le_trans _ (2 ^ d2 * 2 ^ (d1 + s - d2 - 1))); [apply Z.mul_le_mono_nonneg_r; [lia|apply Z.lt_le_incl, P2]|].
          rewrite PW. apply Z.mul_le_mono_nonneg_r; [lia|apply P1].
        - assert (0 <= Zdigits2 (M / Zpos m')); [|lia]. destruct (M / Zpos m'); cbn; lia. }
      assert (e3 <= fexp 53 1024 (d1 + e - (d2 + e'))) by lia. unfold fexp, emin in *. lia.
Qed.
Definition float_two : spec_float := S754_finite false 4503599627370496 (-51).
Lemma double_rounds f x : holds f x -> result (fmul x (2, 1)) (SFmul 53 1024 f float_two).
Proof.
  intros Hf. pose proof Hf as [Fx Kx]. assert (FF : fine (fmul x (2, 1))) by (destruct Fx; split; cbn [fmul fst snd]; lia).
  destruct f as [[]|[]| |[] m e]; try contradiction; cbn [SFmul float_two xorb].
  - apply result_zero; [assumption|]. cbn [fmul fst]. rewrite Kx. ring.
  - destruct Kx as (Hm & He & Ex). change (Zpos (m * 4503599627370496)) with (Zpos m * 2 ^ 52).
    apply (aux_rounds _ _ _ (Zpos m * 2 ^ 52) 1); [apply stands_exact; lia|assumption| |].
    + rewrite Z.mul_1_l. change (feq (fmul x (2, 1)) (dy (Zpos m * 2 ^ 52) (e + -51))). apply (feq_trans _ (dy (Zpos m) (e + 1))).
      * apply dy_fine; lia.
      * unfold feq in *. cbn [fmul dy fst snd] in *. pose proof (two_sum e 1 ltac:(lia)) as T. pose proof (two_pos (- e)). apply (Z.mul_reg_r _ _ (two_to (- e))); [lia|].
        transitivity (fst x * two_to (- e) * 2 * two_to (- (e + 1))); [ring|]. rewrite Ex. transitivity (Zpos m * snd x * (2 ^ 1 * two_to e * two_to (- (e + 1)))); [ring|]. rewrite <- T. ring.
      * replace (e + 1) with (e + -51 + 52) by lia. apply dy_shift. lia.
    + rewrite digits_shift by lia. cbn [Zdigits2]. unfold fexp, emin. lia.
Qed.
