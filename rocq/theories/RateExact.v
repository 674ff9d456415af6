(** RateExact: decimal fractions in radiotap_rate mean the exact value as long as they are short. *)
From Coq Require Import Strings.Ascii.
From Verif Require Import Base PyNum Util PyLib OxmCodec OxmTables Oxm Spec SpecOxm SpecRate SpecText.
From Verif Require Import BaseFacts UtilFacts NumFacts PyLibFacts OxmRead OxmPrint OxmFacts OxmFrame OxmMore ActFrame FloatFacts RateFacts GramLib OxmGram OxmExact.

(** ** Rounding is monotone at the numbers it keeps *)
Definition fle (x y : frac) : Prop := fst x * snd y <= fst y * snd x.
Lemma fle_eq_r x y z : fine x -> fine y -> fine z -> feq y z -> fle x y -> fle x z.
Proof.
  unfold fle, feq, fine. intros [X1 X2] [Y1 Y2] [Z1 Z2] E H. apply (Z.mul_le_mono_pos_r _ _ (snd y)); [lia|].
  replace (fst x * snd z * snd y) with (fst x * snd y * snd z) by ring. replace (fst z * snd x * snd y) with (fst z * snd y * snd x) by ring.
  rewrite <- E. replace (fst y * snd z * snd x) with (fst y * snd x * snd z) by ring. apply Z.mul_le_mono_nonneg_r; lia.
Qed.
Lemma fle_eq_l x y z : fine x -> fine y -> fine z -> feq x y -> fle x z -> fle y z.
Proof.
  unfold fle, feq, fine. intros [X1 X2] [Y1 Y2] [Z1 Z2] E H. apply (Z.mul_le_mono_pos_r _ _ (snd x)); [lia|].
  replace (fst y * snd z * snd x) with (fst y * snd x * snd z) by ring. rewrite <- E.
  replace (fst x * snd y * snd z) with (fst x * snd z * snd y) by ring. replace (fst z * snd y * snd x) with (fst z * snd x * snd y) by ring. apply Z.mul_le_mono_nonneg_r; lia.
Qed.
Lemma half_even_most a b g : 0 < b -> a <= g * b -> half_even (a, b) <= g.
Proof.
  intros Hb H. pose proof (Z.div_mod a b ltac:(lia)) as D. pose proof (Z.mod_pos_bound a b Hb) as M.
  unfold half_even. cbn [fst snd]. cbv zeta. assert (a / b <= g) by nia.
  destruct (Z.eq_dec (a / b) g) as [E|E].
  - assert (a mod b = 0) as -> by nia. destruct (Z.ltb_spec (2 * 0) b); lia.
  - destruct (2 * (a mod b) <? b), (2 * (a mod b) =? b), (Z.even (a / b)); lia.
Qed.
Lemma half_even_least a b g : 0 < b -> g * b <= a -> g <= half_even (a, b).
Proof. intros Hb H. pose proof (half_even_bound a b Hb). pose proof (Z.div_le_lower_bound a b g Hb). lia. Qed.
Lemma rounds_most x y m e : fine x -> 0 <= m < 2 ^ 53 -> -1074 <= e -> fle x (dy m e) -> rounds x y -> fle y (dy m e).
Proof.
  intros F Hm He L (e' & H1 & H2 & H3 & H4 & ->). clear H4.
  pose proof (scaled_fine x e' F) as FS. pose proof (two_pos e) as Pe. pose proof (two_pos (- e)) as Pe'. pose proof (two_pos e') as Pf. pose proof (two_pos (- e')) as Pf'.
  destruct (Z.le_gt_cases e' e) as [C|C].
  - pose proof (dy_shift m e' (e - e') ltac:(lia)) as E. replace (e' + (e - e')) with e in E by lia.
    assert (0 < 2 ^ (e - e')) by (apply Z.pow_pos_nonneg; lia). set (g := m * 2 ^ (e - e')) in *. assert (0 <= g) by (apply Z.mul_nonneg_nonneg; lia).
    apply (fle_eq_r _ _ _ F (dy_fine m e ltac:(lia)) (dy_fine g e' ltac:(lia)) E) in L.
    apply (fle_eq_r _ (dy g e')); [| |apply dy_fine; lia|now apply feq_sym|].
    + split; cbn [fst snd]; [|lia]. apply Z.mul_nonneg_nonneg; [|lia]. destruct FS as [A B]. destruct (scaled x e') as [a b]. cbn [fst snd] in *.
      apply half_even_least; lia.
    + apply dy_fine; lia.
    + unfold fle, dy in *. cbn [fst snd] in *. apply Z.mul_le_mono_nonneg_r; [lia|]. apply Z.mul_le_mono_nonneg_r; [lia|].
      unfold scaled in *. destruct FS as [A B]. cbn [fst snd] in *. apply half_even_most; [exact B|]. lia.
  - exfalso. destruct H3 as [H3|H3]; [lia|]. unfold scaled, fle, dy in *. cbn [fst snd] in *. destruct FS as [A B]. cbn [fst snd] in *.
    pose proof (two_sum e (e' - e) ltac:(lia)) as T. replace (e + (e' - e)) with e' in T by lia.
    assert (2 <= 2 ^ (e' - e)) as K by (change 2 with (2 ^ 1) at 1; apply Z.pow_le_mono_r; lia). set (k := 2 ^ (e' - e)) in *. clearbody k.
    assert (fst x * two_to (- e') * k <= m * (snd x * two_to e')) as G.
    { apply (Z.mul_le_mono_pos_r _ _ (two_to (- e)) Pe').
      replace (fst x * two_to (- e') * k * two_to (- e)) with (fst x * two_to (- e) * (k * two_to (- e'))) by ring.
      replace (m * (snd x * two_to e') * two_to (- e)) with (m * snd x * (two_to e' * two_to (- e))) by ring. rewrite T.
      replace (m * snd x * (k * two_to e * two_to (- e'))) with (m * two_to e * snd x * (k * two_to (- e'))) by ring.
      apply Z.mul_le_mono_nonneg_r; [|exact L]. apply Z.mul_nonneg_nonneg; lia. }
    set (a := fst x * two_to (- e')) in *. set (b := snd x * two_to e') in *.
    assert (a * 2 <= a * k) by (apply Z.mul_le_mono_nonneg_l; lia). assert (m * b < 2 ^ 53 * b) by (apply Z.mul_lt_mono_pos_r; lia).
    change (2 ^ 53) with (2 * 2 ^ 52) in *. lia.
Qed.
Lemma rounds_least x y m e : fine x -> 0 <= m < 2 ^ 53 -> -1074 <= e -> fle (dy m e) x -> rounds x y -> fle (dy m e) y.
Proof.
  intros F Hm He L (e' & H1 & H2 & H3 & H4 & ->). clear H4.
  pose proof (scaled_fine x e' F) as FS. pose proof (two_pos e) as Pe. pose proof (two_pos (- e)) as Pe'. pose proof (two_pos e') as Pf. pose proof (two_pos (- e')) as Pf'.
  assert (FY : fine (half_even (scaled x e') * two_to e', two_to (- e'))).
  { split; cbn [fst snd]; [|lia]. apply Z.mul_nonneg_nonneg; [|lia]. destruct FS as [A B]. destruct (scaled x e') as [a b]. cbn [fst snd] in *. apply half_even_least; lia. }
  destruct (Z.le_gt_cases e' e) as [C|C].
  - pose proof (dy_shift m e' (e - e') ltac:(lia)) as E. replace (e' + (e - e')) with e in E by lia.
    assert (0 < 2 ^ (e - e')) by (apply Z.pow_pos_nonneg; lia). set (g := m * 2 ^ (e - e')) in *. assert (0 <= g) by (apply Z.mul_nonneg_nonneg; lia).
    apply (fle_eq_l _ _ _ (dy_fine m e ltac:(lia)) (dy_fine g e' ltac:(lia)) F E) in L.
    apply (fle_eq_l (dy g e')); [apply dy_fine; lia|apply dy_fine; lia|exact FY|now apply feq_sym|].
    unfold fle, dy in *. cbn [fst snd] in *. apply Z.mul_le_mono_nonneg_r; [lia|]. apply Z.mul_le_mono_nonneg_r; [lia|].
    unfold scaled in *. destruct FS as [A B]. cbn [fst snd] in *. apply half_even_least; [exact B|]. lia.
  - destruct H3 as [H3|H3]; [lia|]. unfold fle, dy in *. cbn [fst snd] in *.
    pose proof (two_sum e (e' - e) ltac:(lia)) as T. replace (e + (e' - e)) with e' in T by lia.
    assert (2 <= 2 ^ (e' - e)) as K by (change 2 with (2 ^ 1) at 1; apply Z.pow_le_mono_r; lia). set (k := 2 ^ (e' - e)) in *. clearbody k.
    assert (2 ^ 52 <= half_even (scaled x e')) as G. { destruct FS as [A B]. destruct (scaled x e') as [a b]. cbn [fst snd] in *. apply half_even_least; lia. }
    set (h := half_even (scaled x e')) in *. clearbody h.
    replace (h * two_to e' * two_to (- e)) with (h * (two_to e' * two_to (- e))) by ring. rewrite T.
    replace (h * (k * two_to e * two_to (- e'))) with (h * k * (two_to e * two_to (- e'))) by ring. rewrite <- (Z.mul_assoc m).
    apply Z.mul_le_mono_nonneg_r; [apply Z.mul_nonneg_nonneg; lia|]. assert (2 ^ 52 * 2 <= h * k) by (apply Z.mul_le_mono_nonneg; lia).
    change (2 ^ 53) with (2 ^ 52 * 2) in Hm. lia.
Qed.
Lemma rounds_fine x y : fine x -> rounds x y -> fine y.
Proof.
  intros F (e & _ & _ & _ & _ & ->). pose proof (two_pos e). pose proof (two_pos (- e)). split; cbn [fst snd]; [|lia]. apply Z.mul_nonneg_nonneg; [|lia].
  destruct (scaled_fine x e F) as [A B]. destruct (scaled x e) as [a b]. cbn [fst snd] in *. apply half_even_least; lia.
Qed.
Lemma dy_zero m : dy m 0 = (m, 1).
Proof. unfold dy, two_to. cbn. now rewrite Z.mul_1_r. Qed.
(** whole numbers are kept *)
Lemma rounds_whole z y : 0 <= z < 2 ^ 53 -> rounds (z, 1) y -> feq y (z, 1).
Proof.
  intros H R. assert (F : fine (z, 1)) by (apply z_fine; lia).
  assert (fle (z, 1) (z, 1)) as L by (unfold fle; lia). rewrite <- dy_zero in L at 2. assert (fle (dy z 0) (z, 1)) as L' by (rewrite dy_zero; unfold fle; lia).
  pose proof (rounds_most (z, 1) y z 0 F H ltac:(lia) L R) as M. pose proof (rounds_least (z, 1) y z 0 F H ltac:(lia) L' R) as M'.
  rewrite dy_zero in M, M'. unfold fle, feq in *. lia.
Qed.

(** ** No number of 53 bits is nearer *)
Lemma half_even_near a b g : 0 < b -> Z.abs (a - half_even (a, b) * b) <= Z.abs (a - g * b).
Proof.
  intros Hb. pose proof (Z.div_mod a b ltac:(lia)) as D. pose proof (Z.mod_pos_bound a b Hb) as M. unfold half_even. cbn [fst snd]. cbv zeta.
  set (q := a / b) in *. set (r := a mod b) in *. assert (G : Z.abs (a - g * b) = Z.abs ((q - g) * b + r)) by (f_equal; lia). rewrite G. clear G.
  assert (N : forall h, h = q /\ 2 * r <= b \/ h = q + 1 /\ b <= 2 * r -> Z.abs (a - h * b) <= Z.abs ((q - g) * b + r)).
  { intros h [[-> H]|[-> H]].
    - replace (a - q * b) with r by lia. destruct (Z.le_gt_cases g q) as [C|C]; [assert (0 <= (q - g) * b) by (apply Z.mul_nonneg_nonneg; lia); lia|]. assert ((q - g) * b <= (-1) * b) by (apply Z.mul_le_mono_nonneg_r; lia). lia.
    - replace (a - (q + 1) * b) with (r - b) by lia. destruct (Z.le_gt_cases g q) as [C|C]; [assert (0 <= (q - g) * b) by (apply Z.mul_nonneg_nonneg; lia); lia|]. assert ((q - g) * b <= (-1) * b) by (apply Z.mul_le_mono_nonneg_r; lia). lia. }
  apply N. destruct (Z.ltb_spec (2 * r) b), (Z.eqb_spec (2 * r) b), (Z.even q); lia.
Qed.
Definition apart (x y : frac) : Z := Z.abs (fst x * snd y - fst y * snd x).
Lemma rounds_near x y m e : fine x -> rounds x y -> 0 <= m < 2 ^ 53 -> -1074 <= e -> apart x y * snd (dy m e) <= apart x (dy m e) * snd y.
Proof.
  intros F (e' & H1 & H2 & H3 & H4 & ->) Hm He. clear H4.
  pose proof (scaled_fine x e' F) as FS. pose proof (two_pos e) as Pe. pose proof (two_pos (- e)) as Pe'. pose proof (two_pos e') as Pf. pose proof (two_pos (- e')) as Pf'.
  unfold apart, dy, scaled in *. destruct F as [F1 F2], FS as [A B]. cbn [fst snd] in *.
  set (a := fst x * two_to (- e')) in *. set (b := snd x * two_to e') in *. set (h := half_even (a, b)).
  replace (h * two_to e' * snd x) with (h * b) by (unfold b; ring).
  destruct (Z.le_gt_cases e' e) as [C|C].
  - pose proof (two_sum e' (e - e') ltac:(lia)) as T. replace (e' + (e - e')) with e in T by lia. set (k := 2 ^ (e - e')) in *. clearbody k.
    rewrite <- (Z.abs_eq (two_to (- e'))) at 1 by lia. rewrite <- Z.abs_mul.
    replace ((fst x * two_to (- e) - m * two_to e * snd x) * two_to (- e')) with ((a - m * k * b) * two_to (- e)).
    + rewrite Z.abs_mul, (Z.abs_eq (two_to (- e))) by lia. apply Z.mul_le_mono_nonneg_r; [lia|]. now apply half_even_near.
    + unfold a, b. replace ((fst x * two_to (- e) - m * two_to e * snd x) * two_to (- e')) with (fst x * two_to (- e') * two_to (- e) - m * snd x * (two_to e * two_to (- e'))) by ring. rewrite T. ring.
  - destruct H3 as [H3|H3]; [lia|]. pose proof (two_sum e (e' - e) ltac:(lia)) as T. replace (e + (e' - e)) with e' in T by lia.
    assert (2 <= 2 ^ (e' - e)) as K by (change 2 with (2 ^ 1) at 1; apply Z.pow_le_mono_r; lia). set (k := 2 ^ (e' - e)) in *. clearbody k.
    apply (Z.mul_le_mono_pos_r _ _ k); [lia|].
    replace (Z.abs (fst x * two_to (- e) - m * two_to e * snd x) * two_to (- e') * k) with (Z.abs (k * a - m * b) * two_to (- e)).
    + replace (Z.abs (a - h * b) * two_to (- e) * k) with (Z.abs (a - h * b) * k * two_to (- e)) by ring. apply Z.mul_le_mono_nonneg_r; [lia|].
      pose proof (half_even_near a b (2 ^ 52) B) as N. fold h in N. rewrite (Z.abs_eq (a - 2 ^ 52 * b)) in N by lia.
      assert (Z.abs (a - h * b) * k <= (a - 2 ^ 52 * b) * k) as N' by (apply Z.mul_le_mono_nonneg_r; lia).
      assert (m * b <= 2 ^ 52 * k * b). { apply Z.mul_le_mono_nonneg_r; [lia|]. change (2 ^ 53) with (2 ^ 52 * 2) in Hm. assert (2 ^ 52 * 2 <= 2 ^ 52 * k) by (apply Z.mul_le_mono_nonneg_l; lia). lia. }
      lia.
    + assert (S : forall u v, 0 <= v -> Z.abs u * v = Z.abs (u * v)) by (intros u v Hv; now rewrite Z.abs_mul, (Z.abs_eq v)). rewrite !S by lia. f_equal.
      unfold a, b. replace ((k * (fst x * two_to (- e')) - m * (snd x * two_to e')) * two_to (- e)) with (k * (fst x * two_to (- e')) * two_to (- e) - m * snd x * (two_to e' * two_to (- e))) by ring. rewrite T. ring.
Qed.

(** ** Every number below 2^1023 rounds to something *)
Lemma exp_from x : fine x -> forall n : nat, fst (scaled x (-1074 + Z.of_nat n)) < 2 ^ 53 * snd (scaled x (-1074 + Z.of_nat n)) ->
  exists e, e <= -1074 + Z.of_nat n /\ at_exp x e.
Proof.
  intros F n. induction n as [|n IH]; intros H.
  - exists (-1074). split; [lia|]. split; [lia|]. split; [exact H|]. now left.
  - destruct (Z.lt_ge_cases (fst (scaled x (-1074 + Z.of_nat n))) (2 ^ 53 * snd (scaled x (-1074 + Z.of_nat n)))) as [C|C].
    + destruct (IH C) as (e & He & A). exists e. split; [lia|exact A].
    + exists (-1074 + Z.of_nat (S n)). split; [lia|]. split; [lia|]. split; [exact H|]. right.
      set (e := -1074 + Z.of_nat n) in *. replace (-1074 + Z.of_nat (S n)) with (e + 1) in * by lia. clear IH H.
      unfold scaled in *. cbn [fst snd] in *. destruct F as [A B]. pose proof (two_sum e 1 ltac:(lia)) as T. pose proof (two_pos e) as P1. pose proof (two_pos (- e)) as P2. pose proof (two_pos (- (e + 1))) as P3.
      apply (Z.mul_le_mono_pos_r _ _ (two_to (- e)) P2).
      replace (2 ^ 52 * (snd x * two_to (e + 1)) * two_to (- e)) with (2 ^ 52 * snd x * (two_to (e + 1) * two_to (- e))) by ring. rewrite T.
      replace (2 ^ 52 * snd x * (2 ^ 1 * two_to e * two_to (- (e + 1)))) with (2 ^ 53 * (snd x * two_to e) * two_to (- (e + 1))) by (change (2 ^ 53) with (2 ^ 52 * 2 ^ 1); ring).
      replace (fst x * two_to (- (e + 1)) * two_to (- e)) with (fst x * two_to (- e) * two_to (- (e + 1))) by ring.
      apply Z.mul_le_mono_nonneg_r; lia.
Qed.
Lemma rounds_some x k : fine x -> 0 <= k <= 900 -> fst x < 2 ^ k * snd x -> exists y, rounds x y.
Proof.
  intros F Hk H. destruct (exp_from x F (Z.to_nat (1074 + k))) as (e & He & A).
  { rewrite Z2Nat.id by lia. replace (-1074 + (1074 + k)) with k by lia. unfold scaled. cbn [fst snd]. destruct F as [F1 F2].
    assert (two_to k = 2 ^ k) as -> by (unfold two_to; f_equal; lia). assert (two_to (- k) = 1) as -> by (unfold two_to; replace (Z.max (- k) 0) with 0 by lia; reflexivity).
    assert (0 < snd x * 2 ^ k) by (apply Z.mul_pos_pos; [lia|apply Z.pow_pos_nonneg; lia]). set (p := 2 ^ k) in *. clearbody p. change (2 ^ 53) with 9007199254740992. lia. }
  rewrite Z2Nat.id in He by lia.
  eexists. apply (rounds_iff x _ e F A). split; [|reflexivity].
  destruct A as (A1 & A2 & _). destruct (scaled_fine x e F) as [S1 S2]. destruct (scaled x e) as [a b]. cbn [fst snd] in *.
  assert (half_even (a, b) <= 2 ^ 53) as M by (apply half_even_most; lia). assert (0 <= half_even (a, b)) by (apply half_even_least; lia).
  destruct (Z.eq_dec (half_even (a, b)) (2 ^ 53)) as [->|E]; [apply fits_top; lia|apply fits_small; lia].
Qed.

(** ** The number N.F *)
Lemma ten_small l : 0 <= l <= 13 -> 1 <= 10 ^ l <= 10 ^ 13.
Proof. intros H. split; [apply (Z.pow_le_mono_r 10 0 l); lia|apply Z.pow_le_mono_r; lia]. Qed.
Lemma fle_trans x y z : fine x -> fine y -> fine z -> fle x y -> fle y z -> fle x z.
Proof.
  unfold fle, fine. intros [X1 X2] [Y1 Y2] [Z1 Z2] H K. apply (Z.mul_le_mono_pos_r _ _ (snd y)); [lia|].
  transitivity (fst y * snd x * snd z); [replace (fst x * snd z * snd y) with (fst x * snd y * snd z) by ring; apply Z.mul_le_mono_nonneg_r; lia|].
  replace (fst y * snd x * snd z) with (fst y * snd z * snd x) by ring. replace (fst z * snd x * snd y) with (fst z * snd y * snd x) by ring. apply Z.mul_le_mono_nonneg_r; lia.
Qed.
Lemma fadd_mono x x' y y' : fine x -> fine x' -> fine y -> fine y' -> fle x x' -> fle y y' -> fle (fadd x y) (fadd x' y').
Proof.
  unfold fle, fine, fadd. cbn [fst snd]. intros [X1 X2] [W1 W2] [Y1 Y2] [V1 V2] H K.
  replace ((fst x * snd y + fst y * snd x) * (snd x' * snd y')) with (fst x * snd x' * (snd y * snd y') + fst y * snd y' * (snd x * snd x')) by ring.
  replace ((fst x' * snd y' + fst y' * snd x') * (snd x * snd y)) with (fst x' * snd x * (snd y * snd y') + fst y' * snd y * (snd x * snd x')) by ring.
  apply Z.add_le_mono; (apply Z.mul_le_mono_nonneg_r; [apply Z.mul_nonneg_nonneg; lia|assumption]).
Qed.
Lemma fle_dy x m k : 0 <= k -> fle x (dy m (- k)) <-> fst x * 2 ^ k <= m * snd x.
Proof. intros H. unfold fle, dy, two_to. cbn [fst snd]. replace (Z.max (- k) 0) with 0 by lia. replace (Z.max (- - k) 0) with k by lia. change (2 ^ 0) with 1. now rewrite Z.mul_1_r. Qed.
Lemma dy_fle x m k : 0 <= k -> fle (dy m (- k)) x <-> m * snd x <= fst x * 2 ^ k.
Proof. intros H. unfold fle, dy, two_to. cbn [fst snd]. replace (Z.max (- k) 0) with 0 by lia. replace (Z.max (- - k) 0) with k by lia. change (2 ^ 0) with 1. now rewrite Z.mul_1_r. Qed.
Lemma dy_sum n m k : 0 <= k -> feq (fadd (n, 1) (dy m (- k))) (dy (n * 2 ^ k + m) (- k)).
Proof. intros H. unfold feq, fadd, dy, two_to. cbn [fst snd]. replace (Z.max (- k) 0) with 0 by lia. replace (Z.max (- - k) 0) with k by lia. change (2 ^ 0) with 1. ring. Qed.
(** bounds on the fraction that have few bits are kept by its value *)
Lemma quotient a b q f l m k : 0 <= f < 10 ^ l -> 0 <= l <= 13 -> rounds (f, 1) a -> rounds (10 ^ l, 1) b -> rounds (fdiv a b) q -> 0 <= m < 2 ^ 53 -> 0 <= k <= 1000 ->
  fine q /\ (m * 10 ^ l <= f * 2 ^ k -> fle (dy m (- k)) q) /\ (f * 2 ^ k <= m * 10 ^ l -> fle q (dy m (- k))).
Proof.
  intros Hf Hl Ra Rb Rq Hm Hk. pose proof (ten_small l Hl) as T. assert (10 ^ 13 < 2 ^ 53) as T' by reflexivity.
  assert (Fa : fine a) by (apply (rounds_fine (f, 1)); [apply z_fine; lia|exact Ra]). assert (Fb : fine b) by (apply (rounds_fine (10 ^ l, 1)); [apply z_fine; lia|exact Rb]).
  apply rounds_whole in Ra; [|lia]. apply rounds_whole in Rb; [|lia].
  assert (E : feq (fdiv a b) (f, 10 ^ l)). { unfold feq, fdiv in *. cbn [fst snd] in *. rewrite Z.mul_1_r in *. rewrite Ra, Rb. ring. }
  assert (Nb : fst b <> 0). { unfold feq in Rb. cbn [fst snd] in Rb. destruct Fb. rewrite Z.mul_1_r in Rb. rewrite Rb. assert (0 < 10 ^ l * snd b) by (apply Z.mul_pos_pos; lia). lia. }
  assert (F0 : fine (fdiv a b)) by now apply fdiv_fine. assert (F1 : fine (f, 10 ^ l)) by (split; cbn [fst snd]; lia).
  split; [now apply (rounds_fine (fdiv a b))|]. split; intros H.
  - apply (rounds_least (fdiv a b)); auto; [lia|]. apply (fle_eq_r _ (f, 10 ^ l)); auto using feq_sym; [apply dy_fine; lia|]. apply dy_fle; [lia|exact H].
  - apply (rounds_most (fdiv a b)); auto; [lia|]. apply (fle_eq_l (f, 10 ^ l)); auto using feq_sym; [apply dy_fine; lia|]. apply fle_dy; [lia|exact H].
Qed.
Lemma decimal_bounds n f l y m k : 0 <= n -> 0 <= f < 10 ^ l -> 0 <= l <= 13 -> decimal n f l y -> 0 <= m -> 0 <= k <= 100 -> n * 2 ^ k + m < 2 ^ 53 ->
  fine y /\ (m * 10 ^ l <= f * 2 ^ k -> fle (dy (n * 2 ^ k + m) (- k)) y) /\ (f * 2 ^ k <= m * 10 ^ l -> fle y (dy (n * 2 ^ k + m) (- k))).
Proof.
  intros Hn Hf Hl (c & a & b & q & Ra & Rb & Rc & Rq & Ry) Hm Hk Hs.
  assert (K : 1 <= 2 ^ k) by (apply (Z.pow_le_mono_r 2 0 k); lia). assert (n * 1 <= n * 2 ^ k) by (apply Z.mul_le_mono_nonneg_l; lia).
  destruct (quotient a b q f l m k Hf Hl Ra Rb Rq ltac:(lia) ltac:(lia)) as (Fq & Q1 & Q2).
  assert (Fc : fine c) by (apply (rounds_fine (n, 1)); [apply z_fine; lia|exact Rc]). apply rounds_whole in Rc; [|lia]. assert (Fn : fine (n, 1)) by (apply z_fine; lia).
  assert (Fs : fine (fadd c q)) by now apply fadd_fine. assert (Fd : fine (dy m (- k))) by (apply dy_fine; lia). assert (Fe : fine (dy (n * 2 ^ k + m) (- k))) by (apply dy_fine; lia).
  assert (Fg : fine (fadd (n, 1) (dy m (- k)))) by now apply fadd_fine. assert (C1 : fle (n, 1) c) by (unfold fle, feq in *; lia). assert (C2 : fle c (n, 1)) by (unfold fle, feq in *; lia).
  split; [now apply (rounds_fine (fadd c q))|]. split; intros Q.
  - apply (rounds_least (fadd c q)); auto; try lia. apply (fle_eq_l (fadd (n, 1) (dy m (- k)))); auto; [apply dy_sum; lia|]. apply fadd_mono; auto.
  - apply (rounds_most (fadd c q)); auto; try lia. apply (fle_eq_r _ (fadd (n, 1) (dy m (- k)))); auto; [apply dy_sum; lia|]. apply fadd_mono; auto.
Qed.
Lemma decimal_least n f l y m : 0 <= f -> 0 <= l -> 0 <= m <= n -> m < 2 ^ 53 -> decimal n f l y -> fine y /\ fle (m, 1) y.
Proof.
  intros Hf Hl Hm Hs (c & a & b & q & Ra & Rb & Rc & Rq & Ry). pose proof (ten_pos l Hl).
  assert (Fa : fine a) by (apply (rounds_fine (f, 1)); [apply z_fine; lia|exact Ra]). assert (Fb : fine b) by (apply (rounds_fine (10 ^ l, 1)); [apply z_fine; lia|exact Rb]).
  assert (Nb : fst b <> 0) by (eapply rounds_positive; [|exact Rb]; lia).
  assert (Fq : fine q) by (apply (rounds_fine (fdiv a b)); [now apply fdiv_fine|exact Rq]).
  assert (Fc : fine c) by (apply (rounds_fine (n, 1)); [apply z_fine; lia|exact Rc]). assert (Fs : fine (fadd c q)) by now apply fadd_fine.
  split; [now apply (rounds_fine (fadd c q))|]. rewrite <- dy_zero. apply (rounds_least (fadd c q)); auto; try lia.
  assert (fle (dy m 0) c) as L. { apply (rounds_least (n, 1)); auto; try lia; [apply z_fine; lia|]. rewrite dy_zero. unfold fle. cbn [fst snd]. lia. }
  rewrite dy_zero in *. destruct Fq as [Q1 Q2], Fc as [C1 C2]. unfold fle, fadd in *. cbn [fst snd] in *.
  assert (m * snd c * snd q <= fst c * 1 * snd q) by (apply Z.mul_le_mono_nonneg_r; lia). assert (0 <= fst q * snd c) by (apply Z.mul_nonneg_nonneg; lia). lia.
Qed.
Lemma floor_is z t k : fine z -> 0 <= k -> fle (t, 1) z -> fle z (dy ((t + 1) * 2 ^ k - 1) (- k)) -> fst z / snd z = t.
Proof.
  intros [F1 F2] Hk L U. apply (proj1 (fle_dy _ _ _ Hk)) in U. unfold fle in L. cbn [fst snd] in L. symmetry. apply (Z.div_unique _ _ _ (fst z - snd z * t)); [|lia]. left. split; [lia|].
  assert (0 < 2 ^ k) by (apply Z.pow_pos_nonneg; lia). assert (fst z * 2 ^ k < (t + 1) * snd z * 2 ^ k) by lia. apply Z.mul_lt_mono_pos_r in H0; lia.
Qed.

(** ** The two units *)
Lemma decimal_some n f l : 0 <= n < 2 ^ 53 -> 0 <= f < 10 ^ l -> 0 <= l <= 13 -> exists y, decimal n f l y.
Proof.
  intros Hn Hf Hl. pose proof (ten_small l Hl) as T. assert (10 ^ 13 < 2 ^ 53) as T' by reflexivity.
  assert (W : forall z, 0 <= z < 2 ^ 53 -> exists y, rounds (z, 1) y) by (intros z Hz; apply (rounds_some _ 53); cbn [fst snd]; [apply z_fine; lia|lia|lia]).
  destruct (W f ltac:(lia)) as (a & Ra). destruct (W (10 ^ l) ltac:(lia)) as (b & Rb). destruct (W n Hn) as (c & Rc). clear W.
  assert (Fa : fine a) by (apply (rounds_fine (f, 1)); [apply z_fine; lia|exact Ra]). assert (Fb : fine b) by (apply (rounds_fine (10 ^ l, 1)); [apply z_fine; lia|exact Rb]).
  assert (Fc : fine c) by (apply (rounds_fine (n, 1)); [apply z_fine; lia|exact Rc]).
  pose proof (rounds_whole f a ltac:(lia) Ra) as Ea. pose proof (rounds_whole (10 ^ l) b ltac:(lia) Rb) as Eb. pose proof (rounds_whole _ _ Hn Rc) as Ec.
  assert (Nb : fst b <> 0) by (eapply rounds_positive; [|exact Rb]; lia). assert (F0 : fine (fdiv a b)) by now apply fdiv_fine.
  destruct (rounds_some (fdiv a b) 1 F0 ltac:(lia)) as (q & Rq).
  { unfold feq, fdiv in *. cbn [fst snd] in *. destruct Fa, Fb. rewrite !Z.mul_1_r in *. rewrite Ea, Eb.
    replace (f * snd a * snd b) with (f * (snd a * snd b)) by ring. replace (2 ^ 1 * (snd a * (10 ^ l * snd b))) with (2 * 10 ^ l * (snd a * snd b)) by ring. apply Z.mul_lt_mono_pos_r; [apply Z.mul_pos_pos; lia|lia]. }
  assert (Fq : fine q) by now apply (rounds_fine (fdiv a b)).
  assert (fle q (dy 1 (- 0))) as Lq.
  { destruct (quotient a b q f l 1 0 Hf Hl Ra Rb Rq) as (_ & _ & Q); [split; [lia|reflexivity]|lia|]. apply Q. rewrite Z.mul_1_r. lia. }
  apply (proj1 (fle_dy q 1 0 ltac:(lia))) in Lq. rewrite Z.mul_1_r, Z.mul_1_l in Lq.
  destruct (rounds_some (fadd c q) 54) as (y & Ry); [now apply fadd_fine|lia| |].
  { destruct Fc, Fq. unfold feq, fadd in *. cbn [fst snd] in *. rewrite Z.mul_1_r in Ec. rewrite Ec. change (2 ^ 54) with (2 ^ 53 + 2 ^ 53).
    assert (n * snd c * snd q + fst q * snd c <= (n + 1) * (snd c * snd q)). { assert (fst q * snd c <= snd q * snd c) by (apply Z.mul_le_mono_nonneg_r; lia). lia. }
    assert ((n + 1) * (snd c * snd q) < (2 ^ 53 + 2 ^ 53) * (snd c * snd q)) by (apply Z.mul_lt_mono_pos_r; [apply Z.mul_pos_pos; lia|]; assert (1 < 2 ^ 53) by reflexivity; lia). lia. }
  exists y, c, a, b, q. repeat (split; [assumption|]). assumption.
Qed.
Lemma megabits n f l y z : 0 <= n < 128 -> 0 <= f < 10 ^ l -> 0 <= l <= 13 -> decimal n f l y -> rounds (fmul y (2, 1)) z -> fst z / snd z = 2 * (n * 10 ^ l + f) / 10 ^ l.
Proof.
  intros Hn Hf Hl Dy Rz. pose proof (ten_small l Hl) as T. set (d := 10 ^ l) in *. set (t := 2 * f / d).
  assert (B : t * d <= 2 * f < (t + 1) * d) by (unfold t; pose proof (Z.div_mod (2 * f) d ltac:(lia)); pose proof (Z.mod_pos_bound (2 * f) d ltac:(lia)); lia).
  assert (0 <= t <= 1) by nia.
  replace (2 * (n * d + f) / d) with (2 * n + t). 2: { unfold t. rewrite Z.mul_add_distr_l, (Z.mul_assoc 2), Z.div_add_l by lia. reflexivity. }
  assert (2 * 10 ^ 13 <= 2 ^ 45) as P by (vm_compute; discriminate).
  destruct (decimal_bounds n f l y t 1 ltac:(lia) Hf Hl Dy ltac:(lia) ltac:(lia)) as (Fy & L & _). { change (2 ^ 1) with 2. assert (512 < 2 ^ 53) by reflexivity. lia. }
  destruct (decimal_bounds n f l y ((t + 1) * 2 ^ 44 - 1) 45 ltac:(lia) Hf Hl Dy) as (_ & _ & U); [lia|lia| |].
  { change (2 ^ 45) with (2 * 2 ^ 44). replace (n * (2 * 2 ^ 44) + ((t + 1) * 2 ^ 44 - 1)) with ((2 * n + t + 1) * 2 ^ 44 - 1) by ring. change (2 ^ 53) with (512 * 2 ^ 44). lia. }
  fold d in L, U. specialize (L ltac:(change (2 ^ 1) with 2; lia)). specialize (U ltac:(change (2 ^ 45) with (2 * 2 ^ 44) in *; lia)).
  apply (proj1 (dy_fle _ _ 1 ltac:(lia))) in L. apply (proj1 (fle_dy _ _ 45 ltac:(lia))) in U. change (2 ^ 1) with 2 in L.
  assert (Fm : fine (fmul y (2, 1))) by (destruct Fy; split; unfold fmul; cbn [fst snd]; lia).
  apply (floor_is z _ 44); [now apply (rounds_fine (fmul y (2, 1)))|lia| |].
  - rewrite <- dy_zero. apply (rounds_least (fmul y (2, 1))); auto; [split; [lia|]; assert (512 < 2 ^ 53) by reflexivity; lia|]. rewrite dy_zero. unfold fle, fmul. cbn [fst snd]. lia.
  - apply (rounds_most (fmul y (2, 1))); auto.
    + change (2 ^ 53) with (512 * 2 ^ 44). lia.
    + apply fle_dy; [lia|]. unfold fmul. cbn [fst snd]. change (2 ^ 45) with (2 * 2 ^ 44) in U. lia.
Qed.
Lemma kilobits n f l y z : 0 <= n < 128000 -> 0 <= f < 10 ^ l -> 0 <= l <= 10 -> decimal n f l y -> rounds (fdiv y (500, 1)) z -> fst z / snd z = (n * 10 ^ l + f) / (500 * 10 ^ l).
Proof.
  intros Hn Hf Hl Dy Rz. pose proof (ten_small l ltac:(lia)) as T. assert (T1 : 10 ^ l <= 10 ^ 10) by (apply Z.pow_le_mono_r; lia). set (d := 10 ^ l) in *. set (t := n / 500).
  assert (B : t * 500 <= n < (t + 1) * 500) by (unfold t; pose proof (Z.div_mod n 500 ltac:(lia)); pose proof (Z.mod_pos_bound n 500 ltac:(lia)); lia).
  replace ((n * d + f) / (500 * d)) with t. 2: { rewrite (Z.mul_comm 500), <- Z.div_div by lia. rewrite Z.div_add_l, (Z.div_small f) by lia. now rewrite Z.add_0_r. }
  assert (10 ^ 10 <= 2 ^ 34) as P by (vm_compute; discriminate).
  destruct (decimal_least n f l y n) as (Fy & L); [lia|lia|lia|assert (128000 < 2 ^ 53) by reflexivity; lia|exact Dy|].
  destruct (decimal_bounds n f l y (2 ^ 34 - 1) 34 ltac:(lia) Hf ltac:(lia) Dy) as (_ & _ & U); [vm_compute; discriminate|lia| |].
  { change (2 ^ 53) with (524288 * 2 ^ 34). lia. }
  fold d in U. specialize (U ltac:(lia)). apply (proj1 (fle_dy _ _ 34 ltac:(lia))) in U. unfold fle in L. cbn [fst snd] in L.
  assert (Fm : fine (fdiv y (500, 1))) by (destruct Fy; split; unfold fdiv; cbn [fst snd]; lia).
  assert (0 <= t < 256) by lia.
  apply (floor_is z _ 43); [now apply (rounds_fine (fdiv y (500, 1)))|lia| |].
  - rewrite <- dy_zero. apply (rounds_least (fdiv y (500, 1))); auto; [split; [lia|]; assert (512 < 2 ^ 53) by reflexivity; lia|]. rewrite dy_zero. unfold fle, fdiv. cbn [fst snd]. destruct Fy. nia.
  - apply (rounds_most (fdiv y (500, 1))); auto.
    + change (2 ^ 53) with (1024 * 2 ^ 43). lia.
    + apply fle_dy; [lia|]. unfold fdiv. cbn [fst snd]. change (2 ^ 43) with (512 * 2 ^ 34) in *. destruct Fy as [F1 F2]. set (p := 2 ^ 34) in *. clearbody p.
      assert ((n * p + (p - 1)) * snd y <= (500 * (t + 1) * p - 1) * snd y). { apply Z.mul_le_mono_nonneg_r; [lia|]. assert ((n + 1) * p <= 500 * (t + 1) * p) by (apply Z.mul_le_mono_nonneg_r; lia). lia. }
      replace (fst y * 1 * (512 * p)) with (512 * (fst y * p)) by ring. replace (((t + 1) * (512 * p) - 1) * (snd y * 500)) with (512 * ((500 * (t + 1) * p) * snd y) - 500 * snd y) by ring. lia.
Qed.
Lemma megabits_large n f l y z : 128 <= n -> 0 <= f -> 0 <= l -> decimal n f l y -> rounds (fmul y (2, 1)) z -> 256 <= fst z / snd z.
Proof.
  intros Hn Hf Hl Dy Rz. destruct (decimal_least n f l y 128) as (Fy & L); [lia|lia|lia|reflexivity|exact Dy|].
  assert (Fm : fine (fmul y (2, 1))) by (destruct Fy; split; unfold fmul; cbn [fst snd]; lia). assert (Fz : fine z) by now apply (rounds_fine (fmul y (2, 1))).
  assert (fle (dy 256 0) z) as K. { apply (rounds_least (fmul y (2, 1))); auto; [split; [lia|reflexivity]|lia|]. rewrite dy_zero. unfold fle, fmul in *. cbn [fst snd] in *. lia. }
  rewrite dy_zero in K. destruct Fz. unfold fle in K. cbn [fst snd] in K. apply Z.div_le_lower_bound; lia.
Qed.
Lemma kilobits_large n f l y z : 128000 <= n -> 0 <= f -> 0 <= l -> decimal n f l y -> rounds (fdiv y (500, 1)) z -> 256 <= fst z / snd z.
Proof.
  intros Hn Hf Hl Dy Rz. destruct (decimal_least n f l y 128000) as (Fy & L); [lia|lia|lia|reflexivity|exact Dy|].
  assert (Fm : fine (fdiv y (500, 1))) by (destruct Fy; split; unfold fdiv; cbn [fst snd]; lia). assert (Fz : fine z) by now apply (rounds_fine (fdiv y (500, 1))).
  assert (fle (dy 256 0) z) as K. { apply (rounds_least (fdiv y (500, 1))); auto; [split; [lia|reflexivity]|lia|]. rewrite dy_zero. unfold fle, fdiv in *. cbn [fst snd] in *. lia. }
  rewrite dy_zero in K. destruct Fz. unfold fle in K. cbn [fst snd] in K. apply Z.div_le_lower_bound; lia.
Qed.

(** ** The text *)
Definition rate_field : field := Field $"radiotap_rate" Stratos 18 KRate.
Lemma rate_accepted : In rate_field accepted_fields.
Proof. apply (nth_error_In accepted_fields 176). vm_compute. reflexivity. Qed.
Lemma rate_value p : Forall plain p -> p <> [] -> str2oxm ($"radiotap_rate=" ++ p) true =
  ('(b, k) <- rate_str2bin (AText p) ;; if Nat.eqb k 0 then Ok ([], length ($"radiotap_rate=" ++ p)) else assert! (Nat.eqb k (length p)) ;; Ok (b, length ($"radiotap_rate=" ++ p))).
Proof.
  intros Hp Hn. assert (cut p []) as Hc by (split; [now apply plain_solid|left; split; [now apply plain_token|exact I]]).
  destruct (value_tokens rate_field p [] [] [] [] rate_accepted Hc) as [E1 E2]; [now left|constructor|constructor|].
  change ([] ++ fname rate_field ++ [] ++ $"=" ++ [] ++ p ++ []) with ($"radiotap_rate=" ++ p ++ []) in E1. rewrite app_nil_r in E1, E2.
  cbn [app] in E2. unfold str2oxm. set (u := $"radiotap_rate=" ++ p) in *.
  assert (exists c s, u = c :: s) as (c & s & Ec) by (eexists _, _; reflexivity). clearbody u.
  replace (str2oxm_go (length u) true u) with
    ('(bin, len) <- rate_str2bin (AText p) ;; if Nat.eqb len 0 then Ok ([], []) else assert! (Nat.eqb len (length p)) ;; '(r, u3) <- str2oxm_go (length s) true [] ;; Ok (bin ++ r, u3)).
  - destruct (rate_str2bin (AText p)) as [[b k]| |]; cbn [bind]; try reflexivity. destruct (Nat.eqb k 0); cbn [bind length]; [now rewrite Nat.sub_0_r|].
    unfold assert. destruct (Nat.eqb k (length p)); cbn [bind]; try reflexivity. destruct (length s); cbn [str2oxm_go bind length]; now rewrite app_nil_r, Nat.sub_0_r.
  - rewrite Ec in *. cbn [str2oxm_go length]. rewrite E1. cbn [app]. rewrite E2.
    replace (negb (has_char 61 []) && has_char 61 [61]) with true by reflexivity. cbn [assert bind].
    unfold str2bin. rewrite (str2bin_reg rate_field rate_accepted). reflexivity.
Qed.

Lemma digits_plain b ds : numeral b ds -> Forall plain ds.
Proof. intros [_ H]. eapply Forall_impl; [|exact (digits_tidy b ds H)]. intros c [K _]. exact K. Qed.
Lemma fraction_plain ds fs c : numeral 10 ds -> numeral 10 fs -> c = 75 \/ c = 77 -> Forall plain (ds ++ $"." ++ fs ++ [c]).
Proof.
  intros Hd Hf Hc. apply Forall_app. split; [now apply (digits_plain 10)|]. constructor; [unfold plain, sep_char, eq_char, opener, blank; cbn; lia|].
  apply Forall_app. split; [now apply (digits_plain 10)|]. constructor; [|constructor]. unfold plain, sep_char, eq_char, opener, blank. cbn. lia.
Qed.
Lemma fraction_read ds fs c b k : numeral 10 ds -> numeral 10 fs -> c = 75 \/ c = 77 ->
  rate_str2bin (AText (ds ++ $"." ++ fs ++ [c])) = Ok (b, k) <->
  exists y z, decimal (value 10 ds) (value 10 fs) (Z.of_nat (length fs)) y /\ unit_rounds c y z /\ in_bytes 1 (fst z / snd z) /\
    b = wire (Tlv rate_field (be 1 (fst z / snd z)) None) /\ k = length (ds ++ $"." ++ fs ++ [c]).
Proof.
  intros Hd Hf Hc. assert (H128 : 0 <= fnum rate_field < 128) by (cbn; lia). assert (Hk : key_of rate_field = STR "rate") by reflexivity. split.
  - intros H. unfold rate_str2bin in H. rewrite parseFloat_point in H; auto. 2: { destruct Hc as [->| ->]; reflexivity. }
    destruct (dec_float (value 10 ds) (value 10 fs) (Z.of_nat (length fs))) as [x|e|] eqn:Ex; cbn [bind] in H; try discriminate.
    assert (py_nth (ds ++ $"." ++ fs ++ [c]) (length ds + length fs + 1) = Ok c) as E.
    { unfold py_nth. rewrite !app_assoc, nth_error_app2 by (rewrite !app_length; cbn; lia). rewrite !app_length. cbn [length s2t].
      replace (length ds + length fs + 1 - (length ds + 1 + length fs))%nat with 0%nat by lia. reflexivity. }
    rewrite E in H. cbn [bind] in H. fold (rate_of c (PFlt x)) in H. mon H. rename a into v.
    destruct (dec_ok _ _ _ x (value_pos 10 ds ltac:(lia)) (value_pos 10 fs ltac:(lia)) (Nat2Z.is_nonneg _) Ex) as (y & Dy & Hy). { intros ->. now apply inf_rate in Ea. }
    destruct (unit_ok _ _ _ _ Hy Ea) as (z & Hz & ->). exists y, z. mon H. apply pack_u_inv in Ea0 as (Hb & b' & Eb & ->). apply pack_nil_inv in Eb as ->.
    rewrite app_nil_r, <- Hk, hdr_cat_plain in H by auto. injection H as <- <-. repeat (split; [assumption || reflexivity|]). rewrite !app_length. cbn [length s2t]. lia.
  - intros (y & z & Dy & Hz & Hb & -> & ->). unfold rate_str2bin. rewrite <- Hk. now apply (read_fraction rate_field ds fs c y z).
Qed.
Lemma digit_nonneg c d : digit c = Some d -> 0 <= d.
Proof. intros H. apply digit_hex in H. lia. Qed.
Lemma digits_below b ds : 0 < b -> Forall (digit_in b) ds -> 0 <= value b ds < b ^ Z.of_nat (length ds).
Proof.
  intros Hb H. induction H as [|c ds (d & E & Hd) _ IH]; [cbn; lia|]. cbn [value length]. rewrite E. pose proof (digit_nonneg _ _ E).
  rewrite Nat2Z.inj_succ, Z.pow_succ_r by lia. set (p := b ^ Z.of_nat (length ds)) in *. clearbody p. nia.
Qed.
Lemma megabits_read ds fs b k : numeral 10 ds -> numeral 10 fs -> (length fs <= 13)%nat ->
  str2oxm ($"radiotap_rate=" ++ ds ++ $"." ++ fs ++ $"M") true = Ok (b, k) <->
  2 * value 10 (ds ++ fs) / 10 ^ Z.of_nat (length fs) < 256 /\ b = wire (Tlv rate_field (be 1 (2 * value 10 (ds ++ fs) / 10 ^ Z.of_nat (length fs))) None)
  /\ k = length ($"radiotap_rate=" ++ ds ++ $"." ++ fs ++ $"M").
Proof.
  intros Hd Hf Hl. change $"M" with [77]. rewrite rate_value by (try (destruct ds; discriminate); apply fraction_plain; auto).
  pose proof (digits_below 10 fs ltac:(lia) (proj2 Hf)) as Bf. pose proof (value_pos 10 ds ltac:(lia)) as Bd. rewrite value_app.
  set (n := value 10 ds) in *. set (g := value 10 fs) in *. set (l := Z.of_nat (length fs)) in *. assert (L : 0 <= l <= 13) by lia. pose proof (ten_small l L) as T.
  assert (B : 2 * (n * 10 ^ l + g) / 10 ^ l < 256 <-> n < 128).
  { split; intros H; [|apply Z.div_lt_upper_bound; nia]. destruct (Z.lt_ge_cases n 128) as [C|C]; [exact C|]. assert (256 <= 2 * (n * 10 ^ l + g) / 10 ^ l) by (apply Z.div_le_lower_bound; nia). lia. }
  split.
  - intros H. mon H. destruct a as [b' k']. cbn [bind] in H. apply fraction_read in Ea as (y & z & Dy & [[? _]|[_ Rz]] & Hb & -> & ->); auto; [discriminate|].
    assert (Hn : n < 128). { destruct (Z.lt_ge_cases n 128) as [C|C]; [exact C|]. pose proof (megabits_large n g l y z C ltac:(lia) ltac:(lia) Dy Rz). unfold in_bytes in Hb. cbn in Hb. lia. }
    rewrite (megabits n g l y z ltac:(lia) Bf L Dy Rz) in *. rewrite Nat.eqb_refl in H. destruct (Nat.eqb_spec (length (ds ++ $"." ++ fs ++ [77])) 0) as [C|_]; [destruct ds; discriminate C|].
    cbn [assert bind] in H. injection H as <- <-. split; [now apply B|]. split; reflexivity.
  - intros (Hv & -> & ->). apply B in Hv. destruct (decimal_some n g l) as (y & Dy); [split; [lia|]; assert (128 < 2 ^ 53) by reflexivity; lia|exact Bf|exact L|].
    assert (exists z, rounds (fmul y (2, 1)) z) as (z & Rz).
    { destruct (decimal_bounds n g l y 1 0 ltac:(lia) Bf L Dy ltac:(lia) ltac:(lia)) as (Fy & _ & U). { change (2 ^ 0) with 1. assert (256 < 2 ^ 53) by reflexivity. lia. }
      specialize (U ltac:(change (2 ^ 0) with 1; lia)). apply (proj1 (fle_dy _ _ 0 ltac:(lia))) in U. change (2 ^ 0) with 1 in U. destruct Fy as [F1 F2].
      apply (rounds_some _ 10); [split; unfold fmul; cbn [fst snd]; lia|lia|]. unfold fmul. cbn [fst snd]. change (2 ^ 10) with 1024. nia. }
    pose proof (megabits n g l y z ltac:(lia) Bf L Dy Rz) as E.
    assert (in_bytes 1 (fst z / snd z)) as Hb. { rewrite E. unfold in_bytes. cbn. split; [apply Z.div_pos; nia|now apply B]. }
    rewrite (proj2 (fraction_read ds fs 77 _ _ Hd Hf (or_intror eq_refl)) (ex_intro _ y (ex_intro _ z (conj Dy (conj (or_intror (conj eq_refl Rz)) (conj Hb (conj eq_refl eq_refl))))))).
    cbn [bind]. rewrite Nat.eqb_refl. destruct (Nat.eqb_spec (length (ds ++ $"." ++ fs ++ [77])) 0) as [C|_]; [destruct ds; discriminate C|]. cbn [assert bind]. now rewrite E.
Qed.
Lemma kilobits_read ds fs b k : numeral 10 ds -> numeral 10 fs -> (length fs <= 10)%nat ->
  str2oxm ($"radiotap_rate=" ++ ds ++ $"." ++ fs ++ $"K") true = Ok (b, k) <->
  value 10 (ds ++ fs) / (500 * 10 ^ Z.of_nat (length fs)) < 256 /\ b = wire (Tlv rate_field (be 1 (value 10 (ds ++ fs) / (500 * 10 ^ Z.of_nat (length fs)))) None)
  /\ k = length ($"radiotap_rate=" ++ ds ++ $"." ++ fs ++ $"K").
Proof.
  intros Hd Hf Hl. change $"K" with [75]. rewrite rate_value by (try (destruct ds; discriminate); apply fraction_plain; auto).
  pose proof (digits_below 10 fs ltac:(lia) (proj2 Hf)) as Bf. pose proof (value_pos 10 ds ltac:(lia)) as Bd. rewrite value_app.
  set (n := value 10 ds) in *. set (g := value 10 fs) in *. set (l := Z.of_nat (length fs)) in *. assert (L : 0 <= l <= 10) by lia. pose proof (ten_small l ltac:(lia)) as T.
  assert (B : (n * 10 ^ l + g) / (500 * 10 ^ l) < 256 <-> n < 128000).
  { split; intros H; [|apply Z.div_lt_upper_bound; nia]. destruct (Z.lt_ge_cases n 128000) as [C|C]; [exact C|]. assert (256 <= (n * 10 ^ l + g) / (500 * 10 ^ l)) by (apply Z.div_le_lower_bound; nia). lia. }
  split.
  - intros H. mon H. destruct a as [b' k']. cbn [bind] in H. apply fraction_read in Ea as (y & z & Dy & [[_ Rz]|[? _]] & Hb & -> & ->); auto; [|discriminate].
    assert (Hn : n < 128000). { destruct (Z.lt_ge_cases n 128000) as [C|C]; [exact C|]. pose proof (kilobits_large n g l y z C ltac:(lia) ltac:(lia) Dy Rz). unfold in_bytes in Hb. cbn in Hb. lia. }
    rewrite (kilobits n g l y z ltac:(lia) Bf L Dy Rz) in *. rewrite Nat.eqb_refl in H. destruct (Nat.eqb_spec (length (ds ++ $"." ++ fs ++ [75])) 0) as [C|_]; [destruct ds; discriminate C|].
    cbn [assert bind] in H. injection H as <- <-. split; [now apply B|]. split; reflexivity.
  - intros (Hv & -> & ->). apply B in Hv. destruct (decimal_some n g l) as (y & Dy); [split; [lia|]; assert (128000 < 2 ^ 53) by reflexivity; lia|exact Bf|lia|].
    assert (exists z, rounds (fdiv y (500, 1)) z) as (z & Rz).
    { destruct (decimal_bounds n g l y 1 0 ltac:(lia) Bf ltac:(lia) Dy ltac:(lia) ltac:(lia)) as (Fy & _ & U). { change (2 ^ 0) with 1. assert (128001 < 2 ^ 53) by reflexivity. lia. }
      specialize (U ltac:(change (2 ^ 0) with 1; lia)). apply (proj1 (fle_dy _ _ 0 ltac:(lia))) in U. change (2 ^ 0) with 1 in U. destruct Fy as [F1 F2].
      apply (rounds_some _ 20); [split; unfold fdiv; cbn [fst snd]; lia|lia|]. unfold fdiv. cbn [fst snd]. change (2 ^ 20) with 1048576. nia. }
    pose proof (kilobits n g l y z ltac:(lia) Bf L Dy Rz) as E.
    assert (in_bytes 1 (fst z / snd z)) as Hb. { rewrite E. unfold in_bytes. cbn. split; [apply Z.div_pos; nia|now apply B]. }
    rewrite (proj2 (fraction_read ds fs 75 _ _ Hd Hf (or_introl eq_refl)) (ex_intro _ y (ex_intro _ z (conj Dy (conj (or_introl (conj eq_refl Rz)) (conj Hb (conj eq_refl eq_refl))))))).
    cbn [bind]. rewrite Nat.eqb_refl. destruct (Nat.eqb_spec (length (ds ++ $"." ++ fs ++ [75])) 0) as [C|_]; [destruct ds; discriminate C|]. cbn [assert bind]. now rewrite E.
Qed.
