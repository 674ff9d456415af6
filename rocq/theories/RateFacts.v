(** Decimal fractions: what [parseFloat] and the unit of radiotap_rate compute is SpecRate's
    [decimal], rounded once more. *)
From Verif Require Import Base PyNum Util OxmCodec SpecRate FloatFacts.
From Coq Require Import Floats.SpecFloat.

Lemma rounds_once x y y' : fine x -> rounds x y -> rounds x y' -> y = y'.
Proof.
  intros F R R'. pose proof R as (e & H1 & H2 & H3 & _ & _). assert (A : at_exp x e) by (repeat split; assumption).
  apply (rounds_iff x _ e F A) in R as [_ ->]. apply (rounds_iff x _ e F A) in R' as [_ ->]. reflexivity.
Qed.
Lemma result_holds x f y : fine x -> result x f -> rounds x y -> holds f y.
Proof. intros F [(y' & R & H)|[_ N]] R'; [now rewrite (rounds_once x y y' F R' R)|now destruct (N y)]. Qed.
Lemma holds_not_inf f y : holds f y -> f <> S754_infinity false.
Proof. intros [_ H] ->. exact H. Qed.
Lemma result_some x f : result x f -> f <> S754_infinity false -> exists y, rounds x y /\ holds f y.
Proof. intros [R|[-> _]] H; [exact R|congruence]. Qed.
Lemma z_fine z : 0 <= z -> fine (z, 1).
Proof. intros H. split; cbn; lia. Qed.
Lemma normal_result z : 0 <= z -> result (z, 1) (binary_normalize 53 1024 z 0 false).
Proof. intros H. apply normalize_rounds; [assumption|now apply z_fine|]. unfold feq. cbn. lia. Qed.
Lemma of_Z_ok z f : 0 <= z -> f_of_Z z = Ok f -> exists y, rounds (z, 1) y /\ holds f y.
Proof.
  intros H E. apply normal_result in H. unfold f_of_Z in E. apply result_some.
  - destruct (binary_normalize 53 1024 z 0 false); try discriminate; injection E as <-; exact H.
  - intros ->. destruct (binary_normalize 53 1024 z 0 false); discriminate.
Qed.
Lemma of_Z_rounds z y : 0 <= z -> rounds (z, 1) y -> exists f, f_of_Z z = Ok f /\ holds f y.
Proof.
  intros H R. pose proof (result_holds _ _ _ (z_fine z H) (normal_result z H) R) as K. unfold f_of_Z. destruct (binary_normalize 53 1024 z 0 false) as [s|s| |s m e]; [eauto| | |eauto].
  - destruct K as [_ K]. contradiction.
  - destruct K as [_ K]. contradiction.
Qed.
Lemma rounds_positive z y : 1 <= z -> rounds (z, 1) y -> fst y <> 0.
Proof.
  intros H (e & H1 & H2 & H3 & _ & ->). cbn [fst]. pose proof (scaled_fine (z, 1) e (z_fine z ltac:(lia))) as [F1 F2]. destruct (scaled (z, 1) e) as [a b] eqn:E. cbn [fst snd] in *.
  pose proof (half_even_bound a b F2) as Hb. pose proof (two_pos e). assert (1 <= a / b); [|nia]. apply Z.div_le_lower_bound; [assumption|]. destruct H3 as [->|H3]; [|lia].
  pose proof (f_equal fst E) as Ea. pose proof (f_equal snd E) as Eb. cbn [scaled fst snd] in Ea, Eb. pose proof (two_pos (- -1074)) as P. assert (E1 : two_to (-1074) = 1) by reflexivity.
  rewrite E1 in Eb. set (T := two_to (- -1074)) in *. clearbody T. clear - Ea Eb P H. nia.
Qed.
Definition dec_float (n f l : Z) : res flt := a <- f_of_Z f ;; b <- f_of_Z (10 ^ l) ;; c <- f_of_Z n ;; Ok (f_add c (f_div a b)).
Lemma ten_pos l : 0 <= l -> 1 <= 10 ^ l.
Proof. intros H. assert (0 < 10 ^ l) by (apply Z.pow_pos_nonneg; lia). lia. Qed.
Lemma add_inf c : (exists y, holds c y) -> SFadd 53 1024 c (S754_infinity false) = S754_infinity false.
Proof. intros (y & _ & H). now destruct c as [[]|[]| |[] m e]. Qed.
Lemma dec_ok n f l x : 0 <= n -> 0 <= f -> 0 <= l -> dec_float n f l = Ok x -> x <> S754_infinity false -> exists y, decimal n f l y /\ holds x y.
Proof.
  intros Hn Hf Hl H Hx. unfold dec_float in H. destruct (f_of_Z f) as [a| |] eqn:Ea; [|discriminate..]. cbn [bind] in H. destruct (f_of_Z (10 ^ l)) as [b| |] eqn:Eb; [|discriminate..]. cbn [bind] in H.
  destruct (f_of_Z n) as [c| |] eqn:Ec; [|discriminate..]. cbn [bind] in H. injection H as <-. pose proof (ten_pos l Hl) as Ht.
  apply of_Z_ok in Ea as (ya & Ra & Ha); [|assumption]. apply of_Z_ok in Eb as (yb & Rb & Hb); [|lia]. apply of_Z_ok in Ec as (yc & Rc & Hc); [|assumption].
  pose proof (rounds_positive _ _ Ht Rb) as Nb. unfold f_add, f_div in *. pose proof (div_rounds a b ya yb Ha Hb Nb) as D.
  apply result_some in D as (yq & Rq & Hq). 2: { intros Eq. rewrite Eq in Hx. apply Hx, add_inf. eauto. }
  pose proof (add_rounds c _ yc yq Hc Hq) as A. apply result_some in A as (y & R & H); [|assumption]. exists y. split; [|assumption]. exists yc, ya, yb, yq. auto.
Qed.
Lemma dec_read n f l y : 0 <= n -> 0 <= f -> 0 <= l -> decimal n f l y -> exists x, dec_float n f l = Ok x /\ holds x y.
Proof.
  intros Hn Hf Hl (yc & ya & yb & yq & Ra & Rb & Rc & Rq & R). pose proof (ten_pos l Hl) as Ht.
  pose proof (rounds_positive _ _ Ht Rb) as Nb. destruct (of_Z_rounds f ya Hf Ra) as (a & Ea & Ha). destruct (of_Z_rounds (10 ^ l) yb ltac:(lia) Rb) as (b & Eb & Hb). destruct (of_Z_rounds n yc Hn Rc) as (c & Ec & Hc).
  unfold dec_float. rewrite Ea. cbn [bind]. rewrite Eb. cbn [bind]. rewrite Ec. cbn [bind]. eexists. split; [reflexivity|].
  assert (Hq : holds (f_div a b) yq) by (eapply result_holds; [|apply (div_rounds a b ya yb Ha Hb Nb)|exact Rq]; apply fdiv_fine; [apply Ha|apply Hb|exact Nb]).
  eapply result_holds; [|apply (add_rounds _ _ yc yq Hc Hq)|exact R]. apply fadd_fine; [apply Hc|apply Hq].
Qed.
Lemma trunc_floor f y : holds f y -> f_trunc f = Ok (fst y / snd y).
Proof.
  intros [[F1 F2] H]. destruct f as [[]|[]| |[] m e]; try contradiction; cbn [f_trunc].
  - now rewrite H, Z.div_0_l by lia.
  - destruct H as (_ & _ & E). unfold feq in E. cbn [fst snd] in E. f_equal. unfold two_to in E.
    destruct (Z.leb_spec 0 e).
    + rewrite (Z.max_l e), (Z.max_r (- e)) in E by lia. rewrite Z.pow_0_r, Z.mul_1_r in E. rewrite E. rewrite Z.div_mul by lia. reflexivity.
    + rewrite (Z.max_r e), (Z.max_l (- e)) in E by lia. rewrite Z.pow_0_r, Z.mul_1_r in E. assert (0 < 2 ^ (- e)) by (apply Z.pow_pos_nonneg; lia).
      rewrite <- (Z.div_mul_cancel_r (fst y) (snd y) (2 ^ (- e))) by lia. rewrite E. rewrite (Z.mul_comm (snd y)). now rewrite Z.div_mul_cancel_r by lia.
Qed.
Definition float_500 : spec_float := S754_finite false 8796093022208000 (-44).
Lemma of_500 : f_of_Z 500 = Ok float_500.
Proof. reflexivity. Qed.
Lemma of_2 : f_of_Z 2 = Ok float_two.
Proof. reflexivity. Qed.
Lemma holds_500 : holds float_500 (500, 1).
Proof. split; [now apply z_fine|]. split; [reflexivity|]. split; [lia|]. reflexivity. Qed.
Definition rate_of (c : Z) (n : pynum) : res Z := if c =? 75 then rate_k n else if c =? 77 then rate_m n else Raise ValueError.
Definition unit_rounds (c : Z) (y z : frac) : Prop := c = 75 /\ rounds (fdiv y (500, 1)) z \/ c = 77 /\ rounds (fmul y (2, 1)) z.
Lemma inf_rate c : forall v, rate_of c (PFlt (S754_infinity false)) <> Ok v.
Proof. intros v. unfold rate_of. destruct (c =? 75); [discriminate|]. destruct (c =? 77); discriminate. Qed.
Lemma trunc_some f v : f_trunc f = Ok v -> f <> S754_infinity false.
Proof. now intros H ->. Qed.
Lemma unit_ok c x y v : holds x y -> rate_of c (PFlt x) = Ok v -> exists z, unit_rounds c y z /\ v = fst z / snd z.
Proof.
  intros H E. unfold rate_of in E. destruct (Z.eqb_spec c 75) as [->|].
  - cbn [rate_k] in E. rewrite of_500 in E. cbn [bind] in E. pose proof (div_rounds x float_500 y (500, 1) H holds_500 ltac:(cbn; lia)) as D. apply result_some in D as (z & R & Hz); [|eapply trunc_some; exact E].
    unfold f_div in E. rewrite (trunc_floor _ _ Hz) in E. injection E as <-. exists z. split; [left; auto|reflexivity].
  - destruct (Z.eqb_spec c 77) as [->|]; [|discriminate]. cbn [rate_m] in E. rewrite of_2 in E. cbn [bind] in E. pose proof (double_rounds x y H) as D. apply result_some in D as (z & R & Hz); [|eapply trunc_some; exact E].
    unfold f_mul in E. rewrite (trunc_floor _ _ Hz) in E. injection E as <-. exists z. split; [right; auto|reflexivity].
Qed.
Lemma unit_read c x y z : holds x y -> unit_rounds c y z -> rate_of c (PFlt x) = Ok (fst z / snd z).
Proof.
  intros H [[-> R]|[-> R]]; unfold rate_of; cbn [Z.eqb Pos.eqb rate_k rate_m].
  - rewrite of_500. cbn [bind]. apply trunc_floor. eapply result_holds; [|apply (div_rounds x float_500 y (500, 1) H holds_500)|exact R]; [apply fdiv_fine; [apply H|apply holds_500|]|]; cbn; lia.
  - rewrite of_2. cbn [bind]. apply trunc_floor. eapply result_holds; [|apply (double_rounds x y H)|exact R]. destruct H as [[] _]. split; cbn [fmul fst snd]; lia.
Qed.
