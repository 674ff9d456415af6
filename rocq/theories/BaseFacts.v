(** Lemmas on Base.v: lists, text, integers as bytes. *)
From Verif Require Import Base PyNum Spec.
From Coq Require Export ZifyBool ZifyNat ZifyN.
Ltac Zify.zify_post_hook ::= Z.div_mod_to_equations.

(* compute with integers only when all digits are known *)
#[global] Arguments Z.eqb !x !y : simpl nomatch.
#[global] Arguments Z.leb !x !y : simpl nomatch.
#[global] Arguments Z.ltb !x !y : simpl nomatch.
#[global] Arguments Z.add !x !y : simpl nomatch.
#[global] Arguments Z.sub !m !n : simpl nomatch.
#[global] Arguments Z.mul !x !y : simpl nomatch.
#[global] Arguments Z.shiftl !a !n : simpl nomatch.
#[global] Arguments Z.shiftr !a !n : simpl nomatch.
#[global] Arguments Z.land !a !b : simpl nomatch.

(** reduce the character literals of Spec.v *)
Ltac chr_red :=
  repeat match goal with
         | |- context [chr ?a] => let v := eval vm_compute in (chr a) in change (chr a) with v
         | H : context [chr ?a] |- _ =>
             let v := eval vm_compute in (chr a) in change (chr a) with v in H
         end.

(** ** res *)
Lemma bind_ok {A B} (r : res A) (k : A -> res B) b :
  bind r k = Ok b -> exists a, r = Ok a /\ k a = Ok b.
Proof. destruct r; cbn; intros H; try discriminate. eauto. Qed.
Lemma assert_ok b u : assert b = Ok u -> b = true.
Proof. destruct b; cbn; congruence. Qed.

(** decompose a monadic hypothesis [bind ... = Ok _] *)
Ltac mon H :=
  match type of H with
  | bind (assert ?b) _ = Ok _ =>
      let E := fresh "Eb" in
      destruct b eqn:E; cbn [assert bind] in H; [mon H | discriminate H]
  | bind ?r _ = Ok _ =>
      let a := fresh "a" in let E := fresh "Ea" in
      apply bind_ok in H; destruct H as [a [E H]]; cbn beta in H
  | _ => idtac
  end.

(** ** take_while / drop_while *)
Section TW.
Context {A : Type} (f : A -> bool).
Lemma take_drop s : take_while f s ++ drop_while f s = s.
Proof. induction s as [|c s IH]; cbn; [auto|]. destruct (f c); cbn; congruence. Qed.
Lemma take_while_all s : forallb f (take_while f s) = true.
Proof. induction s as [|c s IH]; cbn; [auto|]. destruct (f c) eqn:E; cbn; [rewrite E|]; auto. Qed.
Lemma drop_while_head s : match drop_while f s with [] => True | c :: _ => f c = false end.
Proof. induction s as [|c s IH]; cbn; [auto|]. destruct (f c) eqn:E; auto. Qed.
Lemma take_while_app a b :
  forallb f a = true -> match b with [] => True | c :: _ => f c = false end ->
  take_while f (a ++ b) = a.
Proof.
  induction a as [|c a IH]; cbn; intros Ha Hb.
  - destruct b as [|c b]; cbn; [auto|]. now rewrite Hb.
  - apply andb_prop in Ha as [Hc Ha]. rewrite Hc, IH; auto.
Qed.
Lemma drop_while_app a b :
  forallb f a = true -> match b with [] => True | c :: _ => f c = false end ->
  drop_while f (a ++ b) = b.
Proof.
  induction a as [|c a IH]; cbn; intros Ha Hb.
  - destruct b as [|c b]; cbn; [auto|]. now rewrite Hb.
  - apply andb_prop in Ha as [Hc Ha]. rewrite Hc, IH; auto.
Qed.
Lemma take_while_length s : (length (take_while f s) <= length s)%nat.
Proof. induction s as [|c s IH]; cbn; [auto|]. destruct (f c); cbn; lia. Qed.
Lemma firstn_take_while s : firstn (length (take_while f s)) s = take_while f s.
Proof. induction s as [|c s IH]; cbn; [auto|]. destruct (f c); cbn; congruence. Qed.
Lemma skipn_take_while s : skipn (length (take_while f s)) s = drop_while f s.
Proof. induction s as [|c s IH]; cbn; [auto|]. destruct (f c); cbn; congruence. Qed.
End TW.

(** ** lists *)
Lemma firstn_len_app {A} (a b : list A) : firstn (length a) (a ++ b) = a.
Proof. now rewrite firstn_app, Nat.sub_diag, firstn_all, app_nil_r. Qed.
Lemma skipn_len_app {A} (a b : list A) : skipn (length a) (a ++ b) = b.
Proof. now rewrite skipn_app, Nat.sub_diag, skipn_all. Qed.
Lemma firstn_app_exact {A} n (a b : list A) : length a = n -> firstn n (a ++ b) = a.
Proof. intros <-. apply firstn_len_app. Qed.
Lemma skipn_app_exact {A} n (a b : list A) : length a = n -> skipn n (a ++ b) = b.
Proof. intros <-. apply skipn_len_app. Qed.
Lemma firstn_app_le {A} n (a b : list A) : (n <= length a)%nat -> firstn n (a ++ b) = firstn n a.
Proof. intros H. rewrite firstn_app. replace (n - length a)%nat with 0%nat by lia. cbn. apply app_nil_r. Qed.
Lemma skipn_app_le {A} n (a b : list A) : (n <= length a)%nat -> skipn n (a ++ b) = skipn n a ++ b.
Proof. intros H. rewrite skipn_app. now replace (n - length a)%nat with 0%nat by lia. Qed.
Lemma skipn_app_ge {A} n (a b : list A) : (length a <= n)%nat -> skipn n (a ++ b) = skipn (n - length a) b.
Proof. intros H. rewrite skipn_app. now rewrite skipn_all2 by lia. Qed.
Lemma skipn_skipn {A} n m (l : list A) : skipn n (skipn m l) = skipn (m + n) l.
Proof. revert l; induction m as [|m IH]; intros [|x l]; cbn; auto; now rewrite ?skipn_nil. Qed.
Lemma repeat_length_eq {A} (x : A) n : length (repeat x n) = n.
Proof. apply repeat_length. Qed.

(** ** text equality *)
Lemma text_eqb_refl a : text_eqb a a = true.
Proof. induction a as [|x a IH]; cbn; [auto|]. now rewrite Z.eqb_refl. Qed.
Lemma text_eqb_eq a b : text_eqb a b = true <-> a = b.
Proof.
  split; [|intros ->; apply text_eqb_refl].
  revert b; induction a as [|x a IH]; intros [|y b]; cbn; try congruence.
  intros H. apply andb_prop in H as [H1 H2]. apply Z.eqb_eq in H1. f_equal; auto.
Qed.
Lemma text_eqb_neq a b : text_eqb a b = false <-> a <> b.
Proof. rewrite <- text_eqb_eq. destruct (text_eqb a b); split; congruence. Qed.
Lemma startswith_app p s : startswith p (p ++ s) = true.
Proof. induction p as [|x p IH]; cbn; [auto|]. now rewrite Z.eqb_refl. Qed.
Lemma startswith_iff p s : startswith p s = true <-> exists r, s = p ++ r.
Proof.
  split.
  - revert s; induction p as [|x p IH]; intros s H; cbn in H; [now exists s|].
    destruct s as [|y s]; [discriminate|]. apply andb_prop in H as [H1 H2].
    apply Z.eqb_eq in H1; subst y. destruct (IH _ H2) as [r ->]. now exists r.
  - intros [r ->]. apply startswith_app.
Qed.
Lemma has_char_app c a b : has_char c (a ++ b) = has_char c a || has_char c b.
Proof. unfold has_char. apply existsb_app. Qed.
Lemma has_char_false c s : has_char c s = false <-> ~ In c s.
Proof.
  unfold has_char. split.
  - intros H Hin. assert (existsb (Z.eqb c) s = true) as X; [|congruence].
    apply existsb_exists. exists c. split; auto. apply Z.eqb_refl.
  - intros H. destruct (existsb (Z.eqb c) s) eqn:E; auto.
    apply existsb_exists in E as [x [Hx He]]. apply Z.eqb_eq in He; subst; tauto.
Qed.
Lemma has_char_true c s : has_char c s = true <-> In c s.
Proof.
  unfold has_char. rewrite existsb_exists. split.
  - intros [x [Hx He]]. apply Z.eqb_eq in He; now subst.
  - intros H. exists c. split; auto. apply Z.eqb_refl.
Qed.
Lemma s2t_app a b : s2t (a ++ b)%string = s2t a ++ s2t b.
Proof. induction a as [|c a IH]; cbn; congruence. Qed.
Lemma s2t_length s : length (s2t s) = String.length s.
Proof. induction s as [|c s IH]; cbn; congruence. Qed.

(** ** split1 / split_all / join *)
Lemma split1_none c s : ~ In c s -> split1 c s = (s, None).
Proof.
  induction s as [|x s IH]; cbn; intros H; [auto|].
  destruct (Z.eqb_spec x c); [subst; tauto|]. rewrite IH; tauto.
Qed.
Lemma split1_some c a b : ~ In c a -> split1 c (a ++ c :: b) = (a, Some b).
Proof.
  induction a as [|x a IH]; cbn; intros H; [now rewrite Z.eqb_refl|].
  destruct (Z.eqb_spec x c); [subst; tauto|]. rewrite IH; tauto.
Qed.
Lemma split_all_none c s : ~ In c s -> split_all c s = [s].
Proof.
  induction s as [|x s IH]; cbn; intros H; [auto|].
  destruct (Z.eqb_spec x c); [subst; tauto|]. rewrite IH; tauto.
Qed.
Lemma split_all_cons c a b : ~ In c a -> split_all c (a ++ c :: b) = a :: split_all c b.
Proof.
  induction a as [|x a IH]; cbn; intros H; [now rewrite Z.eqb_refl|].
  destruct (Z.eqb_spec x c); [subst; tauto|]. rewrite IH; tauto.
Qed.
Lemma split_all_join c l : l <> [] -> Forall (fun s => ~ In c s) l -> split_all c (join [c] l) = l.
Proof.
  induction l as [|a l IH]; intros Hn H; [tauto|].
  inversion H; subst. destruct l as [|b l]; cbn [join].
  - now apply split_all_none.
  - cbn [app]. rewrite split_all_cons by auto. f_equal. apply IH; auto. discriminate.
Qed.
Lemma join_cons sep a l : join sep (a :: l) = a ++ match l with [] => [] | _ => sep ++ join sep l end.
Proof. destruct l; cbn; [now rewrite app_nil_r | auto]. Qed.
Lemma split1_spec c s :
  match split1 c s with
  | (a, None) => a = s /\ ~ In c s
  | (a, Some b) => s = a ++ c :: b /\ ~ In c a
  end.
Proof.
  induction s as [|x s IH]; cbn; [auto|].
  destruct (Z.eqb_spec x c) as [->|Hx]; cbn; [auto|].
  destruct (split1 c s) as [a [b|]]; cbn.
  - destruct IH as [-> H]. split; [auto|]. intros [E|E]; auto.
  - destruct IH as [-> H]. split; [auto|]. intros [E|E]; auto.
Qed.

(** ** bytes *)
Lemma to_N_bound b : (Byte.to_N b < 256)%N.
Proof. destruct b; reflexivity. Qed.
Lemma b2z_range b : 0 <= b2z b < 256.
Proof. unfold b2z. pose proof (to_N_bound b). lia. Qed.
Lemma byte_of_z2b z : byte_of z = z2b z.
Proof. reflexivity. Qed.
Lemma byte_val_b2z b : byte_val b = b2z b.
Proof. reflexivity. Qed.
Lemma b2z_z2b z : b2z (z2b z) = z mod 256.
Proof.
  unfold b2z, z2b. pose proof (Z.mod_pos_bound z 256 ltac:(lia)) as H.
  destruct (Byte.of_N (Z.to_N (z mod 256))) as [b|] eqn:E.
  - apply Byte.to_of_N in E. rewrite E. lia.
  - apply Byte.of_N_None_iff in E. lia.
Qed.
Lemma z2b_b2z b : z2b (b2z b) = b.
Proof.
  unfold z2b, b2z. pose proof (to_N_bound b).
  rewrite Z.mod_small by lia. rewrite N2Z.id, Byte.of_to_N. reflexivity.
Qed.
Lemma z2b_mod z : z2b (z mod 256) = z2b z.
Proof. unfold z2b. now rewrite Z.mod_mod by lia. Qed.
Lemma b2z_inj a b : b2z a = b2z b -> a = b.
Proof. intros H. rewrite <- (z2b_b2z a), <- (z2b_b2z b). congruence. Qed.
Lemma bytes_eqb_refl l : bytes_eqb l l = true.
Proof. induction l as [|x l IH]; cbn; [auto|]. unfold beqb. now rewrite Z.eqb_refl. Qed.
Lemma bytes_eqb_eq a b : bytes_eqb a b = true <-> a = b.
Proof.
  split; [|intros ->; apply bytes_eqb_refl].
  revert b; induction a as [|x a IH]; intros [|y b]; cbn; try congruence.
  unfold beqb. intros H. apply andb_prop in H as [H1 H2]. apply Z.eqb_eq in H1. f_equal; auto.
  now apply b2z_inj.
Qed.

Lemma land255 v : Z.land v 255 = v mod 256.
Proof. change 255 with (Z.ones 8). rewrite Z.land_ones by lia. reflexivity. Qed.
Lemma shiftr8 v : Z.shiftr v 8 = v / 256.
Proof. rewrite Z.shiftr_div_pow2 by lia. reflexivity. Qed.
Lemma shiftl8 v : Z.shiftl v 8 = v * 256.
Proof. rewrite Z.shiftl_mul_pow2 by lia. reflexivity. Qed.

Lemma le_bytes_spec n v : le_bytes n v = le n v.
Proof.
  revert v; induction n as [|n IH]; intros v; cbn [le_bytes le]; [auto|].
  rewrite land255, z2b_mod, shiftr8, IH. reflexivity.
Qed.
Lemma be_rev_le n v : be n v = rev (le n v).
Proof. revert v; induction n as [|n IH]; intros v; cbn; [auto|]. now rewrite IH. Qed.
Lemma be_bytes_spec n v : be_bytes n v = be n v.
Proof. unfold be_bytes. now rewrite le_bytes_spec, be_rev_le. Qed.
Lemma le_length n v : length (le n v) = n.
Proof. revert v; induction n as [|n IH]; intros v; cbn; auto. Qed.
Lemma be_length n v : length (be n v) = n.
Proof. now rewrite be_rev_le, rev_length, le_length. Qed.
Lemma be_bytes_length n v : length (be_bytes n v) = n.
Proof. now rewrite be_bytes_spec, be_length. Qed.
Lemma le_bytes_length n v : length (le_bytes n v) = n.
Proof. now rewrite le_bytes_spec, le_length. Qed.

Lemma le_val_spec l : le_val l = num_le l.
Proof.
  induction l as [|b l IH]; cbn [le_val num_le]; [auto|].
  change (byte_val b) with (b2z b). rewrite shiftl8, IH. lia.
Qed.
Lemma be_val_app a b : be_val (a ++ b) = be_val a * 256 ^ Z.of_nat (length b) + be_val b.
Proof.
  unfold be_val. rewrite fold_left_app. generalize (fold_left (fun v b0 => Z.shiftl v 8 + b2z b0) a 0).
  induction b as [|x b IH] using rev_ind; intros v; cbn [fold_left length].
  - cbn. lia.
  - rewrite !fold_left_app. cbn [fold_left]. rewrite IH, !shiftl8, app_length. cbn [length].
    rewrite Nat2Z.inj_add. cbn [Z.of_nat Pos.of_succ_nat]. rewrite Z.pow_add_r by lia. lia.
Qed.
Lemma be_val_cons x l : be_val (x :: l) = b2z x * 256 ^ Z.of_nat (length l) + be_val l.
Proof. change (x :: l) with ([x] ++ l). rewrite be_val_app. unfold be_val at 1. cbn. lia. Qed.
Lemma be_val_spec l : be_val l = num_be l.
Proof. induction l as [|x l IH]; [reflexivity|]. rewrite be_val_cons, IH. reflexivity. Qed.

Lemma num_le_range l : 0 <= num_le l < 256 ^ Z.of_nat (length l).
Proof.
  induction l as [|b l IH]; cbn [num_le length]; [cbn; lia|].
  rewrite Nat2Z.inj_succ, Z.pow_succ_r by lia.
  change (byte_val b) with (b2z b). pose proof (b2z_range b). nia.
Qed.
Lemma num_be_rev l : num_be l = num_le (rev l).
Proof.
  rewrite <- be_val_spec. induction l as [|x l IH] using rev_ind; [reflexivity|].
  rewrite be_val_app, rev_app_distr. cbn [rev app length num_le].
  rewrite IH. change (be_val [x]) with (b2z x). change (byte_val x) with (b2z x).
  change (Z.of_nat 1) with 1. lia.
Qed.
Lemma num_be_range l : 0 <= num_be l < 256 ^ Z.of_nat (length l).
Proof. rewrite num_be_rev, <- rev_length. apply num_le_range. Qed.
Lemma le_num_le l : le (length l) (num_le l) = l.
Proof.
  induction l as [|b l IH]; cbn [le num_le length]; [auto|].
  change (byte_val b) with (b2z b). pose proof (b2z_range b).
  f_equal.
  - change (byte_of ?z) with (z2b z). rewrite <- z2b_mod.
    replace ((b2z b + 256 * num_le l) mod 256) with (b2z b) by lia. apply z2b_b2z.
  - replace ((b2z b + 256 * num_le l) / 256) with (num_le l) by lia. apply IH.
Qed.
Lemma be_num_be l : be (length l) (num_be l) = l.
Proof.
  rewrite be_rev_le, num_be_rev, <- (rev_length l), le_num_le. apply rev_involutive.
Qed.
Lemma num_le_le n v : num_le (le n v) = v mod 256 ^ Z.of_nat n.
Proof.
  revert v; induction n as [|n IH]; intros v; cbn [le num_le]; [cbn; now rewrite Z.mod_1_r|].
  rewrite IH. change (byte_val (byte_of v)) with (b2z (z2b v)). rewrite b2z_z2b.
  rewrite Nat2Z.inj_succ, Z.pow_succ_r by lia.
  rewrite Z.rem_mul_r by (try apply Z.pow_nonzero; lia). reflexivity.
Qed.
Lemma num_be_be n v : num_be (be n v) = v mod 256 ^ Z.of_nat n.
Proof. rewrite num_be_rev, be_rev_le, rev_involutive. apply num_le_le. Qed.
Lemma le_mod n v : le n (v mod 256 ^ Z.of_nat n) = le n v.
Proof. rewrite <- num_le_le. rewrite <- (le_length n v) at 1. apply le_num_le. Qed.
Lemma be_mod n v : be n (v mod 256 ^ Z.of_nat n) = be n v.
Proof. rewrite !be_rev_le. now rewrite le_mod. Qed.
Lemma pow256 n : 256 ^ n = 2 ^ (8 * n) \/ n < 0.
Proof. destruct (Z_lt_ge_dec n 0); [auto|]. left. rewrite Z.pow_mul_r by lia. reflexivity. Qed.
Lemma in_range_256 n v : in_range n v = true <-> 0 <= v < 256 ^ Z.of_nat n.
Proof.
  unfold in_range. destruct (pow256 (Z.of_nat n)) as [E|]; [|lia]. rewrite <- E. lia.
Qed.

(** ** padding *)
Lemma align8_ge n : (n <= align8 n)%nat.
Proof. unfold align8. pose proof (Nat.div_mod (n + 7) 8 ltac:(lia)). pose proof (Nat.mod_upper_bound (n+7) 8 ltac:(lia)). lia. Qed.
Lemma align8_mod n : (align8 n mod 8 = 0)%nat.
Proof. unfold align8. apply Nat.mod_mul. lia. Qed.
Lemma align8_lt n : (align8 n < n + 8)%nat.
Proof. unfold align8. pose proof (Nat.div_mod (n + 7) 8 ltac:(lia)). pose proof (Nat.mod_upper_bound (n+7) 8 ltac:(lia)). lia. Qed.
Lemma align8_id n : (n mod 8 = 0)%nat -> align8 n = n.
Proof.
  intros H. pose proof (align8_ge n). pose proof (align8_lt n). pose proof (align8_mod n) as M.
  apply Nat.mod_divides in H as [a Ha]; [|lia]. apply Nat.mod_divides in M as [b Hb]; [|lia]. lia.
Qed.
Lemma pad_to8_align n : pad_to8 n = zeros (align8 n - n).
Proof.
  unfold pad_to8, pad, zeros. f_equal.
  pose proof (align8_ge n). pose proof (align8_lt n). pose proof (align8_mod n) as M.
  apply Nat.mod_divides in M as [b Hb]; [|lia].
  pose proof (Nat.div_mod n 8 ltac:(lia)). pose proof (Nat.mod_upper_bound n 8 ltac:(lia)).
  destruct (Nat.eq_dec (n mod 8) 0) as [E|E].
  - rewrite E. change ((8 - 0) mod 8)%nat with 0%nat. lia.
  - rewrite (Nat.mod_small (8 - n mod 8)) by lia. lia.
Qed.
Lemma zeros_length n : length (zeros n) = n.
Proof. apply repeat_length. Qed.
Lemma pad_zeros n : pad n = zeros n.
Proof. reflexivity. Qed.
