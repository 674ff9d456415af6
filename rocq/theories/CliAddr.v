(** The address of the switch (cli.py:35-44): the regular expression and what it accepts. *)
From Verif Require Import Base PyNum Util PyLib OxmCodec OxmTables Oxm Nx Ofp4 Cli Spec SpecOxm SpecOfp SpecMp SpecCli.
From Verif Require Import BaseFacts UtilFacts NumFacts.
From Coq Require Import Strings.Ascii.
Lemma first_sound {A} k (f : nat -> option A) x : first_some k f = Some x -> exists j, (1 <= j <= k)%nat /\ f j = Some x.
Proof.
  induction k as [|k IH]; cbn [first_some]; intros H; [discriminate|]. destruct (f (S k)) eqn:E; [injection H as <-; exists (S k); split; [lia|exact E]|].
  destruct (IH H) as (j & Hj & Ej). exists j. split; [lia|exact Ej].
Qed.
Lemma first_complete {A} k (f : nat -> option A) j : (1 <= j <= k)%nat -> f j <> None -> first_some k f <> None.
Proof.
  induction k as [|k IH]; cbn [first_some]; intros Hj Hf; [lia|]. destruct (f (S k)) eqn:E; [discriminate|]. apply IH; [|exact Hf].
  assert (j <> S k) by (intros ->; contradiction). lia.
Qed.
Lemma first_top {A} k (f : nat -> option A) x : (1 <= k)%nat -> f k = Some x -> first_some k f = Some x.
Proof. intros Hk E. destruct k; [lia|]. cbn [first_some]. now rewrite E. Qed.

Definition rx_fits (i : rx_item) (m : text) : Prop :=
  match i with RDigits => numeral 10 m | RAny => exists c, m = [c] /\ c <> newline | RChr k => m = [k] end.
Lemma digits_prefix k s : (1 <= k <= longest s is_dec)%nat -> numeral 10 (firstn k s).
Proof.
  intros Hk. destruct (longest_split is_dec s) as (E1 & E2 & _). pose proof (take_while_length is_dec s) as L. unfold longest in Hk. split.
  - intros E. apply (f_equal (@length Z)) in E. rewrite firstn_length in E. cbn in E. lia.
  - pose proof (digits_take 10 is_dec s is_dec_iff) as Hd. rewrite <- (firstn_take_while is_dec s) in Hd.
    assert (firstn k s = firstn k (firstn (length (take_while is_dec s)) s)) as -> by (rewrite firstn_firstn; f_equal; lia).
    rewrite Forall_forall in *. intros x Hx. apply Hd. rewrite <- (firstn_skipn k (firstn _ s)). apply in_or_app. now left.
Qed.
Lemma rx_sound r : forall s m, rx_seq r s = Some m -> Forall2 rx_fits r m /\ exists rest, s = concat m ++ rest /\ (last r RAny = RDigits -> stops 10 rest).
Proof.
  induction r as [|i r IH]; intros s m H.
  - injection H as <-. split; [constructor|]. exists s. split; [reflexivity|discriminate].
  - destruct i as [| |k]; cbn [rx_seq] in H.
    + destruct r as [|i' r'].
      * assert (first_some (longest s is_dec) (fun k => option_map (cons (firstn k s)) (rx_seq [] (skipn k s))) = Some m) as H' by exact H. clear H.
        destruct (first_sound _ _ _ H') as (j & Hj & _). rewrite (first_top _ _ [firstn (longest s is_dec) s]) in H' by (reflexivity || lia). injection H' as <-.
        split; [apply Forall2_cons; [apply digits_prefix; lia|apply Forall2_nil]|]. exists (skipn (longest s is_dec) s). cbn [concat]. rewrite app_nil_r, firstn_skipn. split; [reflexivity|].
        intros _. destruct (longest_split is_dec s) as (_ & _ & ->). apply stops_drop. exact is_dec_iff.
      * destruct (first_sound _ _ _ H) as (j & Hj & E). destruct (rx_seq (i' :: r') (skipn j s)) as [m'|] eqn:Em; [|discriminate]. injection E as <-.
        destruct (IH _ _ Em) as (Hf & rest & Es & Hl). split; [constructor; [now apply digits_prefix|exact Hf]|]. exists rest. cbn [concat].
        rewrite <- app_assoc, <- Es, firstn_skipn. split; [reflexivity|exact Hl].
    + destruct s as [|c s]; [discriminate|]. destruct (c =? 10) eqn:Ec; [discriminate|]. destruct (rx_seq r s) as [m'|] eqn:Em; [|discriminate]. injection H as <-.
      destruct (IH _ _ Em) as (Hf & rest & Es & Hl). apply Z.eqb_neq in Ec. split; [constructor; [now exists c|exact Hf]|]. exists rest. cbn [concat app].
      split; [now rewrite <- Es|]. destruct r; [discriminate|exact Hl].
    + destruct s as [|c s]; [discriminate|]. destruct (c =? k) eqn:Ec; [|discriminate]. destruct (rx_seq r s) as [m'|] eqn:Em; [|discriminate]. injection H as <-.
      destruct (IH _ _ Em) as (Hf & rest & Es & Hl). apply Z.eqb_eq in Ec as ->. split; [constructor; [reflexivity|exact Hf]|]. exists rest. cbn [concat app].
      split; [now rewrite <- Es|]. destruct r; [discriminate|exact Hl].
Qed.
Lemma rx_complete r m : Forall2 rx_fits r m -> forall rest, rx_seq r (concat m ++ rest) <> None.
Proof.
  induction 1 as [|i a r m Hi _ IH]; intros rest; [discriminate|]. cbn [concat]. rewrite <- app_assoc. destruct i as [| |k]; cbn [rx_seq].
  - destruct Hi as [Hn Hd]. apply first_complete with (length a).
    + split; [destruct a; [congruence|cbn; lia]|]. unfold longest. clear -Hd. induction Hd as [|c a Hc _ IH]; [cbn; lia|]. cbn [app take_while]. apply is_dec_iff in Hc. rewrite Hc. cbn [length]. lia.
    + rewrite firstn_app, Nat.sub_diag, firstn_all, app_nil_r, skipn_app, Nat.sub_diag, skipn_all. cbn [skipn app firstn]. specialize (IH rest). destruct (rx_seq r (concat m ++ rest)); [discriminate|contradiction].
  - destruct Hi as (c & -> & Hc). cbn [app]. rewrite (proj2 (Z.eqb_neq c 10) Hc). specialize (IH rest). destruct (rx_seq r (concat m ++ rest)); [discriminate|contradiction].
  - cbn in Hi. subst a. cbn [app]. rewrite Z.eqb_refl. specialize (IH rest). destruct (rx_seq r (concat m ++ rest)); [discriminate|contradiction].
Qed.
Lemma tcp_fits m : Forall2 rx_fits tcp_rx m <-> exists d1 x d2 y d3 z d4 ds, Forall (numeral 10) [d1; d2; d3; d4] /\ ~ In newline [x; y; z] /\ numeral 10 ds
  /\ m = map (fun c => [c]) $"tcp:" ++ [d1; [x]; d2; [y]; d3; [z]; d4; [58]; ds].
Proof.
  change tcp_rx with [RChr 116; RChr 99; RChr 112; RChr 58; RDigits; RAny; RDigits; RAny; RDigits; RAny; RDigits; RChr 58; RDigits].
  change (map (fun c : Z => [c]) $"tcp:") with [[116]; [99]; [112]; [58]]. split.
  - intros H. repeat match goal with K : Forall2 _ (_ :: _) _ |- _ => inversion K; clear K; subst | K : Forall2 _ [] _ |- _ => inversion K; clear K; subst end.
    cbn [rx_fits] in *. repeat match goal with K : exists c, _ |- _ => destruct K as (? & -> & ?) end. subst.
    do 8 eexists. refine (conj _ (conj _ (conj _ eq_refl))); [repeat (apply Forall_cons; [assumption|]); apply Forall_nil| |assumption]. cbn. intuition congruence.
  - intros (d1 & x & d2 & y & d3 & z & d4 & ds & H4 & Hn & Hd & ->). apply Forall_cons_iff in H4 as [N1 H4]. apply Forall_cons_iff in H4 as [N2 H4]. apply Forall_cons_iff in H4 as [N3 H4]. apply Forall_cons_iff in H4 as [N4 _].
    assert (x <> newline /\ y <> newline /\ z <> newline) as (X & Y & Z0) by (cbn in Hn; intuition congruence). cbn [app]. repeat (apply Forall2_cons; [first [reflexivity|assumption|eexists; split; [reflexivity|assumption]]|]); apply Forall2_nil.
Qed.
Theorem addr_tcp s h p : switch_addr s = Some (Tcp h p) -> exists ds r, tcp_text s h ds r /\ p = value 10 ds.
Proof.
  unfold switch_addr. destruct (rx_seq tcp_rx s) as [m|] eqn:E; [|destruct (startswith _ _); discriminate]. intros H. injection H as <- <-.
  destruct (rx_sound _ _ _ E) as (Hf & rest & -> & Hl). specialize (Hl eq_refl). apply tcp_fits in Hf as (d1 & x & d2 & y & d3 & z & d4 & ds & H4 & Hn & Hd & ->).
  change (map (fun c : Z => [c]) $"tcp:") with [[116]; [99]; [112]; [58]]. cbn [app firstn skipn nth concat]. exists ds, rest. rewrite !app_nil_r. split.
  - split; [|split; [|now split]].
    + cbn [app]. repeat (rewrite <- ?app_assoc; cbn [app]). reflexivity.
    + exists d1, x, d2, y, d3, z, d4. split; [exact H4|]. split; [exact Hn|]. repeat (rewrite <- ?app_assoc; cbn [app]). reflexivity.
  - apply digits_val_value. apply (numeral_hex 10); [lia|exact Hd].
Qed.
Theorem addr_tcp_accepts s h ds r : tcp_text s h ds r -> exists h' p', switch_addr s = Some (Tcp h' p').
Proof.
  intros (-> & (d1 & x & d2 & y & d3 & z & d4 & H4 & Hn & ->) & Hd & _). unfold switch_addr.
  pose proof (rx_complete tcp_rx (map (fun c => [c]) $"tcp:" ++ [d1; [x]; d2; [y]; d3; [z]; d4; [58]; ds])) as K. specialize (K ltac:(apply tcp_fits; eauto 15) r).
  replace (concat _ ++ r) with ($"tcp:" ++ (d1 ++ x :: d2 ++ y :: d3 ++ z :: d4) ++ $":" ++ ds ++ r) in K.
  - destruct (rx_seq tcp_rx _); [eauto|contradiction].
  - change (map (fun c : Z => [c]) $"tcp:") with [[116]; [99]; [112]; [58]]. cbn [app concat]. repeat (rewrite <- ?app_assoc; cbn [app]). reflexivity.
Qed.
Lemma rx_digits r s m ds : numeral 10 ds -> stops 10 s -> rx_seq r s = Some m -> rx_seq (RDigits :: r) (ds ++ s) = Some (ds :: m).
Proof.
  intros [Hn Hd] Hs E. cbn [rx_seq]. rewrite (longest_numeral 10 is_dec ds s is_dec_iff Hd Hs). apply first_top; [destruct ds; [congruence|cbn; lia]|].
  rewrite firstn_app, Nat.sub_diag, firstn_all, app_nil_r, skipn_app, Nat.sub_diag, skipn_all. cbn [skipn app firstn]. now rewrite E.
Qed.
Theorem addr_dotted a b c d p r : 0 <= a -> 0 <= b -> 0 <= c -> 0 <= d -> 0 <= p -> stops 10 r ->
  switch_addr ($"tcp:" ++ dotted a b c d ++ $":" ++ dec p ++ r) = Some (Tcp (dotted a b c d) p).
Proof.
  intros Ha Hb Hc Hd Hp Hr. assert (N : forall n, 0 <= n -> numeral 10 (dec n)) by (intros n H; apply canon_numeral; [lia|]; now apply dec_digits).
  assert (E : rx_seq tcp_rx ($"tcp:" ++ dotted a b c d ++ $":" ++ dec p ++ r) = Some (map (fun c => [c]) $"tcp:" ++ [dec a; $"."; dec b; $"."; dec c; $"."; dec d; [58]; dec p])).
  { change tcp_rx with [RChr 116; RChr 99; RChr 112; RChr 58; RDigits; RAny; RDigits; RAny; RDigits; RAny; RDigits; RChr 58; RDigits].
    unfold dotted. cbn [map sepby]. change $"tcp:" with [116; 99; 112; 58]. change $":" with [58]. change $"." with [46]. change (chr ".") with 46. repeat (rewrite <- ?app_assoc; cbn [app]).
    assert (S46 : forall x, stops 10 (46 :: x)) by (intros x (k & Hk & _); discriminate). assert (S58 : forall x, stops 10 (58 :: x)) by (intros x (k & Hk & _); discriminate).
    do 4 match goal with |- context [rx_seq (RChr ?k :: ?r) (?k :: ?s)] => change (rx_seq (RChr k :: r) (k :: s)) with (option_map (cons [k]) (rx_seq r s)) end. cbn [map app].
    rewrite (rx_digits _ _ [[46]; dec b; [46]; dec c; [46]; dec d; [58]; dec p]); [reflexivity|auto|apply S46|]. change (rx_seq (RAny :: ?r) (46 :: ?s)) with (option_map (cons [46]) (rx_seq r s)).
    rewrite (rx_digits _ _ [[46]; dec c; [46]; dec d; [58]; dec p]); [reflexivity|auto|apply S46|]. change (rx_seq (RAny :: ?r) (46 :: ?s)) with (option_map (cons [46]) (rx_seq r s)).
    rewrite (rx_digits _ _ [[46]; dec d; [58]; dec p]); [reflexivity|auto|apply S46|]. change (rx_seq (RAny :: ?r) (46 :: ?s)) with (option_map (cons [46]) (rx_seq r s)).
    rewrite (rx_digits _ _ [[58]; dec p]); [reflexivity|auto|apply S58|]. change (rx_seq (RChr 58 :: ?r) (58 :: ?s)) with (option_map (cons [58]) (rx_seq r s)).
    rewrite (rx_digits _ _ []); [reflexivity|auto|exact Hr|reflexivity]. }
  unfold switch_addr. rewrite E. change (map (fun c : Z => [c]) $"tcp:") with [[116]; [99]; [112]; [58]]. cbn [app firstn skipn nth concat]. rewrite app_nil_r. do 2 f_equal.
  rewrite digits_val_value; [apply dec_digits; lia|]. apply (numeral_hex 10); [lia|auto].
Qed.
Lemma startswith_split p s : startswith p s = true <-> exists r, s = p ++ r.
Proof.
  revert s. induction p as [|c p IH]; intros s; [split; [intros _; now exists s|reflexivity]|]. destruct s as [|d s]; [split; [discriminate|intros [r Hr]; discriminate]|]. cbn [startswith app].
  rewrite andb_true_iff, IH, Z.eqb_eq. split; [intros [<- [r ->]]; now exists r|intros [r Hr]; injection Hr as <- ->; split; [reflexivity|now exists r]].
Qed.
Lemma tcp_starts s : rx_seq tcp_rx s <> None -> exists r, s = $"tcp:" ++ r.
Proof.
  intros H. destruct (rx_seq tcp_rx s) as [m|] eqn:E; [|contradiction]. destruct (rx_sound _ _ _ E) as (Hf & rest & -> & _).
  apply tcp_fits in Hf as (d1 & x & d2 & y & d3 & z & d4 & ds & _ & _ & _ & ->). rewrite concat_app, <- app_assoc. eexists. reflexivity.
Qed.
Theorem addr_unix s p : switch_addr s = Some (Unix p) <-> exists r, unix_text s p r.
Proof.
  assert (NL : forall c, negb (c =? 10) = true <-> c <> newline) by (intros c; rewrite negb_true_iff, Z.eqb_neq; reflexivity). unfold switch_addr. split.
  - destruct (rx_seq tcp_rx s) as [m|] eqn:E; [discriminate|]. destruct (startswith $"unix:" s) eqn:Es; [|discriminate]. intros H. injection H as <-.
    apply startswith_split in Es as [q ->]. change (skipn 5 ($"unix:" ++ q)) with q.
    exists (drop_while (fun c => negb (c =? 10)) q). split; [now rewrite take_drop|]. split.
    + intros K. pose proof (take_while_all (fun c => negb (c =? 10)) q) as A. rewrite forallb_forall in A. specialize (A _ K). discriminate.
    + pose proof (drop_while_head (fun c => negb (c =? 10)) q) as A. destruct (drop_while _ q) as [|c r]; [now left|]. right. exists r. apply negb_false_iff, Z.eqb_eq in A. now subst.
  - intros (r & -> & Hn & Hr). destruct (rx_seq tcp_rx _) as [m|] eqn:E; [destruct (tcp_starts _ ltac:(rewrite E; discriminate)) as [q Hq]; discriminate|].
    change (startswith $"unix:" ($"unix:" ++ p ++ r)) with true. change (skipn 5 ($"unix:" ++ p ++ r)) with (p ++ r). rewrite take_while_app; [reflexivity| |].
    + apply forallb_forall. intros c Hc. apply NL. intros ->. contradiction.
    + destruct Hr as [->|[r' ->]]; reflexivity.
Qed.
Theorem addr_none s : switch_addr s = None <-> (forall h ds r, ~ tcp_text s h ds r) /\ (forall r, s <> $"unix:" ++ r).
Proof.
  split.
  - intros H. split; [intros h ds r K; destruct (addr_tcp_accepts _ _ _ _ K) as (h' & p' & E); congruence|].
    intros r ->. unfold switch_addr in H. change (startswith $"unix:" ($"unix:" ++ r)) with true in H. destruct (rx_seq tcp_rx _); discriminate.
  - intros [H1 H2]. destruct (switch_addr s) as [[h p|p]|] eqn:E; [|exfalso|reflexivity].
    + destruct (addr_tcp _ _ _ E) as (ds & r & K & _). destruct (H1 _ _ _ K).
    + apply addr_unix in E as (r & -> & _). now apply (H2 (p ++ r)).
Qed.
