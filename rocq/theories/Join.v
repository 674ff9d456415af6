(** Printing byte strings one behind the other. *)
From Verif Require Import Base PyNum Util PyLib OxmCodec OxmTables Oxm Nx Ofp4 Spec SpecOxm SpecOfp SpecJoin.
From Verif Require Import BaseFacts UtilFacts OxmFacts OxmFrame TermFacts OfpTerm OfpLoop.

(** ** reading at offsets *)
Lemma skipn_app_le {A} n (m b : list A) : (n <= length m)%nat -> skipn n (m ++ b) = skipn n m ++ b.
Proof. intros H. rewrite skipn_app. replace (n - length m)%nat with 0%nat by lia. reflexivity. Qed.
Lemma firstn_app_le {A} n (m b : list A) : (n <= length m)%nat -> firstn n (m ++ b) = firstn n m.
Proof. intros H. rewrite firstn_app. replace (n - length m)%nat with 0%nat by lia. cbn [firstn]. now rewrite app_nil_r. Qed.
Lemma unpack_raw_app fs : forall m b, (calcsize fs <= length m)%nat -> unpack_raw fs (m ++ b) = unpack_raw fs m.
Proof.
  induction fs as [|f fs IH]; intros m b H; [reflexivity|]. destruct f; cbn [calcsize fold_right fwidth] in H; cbn [unpack_raw]; fold (calcsize fs) in H;
    rewrite ?firstn_app_le, skipn_app_le, IH by (rewrite ?skipn_length; lia); reflexivity.
Qed.
Lemma unpack_from_app fs m b off : (off + calcsize fs <= length m)%nat -> unpack_from fs (m ++ b) off = unpack_from fs m off.
Proof.
  intros H. unfold unpack_from. rewrite app_length. rewrite (proj2 (Nat.leb_le _ _) H), (proj2 (Nat.leb_le _ _)) by lia.
  rewrite skipn_app_le by lia. rewrite unpack_raw_app by (rewrite skipn_length; lia). reflexivity.
Qed.
Lemma slice_app i j (m b : bytes) : (j <= length m)%nat -> slice i j (m ++ b) = slice i j m.
Proof.
  intros H. unfold slice. destruct (Nat.le_gt_cases i (length m)) as [K|K].
  - rewrite skipn_app_le by lia. apply firstn_app_le. rewrite skipn_length. lia.
  - replace (j - i)%nat with 0%nat by lia. reflexivity.
Qed.
Lemma at_head e : (4 <= length e)%nat -> unpack_from [sH; sH] e 0 = Ok [at_off 0 2 e; at_off 2 2 e].
Proof. intros H. unfold unpack_from. rewrite (proj2 (Nat.leb_le _ _)) by (cbn; lia). unfold at_off. cbn [unpack_raw skipn]. now rewrite !be_val_spec. Qed.
Lemma oxm_head e : (4 <= length e)%nat -> unpack_from [sH; sB; sB] e 0 = Ok [at_off 0 2 e; at_off 2 1 e; at_off 3 1 e].
Proof. intros H. unfold unpack_from. rewrite (proj2 (Nat.leb_le _ _)) by (cbn; lia). unfold at_off. cbn [unpack_raw]. rewrite !be_val_spec, !skipn_skipn. reflexivity. Qed.

(** ** one entry depends on its bytes only *)
Lemma dispatch_app e r kls f1 : (kls = 0xffff -> (8 <= length e)%nat) -> oxm_dispatch (e ++ r) kls f1 = oxm_dispatch e kls f1.
Proof.
  intros H. unfold oxm_dispatch. destruct (Z.eqb_spec kls OFPXMC_EXPERIMENTER) as [E|E]; [|reflexivity]. apply H in E. rewrite unpack_from_app by (cbn; lia). reflexivity.
Qed.
(** the first field of a byte string that holds it *)
Lemma field_first e r : (4 <= length e)%nat -> 4 + at_off 3 1 e <= Z.of_nat (length e) -> (at_off 0 2 e = 0xffff -> (8 <= length e)%nat) ->
  oxm2str_one (e ++ r) = ('(t, x) <- oxm2str_one e ;; Ok (t, x ++ r)).
Proof.
  intros H4 Hl He. assert (0 <= at_off 3 1 e) as H0 by (apply num_be_range). unfold oxm2str_one. rewrite unpack_from_app by (cbn; lia). rewrite oxm_head by lia. cbn [bind]. rewrite dispatch_app by exact He.
  destruct (oxm_dispatch e _ _) as [d|x|]; cbn [bind]; auto. rewrite skipn_app_le by lia.
  destruct d as [[c off]|]; cbn [bind]; auto. rewrite slice_app by lia. destruct (run_b2s c _ _); reflexivity.
Qed.
Lemma field_one e r : whole_field e -> oxm2str_one (e ++ r) = ('(t, _) <- oxm2str_one e ;; Ok (t, r)).
Proof.
  intros (H4 & Hl & He). rewrite field_first by (auto; lia). pose proof (num_be_range (firstn 1 (skipn 3 e))) as H0. unfold oxm2str_one. rewrite oxm_head by lia. cbn [bind].
  destruct (oxm_dispatch e _ _) as [d|x|]; cbn [bind]; auto. rewrite skipn_all2 by (unfold at_off in *; lia). destruct d as [[c off]|]; cbn [bind]; auto. destruct (run_b2s c _ _); reflexivity.
Qed.
Lemma oxm_single m : (4 <= length m)%nat -> oxm2str m false = ('(t, _) <- oxm2str_one m ;; Ok t).
Proof.
  intros H. unfold oxm2str. destruct (length m) as [|n] eqn:E; [lia|]. cbn [oxm2str_go]. rewrite E. destruct (Nat.ltb_spec (S n) 4); [lia|]. destruct (oxm2str_one m) as [[t r]|e|]; reflexivity.
Qed.
Lemma oxm_first_app m r : (4 <= length m)%nat -> 4 + at_off 3 1 m <= Z.of_nat (length m) -> (at_off 0 2 m = 0xffff -> (8 <= length m)%nat) -> oxm2str (m ++ r) false = oxm2str m false.
Proof.
  intros H4 Hl He. rewrite !oxm_single by (rewrite ?app_length; lia). rewrite field_first by auto. destruct (oxm2str_one m) as [[t x]|e|]; reflexivity.
Qed.
Lemma at_skip k i n e : at_off i n (skipn k e) = at_off (i + k) n e.
Proof. unfold at_off. rewrite skipn_skipn. do 3 f_equal. lia. Qed.
Lemma u_at n e i : (i + n <= length e)%nat -> unpack_from [FU n] e i = Ok [at_off i n e].
Proof. intros H. unfold unpack_from. cbn [calcsize fold_right fwidth]. rewrite (proj2 (Nat.leb_le _ _)) by lia. cbn [unpack_raw]. unfold at_off. now rewrite be_val_spec. Qed.
Lemma action_one e r : whole_action e -> act2str_one (e ++ r) = ('(t, _) <- act2str_one e ;; Ok (t, r)).
Proof.
  intros ([H4 Hl] & Hx & Hs). unfold act2str_one. rewrite unpack_from_app by (cbn; lia). rewrite at_head by lia. cbn [bind]. rewrite <- Hl, Nat2Z.id.
  assert (Es : forall i, slice i (length e) (e ++ r) = slice i (length e) e) by (intros i; apply slice_app; lia).
  assert (Ek : skipn (length e) (e ++ r) = r) by (rewrite skipn_app_le by lia; now rewrite skipn_all).
  assert (Set25 : (at_off 0 2 e = 25 \/ at_off 0 2 e = 0xffff /\ at_off 4 4 e = 0x2320 /\ at_off 8 2 e = 25) -> oxm2str (skipn 4 (e ++ r)) false = oxm2str (skipn 4 e) false).
  { intros K. destruct (Hs K) as (L8 & L & L12). rewrite skipn_app_le by lia. apply oxm_first_app; rewrite ?at_skip, skipn_length; cbn [Nat.add]; [lia..|]. intros J. apply L12 in J. lia. }
  destruct (Z.eqb_spec (at_off 0 2 e) 0xffff) as [E|E].
  - specialize (Hx E). rewrite !unpack_from_app by (cbn; lia). rewrite !u_at by lia. cbn [bind]. destruct (Z.eqb_spec (at_off 4 4 e) NX_VENDOR_ID) as [Ev|Ev]; cbn [bind].
    + destruct (Z.eqb_spec (at_off 8 2 e) 25) as [E2|E2].
      * rewrite Set25 by (right; split; [exact E|split; [exact Ev|exact E2]]). destruct (oxm2str (skipn 4 e) false); cbn [bind]; auto. now rewrite Ek.
      * destruct (act2str_get true _) as [act|]; cbn [bind]; rewrite ?Es, ?Ek; auto. destruct (act _); reflexivity.
    + rewrite E. change (0xffff =? 25) with false. cbv iota. destruct (act2str_get false _) as [act|]; cbn [bind]; rewrite ?Es, ?Ek; auto. destruct (act _); reflexivity.
  - cbn [bind]. destruct (Z.eqb_spec (at_off 0 2 e) 25) as [E2|E2].
    + rewrite Set25 by (left; exact E2). destruct (oxm2str (skipn 4 e) false); cbn [bind]; auto. now rewrite Ek.
    + destruct (act2str_get false _) as [act|]; cbn [bind]; rewrite ?Es, ?Ek; auto. destruct (act _); reflexivity.
Qed.
Lemma inst_one e r : whole_entry e -> inst2str_one (e ++ r) = ('(t, _) <- inst2str_one e ;; Ok (t, r)).
Proof.
  intros [H4 Hl]. unfold inst2str_one. rewrite unpack_from_app by (cbn; lia). rewrite at_head by lia. cbn [bind]. rewrite <- Hl, Nat2Z.id.
  assert (Es : slice 8 (length e) (e ++ r) = slice 8 (length e) e) by (apply slice_app; lia).
  assert (Ek : skipn (length e) (e ++ r) = r) by (rewrite skipn_app_le by lia; now rewrite skipn_all). rewrite Es, Ek. cbv zeta.
  destruct (at_off 0 2 e =? 1).
  { destruct (Z.eqb_spec (Z.of_nat (length e)) 8) as [E|E]; cbn [assert bind]; auto. rewrite unpack_from_app by (cbn; lia). destruct (unpack_from _ _ _); reflexivity. }
  destruct (at_off 0 2 e =? 2).
  { destruct (Z.eqb_spec (Z.of_nat (length e)) 24) as [E|E]; cbn [assert bind]; auto. rewrite unpack_from_app by (cbn; lia). destruct (unpack_from _ _ _) as [[|v [|m [|]]]| |]; reflexivity. }
  destruct (at_off 0 2 e =? 3).
  { destruct (assert _) as [[]| |]; cbn [bind]; auto. destruct (act2str _ _) as [[|c t]| |]; reflexivity. }
  destruct (at_off 0 2 e =? 4).
  { destruct (assert _) as [[]| |]; cbn [bind]; auto. destruct (act2str _ _) as [[|c t]| |]; reflexivity. }
  destruct (at_off 0 2 e =? 5).
  { destruct (assert _) as [[]| |]; cbn [bind]; auto. }
  destruct (at_off 0 2 e =? 6); [|reflexivity].
  destruct (Z.eqb_spec (Z.of_nat (length e)) 8) as [E|E]; cbn [assert bind]; auto. rewrite unpack_from_app by (cbn; lia). destruct (unpack_from _ _ _); reflexivity.
Qed.

(** ** the loops *)
Lemma same_stuck {A} (one : bytes -> res (list A * bytes)) m t : (4 < length m)%nat -> one m = Ok (t, m) -> forall fuel, loop_go one fuel m = Diverge.
Proof.
  intros Hl E fuel. induction fuel as [|fuel IH]; cbn [loop_go]; (destruct (Nat.leb_spec (length m) 4); [lia|]); [reflexivity|]. rewrite E. cbn [bind]. now rewrite IH.
Qed.
Lemma loop_fuel {A} (one : bytes -> res (list A * bytes)) (one_rest : forall m t r, one m = Ok (t, r) -> r = skipn (entry_len m) m) f :
  forall f' m, (length m <= f)%nat -> (length m <= f')%nat -> loop_go one f m = loop_go one f' m.
Proof.
  induction f as [|f IH]; intros f' m H H'.
  - destruct m; [|cbn in H; lia]. destruct f'; reflexivity.
  - destruct f' as [|f']; [destruct m; [reflexivity|cbn in H'; lia]|]. cbn [loop_go]. destruct (Nat.leb_spec (length m) 4) as [L|L]; auto.
    destruct (one m) as [[t r]|e|] eqn:E; cbn [bind]; auto. pose proof (one_rest _ _ _ E) as Er. destruct (Nat.eq_dec (entry_len m) 0) as [Z0|Z0].
    + rewrite Z0 in Er. cbn [skipn] in Er. subst r. rewrite !(same_stuck one m t L E). reflexivity.
    + assert (length r < length m)%nat by (rewrite Er, skipn_length; lia). rewrite (IH f') by lia. reflexivity.
Qed.
Lemma loop_join {A} (one : bytes -> res (list A * bytes)) (one_rest : forall m t r, one m = Ok (t, r) -> r = skipn (entry_len m) m) (P : bytes -> Prop) :
  (forall e, P e -> (4 < length e)%nat) -> (forall e r, P e -> one (e ++ r) = ('(t, _) <- one e ;; Ok (t, r))) -> forall a b, made_of P a ->
  loop_go one (length (a ++ b)) (a ++ b) = (x <- loop_go one (length a) a ;; y <- loop_go one (length b) b ;; Ok (x ++ y)).
Proof.
  intros Hl H1 a b M. induction M as [|e r He M IH].
  - cbn [app length]. change (loop_go one 0 []) with (@Ok (list A) []). cbn [bind app]. destruct (loop_go one (length b) b); reflexivity.
  - pose proof (Hl e He) as L. rewrite <- app_assoc.
    assert (U : forall x, loop_go one (length (e ++ x)) (e ++ x) = ('(t, _) <- one e ;; y <- loop_go one (length x) x ;; Ok (t ++ y))).
    { intros x. assert (exists n, length (e ++ x) = S n) as [n En] by (rewrite app_length; exists (length e + length x - 1)%nat; lia). rewrite En. cbn [loop_go].
      destruct (Nat.leb_spec (length (e ++ x)) 4) as [K|_]; [rewrite app_length in K; lia|]. rewrite (H1 e x He). destruct (one e) as [[t s]|z|]; cbn [bind]; auto.
      rewrite (loop_fuel one one_rest n (length x)) by (rewrite app_length in En; lia). reflexivity. }
    rewrite !U, IH. destruct (one e) as [[t s]|z|]; cbn [bind]; auto. destruct (loop_go one (length r) r) as [x|z|]; cbn [bind]; auto.
    destruct (loop_go one (length b) b) as [y|z|]; cbn [bind]; auto. now rewrite app_assoc.
Qed.
Lemma fields_fuel f : forall f' m, (length m <= f)%nat -> (length m <= f')%nat -> oxm2str_go f true m = oxm2str_go f' true m.
Proof.
  induction f as [|f IH]; intros f' m H H'.
  - destruct m; [|cbn in H; lia]. destruct f'; reflexivity.
  - destruct f' as [|f']; [destruct m; [reflexivity|cbn in H'; lia]|]. cbn [oxm2str_go]. destruct (Nat.ltb_spec (length m) 4) as [L|L]; auto.
    destruct (oxm2str_one m) as [[t r]|e|] eqn:E; cbn [bind]; auto. assert (length r < length m)%nat.
    { unfold oxm2str_one in E. rewrite oxm_head in E by lia. cbn [bind] in E. destruct (oxm_dispatch m _ _) as [d| |]; cbn [bind] in E; try discriminate.
      destruct (match d with Some _ => _ | None => _ end) as [k| |]; cbn [bind] in E; try discriminate. assert (r = skipn (4 + Z.to_nat (at_off 3 1 m)) m) as -> by congruence. rewrite skipn_length. lia. }
    rewrite (IH f') by lia. reflexivity.
Qed.
Lemma fields_join a b : made_of whole_field a ->
  oxm2str_go (length (a ++ b)) true (a ++ b) = (x <- oxm2str_go (length a) true a ;; y <- oxm2str_go (length b) true b ;; Ok (x ++ y)).
Proof.
  intros M. induction M as [|e r He M IH].
  - cbn [app length]. change (oxm2str_go 0 true []) with (@Ok (list text) []). cbn [bind app]. destruct (oxm2str_go (length b) true b); reflexivity.
  - pose proof He as (L & _ & _). rewrite <- app_assoc.
    assert (U : forall x, oxm2str_go (length (e ++ x)) true (e ++ x) = ('(t, _) <- oxm2str_one e ;; y <- oxm2str_go (length x) true x ;; Ok (t :: y))).
    { intros x. assert (exists n, length (e ++ x) = S n) as [n En] by (rewrite app_length; exists (length e + length x - 1)%nat; lia). rewrite En. cbn [oxm2str_go].
      destruct (Nat.ltb_spec (length (e ++ x)) 4) as [K|_]; [rewrite app_length in K; lia|]. rewrite (field_one e x He). destruct (oxm2str_one e) as [[t s]|z|]; cbn [bind]; auto.
      rewrite (fields_fuel n (length x)) by (rewrite app_length in En; lia). reflexivity. }
    rewrite !U, IH. destruct (oxm2str_one e) as [[t s]|z|]; cbn [bind]; auto. destruct (oxm2str_go (length r) true r) as [x|z|]; cbn [bind]; auto.
    destruct (oxm2str_go (length b) true b) as [y|z|]; cbn [bind]; auto.
Qed.

(** ** the printed texts *)
Lemma join_two sep x y : x <> [] -> y <> [] -> join sep (x ++ y) = join sep x ++ sep ++ join sep y.
Proof.
  intros Hx Hy. induction x as [|a x IH]; [congruence|]. cbn [app]. rewrite !join_cons. destruct x as [|a' x].
  - cbn [app]. destruct y; [congruence|]. now rewrite app_nil_r.
  - cbn [app]. rewrite <- app_assoc. f_equal. change (a' :: x ++ y) with ((a' :: x) ++ y). rewrite IH by discriminate. now rewrite <- app_assoc.
Qed.
Lemma joined (f g h : res (list text)) : h = (x <- f ;; y <- g ;; Ok (x ++ y)) -> (forall x, f = Ok x -> x <> []) -> (forall y, g = Ok y -> y <> []) ->
  (x <- h ;; Ok (join $"," x)) = (t <- (x <- f ;; Ok (join $"," x)) ;; t' <- (x <- g ;; Ok (join $"," x)) ;; Ok (t ++ $"," ++ t')).
Proof.
  intros -> Hf Hg. destruct f as [x|e|]; cbn [bind]; auto. destruct g as [y|e|]; cbn [bind]; auto. rewrite join_two; auto.
Qed.
Lemma loop_some {A} (one : bytes -> res (list A * bytes)) f m x : (forall m t r, one m = Ok (t, r) -> t <> []) -> (4 < length m)%nat -> loop_go one f m = Ok x -> x <> [].
Proof.
  intros H L. destruct f as [|f]; cbn [loop_go]; (destruct (Nat.leb_spec (length m) 4); [lia|]); [discriminate|]. intros E. mon E. destruct a as [t r]. mon E. apply H in Ea.
  assert (x = t ++ a) as -> by congruence. destruct t; [congruence|discriminate].
Qed.
Lemma loop_none {A} (one : bytes -> res (list A * bytes)) f m : (length m <= 4)%nat -> loop_go one f m = Ok [].
Proof. intros L. destruct f; cbn [loop_go]; now rewrite (proj2 (Nat.leb_le _ _) L). Qed.
Lemma made_len {P : bytes -> Prop} n a : (forall e, P e -> (n < length e)%nat) -> made_of P a -> a <> [] -> (n < length a)%nat.
Proof. intros H M Ha. destruct M as [|e r He M]; [congruence|]. apply H in He. rewrite app_length. lia. Qed.

Lemma act_one_rest m t r : act_one m = Ok (t, r) -> r = skipn (entry_len m) m.
Proof. intros E. unfold act_one in E. mon E. destruct a as [t0 r0]. injection E as <- <-. now apply act2str_one_rest in Ea. Qed.
Lemma act_one_some m t r : act_one m = Ok (t, r) -> t <> [].
Proof. intros E. unfold act_one in E. mon E. destruct a as [t0 r0]. injection E as <- <-. discriminate. Qed.
Lemma act_one_app e r : whole_action e -> act_one (e ++ r) = ('(t, _) <- act_one e ;; Ok (t, r)).
Proof. intros H. unfold act_one. rewrite action_one by auto. destruct (act2str_one e) as [[t s]|x|]; reflexivity. Qed.
Lemma inst_one_some m t r : inst2str_one m = Ok (t, r) -> t <> [].
Proof.
  unfold inst2str_one. intros H. mon H. apply unpack2_len in Ea as [ty ->]. mon H. assert (t = a) as -> by congruence. clear H.
  destruct (ty =? 1); [mon Ea; mon Ea; congruence|].
  destruct (ty =? 2); [mon Ea; mon Ea; match type of Ea with match ?x with _ => _ end = _ => destruct x as [|v [|m' [|]]] end; congruence|].
  destruct (ty =? 3); [mon Ea; mon Ea; match type of Ea with Ok match ?x with _ => _ end = _ => destruct x end; congruence|].
  destruct (ty =? 4); [mon Ea; mon Ea; match type of Ea with Ok match ?x with _ => _ end = _ => destruct x end; congruence|].
  destruct (ty =? 5); [mon Ea; congruence|]. destruct (ty =? 6); [mon Ea; mon Ea; congruence|]. congruence.
Qed.
Lemma actions_joined a b : made_of whole_action a -> a <> [] -> (4 < length b)%nat ->
  act2str (a ++ b) true = (t <- act2str a true ;; t' <- act2str b true ;; Ok (t ++ $"," ++ t')).
Proof.
  intros M Ha Hb. unfold act2str. rewrite !act_go_loop. apply joined.
  - apply (loop_join act_one act_one_rest whole_action); auto using act_one_app. now intros e [[L _] _].
  - intros x. apply loop_some; [exact act_one_some|]. apply (made_len (P := whole_action)); auto. now intros e [[L _] _].
  - intros y. now apply loop_some; [exact act_one_some|].
Qed.
Lemma actions_tail a b : made_of whole_action a -> (length b <= 4)%nat -> act2str (a ++ b) true = act2str a true.
Proof.
  intros M Hb. unfold act2str. rewrite !act_go_loop. rewrite (loop_join act_one act_one_rest whole_action); auto using act_one_app; [|now intros e [[L _] _]].
  rewrite (loop_none _ _ b) by lia. destruct (loop_go act_one (length a) a); cbn [bind]; auto. now rewrite app_nil_r.
Qed.
Lemma insts_joined a b : made_of whole_entry a -> a <> [] -> (4 < length b)%nat ->
  inst2str (a ++ b) true = (t <- inst2str a true ;; t' <- inst2str b true ;; Ok (t ++ $"," ++ t')).
Proof.
  intros M Ha Hb. unfold inst2str. rewrite !inst_go_loop. apply joined.
  - apply (loop_join inst2str_one inst2str_one_rest whole_entry); auto using inst_one. now intros e [L _].
  - intros x. apply loop_some; [exact inst_one_some|]. apply (made_len (P := whole_entry)); auto. now intros e [L _].
  - intros y. now apply loop_some; [exact inst_one_some|].
Qed.
Lemma insts_tail a b : made_of whole_entry a -> (length b <= 4)%nat -> inst2str (a ++ b) true = inst2str a true.
Proof.
  intros M Hb. unfold inst2str. rewrite !inst_go_loop. rewrite (loop_join inst2str_one inst2str_one_rest whole_entry); auto using inst_one; [|now intros e [L _]].
  rewrite (loop_none _ _ b) by lia. destruct (loop_go inst2str_one (length a) a); cbn [bind]; auto. now rewrite app_nil_r.
Qed.
Lemma fields_some f m x : (4 <= length m)%nat -> oxm2str_go f true m = Ok x -> x <> [].
Proof.
  intros L. destruct f as [|f]; cbn [oxm2str_go]; (destruct (Nat.ltb_spec (length m) 4); [lia|]); [discriminate|]. intros E. mon E. destruct a as [t r]. mon E. congruence.
Qed.
Lemma fields_none f m : (length m < 4)%nat -> oxm2str_go f true m = Ok [].
Proof. intros L. destruct f; cbn [oxm2str_go]; now rewrite (proj2 (Nat.ltb_lt _ _) L). Qed.
Lemma fields_joined a b : made_of whole_field a -> a <> [] -> (4 <= length b)%nat ->
  oxm2str (a ++ b) true = (t <- oxm2str a true ;; t' <- oxm2str b true ;; Ok (t ++ $"," ++ t')).
Proof.
  intros M Ha Hb. unfold oxm2str. apply joined.
  - now apply fields_join.
  - intros x. apply fields_some. apply (made_len (P := whole_field) 3); auto. intros e [L _]. lia.
  - intros y. now apply fields_some.
Qed.
Lemma fields_tail a b : made_of whole_field a -> (length b < 4)%nat -> oxm2str (a ++ b) true = oxm2str a true.
Proof.
  intros M Hb. unfold oxm2str. rewrite fields_join by auto. rewrite (fields_none _ b) by lia. destruct (oxm2str_go (length a) true a); cbn [bind]; auto. now rewrite app_nil_r.
Qed.

(** ** Groups *)
Lemma bucket_nil g : bucket2str [] g = Raise StructError.
Proof. reflexivity. Qed.
Lemma buckets_fuel min g f : (0 < min)%nat -> forall f' m, (length m <= f)%nat -> (length m <= f')%nat -> buckets2str_go min f g m = buckets2str_go min f' g m.
Proof.
  intros Hm. induction f as [|f IH]; intros f' m H H'.
  - destruct f'; cbn [buckets2str_go]; (destruct (Nat.ltb_spec (length m) min); [reflexivity|lia]).
  - destruct f' as [|f']; cbn [buckets2str_go]; (destruct (Nat.ltb_spec (length m) min) as [L|L]; [reflexivity|]); [lia|].
    destruct (unpack_from [sH] m 0) as [vs|e|]; cbn [bind]; auto. destruct (Z.to_nat (nth 0 vs 0)) as [|n]; [cbn [firstn]; now rewrite bucket_nil|].
    destruct (bucket2str _ _) as [t|e|]; cbn [bind]; auto. rewrite (IH f') by (rewrite skipn_length; lia). reflexivity.
Qed.
Lemma buckets_join g a b : made_of whole_bucket a ->
  buckets2str_go 17 (length (a ++ b)) g (a ++ b) = (x <- buckets2str_go 17 (length a) g a ;; y <- buckets2str_go 17 (length b) g b ;; Ok (x ++ y)).
Proof.
  intros M. induction M as [|e r [L El] M IH].
  - cbn [app length]. change (buckets2str_go 17 0 g []) with (@Ok (list text) []). cbn [bind app]. destruct (buckets2str_go 17 (length b) g b); reflexivity.
  - rewrite <- app_assoc.
    assert (U : forall x, buckets2str_go 17 (length (e ++ x)) g (e ++ x) = (t <- bucket2str e g ;; y <- buckets2str_go 17 (length x) g x ;; Ok ($"@bucket" :: t :: y))).
    { intros x. assert (exists n, length (e ++ x) = S n) as [n En] by (rewrite app_length; exists (length e + length x - 1)%nat; lia). rewrite En. cbn [buckets2str_go].
      destruct (Nat.ltb_spec (length (e ++ x)) 17) as [K|_]; [rewrite app_length in K; lia|]. rewrite unpack_from_app, u_at by (cbn; lia). cbn [bind nth]. rewrite <- El, Nat2Z.id, firstn_app_le, firstn_all, skipn_app_le, skipn_all by lia.
      destruct (bucket2str e g) as [t|z|]; cbn [bind app]; auto. rewrite (buckets_fuel 17 g n) with (f' := length x) by (rewrite ?app_length in En; lia). reflexivity. }
    rewrite !U, IH. destruct (bucket2str e g) as [t|z|]; cbn [bind]; auto. destruct (buckets2str_go 17 (length r) g r) as [x|z|]; cbn [bind]; auto. destruct (buckets2str_go 17 (length b) g b); reflexivity.
Qed.
Lemma skipn_pre {A} (a b : list A) : skipn (length a) (a ++ b) = b.
Proof. rewrite skipn_app_le by lia. now rewrite skipn_all. Qed.
Lemma join_more sep a l : a <> [] -> join sep (a ++ l) = join sep a ++ flat_map (fun x => sep ++ x) l.
Proof.
  intros Ha. assert (l = [] \/ l <> []) as [->|Hl] by (destruct l; [now left|now right]); [now rewrite !app_nil_r|]. rewrite join_two by auto. f_equal. clear Ha. induction l as [|x l IH]; [now destruct Hl|].
  rewrite join_cons. cbn [flat_map]. rewrite <- app_assoc. do 2 f_equal. destruct l as [|y l]; [reflexivity|]. apply IH. discriminate.
Qed.
Lemma group_joined h a b : length h = 16%nat -> made_of whole_bucket a ->
  group2str (h ++ a ++ b) = (hd <- group2str h ;; t <- group2str (h ++ a) ;; t' <- group2str (h ++ b) ;; Ok (t ++ skipn (length hd) t')).
Proof.
  intros Hh M. unfold group2str. replace (unpack_from group_fmt h 0) with (unpack_from group_fmt (h ++ []) 0) by now rewrite app_nil_r. rewrite !unpack_from_app by (rewrite Hh; cbn; lia).
  destruct (unpack_from group_fmt h 0) as [vs|e|]; cbn [bind]; auto. destruct vs as [|? [|? [|? [|? [|? [|gt [|gid [|]]]]]]]]; auto. destruct (py_nth ofpgt (Z.to_nat gt)) as [t|e|]; cbn [bind]; auto.
  assert (K : forall x, buckets2str_go 17 (length (h ++ x)) gt (skipn 16 (h ++ x)) = buckets2str_go 17 (length x) gt x).
  { intros x. rewrite <- Hh, skipn_pre. apply buckets_fuel; rewrite ?app_length; lia. }
  rewrite !K. pose proof (K []) as K0. rewrite app_nil_r in K0. rewrite K0. change (buckets2str_go 17 (length []) gt []) with (@Ok (list text) []). cbn [bind]. rewrite buckets_join by auto.
  destruct (buckets2str_go 17 (length a) gt a) as [x|e|]; cbn [bind]; auto. destruct (buckets2str_go 17 (length b) gt b) as [y|e|]; cbn [bind]; auto.
  set (i := if gid =? OFPG_ALL then _ else _). rewrite !(app_assoc i), app_nil_r. assert (Hi : i ++ [t] <> []) by (destruct i; discriminate).
  rewrite !(join_more _ (i ++ [t])) by auto. rewrite skipn_pre, flat_map_app, app_assoc. reflexivity.
Qed.
