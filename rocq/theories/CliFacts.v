(** Facts about the command line tool. *)
From Verif Require Import Base PyNum Util PyLib OxmCodec OxmTables Oxm Nx Ofp4 Cli Spec SpecOxm SpecOfp SpecMp SpecCli.
From Verif Require Import BaseFacts UtilFacts NumFacts OxmRead OxmPrint OxmFacts OxmFrame OxmMore TermFacts OfpTerm ActBase ActRead.
From Verif Require Import MpBase.

(** ** recv and pieces *)
Lemma recv_piece p ps cs : p <> [] -> aligned (p :: ps) cs -> forall x, exists cs', recv_go (length p) (cs ++ x) = Some (p, cs' ++ x) /\ aligned ps cs'.
Proof.
  intros Hp (gs & E & ->) x. induction gs as [|g gs IH]; [discriminate|]. destruct g as [|q g].
  - cbn [concat app] in E. cbn [map concat app recv_go]. auto.
  - cbn [concat app] in E. injection E as -> <-. cbn [map concat]. destruct p as [|b p]; [congruence|]. set (P := b :: p) in *.
    exists (concat g :: map (@concat byte) gs). split; [|exists (g :: gs); split; reflexivity].
    change (recv_go (length P) (((P ++ concat g) :: map (@concat byte) gs) ++ x)) with (Some (firstn (length P) (P ++ concat g), skipn (length P) (P ++ concat g) :: map (@concat byte) gs ++ x)).
    now rewrite firstn_len_app, skipn_len_app.
Qed.
Lemma recv_full n p cs cs' : recv_go n cs = Some (p, cs') -> length p = n -> forall ps, aligned ps cs' -> aligned (p :: ps) cs.
Proof.
  intros H Hn ps (gs & E & ->). revert H. induction cs as [|c cs IH]; intros H; [discriminate|]. destruct c as [|b c].
  - cbn [recv_go] in H. destruct (IH H) as (gs' & E' & ->). exists ([] :: gs'). auto.
  - change (Some (firstn n (b :: c), skipn n (b :: c) :: cs) = Some (p, map (@concat byte) gs)) in H. set (C := b :: c) in *. injection H as H1 H2.
    destruct gs as [|g gs]; [discriminate|]. injection H2 as H2 H3. cbn [concat] in E. exists ((p :: g) :: gs). cbn [concat map app]. split; [now rewrite E|].
    rewrite H3. f_equal. now rewrite <- H1, <- H2, firstn_skipn.
Qed.
Lemma recv_go_length n cs : forall p cs', recv_go n cs = Some (p, cs') -> (length p <= n)%nat /\ concat cs = p ++ concat cs' .
Proof.
  induction cs as [|c cs IH]; intros p cs' H; [discriminate|]. destruct c as [|b c]; [exact (IH _ _ H)|].
  change (Some (firstn n (b :: c), skipn n (b :: c) :: cs) = Some (p, cs')) in H. injection H as <- <-. split; [apply firstn_le_length|]. cbn [concat]. rewrite app_assoc, firstn_skipn. reflexivity.
Qed.
Lemma aligned_concat ps cs : aligned ps cs -> concat cs = concat ps.
Proof. intros (gs & <- & ->). induction gs as [|g gs IH]; [reflexivity|]. cbn [map concat]. now rewrite IH, concat_app. Qed.

Lemma app_cut {A} (a b c d : list A) : a ++ b = c ++ d -> length a = length c -> a = c /\ b = d.
Proof. intros E H. split; [rewrite <- (firstn_len_app a b), E, H; apply firstn_len_app|rewrite <- (skipn_len_app a b), E, H; apply skipn_len_app]. Qed.

(** ** Messages *)
Lemma head_length m : length (msg_head m) = 8%nat.
Proof. unfold msg_head. len. Qed.
Lemma head_unpack m r : msg_ok m -> unpack_raw [sB; sB; sH; sI] (msg_head m ++ r) = [m_version m; m_type m; Z.of_nat (8 + length (m_body m)); m_xid m].
Proof.
  intros (H1 & H2 & H3 & H4). unfold msg_head. set (L := Z.of_nat _) in *. assert (in_bytes 2 L) by (apply in_bytes_2; unfold L in *; lia). clearbody L. rewrite <- !app_assoc. unpacks. reflexivity.
Qed.
Lemma wire_unpack m : msg_ok m -> unpack_from [sB; sB; sH; sI] (msg_wire m) 0 = Ok [m_version m; m_type m; Z.of_nat (8 + length (m_body m)); m_xid m].
Proof. intros H. rewrite unpack_from_ok by (unfold msg_wire; rewrite app_length, head_length; cbn; lia). unfold msg_wire. now rewrite head_unpack. Qed.
Lemma head_hdr m : msg_ok m -> unpack [sB; sB; sH; sI] (msg_head m) = Ok [m_version m; m_type m; Z.of_nat (8 + length (m_body m)); m_xid m].
Proof. intros H. rewrite unpack_ok by (rewrite head_length; reflexivity). rewrite <- (app_nil_r (msg_head m)). now rewrite head_unpack. Qed.

(** an aligned message is read whole *)
Lemma next_aligned m ps cs o x : msg_ok m -> aligned (msg_pieces m ++ ps) cs -> exists cs', next_msg (Sock (cs ++ x) o) = Got (msg_wire m) (Sock (cs' ++ x) o) /\ aligned ps cs'.
Proof.
  intros Hm H. unfold msg_pieces in H. cbn [app] in H. apply recv_piece with (x := x) in H as (c1 & E1 & H); [|intros E; apply (f_equal (@length _)) in E; rewrite head_length in E; discriminate].
  rewrite head_length in E1. unfold next_msg, recv. cbn [s_chunks s_open]. rewrite E1, head_hdr by auto. cbn [nth s_chunks s_open]. destruct (m_body m) as [|b0 b] eqn:Eb.
  - cbn [app] in H. exists c1. change (8 <? Z.of_nat (8 + length [])) with false. cbn match. split; [|exact H]. unfold msg_wire. now rewrite Eb, app_nil_r.
  - apply recv_piece with (x := x) in H as (c2 & E2 & H); [|discriminate]. exists c2. split; [|exact H]. destruct (Z.ltb_spec 8 (Z.of_nat (8 + length (b0 :: b)))) as [_|K]; [|cbn [length] in K; lia].
    replace (Z.to_nat _) with (length (b0 :: b)) by lia. rewrite E2. unfold msg_wire. now rewrite Eb.
Qed.
(** and only then *)
Lemma next_inv m cs o s' : msg_ok m -> next_msg (Sock cs o) = Got (msg_wire m) s' -> exists cs', s' = Sock cs' o /\ concat cs = msg_wire m ++ concat cs' /\ forall ps, aligned ps cs' -> aligned (msg_pieces m ++ ps) cs.
Proof.
  intros Hm H. unfold next_msg, recv in H. cbn [s_chunks s_open] in H. destruct (recv_go 8 cs) as [[h c1]|] eqn:E1; [|destruct o; cbn in H; discriminate].
  destruct (recv_go_length _ _ _ _ E1) as [L1 C1]. unfold unpack in H. change (calcsize [sB; sB; sH; sI]) with 8%nat in H. destruct (Nat.eqb_spec 8 (length h)) as [Lh|]; [|discriminate]. cbn [s_chunks s_open] in H.
  assert (K : forall r, h ++ r = msg_wire m -> h = msg_head m /\ r = m_body m).
  { intros r E. unfold msg_wire in E. apply app_cut in E; [auto|]. rewrite head_length. auto. }
  assert (U : h = msg_head m -> nth 2 (unpack_raw [sB; sB; sH; sI] h) 0 = Z.of_nat (8 + length (m_body m))).
  { intros ->. rewrite <- (app_nil_r (msg_head m)), head_unpack by auto. reflexivity. }
  destruct (8 <? nth 2 (unpack_raw [sB; sB; sH; sI] h) 0) eqn:El.
  - destruct (recv_go _ c1) as [[r c2]|] eqn:E2.
    + injection H as H <-. destruct (K _ H) as [-> ->]. rewrite U in * by auto. apply Z.ltb_lt in El. exists c2. split; [reflexivity|]. destruct (recv_go_length _ _ _ _ E2) as [L2 C2].
      split; [rewrite C1, C2; unfold msg_wire; now rewrite <- app_assoc|]. intros ps Hps. unfold msg_pieces. destruct (m_body m) as [|b0 b] eqn:Eb; [cbn in El; lia|]. cbn [app].
      apply (recv_full _ _ _ _ E1 (head_length m)). eapply (recv_full _ _ _ _ E2); [lia|exact Hps].
    + destruct o; [discriminate|]. injection H as H <-. destruct (K _ H) as [-> Eb]. rewrite U in El by auto. apply Z.ltb_lt in El. rewrite <- Eb in El. cbn in El. lia.
  - injection H as H <-. rewrite <- (app_nil_r h) in H. destruct (K _ H) as [Eh Eb]. exists c1. split; [reflexivity|]. rewrite <- H, app_nil_r. split; [exact C1|]. intros ps Hps. unfold msg_pieces. rewrite <- Eb. cbn [app].
    rewrite <- Eh. apply (recv_full _ _ _ _ E1 (eq_sym Lh)), Hps.
Qed.

(** ** Loops *)
Definition size (s : sock) : nat := length (concat (s_chunks s)).
Lemma recv_size n s r s' : recv n s = Some (r, s') -> size s = (length r + size s')%nat.
Proof.
  unfold recv, size. destruct (recv_go n (s_chunks s)) as [[p cs]|] eqn:E.
  - intros H. injection H as <- <-. cbn [s_chunks]. apply recv_go_length in E as [_ ->]. apply app_length.
  - destruct (s_open s); [discriminate|]. intros H. injection H as <- <-. cbn [s_chunks concat length]. assert (K : concat (s_chunks s) = []); [|now rewrite K].
    clear -E. induction (s_chunks s) as [|c cs IH]; [reflexivity|]. destruct c; [exact (IH E)|discriminate].
Qed.
Lemma next_size s m s' : next_msg s = Got m s' -> (8 <= length m)%nat /\ size s = (length m + size s')%nat.
Proof.
  unfold next_msg. destruct (recv 8 s) as [[h s1]|] eqn:E1; [|discriminate]. apply recv_size in E1. unfold unpack. change (calcsize [sB; sB; sH; sI]) with 8%nat. destruct (Nat.eqb_spec 8 (length h)) as [Lh|]; [|discriminate].
  destruct (8 <? _).
  - destruct (recv _ s1) as [[r s2]|] eqn:E2; [|discriminate]. apply recv_size in E2. intros H. injection H as <- <-. rewrite app_length. lia.
  - intros H. injection H as <- <-. lia.
Qed.
(** the bound on the number of steps plays no part *)
Lemma for_fuel {A} (body : A -> bytes -> A * option ending) f1 : forall f2 a s, (size s < f1)%nat -> (size s < f2)%nat -> for_msgs f1 body a s = for_msgs f2 body a s.
Proof.
  induction f1 as [|f1 IH]; intros [|f2] a s H1 H2; try lia. cbn [for_msgs]. destruct (next_msg s) as [m s'|e] eqn:E; [|reflexivity]. apply next_size in E as [L E].
  destruct (body a m) as [a' [e|]]; [reflexivity|]. apply IH; lia.
Qed.
Lemma run_step {A} (body : A -> bytes -> A * option ending) a s :
  run_msgs body a s = match next_msg s with
                      | Stuck e => (a, e, s)
                      | Got m s => match body a m with (a, None) => run_msgs body a s | (a, Some e) => (a, e, s) end
                      end.
Proof.
  unfold run_msgs at 1. cbn [for_msgs]. destruct (next_msg s) as [m s'|e] eqn:E; [|reflexivity]. apply next_size in E as [L E]. destruct (body a m) as [a' [e|]]; [reflexivity|].
  apply for_fuel; unfold size in *; lia.
Qed.
(** messages on which the body goes on *)
Lemma run_skips {A} (body : A -> bytes -> A * option ending) (step : A -> ofmsg -> A) ms : forall a ps cs o x, Forall msg_ok ms ->
  (forall a m, In m ms -> body a (msg_wire m) = (step a m, None)) -> aligned (pieces ms ++ ps) cs ->
  exists cs', run_msgs body a (Sock (cs ++ x) o) = run_msgs body (fold_left step ms a) (Sock (cs' ++ x) o) /\ aligned ps cs'.
Proof.
  induction ms as [|m ms IH]; intros a ps cs o x Hm Hb H; [exists cs; auto|]. inversion Hm as [|? ? H1 H2]; subst. unfold pieces in H. cbn [flat_map] in H. rewrite <- app_assoc in H.
  destruct (next_aligned _ _ _ o x H1 H) as (c1 & E & H'). rewrite run_step, E, Hb by now left. destruct (IH (step a m) ps c1 o x H2) as (c2 & E2 & H3); [intros; apply Hb; now right|exact H'|].
  exists c2. split; [exact E2|exact H3].
Qed.
(** and one on which it stops *)
Lemma run_stops {A} (body : A -> bytes -> A * option ending) a a' m e ps cs o x : msg_ok m -> body a (msg_wire m) = (a', Some e) -> aligned (msg_pieces m ++ ps) cs ->
  exists cs', run_msgs body a (Sock (cs ++ x) o) = (a', e, Sock (cs' ++ x) o) /\ aligned ps cs'.
Proof. intros Hm Hb H. destruct (next_aligned _ _ _ o x Hm H) as (c1 & E & H'). rewrite run_step, E, Hb. eauto. Qed.
Lemma run_ends {A} (body : A -> bytes -> A * option ending) a cs o : aligned [] cs -> exists cs', run_msgs body a (Sock cs o) = (a, if o then Blocked else Raised StructError, Sock cs' o) /\ concat cs' = [].
Proof.
  intros H. exists cs. split; [|now apply aligned_concat in H]. rewrite run_step. assert (E : recv_go 8 cs = None).
  { destruct H as (gs & E & ->). induction gs as [|g gs IH]; [reflexivity|]. cbn [concat] in E. apply app_eq_nil in E as [-> E]. cbn [map concat recv_go]. auto. }
  unfold next_msg, recv. cbn [s_chunks s_open]. rewrite E. destruct o; reflexivity.
Qed.

(** ** What msgs yields *)
Definition collect (l : list bytes) (m : bytes) : list bytes * option ending := (l ++ [m], None).
Definition read_all (s : sock) : list bytes * ending * sock := run_msgs collect [] s.
Lemma fold_collect ms : forall l, fold_left (fun l m => l ++ [msg_wire m]) ms l = l ++ map msg_wire ms.
Proof. induction ms as [|m ms IH]; intros l; cbn [fold_left map]; [now rewrite app_nil_r|]. rewrite IH, <- app_assoc. reflexivity. Qed.
Theorem read_aligned ms cs o : Forall msg_ok ms -> aligned (pieces ms) cs ->
  exists cs', read_all (Sock cs o) = (map msg_wire ms, if o then Blocked else Raised StructError, Sock cs' o) /\ concat cs' = [].
Proof.
  intros Hm H. rewrite <- (app_nil_r (pieces ms)) in H. destruct (run_skips collect (fun l m => l ++ [msg_wire m]) ms [] [] cs o [] Hm) as (c1 & E & H1); auto.
  rewrite !app_nil_r in E. unfold read_all. rewrite E, fold_collect. cbn [app]. now apply run_ends.
Qed.
Lemma collect_more fuel : forall l s, exists l', fst (fst (for_msgs fuel collect l s)) = l ++ l'.
Proof.
  induction fuel as [|f IH]; intros l s; cbn [for_msgs]; [exists []; now rewrite app_nil_r|]. destruct (next_msg s) as [m s'|e]; [|exists []; now rewrite app_nil_r].
  cbn [collect]. destruct (IH (l ++ [m]) s') as (l' & E). rewrite E. exists ([m] ++ l'). now rewrite app_assoc.
Qed.
Theorem read_only_aligned ms cs o : Forall msg_ok ms -> concat cs = stream ms -> fst (fst (read_all (Sock cs o))) = map msg_wire ms -> aligned (pieces ms) cs.
Proof.
  unfold read_all. intros Hm Hc H. cut (forall l, fst (fst (run_msgs collect l (Sock cs o))) = l ++ map msg_wire ms -> aligned (pieces ms) cs); [intros K; now apply (K [])|]. clear H.
  revert cs Hc. induction ms as [|m ms IH]; intros cs Hc l H.
  - cbn [stream flat_map] in Hc. clear H. exists (map (fun _ => []) cs). clear -Hc. induction cs as [|c cs IH]; [split; reflexivity|]. cbn [concat] in Hc. apply app_eq_nil in Hc as [-> Hc].
    destruct (IH Hc) as [E1 E2]. cbn [map concat app]. split; [exact E1|]. now rewrite <- E2.
  - inversion Hm as [|? ? H1 H2]; subst. rewrite run_step in H. destruct (next_msg (Sock cs o)) as [x s'|e] eqn:E.
    + cbn [collect] in H. assert (x = msg_wire m) as ->.
      { unfold run_msgs in H. destruct (collect_more (S (length (concat (s_chunks s')))) (l ++ [x]) s') as (l' & E'). rewrite E' in H. rewrite <- app_assoc in H. apply app_inv_head in H. cbn [map app] in H. congruence. }
      destruct (next_inv _ _ _ _ H1 E) as (c1 & -> & C & K). unfold pieces. cbn [flat_map]. apply K. apply (IH H2 c1) with (l := l ++ [msg_wire m]).
      * unfold stream in Hc. cbn [flat_map] in Hc. rewrite C in Hc. now apply app_inv_head in Hc.
      * rewrite <- app_assoc. exact H.
    + cbn in H. rewrite <- (app_nil_r l) in H at 1. apply app_inv_head in H. discriminate.
Qed.
Lemma recv_past n cs c d : aligned [] cs -> c <> [] -> recv_go n (cs ++ c :: d) = Some (firstn n c, skipn n c :: d).
Proof.
  intros (gs & E & ->) Hc. induction gs as [|g gs IH]; [destruct c; [congruence|reflexivity]|]. cbn [concat] in E. apply app_eq_nil in E as [-> E]. cbn [map concat app recv_go]. auto.
Qed.
(** a chunk that ends inside a header, after the messages [ms] *)
Theorem read_header_cut ms c d cs o : Forall msg_ok ms -> c <> [] -> (length c < 8)%nat ->
  aligned (pieces ms) cs -> exists s', read_all (Sock (cs ++ c :: d) o) = (map msg_wire ms, Raised StructError, s').
Proof.
  intros Hm Hc Hl H. rewrite <- (app_nil_r (pieces ms)) in H. destruct (run_skips collect (fun l m => l ++ [msg_wire m]) ms [] [] cs o (c :: d) Hm) as (c1 & E & H1); auto.
  unfold read_all. rewrite E, fold_collect. cbn [app]. rewrite run_step. unfold next_msg, recv. cbn [s_chunks s_open]. rewrite recv_past by auto. rewrite firstn_all2 by lia.
  unfold unpack. change (calcsize _) with 8%nat. destruct (Nat.eqb_spec 8 (length c)); [lia|]. eauto.
Qed.
(** a chunk that ends inside a body: the message [m] is handed on without its end *)
Theorem read_body_cut ms m b e d cs o : Forall msg_ok ms -> msg_ok m -> m_body m = b ++ e -> b <> [] -> e <> [] ->
  aligned (pieces ms) cs -> exists l, fst (fst (read_all (Sock (cs ++ (msg_head m ++ b) :: d) o))) = map msg_wire ms ++ (msg_head m ++ b) :: l.
Proof.
  intros Hm Hk Eb Hb He H. rewrite <- (app_nil_r (pieces ms)) in H. destruct (run_skips collect (fun l m => l ++ [msg_wire m]) ms [] [] cs o ((msg_head m ++ b) :: d) Hm) as (c1 & E & H1); auto.
  unfold read_all. rewrite E, fold_collect. cbn [app]. rewrite run_step. assert (Hne : msg_head m ++ b <> []) by (intros Z; apply (f_equal (@length _)) in Z; rewrite app_length, head_length in Z; cbn in Z; lia).
  unfold next_msg, recv. cbn [s_chunks s_open]. rewrite recv_past by auto. replace 8%nat with (length (msg_head m)) by apply head_length. rewrite firstn_len_app, skipn_len_app, head_hdr by auto. cbn [nth s_chunks s_open].
  assert (Lb : (0 < length b /\ 0 < length e)%nat) by (destruct b, e; try congruence; cbn; lia). destruct (Z.ltb_spec 8 (Z.of_nat (8 + length (m_body m)))) as [_|K]; [|rewrite Eb, app_length in K; lia].
  set (n := Z.to_nat _). assert (Hn : (length b <= n)%nat) by (unfold n; rewrite Eb, app_length; lia). destruct b as [|b0 b]; [congruence|]. set (B := b0 :: b) in *.
  change (recv_go n (B :: d)) with (Some (firstn n B, skipn n B :: d)). rewrite firstn_all2 by exact Hn. cbn [collect].
  match goal with |- context [run_msgs collect ?l ?s] => destruct (collect_more (S (length (concat (s_chunks s)))) l s) as (l' & El); change (for_msgs _ collect l s) with (run_msgs collect l s) in El; rewrite El end.
  exists l'. now rewrite <- app_assoc.
Qed.

(** ** Barrier *)
Lemma barrier_goes u m : msg_ok m -> ~ is_barrier_reply m -> barrier_body u (msg_wire m) = (u, None).
Proof.
  intros Hm Hn. unfold barrier_body. rewrite wire_unpack by auto. replace (Z.of_nat (8 + length (m_body m)) =? 2) with false by (symmetry; apply Z.eqb_neq; lia). rewrite andb_false_r.
  destruct (Z.eqb_spec (m_type m) 21), (Z.eqb_spec (m_xid m) 3); cbn [andb]; auto. destruct Hn. split; auto.
Qed.
Lemma barrier_stops u m : msg_ok m -> is_barrier_reply m -> barrier_body u (msg_wire m) = (u, Some Returned).
Proof. intros Hm [H1 H2]. unfold barrier_body. rewrite wire_unpack by auto. rewrite H1, H2. reflexivity. Qed.
Theorem mod_returns pre b ps cs o : Forall msg_ok pre -> msg_ok b -> Forall (fun m => ~ is_barrier_reply m) pre -> is_barrier_reply b -> aligned (pieces (pre ++ [b]) ++ ps) cs ->
  exists cs', run_msgs barrier_body tt (Sock cs o) = (tt, Returned, Sock cs' o) /\ aligned ps cs'.
Proof.
  intros Hm Hb Hn Hr H. unfold pieces in H. rewrite flat_map_app in H. cbn [flat_map] in H. rewrite app_nil_r, <- app_assoc in H.
  destruct (run_skips barrier_body (fun a _ => a) pre tt (msg_pieces b ++ ps) cs o [] Hm) with (2 := H) as (c1 & E & H1); [intros [] m Hi; apply barrier_goes; [exact (proj1 (Forall_forall _ _) Hm m Hi)|exact (proj1 (Forall_forall _ _) Hn m Hi)]|].
  rewrite !app_nil_r in E. rewrite E. destruct (run_stops barrier_body (fold_left (fun a _ => a) pre tt) tt b Returned ps c1 o [] Hb) as (c2 & E2 & H2); auto; [destruct (fold_left _ _ _); now apply barrier_stops|].
  rewrite !app_nil_r in E2. rewrite E2. eauto.
Qed.
Theorem mod_waits ms cs o : Forall msg_ok ms -> Forall (fun m => ~ is_barrier_reply m) ms -> aligned (pieces ms) cs ->
  exists cs', run_msgs barrier_body tt (Sock cs o) = (tt, if o then Blocked else Raised StructError, Sock cs' o) /\ concat cs' = [].
Proof.
  intros Hm Hn H. rewrite <- (app_nil_r (pieces ms)) in H.
  destruct (run_skips barrier_body (fun a _ => a) ms tt [] cs o [] Hm) with (2 := H) as (c1 & E & H1); [intros [] m Hi; apply barrier_goes; [exact (proj1 (Forall_forall _ _) Hm m Hi)|exact (proj1 (Forall_forall _ _) Hn m Hi)]|].
  rewrite !app_nil_r in E. rewrite E. destruct (fold_left _ _ _). now apply run_ends.
Qed.
(** no OpenFlow message makes the tool report a failure *)
Lemma first_barrier ms : Forall (fun m => ~ is_barrier_reply m) ms \/ exists pre b post, ms = pre ++ b :: post /\ Forall (fun m => ~ is_barrier_reply m) pre /\ is_barrier_reply b.
Proof.
  induction ms as [|m ms IH]; [left; constructor|]. assert (D : is_barrier_reply m \/ ~ is_barrier_reply m).
  { unfold is_barrier_reply. destruct (Z.eq_dec (m_type m) 21), (Z.eq_dec (m_xid m) 3); tauto. }
  destruct D as [D|D]; [right; exists [], m, ms; auto|]. destruct IH as [IH|(pre & b & post & -> & H1 & H2)]; [left; constructor; auto|right]. exists (m :: pre), b, post. auto.
Qed.
Theorem mod_never_fails ms cs o : Forall msg_ok ms -> aligned (pieces ms) cs -> snd (fst (run_msgs barrier_body tt (Sock cs o))) <> Failed.
Proof.
  intros Hm H. destruct (first_barrier ms) as [Hn|(pre & b & post & -> & H1 & H2)].
  - destruct (mod_waits ms cs o Hm Hn H) as (c1 & E & _). rewrite E. cbn. destruct o; discriminate.
  - apply Forall_app in Hm as [Hp Hb]. inversion Hb as [|? ? Hb1 Hb2]; subst. replace (pieces (pre ++ b :: post)) with (pieces (pre ++ [b]) ++ pieces post) in H by (unfold pieces; rewrite <- flat_map_app, <- app_assoc; reflexivity).
    destruct (mod_returns pre b _ cs o Hp Hb1 H1 H2 H) as (c1 & E & _). rewrite E. discriminate.
Qed.

(** ** Dumps *)
Lemma part_wire xid mp fl b : msg_wire (part xid mp fl b) = mp_wire 19 xid mp fl b.
Proof.
  unfold msg_wire, msg_head, part, mp_wire. cbn [m_version m_type m_xid m_body]. replace (8 + length (be 2 mp ++ be 2 fl ++ pad 4 ++ b))%nat with (16 + length b)%nat by len. rewrite <- !app_assoc. reflexivity.
Qed.
Lemma part_ok_msg xid mp fl b : in_bytes 4 xid -> Z.of_nat (16 + length b) <= 65535 -> msg_ok (part xid mp fl b).
Proof.
  intros Hx Hl. unfold msg_ok, part. cbn [m_version m_type m_xid m_body]. split; [unfold in_bytes; cbn; lia|]. split; [unfold in_bytes; cbn; lia|]. split; [exact Hx|].
  replace (8 + length (be 2 mp ++ be 2 fl ++ pad 4 ++ b))%nat with (16 + length b)%nat by len. exact Hl.
Qed.
Lemma dump_goes mp show l m : msg_ok m -> ~ is_part mp m -> dump_body mp show l (msg_wire m) = (l, None).
Proof.
  intros Hm Hn. unfold dump_body. destruct (Nat.ltb_spec (length (msg_wire m)) 16) as [|Hl]; [reflexivity|]. unfold msg_wire in *. rewrite app_length, head_length in Hl.
  rewrite unpack_from_ok by (rewrite app_length, head_length; cbn; lia).
  assert (E : unpack_raw mp_fmt (msg_head m ++ m_body m) = [m_version m; m_type m; Z.of_nat (8 + length (m_body m)); m_xid m] ++ unpack_raw [sH; sH; sx 4] (m_body m)).
  { destruct Hm as (H1 & H2 & H3 & H4). unfold msg_head, mp_fmt. set (L := Z.of_nat _) in *. assert (in_bytes 2 L) by (apply in_bytes_2; unfold L in *; lia). clearbody L. rewrite <- !app_assoc. unpacks. reflexivity. }
  rewrite E. cbn [unpack_raw app]. destruct (Z.eqb_spec (m_type m) 19) as [Ht|]; [|reflexivity]. destruct (Z.eqb_spec (be_val (firstn 2 (m_body m))) mp) as [Hp|]; [|reflexivity].
  destruct Hn. split; [exact Ht|]. split; [lia|]. rewrite <- Hp, be_val_spec. symmetry. replace 2%nat with (length (firstn 2 (m_body m))) at 1 by (rewrite firstn_length; lia). apply be_num_be.
Qed.
Lemma dump_part mp show l xid fl b : in_bytes 2 mp -> in_bytes 4 xid -> in_bytes 2 fl -> Z.of_nat (16 + length b) <= 65535 ->
  dump_body mp show l (mp_wire 19 xid mp fl b) =
  match show (mp_wire 19 xid mp fl b) with
  | Ok t => (l ++ [t], if fl =? 0 then Some Returned else None) | Raise e => (l, Some (Raised e)) | Diverge => (l, Some Loops)
  end.
Proof.
  intros Hp Hx Hf Hl. unfold dump_body. rewrite mp_length. destruct (Nat.ltb_spec (16 + length b) 16); [lia|]. rewrite mp_unpack by (auto; unfold in_bytes; lia). rewrite Z.eqb_refl. cbn [negb orb].
  rewrite Z.eqb_refl. reflexivity.
Qed.
Section Dump.
Context (mp : Z) (show : bytes -> res text) (Hmp : in_bytes 2 mp).
Definition shows (r : reply) (t : text) : Prop := show (mp_wire 19 (p_xid r) mp (p_flags r) (p_body r)) = Ok t.
Lemma dump_reply r l ps cs o : reply_ok mp r -> aligned (pieces (reply_msgs mp r) ++ ps) cs ->
  exists cs', aligned ps cs' /\ run_msgs (dump_body mp show) l (Sock cs o) =
   match dump_body mp show l (mp_wire 19 (p_xid r) mp (p_flags r) (p_body r)) with
   | (a, None) => run_msgs (dump_body mp show) a (Sock cs' o) | (a, Some e) => (a, e, Sock cs' o)
   end.
Proof.
  intros (N1 & N2 & Hx & Hf & Hl) H. unfold reply_msgs, pieces in H. rewrite flat_map_app in H. cbn [flat_map] in H. rewrite app_nil_r, <- app_assoc in H.
  destruct (run_skips (dump_body mp show) (fun a _ => a) (p_noise r) l (msg_pieces (part (p_xid r) mp (p_flags r) (p_body r)) ++ ps) cs o [] N1) with (2 := H) as (c1 & E & H1).
  { intros a m Hi. apply dump_goes; [exact (proj1 (Forall_forall _ _) N1 m Hi)|exact (proj1 (Forall_forall _ _) N2 m Hi)]. }
  rewrite !app_nil_r in E. rewrite E. assert (fold_left (fun a (_ : ofmsg) => a) (p_noise r) l = l) as -> by (clear; induction (p_noise r); auto).
  destruct (next_aligned _ ps c1 o [] (part_ok_msg (p_xid r) mp (p_flags r) (p_body r) Hx Hl) H1) as (c2 & E2 & H2). rewrite !app_nil_r, part_wire in E2. exists c2. split; [exact H2|].
  rewrite run_step, E2. reflexivity.
Qed.
Lemma dump_parts rs : forall ts l ps cs o, Forall (reply_ok mp) rs -> Forall (fun r => p_flags r <> 0) rs -> Forall2 shows rs ts -> aligned (pieces (flat_map (reply_msgs mp) rs) ++ ps) cs ->
  exists cs', aligned ps cs' /\ run_msgs (dump_body mp show) l (Sock cs o) = run_msgs (dump_body mp show) (l ++ ts) (Sock cs' o).
Proof.
  induction rs as [|r rs IH]; intros ts l ps cs o Hr Hf Hs H; inversion Hs as [|? t ? ts' H1 H2]; subst; [rewrite app_nil_r; eauto|].
  inversion Hr as [|? ? R1 R2]; subst. inversion Hf as [|? ? F1 F2]; subst. cbn [flat_map] in H. unfold pieces in H. rewrite flat_map_app, <- app_assoc in H.
  destruct (dump_reply r l _ cs o R1 H) as (c1 & A1 & E1). rewrite E1. destruct R1 as (_ & _ & Hx & Hfl & Hl). rewrite dump_part by auto. unfold shows in H1. rewrite H1. destruct (Z.eqb_spec (p_flags r) 0); [congruence|].
  destruct (IH ts' (l ++ [t]) ps c1 o R2 F2 H2 A1) as (c2 & A2 & E2). rewrite E2, <- app_assoc. cbn [app]. eauto.
Qed.
Theorem dump_prints rs r ts t ps cs o : Forall (reply_ok mp) rs -> reply_ok mp r -> Forall (fun r => p_flags r <> 0) rs -> p_flags r = 0 -> Forall2 shows rs ts -> shows r t ->
  aligned (pieces (flat_map (reply_msgs mp) (rs ++ [r])) ++ ps) cs ->
  exists cs', run_msgs (dump_body mp show) [] (Sock cs o) = (ts ++ [t], Returned, Sock cs' o) /\ aligned ps cs'.
Proof.
  intros Hr Hl Hf Hz Hs Ht H. rewrite flat_map_app in H. unfold pieces in H. rewrite flat_map_app, <- app_assoc in H. destruct (dump_parts rs ts [] _ cs o Hr Hf Hs H) as (c1 & A1 & E1). rewrite E1. cbn [app].
  cbn [flat_map] in A1. rewrite app_nil_r in A1. destruct (dump_reply r ts ps c1 o Hl A1) as (c2 & A2 & E2). rewrite E2. destruct Hl as (_ & _ & Hx & Hfl & Hb). rewrite dump_part by auto. unfold shows in Ht. rewrite Ht, Hz. exists c2. split; [reflexivity|exact A2].
Qed.
(** a part that cannot be printed: the lines before it are on the screen *)
Theorem dump_raises rs r ts e ps cs o : Forall (reply_ok mp) rs -> reply_ok mp r -> Forall (fun r => p_flags r <> 0) rs -> Forall2 shows rs ts ->
  show (mp_wire 19 (p_xid r) mp (p_flags r) (p_body r)) = Raise e -> aligned (pieces (flat_map (reply_msgs mp) (rs ++ [r])) ++ ps) cs ->
  exists cs', run_msgs (dump_body mp show) [] (Sock cs o) = (ts, Raised e, Sock cs' o) /\ aligned ps cs'.
Proof.
  intros Hr Hl Hf Hs Ht H. rewrite flat_map_app in H. unfold pieces in H. rewrite flat_map_app, <- app_assoc in H. destruct (dump_parts rs ts [] _ cs o Hr Hf Hs H) as (c1 & A1 & E1). rewrite E1. cbn [app].
  cbn [flat_map] in A1. rewrite app_nil_r in A1. destruct (dump_reply r ts ps c1 o Hl A1) as (c2 & A2 & E2). rewrite E2. destruct Hl as (_ & _ & Hx & Hfl & Hb). rewrite dump_part by auto. rewrite Ht. eauto.
Qed.
(** without a last part it waits, or fails when the connection is closed *)
Theorem dump_waits rs noise ts cs o : Forall (reply_ok mp) rs -> Forall (fun r => p_flags r <> 0) rs -> Forall2 shows rs ts -> Forall msg_ok noise -> Forall (fun m => ~ is_part mp m) noise ->
  aligned (pieces (flat_map (reply_msgs mp) rs ++ noise)) cs -> exists cs', run_msgs (dump_body mp show) [] (Sock cs o) = (ts, if o then Blocked else Raised StructError, Sock cs' o) /\ concat cs' = [].
Proof.
  intros Hr Hf Hs Hm Hn H. unfold pieces in H. rewrite flat_map_app in H. destruct (dump_parts rs ts [] _ cs o Hr Hf Hs H) as (c1 & A1 & E1). rewrite E1. cbn [app]. fold (pieces noise) in A1. rewrite <- (app_nil_r (pieces noise)) in A1.
  destruct (run_skips (dump_body mp show) (fun a _ => a) noise ts [] c1 o [] Hm) with (2 := A1) as (c2 & E & A2).
  { intros a m Hi. apply dump_goes; [exact (proj1 (Forall_forall _ _) Hm m Hi)|exact (proj1 (Forall_forall _ _) Hn m Hi)]. }
  rewrite !app_nil_r in E. rewrite E. assert (fold_left (fun a (_ : ofmsg) => a) noise ts = ts) as -> by (clear; induction noise; auto). now apply run_ends.
Qed.
End Dump.

(** ** What is sent *)
Lemma hdr_ok t xid : in_bytes 1 t -> in_bytes 4 xid -> of_hdr t xid = Ok (msg_wire (OfMsg 4 t xid [])).
Proof. intros Ht Hx. unfold of_hdr. packs. reflexivity. Qed.
Lemma join_words l : join $" " l = words l.
Proof. induction l as [|a [|b l] IH]; [reflexivity|reflexivity|]. change (join $" " (a :: b :: l)) with (a ++ $" " ++ join $" " (b :: l)). rewrite IH. reflexivity. Qed.
Definition run_mod (m : bytes) (s : sock) : run := let '(_, e, s') := run_msgs barrier_body tt s in Run [hello; m; barrier_request] [] e s'.
Lemma ofctl_flow command code args s : In (command, code) flow_commands -> ofctl command args s = do_mod [hello] (str2mod (words args) code 2) s.
Proof. rewrite <- join_words. intros H. repeat (destruct H as [H|H]; [injection H as <- <-; reflexivity|]). destruct H. Qed.
Lemma ofctl_group command code args s : In (command, code) group_commands -> ofctl command args s = do_mod [hello] (str2group (words args) code 2) s.
Proof. rewrite <- join_words. intros H. repeat (destruct H as [H|H]; [injection H as <- <-; reflexivity|]). destruct H. Qed.
Lemma mod_ok m s : do_mod [hello] (Ok m) s = run_mod m s.
Proof. reflexivity. Qed.
Lemma ofctl_flows args s : ofctl $"dump-flows" args s = do_dump [hello] (Ok (mp_wire 18 2 1 0 (frequest_wire request_defaults []))) 1 mpflow2text s.
Proof. unfold ofctl. change (of_hdr 0 1) with (Ok hello). cbn match. change (text_eqb $"dump-flows" $"dump-flows") with true. cbn match. f_equal. Qed.
Lemma ofctl_groups args s : ofctl $"dump-groups" args s = do_dump [hello] (Ok (mp_wire 18 2 7 0 [])) 7 mpgroupdesc2text s.
Proof. unfold ofctl. change (of_hdr 0 1) with (Ok hello). cbn match. change (text_eqb $"dump-groups" $"dump-flows") with false. change (text_eqb $"dump-groups" $"dump-groups") with true. cbn match. f_equal. Qed.
Lemma text_eqb_spec a b : reflect (a = b) (text_eqb a b).
Proof. destruct (text_eqb a b) eqn:E; constructor; [now apply text_eqb_eq|now apply text_eqb_neq]. Qed.
Lemma index_missing n l : ~ In n l -> index_of n l = Raise ValueError.
Proof.
  induction l as [|k l IH]; intros H; [reflexivity|]. cbn [index_of]. destruct (text_eqb_spec n k) as [->|]; [destruct H; now left|]. rewrite IH by (intros K; apply H; now right). reflexivity.
Qed.
Theorem ofctl_unknown command args s : ~ In command ([$"dump-flows"; $"dump-groups"] ++ map fst flow_commands ++ map fst group_commands) -> ofctl command args s = Run [hello] [] BadParam s.
Proof.
  intros H. unfold ofctl. change (of_hdr 0 1) with (Ok hello). cbn match.
  destruct (text_eqb_spec command $"dump-flows") as [->|]; [destruct H; now left|]. destruct (text_eqb_spec command $"dump-groups") as [->|]; [destruct H; right; now left|].
  rewrite !index_missing; [reflexivity| |]; intros K; apply H; apply in_or_app; right; apply in_or_app; [right|left]; exact K.
Qed.
