(** Printing of actions, instructions and flow rules: when it does not end. *)
From Coq Require Import Strings.Ascii.
From Verif Require Import Base PyNum Util PyLib OxmCodec OxmTables Oxm Nx Ofp4 Spec SpecOxm SpecOfp.
From Verif Require Import BaseFacts UtilFacts NumFacts PyLibFacts TermFacts OxmFacts OfpTerm.

(** ** One action *)
Lemma learn_obj_nd p n : learn_obj p n <> Diverge. Proof. unfold learn_obj. nd. Qed.
Lemma learn_specs_total fuel : forall spec p, (length p <= fuel)%nat -> learn_specs fuel spec p <> Diverge.
Proof.
  induction fuel as [|fuel IH]; intros spec p Hl; cbn [learn_specs]; destruct (Nat.leb_spec (length p) 2); try discriminate; [lia|].
  destruct (be_val (firstn 2 p) =? 0); [discriminate|]. cbv zeta. apply bind_nd; [apply assert_nd|]. intros _ _.
  apply bind_nd.
  { destruct (Z.land (Z.shiftr (be_val (firstn 2 p)) 12) 1 =? 1); [discriminate|]. apply bind_nd; [apply learn_obj_nd|discriminate]. }
  intros [[sint stxt] q] E1.
  assert (length q <= length p - 2)%nat as L1.
  { destruct (Z.land (Z.shiftr (be_val (firstn 2 p)) 12) 1 =? 1).
    - match type of E1 with Ok (_, _, ?x) = _ => replace q with x by congruence end. rewrite !skipn_length. lia.
    - mon E1. match type of E1 with Ok (_, _, ?x) = _ => replace q with x by congruence end. rewrite !skipn_length. lia. }
  apply bind_nd.
  { destruct (negb _); [|discriminate]. apply bind_nd; [apply learn_obj_nd|discriminate]. }
  intros [spec' q'] E2.
  assert (length q' <= length p - 2)%nat as L2.
  { destruct (negb _); [mon E2|]; match type of E2 with Ok (_, ?x) = _ => replace q' with x by congruence end; rewrite ?skipn_length; lia. }
  destruct spec'; [|discriminate]. apply bind_nd; [apply IH; lia|discriminate].
Qed.
#[local] Hint Resolve learn_obj_nd : nd.
Lemma learn_act2str_nd p : learn_act2str p <> Diverge.
Proof.
  unfold learn_act2str. apply bind_nd; [apply unpack_from_nd|]. intros f _. destruct (existsb _ _); [discriminate|].
  apply bind_nd; [|discriminate]. apply learn_specs_total. rewrite skipn_length. lia.
Qed.
Lemma act_printers_nd : Forall (fun p => forall m, snd p m <> Diverge) nx_act2str_tbl
                        /\ Forall (fun p => forall m, snd p m <> Diverge) std_act2str_tbl.
Proof.
  split; unfold nx_act2str_tbl, std_act2str_tbl; repeat constructor; cbn [snd]; intros m; try apply learn_act2str_nd.
  all: unfold cnt_ids_act2str, reg_load_act2str, reg_load2_act2str, reg_move_act2str, resubmit_act2str, resubmit_table_act2str,
    set_tunnel_act2str, null_act2str, qp_act2str, multipath_act2str, bundle_act2str, bundle_load_act2str, output_reg_act2str,
    output_reg2_act2str, output_act2str, generic_act2str, uint_act2str, push_act2str; nd.
Qed.
Lemma act2str_get_nd nx t f m : act2str_get nx t = Some f -> f m <> Diverge.
Proof.
  destruct act_printers_nd as [H1 H2]. unfold act2str_get. destruct nx; intros E.
  - exact (assoc_z_forall (fun f => forall m, f m <> Diverge) _ _ _ H1 E m).
  - exact (assoc_z_forall (fun f => forall m, f m <> Diverge) _ _ _ H2 E m).
Qed.
Lemma unpack2_len msg a : unpack_from [sH; sH] msg 0 = Ok a ->
  exists t, a = [t; be_val (firstn 2 (skipn 2 msg))].
Proof. unfold unpack_from. destruct (_ <=? _)%nat; [|discriminate]. intros E. injection E as <-. eexists. reflexivity. Qed.
Lemma act2str_one_nd msg : act2str_one msg <> Diverge.
Proof.
  unfold act2str_one. apply bind_nd; [apply unpack_from_nd|]. intros vs _. destruct vs as [|t [|l [|]]]; try discriminate.
  apply bind_nd; [nd|]. intros [[nx at'] off] _.
  apply bind_nd; [|discriminate]. destruct (at' =? 25).
  - apply bind_nd; [apply oxm2str_total|discriminate].
  - destruct (act2str_get nx at') as [f|] eqn:E; [|discriminate]. now apply (act2str_get_nd nx at').
Qed.
(** the rest is what follows the bytes the length field says *)
Lemma act2str_one_rest msg tok rest : act2str_one msg = Ok (tok, rest) -> rest = skipn (entry_len msg) msg.
Proof.
  unfold act2str_one. intros H. mon H. apply unpack2_len in Ea as [t ->]. mon H. destruct a as [[nx at'] off]. mon H.
  injection H as _ <-. unfold entry_len. now rewrite be_val_spec.
Qed.

(** ** The loop, once for actions and instructions *)
Section Loop.
  Context {A : Type} (one : bytes -> res (list A * bytes)).
  Hypothesis one_rest : forall m t r, one m = Ok (t, r) -> r = skipn (entry_len m) m.
  Fixpoint loop_go (fuel : nat) (msg : bytes) : res (list A) :=
    if (length msg <=? 4)%nat then Ok []
    else match fuel with
         | O => Diverge
         | S f => '(toks, rest) <- one msg ;; r <- loop_go f rest ;; Ok (toks ++ r)
         end.
  Variable single : bytes -> res text.
  Hypothesis single_ok : forall m, (4 < length m)%nat -> ((exists t, single m = Ok t) <-> exists p, one m = Ok p).
  Hypothesis single_div : forall m, (4 < length m)%nat -> (single m = Diverge <-> one m = Diverge).
  Lemma loop_stuck m t : (4 < length m)%nat -> one m = Ok (t, m) -> forall fuel, loop_go fuel m = Diverge.
  Proof.
    intros Hl E fuel. induction fuel as [|fuel IH]; cbn [loop_go]; (destruct (Nat.leb_spec (length m) 4); [lia|]); [reflexivity|].
    rewrite E. cbn [bind]. now rewrite IH.
  Qed.
  Lemma loop_endless m : endless single m -> forall fuel, loop_go fuel m = Diverge.
  Proof.
    induction 1 as [m t Hl E Ez|m Hl E|m t Hl E H IH]; intros fuel.
    - assert (exists p, one m = Ok p) as [[tk r] Eo] by (apply single_ok; eauto).
      pose proof (one_rest _ _ _ Eo) as Er. rewrite Ez in Er. cbn in Er. subst r. eapply loop_stuck; eauto.
    - destruct fuel; cbn [loop_go]; (destruct (Nat.leb_spec (length m) 4); [lia|]); [reflexivity|].
      apply single_div in E; auto. now rewrite E.
    - assert (exists p, one m = Ok p) as [[tk r] Eo] by (apply single_ok; eauto).
      destruct fuel; cbn [loop_go]; (destruct (Nat.leb_spec (length m) 4); [lia|]); [reflexivity|].
      rewrite Eo. cbn [bind]. rewrite (one_rest _ _ _ Eo), IH. reflexivity.
  Qed.
  Lemma loop_diverges fuel : forall m, (length m <= fuel)%nat -> loop_go fuel m = Diverge -> endless single m.
  Proof.
    induction fuel as [|fuel IH]; intros m Hl; cbn [loop_go]; (destruct (Nat.leb_spec (length m) 4); [discriminate|]); [lia|].
    destruct (one m) as [[tk r]|e|] eqn:E; cbn [bind]; [|discriminate|].
    - pose proof (one_rest _ _ _ E) as Er. assert (exists t, single m = Ok t) as [t Es] by (apply single_ok; eauto).
      intros H0. destruct (Nat.eq_dec (entry_len m) 0) as [Ez|Ez]; [eapply endless_here; eauto|].
      eapply endless_next; eauto. rewrite <- Er. apply IH; [subst r; rewrite skipn_length; lia|].
      destruct (loop_go fuel r); [discriminate|discriminate|reflexivity].
    - intros _. apply endless_inner; auto. now apply single_div.
  Qed.
End Loop.

Definition act_one (m : bytes) : res (list text * bytes) := '(t, r) <- act2str_one m ;; Ok ([t], r).
Lemma act_go_loop fuel : forall m, act2str_go fuel true m = loop_go act_one fuel m.
Proof.
  induction fuel as [|fuel IH]; intros m; cbn [act2str_go loop_go]; destruct (_ <=? _)%nat; auto.
  unfold act_one. destruct (act2str_one m) as [[t r]|e|]; cbn [bind]; auto. rewrite IH. destruct (loop_go _ _ _); reflexivity.
Qed.
Lemma inst_go_loop fuel : forall m, inst2str_go fuel true m = loop_go inst2str_one fuel m.
Proof.
  induction fuel as [|fuel IH]; intros m; cbn [inst2str_go loop_go]; destruct (_ <=? _)%nat; auto.
  destruct (inst2str_one m) as [[t r]|e|]; cbn [bind]; auto. rewrite IH. reflexivity.
Qed.
(** with loop=False *)
Lemma act2str_single m : (4 < length m)%nat -> act2str m false = ('(t, _) <- act2str_one m ;; Ok t).
Proof.
  intros H. unfold act2str. destruct (length m) as [|n] eqn:E; [lia|]. cbn [act2str_go]. rewrite E.
  destruct (Nat.leb_spec (S n) 4); [lia|]. destruct (act2str_one m) as [[t r]|e|]; reflexivity.
Qed.
Lemma inst2str_single m : (4 < length m)%nat -> inst2str m false = ('(t, _) <- inst2str_one m ;; Ok (join $"," t)).
Proof.
  intros H. unfold inst2str. destruct (length m) as [|n] eqn:E; [lia|]. cbn [inst2str_go]. rewrite E.
  destruct (Nat.leb_spec (S n) 4); [lia|]. destruct (inst2str_one m) as [[t r]|e|]; reflexivity.
Qed.
Lemma act2str_false_nd m : act2str m false <> Diverge.
Proof.
  destruct (Nat.leb_spec (length m) 4) as [H|H].
  - unfold act2str. destruct (length m) eqn:E; cbn [act2str_go]; rewrite E; [discriminate|]. now rewrite (proj2 (Nat.leb_le _ _) H).
  - rewrite act2str_single by auto. apply bind_nd; [apply act2str_one_nd|]. intros [? ?]. discriminate.
Qed.
Lemma act2str_diverges m : act2str m true = Diverge <-> endless (fun z => act2str z false) m.
Proof.
  unfold act2str at 1.
  assert (forall m t r, act_one m = Ok (t, r) -> r = skipn (entry_len m) m) as H1.
  { intros m0 t r E. unfold act_one in E. mon E. destruct a as [t0 r0]. injection E as <- <-. now apply act2str_one_rest in Ea. }
  assert (forall m, (4 < length m)%nat -> ((exists t, act2str m false = Ok t) <-> exists p, act_one m = Ok p)) as H2.
  { intros z Hz. rewrite act2str_single by auto. unfold act_one. destruct (act2str_one z) as [[t r]|e|]; cbn [bind]; split; intros [x E]; try discriminate; eauto. }
  assert (forall m, (4 < length m)%nat -> (act2str m false = Diverge <-> act_one m = Diverge)) as H3.
  { intros z Hz. rewrite act2str_single by auto. unfold act_one. destruct (act2str_one z) as [[t r]|e|]; cbn [bind]; split; congruence. }
  split.
  - intros E. rewrite act_go_loop in E. destruct (loop_go act_one (length m) m) eqn:E'; try discriminate. eapply loop_diverges; eauto.
  - intros E. rewrite act_go_loop, (loop_endless _ H1 _ H2 H3 m E). reflexivity.
Qed.
(** ** Instructions *)
Lemma inst2str_one_rest msg tok rest : inst2str_one msg = Ok (tok, rest) -> rest = skipn (entry_len msg) msg.
Proof.
  unfold inst2str_one. intros H. mon H. apply unpack2_len in Ea as [t ->]. cbv zeta in H. mon H.
  injection H as _ <-. unfold entry_len. now rewrite be_val_spec.
Qed.
Lemma inst2str_diverges m : inst2str m true = Diverge <-> endless (fun z => inst2str z false) m.
Proof.
  unfold inst2str at 1.
  assert (forall m, (4 < length m)%nat -> ((exists t, inst2str m false = Ok t) <-> exists p, inst2str_one m = Ok p)) as H2.
  { intros z Hz. rewrite inst2str_single by auto. destruct (inst2str_one z) as [[t r]|e|]; cbn [bind]; split; intros [x E]; try discriminate; eauto. }
  assert (forall m, (4 < length m)%nat -> (inst2str m false = Diverge <-> inst2str_one m = Diverge)) as H3.
  { intros z Hz. rewrite inst2str_single by auto. destruct (inst2str_one z) as [[t r]|e|]; cbn [bind]; split; congruence. }
  split.
  - intros E. rewrite inst_go_loop in E. destruct (loop_go inst2str_one (length m) m) eqn:E'; try discriminate.
    eapply loop_diverges; eauto. intros; eapply inst2str_one_rest; eauto.
  - intros E. rewrite inst_go_loop, (loop_endless _ inst2str_one_rest _ H2 H3 m E). reflexivity.
Qed.
(** one instruction: its action list does not end *)
Lemma inst2str_one_diverges m : (4 < length m)%nat ->
  (inst2str m false = Diverge <->
   let t := num_be (firstn 2 m) in
   (t = 3 \/ t = 4) /\ (entry_len m mod 8 = 0)%nat /\ endless (fun z => act2str z false) (slice 8 (entry_len m) m)).
Proof.
  intros Hl. rewrite inst2str_single by auto. unfold inst2str_one, unpack_from. cbn [calcsize fold_right fwidth Nat.add].
  destruct (Nat.leb_spec 4 (length m)); [|lia]. cbn [bind skipn unpack_raw]. cbv zeta. rewrite !be_val_spec.
  unfold entry_len. set (t := num_be (firstn 2 m)). set (l := num_be (firstn 2 (skipn 2 m))).
  assert (0 <= l) by apply num_be_range.
  rewrite <- act2str_diverges.
  assert (l mod 8 =? 0 = true <-> (Z.to_nat l mod 8 = 0)%nat) as Hm.
  { rewrite Z.eqb_eq. pose proof (Z2Nat.inj_mod l 8 ltac:(lia) ltac:(lia)) as E. change (Z.to_nat 8) with 8%nat in E. rewrite <- E.
    pose proof (Z.mod_pos_bound l 8 ltac:(lia)). lia. }
  assert (forall name, (vs <- (assert! (l mod 8 =? 0) ;; arg <- act2str (slice 8 (Z.to_nat l) m) true ;;
            Ok match arg with [] => [name] | _ => [name; arg] end) ;; Ok (vs, skipn (Z.to_nat l) m)) = Diverge
          <-> (Z.to_nat l mod 8 = 0)%nat /\ act2str (slice 8 (Z.to_nat l) m) true = Diverge) as Ha.
  { intros name. rewrite <- Hm. destruct (l mod 8 =? 0); cbn [assert bind].
    - destruct (act2str _ true); cbn [bind]; split; try discriminate; try (intros [_ ?]; discriminate); auto.
    - split; [discriminate|intros [? _]; discriminate]. }
  destruct (Z.eqb_spec t 1) as [E|N1];
    [split; [intros D; exfalso; revert D; apply bind_nd; [nd|intros [? ?]; discriminate]|intros [[?|?] _]; lia]|].
  destruct (Z.eqb_spec t 2) as [E|N2].
  { split; [intros D; exfalso; revert D; apply bind_nd; [nd|intros [? ?]; discriminate]|intros [[?|?] _]; lia]. }
  destruct (Z.eqb_spec t 3) as [E|N3].
  { specialize (Ha $"@write"). destruct (bind _ _) as [[? ?]|e|] eqn:Eb; cbn [bind]; split; try discriminate; try tauto;
      intros [_ [H1 H2]]; now apply proj2 in Ha; specialize (Ha (conj H1 H2)). }
  destruct (Z.eqb_spec t 4) as [E|N4].
  { specialize (Ha $"@apply"). destruct (bind _ _) as [[? ?]|e|] eqn:Eb; cbn [bind]; split; try discriminate; try tauto;
      intros [_ [H1 H2]]; now apply proj2 in Ha; specialize (Ha (conj H1 H2)). }
  split; [intros D; exfalso; revert D; apply bind_nd; [nd|intros [? ?]; discriminate]|intros [[?|?] _]; lia].
Qed.
(** ** Flow rules *)
Lemma mod2str_diverges m :
  mod2str m = Diverge <->
  (52 <= length m)%nat /\ num_be (firstn 2 (skipn 48 m)) = 1
  /\ let ml := Z.to_nat (num_be (firstn 2 (skipn 50 m))) in
     (exists t, oxm2str (slice 52 (52 + ml - 4) m) true = Ok t)
     /\ endless (fun z => inst2str z false) (slice (48 + align8 ml) (entry_len m) m).
Proof.
  unfold mod2str, unpack_from.
  change (calcsize (mod_fmt ++ [sH; sH])) with 52%nat. cbn [Nat.add].
  destruct (Nat.leb_spec 52 (length m)); [|split; [discriminate|lia]].
  cbn [bind]. cbn [mod_fmt app unpack_raw]. rewrite !skipn_skipn. cbn [Nat.add]. rewrite !be_val_spec. fold (entry_len m). cbv zeta.
  set (mt := num_be (firstn 2 (skipn 48 m))). rewrite <- inst2str_diverges.
  destruct (Z.eqb_spec mt 1) as [E|E]; [|split; [discriminate|tauto]].
  destruct (oxm2str _ true) as [rs|e|] eqn:Eo; cbn [bind].
  - destruct (inst2str _ true) eqn:Ei; cbn [bind]; split; try discriminate; try (intros (_ & _ & _ & ?); discriminate); intros _.
    { split; [assumption|]. split; [assumption|]. split; eauto. }
    reflexivity.
  - split; [discriminate|]. intros (_ & _ & [? ?] & _). discriminate.
  - exfalso. now apply oxm2str_total in Eo.
Qed.
(** no amount of steps is enough *)
Lemma act2str_forever m fuel : endless (fun z => act2str z false) m -> act2str_go fuel true m = Diverge.
Proof.
  intros E. rewrite act_go_loop. apply act2str_diverges in E. pose proof E as E'. apply act2str_diverges in E'.
  revert fuel. apply (loop_endless act_one) with (single := fun z => act2str z false); auto.
  - intros m0 t r E0. unfold act_one in E0. mon E0. destruct a as [t0 r0]. injection E0 as <- <-. now apply act2str_one_rest in Ea.
  - intros z Hz. rewrite act2str_single by auto. unfold act_one. destruct (act2str_one z) as [[t r]|e|]; cbn [bind]; split; intros [x E0]; try discriminate; eauto.
  - intros z Hz. rewrite act2str_single by auto. unfold act_one. destruct (act2str_one z) as [[t r]|e|]; cbn [bind]; split; congruence.
Qed.
Lemma inst2str_forever m fuel : endless (fun z => inst2str z false) m -> inst2str_go fuel true m = Diverge.
Proof.
  intros E. rewrite inst_go_loop. revert fuel. apply (loop_endless inst2str_one) with (single := fun z => inst2str z false); auto.
  - intros ? ? ? H. now apply inst2str_one_rest in H.
  - intros z Hz. rewrite inst2str_single by auto. destruct (inst2str_one z) as [[t r]|e|]; cbn [bind]; split; intros [x E0]; try discriminate; eauto.
  - intros z Hz. rewrite inst2str_single by auto. destruct (inst2str_one z) as [[t r]|e|]; cbn [bind]; split; congruence.
Qed.
