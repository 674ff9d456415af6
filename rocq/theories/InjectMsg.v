(** The bytes of a message determine its rule, group or entries. *)
From Coq Require Import Strings.Ascii.
From Verif Require Import Base PyNum Util Spec SpecOxm SpecOfp SpecMp SpecInject.
From Verif Require Import BaseFacts UtilFacts NumFacts OxmMore OxmFacts FlowMore Inject InjectAct.

(** ** The same rule has the same bytes *)
Lemma lvalue_fixed l m : (forall k, lvalue k 0 l = lvalue k 0 m) -> lfixed_wire l = lfixed_wire m.
Proof. intros H. unfold lfixed_wire. cbv zeta. now rewrite !H. Qed.
Lemma same_act_wire a b : same_act a b -> act_wire a = act_wire b.
Proof.
  destruct a; cbn [same_act]; try (intros <-; reflexivity). destruct b; try (intros E; discriminate). intros [H1 H2]. cbn [act_wire]. now rewrite (lvalue_fixed _ _ H1), H2.
Qed.
Lemma same_acts_wire l m : Forall2 same_act l m -> acts_wire l = acts_wire m.
Proof. induction 1 as [|a b l m H _ IH]; [reflexivity|]. unfold acts_wire in *. cbn [flat_map]. now rewrite (same_act_wire _ _ H), IH. Qed.
Lemma same_instr_wire i j : same_instr i j -> instr_wire i = instr_wire j.
Proof. destruct i, j; cbn [same_instr]; try (intros E; (discriminate || reflexivity || now rewrite E)); intros H; cbn [instr_wire]; now rewrite (same_acts_wire _ _ H). Qed.
Lemma same_instrs_wire l m : Forall2 same_instr l m -> instrs_wire l = instrs_wire m.
Proof. induction 1 as [|a b l m H _ IH]; [reflexivity|]. unfold instrs_wire in *. cbn [flat_map]. now rewrite (same_instr_wire _ _ H), IH. Qed.
Lemma same_bucket_wire a b : same_bucket a b -> bucket_wire a = bucket_wire b.
Proof. intros (H1 & H2 & H3 & H4). unfold bucket_wire. now rewrite H1, H2, H3, (same_acts_wire _ _ H4). Qed.
Lemma same_buckets_wire l m : Forall2 same_bucket l m -> buckets_wire l = buckets_wire m.
Proof. induction 1 as [|a b l m H _ IH]; [reflexivity|]. unfold buckets_wire in *. cbn [flat_map]. now rewrite (same_bucket_wire _ _ H), IH. Qed.

(** ** Instructions and buckets *)
Lemma same_act_refl a : same_act a a.
Proof. destruct a; cbn [same_act]; auto. Qed.
Lemma instr_app i j (r s : bytes) : instr_proper i -> instr_proper j -> instr_wire i ++ r = instr_wire j ++ s -> same_instr i j /\ r = s.
Proof.
  intros [[Hi Li] Pi] [[Hj Lj] Pj] E.
  assert (K : exists ti pi tj pj, instr_wire i = std_act ti pi /\ instr_wire j = std_act tj pj /\ ti = match i with Goto _ => 1 | WriteMetadata _ _ => 2 | WriteActions _ => 3 | ApplyActions _ => 4 | ClearActions => 5 | Meter _ => 6 end
    /\ tj = match j with Goto _ => 1 | WriteMetadata _ _ => 2 | WriteActions _ => 3 | ApplyActions _ => 4 | ClearActions => 5 | Meter _ => 6 end).
  { destruct i, j; cbn [instr_wire]; do 4 eexists; (split; [reflexivity|]); (split; [reflexivity|]); split; reflexivity. }
  destruct K as (ti & pi & tj & pj & Ei & Ej & Ti & Tj). rewrite Ei in E, Li. rewrite Ej in E, Lj.
  apply std_app in E as (Et & Ep & ->); auto; [|subst; destruct i; apply in2; lia|subst; destruct j; apply in2; lia]. split; [|reflexivity].
  subst ti tj. assert (Ew : instr_wire i = instr_wire j) by congruence. clear Ei Ej Ep Li Lj.
  destruct i, j; try (exfalso; discriminate); cbn [same_instr instr_wire instr_acts] in *; unfold std_act in Ew.
  - apply app_inv_head in Ew. apply app_inj_len in Ew as [_ Ew]; [|now rewrite !be_length]. apply be_app in Ew as [-> _]; auto.
  - apply app_inv_head in Ew. apply app_inj_len in Ew as [_ Ew]; [|now rewrite !be_length]. apply app_inv_head in Ew. destruct Hi, Hj. apply be_app in Ew as [-> Ew]; auto. match goal with |- WriteMetadata _ ?m = WriteMetadata _ ?n => assert (m = n) as -> by (apply (be_inj 8); assumption) end. reflexivity.
  - apply app_inv_head in Ew. apply app_inj_len in Ew as [_ Ew]; [|now rewrite !be_length]. apply app_inv_head in Ew. now apply acts_inj.
  - apply app_inv_head in Ew. apply app_inj_len in Ew as [_ Ew]; [|now rewrite !be_length]. apply app_inv_head in Ew. now apply acts_inj.
  - reflexivity.
  - apply app_inv_head in Ew. apply app_inj_len in Ew as [_ Ew]; [|now rewrite !be_length]. f_equal. now apply (be_inj 4).
Qed.
Lemma instr_nonnil i : instr_wire i <> [].
Proof. destruct i; cbn [instr_wire]; unfold std_act; intros E; apply (f_equal (@length _)) in E; rewrite app_length, be_length in E; discriminate. Qed.
Lemma instrs_inj l m : Forall instr_proper l -> Forall instr_proper m -> instrs_wire l = instrs_wire m -> Forall2 same_instr l m.
Proof. intros Hl Hm E. eapply (flat_inj instr_wire instr_proper); eauto using instr_app, instr_nonnil. Qed.
Lemma bucket_app a b (r s : bytes) : bucket_proper a -> bucket_proper b -> bucket_wire a ++ r = bucket_wire b ++ s -> same_bucket a b /\ r = s.
Proof.
  intros [(H1 & H2 & H3 & H4 & H5) P] [(K1 & K2 & K3 & K4 & K5) Q] E. unfold bucket_wire in *. rewrite !app_length, !be_length in H5, K5. unfold pad in H5, K5. rewrite repeat_length in H5, K5. rewrite <- !app_assoc in E.
  apply be_app in E as [El E]; [|apply in2; lia|apply in2; lia]. apply be_app in E as [Ew E]; auto. apply be_app in E as [Ep E]; auto. apply be_app in E as [Eg E]; auto. apply app_inv_head in E.
  apply app_inj_len in E as [E ->]; [|lia]. split; [|reflexivity]. repeat split; auto. now apply acts_inj.
Qed.
Lemma bucket_nonnil b : bucket_wire b <> [].
Proof. unfold bucket_wire. intros E. apply (f_equal (@length _)) in E. rewrite app_length, be_length in E. discriminate. Qed.
Lemma buckets_inj l m : Forall bucket_proper l -> Forall bucket_proper m -> buckets_wire l = buckets_wire m -> Forall2 same_bucket l m.
Proof. intros Hl Hm E. eapply (flat_inj bucket_wire bucket_proper); eauto using bucket_app, bucket_nonnil. Qed.

(** ** Messages *)
Lemma match_length ts : (4 + length (flat_map wire ts) <= length (match_wire ts))%nat.
Proof. unfold match_wire. cbv zeta. rewrite !app_length, !be_length. lia. Qed.
Theorem flow_inj cmd xid x ts is cmd' xid' x' ts' is' : flow_proper cmd xid x ts is -> flow_proper cmd' xid' x' ts' is' ->
  (flow_wire cmd xid x ts is = flow_wire cmd' xid' x' ts' is' <-> cmd = cmd' /\ xid = xid' /\ x = x' /\ ts = ts' /\ Forall2 same_instr is is').
Proof.
  intros [(C & X & Hx & _ & L) [Ht Hi]] [(C' & X' & Hx' & _ & L') [Ht' Hi']]. split.
  2:{ intros (<- & <- & <- & <- & H). unfold flow_wire. now rewrite (same_instrs_wire _ _ H). }
  intros E. assert (M : Z.of_nat (4 + length (flat_map wire ts)) <= 65535 /\ Z.of_nat (4 + length (flat_map wire ts')) <= 65535).
  { pose proof (match_length ts). pose proof (match_length ts'). unfold flow_wire in L, L'. cbv zeta in L, L'. rewrite !app_length in L, L'. lia. }
  destruct Hx as (A1 & A2 & A3 & A4 & A5 & A6 & A7 & A8 & A9 & A10), Hx' as (B1 & B2 & B3 & B4 & B5 & B6 & B7 & B8 & B9 & B10).
  unfold flow_wire in E. cbv zeta in E. apply app_inv_head in E. apply app_inv_head in E. apply app_inj_len in E as [_ E]; [|now rewrite !be_length].
  repeat first [apply be_app in E as [? E]; [|assumption|assumption]|apply app_inv_head in E]. apply match_app in E as [-> E]; auto; try tauto.
  apply instrs_inj in E; auto. repeat split; auto. destruct x, x'; cbn in *; congruence.
Qed.
Lemma gtype_id_inj a b : gtype_id a = gtype_id b -> a = b.
Proof. destruct a, b; intros E; (reflexivity || discriminate). Qed.
Lemma gtype_range t : in_bytes 1 (gtype_id t).
Proof. destruct t; unfold in_bytes; cbn; lia. Qed.
Theorem group_inj cmd xid t id bs cmd' xid' t' id' bs' : group_ok cmd xid t id bs -> Forall bucket_proper bs -> group_ok cmd' xid' t' id' bs' -> Forall bucket_proper bs' ->
  (group_wire cmd xid t id bs = group_wire cmd' xid' t' id' bs' <-> cmd = cmd' /\ xid = xid' /\ t = t' /\ id = id' /\ Forall2 same_bucket bs bs').
Proof.
  intros (C & X & I & _ & L) Hb (C' & X' & I' & _ & L') Hb'. split.
  2:{ intros (<- & <- & <- & <- & H). unfold group_wire. now rewrite (same_buckets_wire _ _ H). }
  intros E. unfold group_wire in E. apply app_inv_head in E. apply app_inv_head in E. apply app_inj_len in E as [_ E]; [|now rewrite !be_length].
  apply be_app in E as [-> E]; auto. apply be_app in E as [-> E]; auto. apply be_app in E as [Et E]; auto using gtype_range. apply gtype_id_inj in Et as ->. apply app_inv_head in E.
  apply be_app in E as [-> E]; auto. apply buckets_inj in E; auto.
Qed.

(** ** Replies *)
Lemma fstat_app a b (r s : bytes) : fstat_proper a -> fstat_proper b -> fstat_wire a ++ r = fstat_wire b ++ s -> same_fstat a b /\ r = s.
Proof.
  intros [(H1 & H2 & H3 & H4 & Hx & _ & L) ((Z1 & Z2 & Z3 & Z4) & Ht & Hi)] [(K1 & K2 & K3 & K4 & Kx & _ & M) ((Y1 & Y2 & Y3 & Y4) & Kt & Ki)] E.
  assert (E2 : length (fstat_wire a) = length (fstat_wire b) -> fstat_wire a = fstat_wire b /\ r = s) by (intros E2; now apply app_inj_len).
  assert (F : forall e, length (fstat_wire e) = (48 + length (match_wire (fs_match e) ++ instrs_wire (fs_instrs e)))%nat).
  { intros e. unfold fstat_wire. cbv zeta. rewrite !app_length, !be_length. unfold pad. rewrite !repeat_length. lia. }
  assert (El : length (fstat_wire a) = length (fstat_wire b)).
  { pose proof (F a) as Fa. pose proof (F b) as Fb. unfold fstat_wire in E. cbv zeta in E. rewrite <- !app_assoc in E. apply be_app in E as [E _]; [lia|apply in2; lia|apply in2; lia]. }
  destruct (E2 El) as [E3 ->]. split; [|reflexivity]. clear E E2.
  assert (Mt : Z.of_nat (4 + length (flat_map wire (fs_match a))) <= 65535 /\ Z.of_nat (4 + length (flat_map wire (fs_match b))) <= 65535).
  { pose proof (match_length (fs_match a)). pose proof (match_length (fs_match b)). rewrite F, app_length in L, M. lia. }
  unfold fstat_wire in E3. cbv zeta in E3. apply app_inj_len in E3 as [_ E]; [|now rewrite !be_length].
  destruct Hx as (A1 & A2 & A3 & A4 & A5 & A6 & A7 & A8 & A9 & A10), Kx as (B1 & B2 & B3 & B4 & B5 & B6 & B7 & B8 & B9 & B10).
  repeat first [apply be_app in E as [? E]; [|assumption|assumption]|apply app_inv_head in E]. apply match_app in E as [E' E]; auto; try tauto.
  apply instrs_inj in E; auto. repeat split; auto. destruct (fs_fixed a), (fs_fixed b); cbn in *; congruence.
Qed.
Lemma fstat_nonnil e : fstat_wire e <> [].
Proof. unfold fstat_wire. cbv zeta. intros E. apply (f_equal (@length _)) in E. rewrite app_length, be_length in E. discriminate. Qed.
Lemma same_fstat_wire a b : same_fstat a b -> fstat_wire a = fstat_wire b.
Proof. intros (H1 & H2 & H3 & H4 & H5 & H6 & H7). unfold fstat_wire. cbv zeta. now rewrite H1, H2, H3, H4, H5, H6, (same_instrs_wire _ _ H7). Qed.
Theorem fstats_inj l m : Forall fstat_proper l -> Forall fstat_proper m -> (fstats_wire l = fstats_wire m <-> Forall2 same_fstat l m).
Proof.
  intros Hl Hm. split; [apply (flat_inj fstat_wire fstat_proper); auto using fstat_app, fstat_nonnil|].
  induction 1 as [|a b l m H _ IH]; [reflexivity|]. inversion Hl; inversion Hm; subst. unfold fstats_wire in *. cbn [flat_map]. now rewrite (same_fstat_wire _ _ H), IH.
Qed.
Lemma gdesc_app a b (r s : bytes) : gdesc_proper a -> gdesc_proper b -> gdesc_wire a ++ r = gdesc_wire b ++ s -> same_gdesc a b /\ r = s.
Proof.
  intros [(H1 & _ & L) Hb] [(K1 & _ & M) Kb] E. unfold gdesc_wire in *. rewrite !app_length, !be_length in L, M. unfold pad in L, M. rewrite repeat_length in L, M. rewrite <- !app_assoc in E.
  apply be_app in E as [El E]; [|apply in2; lia|apply in2; lia]. apply be_app in E as [Et E]; auto using gtype_range. apply gtype_id_inj in Et. apply app_inv_head in E. apply be_app in E as [Ei E]; auto.
  apply app_inj_len in E as [E ->]; [|lia]. split; [|reflexivity]. repeat split; auto. now apply buckets_inj.
Qed.
Lemma gdesc_nonnil e : gdesc_wire e <> [].
Proof. unfold gdesc_wire. intros E. apply (f_equal (@length _)) in E. rewrite app_length, be_length in E. discriminate. Qed.
Theorem gdescs_inj l m : Forall gdesc_proper l -> Forall gdesc_proper m -> (gdescs_wire l = gdescs_wire m <-> Forall2 same_gdesc l m).
Proof.
  intros Hl Hm. split; [apply (flat_inj gdesc_wire gdesc_proper); auto using gdesc_app, gdesc_nonnil|].
  induction 1 as [|a b l m (H1 & H2 & H3) _ IH]; [reflexivity|]. inversion Hl; inversion Hm; subst. unfold gdescs_wire in *. cbn [flat_map]. rewrite IH by auto. f_equal.
  unfold gdesc_wire. now rewrite H1, H2, (same_buckets_wire _ _ H3).
Qed.
Lemma pair_app a b (r s : bytes) : in_bytes 8 (fst a) /\ in_bytes 8 (snd a) -> in_bytes 8 (fst b) /\ in_bytes 8 (snd b) -> pair_wire a ++ r = pair_wire b ++ s -> a = b /\ r = s.
Proof. intros [H1 H2] [K1 K2] E. unfold pair_wire in E. rewrite <- !app_assoc in E. apply be_app in E as [? E]; auto. apply be_app in E as [? E]; auto. destruct a, b; cbn in *; split; congruence. Qed.
Lemma gstat_app a b (r s : bytes) : gstat_ok a -> gstat_ok b -> gstat_wire a ++ r = gstat_wire b ++ s -> a = b /\ r = s.
Proof.
  intros (H1 & H2 & H3 & H4 & H5 & H6 & H7 & L) (K1 & K2 & K3 & K4 & K5 & K6 & K7 & M) E. unfold gstat_wire in *. cbv zeta in *. rewrite !app_length, !be_length in L, M. unfold pad in L, M. rewrite !repeat_length in L, M. rewrite <- !app_assoc in E.
  apply be_app in E as [El E]; [|apply in2; lia|apply in2; lia]. repeat first [apply be_app in E as [? E]; [|assumption|assumption]|apply app_inv_head in E].
  apply app_inj_len in E as [E ->]; [|lia]. split; [|reflexivity].
  apply (flat_inj pair_wire (fun b => in_bytes 8 (fst b) /\ in_bytes 8 (snd b)) eq) in E; auto using pair_app; [|intros [x y] F; apply (f_equal (@length _)) in F; unfold pair_wire in F; rewrite app_length, be_length in F; discriminate].
  apply Forall2_eq in E. destruct a, b; cbn in *; congruence.
Qed.
Theorem gstats_inj l m : Forall gstat_ok l -> Forall gstat_ok m -> gstats_wire l = gstats_wire m -> l = m.
Proof.
  intros Hl Hm E. apply Forall2_eq. revert E. apply (flat_inj gstat_wire gstat_ok); auto using gstat_app.
  intros e E. apply (f_equal (@length _)) in E. unfold gstat_wire in E. cbv zeta in E. rewrite app_length, be_length in E. discriminate.
Qed.
