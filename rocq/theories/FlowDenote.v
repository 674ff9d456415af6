(** Every accepted flow text stands for a flow. *)
From Coq Require Import Strings.Ascii.
From Verif Require Import Base PyNum Util PyLib OxmCodec OxmTables Oxm Nx Ofp4 Spec SpecOxm SpecOfp.
From Verif Require Import BaseFacts OxmFacts ActPrint ActFrame ActDenote FlowRead FlowMod FlowFrame.

Definition pend_known (pend : option (Z * bytes)) : Prop :=
  match pend with None => True | Some (t, b) => (t = 3 \/ t = 4) /\ exists l, Forall act_known l /\ b = acts_wire l end.
Lemma finish_known pend : pend_known pend -> exists is, finish pend = instrs_wire is /\ Forall instr_known is.
Proof.
  destruct pend as [[t b]|]; cbn [finish pend_known]; [|exists []; auto].
  intros [[-> | ->] (l & Hl & ->)]; [exists [WriteActions l]|exists [ApplyActions l]]; (split; [symmetry; apply app_nil_r|repeat constructor; exact Hl]).
Qed.
Lemma instrs_wire_app a b : instrs_wire (a ++ b) = instrs_wire a ++ instrs_wire b.
Proof. apply flat_map_app. Qed.
Lemma parts_known w s ps : accepted w s ps -> forall pend, pend_known pend -> (w = AtAction -> pend <> None) -> regular ps ->
  exists is, instr_parts pend ps = instrs_wire is /\ Forall instr_known is.
Proof.
  assert (R : forall p ps, regular (p :: ps) -> regular ps) by (intros p ps0 H n b Hi; apply H; right; exact Hi).
  induction 1 as [w|h name x r ps Hh Hn He Ha IH|h name x r ps b Hh He Hf Ha IH|w h nm x r ps i Hh Hn Hi He Ha IH|w h nm t r ps Hh Hn He Ha IH
    |h name x r ps k b Hh Hn Hk Hd Hx Ha IH|h r ps Hh Ha IH]; intros pend Hp Hw Hr; cbn [instr_parts]; pose proof Hr as Hr'; try apply R in Hr'.
  - now apply finish_known.
  - apply IH; auto.
  - apply IH; auto.
  - destruct (finish_known pend Hp) as (is & -> & His). destruct (IH None I) as (js & -> & Hjs); [discriminate|exact Hr'|].
    exists (is ++ i :: js). rewrite instrs_wire_app. split; [reflexivity|]. apply Forall_app; split; auto. constructor; auto. destruct Hn; exact Hi.
  - destruct (finish_known pend Hp) as (is & -> & His). destruct (IH (Some (t, []))) as (js & -> & Hjs); [|discriminate|exact Hr'|].
    { split; [destruct Hn; auto|]. exists []. auto. }
    exists (is ++ js). rewrite instrs_wire_app. split; [reflexivity|]. apply Forall_app; auto.
  - destruct (Hr name b (or_introl eq_refl)) as [N1 N2]. destruct Hd as [Hd|[Hd|(a & -> & Hd)]]; [contradiction|contradiction|].
    apply IH; [|intros _; destruct pend as [[? ?]|]; [discriminate|now apply Hw]|exact Hr'].
    destruct pend as [[t c]|]; [|exact I]. destruct Hp as [Ht (l & Hl & ->)]. split; auto. exists (l ++ [a]).
    unfold acts_wire. rewrite flat_map_app. cbn [flat_map]. rewrite app_nil_r. split; auto. apply Forall_app; split; auto.
  - apply IH; auto.
Qed.

(** ** Flags *)
Lemma flag_of_range n : 0 <= flag_of n < 32.
Proof. unfold flag_of, fflags. cbn [fold_right fflag_bit]. repeat destruct (list_eq_dec Z.eq_dec n _); lia. Qed.
Lemma lor_range a b : 0 <= a < 32 -> 0 <= b < 32 -> 0 <= Z.lor a b < 32.
Proof.
  intros Ha Hb. split; [apply Z.lor_nonneg; lia|].
  destruct (Z.eq_dec (Z.lor a b) 0) as [->|]; [lia|]. apply Z.log2_lt_pow2 with (b := 5); [|].
  - pose proof (proj2 (Z.lor_nonneg a b)). lia.
  - rewrite Z.log2_lor by lia. apply Z.max_lub_lt.
    + destruct (Z.eq_dec a 0) as [->|]; [cbn; lia|]. apply Z.log2_lt_pow2; lia.
    + destruct (Z.eq_dec b 0) as [->|]; [cbn; lia|]. apply Z.log2_lt_pow2; lia.
Qed.
Lemma flags_named_range l : named_flags (flags_named l).
Proof. unfold named_flags. induction l as [|n l IH]; cbn [flags_named fold_right]; [lia|]. apply lor_range; [apply flag_of_range|exact IH]. Qed.

Lemma flag_of_not f n : n <> fflag_name f -> Z.land (flag_of n) (fflag_bit f) = 0.
Proof.
  intros H. unfold flag_of, fflags. cbn [fold_right].
  repeat (destruct (list_eq_dec Z.eq_dec n _); [destruct f; try reflexivity; now destruct H|]). reflexivity.
Qed.
Lemma flags_named_not f l : ~ In (fflag_name f) l -> Z.land (flags_named l) (fflag_bit f) = 0.
Proof.
  induction l as [|n l IH]; intros H; [reflexivity|]. cbn [flags_named fold_right]. fold (flags_named l).
  rewrite Z.land_lor_distr_l, IH by (intros K; apply H; now right). rewrite flag_of_not; [reflexivity|]. intros ->. apply H. now left.
Qed.

(** ** The message *)
Lemma mod_head_wire cmd xid x ts is : mod_head cmd xid (Z.of_nat (48 + length (match_wire ts ++ instrs_wire is))) x ++ match_wire ts ++ instrs_wire is = flow_wire cmd xid x ts is.
Proof. unfold mod_head, flow_wire. rewrite <- !app_assoc. reflexivity. Qed.
Lemma mod_head_length cmd xid n x : length (mod_head cmd xid n x) = 48%nat.
Proof. unfold mod_head. rewrite !app_length, !be_length. reflexivity. Qed.
Theorem mod_denotes s cmd xid m : str2mod s cmd xid = Ok m -> exists ps x ts,
  accepted AtEntry s ps /\ in_bytes 1 cmd /\ in_bytes 4 xid /\ fixed_ok x /\ defaulted (names_set ps) (defaults cmd) x /\ named_flags (x_flags x)
  /\ match_parts ps = flat_map wire ts /\ Forall known_tlv ts /\ Z.of_nat (length m) <= 65535
  /\ (regular ps -> exists is, instr_parts None ps = instrs_wire is /\ Forall instr_known is /\ m = flow_wire cmd xid x ts is
       /\ (no_short is -> flow_ok cmd xid x ts is)).
Proof.
  intros H. apply mod_sound in H as (ps & x & ts & bs & A1 & A2 & A3 & A4 & A5 & A6 & A7 & A8 & A9 & A10 & A11).
  exists ps, x, ts. do 5 (split; [assumption|]). split; [|do 3 (split; [assumption|])].
  { destruct A5 as (_ & _ & _ & _ & _ & _ & _ & _ & ->). apply flags_named_range. }
  intros Hr. destruct (parts_known _ _ _ A1 None I) as (is & E & His); [discriminate|exact Hr|]. exists is.
  rewrite <- A8 in A11. rewrite E in A11.
  assert (Em : m = flow_wire cmd xid x ts is).
  { rewrite <- mod_head_wire. replace (48 + length (match_wire ts ++ instrs_wire is))%nat with (length m); [exact A11|].
    rewrite A11 at 1. now rewrite app_length, mod_head_length. }
  do 2 (split; [assumption|]). split; [exact Em|]. intros Hs. split; [assumption|]. split; [assumption|]. split; [assumption|]. split.
  - apply Forall_forall. intros i Hi. pose proof (proj1 (Forall_forall _ _) His i Hi) as K.
    assert (L : Z.of_nat (length (instr_wire i)) <= 65535).
    { apply in_split in Hi as (a & b & ->). rewrite A11, instrs_wire_app in A10. cbn [instrs_wire flat_map] in A10. rewrite !app_length in A10. lia. }
    destruct i as [t|v mm|l|l| |t]; try exact K; (split; [|exact L]); apply Forall_forall; intros a Ha.
    + destruct (proj1 (Forall_forall _ _) K a Ha) as [[Ho|Ho] _]; [exact Ho|]. destruct (Hs (WriteActions l) a Hi Ha Ho).
    + destruct (proj1 (Forall_forall _ _) K a Ha) as [[Ho|Ho] _]; [exact Ho|]. destruct (Hs (ApplyActions l) a Hi Ha Ho).
  - now rewrite <- Em.
Qed.
