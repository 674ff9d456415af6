(** Every accepted group text stands for a group. *)
From Coq Require Import Strings.Ascii.
From Verif Require Import Base PyNum Util PyLib OxmCodec OxmTables Oxm Nx Ofp4 Spec SpecOxm SpecOfp.
From Verif Require Import BaseFacts OxmFacts ActPrint ActFrame ActDenote FlowRead FlowMod FlowFrame GroupRead GroupText GroupFrame.

Lemma contains_app_l a m b : contains m b -> contains (a ++ m) b.
Proof. intros (x & y & ->). exists (a ++ x), y. now rewrite app_assoc. Qed.
Lemma contains_app_r a m b : contains m b -> contains (m ++ a) b.
Proof. intros (x & y & ->). exists x, (y ++ a). now rewrite <- !app_assoc. Qed.
Lemma item_cases b : act_item b -> irregular b \/ exists a, b = act_wire a /\ act_known a.
Proof.
  intros (name & k & Hn & Hf & [Hs|[Hs|Hs]]); [left; right; exists name, k; auto|left; left; exact Hs|right; exact Hs].
Qed.
Lemma items_cases l : Forall act_item l -> (exists b, irregular b /\ contains (concat l) b) \/ exists as_, concat l = acts_wire as_ /\ Forall act_known as_.
Proof.
  induction 1 as [|b l Hb Hl IH]; [right; exists []; auto|]. cbn [concat].
  destruct (item_cases _ Hb) as [Hi|(a & -> & Ha)]; [left; exists b; split; [exact Hi|exists [], (concat l); reflexivity]|].
  destruct IH as [(c & Hc & Hin)|(as_ & -> & Has)]; [left; exists c; auto using contains_app_l|]. right. exists (a :: as_). auto.
Qed.
Lemma bucket_cases b : bucket_framed b -> (exists c, irregular c /\ contains b c) \/ exists k, b = bucket_wire k /\ bucket_known k.
Proof.
  intros (L & w & p & g & l & E & Hw & Hp & Hg & Hl). destruct (items_cases _ Hl) as [(c & Hc & Hin)|(as_ & Ea & Has)].
  - left. exists c. split; [exact Hc|]. rewrite E. do 5 apply contains_app_l. exact Hin.
  - right. exists (Bucket w p g as_). split; [|unfold bucket_known; auto]. unfold bucket_wire. cbn [bk_weight bk_port bk_group bk_acts].
    rewrite Ea in E. rewrite E at 1. do 2 f_equal. rewrite E, !app_length, !be_length. cbn [length pad repeat]. change (length (pad 4)) with 4%nat. lia.
Qed.
Lemma buckets_cases bs : Forall bucket_framed bs -> (exists c, irregular c /\ contains (concat bs) c) \/ exists ks, concat bs = buckets_wire ks /\ Forall bucket_known ks.
Proof.
  induction 1 as [|b l Hb Hl IH]; [right; exists []; auto|]. cbn [concat].
  destruct (bucket_cases _ Hb) as [(c & Hc & Hin)|(k & -> & Hk)]; [left; exists c; auto using contains_app_r|].
  destruct IH as [(c & Hc & Hin)|(ks & -> & Hks)]; [left; exists c; auto using contains_app_l|]. right. exists (k :: ks). auto.
Qed.
Lemma group_wire_eq cmd xid t id bs : group_wire cmd xid t id bs
  = be 1 4 ++ be 1 15 ++ be 2 (Z.of_nat (length (group_wire cmd xid t id bs))) ++ be 4 xid ++ be 2 cmd ++ be 1 (gtype_id t) ++ pad 1 ++ be 4 id ++ buckets_wire bs.
Proof. rewrite group_length. reflexivity. Qed.
Theorem group_denotes s cmd xid m : str2group s cmd xid = Ok m ->
  (exists b, irregular b /\ contains m b)
  \/ exists t id bs, m = group_wire cmd xid t id bs /\ Forall bucket_known bs /\ (no_short_in bs -> group_ok cmd xid t id bs).
Proof.
  intros H. apply group_framed in H as (L & t & id & bs & E & Hb & H1 & H2 & H3).
  destruct (buckets_cases _ Hb) as [(c & Hc & Hin)|(ks & Ek & Hk)].
  - left. exists c. split; [exact Hc|]. rewrite E. do 8 apply contains_app_l. exact Hin.
  - right. exists t, id, ks. rewrite Ek in E.
    assert (Em : m = group_wire cmd xid t id ks).
    { unfold group_wire. rewrite E at 1. do 4 f_equal. rewrite E, !app_length, !be_length. change (length (pad 1)) with 1%nat. lia. }
    split; [exact Em|]. split; [exact Hk|]. intros Hs. split; [assumption|]. split; [assumption|]. split; [assumption|]. rewrite <- Em. split; [|exact L].
    apply Forall_forall. intros b Hi. pose proof (proj1 (Forall_forall _ _) Hk b Hi) as (K1 & K2 & K3 & K4).
    assert (Lb : Z.of_nat (length (bucket_wire b)) <= 65535).
    { apply in_split in Hi as (x & y & ->). rewrite E in L. unfold buckets_wire in L. rewrite flat_map_app in L. cbn [flat_map] in L. rewrite !app_length in L. lia. }
    unfold bucket_ok. do 3 (split; [assumption|]). split; [|exact Lb]. apply Forall_forall. intros a Ha.
    destruct (proj1 (Forall_forall _ _) K4 a Ha) as [[Ho|Ho] _]; [exact Ho|]. destruct (Hs b a Hi Ha Ho).
Qed.
