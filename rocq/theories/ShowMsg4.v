(** Printing arbitrary bytes: what is shown depends on the quoted texts only in them. *)
From Verif Require Import Base PyNum Util PyLib OxmCodec OxmTables Oxm Nx Ofp4 Spec SpecOxm SpecText SpecShow SpecOfp SpecMp SpecShowOfp SpecShowMsg.
From Verif Require Import ShowLib ShowAct ShowAct2 ShowAct3 ShowMsg ShowMsg2 ShowMsg3.

Section Mono.
  Variables Q R : bytes -> text -> Prop.
  Hypothesis QR : forall p u, Q p u -> R p u.
  Lemma inst_mono m ts : inst_shown Q m ts -> inst_shown R m ts.
  Proof. intros H. destruct H; try (constructor; assumption); [apply is_write|apply is_apply]; auto; now apply (acts_mono Q R). Qed.
  Lemma insts_mono m ts : insts_shown Q m ts -> insts_shown R m ts.
  Proof. apply entries_mono, inst_mono. Qed.
  Lemma rule_mono n m ts : rule_shown Q n m ts -> rule_shown R n m ts.
  Proof. intros [ms is W Hm Hi]. apply rule_is; [exact W|now apply (shown_mono Q R)|now apply insts_mono]. Qed.
  Lemma flow_mono m t : flow_shown Q m t -> flow_shown R m t.
  Proof. intros [ts H Hr]. apply flow_is; [exact H|now apply rule_mono]. Qed.
  Lemma bucket_mono g m t : bucket_shown Q g m t -> bucket_shown R g m t.
  Proof. intros [ts H Ha]. apply bucket_is; [exact H|now apply (acts_mono Q R)]. Qed.
  Lemma buckets_mono min g m ts : buckets_shown Q min g m ts -> buckets_shown R min g m ts.
  Proof. apply entries_mono. intros z us (t & H & ->). exists t. split; [now apply bucket_mono|reflexivity]. Qed.
  Lemma group_mono m t : group_shown Q m t -> group_shown R m t.
  Proof. intros [g ts H E Hb]. apply group_is; [exact H|exact E|now apply buckets_mono]. Qed.
  Lemma frow_mono m ts : frow_shown Q m ts -> frow_shown R m ts.
  Proof. intros [us H]. apply frow_is. now apply rule_mono. Qed.
  Lemma fmsg_mono m ts : fmsg_shown Q m ts -> fmsg_shown R m ts.
  Proof. intros (A & B & C & H). repeat split; auto. revert H. apply entries_mono, frow_mono. Qed.
  Lemma drow_mono m ts : drow_shown Q m ts -> drow_shown R m ts.
  Proof. intros [g us A B H]. apply drow_is; auto. now apply buckets_mono. Qed.
  Lemma dmsg_mono m ts : dmsg_shown Q m ts -> dmsg_shown R m ts.
  Proof. intros (A & B & [[C H]|K]); repeat split; auto. left. split; [exact C|]. revert H. apply entries_mono, drow_mono. Qed.
End Mono.
Lemma messages_mono (R S : bytes -> list text -> Prop) m ts : (forall m ts, R m ts -> S m ts) -> messages R m ts -> messages S m ts.
Proof. intros RS. apply entries_mono. intros z us [A B]. auto. Qed.
Section Some.
  Variables Q R : bytes -> text -> Prop.
  Hypothesis QR : forall p, exists u, R p u.
  Lemma inst_some m ts : inst_shown Q m ts -> exists us, inst_shown R m us.
  Proof.
    intros H. destruct H; try (eexists; first [solve [apply is_goto; assumption] | solve [apply is_metadata; assumption] | solve [apply is_clear; assumption] | solve [apply is_meter; assumption] | solve [apply is_unknown; assumption]]).
    - apply (acts_some Q R) in H1 as (us & H1); [|exact QR]. eexists. apply is_write; eassumption.
    - apply (acts_some Q R) in H1 as (us & H1); [|exact QR]. eexists. apply is_apply; eassumption.
  Qed.
  Lemma insts_some m ts : insts_shown Q m ts -> exists us, insts_shown R m us.
  Proof. apply entries_some, inst_some. Qed.
  Lemma inst_stuck_some m : inst_stuck Q m -> inst_stuck R m.
  Proof. intros (A & B & H). repeat split; auto. now apply (loop_some Q R). Qed.
  Lemma insts_loop_some m : insts_loop Q m -> insts_loop R m.
  Proof. apply eloop_some; [apply inst_some|apply inst_stuck_some]. Qed.
  Lemma rule_some n m ts : rule_shown Q n m ts -> exists us, rule_shown R n m us.
  Proof. intros [ms is W Hm Hi]. apply (shown_some Q R) in Hm as (ms' & Hm); [|exact QR]. apply insts_some in Hi as (is' & Hi). eexists. apply rule_is; eassumption. Qed.
  Lemma rule_stuck_some n m : rule_stuck Q n m -> rule_stuck R n m.
  Proof. intros (W & (ms & Hm) & H). apply (shown_some Q R) in Hm; [|exact QR]. repeat split; auto. now apply insts_loop_some. Qed.
  Lemma flow_some m t : flow_shown Q m t -> exists u, flow_shown R m u.
  Proof. intros [ts H Hr]. apply rule_some in Hr as (us & Hr). eexists. apply flow_is; eassumption. Qed.
  Lemma flow_loop_some m : flow_loop Q m -> flow_loop R m.
  Proof. intros [H Hr]. split; [exact H|now apply rule_stuck_some]. Qed.
  Lemma bucket_some g m t : bucket_shown Q g m t -> exists u, bucket_shown R g m u.
  Proof. intros [ts H Ha]. apply (acts_some Q R) in Ha as (us & Ha); [|exact QR]. eexists. apply bucket_is; eassumption. Qed.
  Lemma bucket_stuck_some m : bucket_stuck Q m -> bucket_stuck R m.
  Proof. intros [H Ha]. split; [exact H|]. now apply (loop_some Q R). Qed.
  Lemma buckets_some min g m ts : buckets_shown Q min g m ts -> exists us, buckets_shown R min g m us.
  Proof. apply entries_some. intros z us (t & H & ->). apply bucket_some in H as (u & H). eauto. Qed.
  Lemma buckets_loop_some min g m : buckets_loop Q min g m -> buckets_loop R min g m.
  Proof. apply eloop_some; [|intros z; apply bucket_stuck_some]. intros z us (t & H & ->). apply bucket_some in H as (u & H). eauto. Qed.
  Lemma group_some m t : group_shown Q m t -> exists u, group_shown R m u.
  Proof. intros [g ts H E Hb]. apply buckets_some in Hb as (us & Hb). eexists. apply group_is; eassumption. Qed.
  Lemma group_loop_some m : group_loop Q m -> group_loop R m.
  Proof. intros (H & g & E & Hb). split; [exact H|]. exists g. split; [exact E|now apply buckets_loop_some]. Qed.
  Lemma frow_some m ts : frow_shown Q m ts -> exists us, frow_shown R m us.
  Proof. intros [us H]. apply rule_some in H as (vs & H). eexists. apply frow_is; eassumption. Qed.
  Lemma fmsg_some m ts : fmsg_shown Q m ts -> exists us, fmsg_shown R m us.
  Proof. intros (A & B & C & H). apply (entries_some _ _ _ (frow_shown R)) in H as (us & H); [|apply frow_some]. exists us. now repeat split. Qed.
  Lemma fmsg_stuck_some m : fmsg_stuck Q m -> fmsg_stuck R m.
  Proof. intros (A & B & C & H). repeat split; auto. revert H. apply eloop_some; [apply frow_some|intros z; apply rule_stuck_some]. Qed.
  Lemma drow_some m ts : drow_shown Q m ts -> exists us, drow_shown R m us.
  Proof. intros [g us A B H]. apply buckets_some in H as (vs & H). eexists. apply drow_is; eassumption. Qed.
  Lemma drow_stuck_some m : drow_stuck Q m -> drow_stuck R m.
  Proof. intros (A & g & E & H). split; [exact A|]. exists g. split; [exact E|now apply buckets_loop_some]. Qed.
  Lemma dmsg_some m ts : dmsg_shown Q m ts -> exists us, dmsg_shown R m us.
  Proof.
    intros (A & B & [[C H]|[C K]]); [|exists []; repeat split; auto]. apply (entries_some _ _ _ (drow_shown R)) in H as (us & H); [|apply drow_some]. exists us. repeat split; auto.
  Qed.
  Lemma dmsg_stuck_some m : dmsg_stuck Q m -> dmsg_stuck R m.
  Proof. intros (A & B & C & H). repeat split; auto. revert H. apply eloop_some; [apply drow_some|apply drow_stuck_some]. Qed.
End Some.
Lemma messages_some (R S : bytes -> list text -> Prop) m ts : (forall m ts, R m ts -> exists us, S m us) -> messages R m ts -> exists us, messages S m us.
Proof. intros RS. apply entries_some. intros z us [A B]. apply RS in B as (vs & B). eauto. Qed.
Lemma mloop_some (R S : bytes -> list text -> Prop) (D E : bytes -> Prop) m : (forall m ts, R m ts -> exists us, S m us) -> (forall m, D m -> E m) -> messages_loop R D m -> messages_loop S E m.
Proof. intros RS DE. apply eloop_some; [|intros z [A B]; auto]. intros z us [A B]. apply RS in B as (vs & B). eauto. Qed.
Lemma qpt_ex p : exists u, qpt p u.
Proof. now exists (b2a_qp p). Qed.
Lemma quoted_ex p : exists u, quoted p u.
Proof. exists (b2a_qp p). apply b2a_qp_quoted. Qed.
Lemma qpt_quoted p u : qpt p u -> quoted p u.
Proof. intros ->. apply b2a_qp_quoted. Qed.
