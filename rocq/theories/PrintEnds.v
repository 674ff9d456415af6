(** The printers end on everything the readers return. *)
From Coq Require Import Strings.Ascii.
From Verif Require Import Base PyNum Util PyLib OxmCodec OxmTables Oxm Nx Ofp4 Spec SpecOxm SpecShow SpecOfp SpecMp SpecShowOfp SpecShowMsg.
From Verif Require Import BaseFacts OxmFacts ActBase ActFrame FlowMod FlowFrame GroupFrame MpFrame MpDenote ShowMsg2.

(** entries that say how long they are *)
Lemma loop_framed (short : bytes -> Prop) size one stuck (P : bytes -> Prop) : short [] -> (forall b r, P b -> size (b ++ r) = length b /\ b <> [] /\ ~ stuck (b ++ r)) ->
  forall m, entries_loop short size one stuck m -> forall bs, m = concat bs -> Forall P bs -> False.
Proof.
  intros Hs Hp m H. induction H as [m ts Hn Ho Hz|m Hn Hk|m ts Hn Ho Hl IH]; intros bs -> Hb; (destruct Hb as [|b bs Hb Hbs]; [now apply Hn|]); cbn [concat] in *; destruct (Hp b (concat bs) Hb) as (H1 & H2 & H3).
  - rewrite H1 in Hz. destruct b; [now apply H2|discriminate].
  - contradiction.
  - apply (IH bs); auto. rewrite H1, skipn_app, Nat.sub_diag, skipn_all. reflexivity.
Qed.
Lemma num2 v : 0 <= v <= 65535 -> num_be (be 2 v) = v.
Proof. intros H. apply in_bytes_num. unfold in_bytes. change (256 ^ Z.of_nat 2) with 65536. lia. Qed.
Lemma len2_at t n p r : Z.of_nat n <= 65535 -> len2 ((be 2 t ++ be 2 (Z.of_nat n) ++ p) ++ r) = n.
Proof. intros H. unfold len2. change (word 2 2 ((be 2 t ++ be 2 (Z.of_nat n) ++ p) ++ r)) with (num_be (be 2 (Z.of_nat n))). rewrite num2 by lia. apply Nat2Z.id. Qed.
Lemma len0_at n p r : Z.of_nat n <= 65535 -> len0 ((be 2 (Z.of_nat n) ++ p) ++ r) = n.
Proof. intros H. unfold len0. change (word 2 0 ((be 2 (Z.of_nat n) ++ p) ++ r)) with (num_be (be 2 (Z.of_nat n))). rewrite num2 by lia. apply Nat2Z.id. Qed.
Lemma part_from a b (m h x r : bytes) : m = h ++ x ++ r -> a = length h -> b = (length h + length x)%nat -> part_of a b m = x.
Proof.
  intros -> -> ->. unfold part_of. replace (length h + length x - length h)%nat with (length x) by lia. rewrite skipn_app, skipn_all, Nat.sub_diag. cbn [app skipn].
  rewrite firstn_app, firstn_all, Nat.sub_diag. cbn [firstn]. apply app_nil_r.
Qed.
(** ** Actions *)
Lemma item_length b : act_item b -> b <> [] /\ forall r, entry_len (b ++ r) = length b.
Proof.
  intros (name & k & _ & (L & F) & _). assert (E : exists t p, b = be 2 t ++ be 2 (Z.of_nat (length b)) ++ p) by (destruct k as [t|t]; destruct F as [p F]; [exists t, p|exists 0xffff, (be 4 0x2320 ++ be 2 t ++ p)]; exact F).
  destruct E as (t & p & E). split; [intros ->; discriminate E|]. intros r. change (entry_len (b ++ r)) with (len2 (b ++ r)). rewrite E at 1. now apply len2_at.
Qed.
Lemma acts_end Q m : acts_loop Q m -> forall l, m = concat l -> Forall act_item l -> False.
Proof.
  induction 1 as [m t Hn Ho Hz|m t Hn Ho Hl IH]; intros bs -> Hb; (destruct Hb as [|b bs Hb Hbs]; [cbn in Hn; lia|]); cbn [concat] in *; destruct (item_length b Hb) as (H1 & H2).
  - rewrite H2 in Hz. destruct b; [now apply H1|discriminate].
  - apply (IH bs); auto. rewrite H2, skipn_app, Nat.sub_diag, skipn_all. reflexivity.
Qed.
(** ** Instructions *)
Lemma instr_end Q b r : instr_framed b -> len2 (b ++ r) = length b /\ b <> [] /\ ~ inst_stuck Q (b ++ r).
Proof.
  intros (L & t & p & Ht & E & Hp). assert (H1 : len2 (b ++ r) = length b) by (rewrite E at 1; now apply len2_at). split; [exact H1|]. split; [intros ->; discriminate E|].
  intros (Hw & _ & Hl). assert (Et : word 2 0 (b ++ r) = t) by (rewrite E; change (num_be (be 2 t) = t); apply num2; lia). rewrite Et in Hw. destruct (Hp Hw) as (l & Hi & ->).
  apply (acts_end _ _ Hl l); [|exact Hi]. unfold acts_part. rewrite H1. apply part_from with (h := be 2 t ++ be 2 (Z.of_nat (length b)) ++ pad 4) (r := r).
  - rewrite E at 1. rewrite <- !app_assoc. reflexivity.
  - reflexivity.
  - rewrite E at 1. rewrite !app_length, !be_length. change (length (pad 4)) with 4%nat. lia.
Qed.
Lemma insts_end Q bs : insts_loop Q (concat bs) -> Forall instr_framed bs -> False.
Proof. intros H Hb. apply (loop_framed _ _ _ _ _ (Nat.lt_0_succ _ : below 5 []) (fun b r => instr_end Q b r) _ H bs eq_refl Hb). Qed.
(** ** Flow rules *)
Lemma rule_end Q n m h ts bs r : m = h ++ match_wire ts ++ concat bs ++ r -> length h = 48%nat -> n = (48 + length (match_wire ts) + length (concat bs))%nat ->
  Z.of_nat n <= 65535 -> Forall instr_framed bs -> ~ rule_stuck Q n m.
Proof.
  intros Em Hh Hn Hz Hb (_ & _ & Hl).
  assert (Ml : match_len m = (4 + length (flat_map wire ts))%nat).
  { unfold match_len, word. rewrite Em. rewrite skipn_app, Hh. change (50 - 48)%nat with 2%nat. rewrite (skipn_all2 h) by lia. cbn [app].
    change (Z.to_nat (num_be (be 2 (Z.of_nat (4 + length (flat_map wire ts))))) = (4 + length (flat_map wire ts))%nat). rewrite num2; [apply Nat2Z.id|].
    rewrite match_length in Hn. pose proof (align8_ge (4 + length (flat_map wire ts))). lia. }
  rewrite Ml, <- align8_up, <- match_length in Hl.
  assert (Ep : part_of (48 + length (match_wire ts)) n m = concat bs).
  { apply part_from with (h := h ++ match_wire ts) (r := r); [rewrite Em, <- !app_assoc; reflexivity| |]; rewrite app_length, Hh; [reflexivity|exact Hn]. }
  rewrite Ep in Hl. now apply (insts_end Q bs).
Qed.
Theorem flow_ends Q s cmd xid m : str2mod s cmd xid = Ok m -> ~ flow_loop Q m.
Proof.
  intros H. apply mod_sound in H as (ps & x & ts & bs & _ & _ & _ & _ & _ & _ & _ & _ & Hb & Hz & Em). intros (_ & Hs). revert Hs.
  assert (Hh : length (mod_head cmd xid (Z.of_nat (length m)) x) = 48%nat) by (unfold mod_head; rewrite !app_length, !be_length; reflexivity).
  assert (Hn : length m = (48 + length (match_wire ts) + length (concat bs))%nat) by (rewrite Em at 1; rewrite !app_length, Hh; lia).
  assert (El : len2 m = length m).
  { unfold len2. replace (word 2 2 m) with (num_be (be 2 (Z.of_nat (length m)))) by (rewrite Em at 2; reflexivity). rewrite num2 by lia. apply Nat2Z.id. }
  rewrite El. apply rule_end with (h := mod_head cmd xid (Z.of_nat (length m)) x) (ts := ts) (bs := bs) (r := []); auto. rewrite app_nil_r. exact Em.
Qed.
(** ** Groups *)
Lemma bucket_end Q b : bucket_framed b -> ~ bucket_stuck Q b.
Proof.
  intros (L & w & p & g & l & E & _ & _ & _ & Hi) (_ & Hl). apply (acts_end _ _ Hl l); [|exact Hi].
  apply part_from with (h := be 2 (Z.of_nat (length b)) ++ be 2 w ++ be 4 p ++ be 4 g ++ pad 4) (r := []); [rewrite app_nil_r; rewrite E at 1; rewrite <- !app_assoc; reflexivity|reflexivity|].
  assert (El : len0 b = length b) by (rewrite <- (app_nil_r b) at 1; rewrite E at 1; now apply len0_at). rewrite El. rewrite E at 1. rewrite !app_length, !be_length. change (length (pad 4)) with 4%nat. lia.
Qed.
Lemma bucket_len b r : bucket_framed b -> len0 (b ++ r) = length b /\ b <> [].
Proof. intros (L & w & p & g & l & E & _). split; [rewrite E at 1; now apply len0_at|intros ->; discriminate E]. Qed.
Lemma buckets_end Q min g bs : (0 < min)%nat -> buckets_loop Q min g (concat bs) -> Forall bucket_framed bs -> False.
Proof.
  intros Hm H Hb. refine (loop_framed _ _ _ _ bucket_framed _ _ _ H bs eq_refl Hb); [exact Hm|]. intros b r Hf. destruct (bucket_len b r Hf) as [H1 H2]. split; [exact H1|]. split; [exact H2|].
  rewrite H1, firstn_app, firstn_all, Nat.sub_diag. cbn [firstn]. rewrite app_nil_r. now apply bucket_end.
Qed.
Theorem group_ends Q s cmd xid m : str2group s cmd xid = Ok m -> ~ group_loop Q m.
Proof.
  intros H. apply group_framed in H as (L & t & id & bs & E & Hb & _). intros (_ & g & _ & Hl). apply (buckets_end Q 17 g bs); [lia| |exact Hb].
  replace (concat bs) with (skipn 16 m) by (rewrite E; reflexivity). exact Hl.
Qed.
(** ** Multipart messages *)
Lemma one_message_end one stuck m : len2 m = length m -> ~ stuck m -> ~ messages_loop one stuck m.
Proof.
  intros E Hs H. assert (F : firstn (len2 m) m = m) by (rewrite E; apply firstn_all). inversion H as [? ts Hn Ho Hz|? Hn [_ Hk]|? ts Hn Ho Hl]; subst.
  - rewrite E in Hz. apply Hn. now destruct m.
  - rewrite F in Hk. contradiction.
  - rewrite E, skipn_all in Hl. inversion Hl; subst; congruence.
Qed.
Lemma mp_framed_len type xid mt body m : mp_framed type xid mt body m -> len2 m = length m /\ mp_part m = body /\ word 1 1 m = type.
Proof.
  intros (E & Ht & _ & L). assert (Hn : length m = (16 + length body)%nat) by (rewrite E; unfold mp_wire; rewrite !app_length, !be_length; reflexivity).
  assert (El : len2 m = length m).
  { unfold len2. replace (word 2 2 m) with (num_be (be 2 (Z.of_nat (16 + length body)))) by (rewrite E; reflexivity). rewrite num2 by lia. rewrite Nat2Z.id. auto. }
  split; [exact El|]. split; [|rewrite E; change (num_be (be 1 type) = type); now apply in_bytes_num].
  unfold mp_part. rewrite El, Hn. apply part_from with (h := firstn 16 m) (r := []); rewrite ?app_nil_r; [rewrite E; reflexivity|rewrite E; reflexivity|rewrite E; reflexivity].
Qed.
Lemma fentry_end Q b r : fentry_framed b -> len0 (b ++ r) = length b /\ b <> [] /\ ~ rule_stuck Q (len0 (b ++ r)) (b ++ r).
Proof.
  intros (L & pc & bc & sec & nsec & x & ts & bs & E & _ & Hb). assert (El : len0 (b ++ r) = length b) by (rewrite E at 1; now apply len0_at). split; [exact El|]. split; [intros ->; discriminate E|]. rewrite El.
  set (h := be 2 (Z.of_nat (length b)) ++ be 1 (x_table x) ++ pad 1 ++ be 4 sec ++ be 4 nsec ++ be 2 (x_priority x) ++ be 2 (x_idle x) ++ be 2 (x_hard x) ++ be 2 (x_flags x) ++ pad 4 ++ be 8 (x_cookie x) ++ be 8 pc ++ be 8 bc).
  assert (Eh : b = h ++ match_wire ts ++ concat bs) by (unfold h; rewrite <- !app_assoc; exact E).
  assert (Hh : length h = 48%nat) by (unfold h; rewrite !app_length, !be_length; reflexivity). clearbody h.
  apply rule_end with (h := h) (ts := ts) (bs := bs) (r := r); auto; [rewrite Eh, <- !app_assoc; reflexivity|]. rewrite Eh, !app_length, Hh. lia.
Qed.
Theorem mpflow_ends Q s type xid m : text2mpflow s type xid = Ok m -> ~ messages_loop (fmsg_shown Q) (fmsg_stuck Q) m.
Proof.
  intros H. apply mpflow_framed in H as (bs & Hm & _ & Hb). destruct (mp_framed_len _ _ _ _ _ Hm) as (H1 & H2 & H3). apply one_message_end; [exact H1|].
  intros (_ & _ & Hr & Hl). unfold is_reply in Hr. rewrite H3 in Hr. rewrite Hr in Hb. change (19 =? 19) with true in Hb. cbn match in Hb. rewrite H2 in Hl.
  refine (loop_framed _ _ _ _ fentry_framed _ _ _ Hl bs eq_refl Hb); [cbn; unfold below; cbn; lia|]. intros b r. apply fentry_end.
Qed.
Lemma dentry_end Q b r : dentry_framed b -> len0 (b ++ r) = length b /\ b <> [] /\ ~ drow_stuck Q (b ++ r).
Proof.
  intros (L & t & id & bs & E & Hb & _). assert (El : len0 (b ++ r) = length b) by (rewrite E at 1; now apply len0_at). split; [exact El|]. split; [intros ->; discriminate E|].
  intros (_ & g & _ & Hl). rewrite El in Hl. apply (buckets_end Q 16 g bs); [lia| |exact Hb]. replace (concat bs) with (part_of 8 (length b) (b ++ r)); [exact Hl|].
  apply part_from with (h := be 2 (Z.of_nat (length b)) ++ be 1 (gtype_id t) ++ pad 1 ++ be 4 id) (r := r); [rewrite E at 1; rewrite <- !app_assoc; reflexivity|reflexivity|].
  rewrite E at 1. rewrite !app_length, !be_length. change (length (pad 1)) with 1%nat. lia.
Qed.
Theorem mpgroupdesc_ends Q s type xid m : text2mpgroupdesc s type xid = Ok m -> ~ messages_loop (dmsg_shown Q) (dmsg_stuck Q) m.
Proof.
  intros H. destruct (Z.eq_dec type 19) as [->|Ht].
  - apply mpgroupdesc_framed in H as (bs & Hm & _ & Hb). destruct (mp_framed_len _ _ _ _ _ Hm) as (H1 & H2 & H3). apply one_message_end; [exact H1|].
    intros (_ & _ & _ & Hl). rewrite H2 in Hl. refine (loop_framed _ _ _ _ dentry_framed _ _ _ Hl bs eq_refl Hb); [unfold below; cbn; lia|]. intros b r. apply dentry_end.
  - apply mpgroupdesc_request_framed in H; [|exact Ht]. destruct (mp_framed_len _ _ _ _ _ H) as (H1 & H2 & H3). apply one_message_end; [exact H1|].
    intros (_ & _ & Hr & _). unfold is_reply in Hr. congruence.
Qed.
