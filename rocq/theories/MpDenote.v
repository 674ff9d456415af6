(** Every accepted multipart text stands for a list of entries. *)
From Coq Require Import Strings.Ascii.
From Verif Require Import Base PyNum Util PyLib OxmCodec OxmTables Oxm Nx Ofp4 Spec SpecOxm SpecOfp SpecMp.
From Verif Require Import BaseFacts UtilFacts NumFacts OxmRead OxmPrint OxmFacts OxmFrame OxmMore TermFacts OfpTerm.
From Verif Require Import ActBase ActRead ActReadNx ActReadReg ActReadLearn ActPrint ActText ActFrame ActDenote FlowRead FlowMod FlowText FlowFrame FlowDenote.
From Verif Require Import GroupRead GroupText GroupFrame GroupDenote MpBase MpFlow MpGroup MpStat MpFrame.

(** ** The actions of a rule are in its instructions *)
Definition pends (pend : option (Z * bytes)) (b : bytes) : Prop := match pend with Some (_, a) => contains a b | None => False end.
Lemma finish_contains pend b : pends pend b -> contains (finish pend) b.
Proof. destruct pend as [[t a]|]; [|intros []]. intros H. cbn [finish pends] in *. unfold std_act. do 3 apply contains_app_l. exact H. Qed.
Lemma pending_contains ps : forall pend b, pends pend b -> contains (instr_parts pend ps) b.
Proof.
  induction ps as [|p ps IH]; intros pend b H; cbn [instr_parts]; [now apply finish_contains|].
  destruct p; try (apply IH; exact H); try (apply contains_app_r, finish_contains; exact H).
  apply IH. destruct pend as [[t c]|]; [|exact H]. now apply contains_app_r.
Qed.
Lemma part_contains w s ps : accepted w s ps -> forall pend name b, In (PAct name b) ps -> (w = AtAction -> pend <> None) ->
  contains (instr_parts pend ps) b /\ exists k, act_named name k /\ act_framed k b.
Proof.
  induction 1 as [w|h name x r ps Hh Hn He Ha IH|h name x r ps b Hh He Hf Ha IH|w h nm x r ps i Hh Hn Hi He Ha IH|w h nm t r ps Hh Hn He Ha IH
    |h name x r ps k b Hh Hn Hk Hd Hx Ha IH|h r ps Hh Ha IH]; intros pend n0 b0 Hin Hw; cbn [instr_parts]; [destruct Hin|..];
    (destruct Hin as [E|Hin]; [try discriminate E|]).
  - apply IH with (name := n0); auto; discriminate.
  - apply IH with (name := n0); auto; discriminate.
  - destruct (IH None n0 b0 Hin) as [K1 K2]; [discriminate|]. split; [|exact K2]. do 2 apply contains_app_l. exact K1.
  - destruct (IH (Some (t, [])) n0 b0 Hin) as [K1 K2]; [discriminate|]. split; [|exact K2]. now apply contains_app_l.
  - injection E as <- <-. split; [|eauto]. destruct pend as [[t c]|]; [|now destruct (Hw eq_refl)]. apply pending_contains. cbn [pends]. exists c, []. now rewrite app_nil_r.
  - apply IH with (name := n0); auto. intros _. destruct pend as [[? ?]|]; [discriminate|now apply Hw].
  - apply IH with (name := n0); auto.
Qed.
Lemma regular_or ps : regular ps \/ exists name b, In (PAct name b) ps /\ (In name special_names \/ b = padded_act 25 []).
Proof.
  induction ps as [|p ps IH]; [left; intros n b []|]. destruct IH as [IH|(n & b & Hi & Hb)]; [|right; exists n, b; split; [now right|exact Hb]].
  assert (K : (forall n b, p <> PAct n b) -> regular (p :: ps)) by (intros K n b [E|Hi]; [now destruct (K n b)|auto]).
  destruct p; try (left; apply K; discriminate).
  destruct (in_dec (list_eq_dec Z.eq_dec) name special_names) as [Hs|Hs]; [right; exists name, b; split; [now left|auto]|].
  destruct (list_eq_dec Byte.byte_eq_dec b (padded_act 25 [])) as [Hb|Hb]; [right; exists name, b; split; [now left|auto]|].
  left. intros n0 b0 [E|Hi]; [injection E as <- <-; auto|auto].
Qed.
Lemma parts_cases s ps : accepted AtEntry s ps ->
  (exists b, irregular b /\ contains (instr_parts None ps) b) \/ exists is, instr_parts None ps = instrs_wire is /\ Forall instr_known is.
Proof.
  intros A. destruct (regular_or ps) as [Hr|(n & b & Hi & Hb)].
  - right. apply (parts_known _ _ _ A None I); [discriminate|exact Hr].
  - left. destruct (part_contains _ _ _ A None n b Hi) as (Hc & k & Hk & Hf); [discriminate|]. exists b. split; [|exact Hc].
    destruct Hb as [Hb|Hb]; [right; eauto|left; exact Hb].
Qed.

(** ** Flow statistics *)
Definition seen (x : fixedp) : fixedp := Fixed (x_cookie x) 0 (x_table x) (x_priority x) (x_idle x) (x_hard x) 0 0 0 (x_flags x).
Lemma instrs_in i is : In i is -> (length (instr_wire i) <= length (instrs_wire is))%nat.
Proof. intros Hi. apply in_split in Hi as (a & b & ->). rewrite instrs_wire_app. cbn [instrs_wire flat_map]. rewrite !app_length. lia. Qed.
Lemma known_instrs is : Forall instr_known is -> no_short is -> Z.of_nat (length (instrs_wire is)) <= 65535 -> Forall instr_ok is.
Proof.
  intros His Hs L. apply Forall_forall. intros i Hi. pose proof (proj1 (Forall_forall _ _) His i Hi) as K. pose proof (instrs_in i is Hi) as Li.
  assert (Lz : Z.of_nat (length (instr_wire i)) <= 65535) by lia.
  destruct i as [t|v mm|l|l| |t]; try exact K; (split; [|exact Lz]); apply Forall_forall; intros a Ha.
  - destruct (proj1 (Forall_forall _ _) K a Ha) as [[Ho|Ho] _]; [exact Ho|]. destruct (Hs (WriteActions l) a Hi Ha Ho).
  - destruct (proj1 (Forall_forall _ _) K a Ha) as [[Ho|Ho] _]; [exact Ho|]. destruct (Hs (ApplyActions l) a Hi Ha Ho).
Qed.
Lemma fstat_length e : length (fstat_wire e) = (48 + length (match_wire (fs_match e) ++ instrs_wire (fs_instrs e)))%nat.
Proof. unfold fstat_wire. rewrite !app_length, !be_length. change (length (pad 1)) with 1%nat. change (length (pad 4)) with 4%nat. lia. Qed.
Lemma fstat_known_ok e : fstat_known e -> no_short (fs_instrs e) -> fstat_ok e.
Proof.
  intros (A1 & A2 & A3 & A4 & A5 & _ & _ & _ & _ & _ & _ & A6 & A7) Hs. unfold fstat_ok. do 5 (split; [assumption|]). split; [|exact A7].
  apply known_instrs; auto. rewrite fstat_length, app_length in A7. lia.
Qed.
Lemma fbody_cases ci b s : mpflow_parse s = Ok ci -> mpflow_body 19 ci = Ok b -> (exists c, irregular c /\ contains b c) \/ exists e, b = fstat_wire e /\ fstat_known e.
Proof.
  destruct ci as [c i]. intros Hp H. unfold mpflow_parse in Hp. destruct (counters_go _ _ _ _) as [[c' s']|e|]; cbn [bind] in Hp; try discriminate. mons Hp. injection Hp as -> ->.
  destruct (dict_sound _ _ Ea) as (ps & A1 & A2 & A3 & A4). destruct (parts_tlvs _ _ _ A1) as (ts & T1 & T2).
  unfold mpflow_body in H. rewrite A2, T1, A3 in H. change (negb (19 =? 19)) with false in H. cbn match in H. mons H. rename a into mb, a0 into hd.
  apply match_block_inv in Ea0. change (mb = match_wire ts) in Ea0. subst mb. assert (Eb : b = hd ++ match_wire ts ++ instr_parts None ps) by congruence. clear H. subst b.
  destruct (parts_cases _ _ A1) as [(x & Hx & Hc)|(is & E & His)]; [left; exists x; split; [exact Hx|]; now do 2 apply contains_app_l|]. right. rewrite E in *.
  unfold mpflow_fmt in Ea1. set (L := 48 + Z.of_nat (length (match_wire ts)) + Z.of_nat (length (instrs_wire is))) in *.
  apply pack_u_inv in Ea1 as (HL & b0 & Ea1 & ->). apply pack_u_inv in Ea1 as (H1 & b1 & Ea1 & ->). apply pack_x_inv in Ea1 as (b2 & Ea1 & ->).
  apply pack_u_inv in Ea1 as (H2 & b3 & Ea1 & ->). apply pack_u_inv in Ea1 as (H3 & b4 & Ea1 & ->). apply pack_u_inv in Ea1 as (H4 & b5 & Ea1 & ->).
  apply pack_u_inv in Ea1 as (H5 & b6 & Ea1 & ->). apply pack_u_inv in Ea1 as (H6 & b7 & Ea1 & ->). apply pack_u_inv in Ea1 as (H7 & b8 & Ea1 & ->).
  apply pack_x_inv in Ea1 as (b9 & Ea1 & ->). apply pack_u_inv in Ea1 as (H8 & b10 & Ea1 & ->). apply pack_u_inv in Ea1 as (H9 & b11 & Ea1 & ->).
  apply pack_u_inv in Ea1 as (H10 & b12 & Ea1 & ->). apply pack_nil_inv in Ea1 as ->.
  exists (FStat (Ofp4.counter c $"packet_count") (Ofp4.counter c $"byte_count") (Ofp4.counter c $"duration_sec") (Ofp4.counter c $"duration_nsec") (seen (view read_defaults i)) ts is).
  assert (EL : L = Z.of_nat (48 + length (match_wire ts ++ instrs_wire is))) by (unfold L; rewrite app_length; lia).
  assert (HB : L <= 65535) by (clear -HL; clearbody L; change (0 <= L < 65536) in HL; lia).
  split.
  - unfold fstat_wire. cbn [fs_packets fs_bytes fs_sec fs_nsec fs_fixed fs_match fs_instrs]. rewrite <- EL. rewrite <- !app_assoc. reflexivity.
  - unfold fstat_known. rewrite fstat_length. cbn [fs_packets fs_bytes fs_sec fs_nsec fs_fixed fs_match fs_instrs]. rewrite <- EL.
    do 4 (split; [assumption|]). split.
    { unfold fixed_ok, seen, view. cbn [x_cookie x_mask x_table x_priority x_idle x_hard x_buffer x_port x_group x_flags].
      assert (Z0 : forall n, in_bytes n 0) by (intros n; unfold in_bytes; pose proof (Z.pow_pos_nonneg 256 (Z.of_nat n)); lia).
      repeat (split; [first [assumption|apply Z0]|]). assumption. }
    do 4 (split; [reflexivity|]). split; [|split; [exact T2|split; [exact His|exact HB]]].
    destruct (view_defaulted _ _ read_defaults A4 eq_refl) as (_ & _ & _ & _ & _ & _ & _ & _ & Ef). cbn [seen x_flags]. rewrite Ef. apply flags_named_range.
Qed.
Lemma concat_contains {A} (f : A -> bytes) (P : A -> Prop) bs : Forall (fun b => (exists c, irregular c /\ contains b c) \/ exists e, b = f e /\ P e) bs ->
  (exists c, irregular c /\ contains (concat bs) c) \/ exists l, bs = map f l /\ Forall P l.
Proof.
  induction 1 as [|b bs Hb Hbs IH]; [right; exists []; auto|]. cbn [concat].
  destruct Hb as [(c & Hc & Hin)|(e & -> & He)]; [left; exists c; auto using contains_app_r|].
  destruct IH as [(c & Hc & Hin)|(l & -> & Hl)]; [left; exists c; auto using contains_app_l|]. right. exists (e :: l). auto.
Qed.
Lemma mp_contains type xid mt fl body c : contains body c -> contains (mp_wire type xid mt fl body) c.
Proof. intros H. unfold mp_wire. do 7 apply contains_app_l. exact H. Qed.
Theorem mpflow_denotes txt xid m : text2mpflow txt 19 xid = Ok m ->
  (exists b, irregular b /\ contains m b)
  \/ exists l, m = mp_wire 19 xid 1 0 (fstats_wire l) /\ length l = line_count txt /\ in_bytes 4 xid /\ Z.of_nat (length m) <= 65535 /\ Forall fstat_known l.
Proof.
  unfold text2mpflow. intros H. mons H. apply message_inv in H as (bs & Hb & Hm & H1 & H2 & H3). rewrite <- split_count.
  destruct (bodies_framed 19 (fun b => (exists c, irregular c /\ contains b c) \/ exists e, b = fstat_wire e /\ fstat_known e) _ _ _ Ea Hb) as [Hf Hl]; [intros s ci b; apply fbody_cases|].
  destruct (concat_contains _ _ _ Hf) as [(c & Hc & Hin)|(l & -> & Hk)]; [left; exists c; split; [exact Hc|]; rewrite Hm; now apply mp_contains|].
  right. exists l. unfold fstats_wire. rewrite flat_map_concat_map. rewrite map_length in Hl. auto.
Qed.

(** ** Group descriptions *)
Lemma gdesc_length e : length (gdesc_wire e) = (8 + length (buckets_wire (gd_buckets e)))%nat.
Proof. unfold gdesc_wire. rewrite !app_length, !be_length. change (length (pad 1)) with 1%nat. lia. Qed.
Lemma gdesc_known_ok e : gdesc_known e -> no_short_in (gd_buckets e) -> gdesc_ok e.
Proof.
  intros (A1 & A2 & A3) Hs. split; [exact A1|]. split; [|exact A3]. rewrite gdesc_length in A3.
  apply Forall_forall. intros b Hi. pose proof (proj1 (Forall_forall _ _) A2 b Hi) as (K1 & K2 & K3 & K4).
  assert (Lb : Z.of_nat (length (bucket_wire b)) <= 65535).
  { apply in_split in Hi as (x & y & Ey). rewrite Ey in A3. unfold buckets_wire in A3. rewrite flat_map_app in A3. cbn [flat_map] in A3. rewrite !app_length in A3. lia. }
  unfold bucket_ok. do 3 (split; [assumption|]). split; [|exact Lb]. apply Forall_forall. intros a Ha.
  destruct (proj1 (Forall_forall _ _) K4 a Ha) as [[Ho|Ho] _]; [exact Ho|]. destruct (Hs b a Hi Ha Ho).
Qed.
Lemma dentry_cases b : dentry_framed b -> (exists c, irregular c /\ contains b c) \/ exists e, b = gdesc_wire e /\ gdesc_known e.
Proof.
  intros (L & t & id & bs & E & Hb & Hid). destruct (buckets_cases _ Hb) as [(c & Hc & Hin)|(ks & Ek & Hk)].
  - left. exists c. split; [exact Hc|]. rewrite E. do 4 apply contains_app_l. exact Hin.
  - right. exists (GDesc t id ks). rewrite Ek in E.
    assert (Em : b = gdesc_wire (GDesc t id ks)).
    { unfold gdesc_wire. cbn [gd_type gd_id gd_buckets]. rewrite E at 1. do 2 f_equal. rewrite E, !app_length, !be_length. change (length (pad 1)) with 1%nat. lia. }
    split; [exact Em|]. split; [exact Hid|]. split; [exact Hk|]. now rewrite <- Em.
Qed.
Theorem mpgroupdesc_denotes txt xid m : text2mpgroupdesc txt 19 xid = Ok m ->
  (exists b, irregular b /\ contains m b)
  \/ exists l, m = mp_wire 19 xid 7 0 (gdescs_wire l) /\ length l = line_count txt /\ in_bytes 4 xid /\ Z.of_nat (length m) <= 65535 /\ Forall gdesc_known l.
Proof.
  intros H. apply mpgroupdesc_framed in H as (bs & (Hm & H1 & H2 & H3) & Hl & Hb).
  assert (Hf : Forall (fun b => (exists c, irregular c /\ contains b c) \/ exists e, b = gdesc_wire e /\ gdesc_known e) bs) by (eapply Forall_impl; [|exact Hb]; exact dentry_cases).
  destruct (concat_contains _ _ _ Hf) as [(c & Hc & Hin)|(l & -> & Hk)]; [left; exists c; split; [exact Hc|]; rewrite Hm; now apply mp_contains|].
  right. exists l. unfold gdescs_wire. rewrite flat_map_concat_map. rewrite map_length in Hl. auto.
Qed.
