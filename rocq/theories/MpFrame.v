(** The framing of what text2mpflow, text2mpgroupdesc and text2mpgroup return, for every text. *)
From Coq Require Import Strings.Ascii.
From Verif Require Import Base PyNum Util PyLib OxmCodec OxmTables Oxm Nx Ofp4 Spec SpecOxm SpecOfp SpecMp.
From Verif Require Import BaseFacts UtilFacts NumFacts OxmRead OxmPrint OxmFacts OxmFrame OxmMore TermFacts OfpTerm.
From Verif Require Import ActBase ActRead ActReadNx ActReadReg ActReadLearn ActPrint ActText ActFrame FlowRead FlowMod FlowText FlowFrame GroupRead GroupText GroupFrame MpBase MpFlow MpGroup MpStat.

Lemma split_count s : length (split_all 10 s) = line_count s.
Proof.
  unfold line_count. induction s as [|c s IH]; [reflexivity|]. cbn [split_all count_occ]. destruct (Z.eqb_spec c 10) as [->|Hc].
  - destruct (Z.eq_dec 10 10); [|congruence]. cbn [length]. now rewrite IH.
  - destruct (Z.eq_dec c 10); [congruence|]. destruct (split_all 10 s) as [|x l]; [discriminate|]. exact IH.
Qed.
Lemma capture_inv bodies : forall c r, mp_capture c bodies = Ok r -> exists bs, bodies = map Ok bs /\ r = c ++ concat bs.
Proof.
  induction bodies as [|b bodies IH]; intros c r H; cbn [mp_capture] in H; [exists []; split; [reflexivity|]; cbn; rewrite app_nil_r; congruence|].
  destruct b as [b|e|]; cbn [bind] in H; try discriminate. destruct (_ <? _); [discriminate|]. destruct (IH _ _ H) as (bs & -> & ->). exists (b :: bs). split; [reflexivity|]. cbn [concat]. now rewrite app_assoc.
Qed.
Lemma hdr_inv type xid mt fl c h : mp_hdr type xid mt fl c = Ok h -> in_bytes 1 type /\ in_bytes 4 xid /\ Z.of_nat (16 + length c) <= 65535 /\ h ++ c = mp_wire type xid mt fl c.
Proof.
  unfold mp_hdr, mp_fmt. intros E. apply pack_u_inv in E as (_ & ? & E & ->). apply pack_u_inv in E as (H1 & ? & E & ->). apply pack_u_inv in E as (H2 & ? & E & ->). apply pack_u_inv in E as (H3 & ? & E & ->).
  apply pack_u_inv in E as (_ & ? & E & ->). apply pack_u_inv in E as (_ & ? & E & ->). apply pack_x_inv in E as (? & E & ->). apply pack_nil_inv in E as ->.
  split; [exact H1|]. split; [exact H3|]. split; [unfold in_bytes in H2; cbn in H2; lia|]. unfold mp_wire. rewrite <- !app_assoc. replace (Z.of_nat (16 + length c)) with (16 + Z.of_nat (length c)) by lia. reflexivity.
Qed.
Lemma message_inv type xid mt bodies m : mp_message type xid mt bodies = Ok m -> exists bs, bodies = map Ok bs /\ m = mp_wire type xid mt 0 (concat bs)
  /\ in_bytes 1 type /\ in_bytes 4 xid /\ Z.of_nat (length m) <= 65535.
Proof.
  unfold mp_message. intros H. mons H. apply capture_inv in Ea as (bs & -> & ->). cbn [app] in *. apply hdr_inv in Ea0 as (H1 & H2 & H3 & H4). exists bs. assert (m = a0 ++ concat bs) as -> by congruence.
  rewrite H4, mp_length. auto.
Qed.
Lemma mapped_all {A B} (f : A -> res B) (P : B -> Prop) l bs : map f l = map Ok bs -> (forall a b, f a = Ok b -> P b) -> Forall P bs /\ length bs = length l.
Proof.
  revert bs. induction l as [|a l IH]; intros [|b bs] H Hf; try discriminate; [split; [constructor|reflexivity]|]. cbn [map] in H. injection H as H1 H2. destruct (IH _ H2 Hf). split; [constructor; eauto|cbn; congruence].
Qed.
Lemma mapM_length {A B} (f : A -> res B) l : forall l', mapM f l = Ok l' -> length l' = length l.
Proof. induction l as [|a l IH]; intros l' H; cbn [mapM] in H; [injection H as <-; reflexivity|]. mons H. injection H as <-. cbn. f_equal. auto. Qed.

(** ** Flow statistics *)
Lemma parse_sound s c i : mpflow_parse s = Ok (c, i) -> exists ts bs, i_match i = flat_map wire ts /\ Forall known_tlv ts /\ i_inst i = concat bs /\ Forall block bs.
Proof.
  unfold mpflow_parse. intros H. destruct (counters_go _ _ _ _) as [[c' s']|e|]; cbn [bind] in H; try discriminate. mons H. injection H as <- <-.
  destruct (dict_sound _ _ Ea) as (ps & A1 & A2 & A3 & A4). destruct (parts_tlvs _ _ _ A1) as (ts & T1 & T2). destruct (parts_blocks _ _ _ A1 None I) as (bs & B1 & B2).
  exists ts, bs. rewrite A2, A3, T1, B1. auto.
Qed.
Ltac fields E := repeat first [apply pack_u_inv in E as (? & ? & E & ->) | apply pack_x_inv in E as (? & E & ->) | apply pack_nil_inv in E as ->].
Lemma fbody_sound ci b s : mpflow_parse s = Ok ci -> mpflow_body 19 ci = Ok b -> fentry_framed b.
Proof.
  destruct ci as [c i]. intros Hp H. destruct (parse_sound _ _ _ Hp) as (ts & bs & M & T & I & B). unfold mpflow_body in H. rewrite M, I in H. change (negb (19 =? 19)) with false in H. cbn match in H. mons H. rename a into mb, a0 into hd.
  apply match_block_inv in Ea. change (mb = match_wire ts) in Ea. subst mb. unfold mpflow_fmt in Ea0.
  set (L := 48 + Z.of_nat (length (match_wire ts)) + Z.of_nat (length (concat bs))) in *.
  apply pack_u_inv in Ea0 as (HL & b0 & Ea0 & ->). fields Ea0.
  match type of H with Ok ?t = Ok b => assert (Eb : b = t) by congruence end. clear H.
  assert (EL : L = Z.of_nat (length b)) by (subst b; unfold L; len).
  assert (HB : 0 <= L <= 65535) by (clear -HL; clearbody L; change (0 <= L < 65536) in HL; lia).
  split; [lia|]. rewrite <- EL. exists (Ofp4.counter c $"packet_count"), (Ofp4.counter c $"byte_count"), (Ofp4.counter c $"duration_sec"), (Ofp4.counter c $"duration_nsec"), (view read_defaults i), ts, bs.
  split; [rewrite Eb, <- !app_assoc; reflexivity|]. split; auto. apply blocks_framed; auto. unfold L in HB. lia.
Qed.
Lemma rbody_sound type ci b s : type <> 19 -> mpflow_parse s = Ok ci -> mpflow_body type ci = Ok b -> frequest_framed b.
Proof.
  destruct ci as [c i]. intros Ht Hp H. destruct (parse_sound _ _ _ Hp) as (ts & bs & M & T & I & B). unfold mpflow_body in H. rewrite M, I in H. destruct (Z.eqb_spec type 19); [congruence|]. cbn [negb] in H. mons H. rename a into mb, a0 into hd.
  apply match_block_inv in Ea. change (mb = match_wire ts) in Ea. subst mb. unfold mpflow_req_fmt in Ea0. fields Ea0. injection H as <-.
  exists (view request_defaults i), ts. split; auto.
Qed.
Lemma bodies_framed type (P : bytes -> Prop) ss cis bs : mapM mpflow_parse ss = Ok cis -> map (mpflow_body type) cis = map Ok bs ->
  (forall s ci b, mpflow_parse s = Ok ci -> mpflow_body type ci = Ok b -> P b) -> Forall P bs /\ length bs = length ss.
Proof.
  intros H1 H2 HP. revert cis bs H1 H2. induction ss as [|s ss IH]; intros cis bs H1 H2; cbn [mapM] in H1.
  - injection H1 as <-. destruct bs; [split; [constructor|reflexivity]|discriminate].
  - mons H1. injection H1 as <-. destruct bs as [|b bs]; [discriminate|]. cbn [map] in H2. injection H2 as E1 E2. destruct (IH _ _ Ea0 E2). split; [constructor; eauto|cbn; congruence].
Qed.
Theorem mpflow_framed txt type xid m : text2mpflow txt type xid = Ok m -> exists bs, mp_framed type xid 1 (concat bs) m /\ length bs = line_count txt
  /\ Forall (if type =? 19 then fentry_framed else frequest_framed) bs.
Proof.
  unfold text2mpflow. intros H. mons H. apply message_inv in H as (bs & Hb & Hm & H1 & H2 & H3). exists bs. rewrite <- split_count. split; [split; auto|].
  destruct (bodies_framed type (if type =? 19 then fentry_framed else frequest_framed) _ _ _ Ea Hb); auto.
  intros s ci b E1 E2. destruct (Z.eqb_spec type 19) as [->|]; eauto using fbody_sound, rbody_sound.
Qed.

(** ** Group descriptions *)
Lemma dbuckets_framed fuel : forall t u b, gdesc_buckets_go fuel t u = Ok b -> exists bs, b = concat bs /\ Forall bucket_framed bs.
Proof.
  induction fuel as [|f IH]; intros t u b H; (destruct u as [|c u]; [cbn in H; exists []; split; [cbn; congruence|constructor]|]); [discriminate|].
  cbn [gdesc_buckets_go] in H. set (U := c :: u) in *. destruct (get_token U) as [[h name] r]. destruct (text_eqb name $"@bucket"); [eauto|].
  destruct (str2bucket U t) as [[x l]|e|] eqn:E; cbn [bind] in H; try discriminate.
  destruct (Nat.eqb_spec l 0) as [->|Hl]; [exists []; split; [cbn; congruence|constructor]|]. mons H. injection H as <-.
  destruct (IH _ _ _ Ea) as (bs & -> & Hb). exists (x :: bs). split; [reflexivity|]. constructor; auto. eapply str2bucket_framed; eauto.
Qed.
Lemma dhead_type fuel : forall gid g u gid' t' u', gdesc_head_go fuel gid (gtype_id g) u = Ok (gid', t', u') -> exists g', t' = gtype_id g'.
Proof.
  induction fuel as [|f IH]; intros gid g u gid' t' u' H; (destruct u as [|c u]; [cbn in H; exists g; congruence|]); [discriminate|].
  cbn [gdesc_head_go] in H. set (U := c :: u) in *. destruct (get_token U) as [[h name] r]. destruct (text_eqb name $"group").
  - destruct (int_arg r) as [[n rest]|e|]; cbn [bind] in H; try discriminate. eauto.
  - destruct (index_of (lower name) ofpgt) as [t|e|] eqn:E; [|exists g; congruence|exists g; congruence]. apply index_ofpgt in E as [g' ->]. eauto.
Qed.
Lemma dbody_sound s b : gdesc_body s = Ok b -> dentry_framed b.
Proof.
  unfold gdesc_body. intros H. destruct (gdesc_head_go _ _ _ _) as [[[gid t0] u]|e|] eqn:E1; cbn [bind] in H; try discriminate.
  apply (dhead_type _ 0 GAll) in E1 as [t ->]. mons H. apply dbuckets_framed in Ea as (bs & -> & Hb). rename a0 into hd. unfold gdesc_fmt in Ea0. set (L := 8 + Z.of_nat (length (concat bs))) in *.
  apply pack_u_inv in Ea0 as (HL & ? & Ea0 & ->). apply pack_u_inv in Ea0 as (_ & ? & Ea0 & ->). apply pack_x_inv in Ea0 as (? & Ea0 & ->). apply pack_u_inv in Ea0 as (Hid & ? & Ea0 & ->). apply pack_nil_inv in Ea0 as ->.
  match type of H with Ok ?t = Ok b => assert (Eb : b = t) by congruence end. clear H.
  assert (EL : L = Z.of_nat (length b)) by (subst b; unfold L; len). assert (HB : 0 <= L <= 65535) by (clear -HL; clearbody L; change (0 <= L < 65536) in HL; lia).
  split; [lia|]. rewrite <- EL. exists t, gid, bs. split; [rewrite Eb, <- !app_assoc; reflexivity|auto].
Qed.
Theorem mpgroupdesc_framed txt xid m : text2mpgroupdesc txt 19 xid = Ok m -> exists bs, mp_framed 19 xid 7 (concat bs) m /\ length bs = line_count txt /\ Forall dentry_framed bs.
Proof.
  unfold text2mpgroupdesc. change (negb (19 =? 19)) with false. cbn match. intros H. apply message_inv in H as (bs & Hb & Hm & H1 & H2 & H3). exists bs. rewrite <- split_count. split; [split; auto|].
  destruct (mapped_all _ dentry_framed _ _ Hb dbody_sound). auto.
Qed.
Theorem mpgroupdesc_request_framed txt type xid m : type <> 19 -> text2mpgroupdesc txt type xid = Ok m -> mp_framed type xid 7 [] m.
Proof.
  unfold text2mpgroupdesc. intros Ht H. destruct (Z.eqb_spec type 19); [congruence|]. cbn [negb] in H. apply hdr_inv in H as (H1 & H2 & H3 & H4). rewrite app_nil_r in H4. split; [exact H4|]. split; auto. split; auto. rewrite H4, mp_length. exact H3.
Qed.

(** ** Group statistics *)
Lemma bucket_inv c b : mpg_bucket c = Ok b -> exists p, (in_bytes 8 (fst p) /\ in_bytes 8 (snd p)) /\ b = pair_wire p.
Proof.
  unfold mpg_bucket. intros E. apply pack_u_inv in E as (H1 & ? & E & ->). apply pack_u_inv in E as (H2 & ? & E & ->). apply pack_nil_inv in E as ->.
  exists (Ofp4.counter c $"packet_count", Ofp4.counter c $"byte_count"). split; [auto|]. unfold pair_wire. cbn [fst snd]. now rewrite app_nil_r.
Qed.
Lemma buckets_inv l : forall bs, mapM mpg_bucket l = Ok bs -> exists ps, Forall (fun p => in_bytes 8 (fst p) /\ in_bytes 8 (snd p)) ps /\ concat bs = flat_map pair_wire ps.
Proof.
  induction l as [|c l IH]; intros bs H; cbn [mapM] in H; [injection H as <-; exists []; split; [constructor|reflexivity]|]. mons H. injection H as <-. apply bucket_inv in Ea as (p & Hp & ->).
  destruct (IH _ Ea0) as (ps & Hps & E). exists (p :: ps). split; [now constructor|]. cbn [concat flat_map]. now rewrite E.
Qed.
Lemma sbody_sound s b : mpg_body s = Ok b -> exists e, gstat_ok e /\ b = gstat_wire e.
Proof.
  unfold mpg_body. intros H. destruct (mpg_head_go _ _ _) as [[gid u]|e|]; cbn [bind] in H; try discriminate. destruct (mpg_stats_go _ _ _ _) as [[g bb]|e|]; cbn [bind] in H; try discriminate.
  mons H. apply buckets_inv in Ea as (ps & Hps & E). rewrite E in *. unfold mpg_fmt in Ea0. set (B := flat_map pair_wire ps) in *.
  apply pack_u_inv in Ea0 as (HL & ? & Ea0 & ->). apply pack_x_inv in Ea0 as (? & Ea0 & ->). apply pack_u_inv in Ea0 as (H1 & ? & Ea0 & ->). apply pack_u_inv in Ea0 as (H2 & ? & Ea0 & ->). apply pack_x_inv in Ea0 as (? & Ea0 & ->).
  apply pack_u_inv in Ea0 as (H3 & ? & Ea0 & ->). apply pack_u_inv in Ea0 as (H4 & ? & Ea0 & ->). apply pack_u_inv in Ea0 as (H5 & ? & Ea0 & ->). apply pack_u_inv in Ea0 as (H6 & ? & Ea0 & ->). apply pack_nil_inv in Ea0 as ->.
  match type of H with Ok ?t = Ok b => assert (Eb : b = t) by congruence end. clear H.
  exists (GStat gid (Ofp4.counter g $"ref_count") (Ofp4.counter g $"packet_count") (Ofp4.counter g $"byte_count") (Ofp4.counter g $"duration_sec") (Ofp4.counter g $"duration_nsec") ps).
  split.
  - unfold gstat_ok. rewrite gstat_length. cbn [gs_id gs_ref gs_packets gs_bytes gs_sec gs_nsec gs_buckets]. fold B. repeat match goal with |- _ /\ _ => split end; auto. change (0 <= 40 + Z.of_nat (length B) < 65536) in HL. clearbody B. lia.
  - unfold gstat_wire. cbn [gs_id gs_ref gs_packets gs_bytes gs_sec gs_nsec gs_buckets]. fold B. replace (Z.of_nat (40 + length B)) with (40 + Z.of_nat (length B)) by lia. rewrite Eb, <- !app_assoc. reflexivity.
Qed.
Theorem mpgroup_framed txt xid m : text2mpgroup txt 19 xid = Ok m -> exists l, mp_framed 19 xid 6 (gstats_wire l) m /\ length l = line_count txt /\ Forall gstat_ok l.
Proof.
  unfold text2mpgroup. change (negb (19 =? 19)) with false. cbn match. intros H. apply message_inv in H as (bs & Hb & Hm & H1 & H2 & H3).
  assert (K : exists l, bs = map gstat_wire l /\ Forall gstat_ok l /\ length l = length (split_all 10 txt)).
  { clear -Hb. revert bs Hb. induction (split_all 10 txt) as [|s ss IH]; intros [|b bs] H; try discriminate; [exists []; repeat split; constructor|]. cbn [map] in H. injection H as E1 E2.
    destruct (IH _ E2) as (l & -> & Hl & El). destruct (sbody_sound _ _ E1) as (e & He & ->). exists (e :: l). split; [reflexivity|]. split; [now constructor|cbn; congruence]. }
  destruct K as (l & -> & Hl & El). exists l. rewrite <- split_count. split; [|auto]. unfold gstats_wire. rewrite flat_map_concat_map. split; auto.
Qed.
Theorem mpgroup_request_framed txt type xid m : type <> 19 -> text2mpgroup txt type xid = Ok m -> exists id, in_bytes 4 id /\ mp_framed type xid 6 (be 4 id ++ pad 4) m.
Proof.
  unfold text2mpgroup. intros Ht H. destruct (Z.eqb_spec type 19); [congruence|]. cbn [negb] in H. cbv zeta in H. destruct (mpg_head_go _ _ _) as [[gid u]|e|]; cbn [bind] in H; try discriminate. mons H.
  apply pack_u_inv in Ea as (H1 & ? & Ea & ->). apply pack_x_inv in Ea as (? & Ea & ->). apply pack_nil_inv in Ea as ->. rewrite app_nil_r in *. apply hdr_inv in Ea0 as (H2 & H3 & H4 & H5).
  exists gid. split; auto. assert (m = a0 ++ be 4 gid ++ pad 4) as -> by congruence. rewrite H5. split; [reflexivity|]. rewrite mp_length. auto.
Qed.
