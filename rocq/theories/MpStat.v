(** Group statistics (OFPMP_GROUP). *)
From Coq Require Import Strings.Ascii.
From Verif Require Import Base PyNum Util PyLib OxmCodec OxmTables Oxm Nx Ofp4 Spec SpecOxm SpecOfp SpecMp.
From Verif Require Import BaseFacts UtilFacts NumFacts OxmRead OxmPrint OxmFacts OxmFrame OxmMore TermFacts OfpTerm.
From Verif Require Import ActBase ActRead ActReadNx ActReadReg ActReadLearn ActPrint ActText ActFrame FlowRead FlowMod FlowText FlowFrame GroupRead GroupText MpBase MpFlow MpGroup.

(** ** Reading *)
Lemma counters_follow cs s : writes_counters cs s -> follow s.
Proof. intros []; [exact I|now apply gap_follow]. Qed.
Lemma sbuckets_follow bs s : writes_sbuckets bs s -> follow s.
Proof. intros []; [exact I|now apply gap_follow]. Qed.
Lemma id_step f gid u n s h r : literal u n -> assigned $"group" u s -> Forall filler h -> follow r -> mpg_head_go (S f) gid (h ++ s ++ r) = mpg_head_go f n r.
Proof.
  intros Hl Ha Hh Hr. destruct (literal_plain _ _ Hl) as [Hu Hu0]. destruct (assigned_tokens $"group" u s h r) as (op & y & E1 & E2 & E3); auto; [pl|discriminate|].
  pose proof (assigned_nonnil _ _ _ h r Ha) as Hne. destruct (h ++ s ++ r) as [|c0 s0] eqn:Es; [congruence|]. cbn [mpg_head_go]. rewrite E1.
  change (text_eqb $"group" $"group") with true. cbn match. erewrite int_arg_ok by eauto. reflexivity.
Qed.
Lemma id_end f gid cs c bs b : writes_counters cs c -> writes_sbuckets bs b -> (length (c ++ b) <= f)%nat -> mpg_head_go f gid (c ++ b) = Ok (gid, c ++ b).
Proof.
  intros Hc Hb Hf. pose proof (sbuckets_follow _ _ Hb) as Fb. destruct Hc as [|c0 cs g u r Hg Hu Hr].
  - cbn [app] in *. destruct Hb as [|cs bs g u r Hg Hk Hu Hr]; [destruct f; reflexivity|].
    assert (Hy : follow (u ++ r)) by (apply follow_app; eauto using counters_follow, sbuckets_follow). pose proof (at_bucket g (u ++ r) (gap_filler _ Hg) Hy) as E.
    assert (Hne : g ++ $"@bucket" ++ u ++ r <> []) by (apply mid_nonnil; discriminate). destruct (g ++ $"@bucket" ++ u ++ r) as [|x y] eqn:Es; [congruence|].
    destruct f; [cbn in Hf; lia|]. cbn [mpg_head_go]. rewrite E. reflexivity.
  - rewrite <- !app_assoc in *. destruct (writes_counter_tokens c0 u g (r ++ b) Hu (gap_filler _ Hg)) as (t & E1 & _); [apply follow_app; eauto using counters_follow|].
    assert (Hne : g ++ u ++ r ++ b <> []) by (apply mid_nonnil; eauto using writes_counter_nonnil). destruct (g ++ u ++ r ++ b) as [|x y] eqn:Es; [congruence|].
    destruct f; [cbn in Hf; lia|]. cbn [mpg_head_go]. rewrite E1. replace (text_eqb (counter_name (fst c0)) $"group") with false by (destruct (fst c0); reflexivity). reflexivity.
Qed.
Lemma group_counter_in c : in_names (counter_name c) group_counters = true.
Proof. destruct c; reflexivity. Qed.
Lemma stat_step f acc c u g r : writes_counter c u -> Forall filler g -> follow r ->
  mpg_stats_go (S f) acc [] (g ++ u ++ r) = mpg_stats_go f ((counter_name (fst c), snd c) :: acc) [] r.
Proof.
  intros Hu Hg Hr. destruct (writes_counter_tokens c u g r Hu Hg Hr) as (t & E1 & E2).
  assert (Hne : g ++ u ++ r <> []) by (apply mid_nonnil; eauto using writes_counter_nonnil). destruct (g ++ u ++ r) as [|x y] eqn:Es; [congruence|].
  cbn [mpg_stats_go]. rewrite E1. replace (text_eqb (counter_name (fst c)) $"@bucket") with false by (destruct (fst c); reflexivity). rewrite E2. cbn [bind]. rewrite group_counter_in. reflexivity.
Qed.
Lemma bstat_step f acc b bs c u g r : writes_counter c u -> fst c = CPackets \/ fst c = CBytes -> Forall filler g -> follow r ->
  mpg_stats_go (S f) acc (b :: bs) (g ++ u ++ r) = mpg_stats_go f acc (((counter_name (fst c), snd c) :: b) :: bs) r.
Proof.
  intros Hu Hk Hg Hr. destruct (writes_counter_tokens c u g r Hu Hg Hr) as (t & E1 & E2).
  assert (Hne : g ++ u ++ r <> []) by (apply mid_nonnil; eauto using writes_counter_nonnil). destruct (g ++ u ++ r) as [|x y] eqn:Es; [congruence|].
  cbn [mpg_stats_go]. rewrite E1. replace (text_eqb (counter_name (fst c)) $"@bucket") with false by (destruct (fst c); reflexivity). rewrite E2. cbn [bind].
  replace (in_names (counter_name (fst c)) [$"packet_count"; $"byte_count"]) with true by (destruct Hk as [-> | ->]; reflexivity). reflexivity.
Qed.
Lemma sword_step f acc bs g y : Forall filler g -> follow y -> mpg_stats_go (S f) acc bs (g ++ $"@bucket" ++ y) = mpg_stats_go f acc ([] :: bs) y.
Proof.
  intros Hg Hy. pose proof (at_bucket g y Hg Hy) as E. assert (Hne : g ++ $"@bucket" ++ y <> []) by (apply mid_nonnil; discriminate).
  destruct (g ++ $"@bucket" ++ y) as [|c u'] eqn:Eu; [congruence|]. cbn [mpg_stats_go]. rewrite E. reflexivity.
Qed.
Lemma counter_len c u : writes_counter c u -> (length u > 0)%nat.
Proof. intros H. apply writes_counter_nonnil in H. destruct u; [congruence|cbn; lia]. Qed.
Lemma bcounters_go cs s : writes_counters cs s -> Forall (fun c => fst c = CPackets \/ fst c = CBytes) cs -> forall acc b bs r fuel, follow r -> (length (s ++ r) <= fuel)%nat ->
  exists f, (length r <= f)%nat /\ mpg_stats_go fuel acc (b :: bs) (s ++ r) = mpg_stats_go f acc ((rev (named cs) ++ b) :: bs) r.
Proof.
  induction 1 as [|c cs g u s Hg Hu Hs IH]; intros Hk acc b bs r fuel Hr Hf; [exists fuel; auto|]. inversion Hk; subst. pose proof (counter_len _ _ Hu).
  rewrite <- !app_assoc in *. rewrite app_length, (app_length u) in Hf. destruct fuel as [|f]; [lia|].
  rewrite (bstat_step f acc b bs c u g) by (auto using gap_filler; apply follow_app; eauto using counters_follow).
  destruct (IH H2 acc ((counter_name (fst c), snd c) :: b) bs r f Hr) as (f' & Hf' & E); [lia|]. exists f'. split; auto. rewrite E. cbn [named map rev]. rewrite <- app_assoc. reflexivity.
Qed.
Lemma sbuckets_go bs s : writes_sbuckets bs s -> forall acc bb fuel, (length s <= fuel)%nat ->
  mpg_stats_go fuel acc bb s = Ok (acc, rev (map (fun cs => rev (named cs)) bs) ++ bb).
Proof.
  induction 1 as [|cs bs g u r Hg Hk Hu Hr IH]; intros acc bb fuel Hf; [destruct fuel; reflexivity|].
  rewrite !app_length in Hf. change (length $"@bucket") with 7%nat in Hf. destruct fuel as [|f]; [lia|].
  rewrite sword_step by (auto using gap_filler; apply follow_app; eauto using counters_follow, sbuckets_follow).
  destruct (bcounters_go cs u Hu Hk acc [] bb r f (sbuckets_follow _ _ Hr)) as (f' & Hf' & E); [rewrite app_length; lia|]. rewrite E, IH by auto. cbn [map rev]. rewrite <- app_assoc, app_nil_r. reflexivity.
Qed.
Lemma gcounters_go cs s : writes_counters cs s -> forall acc r fuel, follow r -> (length (s ++ r) <= fuel)%nat ->
  exists f, (length r <= f)%nat /\ mpg_stats_go fuel acc [] (s ++ r) = mpg_stats_go f (rev (named cs) ++ acc) [] r.
Proof.
  induction 1 as [|c cs g u s Hg Hu Hs IH]; intros acc r fuel Hr Hf; [exists fuel; auto|]. pose proof (counter_len _ _ Hu).
  rewrite <- !app_assoc in *. rewrite app_length, (app_length u) in Hf. destruct fuel as [|f]; [lia|].
  rewrite (stat_step f acc c u g) by (auto using gap_filler; apply follow_app; eauto using counters_follow).
  destruct (IH ((counter_name (fst c), snd c) :: acc) r f Hr) as (f' & Hf' & E); [lia|]. exists f'. split; auto. rewrite E. cbn [named map rev]. rewrite <- app_assoc. reflexivity.
Qed.
Lemma gstat_parses id cs bs s : writes_gstat id cs bs s -> exists u, mpg_head_go (length s) 0 s = Ok (id, u)
  /\ mpg_stats_go (length u) [] [] u = Ok (rev (named cs), rev (map (fun cs => rev (named cs)) bs)).
Proof.
  intros [h u n s' cs' c bs' b Hh Hl Ha Hc Hb]. exists (c ++ b). split.
  - pose proof (assigned_nonnil _ _ _ [] [] Ha) as Hn. cbn [app] in Hn. rewrite app_nil_r in Hn.
    assert (Hlen : exists f, length (h ++ s' ++ c ++ b) = S f /\ (length (c ++ b) <= f)%nat).
    { rewrite !app_length. assert (length s' > 0)%nat by (destruct s'; [congruence|cbn; lia]). exists (length h + length s' + (length c + length b) - 1)%nat. lia. }
    destruct Hlen as (f & -> & Hf). rewrite (id_step f 0 u n) by (auto; apply follow_app; eauto using counters_follow, sbuckets_follow). eapply id_end; eauto.
  - destruct (gcounters_go cs' c Hc [] b (length (c ++ b)) (sbuckets_follow _ _ Hb)) as (f & Hf & E); [auto|]. rewrite E, (sbuckets_go bs' b Hb) by auto. rewrite !app_nil_r. reflexivity.
Qed.
Lemma gstat_length e : length (gstat_wire e) = (40 + length (flat_map pair_wire (gs_buckets e)))%nat.
Proof. unfold gstat_wire. len. Qed.
Lemma bucket_pairs bs : Forall (fun b => in_bytes 8 (fst b) /\ in_bytes 8 (snd b)) (map pair_of bs) -> mapM mpg_bucket (map (fun cs => rev (named cs)) bs) = Ok (map pair_wire (map pair_of bs)).
Proof.
  induction bs as [|cs bs IH]; intros H; [reflexivity|]. inversion H as [|? ? [H1 H2] H3]; subst. cbn [map mapM]. unfold mpg_bucket at 1.
  change (Ofp4.counter (rev (named cs)) $"packet_count") with (Ofp4.counter (rev (named cs)) (counter_name CPackets)).
  change (Ofp4.counter (rev (named cs)) $"byte_count") with (Ofp4.counter (rev (named cs)) (counter_name CBytes)). rewrite !counter_count. unfold pair_of in H1, H2. cbn [fst snd] in H1, H2.
  packs. rewrite IH by auto. reflexivity.
Qed.
Lemma stat_body id cs bs s : writes_gstat id cs bs s -> gstat_ok (gstat_of id cs bs) -> mpg_body s = Ok (gstat_wire (gstat_of id cs bs)).
Proof.
  intros Hw (H1 & H2 & H3 & H4 & H5 & H6 & H7 & Hl). destruct (gstat_parses _ _ _ _ Hw) as (u & E1 & E2). rewrite gstat_length in Hl. unfold mpg_body. rewrite E1. cbn [bind]. rewrite E2. cbn [bind].
  unfold gstat_of in *. cbn [gs_id gs_ref gs_packets gs_bytes gs_sec gs_nsec gs_buckets] in *. rewrite rev_involutive, bucket_pairs by auto. cbn [bind]. cbv zeta. rewrite <- flat_map_concat_map.
  change (Ofp4.counter (rev (named cs)) $"ref_count") with (Ofp4.counter (rev (named cs)) (counter_name CRef)).
  change (Ofp4.counter (rev (named cs)) $"duration_sec") with (Ofp4.counter (rev (named cs)) (counter_name CSec)).
  change (Ofp4.counter (rev (named cs)) $"duration_nsec") with (Ofp4.counter (rev (named cs)) (counter_name CNsec)).
  change (Ofp4.counter (rev (named cs)) $"packet_count") with (Ofp4.counter (rev (named cs)) (counter_name CPackets)).
  change (Ofp4.counter (rev (named cs)) $"byte_count") with (Ofp4.counter (rev (named cs)) (counter_name CBytes)). rewrite !counter_count.
  unfold gstat_wire. cbn [gs_id gs_ref gs_packets gs_bytes gs_sec gs_nsec gs_buckets]. set (B := flat_map _ _) in *. replace (Z.of_nat (40 + length B)) with (40 + Z.of_nat (length B)) by lia.
  assert (in_bytes 2 (40 + Z.of_nat (length B))) by (apply in_bytes_2; lia). unfold mpg_fmt. packs. rewrite <- !app_assoc. reflexivity.
Qed.
Lemma stat_bodies l ss : Forall2 writes_stat l ss -> Forall gstat_ok l -> map mpg_body ss = map Ok (map gstat_wire l).
Proof. induction 1 as [|e s l ss (_ & id & cs & bs & Hw & ->) _ IH]; intros Hok; [reflexivity|]. inversion Hok; subst. cbn [map]. rewrite IH by auto. f_equal. now apply stat_body. Qed.
Theorem gstats_encode l ss xid : Forall2 writes_stat l ss -> l <> [] -> Forall gstat_ok l -> in_bytes 4 xid ->
  Z.of_nat (16 + length (gstats_wire l)) <= 65535 -> text2mpgroup (lines ss) 19 xid = Ok (mp_wire 19 xid 6 0 (gstats_wire l)).
Proof.
  intros H Hn Hok Hx Hl. unfold text2mpgroup. change (negb (19 =? 19)) with false. cbn match. rewrite (writes_lines writes_stat l) by (auto; now intros ? ? []).
  rewrite (stat_bodies l) by auto. unfold gstats_wire in *. rewrite flat_map_concat_map in *. apply mp_message_ok; auto using in_bytes_1_19; unfold in_bytes; lia.
Qed.
Theorem gstats_too_long l ss xid : Forall2 writes_stat l ss -> Forall gstat_ok l -> 65535 < Z.of_nat (16 + length (gstats_wire l)) -> text2mpgroup (lines ss) 19 xid = Raise NameError.
Proof.
  intros H Hok Hl. assert (Hn : l <> []) by (intros ->; cbn in Hl; lia). unfold text2mpgroup. change (negb (19 =? 19)) with false. cbn match. rewrite (writes_lines writes_stat l) by (auto; now intros ? ? []).
  rewrite (stat_bodies l) by auto. unfold gstats_wire in *. rewrite flat_map_concat_map in *. now apply message_raises.
Qed.
(** requests: the id; the rest of the text is not looked at *)
Theorem gstat_request id cs bs s more type xid : writes_gstat id cs bs s -> one_line s -> Forall one_line more -> type <> 19 -> in_bytes 1 type -> in_bytes 4 xid -> in_bytes 4 id ->
  text2mpgroup (lines (s :: more)) type xid = Ok (mp_wire type xid 6 0 (be 4 id ++ pad 4)).
Proof.
  intros Hw Ho Hm Ht Hty Hx Hid. destruct (gstat_parses _ _ _ _ Hw) as (u & E1 & _). unfold text2mpgroup. destruct (Z.eqb_spec type 19); [congruence|]. cbn [negb].
  rewrite lines_split by (auto; discriminate). cbn [nth]. cbv zeta. rewrite E1. cbn [bind]. packs. cbn [bind]. unfold mp_hdr, mp_fmt, mp_wire.
  assert (in_bytes 2 6) by (unfold in_bytes; lia).
  assert (L : length (be 4 id ++ pad 4) = 8%nat) by len. rewrite L. change (16 + Z.of_nat 8) with (Z.of_nat 24). change (Z.of_nat (16 + 8)) with (Z.of_nat 24).
  assert (in_bytes 2 (Z.of_nat 24)) by (unfold in_bytes; cbn; lia). packs. rewrite <- ?app_assoc. reflexivity.
Qed.

(** ** Printing *)
Lemma nonzero_pair b : nonzero [($"packet_count", fst b); ($"byte_count", snd b)] = counter_texts (pair_counters b).
Proof. unfold nonzero, counter_texts, pair_counters, unless. cbn [flat_map fst snd]. rewrite !fmt_d_dec. reflexivity. Qed.
Lemma pairs_print l : Forall (fun b => in_bytes 8 (fst b) /\ in_bytes 8 (snd b)) l -> forall fuel, (length (flat_map pair_wire l) <= fuel)%nat ->
  mpg_buckets_go fuel (flat_map pair_wire l) = Ok (flat_map (fun b => $"@bucket" :: counter_texts (pair_counters b)) l).
Proof.
  induction 1 as [|[p q] l [Hp Hq] _ IH]; intros fuel Hf; [destruct fuel; reflexivity|]. cbn [fst snd] in *. cbn [flat_map] in *.
  assert (PL : length (pair_wire (p, q)) = 16%nat) by (unfold pair_wire; len). rewrite app_length, PL in Hf. destruct fuel as [|f]; [lia|].
  assert (E : unpack_from [sQ; sQ] (pair_wire (p, q) ++ flat_map pair_wire l) 0 = Ok [p; q]).
  { rewrite unpack_from_ok by (rewrite app_length, PL; cbn [app calcsize fold_right fwidth]; lia). unfold pair_wire at 1. cbn [fst snd]. rewrite <- !app_assoc. unpacks. reflexivity. }
  set (P := pair_wire (p, q)) in *. set (R := flat_map pair_wire l) in *. cbn [mpg_buckets_go]. destruct (Nat.ltb_spec (length (P ++ R)) 16) as [Hs|_]; [rewrite app_length, PL in Hs; lia|].
  rewrite E. cbn [bind]. assert (skipn 16 (P ++ R) = R) as -> by (rewrite <- PL; apply skipn_len_app). rewrite IH by lia. cbn [bind].
  pose proof (nonzero_pair (p, q)) as N. cbn [fst snd] in N. rewrite N. reflexivity.
Qed.
Lemma srow_step e r : gstat_ok e -> forall f, mpg_rows_go (S f) (gstat_wire e ++ r) = (l <- mpg_rows_go f r ;; Ok (gstat_text e :: l)).
Proof.
  intros (H1 & H2 & H3 & H4 & H5 & H6 & H7 & Hl) f. pose proof (gstat_length e) as GL. rewrite GL in Hl. destruct e as [id rc pc bc sec nsec bs]. cbn [gs_id gs_ref gs_packets gs_bytes gs_sec gs_nsec gs_buckets] in *.
  set (M := gstat_wire _) in *. set (B := flat_map pair_wire bs) in *. set (L := Z.of_nat (40 + length B)).
  assert (HL : Z.to_nat L = length M) by (unfold L; lia). assert (in_bytes 2 L) by (apply in_bytes_2; unfold L; lia).
  assert (E : unpack_from mpg_fmt (M ++ r) 0 = Ok [L; id; rc; pc; bc; sec; nsec]).
  { rewrite unpack_from_ok by (rewrite app_length, GL; unfold mpg_fmt; cbn [app calcsize fold_right fwidth]; lia).
    unfold M, gstat_wire. cbn [gs_id gs_ref gs_packets gs_bytes gs_sec gs_nsec gs_buckets]. fold B L. clearbody L. unfold mpg_fmt. rewrite <- !app_assoc. unpacks. reflexivity. }
  cbn [mpg_rows_go]. destruct (Nat.ltb_spec (length (M ++ r)) 40) as [Hs|_]; [rewrite app_length, GL in Hs; lia|]. rewrite E. cbn [bind].
  assert ((40 <=? L) = true) as -> by (unfold L; apply Z.leb_le; lia). cbn [assert bind]. cbv zeta. rewrite HL.
  assert (S1 : slice 40 (length M) (M ++ r) = B).
  { rewrite GL. unfold M, gstat_wire. cbn [gs_id gs_ref gs_packets gs_bytes gs_sec gs_nsec gs_buckets]. fold B L.
    match goal with |- slice _ _ ?m = _ => replace m with ((be 2 L ++ pad 2 ++ be 4 id ++ be 4 rc ++ pad 4 ++ be 8 pc ++ be 8 bc ++ be 4 sec ++ be 4 nsec) ++ B ++ r) by (rewrite <- !app_assoc; reflexivity) end.
    apply slice_mid; [len|lia]. }
  rewrite S1. unfold B at 1 2. rewrite pairs_print by auto. cbn [bind]. rewrite skipn_len_app, join_commas.
  match goal with |- (_ <- _ ;; Ok (?a :: _)) = (_ <- _ ;; Ok (?b :: _)) => replace a with b; [reflexivity|] end.
  unfold gstat_text, stat_texts, gstat_counters. cbn [gs_id gs_ref gs_packets gs_bytes gs_sec gs_nsec gs_buckets].
  replace (nonzero _) with (counter_texts [(CRef, rc); (CPackets, pc); (CBytes, bc); (CSec, sec); (CNsec, nsec)]) by (unfold nonzero, counter_texts, unless; cbn [flat_map fst snd]; rewrite !fmt_d_dec; reflexivity).
  rewrite fmt_d_dec. destruct (id =? 0xfffffffc); [reflexivity|]. destruct (id =? 0xffffffff); [reflexivity|]. rewrite <- !app_assoc. reflexivity.
Qed.
Lemma srows_print l : Forall gstat_ok l -> forall fuel, (length (gstats_wire l) <= fuel)%nat -> mpg_rows_go fuel (gstats_wire l) = Ok (map gstat_text l).
Proof.
  induction l as [|e l IH]; intros Ho fuel Hf; [destruct fuel; reflexivity|]. inversion Ho; subst. cbn [gstats_wire flat_map map] in *.
  rewrite app_length, gstat_length in Hf. destruct fuel as [|f]; [lia|]. rewrite srow_step by auto. fold (gstats_wire l) in *. rewrite IH by (auto; lia). reflexivity.
Qed.
Theorem gstats_one xid fl l : Forall gstat_ok l -> part_ok (gstats_wire l) xid fl -> mpgroup2text_one (mp_wire 19 xid 6 fl (gstats_wire l)) = Ok (map gstat_text l).
Proof.
  intros Ho (Hx & Hfl & Hl). unfold mpgroup2text_one. rewrite mp_unpack by (auto using in_bytes_1_19; unfold in_bytes; lia). cbn [bind]. change (6 =? 6) with true. cbn [assert bind].
  rewrite mp_slice. change (negb (19 =? 19)) with false. cbn match. cbv zeta. now apply srows_print.
Qed.
Theorem gstats_print (ms : list (Z * Z * list gstat)) :
  Forall (fun m => Forall gstat_ok (snd m) /\ part_ok (gstats_wire (snd m)) (fst (fst m)) (snd (fst m))) ms ->
  mpgroup2text (flat_map (fun m => mp_wire 19 (fst (fst m)) 6 (snd (fst m)) (gstats_wire (snd m))) ms) = Ok (lines (map gstat_text (flat_map snd ms))).
Proof. intros H. apply (parts_print mpgroup2text_one 6 gstat_wire gstat_text gstat_ok); auto. intros xid fl l Hl Hp. now apply gstats_one. Qed.
(** the printed text is read back *)
Lemma counts_written l : Forall (fun cn => 0 <= snd cn) l -> writes_counters l (tailed (map count_text l)).
Proof. induction 1 as [|cn l H _ IH]; [constructor|]. unfold tailed. cbn [map flat_map]. rewrite <- app_assoc. constructor; auto using comma_gap, count_written. Qed.
Lemma sbuckets_written l : Forall (fun b => in_bytes 8 (fst b) /\ in_bytes 8 (snd b)) l ->
  writes_sbuckets (map (fun b => printed_counts (pair_counters b)) l) (tailed (flat_map (fun b => $"@bucket" :: counter_texts (pair_counters b)) l)).
Proof.
  induction 1 as [|b l [Hp Hq] _ IH]; [constructor|]. unfold tailed in *. cbn [map]. set (F := fun b0 : Z * Z => $"@bucket" :: counter_texts (pair_counters b0)) in *. cbn [flat_map]. rewrite flat_map_app.
  unfold F at 1. cbn [flat_map]. rewrite counter_texts_eq, <- !app_assoc. apply wsb_cons; auto using comma_gap.
  - unfold printed_counts, pair_counters. apply Forall_forall. intros cn Hc. apply filter_In in Hc as [[<-|[<-|[]]] _]; auto.
  - apply counts_written. unfold printed_counts, pair_counters. unfold in_bytes in *. apply Forall_forall. intros cn Hc. apply filter_In in Hc as [[<-|[<-|[]]] _]; cbn; lia.
Qed.
Lemma blank_gap : gap $" ".
Proof. exists 32, []. split; [reflexivity|]. split; [right; left; reflexivity|constructor]. Qed.
Lemma stat_counts_nonneg e : gstat_ok e -> Forall (fun cn => 0 <= snd cn) (printed_counts (gstat_counters e)).
Proof.
  intros (H1 & H2 & H3 & H4 & H5 & H6 & _). unfold in_bytes in *. apply Forall_forall. intros cn Hc. apply filter_In in Hc as [Hc _]. cbn [gstat_counters In] in Hc.
  destruct Hc as [<-|[<-|[<-|[<-|[<-|[]]]]]]; cbn [fst snd]; lia.
Qed.
Lemma gstat_text_written e : good_gstat e -> writes_stat e (gstat_text e).
Proof.
  intros (Hok & Hall & Hany & Hne). pose proof Hok as (H1 & H2 & H3 & H4 & H5 & H6 & H7 & Hl). split.
  - unfold gstat_text. apply one_line_app. split.
    + destruct (_ =? _); [apply lit_line; reflexivity|]. destruct (_ =? _); [apply one_line_nil|]. apply one_line_app; split; [apply lit_line; reflexivity|]. apply one_line_app; split; [apply dec_line|apply lit_line; reflexivity].
    + apply commas_line. unfold stat_texts. apply Forall_app. split; [apply counter_lines|]. apply Forall_flat_map, Forall_forall. intros b _. constructor; [apply lit_line; reflexivity|apply counter_lines].
  - exists (gs_id e), (printed_counts (gstat_counters e)), (map (fun b => printed_counts (pair_counters b)) (gs_buckets e)). split.
    + unfold gstat_text. destruct (Z.eqb_spec (gs_id e) 0xfffffffc); [congruence|]. destruct (Z.eqb_spec (gs_id e) 0xffffffff); [congruence|].
      assert (A : assigned $"group" (dec (gs_id e)) ($"group" ++ $"=" ++ dec (gs_id e))) by apply assigned_plain.
      assert (D : literal (dec (gs_id e)) (gs_id e)) by (apply dec_literal; unfold in_bytes in H1; lia).
      pose proof (stat_counts_nonneg e Hok) as P. pose proof (sbuckets_written _ H7) as SB.
      unfold stat_texts in *. rewrite counter_texts_eq in *. destruct (printed_counts (gstat_counters e)) as [|cn cs] eqn:EC.
      * cbn [map app] in *. destruct (gs_buckets e) as [|b bs]; [exfalso; apply Hne; reflexivity|]. inversion H7 as [|? ? [Hp Hq] H7']; subst. cbn [flat_map app map] in *. rewrite commas_tailed.
        pose proof (sbuckets_written _ H7') as SB'. rewrite counter_texts_eq. unfold tailed. rewrite flat_map_app.
        change ($"group=" ++ dec (gs_id e) ++ $" ") with ((($"group" ++ $"=" ++ dec (gs_id e)) ++ $" ")). rewrite <- !app_assoc.
        replace ($"group" ++ $"=" ++ dec (gs_id e) ++ $" " ++ $"@bucket" ++ flat_map (fun x => $"," ++ x) (map count_text (printed_counts (pair_counters b))) ++ flat_map (fun x => $"," ++ x) (flat_map (fun b => $"@bucket" :: counter_texts (pair_counters b)) bs))
          with ([] ++ ($"group" ++ $"=" ++ dec (gs_id e)) ++ [] ++ ($" " ++ $"@bucket" ++ tailed (map count_text (printed_counts (pair_counters b))) ++ tailed (flat_map (fun b => $"@bucket" :: counter_texts (pair_counters b)) bs)))
          by (cbn [app]; rewrite <- ?app_assoc; reflexivity).
        apply (wgs [] (dec (gs_id e)) (gs_id e) _ [] [] _ _ (Forall_nil _) D A wcs_nil).
        apply (wsb_cons (printed_counts (pair_counters b)) (map (fun b => printed_counts (pair_counters b)) bs) $" " (tailed (map count_text (printed_counts (pair_counters b)))) _); auto using blank_gap.
        { unfold printed_counts, pair_counters. apply Forall_forall. intros cn Hc. apply filter_In in Hc as [[<-|[<-|[]]] _]; auto. }
        apply counts_written. unfold printed_counts, pair_counters. unfold in_bytes in *. apply Forall_forall. intros cn Hc. apply filter_In in Hc as [[<-|[<-|[]]] _]; cbn; lia.
      * cbn [map app]. rewrite commas_tailed. inversion P as [|? ? Pc Ps]; subst. unfold tailed. rewrite flat_map_app.
        match goal with |- writes_gstat _ _ _ ?x => replace x
          with ([] ++ ($"group" ++ $"=" ++ dec (gs_id e)) ++ ($" " ++ count_text cn ++ tailed (map count_text cs)) ++ tailed (flat_map (fun b => $"@bucket" :: counter_texts (pair_counters b)) (gs_buckets e))) end.
        2:{ unfold tailed. change ($"group=") with ($"group" ++ $"="). rewrite <- !app_assoc. reflexivity. }
        eapply (wgs [] (dec (gs_id e)) (gs_id e) _ _ _ _ _ (Forall_nil _) D A); [|exact SB]. constructor; auto using blank_gap, count_written, counts_written.
    + assert (N : NoDup (map fst (gstat_counters e))) by (cbn; repeat constructor; cbn; intuition discriminate). unfold gstat_of.
      rewrite (count_filter CRef (gstat_counters e) N) with (v := gs_ref e) by (cbn; auto).
      rewrite (count_filter CPackets (gstat_counters e) N) with (v := gs_packets e) by (cbn; auto).
      rewrite (count_filter CBytes (gstat_counters e) N) with (v := gs_bytes e) by (cbn; auto).
      rewrite (count_filter CSec (gstat_counters e) N) with (v := gs_sec e) by (cbn; auto 10).
      rewrite (count_filter CNsec (gstat_counters e) N) with (v := gs_nsec e) by (cbn; auto 10).
      assert (map pair_of (map (fun b => printed_counts (pair_counters b)) (gs_buckets e)) = gs_buckets e) as ->.
      { rewrite map_map. rewrite <- (map_id (gs_buckets e)) at 2. apply map_ext. intros [p q]. unfold pair_of.
        assert (N' : NoDup (map fst (pair_counters (p, q)))) by (cbn; repeat constructor; cbn; intuition discriminate).
        rewrite (count_filter CPackets (pair_counters (p, q)) N') with (v := p) by (cbn; auto). rewrite (count_filter CBytes (pair_counters (p, q)) N') with (v := q) by (cbn; auto). reflexivity. }
      destruct e; reflexivity.
Qed.
Theorem gstats_text_encode l xid : Forall good_gstat l -> l <> [] -> in_bytes 4 xid -> Z.of_nat (16 + length (gstats_wire l)) <= 65535 ->
  text2mpgroup (lines (map gstat_text l)) 19 xid = Ok (mp_wire 19 xid 6 0 (gstats_wire l)).
Proof.
  intros H Hn Hx Hl. apply gstats_encode; auto.
  - clear -H. induction H; cbn [map]; constructor; auto using gstat_text_written.
  - eapply Forall_impl; [|exact H]. now intros e [? _].
Qed.
(** what is not read back: the id "all" and a line that ends after the id raise *)
Lemma rows_raise (body : text -> res bytes) ss s e type xid mt : body s = Raise e -> mp_message type xid mt (map body (s :: ss)) = Raise e.
Proof. intros E. unfold mp_message. cbn [map mp_capture]. rewrite E. reflexivity. Qed.
Theorem all_raises e ss xid : gs_id e = 0xfffffffc -> Forall one_line (gstat_text e :: ss) -> text2mpgroup (lines (gstat_text e :: ss)) 19 xid = Raise ValueError.
Proof.
  intros Hid Ho. unfold text2mpgroup. change (negb (19 =? 19)) with false. cbn match. rewrite lines_split by (auto; discriminate). apply rows_raise.
  unfold gstat_text. rewrite Hid. cbn [Z.eqb]. change (0xfffffffc =? 0xfffffffc) with true. cbn match. set (r := commas (stat_texts e)). unfold mpg_body.
  destruct (assigned_tokens $"group" $"all" $"group=all" [] ($" " ++ r)) as (op & y & E1 & E2 & E3); [apply (assigned_plain $"group")|pl|discriminate|pl|discriminate|constructor|exact (gap_follow _ _ blank_gap)|].
  cbn [app] in E1. match goal with |- context [mpg_head_go ?a ?b ?c] => assert (E : mpg_head_go a b c = Raise ValueError); [|rewrite E; reflexivity] end.
  change (mpg_head_go (length ($"group=all" ++ $" " ++ r)) 0 ($"group=all" ++ $" " ++ r) = Raise ValueError).
  set (s := $"group=all" ++ $" " ++ r) in *. assert (Hne : s <> []) by discriminate. destruct s as [|c0 s0]; [congruence|]. cbn [length mpg_head_go]. rewrite E1. change (text_eqb $"group" $"group") with true. cbn match.
  unfold int_arg. rewrite E2. change (parseInt $"all") with (@Raise (Z * nat) ValueError). rewrite E3. reflexivity.
Qed.
Theorem bare_raises e ss xid : gstat_ok e -> gs_id e <> 0xfffffffc -> gs_id e <> 0xffffffff -> stat_texts e = [] -> Forall one_line (gstat_text e :: ss) -> text2mpgroup (lines (gstat_text e :: ss)) 19 xid = Raise AssertionError.
Proof.
  intros (Hi & _) Ha Hb Hs Ho. unfold text2mpgroup. change (negb (19 =? 19)) with false. cbn match. rewrite lines_split by (auto; discriminate). apply rows_raise.
  unfold gstat_text. destruct (Z.eqb_spec (gs_id e) 0xfffffffc); [congruence|]. destruct (Z.eqb_spec (gs_id e) 0xffffffff); [congruence|]. rewrite Hs. change (commas []) with (@nil Z). rewrite app_nil_r.
  assert (A : assigned $"group" (dec (gs_id e)) ($"group" ++ $"=" ++ dec (gs_id e))) by apply assigned_plain.
  assert (D : literal (dec (gs_id e)) (gs_id e)) by (apply dec_literal; unfold in_bytes in Hi; lia).
  replace ($"group=" ++ dec (gs_id e) ++ $" ") with ([] ++ ($"group" ++ $"=" ++ dec (gs_id e)) ++ $" ") by (cbn [app]; reflexivity). unfold mpg_body.
  assert (Hlen : exists f, length ([] ++ ($"group" ++ $"=" ++ dec (gs_id e)) ++ $" ") = S (S f)) by (rewrite !app_length; change (length $"group") with 5%nat; eexists; cbn; reflexivity).
  destruct Hlen as (f & ->). rewrite (id_step (S f) 0 (dec (gs_id e)) (gs_id e)) by (auto; exact (gap_follow _ [] blank_gap)). reflexivity.
Qed.
(** the printed form of a request *)
Theorem gstat_request_prints type xid fl id : type <> 19 -> in_bytes 1 type -> in_bytes 4 xid -> in_bytes 2 fl -> in_bytes 4 id ->
  mpgroup2text (mp_wire type xid 6 fl (be 4 id ++ pad 4)) = Ok (if id =? 0xfffffffc then [] else if id =? 0xffffffff then $"group=any" else $"group=" ++ dec id).
Proof.
  intros Ht Hty Hx Hf Hi. set (m := MpMsg type xid 6 fl (be 4 id ++ pad 4)). change (mp_wire type xid 6 fl (be 4 id ++ pad 4)) with (mm_wire m).
  set (row := if id =? 0xfffffffc then [] else if id =? 0xffffffff then [$"group=any"] else [$"group=" ++ dec id]).
  assert (K : mpgroup2text_one (mm_wire m) = Ok row).
  { unfold mpgroup2text_one, mm_wire, m. cbn [mm_type mm_xid mm_mt mm_flags mm_body]. rewrite mp_unpack by (auto; try (unfold in_bytes; lia); len). cbn [bind]. change (6 =? 6) with true. cbn [assert bind].
    destruct (Z.eqb_spec type 19); [congruence|]. cbn [negb]. unfold mp_wire. set (L := Z.of_nat _).
    match goal with |- context [unpack_from _ ?x 16] => replace x with ((be 1 4 ++ be 1 type ++ be 2 L ++ be 4 xid ++ be 2 6 ++ be 2 fl ++ pad 4) ++ be 4 id ++ pad 4) by (rewrite <- !app_assoc; reflexivity) end.
    rewrite unpack_from_off by len. rewrite unpack_from_ok by (cbn; lia). unpacks. cbn [bind nth]. unfold row. rewrite fmt_d_dec by (unfold in_bytes in Hi; lia). reflexivity. }
  pose proof (mp_text_ok mpgroup2text_one [m] [row]) as P. cbn [flat_map] in P. rewrite app_nil_r in P. unfold mpgroup2text. rewrite P.
  - cbn [concat]. rewrite app_nil_r. unfold row. destruct (id =? 0xfffffffc); [reflexivity|]. destruct (id =? 0xffffffff); reflexivity.
  - constructor; [|constructor]. split; [auto|]. split; [auto|]. unfold mm_wire. rewrite mp_length. cbn [mm_body]. unfold m. cbn [mm_body]. len.
  - constructor; [exact K|constructor].
Qed.
