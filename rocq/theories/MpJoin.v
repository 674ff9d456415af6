(** Dumps line by line and entry by entry. *)
From Verif Require Import Base PyNum Util PyLib OxmCodec OxmTables Oxm Nx Ofp4 Spec SpecOxm SpecOfp SpecMp SpecJoin SpecMpJoin.
From Verif Require Import BaseFacts UtilFacts OxmFacts OxmPrint OxmFrame TermFacts OfpTerm OfpLoop ActBase Join MpBase MpFrame GramMp.

(** ** Reading *)
Lemma split_two c u v : split_all c (u ++ c :: v) = split_all c u ++ split_all c v.
Proof.
  induction u as [|x u IH]; cbn [app split_all]; [now rewrite Z.eqb_refl|]. destruct (x =? c); [cbn [app]; now rewrite IH|]. rewrite IH.
  destruct (split_all c u) as [|h t] eqn:E; [|reflexivity]. destruct u as [|y u]; cbn [split_all] in E; [discriminate|]. destruct (y =? c); [discriminate|]. destruct (split_all c u); discriminate.
Qed.
Lemma map_two {A} (l l' : list (res A)) bs : l ++ l' = map Ok bs -> exists b b', bs = b ++ b' /\ l = map Ok b /\ l' = map Ok b'.
Proof.
  revert bs. induction l as [|x l IH]; intros bs E; [exists [], bs; auto|]. destruct bs as [|y bs]; [discriminate|]. cbn [app map] in E. injection E as -> E.
  apply IH in E as (b & b' & -> & -> & ->). exists (y :: b), b'. auto.
Qed.
Lemma wire_inj type xid mt fl b b' : mp_wire type xid mt fl b = mp_wire type xid mt fl b' -> b = b'.
Proof.
  intros E. assert (length b = length b') as L by (apply (f_equal (@length _)) in E; rewrite !mp_length in E; lia). unfold mp_wire in E. rewrite L in E. now repeat apply app_inv_head in E.
Qed.
Lemma messages_two (f : text -> res bytes) type xid mt u v m : in_bytes 2 mt ->
  mp_message type xid mt (map f (split_all 10 (u ++ [10] ++ v))) = Ok m <->
  exists b b', mp_message type xid mt (map f (split_all 10 u)) = Ok (mp_wire type xid mt 0 b) /\ mp_message type xid mt (map f (split_all 10 v)) = Ok (mp_wire type xid mt 0 b')
    /\ Z.of_nat (16 + length b + length b') <= 65535 /\ m = mp_wire type xid mt 0 (b ++ b').
Proof.
  intros Hm. cbn [app]. rewrite split_two, map_app. split.
  - intros H. apply message_inv in H as (bs & E & -> & Ht & Hx & L). apply map_two in E as (b & b' & -> & -> & ->). rewrite mp_length, concat_app, app_length in L.
    exists (concat b), (concat b'). rewrite !mp_message_ok by (auto; lia). split; [reflexivity|]. split; [reflexivity|]. split; [lia|]. now rewrite concat_app.
  - intros (b & b' & E & E' & L & ->). apply message_inv in E as (bs & -> & W & Ht & Hx & _). apply message_inv in E' as (bs' & -> & W' & _). apply wire_inj in W, W'. subst b b'.
    rewrite <- map_app, mp_message_ok; auto; rewrite concat_app; [reflexivity|]. rewrite app_length. lia.
Qed.
Lemma flow_lines u v type xid m : text2mpflow (u ++ [10] ++ v) type xid = Ok m <->
  exists b b', text2mpflow u type xid = Ok (mp_wire type xid 1 0 b) /\ text2mpflow v type xid = Ok (mp_wire type xid 1 0 b')
    /\ Z.of_nat (16 + length b + length b') <= 65535 /\ m = mp_wire type xid 1 0 (b ++ b').
Proof.
  rewrite flows_message_eq, messages_two by (split; [discriminate|reflexivity]). split; intros (b & b' & E & E' & K); exists b, b'; (split; [now apply flows_message_eq|]); (split; [now apply flows_message_eq|exact K]).
Qed.
Lemma desc_lines u v xid m : text2mpgroupdesc (u ++ [10] ++ v) 19 xid = Ok m <->
  exists b b', text2mpgroupdesc u 19 xid = Ok (mp_wire 19 xid 7 0 b) /\ text2mpgroupdesc v 19 xid = Ok (mp_wire 19 xid 7 0 b')
    /\ Z.of_nat (16 + length b + length b') <= 65535 /\ m = mp_wire 19 xid 7 0 (b ++ b').
Proof. unfold text2mpgroupdesc. change (negb (19 =? OFPT_MULTIPART_REPLY)) with false. change OFPMP_GROUP_DESC with 7. cbv iota. apply messages_two. split; [discriminate|reflexivity]. Qed.
Lemma stat_lines u v xid m : text2mpgroup (u ++ [10] ++ v) 19 xid = Ok m <->
  exists b b', text2mpgroup u 19 xid = Ok (mp_wire 19 xid 6 0 b) /\ text2mpgroup v 19 xid = Ok (mp_wire 19 xid 6 0 b')
    /\ Z.of_nat (16 + length b + length b') <= 65535 /\ m = mp_wire 19 xid 6 0 (b ++ b').
Proof. unfold text2mpgroup. change (negb (19 =? OFPT_MULTIPART_REPLY)) with false. change OFPMP_GROUP with 6. cbv iota. apply messages_two. split; [discriminate|reflexivity]. Qed.

(** ** Showing: the loop over the entries *)
Section Rows.
  Variable k : nat.
  Variable one : bytes -> res (text * bytes).
  Fixpoint rows_go (fuel : nat) (m : bytes) : res (list text) :=
    if (length m <? k)%nat then Ok []
    else match fuel with
         | O => Diverge
         | S f => '(t, r) <- one m ;; rs <- rows_go f r ;; Ok (t :: rs)
         end.
  Lemma rows_some f m x : (k <= length m)%nat -> rows_go f m = Ok x -> x <> [].
  Proof.
    intros L. destruct f as [|f]; cbn [rows_go]; (destruct (Nat.ltb_spec (length m) k); [lia|]); [discriminate|]. intros E. destruct (one m) as [[t r]|z|]; cbn [bind] in E; try discriminate.
    destruct (rows_go f r); cbn [bind] in E; try discriminate. congruence.
  Qed.
  Lemma rows_none f m : (length m < k)%nat -> rows_go f m = Ok [].
  Proof. intros L. destruct f; cbn [rows_go]; now rewrite (proj2 (Nat.ltb_lt _ _) L). Qed.
  Hypothesis k_pos : (0 < k)%nat.
  Hypothesis one_rest : forall m t r, one m = Ok (t, r) -> r = m \/ (length r < length m)%nat.
  Lemma rows_stuck m t : (k <= length m)%nat -> one m = Ok (t, m) -> forall fuel, rows_go fuel m = Diverge.
  Proof.
    intros L E fuel. induction fuel as [|fuel IH]; cbn [rows_go]; (destruct (Nat.ltb_spec (length m) k); [lia|]); [reflexivity|]. rewrite E. cbn [bind]. now rewrite IH.
  Qed.
  Lemma rows_fuel f : forall f' m, (length m <= f)%nat -> (length m <= f')%nat -> rows_go f m = rows_go f' m.
  Proof.
    induction f as [|f IH]; intros f' m H H'.
    - destruct f'; cbn [rows_go]; (destruct (Nat.ltb_spec (length m) k); [reflexivity|lia]).
    - destruct f' as [|f']; cbn [rows_go]; (destruct (Nat.ltb_spec (length m) k) as [L|L]; [reflexivity|]); [lia|].
      destruct (one m) as [[t r]|e|] eqn:E; cbn [bind]; auto. destruct (one_rest _ _ _ E) as [->|Lr]; [now rewrite !(rows_stuck m t L E)|]. rewrite (IH f') by lia. reflexivity.
  Qed.
  Variable P : bytes -> Prop.
  Hypothesis P_long : forall e, P e -> (k <= length e)%nat.
  Hypothesis P_one : forall e r, P e -> one (e ++ r) = ('(t, _) <- one e ;; Ok (t, r)).
  Lemma rows_join a b : made_of P a -> rows_go (length (a ++ b)) (a ++ b) = (x <- rows_go (length a) a ;; y <- rows_go (length b) b ;; Ok (x ++ y)).
  Proof.
    intros M. induction M as [|e r He M IH].
    - cbn [app length]. replace (rows_go 0 []) with (@Ok (list text) []) by (cbn [rows_go length]; destruct (Nat.ltb_spec 0 k); [reflexivity|lia]). cbn [bind app]. destruct (rows_go (length b) b); reflexivity.
    - pose proof (P_long e He) as L. rewrite <- app_assoc.
      assert (U : forall x, rows_go (length (e ++ x)) (e ++ x) = ('(t, _) <- one e ;; y <- rows_go (length x) x ;; Ok (t :: y))).
      { intros x. assert (exists n, length (e ++ x) = S n) as [n En] by (rewrite app_length; exists (length e + length x - 1)%nat; lia). rewrite En. cbn [rows_go].
        destruct (Nat.ltb_spec (length (e ++ x)) k) as [K|_]; [rewrite app_length in K; lia|]. rewrite (P_one e x He). destruct (one e) as [[t s]|z|]; cbn [bind]; auto.
        rewrite (rows_fuel n (length x)) by (rewrite app_length in En; lia). reflexivity. }
      rewrite !U, IH. destruct (one e) as [[t s]|z|]; cbn [bind]; auto. destruct (rows_go (length r) r) as [x|z|]; cbn [bind]; auto. destruct (rows_go (length b) b); reflexivity.
  Qed.
End Rows.

Definition flow_row1 (body : bytes) : res (text * bytes) :=
  vs <- unpack_from (mpflow_fmt ++ [sH; sH]) body 0 ;;
  match vs with
  | [len; table; dsec; dnsec; priority; idle; hard; flags; cookie; pc; bc; mt; mlen] =>
      if mt =? OFPMT_OXM then
        rstr <- oxm2str (slice 52 (52 + Z.to_nat mlen - 4) body) true ;;
        istr <- inst2str (slice (48 + align8 (Z.to_nat mlen)) (Z.to_nat len) body) true ;;
        Ok (join $" " (map (join $",") (filter (fun x => negb (Nat.eqb (length x) 0))
              [nonzero [($"packet_count", pc); ($"byte_count", bc); ($"duration_sec", dsec); ($"duration_nsec", dnsec)];
               fixed reply_default (Kw (Some cookie) None (Some table) (Some priority) None None None (Some idle) (Some hard) (Some flags)) ++ opt_tok rstr ++ opt_tok istr])),
            skipn (Z.to_nat len) body)
      else Raise ValueError
  | _ => Raise StructError
  end.
Definition desc_row1 (r : bytes) : res (text * bytes) :=
  vs <- unpack_from gdesc_fmt r 0 ;;
  match vs with
  | [len; gtype; gid] =>
      assert! (8 <=? len) ;;
      t <- py_nth ofpgt (Z.to_nat gtype) ;;
      let bin := slice 8 (Z.to_nat len) r in
      bs <- buckets2str_go 16 (length bin) gtype bin ;;
      Ok (join $"," (($"group=" ++ fmt_d gid) :: t :: bs), skipn (Z.to_nat len) r)
  | _ => Raise StructError
  end.
Definition stat_row1 (r : bytes) : res (text * bytes) :=
  vs <- unpack_from mpg_fmt r 0 ;;
  match vs with
  | [len; gid; rc; pc; bc; dsec; dnsec] =>
      assert! (40 <=? len) ;;
      let bs := slice 40 (Z.to_nat len) r in
      bt <- mpg_buckets_go (length bs) bs ;;
      let stat := join $"," (nonzero [($"ref_count", rc); ($"packet_count", pc); ($"byte_count", bc); ($"duration_sec", dsec); ($"duration_nsec", dnsec)] ++ bt) in
      Ok (if gid =? OFPG_ALL then $"group=all " ++ stat else if gid =? OFPG_ANY then stat else $"group=" ++ fmt_d gid ++ $" " ++ stat, skipn (Z.to_nat len) r)
  | _ => Raise StructError
  end.
Lemma flow_rows f : forall m, mpflow_rules_go f m = rows_go 56 flow_row1 f m.
Proof.
  induction f as [|f IH]; intros m; cbn [mpflow_rules_go rows_go]; destruct (_ <? 56)%nat; auto. unfold flow_row1.
  destruct (unpack_from _ m 0) as [vs|e|]; cbn [bind]; auto. do 13 (destruct vs as [|? vs]; [reflexivity|]). destruct vs; [|reflexivity]. destruct (_ =? OFPMT_OXM); auto.
  destruct (oxm2str _ _) as [x|e|]; cbn [bind]; auto. destruct (inst2str _ _) as [y|e|]; cbn [bind]; auto. rewrite IH. reflexivity.
Qed.
Lemma desc_rows f : forall m, gdesc_rows_go f m = rows_go 8 desc_row1 f m.
Proof.
  induction f as [|f IH]; intros m; cbn [gdesc_rows_go rows_go]; destruct (_ <? 8)%nat; auto. unfold desc_row1.
  destruct (unpack_from _ m 0) as [vs|e|]; cbn [bind]; auto. do 3 (destruct vs as [|? vs]; [reflexivity|]). destruct vs; [|reflexivity]. destruct (assert _) as [[]|e|]; cbn [bind]; auto.
  destruct (py_nth _ _) as [x|e|]; cbn [bind]; auto. destruct (buckets2str_go _ _ _ _) as [y|e|]; cbn [bind]; auto. rewrite IH. reflexivity.
Qed.
Lemma stat_rows f : forall m, mpg_rows_go f m = rows_go 40 stat_row1 f m.
Proof.
  induction f as [|f IH]; intros m; cbn [mpg_rows_go rows_go]; destruct (_ <? 40)%nat; auto. unfold stat_row1.
  destruct (unpack_from _ m 0) as [vs|e|]; cbn [bind]; auto. do 7 (destruct vs as [|? vs]; [reflexivity|]). destruct vs; [|reflexivity]. destruct (assert _) as [[]|e|]; cbn [bind]; auto.
  destruct (mpg_buckets_go _ _) as [y|e|]; cbn [bind]; auto. rewrite IH. reflexivity.
Qed.
Lemma skip_shorter n (m : bytes) : skipn n m = m \/ (length (skipn n m) < length m)%nat.
Proof. destruct n; [now left|]. destruct m; [now left|]. right. rewrite skipn_length. cbn [length]. lia. Qed.
Lemma flow_rest m t r : flow_row1 m = Ok (t, r) -> r = m \/ (length r < length m)%nat.
Proof.
  unfold flow_row1. intros H. destruct (unpack_from _ m 0) as [vs|e|]; cbn [bind] in H; try discriminate. do 13 (destruct vs as [|? vs]; [discriminate|]). destruct vs; [|discriminate]. destruct (_ =? OFPMT_OXM); [|discriminate].
  destruct (oxm2str _ _) as [x|e|]; cbn [bind] in H; try discriminate. destruct (inst2str _ _) as [y|e|]; cbn [bind] in H; try discriminate. apply (f_equal (fun p => match p with Ok q => snd q | _ => [] end)) in H. cbn [snd] in H. rewrite <- H. apply skip_shorter.
Qed.
Lemma desc_rest m t r : desc_row1 m = Ok (t, r) -> r = m \/ (length r < length m)%nat.
Proof.
  unfold desc_row1. intros H. destruct (unpack_from _ m 0) as [vs|e|]; cbn [bind] in H; try discriminate. do 3 (destruct vs as [|? vs]; [discriminate|]). destruct vs; [|discriminate]. destruct (assert _) as [[]|e|]; cbn [bind] in H; try discriminate.
  destruct (py_nth _ _) as [x|e|]; cbn [bind] in H; try discriminate. destruct (buckets2str_go _ _ _ _) as [y|e|]; cbn [bind] in H; try discriminate. apply (f_equal (fun p => match p with Ok q => snd q | _ => [] end)) in H. cbn [snd] in H. rewrite <- H. apply skip_shorter.
Qed.
Lemma stat_rest m t r : stat_row1 m = Ok (t, r) -> r = m \/ (length r < length m)%nat.
Proof.
  unfold stat_row1. intros H. destruct (unpack_from _ m 0) as [vs|e|]; cbn [bind] in H; try discriminate. do 7 (destruct vs as [|? vs]; [discriminate|]). destruct vs; [|discriminate]. destruct (assert _) as [[]|e|]; cbn [bind] in H; try discriminate.
  destruct (mpg_buckets_go _ _) as [y|e|]; cbn [bind] in H; try discriminate. apply (f_equal (fun p => match p with Ok q => snd q | _ => [] end)) in H. cbn [snd] in H. rewrite <- H. apply skip_shorter.
Qed.

Lemma flow_head e : (56 <= length e)%nat -> exists a b c d f g h i j k l, unpack_from (mpflow_fmt ++ [sH; sH]) e 0 = Ok [at_off 0 2 e; a; b; c; d; f; g; h; i; j; k; l; at_off 50 2 e].
Proof.
  intros H. unfold unpack_from. rewrite (proj2 (Nat.leb_le _ _)) by (cbn; lia). unfold at_off. cbn [mpflow_fmt app unpack_raw]. rewrite !skipn_skipn, !be_val_spec. cbn [Nat.add]. do 11 eexists. reflexivity.
Qed.
Lemma desc_head e : (8 <= length e)%nat -> exists a b, unpack_from gdesc_fmt e 0 = Ok [at_off 0 2 e; a; b].
Proof.
  intros H. unfold unpack_from. rewrite (proj2 (Nat.leb_le _ _)) by (cbn; lia). unfold at_off. cbn [gdesc_fmt app unpack_raw]. rewrite !skipn_skipn, !be_val_spec. cbn [Nat.add]. do 2 eexists. reflexivity.
Qed.
Lemma stat_head e : (40 <= length e)%nat -> exists a b c d f g, unpack_from mpg_fmt e 0 = Ok [at_off 0 2 e; a; b; c; d; f; g].
Proof.
  intros H. unfold unpack_from. rewrite (proj2 (Nat.leb_le _ _)) by (cbn; lia). unfold at_off. cbn [mpg_fmt app unpack_raw]. rewrite !skipn_skipn, !be_val_spec. cbn [Nat.add]. do 6 eexists. reflexivity.
Qed.
Lemma skip_entry (e r : bytes) : skipn (length e) (e ++ r) = r.
Proof. rewrite skipn_app_le by lia. now rewrite skipn_all. Qed.
Lemma flow_entry e r : whole_fstat e -> flow_row1 (e ++ r) = ('(t, _) <- flow_row1 e ;; Ok (t, r)).
Proof.
  intros (H & Hl & Hm). unfold flow_row1. rewrite unpack_from_app by (cbn; lia). destruct (flow_head e H) as (a & b & c & d & f & g & h & i & j & k & l & ->). cbn [bind].
  rewrite <- Hl, Nat2Z.id, skip_entry. pose proof (num_be_range (firstn 2 (skipn 50 e))) as H0. fold (at_off 50 2 e) in H0. rewrite !slice_app by lia.
  destruct (l =? OFPMT_OXM); auto. destruct (oxm2str _ _) as [x|z|]; cbn [bind]; auto. destruct (inst2str _ _) as [y|z|]; reflexivity.
Qed.
Lemma desc_entry e r : whole_gdesc e -> desc_row1 (e ++ r) = ('(t, _) <- desc_row1 e ;; Ok (t, r)).
Proof.
  intros (H & Hl). unfold desc_row1. rewrite unpack_from_app by (cbn; lia). destruct (desc_head e H) as (a & b & ->). cbn [bind].
  rewrite <- Hl, Nat2Z.id, skip_entry. rewrite !slice_app by lia. destruct (assert _) as [[]|z|]; cbn [bind]; auto.
  destruct (py_nth _ _) as [x|z|]; cbn [bind]; auto. destruct (buckets2str_go _ _ _ _) as [y|z|]; reflexivity.
Qed.
Lemma stat_entry e r : whole_gstat e -> stat_row1 (e ++ r) = ('(t, _) <- stat_row1 e ;; Ok (t, r)).
Proof.
  intros (H & Hl). unfold stat_row1. rewrite unpack_from_app by (cbn; lia). destruct (stat_head e H) as (a & b & c & d & f & g & ->). cbn [bind].
  rewrite <- Hl, Nat2Z.id, skip_entry. rewrite !slice_app by lia. destruct (assert _) as [[]|z|]; cbn [bind]; auto. destruct (mpg_buckets_go _ _) as [y|z|]; reflexivity.
Qed.

(** ** Showing: the loop over the messages *)
Section Parts.
  Variable one : bytes -> res (list text).
  Hypothesis one_nil : one [] = Raise StructError.
  Lemma parts_fuel f : forall f' m, (length m <= f)%nat -> (length m <= f')%nat -> mp_rows_go one f m = mp_rows_go one f' m.
  Proof.
    induction f as [|f IH]; intros f' m H H'; (destruct m as [|x m]; [destruct f'; reflexivity|]); [cbn in H; lia|]. destruct f' as [|f']; [cbn in H'; lia|]. cbn [mp_rows_go].
    destruct (unpack_from _ _ _) as [vs|e|]; cbn [bind]; auto. destruct (Z.to_nat (nth 2 vs 0)) as [|n]; [cbn [firstn]; now rewrite one_nil|].
    destruct (one (firstn _ _)) as [t|e|]; cbn [bind]; auto. rewrite (IH f'); auto; cbn [skipn]; rewrite skipn_length; cbn [length] in *; lia.
  Qed.
  Lemma parts_first xid mt fl b r : part_ok b xid fl -> mp_rows_go one (length (mp_wire 19 xid mt fl b ++ r)) (mp_wire 19 xid mt fl b ++ r) =
    (x <- one (mp_wire 19 xid mt fl b) ;; y <- mp_rows_go one (length r) r ;; Ok (x ++ y)).
  Proof.
    intros (Hx & Hf & Hl). set (w := mp_wire 19 xid mt fl b). assert (Lw : length w = (16 + length b)%nat) by apply mp_length.
    assert (E : unpack_from [sB; sB; sH; sI] (w ++ r) 0 = Ok [4; 19; Z.of_nat (length w); xid]).
    { rewrite unpack_from_app by (rewrite Lw; cbn; lia). rewrite unpack_from_ok by (rewrite Lw; cbn; lia). rewrite Lw. unfold w, mp_wire. set (q := Z.of_nat _) in *. assert (in_bytes 2 q) by (apply in_bytes_2; unfold q in *; lia). clearbody q.
      assert (in_bytes 1 19) by (split; [discriminate|reflexivity]). unpacks. reflexivity. }
    destruct (w ++ r) as [|b0 bs] eqn:Eb; [apply (f_equal (@length _)) in Eb; rewrite app_length in Eb; cbn [length] in Eb; lia|]. cbn [length mp_rows_go]. rewrite E. cbn [bind nth]. rewrite Nat2Z.id, <- Eb.
    rewrite firstn_app_le, firstn_all, skip_entry by lia. destruct (one w) as [t|e|]; cbn [bind]; auto. rewrite (parts_fuel (length bs) (length r)); auto.
    apply (f_equal (@length _)) in Eb. rewrite app_length in Eb. cbn [length] in Eb. lia.
  Qed.
  Lemma part_alone xid mt fl b : part_ok b xid fl -> mp_text one (mp_wire 19 xid mt fl b) = (x <- one (mp_wire 19 xid mt fl b) ;; Ok (join [10] x)).
  Proof.
    intros H. unfold mp_text. pose proof (parts_first xid mt fl b [] H) as K. rewrite app_nil_r in K. rewrite K. destruct (one (mp_wire 19 xid mt fl b)); cbn [bind]; auto. change (mp_rows_go one (length []) []) with (@Ok (list text) []). cbn [bind]. now rewrite app_nil_r.
  Qed.
  Lemma parts_two xid mt fl b xid' fl' b' r : part_ok b xid fl -> part_ok b' xid' fl' -> (forall x, one (mp_wire 19 xid mt fl b) = Ok x -> x <> []) -> (forall x, one (mp_wire 19 xid' mt fl' b') = Ok x -> x <> []) ->
    mp_text one (mp_wire 19 xid mt fl b ++ mp_wire 19 xid' mt fl' b' ++ r) =
    (t <- mp_text one (mp_wire 19 xid mt fl b) ;; t' <- mp_text one (mp_wire 19 xid' mt fl' b' ++ r) ;; Ok (t ++ [10] ++ t')).
  Proof.
    intros H H' N N'. rewrite part_alone by auto. unfold mp_text. rewrite parts_first by auto. destruct (one (mp_wire 19 xid mt fl b)) as [x|e|]; cbn [bind]; auto.
    assert (K : forall y, mp_rows_go one (length (mp_wire 19 xid' mt fl' b' ++ r)) (mp_wire 19 xid' mt fl' b' ++ r) = Ok y -> y <> []).
    { intros y. rewrite parts_first by auto. destruct (one (mp_wire 19 xid' mt fl' b')) as [z|e|]; cbn [bind]; try discriminate. specialize (N' _ eq_refl). destruct (mp_rows_go one (length r) r); cbn [bind]; try discriminate.
      intros Ey. assert (y = z ++ a) as -> by congruence. destruct z; [congruence|discriminate]. }
    destruct (mp_rows_go one _ _) as [y|e|]; cbn [bind]; auto. rewrite join_two; auto.
  Qed.
  Lemma part_empty xid mt fl b r : part_ok b xid fl -> one (mp_wire 19 xid mt fl b) = Ok [] -> mp_text one (mp_wire 19 xid mt fl b ++ r) = mp_text one r.
  Proof. intros H E. unfold mp_text. rewrite parts_first, E by auto. cbn [bind]. destruct (mp_rows_go one _ _); reflexivity. Qed.
End Parts.
Lemma flow_part xid fl b : part_ok b xid fl -> mpflow2text_one (mp_wire 19 xid 1 fl b) = rows_go 56 flow_row1 (length b) b.
Proof.
  intros (Hx & Hf & Hl). unfold mpflow2text_one. rewrite mp_unpack by (auto; easy). cbn [bind]. change (1 =? OFPMP_FLOW) with true. cbn [assert bind].
  change (negb (19 =? OFPT_MULTIPART_REPLY)) with false. cbv iota. rewrite mp_slice. apply flow_rows.
Qed.
Lemma desc_part xid fl b : part_ok b xid fl -> mpgroupdesc2text_one (mp_wire 19 xid 7 fl b) = rows_go 8 desc_row1 (length b) b.
Proof.
  intros (Hx & Hf & Hl). unfold mpgroupdesc2text_one. rewrite mp_unpack by (auto; easy). cbn [bind]. change (7 =? OFPMP_GROUP_DESC) with true. cbn [assert bind].
  change (negb (19 =? OFPT_MULTIPART_REPLY)) with false. cbv iota. rewrite mp_slice. apply desc_rows.
Qed.
Lemma stat_part xid fl b : part_ok b xid fl -> mpgroup2text_one (mp_wire 19 xid 6 fl b) = rows_go 40 stat_row1 (length b) b.
Proof.
  intros (Hx & Hf & Hl). unfold mpgroup2text_one. rewrite mp_unpack by (auto; easy). cbn [bind]. change (6 =? OFPMP_GROUP) with true. cbn [assert bind].
  change (negb (19 =? OFPT_MULTIPART_REPLY)) with false. cbv iota. rewrite mp_slice. apply stat_rows.
Qed.
(** ** The texts *)
Lemma entries_shown one k row xid mt fl a b (P : bytes -> Prop) : one [] = Raise StructError -> (forall xid fl b, part_ok b xid fl -> one (mp_wire 19 xid mt fl b) = rows_go k row (length b) b) ->
  (0 < k)%nat -> (forall m t r, row m = Ok (t, r) -> r = m \/ (length r < length m)%nat) -> (forall e, P e -> (k <= length e)%nat) -> (forall e r, P e -> row (e ++ r) = ('(t, _) <- row e ;; Ok (t, r))) ->
  made_of P a -> part_ok (a ++ b) xid fl ->
  (a <> [] -> (k <= length b)%nat -> mp_text one (mp_wire 19 xid mt fl (a ++ b)) = (t <- mp_text one (mp_wire 19 xid mt fl a) ;; t' <- mp_text one (mp_wire 19 xid mt fl b) ;; Ok (t ++ [10] ++ t')))
  /\ ((length b < k)%nat -> mp_text one (mp_wire 19 xid mt fl (a ++ b)) = mp_text one (mp_wire 19 xid mt fl a)).
Proof.
  intros N Ho Hk Hr Pl P1 M (Hx & Hf & Hl). rewrite app_length in Hl.
  assert (part_ok (a ++ b) xid fl) by (repeat split; try apply Hx; try apply Hf; rewrite app_length; lia). assert (part_ok a xid fl) by (repeat split; try apply Hx; try apply Hf; lia). assert (part_ok b xid fl) by (repeat split; try apply Hx; try apply Hf; lia).
  rewrite !part_alone, !Ho by auto. rewrite (rows_join k row Hk Hr P Pl P1 a b M). split.
  - intros Ha Hb. assert (k <= length a)%nat as Ka.
    { destruct M as [|e r He M]; [congruence|]. apply Pl in He. rewrite app_length. lia. }
    destruct (rows_go k row (length a) a) as [x|e|] eqn:Ex; cbn [bind]; auto. destruct (rows_go k row (length b) b) as [y|e|] eqn:Ey; cbn [bind]; auto.
    apply rows_some in Ex; auto. apply rows_some in Ey; auto. now rewrite join_two.
  - intros Hb. rewrite (rows_none k row _ b Hb). destruct (rows_go k row (length a) a); cbn [bind]; auto. now rewrite app_nil_r.
Qed.
Lemma flow_entries a b xid fl : made_of whole_fstat a -> part_ok (a ++ b) xid fl ->
  (a <> [] -> (56 <= length b)%nat -> mpflow2text (mp_wire 19 xid 1 fl (a ++ b)) = (t <- mpflow2text (mp_wire 19 xid 1 fl a) ;; t' <- mpflow2text (mp_wire 19 xid 1 fl b) ;; Ok (t ++ [10] ++ t')))
  /\ ((length b < 56)%nat -> mpflow2text (mp_wire 19 xid 1 fl (a ++ b)) = mpflow2text (mp_wire 19 xid 1 fl a)).
Proof.
  intros M K. apply (entries_shown mpflow2text_one 56 flow_row1 xid 1 fl a b whole_fstat); auto using flow_part, flow_entry; [lia|exact flow_rest|]. now intros e [L _].
Qed.
Lemma desc_entries a b xid fl : made_of whole_gdesc a -> part_ok (a ++ b) xid fl ->
  (a <> [] -> (8 <= length b)%nat -> mpgroupdesc2text (mp_wire 19 xid 7 fl (a ++ b)) = (t <- mpgroupdesc2text (mp_wire 19 xid 7 fl a) ;; t' <- mpgroupdesc2text (mp_wire 19 xid 7 fl b) ;; Ok (t ++ [10] ++ t')))
  /\ ((length b < 8)%nat -> mpgroupdesc2text (mp_wire 19 xid 7 fl (a ++ b)) = mpgroupdesc2text (mp_wire 19 xid 7 fl a)).
Proof.
  intros M K. apply (entries_shown mpgroupdesc2text_one 8 desc_row1 xid 7 fl a b whole_gdesc); auto using desc_part, desc_entry; [lia|exact desc_rest|]. now intros e [L _].
Qed.
Lemma stat_entries a b xid fl : made_of whole_gstat a -> part_ok (a ++ b) xid fl ->
  (a <> [] -> (40 <= length b)%nat -> mpgroup2text (mp_wire 19 xid 6 fl (a ++ b)) = (t <- mpgroup2text (mp_wire 19 xid 6 fl a) ;; t' <- mpgroup2text (mp_wire 19 xid 6 fl b) ;; Ok (t ++ [10] ++ t')))
  /\ ((length b < 40)%nat -> mpgroup2text (mp_wire 19 xid 6 fl (a ++ b)) = mpgroup2text (mp_wire 19 xid 6 fl a)).
Proof.
  intros M K. apply (entries_shown mpgroup2text_one 40 stat_row1 xid 6 fl a b whole_gstat); auto using stat_part, stat_entry; [lia|exact stat_rest|]. now intros e [L _].
Qed.
Lemma parts_shown one k row mt xid fl a : one [] = Raise StructError -> (forall xid fl b, part_ok b xid fl -> one (mp_wire 19 xid mt fl b) = rows_go k row (length b) b) -> part_ok a xid fl ->
  (forall xid' fl' b r, (k <= length a)%nat -> (k <= length b)%nat -> part_ok b xid' fl' ->
     mp_text one (mp_wire 19 xid mt fl a ++ mp_wire 19 xid' mt fl' b ++ r) = (t <- mp_text one (mp_wire 19 xid mt fl a) ;; t' <- mp_text one (mp_wire 19 xid' mt fl' b ++ r) ;; Ok (t ++ [10] ++ t')))
  /\ (forall r, (length a < k)%nat -> mp_text one (mp_wire 19 xid mt fl a ++ r) = mp_text one r).
Proof.
  intros N Ho H. split.
  - intros xid' fl' b r La Lb Hb. apply parts_two; auto; intros x; rewrite Ho by auto; now apply rows_some.
  - intros r La. apply part_empty; auto. rewrite Ho by auto. now apply rows_none.
Qed.
Lemma flow_parts xid fl a : part_ok a xid fl ->
  (forall xid' fl' b r, (56 <= length a)%nat -> (56 <= length b)%nat -> part_ok b xid' fl' ->
     mpflow2text (mp_wire 19 xid 1 fl a ++ mp_wire 19 xid' 1 fl' b ++ r) = (t <- mpflow2text (mp_wire 19 xid 1 fl a) ;; t' <- mpflow2text (mp_wire 19 xid' 1 fl' b ++ r) ;; Ok (t ++ [10] ++ t')))
  /\ (forall r, (length a < 56)%nat -> mpflow2text (mp_wire 19 xid 1 fl a ++ r) = mpflow2text r).
Proof. intros H. apply (parts_shown mpflow2text_one 56 flow_row1); auto using flow_part. Qed.
Lemma desc_parts xid fl a : part_ok a xid fl ->
  (forall xid' fl' b r, (8 <= length a)%nat -> (8 <= length b)%nat -> part_ok b xid' fl' ->
     mpgroupdesc2text (mp_wire 19 xid 7 fl a ++ mp_wire 19 xid' 7 fl' b ++ r) = (t <- mpgroupdesc2text (mp_wire 19 xid 7 fl a) ;; t' <- mpgroupdesc2text (mp_wire 19 xid' 7 fl' b ++ r) ;; Ok (t ++ [10] ++ t')))
  /\ (forall r, (length a < 8)%nat -> mpgroupdesc2text (mp_wire 19 xid 7 fl a ++ r) = mpgroupdesc2text r).
Proof. intros H. apply (parts_shown mpgroupdesc2text_one 8 desc_row1); auto using desc_part. Qed.
Lemma stat_parts xid fl a : part_ok a xid fl ->
  (forall xid' fl' b r, (40 <= length a)%nat -> (40 <= length b)%nat -> part_ok b xid' fl' ->
     mpgroup2text (mp_wire 19 xid 6 fl a ++ mp_wire 19 xid' 6 fl' b ++ r) = (t <- mpgroup2text (mp_wire 19 xid 6 fl a) ;; t' <- mpgroup2text (mp_wire 19 xid' 6 fl' b ++ r) ;; Ok (t ++ [10] ++ t')))
  /\ (forall r, (length a < 40)%nat -> mpgroup2text (mp_wire 19 xid 6 fl a ++ r) = mpgroup2text r).
Proof. intros H. apply (parts_shown mpgroup2text_one 40 stat_row1); auto using stat_part. Qed.
