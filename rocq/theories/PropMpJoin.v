(** C81: dumps line by line and entry by entry. *)
From Verif Require Import Base PyNum Util PyLib OxmCodec OxmTables Oxm Nx Ofp4 Spec SpecOxm SpecOfp SpecMp SpecJoin SpecMpJoin.
From Verif Require Import MpJoin.

(** ** Reading: the entries of two texts with a newline between them, in one message *)
Theorem C81_flow_lines : forall u v type xid m, text2mpflow (u ++ [10] ++ v) type xid = Ok m <->
  exists b b', text2mpflow u type xid = Ok (mp_wire type xid 1 0 b) /\ text2mpflow v type xid = Ok (mp_wire type xid 1 0 b')
    /\ Z.of_nat (16 + length b + length b') <= 65535 /\ m = mp_wire type xid 1 0 (b ++ b').
Proof. exact flow_lines. Qed.
Theorem C81_desc_lines : forall u v xid m, text2mpgroupdesc (u ++ [10] ++ v) 19 xid = Ok m <->
  exists b b', text2mpgroupdesc u 19 xid = Ok (mp_wire 19 xid 7 0 b) /\ text2mpgroupdesc v 19 xid = Ok (mp_wire 19 xid 7 0 b')
    /\ Z.of_nat (16 + length b + length b') <= 65535 /\ m = mp_wire 19 xid 7 0 (b ++ b').
Proof. exact desc_lines. Qed.
Theorem C81_stat_lines : forall u v xid m, text2mpgroup (u ++ [10] ++ v) 19 xid = Ok m <->
  exists b b', text2mpgroup u 19 xid = Ok (mp_wire 19 xid 6 0 b) /\ text2mpgroup v 19 xid = Ok (mp_wire 19 xid 6 0 b')
    /\ Z.of_nat (16 + length b + length b') <= 65535 /\ m = mp_wire 19 xid 6 0 (b ++ b').
Proof. exact stat_lines. Qed.

(** ** Showing: the entries of one message, exceptions and endless loops included *)
Theorem C81_flow_entries : forall a b xid fl, made_of whole_fstat a -> part_ok (a ++ b) xid fl ->
  (a <> [] -> (56 <= length b)%nat -> mpflow2text (mp_wire 19 xid 1 fl (a ++ b)) = (t <- mpflow2text (mp_wire 19 xid 1 fl a) ;; t' <- mpflow2text (mp_wire 19 xid 1 fl b) ;; Ok (t ++ [10] ++ t')))
  /\ ((length b < 56)%nat -> mpflow2text (mp_wire 19 xid 1 fl (a ++ b)) = mpflow2text (mp_wire 19 xid 1 fl a)).
Proof. exact flow_entries. Qed.
Theorem C81_desc_entries : forall a b xid fl, made_of whole_gdesc a -> part_ok (a ++ b) xid fl ->
  (a <> [] -> (8 <= length b)%nat -> mpgroupdesc2text (mp_wire 19 xid 7 fl (a ++ b)) = (t <- mpgroupdesc2text (mp_wire 19 xid 7 fl a) ;; t' <- mpgroupdesc2text (mp_wire 19 xid 7 fl b) ;; Ok (t ++ [10] ++ t')))
  /\ ((length b < 8)%nat -> mpgroupdesc2text (mp_wire 19 xid 7 fl (a ++ b)) = mpgroupdesc2text (mp_wire 19 xid 7 fl a)).
Proof. exact desc_entries. Qed.
Theorem C81_stat_entries : forall a b xid fl, made_of whole_gstat a -> part_ok (a ++ b) xid fl ->
  (a <> [] -> (40 <= length b)%nat -> mpgroup2text (mp_wire 19 xid 6 fl (a ++ b)) = (t <- mpgroup2text (mp_wire 19 xid 6 fl a) ;; t' <- mpgroup2text (mp_wire 19 xid 6 fl b) ;; Ok (t ++ [10] ++ t')))
  /\ ((length b < 40)%nat -> mpgroup2text (mp_wire 19 xid 6 fl (a ++ b)) = mpgroup2text (mp_wire 19 xid 6 fl a)).
Proof. exact stat_entries. Qed.

(** ** Showing: messages one behind the other, whatever their entries are *)
Theorem C81_flow_parts : forall xid fl a, part_ok a xid fl ->
  (forall xid' fl' b r, (56 <= length a)%nat -> (56 <= length b)%nat -> part_ok b xid' fl' ->
     mpflow2text (mp_wire 19 xid 1 fl a ++ mp_wire 19 xid' 1 fl' b ++ r) = (t <- mpflow2text (mp_wire 19 xid 1 fl a) ;; t' <- mpflow2text (mp_wire 19 xid' 1 fl' b ++ r) ;; Ok (t ++ [10] ++ t')))
  /\ (forall r, (length a < 56)%nat -> mpflow2text (mp_wire 19 xid 1 fl a ++ r) = mpflow2text r).
Proof. exact flow_parts. Qed.
Theorem C81_desc_parts : forall xid fl a, part_ok a xid fl ->
  (forall xid' fl' b r, (8 <= length a)%nat -> (8 <= length b)%nat -> part_ok b xid' fl' ->
     mpgroupdesc2text (mp_wire 19 xid 7 fl a ++ mp_wire 19 xid' 7 fl' b ++ r) = (t <- mpgroupdesc2text (mp_wire 19 xid 7 fl a) ;; t' <- mpgroupdesc2text (mp_wire 19 xid' 7 fl' b ++ r) ;; Ok (t ++ [10] ++ t')))
  /\ (forall r, (length a < 8)%nat -> mpgroupdesc2text (mp_wire 19 xid 7 fl a ++ r) = mpgroupdesc2text r).
Proof. exact desc_parts. Qed.
Theorem C81_stat_parts : forall xid fl a, part_ok a xid fl ->
  (forall xid' fl' b r, (40 <= length a)%nat -> (40 <= length b)%nat -> part_ok b xid' fl' ->
     mpgroup2text (mp_wire 19 xid 6 fl a ++ mp_wire 19 xid' 6 fl' b ++ r) = (t <- mpgroup2text (mp_wire 19 xid 6 fl a) ;; t' <- mpgroup2text (mp_wire 19 xid' 6 fl' b ++ r) ;; Ok (t ++ [10] ++ t')))
  /\ (forall r, (length a < 40)%nat -> mpgroup2text (mp_wire 19 xid 6 fl a ++ r) = mpgroup2text r).
Proof. exact stat_parts. Qed.

(** a newline at the end is read as one more entry *)
Theorem C81_newline_refuted : ~ forall u xid m, text2mpflow u 19 xid = Ok m -> text2mpflow (u ++ [10]) 19 xid = Ok m.
Proof.
  intros H. destruct (text2mpflow $"in_port=1" 19 7) as [m| |] eqn:E; [|vm_compute in E; discriminate E..]. pose proof (H _ _ _ E) as K. rewrite <- E in K. vm_compute in K. discriminate K.
Qed.
(** a match longer than its entry is read from the next one *)
Theorem C81_match_refuted : ~ forall e b xid fl, (56 <= length e)%nat -> Z.of_nat (length e) = at_off 0 2 e -> part_ok (e ++ b) xid fl -> (56 <= length b)%nat ->
  mpflow2text (mp_wire 19 xid 1 fl (e ++ b)) = (t <- mpflow2text (mp_wire 19 xid 1 fl e) ;; t' <- mpflow2text (mp_wire 19 xid 1 fl b) ;; Ok (t ++ [10] ++ t')).
Proof.
  intros H. specialize (H ([x00; x38] ++ pad 46 ++ [x00; x01; x00; x0c; x80; x00; x00; x04]) ([x00; x38] ++ pad 46 ++ [x00; x01; x00; x04; x00; x00; x00; x00]) 7 0 ltac:(vm_compute; lia) eq_refl ltac:(repeat split; vm_compute; discriminate) ltac:(vm_compute; lia)). vm_compute in H. discriminate H.
Qed.
Example C81_case :
  let flow := [x00; x48] ++ pad 10 ++ [x00; x05] ++ pad 34 ++ [x00; x01; x00; x0c; x80; x00; x00; x04; x00; x00; x00; x01; x00; x00; x00; x00; x00; x01; x00; x08; x03; x00; x00; x00] in
  let group := [x00; x28; x00; x00; x00; x00; x00; x01; x00; x20; x00; x00] ++ repeat xff 8 ++ pad 4 ++ [x00; x00; x00; x10; x00; x00; x00; x01; xff; xff] ++ pad 6 in
  let stat := [x00; x38; x00; x00; x00; x00; x00; x01; x00; x00; x00; x03] ++ pad 35 ++ [x02] ++ pad 8 in
  whole_fstat flow /\ whole_gdesc group /\ whole_gstat stat
  /\ text2mpflow ($"priority=5,in_port=1,@goto=3" ++ [10] ++ $"priority=5,in_port=1,@goto=3") 19 7 = Ok (mp_wire 19 7 1 0 (flow ++ flow))
  /\ mpflow2text (mp_wire 19 7 1 0 (flow ++ flow)) = Ok ($"priority=5,in_port=1,@goto=3" ++ [10] ++ $"priority=5,in_port=1,@goto=3")
  /\ mpflow2text (mp_wire 19 7 1 1 flow ++ mp_wire 19 7 1 0 flow) = Ok ($"priority=5,in_port=1,@goto=3" ++ [10] ++ $"priority=5,in_port=1,@goto=3")
  /\ mpgroupdesc2text (mp_wire 19 7 7 1 group ++ mp_wire 19 7 7 0 (group ++ group)) =
       Ok ($"group=1,all,@bucket,output=1" ++ [10] ++ $"group=1,all,@bucket,output=1" ++ [10] ++ $"group=1,all,@bucket,output=1")
  /\ mpgroup2text (mp_wire 19 7 6 1 [] ++ mp_wire 19 7 6 0 (stat ++ stat)) = Ok ($"group=1 ref_count=3,@bucket,packet_count=2" ++ [10] ++ $"group=1 ref_count=3,@bucket,packet_count=2").
Proof.
  intros flow group stat. split; [|split; [|split; [|vm_compute; repeat split]]].
  - split; [vm_compute; lia|]. split; [reflexivity|vm_compute; discriminate].
  - split; [vm_compute; lia|reflexivity].
  - split; [vm_compute; lia|reflexivity].
Qed.
Print Assumptions C81_flow_lines.
Print Assumptions C81_desc_lines.
Print Assumptions C81_stat_lines.
Print Assumptions C81_flow_entries.
Print Assumptions C81_desc_entries.
Print Assumptions C81_stat_entries.
Print Assumptions C81_flow_parts.
Print Assumptions C81_desc_parts.
Print Assumptions C81_stat_parts.
Print Assumptions C81_newline_refuted.
Print Assumptions C81_match_refuted.
Print Assumptions C81_case.
