(** C80: byte strings of whole entries printed one behind the other. *)
From Verif Require Import Base PyNum Util PyLib OxmCodec OxmTables Oxm Nx Ofp4 Spec SpecJoin.
From Verif Require Import Join.

(** whatever follows is printed as if it stood alone, with the same exceptions *)
Theorem C80_match : forall a b, made_of whole_field a -> a <> [] -> (4 <= length b)%nat ->
  oxm2str (a ++ b) true = (t <- oxm2str a true ;; t' <- oxm2str b true ;; Ok (t ++ $"," ++ t')).
Proof. exact fields_joined. Qed.
Theorem C80_actions : forall a b, made_of whole_action a -> a <> [] -> (4 < length b)%nat ->
  act2str (a ++ b) true = (t <- act2str a true ;; t' <- act2str b true ;; Ok (t ++ $"," ++ t')).
Proof. exact actions_joined. Qed.
Theorem C80_instructions : forall a b, made_of whole_entry a -> a <> [] -> (4 < length b)%nat ->
  inst2str (a ++ b) true = (t <- inst2str a true ;; t' <- inst2str b true ;; Ok (t ++ $"," ++ t')).
Proof. exact insts_joined. Qed.
(** bytes too few for an entry leave no trace *)
Theorem C80_tail : forall a b,
  (made_of whole_field a -> (length b < 4)%nat -> oxm2str (a ++ b) true = oxm2str a true)
  /\ (made_of whole_action a -> (length b <= 4)%nat -> act2str (a ++ b) true = act2str a true)
  /\ (made_of whole_entry a -> (length b <= 4)%nat -> inst2str (a ++ b) true = inst2str a true).
Proof. intros a b. split; [exact (fields_tail a b)|]. split; [exact (actions_tail a b)|exact (insts_tail a b)]. Qed.
(** a group: behind the text of the first buckets stands what the others add to the header, a message of 16 bytes *)
Theorem C80_group : forall h a b, length h = 16%nat -> made_of whole_bucket a ->
  group2str (h ++ a ++ b) = (hd <- group2str h ;; t <- group2str (h ++ a) ;; t' <- group2str (h ++ b) ;; Ok (t ++ skipn (length hd) t')).
Proof. exact group_joined. Qed.
(** a bucket without actions is shown only if something follows *)
Theorem C80_bucket_refuted : ~ forall h e b, length h = 16%nat -> (16 <= length e)%nat -> Z.of_nat (length e) = at_off 0 2 e ->
  group2str (h ++ e ++ b) = (hd <- group2str h ;; t <- group2str (h ++ e) ;; t' <- group2str (h ++ b) ;; Ok (t ++ skipn (length hd) t')).
Proof.
  intros H. set (e := [x00; x10; x00; x00] ++ repeat xff 8 ++ repeat x00 4). specialize (H ([x04; x0f] ++ repeat x00 13 ++ [x05]) e (e ++ e) eq_refl ltac:(cbn; lia) eq_refl). vm_compute in H. discriminate H.
Qed.
Example C80_group_case :
  let h := [x04; x0f; x00; x50] ++ repeat x00 11 ++ [x05] in
  let e p := [x00; x20; x00; x00] ++ repeat xff 8 ++ repeat x00 7 ++ [x10; x00; x00; x00; p; xff; xff] ++ repeat x00 6 in
  made_of whole_bucket (e x01 ++ []) /\ group2str h = Ok $"group=5,all" /\ group2str (h ++ e x01) = Ok $"group=5,all,@bucket,output=1"
  /\ group2str (h ++ e x01 ++ e x02) = Ok $"group=5,all,@bucket,output=1,@bucket,output=2" /\ group2str (h ++ e x01 ++ [x00]) = Ok $"group=5,all,@bucket,output=1".
Proof. intros h e. split; [|vm_compute; repeat split]. apply made_more; [split; [cbn; lia|reflexivity]|apply made_nil]. Qed.
(** an experimenter field without room for its id takes it from what follows *)
Theorem C80_id_refuted : ~ forall e b, (4 <= length e)%nat -> Z.of_nat (length e) = 4 + at_off 3 1 e -> (4 <= length b)%nat ->
  oxm2str (e ++ b) true = (t <- oxm2str e true ;; t' <- oxm2str b true ;; Ok (t ++ $"," ++ t')).
Proof. intros H. specialize (H [xff; xff; x00; x00] [x80; x00; x00; x04; x00; x00; x00; x01] ltac:(cbn; lia) eq_refl ltac:(cbn; lia)). vm_compute in H. discriminate H. Qed.
(** a header alone is shown only if something follows *)
Theorem C80_header_refuted : ~ forall e b, (4 <= length e)%nat -> Z.of_nat (length e) = at_off 2 2 e -> (4 < length b)%nat ->
  inst2str (e ++ b) true = (t <- inst2str e true ;; t' <- inst2str b true ;; Ok (t ++ $"," ++ t')).
Proof.
  intros H. specialize (H [x00; x07; x00; x04] [x00; x05; x00; x08; x00; x00; x00; x00] ltac:(cbn; lia) eq_refl ltac:(cbn; lia)). vm_compute in H. discriminate H.
Qed.
(** a set_ action without room for the field in it reads on *)
Theorem C80_set_refuted : ~ forall e b, whole_entry e -> (4 < length b)%nat ->
  act2str (e ++ b) true = (t <- act2str e true ;; t' <- act2str b true ;; Ok (t ++ $"," ++ t')).
Proof.
  intros H. specialize (H [x00; x19; x00; x08; x80; x00; x00; x04] [x00; x18; x00; x08; x00; x00; x00; x00] ltac:(split; [cbn; lia|reflexivity]) ltac:(cbn; lia)).
  vm_compute in H. discriminate H.
Qed.
Example C80_case :
  let set := [x00; x19; x00; x10; x80; x00; x14; x01; x11; x00; x00; x00; x00; x00; x00; x00] in
  let ttl := [x00; x18; x00; x08; x00; x00; x00; x00] in
  let app := [x00; x04; x00; x20; x00; x00; x00; x00] ++ set ++ ttl in
  let goto := [x00; x01; x00; x08; x03; x00; x00; x00] in
  let bad := [x00; x01; x00; x10; x03; x00; x00; x00; x00; x00; x00; x00; x00; x00; x00; x00] in
  made_of whole_action (set ++ ttl ++ []) /\ made_of whole_entry (app ++ [])
  /\ act2str set true = Ok $"set_ip_proto=17" /\ act2str ttl true = Ok $"dec_nw_ttl" /\ act2str (set ++ ttl) true = Ok $"set_ip_proto=17,dec_nw_ttl"
  /\ inst2str (app ++ goto) true = Ok $"@apply,set_ip_proto=17,dec_nw_ttl,@goto=3"
  /\ inst2str (app ++ goto ++ [x00; x05; x00]) true = Ok $"@apply,set_ip_proto=17,dec_nw_ttl,@goto=3"
  /\ inst2str (app ++ bad) true = Raise AssertionError.
Proof.
  intros set ttl app goto bad. split; [|split; [|vm_compute; repeat split]].
  - apply made_more; [|apply made_more; [|apply made_nil]]; (split; [split; [cbn; lia|reflexivity]|split; [discriminate|]]).
    + intros _. split; [cbn; lia|]. split; [vm_compute; discriminate|discriminate].
    + intros [K|[K _]]; discriminate K.
  - apply made_more; [|apply made_nil]. split; [cbn; lia|reflexivity].
Qed.
Print Assumptions C80_match.
Print Assumptions C80_actions.
Print Assumptions C80_instructions.
Print Assumptions C80_tail.
Print Assumptions C80_id_refuted.
Print Assumptions C80_header_refuted.
Print Assumptions C80_set_refuted.
Print Assumptions C80_case.
Print Assumptions C80_group.
Print Assumptions C80_bucket_refuted.
Print Assumptions C80_group_case.
