(** C82: field names that are not known, as arguments of actions. *)
From Coq Require Import Strings.Ascii.
From Verif Require Import Base PyNum Util PyLib OxmCodec OxmTables Oxm Nx Ofp4 Spec SpecOxm SpecText SpecOfp SpecActText SpecName.
From Verif Require Import BaseFacts GramTok GramField GramAct GramStr Names.

(** reg_move, either side, with or without bits *)
Theorem C82_move : forall s a r p q r', called s $"reg_move" a r -> words a [p; q] r' -> misspelt p \/ misspelt q -> exists e, str2act s = Raise e.
Proof. exact move_unknown. Qed.
(** the destination of multipath *)
Theorem C82_multipath : forall s a r p1 p2 p3 p4 p5 p r', called s $"multipath" a r -> words a [p1; p2; p3; p4; p5; p] r' -> misspelt p -> exists e, str2act s = Raise e.
Proof. exact multipath_unknown. Qed.
(** the field of reg_load and reg_load2 *)
Theorem C82_load : forall name s a r h p u, name = $"reg_load" \/ name = $"reg_load2" -> called s name a r -> next a h p u -> no_field p -> exists e, str2act s = Raise e.
Proof. exact load_unknown. Qed.
(** the register of output_reg and output_reg2, without bits *)
Theorem C82_output : forall name s a r p m r', name = $"output_reg" \/ name = $"output_reg2" -> called s name a r -> words a [p; m] r' -> func p p None -> no_field p -> exists e, str2act s = Raise e.
Proof. exact output_unknown. Qed.
(** learn: the destination of every entry but output, and every source that is no number *)
Theorem C82_learn : forall s a r m x y, called s $"learn" a r -> learn_has a m x y -> (m = None -> forall k, x <> lkey_name k) ->
  no_value y \/ misspelt x /\ m <> Some $"output" -> exists e, str2act s = Raise e.
Proof. exact learn_unknown. Qed.
(** in bundle, bundle_load and output_reg it vanishes, and what follows it moves up *)
Theorem C82_bundle_refuted : forall s u r h pb b a pt ps ports r', called s $"bundle" u r -> words u [hash_name h; pb; bdalg_name a; pt; ps] r' -> numberish pb b -> in_bytes 2 b -> no_field pt -> slaves_any ps ports ->
  let x := nx_act 12 (be 2 (bdalg_id a) ++ be 2 (hash_id h) ++ be 2 b ++ be 2 (Z.of_nat (length ports)) ++ be 2 0 ++ be 4 0 ++ pad 4 ++ all_be 2 ports) in
  Z.of_nat (length x) <= 65535 -> str2act s = Ok (x, (length s - length r)%nat).
Proof. exact bundle_drops. Qed.
Theorem C82_bundle_load_refuted : forall s u r h pb b a pt t pd n c x y lo hi ps ports r', called s $"bundle_load" u r -> words u [hash_name h; pb; bdalg_name a; pt; pd; ps] r' -> numberish pb b -> in_bytes 2 b ->
  field_id true pt t -> func pd n (Some c) -> no_field n -> pair_text c x y -> py_number x lo -> py_number y hi -> in_bytes 2 (ofs_nbits lo hi) -> slaves_any ps ports ->
  let m := nx_act 13 (be 2 (bdalg_id a) ++ be 2 (hash_id h) ++ be 2 b ++ t ++ be 2 (Z.of_nat (length ports)) ++ be 2 (ofs_nbits lo hi) ++ pad 4 ++ all_be 2 ports) in
  Z.of_nat (length m) <= 65535 -> str2act s = Ok (m, (length s - length r)%nat).
Proof. exact bundle_load_drops. Qed.
Theorem C82_output_refuted : forall s u r p pm n c x y lo hi m r', called s $"output_reg" u r -> words u [p; pm] r' -> func p n (Some c) -> no_field n -> pair_text c x y -> py_number x lo -> py_number y hi ->
  pm = [] /\ m = 0xffff \/ pm <> [] /\ numberish pm m -> in_bytes 2 m -> in_bytes 2 (ofs_nbits lo (hi mod 64)) ->
  str2act s = Ok (nx_act 15 (be 2 (ofs_nbits lo (hi mod 64)) ++ be 2 m ++ pad 6), (length s - length r)%nat).
Proof. exact output_drops. Qed.
(** the hypotheses can be met *)
Example C82_called : called $"reg_move(foo=nxm_reg1[0:4]),exit" $"reg_move" $"foo=nxm_reg1[0:4]" $",exit"
  /\ words $"foo=nxm_reg1[0:4]" [$"foo"; $"nxm_reg1[0:4]"] [] /\ misspelt $"foo" /\ learn_has $"idle_timeout=1,reg_load(foo=1)" (Some $"reg_load") $"foo" $"1".
Proof.
  split; [|split; [|split]].
  - exists [], $"reg_move(foo=nxm_reg1[0:4])". split; [apply next_iff; vm_compute; reflexivity|]. split; [apply func_iff; vm_compute; reflexivity|discriminate].
  - eapply words_cons; [apply next_iff; vm_compute; reflexivity|]. eapply words_cons; [apply next_iff; vm_compute; reflexivity|]. constructor.
  - exists $"foo", None. split; [apply func_iff; reflexivity|]. intros f Hf E. apply OxmGram.accepted_readable in Hf.
    assert (K : forallb (fun f => negb (text_eqb (fname f) $"foo")) OxmFacts.accepted_fields = true) by (vm_compute; reflexivity).
    pose proof (proj1 (forallb_forall _ _) K f Hf) as Q. cbv beta in Q. rewrite <- E in Q. discriminate Q.
  - eapply lh_after_eq; [apply next_iff; vm_compute; reflexivity| |apply next_iff; vm_compute; reflexivity| |].
    + intros (a & b & _ & _ & K). destruct a; discriminate K.
    + exists [], []. repeat split; constructor.
    + eapply (lh_mode _ _ _ _ $"reg_load"); [apply next_iff; vm_compute; reflexivity| | |apply func_iff; vm_compute; reflexivity|apply next_iff; vm_compute; reflexivity|apply next_iff; vm_compute; reflexivity].
      * intros (a & b & Ha & _ & K). destruct a as [|c a]; [discriminate K|]. destruct a; discriminate K.
      * intros h' p r N (a & b & _ & _ & K). apply next_iff in N. vm_compute in N. injection N as <- _ _. destruct a; discriminate K.
Qed.
Example C82_case : map str2act [$"reg_move(foo=nxm_reg1)"; $"multipath(eth_src,0,modulo_n,1,0,foo)"; $"reg_load(foo=1)"; $"reg_load2(foo)"; $"output_reg(foo)"; $"learn(foo=1)"; $"learn(nxm_reg1=foo)"; $"learn(reg_load(foo=2))"]
  = [Raise StructError; Raise StructError; Raise KeyError; Raise AssertionError; Raise StructError; Raise AssertionError; Raise ValueError; Raise AssertionError].
Proof. vm_compute. reflexivity. Qed.
(** and such a bundle is shown as one without slaves, the others not at all *)
Example C82_shown : map (fun s => '(b, _) <- str2act s ;; act2str b true) [$"bundle(eth_src,0,hrw,foo,slaves(1,2))"; $"bundle_load(eth_src,0,hrw,in_port,foo[0:4],slaves(1,2))"; $"output_reg(foo[0:4])"]
  = [Ok $"bundle(eth_src,0,hrw,?,slaves())"; Raise StructError; Raise StructError].
Proof. vm_compute. reflexivity. Qed.
Print Assumptions C82_move.
Print Assumptions C82_multipath.
Print Assumptions C82_load.
Print Assumptions C82_output.
Print Assumptions C82_learn.
Print Assumptions C82_bundle_refuted.
Print Assumptions C82_bundle_load_refuted.
Print Assumptions C82_output_refuted.
Print Assumptions C82_called.
Print Assumptions C82_case.
Print Assumptions C82_shown.
