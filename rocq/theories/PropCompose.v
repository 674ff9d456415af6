(** C79: texts written one behind the other. *)
From Coq Require Import Strings.Ascii.
From Verif Require Import Base PyNum Util PyLib OxmCodec OxmTables Oxm Nx Ofp4 Spec SpecOxm SpecText SpecOfp SpecActText SpecFlowText SpecCompose.
From Verif Require Import BaseFacts Compose Continue GroupMore.

(** a match text: what follows is read as if it stood alone, with the same exceptions *)
Theorem C79_match : forall u b x, str2oxm u true = Ok (b, length u) -> finished u -> ends x ->
  str2oxm (u ++ x) true = ('(b', n) <- str2oxm x true ;; Ok (b ++ b', (length u + n)%nat)).
Proof. exact match_compose. Qed.
Theorem C79_comma : forall u b v b' n, str2oxm u true = Ok (b, length u) -> finished u -> str2oxm v true = Ok (b', n) -> v <> [] ->
  str2oxm (u ++ $"," ++ v) true = Ok (b ++ b', (length u + S n)%nat).
Proof. exact comma_compose. Qed.
(** the entries of a rule: the parts of what follows are added behind them *)
Theorem C79_rule : forall u l x cmd xid m, rule_reads notation AtEntry u l -> Forall entry_part l -> finished u -> ends x ->
  (str2mod (u ++ x) cmd xid = Ok m <-> exists l', rule_reads notation AtEntry x l' /\ parts_message (l ++ l') cmd xid m).
Proof. exact rule_compose. Qed.
(** every rule: the parts of what follows are added behind its instructions and actions *)
Theorem C79_continue : forall u l x cmd xid m, rule_reads notation AtEntry u l -> finished u -> ~ wants_more u -> ends x ->
  (str2mod (u ++ x) cmd xid = Ok m <-> exists l', rule_reads notation (place_after AtEntry l) x l' /\ parts_message (l ++ l') cmd xid m).
Proof. exact rule_continue. Qed.
(** every group text: what follows "@bucket" is added behind its buckets, under the same id and type *)
Theorem C79_group : forall s hs v ls x x' cmd xid m, heads s hs v -> buckets_text notation v ls -> finished s -> ~ wants_more s -> ends x -> word x $"@bucket" x' ->
  (str2group (s ++ x) cmd xid = Ok m <-> exists ls', buckets_text notation x' ls' /\ group_parts hs (ls ++ ls') cmd xid m).
Proof. exact group_continue. Qed.
(** a text without brackets is finished if its last character is no separator *)
Theorem C79_plain : forall v c, token_char c -> ~ blank c -> Forall (fun d => ~ opener d) (v ++ [c]) -> finished (v ++ [c]).
Proof. exact plain_finished. Qed.
(** not so if the text ends with "=", inside a bracket, or with instructions *)
Theorem C79_unfinished_refuted : ~ forall u b v b' n, str2oxm u true = Ok (b, length u) -> str2oxm v true = Ok (b', n) -> v <> [] ->
  str2oxm (u ++ $"," ++ v) true = Ok (b ++ b', (length u + S n)%nat).
Proof.
  intros H. specialize (H $"dot11_ssid=" [] $"in_port=1" [x80; x00; x00; x04; x00; x00; x00; x01] 9%nat). vm_compute in H. specialize (H eq_refl eq_refl ltac:(discriminate)). discriminate H.
Qed.
Theorem C79_instruction_refuted : ~ forall u v m m', str2mod u 0 0 = Ok m -> str2mod v 0 0 = Ok m' -> exists m2, str2mod (u ++ $"," ++ v) 0 0 = Ok m2.
Proof.
  intros H. destruct (str2mod $"@clear" 0 0) as [m| |] eqn:E; [|vm_compute in E; discriminate E..].
  destruct (str2mod $"in_port=1" 0 0) as [m'| |] eqn:E'; [|vm_compute in E'; discriminate E'..].
  destruct (H _ _ _ _ E E') as (m2 & H2). vm_compute in H2. discriminate H2.
Qed.
(** an action can follow an action, but not output_reg=SOURCE or "set_" *)
Theorem C79_wants_refuted : ~ forall u x m m', str2mod ($"@apply," ++ u) 0 0 = Ok m -> str2mod ($"@apply," ++ x) 0 0 = Ok m' -> finished ($"@apply," ++ u) ->
  exists m2, str2mod ($"@apply," ++ u ++ $"," ++ x) 0 0 = Ok m2.
Proof.
  intros H. specialize (H $"output_reg=nxm_reg1" $"exit"). destruct (str2mod ($"@apply," ++ $"output_reg=nxm_reg1") 0 0) as [m| |] eqn:E; [|vm_compute in E; discriminate E..].
  destruct (str2mod ($"@apply," ++ $"exit") 0 0) as [m'| |] eqn:E'; [|vm_compute in E'; discriminate E'..]. destruct (H m m' eq_refl eq_refl) as (m2 & H2); [|vm_compute in H2; discriminate H2].
  change ($"@apply," ++ $"output_reg=nxm_reg1") with ($"@apply,output_reg=nxm_reg" ++ [chr "1"]). apply C79_plain.
  - split; [unfold sep_char|unfold eq_char]; cbv; intuition discriminate.
  - unfold blank. change (chr "1") with 49. lia.
  - apply Forall_forall. intros d Hd [e He]. destruct He; vm_compute in Hd; intuition discriminate.
Qed.
(** the id and type cannot follow a bucket, and without "@bucket" an action joins the last one *)
Theorem C79_group_refuted : ~ forall s x m m', str2group s 0 0 = Ok m -> str2group x 0 0 = Ok m' -> exists m2, str2group (s ++ $"," ++ x) 0 0 = Ok m2.
Proof.
  intros H. destruct (str2group $"@bucket,output=1" 0 0) as [m| |] eqn:E; [|vm_compute in E; discriminate E..].
  destruct (str2group $"select" 0 0) as [m'| |] eqn:E'; [|vm_compute in E'; discriminate E'..].
  destruct (H _ _ _ _ E E') as (m2 & H2). vm_compute in H2. discriminate H2.
Qed.
Example C79_group_case : map (fun s => option_map (@length Byte.byte) (match str2group s 0 0 with Ok m => Some m | _ => None end))
    [$"group=5,select,@bucket,output=1"; $"group=5,select,@bucket,output=1,output=2"; $"group=5,select,@bucket,output=1,@bucket,output=2"; $"@bucket,output=1,select"]
  = [Some 48%nat; Some 64%nat; Some 80%nat; None]
  /\ str2group ($"group=5,select,@bucket,output=1" ++ $",@bucket,weight=2,output=3") 0 0
  = Ok [x04; x0f; x00; x50; x00; x00; x00; x00; x00; x00; x01; x00; x00; x00; x00; x05; x00; x20; x00; x01; xff; xff; xff; xff; xff; xff; xff; xff; x00; x00; x00; x00; x00; x00; x00; x10; x00; x00; x00; x01; xff; xff; x00; x00; x00; x00; x00; x00; x00; x20; x00; x02; xff; xff; xff; xff; xff; xff; xff; xff; x00; x00; x00; x00; x00; x00; x00; x10; x00; x00; x00; x03; xff; xff; x00; x00; x00; x00; x00; x00].
Proof. split; vm_compute; reflexivity. Qed.
Example C79_wants_case : (exists m, str2mod $"@apply,set_" 0 0 = Ok m) /\ str2mod $"@apply,set_,pop_vlan" 0 0 = Raise AssertionError
  /\ str2mod $"@apply,output_reg=nxm_reg1,exit" 0 0 = Raise ValueError /\ (exists m, str2mod $"@apply,output_reg(nxm_reg1),exit" 0 0 = Ok m).
Proof.
  split; [|split; [|split]]; try (vm_compute; reflexivity);
  match goal with |- exists m, ?e = Ok m => destruct e as [m| |] eqn:E; [now exists m|vm_compute in E; discriminate E..] end.
Qed.
Example C79_case : str2oxm $"in_port=1" true = Ok ([x80; x00; x00; x04; x00; x00; x00; x01], 9%nat)
  /\ str2oxm $"vlan_vid=1" true = Ok ([x80; x00; x0c; x02; x00; x01], 10%nat)
  /\ finished $"in_port=1"
  /\ str2oxm $"in_port=1,vlan_vid=1" true = Ok ([x80; x00; x00; x04; x00; x00; x00; x01; x80; x00; x0c; x02; x00; x01], 20%nat)
  /\ str2oxm $"in_port=1,vlan=1" true = str2oxm $",vlan=1" true
  /\ str2oxm $"dot11_ssid=(a" true = Ok ([xff; xff; x10; x06; xff; x00; xe0; x4d; x28; x61], 13%nat)
  /\ str2oxm $"dot11_ssid=(a,in_port=1" true = Ok ([xff; xff; x10; x10; xff; x00; xe0; x4d; x28; x61; x2c; x69; x6e; x5f; x70; x6f; x72; x74; x3d; x31], 23%nat)
  /\ str2mod ($"priority=7" ++ $" in_port=1,@clear") 0 0 = Ok [x04; x0e; x00; x48; x00; x00; x00; x00; x00; x00; x00; x00; x00; x00; x00; x00; x00; x00; x00; x00; x00; x00; x00; x00; x00; x00; x00; x00; x00; x00; x00; x07; xff; xff; xff; xff; x00; x00; x00; x00; x00; x00; x00; x00; x00; x00; x00; x00; x00; x01; x00; x0c; x80; x00; x00; x04; x00; x00; x00; x01; x00; x00; x00; x00; x00; x05; x00; x08; x00; x00; x00; x00].
Proof.
  split; [vm_compute; reflexivity|]. split; [vm_compute; reflexivity|]. split; [|vm_compute; auto].
  change $"in_port=1" with ($"in_port=" ++ [chr "1"]). apply C79_plain.
  - split; [unfold sep_char|unfold eq_char]; cbv; intuition discriminate.
  - unfold blank. change (chr "1") with 49. lia.
  - apply Forall_forall. intros d Hd [e He]. destruct He; vm_compute in Hd; intuition discriminate.
Qed.
Example C79_continue_case : str2mod ($"in_port=1,@apply,output=2" ++ $",@goto=3") 0 0 = Ok [x04; x0e; x00; x60; x00; x00; x00; x00; x00; x00; x00; x00; x00; x00; x00; x00; x00; x00; x00; x00; x00; x00; x00; x00; x00; x00; x00; x00; x00; x00; x80; x00; xff; xff; xff; xff; x00; x00; x00; x00; x00; x00; x00; x00; x00; x00; x00; x00; x00; x01; x00; x0c; x80; x00; x00; x04; x00; x00; x00; x01; x00; x00; x00; x00; x00; x04; x00; x18; x00; x00; x00; x00; x00; x00; x00; x10; x00; x00; x00; x02; xff; xff; x00; x00; x00; x00; x00; x00; x00; x01; x00; x08; x03; x00; x00; x00].
Proof. vm_compute. reflexivity. Qed.
Print Assumptions C79_match.
Print Assumptions C79_comma.
Print Assumptions C79_rule.
Print Assumptions C79_continue.
Print Assumptions C79_plain.
Print Assumptions C79_unfinished_refuted.
Print Assumptions C79_instruction_refuted.
Print Assumptions C79_wants_refuted.
Print Assumptions C79_wants_case.
Print Assumptions C79_case.
Print Assumptions C79_continue_case.
Print Assumptions C79_group.
Print Assumptions C79_group_refuted.
Print Assumptions C79_group_case.
