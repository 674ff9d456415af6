(** C83: numbers that do not fit in their bytes. *)
From Coq Require Import Strings.Ascii.
From Verif Require Import Base PyNum Util PyLib OxmCodec OxmTables Oxm Nx Ofp4 Spec SpecOxm SpecText SpecOfp SpecActText SpecFlowText SpecCompose SpecName SpecFit.
From Verif Require Import BaseFacts UtilFacts FlowRead GramTok GramField GramAct GramStr GramFlow Fit.

(** a rule of the notation is the message of its parts, or struct.error is raised because there is none *)
Theorem C83_rule : forall s l cmd xid, rule_reads notation AtEntry s l -> Z.of_nat (length (concat (r_insts None l))) <= 65535 ->
  (exists m, str2mod s cmd xid = Ok m /\ parts_message l cmd xid m) \/ str2mod s cmd xid = Raise StructError /\ forall m, ~ parts_message l cmd xid m.
Proof. exact rule_fits. Qed.
(** so is a group *)
Theorem C83_group : forall s hs u ls cmd xid, heads s hs u -> buckets_text notation u ls ->
  (exists m, str2group s cmd xid = Ok m /\ group_parts hs ls cmd xid m) \/ str2group s cmd xid = Raise StructError /\ forall m, ~ group_parts hs ls cmd xid m.
Proof. exact group_fits. Qed.
(** a number that does not fit in its action is refused, in brackets and behind the name *)
Theorem C83_action : forall s name n a h p u v, number_arg name n -> action_given s name a -> next a h p u -> literal p v -> ~ in_bytes n v -> exists e, str2act s = Raise e.
Proof. exact action_fits. Qed.
(** with struct.error, in brackets and behind "=" *)
Theorem C83_called : forall s name n a r h p u v, number_arg name n -> called s name a r -> next a h p u -> literal p v -> ~ in_bytes n v -> str2act s = Raise StructError.
Proof. exact called_raises. Qed.
Theorem C83_assigned : forall s name n a h0 h p u v, number_arg name n -> next s h0 name a -> next a h p u -> SpecActText.eq_lead h -> literal p v -> ~ in_bytes n v ->
  str2act s = Raise StructError.
Proof. exact assigned_raises. Qed.
(** a number that does not fit in its instruction is refused, at the beginning of a rule and behind any other *)
Theorem C83_first : forall x cmd xid nm a n p r v, word x nm a -> number_instr nm n -> valued a p r -> literal p v -> ~ in_bytes n v -> exists e, str2mod x cmd xid = Raise e.
Proof. exact instr_refused_first. Qed.
Theorem C83_behind : forall u k x cmd xid nm a n p r v, rule_reads notation AtEntry u k -> finished u -> ~ wants_more u -> ends x -> word x nm a -> number_instr nm n -> valued a p r -> literal p v ->
  ~ in_bytes n v -> exists e, str2mod (u ++ x) cmd xid = Raise e.
Proof. exact instr_refused. Qed.
(** a number that is overwritten later in the rule may be as large as one likes *)
Theorem C83_overwritten_refuted : exists m, str2mod $"priority=70000,priority=5" 0 0 = Ok m /\ str2mod $"priority=5" 0 0 = Ok m
  /\ str2mod $"priority=5,priority=70000" 0 0 = Raise StructError.
Proof. eexists. split; [vm_compute; reflexivity|]. split; vm_compute; reflexivity. Qed.
Ltac w := eapply get_word; [vm_compute; reflexivity|reflexivity].
Ltac v := eapply get_valued; [vm_compute; reflexivity|reflexivity].
(** the hypotheses can be met *)
Example C83_case : action_given $"set_queue=4294967296,exit" $"set_queue" $"=4294967296,exit" /\ next $"=4294967296,exit" $"=" $"4294967296" $",exit"
  /\ literal $"4294967296" 4294967296 /\ ~ in_bytes 4 4294967296.
Proof.
  split; [right; exists []; apply next_iff; vm_compute; reflexivity|]. split; [apply next_iff; vm_compute; reflexivity|].
  split; [apply literal_iff; vm_compute; reflexivity|]. unfold in_bytes. change (256 ^ Z.of_nat 4) with 4294967296. lia.
Qed.
Example C83_rule_case : rule_reads notation AtEntry $"priority=65536" [RSet (SPriority 65536)] /\ forall m, ~ parts_message [RSet (SPriority 65536)] 0 0 m.
Proof.
  split; [eapply rr_set; [w|eapply st_priority; [v|apply literal_iff; reflexivity]|apply rr_end]|].
  intros m (_ & _ & (_ & _ & _ & F & _) & _). vm_compute in F. destruct F as [_ F]. discriminate F.
Qed.
Example C83_instr_case : word $",@goto_table = 256,@clear" $"@goto_table" $" = 256,@clear" /\ number_instr $"@goto_table" 1 /\ valued $" = 256,@clear" $"256" $",@clear"
  /\ literal $"256" 256 /\ ~ in_bytes 1 256.
Proof. split; [w|]. split; [constructor; now right|]. split; [v|]. split; [apply literal_iff; reflexivity|]. unfold in_bytes. change (256 ^ Z.of_nat 1) with 256. lia. Qed.
Example C83_instr_shown : map (fun s => match str2mod s 0 0 with Raise e => Some e | _ => None end)
  [$"in_port=1,@goto=256"; $"@goto=255"; $"@apply,output=1,@meter=4294967296"; $"@metadata=18446744073709551616"; $"@metadata=-1/2"; $"@goto=-1"]
  = [Some StructError; None; Some StructError; Some StructError; Some StructError; Some StructError].
Proof. vm_compute. reflexivity. Qed.
Example C83_shown : str2act $"set_mpls_ttl=256" = Raise StructError /\ str2act $"set_queue(-1)" = Raise StructError /\ str2act $"group=4294967296" = Raise StructError
  /\ str2act $"push_vlan=65536" = Raise StructError /\ str2act $"output=4294967296" = Raise StructError /\ str2act $"set_tunnel=18446744073709551616" = Raise StructError
  /\ str2mod $"table=256" 0 0 = Raise StructError /\ str2mod $"idle_timeout=65536,@apply,output=1" 0 0 = Raise StructError /\ str2mod [] 256 0 = Raise StructError
  /\ str2group $"group=1,all,@bucket,weight=65536" 0 0 = Raise StructError /\ str2group $"group=4294967296" 0 0 = Raise StructError.
Proof. repeat split; vm_compute; reflexivity. Qed.
Print Assumptions C83_rule.
Print Assumptions C83_group.
Print Assumptions C83_action.
Print Assumptions C83_overwritten_refuted.
Print Assumptions C83_case.
Print Assumptions C83_rule_case.
Print Assumptions C83_shown.
Print Assumptions C83_called.
Print Assumptions C83_assigned.
Print Assumptions C83_first.
Print Assumptions C83_behind.
Print Assumptions C83_instr_case.
Print Assumptions C83_instr_shown.
