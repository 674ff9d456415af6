(** C77: the exception that an unknown name leads to. *)
From Coq Require Import Strings.Ascii.
From Verif Require Import Base PyNum Util PyLib OxmCodec OxmTables Oxm Nx Ofp4 Spec SpecOxm SpecOfp SpecActText SpecUnknown.
From Verif Require Import FlowPrefix Unknown.

(** a field in a match *)
Theorem C77_field : forall n h r loop e, token n -> solid n -> ~ In n ($"nxm_ct_label" :: map fname registry) -> Forall filler h -> ends r ->
  str2oxm (h ++ n ++ r) loop = Raise e <-> refused r e.
Proof. exact field_refused. Qed.
(** an entry of a flow text, after any entries *)
Theorem C77_entry : forall es p g n r cmd xid e, writes_flow es [] p -> next_to p g ->
  token n -> solid n -> startswith $"@" n = false -> ~ In n entry_names -> ends r ->
  str2mod (p ++ g ++ n ++ r) cmd xid = Raise e <-> refused r e.
Proof. exact entry_refused. Qed.
(** an instruction *)
Theorem C77_instruction : forall es is p g n r cmd xid, writes_flow es is p -> Forall instr_ok is -> next_to p g ->
  token n -> startswith $"@" n = true -> ~ In n instr_names -> ends r ->
  str2mod (p ++ g ++ n ++ r) cmd xid = Raise ValueError.
Proof. exact instr_refused. Qed.
(** an action, alone or called; a word with text after its brackets is refused for that *)
Theorem C77_action : forall es is p g n z r cmd xid e, writes_flow es is p -> Forall instr_ok is -> next_to p g -> after is = AtAction ->
  Forall (fun c => ~ opener c) n -> match z with [] => True | c :: _ => opener c end -> token (n ++ z) -> solid (n ++ z) ->
  startswith $"@" (n ++ z) = false -> (forall k, ~ act_named n k) -> ends r ->
  str2mod (p ++ g ++ (n ++ z) ++ r) cmd xid = Raise e
  <-> (e = ValueError /\ (exists a, func (n ++ z) n a)) \/ (e = AssertionError /\ ~ exists a, func (n ++ z) n a).
Proof. exact action_refused. Qed.
(** set_ with a field that is not known *)
Theorem C77_set : forall es is p g x r cmd xid e, writes_flow es is p -> Forall instr_ok is -> next_to p g -> after is = AtAction ->
  token x -> solid x -> Forall (fun c => ~ opener c) x -> ~ In ($"set_" ++ x) (map fst named_acts) -> ~ In x ($"nxm_ct_label" :: map fname registry) -> ends r ->
  str2mod (p ++ g ++ ($"set_" ++ x) ++ r) cmd xid = Raise e <-> refused r e.
Proof. exact set_refused. Qed.
(** ... with brackets: an argument is taken for a value, empty brackets are part of the name *)
Theorem C77_set_call : forall es is p g x o z r cmd xid e, writes_flow es is p -> Forall instr_ok is -> next_to p g -> after is = AtAction ->
  token x -> solid x -> Forall (fun c => ~ opener c) x -> opener o -> token (x ++ o :: z) -> ~ In ($"set_" ++ x) (map fst named_acts) -> ~ In x ($"nxm_ct_label" :: map fname registry) -> ends r ->
  str2mod (p ++ g ++ ($"set_" ++ x ++ o :: z) ++ r) cmd xid = Raise e
  <-> (e = KeyError /\ exists a, a <> [] /\ func ($"set_" ++ x ++ o :: z) ($"set_" ++ x) (Some a)) \/ (refused r e /\ func ($"set_" ++ x ++ o :: z) ($"set_" ++ x) (Some []))
      \/ (e = AssertionError /\ ~ exists a, func ($"set_" ++ x ++ o :: z) ($"set_" ++ x) a).
Proof. exact set_call_refused. Qed.
Example C77_call_case :
  map (fun s => str2mod s 0 0) [$"@apply,set_foo(3)"; $"@apply,set_foo()"; $"@apply,set_foo()=3"; $"@apply,set_foo(3)x"; $"@apply,set_foo[3,4],output=1"]
  = [Raise KeyError; Raise AssertionError; Raise KeyError; Raise AssertionError; Raise KeyError].
Proof. vm_compute. reflexivity. Qed.
Example C77_case :
  map (fun s => str2mod s 0 0) [$"table=1,tcp_dest = 80"; $"table=1,tcp_dest"; $"table=1,tcp_dest,udp_dst=5"; $"table=1,@jump=3";
    $"table=1,@apply,outputs=3"; $"table=1,@apply,outputs(3)"; $"table=1,@apply,outputs(3)x"; $"@apply,set_foo=3"; $"@apply,set_foo,output=1"]
  = [Raise KeyError; Raise AssertionError; Raise AssertionError; Raise ValueError;
     Raise ValueError; Raise ValueError; Raise AssertionError; Raise KeyError; Raise AssertionError].
Proof. vm_compute. reflexivity. Qed.
Print Assumptions C77_field.
Print Assumptions C77_entry.
Print Assumptions C77_instruction.
Print Assumptions C77_action.
Print Assumptions C77_set.
Print Assumptions C77_case.
Print Assumptions C77_set_call.
Print Assumptions C77_call_case.
