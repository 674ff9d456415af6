(** C74: a printed reply as the source of new messages. *)
From Coq Require Import Strings.Ascii.
From Verif Require Import Base PyNum Util PyLib OxmCodec OxmTables Oxm Nx Ofp4 Spec SpecOxm SpecOfp SpecMp SpecReload.
From Verif Require Import BaseFacts UtilFacts NumFacts FlowText MpBase MpFlow MpGroup FlowMore PropMp Reload.

(** ** C74 *)
(** the rule in a dumped line, for any command *)
Theorem C74_rule : forall e cmd xid, fshown e -> in_bytes 1 cmd -> in_bytes 4 xid ->
  str2mod (rule_text e) cmd xid = Ok (flow_wire cmd xid (loaded cmd (fs_fixed e)) (fs_match e) (fs_instrs e)).
Proof. exact rule_loads. Qed.
(** commands that add or modify: table, priority, timeouts, cookie and flags are those of the entry *)
Theorem C74_add : forall e cmd xid, fshown e -> in_bytes 1 cmd -> cmd <> 3 -> cmd <> 4 -> in_bytes 4 xid ->
  let x := fs_fixed e in
  str2mod (rule_text e) cmd xid = Ok (flow_wire cmd xid
    (Fixed (x_cookie x) 0 (x_table x) (x_priority x) (x_idle x) (x_hard x) 0xffffffff 0 0 (x_flags x)) (fs_match e) (fs_instrs e)).
Proof.
  intros e cmd xid He Hc H3 H4 Hx x. rewrite rule_loads by auto. unfold load_wire, loaded, defaults, deleting. fold x.
  destruct (Z.eqb_spec cmd 3); [congruence|]. destruct (Z.eqb_spec cmd 4); [congruence|]. cbn [orb x_table x_buffer x_port x_group].
  destruct (Z.eqb_spec (x_table x) 0) as [->|]; reflexivity.
Qed.
(** commands that delete: so it is for all tables but the first *)
Theorem C74_delete : forall e cmd xid, fshown e -> cmd = 3 \/ cmd = 4 -> x_table (fs_fixed e) <> 0 -> in_bytes 4 xid ->
  let x := fs_fixed e in
  str2mod (rule_text e) cmd xid = Ok (flow_wire cmd xid
    (Fixed (x_cookie x) 0 (x_table x) (x_priority x) (x_idle x) (x_hard x) 0 0xffffffff 0xffffffff (x_flags x)) (fs_match e) (fs_instrs e)).
Proof.
  intros e cmd xid He Hc Ht Hx x. fold x in Ht. rewrite rule_loads; [|auto|destruct Hc; subst; unfold in_bytes; cbn; lia|auto]. unfold load_wire, loaded, defaults. fold x.
  assert (deleting cmd = true) as -> by (destruct Hc; subst; reflexivity). cbn [x_table x_buffer x_port x_group]. destruct (Z.eqb_spec (x_table x) 0); [congruence|reflexivity].
Qed.
(** the deletion of a rule of table 0, as it is dumped, is one in all tables *)
Theorem C74_delete_refuted : forall e cmd xid, fshown e -> cmd = 3 \/ cmd = 4 -> x_table (fs_fixed e) = 0 -> in_bytes 4 xid ->
  exists m, str2mod (rule_text e) cmd xid = Ok m /\ nth_error m 24 = Some (z2b 0xff) /\ nth_error m 25 = Some (z2b cmd).
Proof.
  intros e cmd xid He Hc Ht Hx. eexists. split; [apply rule_loads; auto; destruct Hc; subst; unfold in_bytes; cbn; lia|].
  unfold load_wire, loaded, defaults. rewrite Ht. assert (deleting cmd = true) as -> by (destruct Hc; subst; reflexivity). destruct Hc; subst; split; reflexivity.
Qed.
(** a whole reply: each line is the text of a message with the dumped rule *)
Theorem C74_reply : forall l xid cmd, Forall (fun e => fshown e /\ no_counts e) l -> in_bytes 4 xid -> in_bytes 1 cmd -> Z.of_nat (16 + length (fstats_wire l)) <= 65535 ->
  exists ss, mpflow2text (mp_wire 19 xid 1 0 (fstats_wire l)) = Ok (lines ss) /\ Forall one_line ss
  /\ Forall2 (fun e s => str2mod s cmd xid = Ok (flow_wire cmd xid (loaded cmd (fs_fixed e)) (fs_match e) (fs_instrs e))) l ss.
Proof.
  intros l xid cmd Hl Hx Hc Hs. exists (map fstat_text l). split; [|split].
  - apply one_reply; auto. eapply Forall_impl; [|exact Hl]. intros e ((H1 & H2 & _) & _). auto.
  - apply Forall_map. eapply Forall_impl; [|exact Hl]. intros e ((H1 & H2 & H3) & _). exact (proj1 (fstat_text_written e H1 H2 H3)).
  - clear Hs. induction Hl as [|e l (He & Hn) Hl IH]; cbn [map]; constructor; auto. rewrite no_counts_text by auto. now apply rule_loads.
Qed.
(** counters are printed but are no part of a rule: such a line is refused until they are cut off *)
Theorem C74_counters_refuted : forall e cmd xid, fshown e -> ~ no_counts e -> str2mod (fstat_text e) cmd xid = Raise KeyError.
Proof. exact counts_refused. Qed.
Theorem C74_counters : forall e, counter_texts (fstat_counters e) <> [] -> fixed_texts print_defaults (fs_fixed e) ++ rule_texts (fs_match e) (fs_instrs e) <> [] ->
  fstat_text e = commas (counter_texts (fstat_counters e)) ++ $" " ++ rule_text e.
Proof. intros e H K. unfold fstat_text, two_parts, rule_text. destruct (counter_texts (fstat_counters e)), (fixed_texts _ _ ++ _); congruence. Qed.
(** groups: the line is the group, whatever its id *)
Theorem C74_group : forall e cmd xid, good_gdesc e -> Z.of_nat (length (gdesc_wire e)) <= 65527 -> in_bytes 2 cmd -> in_bytes 4 xid ->
  str2group (gdesc_text e) cmd xid = Ok (group_wire cmd xid (gd_type e) (gd_id e) (gd_buckets e)).
Proof. exact group_loads. Qed.
Theorem C74_groups : forall l xid cmd, Forall good_gdesc l -> in_bytes 4 xid -> in_bytes 2 cmd -> Z.of_nat (16 + length (gdescs_wire l)) <= 65535 ->
  exists ss, mpgroupdesc2text (mp_wire 19 xid 7 0 (gdescs_wire l)) = Ok (lines ss) /\ Forall one_line ss
  /\ Forall2 (fun e s => str2group s cmd xid = Ok (group_wire cmd xid (gd_type e) (gd_id e) (gd_buckets e))) l ss.
Proof.
  intros l xid cmd Hl Hx Hc Hs. exists (map gdesc_text l). split; [|split].
  - rewrite C42_shown by auto using good_gdescs. now rewrite gdescs_good_shown.
  - apply Forall_map. eapply Forall_impl; [|exact Hl]. intros e He. exact (proj1 (gdesc_text_written e He)).
  - assert (K : forall e, In e l -> (length (gdesc_wire e) <= length (gdescs_wire l))%nat).
    { clear. induction l as [|a l IH]; intros e []; unfold gdescs_wire in *; cbn [flat_map]; rewrite app_length; [subst; lia|]. specialize (IH e H). lia. }
    assert (L : forall e, In e l -> Z.of_nat (length (gdesc_wire e)) <= 65527) by (intros e He; specialize (K e He); lia). clear K Hs.
    induction Hl as [|e l He Hl IH]; cbn [map]; constructor; [apply group_loads; auto using in_eq|apply IH; auto using in_cons].
Qed.
Example C74_case :
  let e1 := FStat 0 0 0 0 (Fixed 0xab 0 0 7 0 30 0 0 0 1) [] [ApplyActions [Output 1 0xffff]] in
  let e2 := FStat 10 0 3 0 (Fixed 0 0 2 5 0 0 0 0 0 0) [] [Goto 3] in
  let g := GDesc GSelect 0xfffffffc [Bucket 2 0xffffffff 0xffffffff [Output 1 0xffff]] in
  mpflow2text (mp_wire 19 9 1 0 (fstats_wire [e1; e2])) = Ok ($"cookie=0xab,priority=7,hard_timeout=30,send_flow_rem,@apply,output=1" ++ [10] ++ $"packet_count=10,duration_sec=3 table=2,priority=5,@goto=3")
  /\ str2mod $"cookie=0xab,priority=7,hard_timeout=30,send_flow_rem,@apply,output=1" 0 9 = Ok (flow_wire 0 9 (Fixed 0xab 0 0 7 0 30 0xffffffff 0 0 1) [] [ApplyActions [Output 1 0xffff]])
  /\ str2mod $"cookie=0xab,priority=7,hard_timeout=30,send_flow_rem,@apply,output=1" 4 9 = Ok (flow_wire 4 9 (Fixed 0xab 0 0xff 7 0 30 0 0xffffffff 0xffffffff 1) [] [ApplyActions [Output 1 0xffff]])
  /\ str2mod $"packet_count=10,duration_sec=3 table=2,priority=5,@goto=3" 0 9 = Raise KeyError
  /\ str2mod $"table=2,priority=5,@goto=3" 4 9 = Ok (flow_wire 4 9 (Fixed 0 0 2 5 0 0 0 0xffffffff 0xffffffff 0) [] [Goto 3])
  /\ mpgroupdesc2text (mp_wire 19 9 7 0 (gdescs_wire [g])) = Ok $"group=4294967292,select,@bucket,weight=2,output=1"
  /\ str2group $"group=4294967292,select,@bucket,weight=2,output=1" 0 9 = Ok (group_wire 0 9 GSelect 0xfffffffc [Bucket 2 0xffffffff 0xffffffff [Output 1 0xffff]]).
Proof. vm_compute. auto 10. Qed.
Print Assumptions C74_rule.
Print Assumptions C74_add.
Print Assumptions C74_delete.
Print Assumptions C74_delete_refuted.
Print Assumptions C74_reply.
Print Assumptions C74_counters_refuted.
Print Assumptions C74_counters.
Print Assumptions C74_group.
Print Assumptions C74_groups.
Print Assumptions C74_case.
