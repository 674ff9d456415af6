(** C46-C49, C56: the command line tool. *)
From Verif Require Import Base PyNum Util PyLib OxmCodec OxmTables Oxm Nx Ofp4 Cli Spec SpecOxm SpecOfp SpecMp SpecCli.
From Verif Require Import BaseFacts UtilFacts NumFacts OxmRead OxmPrint OxmFacts OxmFrame OxmMore TermFacts OfpTerm.
From Verif Require Import ActBase ActRead ActText FlowRead FlowMod FlowText GroupRead GroupText MpBase MpFlow MpGroup CliFacts CliAddr.

(** ** C46 *)
(** the messages are read exactly when every chunk ends where a message or a header ends *)
Theorem C46_read : forall ms cs o, Forall msg_ok ms -> aligned (pieces ms) cs ->
  exists cs', read_all (Sock cs o) = (map msg_wire ms, if o then Blocked else Raised StructError, Sock cs' o) /\ concat cs' = [].
Proof. exact read_aligned. Qed.
Theorem C46_only_then : forall ms cs o, Forall msg_ok ms -> concat cs = stream ms -> (fst (fst (read_all (Sock cs o))) = map msg_wire ms <-> aligned (pieces ms) cs).
Proof.
  intros ms cs o Hm Hc. split; [now apply read_only_aligned|]. intros H. destruct (read_aligned ms cs o Hm H) as (c1 & E & _). now rewrite E.
Qed.
(** any chunk that ends inside a header stops the tool ... *)
Theorem C46_header_refuted : forall ms c d cs o, Forall msg_ok ms -> c <> [] -> (length c < 8)%nat ->
  aligned (pieces ms) cs -> exists s', read_all (Sock (cs ++ c :: d) o) = (map msg_wire ms, Raised StructError, s').
Proof. exact read_header_cut. Qed.
(** ... and one that ends inside a body makes it take the beginning for the whole message *)
Theorem C46_body_refuted : forall ms m b e d cs o, Forall msg_ok ms -> msg_ok m -> m_body m = b ++ e -> b <> [] -> e <> [] ->
  aligned (pieces ms) cs -> exists l, fst (fst (read_all (Sock (cs ++ (msg_head m ++ b) :: d) o))) = map msg_wire ms ++ (msg_head m ++ b) :: l.
Proof. exact read_body_cut. Qed.
Example C46_case : let m1 := OfMsg 4 2 7 [x01; x02; x03] in let m2 := OfMsg 4 21 3 [] in
  stream [m1; m2] = map z2b [4; 2; 0; 11; 0; 0; 0; 7; 1; 2; 3; 4; 21; 0; 8; 0; 0; 0; 3]
  /\ read_all (Sock [stream [m1; m2]] true) = ([msg_wire m1; msg_wire m2], Blocked, Sock [[]] true)
  /\ read_all (Sock [firstn 8 (stream [m1; m2]); skipn 8 (stream [m1; m2])] false) = ([msg_wire m1; msg_wire m2], Raised StructError, Sock [[]] false)
  /\ fst (fst (read_all (Sock [firstn 10 (stream [m1; m2]); skipn 10 (stream [m1; m2])] true))) = [firstn 10 (msg_wire m1); map z2b [3; 4; 21; 0; 8; 0; 0; 0; 3]]
  /\ fst (read_all (Sock [firstn 13 (stream [m1; m2]); skipn 13 (stream [m1; m2])] true)) = ([msg_wire m1], Raised StructError).
Proof. vm_compute. auto 10. Qed.

(** ** C47 *)
(** after the barrier reply the tool is done, whatever comes before or after it *)
Theorem C47_returns : forall pre b ps cs o, Forall msg_ok pre -> msg_ok b -> Forall (fun m => ~ is_barrier_reply m) pre -> is_barrier_reply b -> aligned (pieces (pre ++ [b]) ++ ps) cs ->
  exists cs', run_msgs barrier_body tt (Sock cs o) = (tt, Returned, Sock cs' o) /\ aligned ps cs'.
Proof. exact mod_returns. Qed.
Theorem C47_waits : forall ms cs o, Forall msg_ok ms -> Forall (fun m => ~ is_barrier_reply m) ms -> aligned (pieces ms) cs ->
  exists cs', run_msgs barrier_body tt (Sock cs o) = (tt, if o then Blocked else Raised StructError, Sock cs' o) /\ concat cs' = [].
Proof. exact mod_waits. Qed.
(** in particular an error message for the command does not matter: it is tested by its length field instead of its xid *)
Theorem C47_refuted : forall pre err post b cs o, Forall msg_ok (pre ++ err :: post ++ [b]) -> is_error 2 err -> Forall (fun m => ~ is_barrier_reply m) (pre ++ post) -> is_barrier_reply b ->
  aligned (pieces (pre ++ err :: post ++ [b])) cs -> snd (fst (run_msgs barrier_body tt (Sock cs o))) = Returned.
Proof.
  intros pre err post b cs o Hm [He _] Hn Hb H. replace (pre ++ err :: post ++ [b]) with ((pre ++ err :: post) ++ [b]) in * by (rewrite <- app_assoc; reflexivity).
  apply Forall_app in Hm as [Hm Hk]. inversion Hk as [|? ? Hk1 _]; subst. apply Forall_app in Hn as [N1 N2]. rewrite <- (app_nil_r (pieces _)) in H.
  destruct (mod_returns (pre ++ err :: post) b [] cs o Hm Hk1) as (c1 & E & _); auto; [|now rewrite E].
  apply Forall_app. split; [exact N1|]. constructor; [|exact N2]. intros [K _]. rewrite He in K. discriminate.
Qed.
(** no message of the protocol makes it report a failure *)
Theorem C47_never_fails : forall ms cs o, Forall msg_ok ms -> aligned (pieces ms) cs -> snd (fst (run_msgs barrier_body tt (Sock cs o))) <> Failed.
Proof. exact mod_never_fails. Qed.
Example C47_case : let err := OfMsg 4 1 2 (be 2 5 ++ be 2 1) in let ok := OfMsg 4 21 3 [] in
  is_error 2 err /\ r_end (ofctl $"add-flow" [$"priority=1"] (Sock [stream [err; ok]] true)) = Returned
  /\ r_end (ofctl $"add-flow" [$"priority=1"] (Sock [stream [err]] true)) = Blocked
  /\ r_end (ofctl $"add-flow" [$"priority=1"] (Sock [map z2b [4; 1; 0; 2; 0; 0; 0; 0]] true)) = Failed.
Proof. vm_compute. auto 10. Qed.

(** ** C48 *)
(** parts with the MORE flag (flags not 0) and then one without, with any other messages in between *)
Theorem C48_prints : forall mp show, in_bytes 2 mp -> forall rs r ts t ps cs o, Forall (reply_ok mp) rs -> reply_ok mp r -> Forall (fun r => p_flags r <> 0) rs -> p_flags r = 0 ->
  Forall2 (shows mp show) rs ts -> shows mp show r t -> aligned (pieces (flat_map (reply_msgs mp) (rs ++ [r])) ++ ps) cs ->
  exists cs', run_msgs (dump_body mp show) [] (Sock cs o) = (ts ++ [t], Returned, Sock cs' o) /\ aligned ps cs'.
Proof. exact dump_prints. Qed.
Theorem C48_raises : forall mp show, in_bytes 2 mp -> forall rs r ts e ps cs o, Forall (reply_ok mp) rs -> reply_ok mp r -> Forall (fun r => p_flags r <> 0) rs -> Forall2 (shows mp show) rs ts ->
  show (mp_wire 19 (p_xid r) mp (p_flags r) (p_body r)) = Raise e -> aligned (pieces (flat_map (reply_msgs mp) (rs ++ [r])) ++ ps) cs ->
  exists cs', run_msgs (dump_body mp show) [] (Sock cs o) = (ts, Raised e, Sock cs' o) /\ aligned ps cs'.
Proof. exact dump_raises. Qed.
Theorem C48_waits : forall mp show, in_bytes 2 mp -> forall rs noise ts cs o, Forall (reply_ok mp) rs -> Forall (fun r => p_flags r <> 0) rs -> Forall2 (shows mp show) rs ts -> Forall msg_ok noise -> Forall (fun m => ~ is_part mp m) noise ->
  aligned (pieces (flat_map (reply_msgs mp) rs ++ noise)) cs -> exists cs', run_msgs (dump_body mp show) [] (Sock cs o) = (ts, if o then Blocked else Raised StructError, Sock cs' o) /\ concat cs' = [].
Proof. exact dump_waits. Qed.
(** the whole command, down to the printed entries *)
Theorem C48_flows : forall args rs r ls l ps cs o, Forall (reply_ok 1) rs -> reply_ok 1 r -> Forall (fun r => p_flags r <> 0) rs -> p_flags r = 0 -> Forall2 carries rs ls -> carries r l ->
  aligned (pieces (flat_map (reply_msgs 1) (rs ++ [r])) ++ ps) cs ->
  exists cs', ofctl $"dump-flows" args (Sock cs o) = Run [hello; mp_wire 18 2 1 0 (frequest_wire request_defaults [])] (map (fun l => lines (map fstat_text l)) (ls ++ [l])) Returned (Sock cs' o) /\ aligned ps cs'.
Proof.
  assert (K : forall r l, reply_ok 1 r -> carries r l -> shows 1 mpflow2text r (lines (map fstat_text l))).
  { intros r l (_ & _ & Hx & Hf & Hl) [E Hg]. unfold shows. pose proof (fstats_print [(p_xid r, p_flags r, l)]) as P. cbn [flat_map fst snd] in P. rewrite !app_nil_r in P. rewrite E in *. apply P. constructor; [|constructor]. split; [exact Hg|]. split; auto. }
  intros args rs r ls l ps cs o Hr Hl Hf Hz Hs Ht H. rewrite ofctl_flows. unfold do_dump.
  destruct (dump_prints 1 mpflow2text ltac:(unfold in_bytes; cbn; lia) rs r (map (fun l => lines (map fstat_text l)) ls) (lines (map fstat_text l)) ps cs o) as (c1 & E & A); auto.
  - clear -Hr Hs K. induction Hs; [constructor|]. inversion Hr; subst. constructor; auto.
  - exists c1. rewrite E, map_app. split; [reflexivity|exact A].
Qed.
Theorem C48_groups : forall args rs r ls l ps cs o, Forall (reply_ok 7) rs -> reply_ok 7 r -> Forall (fun r => p_flags r <> 0) rs -> p_flags r = 0 -> Forall2 describes rs ls -> describes r l ->
  aligned (pieces (flat_map (reply_msgs 7) (rs ++ [r])) ++ ps) cs ->
  exists cs', ofctl $"dump-groups" args (Sock cs o) = Run [hello; mp_wire 18 2 7 0 []] (map (fun l => lines (map gdesc_shown l)) (ls ++ [l])) Returned (Sock cs' o) /\ aligned ps cs'.
Proof.
  assert (K : forall r l, reply_ok 7 r -> describes r l -> shows 7 mpgroupdesc2text r (lines (map gdesc_shown l))).
  { intros r l (_ & _ & Hx & Hf & Hl) [E Hg]. unfold shows. pose proof (gdescs_print [(p_xid r, p_flags r, l)]) as P. cbn [flat_map fst snd] in P. rewrite !app_nil_r in P. rewrite E in *. apply P. constructor; [|constructor]. split; [exact Hg|]. split; auto. }
  intros args rs r ls l ps cs o Hr Hl Hf Hz Hs Ht H. rewrite ofctl_groups. unfold do_dump.
  destruct (dump_prints 7 mpgroupdesc2text ltac:(unfold in_bytes; cbn; lia) rs r (map (fun l => lines (map gdesc_shown l)) ls) (lines (map gdesc_shown l)) ps cs o) as (c1 & E & A); auto.
  - clear -Hr Hs K. induction Hs; [constructor|]. inversion Hr; subst. constructor; auto.
  - exists c1. rewrite E, map_app. split; [reflexivity|exact A].
Qed.
Example C48_case : let e := FStat 1 0 0 0 (Fixed 0 0 0 5 0 0 0 0 0 0) [] [] in let f := FStat 0 2 0 0 (Fixed 0 0 0 6 0 0 0 0 0 0) [] [] in
  let ms := [OfMsg 4 0 1 []; part 2 1 1 (fstats_wire [e; f]); OfMsg 4 2 9 [x00]; part 2 1 0 (fstats_wire [f]); OfMsg 4 2 10 []] in
  ofctl $"dump-flows" [] (Sock [stream ms] true) =
  Run [hello; map z2b ([4; 18; 0; 56; 0; 0; 0; 2; 0; 1] ++ repeat 0 6 ++ [255; 0; 0; 0; 255; 255; 255; 255; 255; 255; 255; 255] ++ repeat 0 20 ++ [0; 1; 0; 4; 0; 0; 0; 0])]
      [$"packet_count=1 priority=5" ++ [10] ++ $"byte_count=2 priority=6"; $"byte_count=2 priority=6"] Returned (Sock [msg_wire (OfMsg 4 2 10 [])] true).
Proof. vm_compute. reflexivity. Qed.
(** neither the xid nor the other bits of the flags are looked at *)
Example C48_xid_refuted : let e := FStat 1 0 0 0 (Fixed 0 0 0 5 0 0 0 0 0 0) [] [] in
  r_printed (ofctl $"dump-flows" [] (Sock [stream [part 99 1 0 (fstats_wire [e])]] true)) = [$"packet_count=1 priority=5"]
  /\ r_end (ofctl $"dump-flows" [] (Sock [stream [part 99 1 0 (fstats_wire [e])]] true)) = Returned
  /\ r_end (ofctl $"dump-flows" [] (Sock [stream [part 2 1 2 (fstats_wire [e])]] true)) = Blocked.
Proof. vm_compute. auto. Qed.

(** ** C49 *)
(** hello, the message, a barrier; the command decides the message's command field *)
Theorem C49_flow : forall command code args m s, In (command, code) flow_commands -> str2mod (words args) code 2 = Ok m -> r_sent (ofctl command args s) = [hello; m; barrier_request].
Proof. intros command code args m s Hc Hm. rewrite (ofctl_flow _ _ _ _ Hc), Hm, mod_ok. unfold run_mod. now destruct (run_msgs _ _ _) as [[[] e] s']. Qed.
Theorem C49_group : forall command code args m s, In (command, code) group_commands -> str2group (words args) code 2 = Ok m -> r_sent (ofctl command args s) = [hello; m; barrier_request].
Proof. intros command code args m s Hc Hm. rewrite (ofctl_group _ _ _ _ Hc), Hm, mod_ok. unfold run_mod. now destruct (run_msgs _ _ _) as [[[] e] s']. Qed.
(** a text that is not accepted is not sent *)
Theorem C49_rejected : forall command code args e s, In (command, code) flow_commands /\ str2mod (words args) code 2 = Raise e \/ In (command, code) group_commands /\ str2group (words args) code 2 = Raise e ->
  ofctl command args s = Run [hello] [] (Raised e) s.
Proof. intros command code args e s [[Hc Hm]|[Hc Hm]]; [rewrite (ofctl_flow _ _ _ _ Hc), Hm|rewrite (ofctl_group _ _ _ _ Hc), Hm]; reflexivity. Qed.
Theorem C49_unknown : forall command args s, ~ In command ([$"dump-flows"; $"dump-groups"] ++ map fst flow_commands ++ map fst group_commands) -> ofctl command args s = Run [hello] [] BadParam s.
Proof. exact ofctl_unknown. Qed.
Theorem C49_dump_flows : forall args s, r_sent (ofctl $"dump-flows" args s) = [hello; mp_wire 18 2 1 0 (frequest_wire request_defaults [])].
Proof. intros args s. rewrite ofctl_flows. unfold do_dump. now destruct (run_msgs _ _ _) as [[p e] s']. Qed.
Theorem C49_dump_groups : forall args s, r_sent (ofctl $"dump-groups" args s) = [hello; mp_wire 18 2 7 0 []].
Proof. intros args s. rewrite ofctl_groups. unfold do_dump. now destruct (run_msgs _ _ _) as [[p e] s']. Qed.
(** nothing the switch sends changes what is sent *)
Theorem C49_independent : forall command args s s', r_sent (ofctl command args s) = r_sent (ofctl command args s').
Proof.
  intros command args s s'. unfold ofctl. destruct (of_hdr 0 1); [|reflexivity|reflexivity].
  assert (D : forall x mp show, r_sent (do_dump [a] x mp show s) = r_sent (do_dump [a] x mp show s')) by (intros [x|e|] mp show; unfold do_dump; [|reflexivity|reflexivity]; destruct (run_msgs _ [] s) as [[? ?] ?], (run_msgs _ [] s') as [[? ?] ?]; reflexivity).
  assert (M : forall x, r_sent (do_mod [a] x s) = r_sent (do_mod [a] x s')).
  { intros [x|e|]; unfold do_mod; [|reflexivity|reflexivity]. destruct (of_hdr 20 3); [|reflexivity|reflexivity]. destruct (run_msgs _ tt s) as [[? ?] ?], (run_msgs _ tt s') as [[? ?] ?]; reflexivity. }
  destruct (text_eqb command $"dump-flows"); [apply D|]. destruct (text_eqb command $"dump-groups"); [apply D|]. destruct (index_of command ofpfc); [apply M| |]; (destruct (index_of command ofpgc); [apply M|reflexivity|reflexivity]).
Qed.
(** from the words of the command line to the end *)
Theorem C49_whole : forall command code args es is pre b ps cs o, In (command, code) flow_commands -> writes_flow es is (words args) -> flow_ok code 2 (fixed_of (defaults code) es) (matches_of es) is ->
  Forall msg_ok pre -> msg_ok b -> Forall (fun m => ~ is_barrier_reply m) pre -> is_barrier_reply b -> aligned (pieces (pre ++ [b]) ++ ps) cs ->
  exists cs', ofctl command args (Sock cs o) = Run [hello; flow_wire code 2 (fixed_of (defaults code) es) (matches_of es) is; barrier_request] [] Returned (Sock cs' o) /\ aligned ps cs'.
Proof.
  intros command code args es is pre b ps cs o Hc Hw Hf H1 H2 H3 H4 H5. rewrite (ofctl_flow _ _ _ _ Hc), (flow_encodes _ _ _ _ _ Hw Hf), mod_ok. unfold run_mod.
  destruct (mod_returns pre b ps cs o H1 H2 H3 H4 H5) as (c1 & E & A). rewrite E. eauto.
Qed.
Example C49_case : r_sent (ofctl $"del-flow-strict" [$"priority=3"; $"table=1"] (Sock [] true)) = map (map z2b)
    [[4; 0; 0; 8; 0; 0; 0; 1];
     [4; 14; 0; 56; 0; 0; 0; 2] ++ repeat 0 16 ++ [1; 4; 0; 0; 0; 0; 0; 3; 0; 0; 0; 0] ++ repeat 255 8 ++ repeat 0 4 ++ [0; 1; 0; 4; 0; 0; 0; 0];
     [4; 20; 0; 8; 0; 0; 0; 3]]
  /\ r_sent (ofctl $"del-group" [$"group=all,all"] (Sock [] true)) = map (map z2b)
    [[4; 0; 0; 8; 0; 0; 0; 1]; [4; 15; 0; 16; 0; 0; 0; 2; 0; 2; 0; 0; 255; 255; 255; 252]; [4; 20; 0; 8; 0; 0; 0; 3]].
Proof. vm_compute. auto. Qed.

(** ** C56 *)
(** the two documented forms *)
Theorem C56_tcp : forall a b c d port, Forall (in_bytes 1) [a; b; c; d] -> in_bytes 2 port -> switch_addr ($"tcp:" ++ dotted a b c d ++ $":" ++ dec port) = Some (Tcp (dotted a b c d) port).
Proof.
  intros a b c d port H Hp. assert (F : forall x, In x [a; b; c; d] -> 0 <= x) by (intros x Hx; rewrite Forall_forall in H; now destruct (H x Hx)). destruct Hp as [? _]. pose proof (addr_dotted a b c d port []) as K. rewrite app_nil_r in K. apply K; try (apply F; cbn; tauto); auto. exact I.
Qed.
Theorem C56_unix : forall path, ~ In newline path -> switch_addr ($"unix:" ++ path) = Some (Unix path).
Proof. intros path H. apply addr_unix. exists []. split; [now rewrite app_nil_r|]. split; [exact H|now left]. Qed.
(** everything that is accepted: four digit strings with any character between them and a
    port, and anything may follow; or unix: and the path up to the end of the line *)
Theorem C56_tcp_only : forall s host port, switch_addr s = Some (Tcp host port) -> exists ds r, tcp_text s host ds r /\ port = value 10 ds.
Proof. exact addr_tcp. Qed.
Theorem C56_unix_only : forall s path, switch_addr s = Some (Unix path) <-> exists r, unix_text s path r.
Proof. exact addr_unix. Qed.
Theorem C56_none : forall s, switch_addr s = None <-> (forall h ds r, ~ tcp_text s h ds r) /\ (forall r, s <> $"unix:" ++ r).
Proof. exact addr_none. Qed.
(** without an address nothing is sent; with one the command runs on the connection *)
Theorem C56_refuses : forall s command args net, switch_addr s = None -> r_sent (ofctl_main s command args net) = [] /\ r_end (ofctl_main s command args net) = BadParam.
Proof. intros s command args net H. unfold ofctl_main. rewrite H. auto. Qed.
Theorem C56_runs : forall s a k command args net, switch_addr s = Some a -> net a = Ok k -> ofctl_main s command args net = ofctl command args k.
Proof. intros s a k command args net H K. unfold ofctl_main. now rewrite H, K. Qed.
Theorem C56_unreachable : forall s a e command args net, switch_addr s = Some a -> net a = Raise e -> r_sent (ofctl_main s command args net) = [] /\ r_end (ofctl_main s command args net) = Raised e.
Proof. intros s a e command args net H K. unfold ofctl_main. rewrite H, K. auto. Qed.
(** what follows the port is ignored, and the dots of the address need not be dots *)
Theorem C56_trailing_refuted : forall a b c d port r, Forall (in_bytes 1) [a; b; c; d] -> in_bytes 2 port -> Spec.stops 10 r -> switch_addr ($"tcp:" ++ dotted a b c d ++ $":" ++ dec port ++ r) = Some (Tcp (dotted a b c d) port).
Proof. intros a b c d port r H Hp Hr. assert (F : forall x, In x [a; b; c; d] -> 0 <= x) by (intros x Hx; rewrite Forall_forall in H; now destruct (H x Hx)). destruct Hp as [? _]. apply addr_dotted; try (apply F; cbn; tauto); auto. Qed.
Example C56_case : switch_addr $"tcp:127.0.0.1:6633" = Some (Tcp $"127.0.0.1" 6633) /\ switch_addr $"unix:/var/run/br0.mgmt" = Some (Unix $"/var/run/br0.mgmt")
  /\ switch_addr $"tcp:localhost:6633" = None /\ switch_addr $"tcp:127.0.0.1" = None /\ switch_addr $"ssl:127.0.0.1:6633" = None
  /\ switch_addr $"tcp:1x2y3z4:80 or so" = Some (Tcp $"1x2y3z4" 80) /\ switch_addr $"tcp:1234567:70000" = Some (Tcp $"1234567" 70000)
  /\ r_sent (ofctl_main $"tcp:127.0.0.1:6633" $"bogus" [] (fun _ => Ok (Sock [] true))) = [hello].
Proof. vm_compute. auto 12. Qed.

Print Assumptions C46_read.
Print Assumptions C46_only_then.
Print Assumptions C47_refuted.
Print Assumptions C47_never_fails.
Print Assumptions C48_flows.
Print Assumptions C48_groups.
Print Assumptions C49_flow.
Print Assumptions C49_rejected.
Print Assumptions C49_whole.
Print Assumptions C56_tcp.
Print Assumptions C56_none.
