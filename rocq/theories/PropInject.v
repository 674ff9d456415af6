(** C75: the bytes of a message determine what it stands for. *)
From Coq Require Import Strings.Ascii.
From Verif Require Import Base PyNum Util PyLib OxmCodec OxmTables Oxm Nx Ofp4 Spec SpecOxm SpecOfp SpecMp SpecInject.
From Verif Require Import BaseFacts FlowRead FlowMod GroupRead Inject InjectAct InjectMsg.

(** ** C75 *)
Theorem C75_match : forall ts us, Forall proper ts -> Forall proper us -> (flat_map wire ts = flat_map wire us <-> ts = us).
Proof. intros ts us Ht Hu. split; [now apply tlvs_inj|congruence]. Qed.
(** actions also tell where they end *)
Theorem C75_act : forall a b r s, act_proper a -> act_proper b -> (act_wire a ++ r = act_wire b ++ s <-> same_act a b /\ r = s).
Proof. intros a b r s Ha Hb. split; [now apply act_app|intros [H ->]; now rewrite (same_act_wire _ _ H)]. Qed.
Theorem C75_acts : forall l m, Forall act_proper l -> Forall act_proper m -> (acts_wire l = acts_wire m <-> Forall2 same_act l m).
Proof. intros l m Hl Hm. split; [now apply acts_inj|apply same_acts_wire]. Qed.
Theorem C75_flow : forall cmd xid x ts is cmd' xid' x' ts' is', flow_proper cmd xid x ts is -> flow_proper cmd' xid' x' ts' is' ->
  (flow_wire cmd xid x ts is = flow_wire cmd' xid' x' ts' is' <-> cmd = cmd' /\ xid = xid' /\ x = x' /\ ts = ts' /\ Forall2 same_instr is is').
Proof. exact flow_inj. Qed.
Theorem C75_group : forall cmd xid t id bs cmd' xid' t' id' bs', group_ok cmd xid t id bs -> Forall bucket_proper bs -> group_ok cmd' xid' t' id' bs' -> Forall bucket_proper bs' ->
  (group_wire cmd xid t id bs = group_wire cmd' xid' t' id' bs' <-> cmd = cmd' /\ xid = xid' /\ t = t' /\ id = id' /\ Forall2 same_bucket bs bs').
Proof. exact group_inj. Qed.
Theorem C75_mpflow : forall l m, Forall fstat_proper l -> Forall fstat_proper m -> (fstats_wire l = fstats_wire m <-> Forall2 same_fstat l m).
Proof. exact fstats_inj. Qed.
Theorem C75_mpdesc : forall l m, Forall gdesc_proper l -> Forall gdesc_proper m -> (gdescs_wire l = gdescs_wire m <-> Forall2 same_gdesc l m).
Proof. exact gdescs_inj. Qed.
Theorem C75_mpstats : forall l m, Forall gstat_ok l -> Forall gstat_ok m -> (gstats_wire l = gstats_wire m <-> l = m).
Proof. intros l m Hl Hm. split; [now apply gstats_inj|congruence]. Qed.
(** texts: the same message exactly when they spell the same rule *)
Theorem C75_flow_texts : forall es is s es' is' s' cmd xid, writes_flow es is s -> writes_flow es' is' s' ->
  flow_proper cmd xid (fixed_of (defaults cmd) es) (matches_of es) is -> flow_proper cmd xid (fixed_of (defaults cmd) es') (matches_of es') is' ->
  (str2mod s cmd xid = str2mod s' cmd xid <-> fixed_of (defaults cmd) es = fixed_of (defaults cmd) es' /\ matches_of es = matches_of es' /\ Forall2 same_instr is is').
Proof.
  intros es is s es' is' s' cmd xid Hs Hs' P P'. rewrite (flow_encodes es is s) by (auto; apply P). rewrite (flow_encodes es' is' s') by (auto; apply P').
  pose proof (flow_inj _ _ _ _ _ _ _ _ _ _ P P') as K. clear - K. set (u := flow_wire _ _ _ _ _) in *. set (v := flow_wire _ _ _ _ is') in *. clearbody u v.
  split; [intros E; assert (E' : u = v) by congruence; apply (proj1 K) in E'; apply E'|intros E; rewrite (proj2 K); auto].
Qed.
Theorem C75_group_texts : forall hs ls s hs' ls' s' cmd xid id t id' t', writes_group hs ls s -> writes_group hs' ls' s' ->
  fold_left apply_ghead hs (0xffffffff, GAll) = (id, t) -> fold_left apply_ghead hs' (0xffffffff, GAll) = (id', t') ->
  Forall (Forall bitem_ok) ls -> Forall (Forall bitem_ok) ls' -> group_ok cmd xid t id (map (bucket_of t) ls) -> group_ok cmd xid t' id' (map (bucket_of t') ls') ->
  Forall bucket_proper (map (bucket_of t) ls) -> Forall bucket_proper (map (bucket_of t') ls') ->
  (str2group s cmd xid = str2group s' cmd xid <-> t = t' /\ id = id' /\ Forall2 same_bucket (map (bucket_of t) ls) (map (bucket_of t') ls')).
Proof.
  intros hs ls s hs' ls' s' cmd xid id t id' t' Hs Hs' E E' Hi Hi' G G' P P'.
  pose proof (group_encodes hs ls s cmd xid Hs) as A. pose proof (group_encodes hs' ls' s' cmd xid Hs') as A'. rewrite E in A. rewrite E' in A'. cbn [fst snd] in A, A'. rewrite A, A' by auto.
  pose proof (group_inj _ _ _ _ _ _ _ _ _ _ G P G' P') as K. clear - K. set (u := group_wire _ _ _ _ _) in *. set (v := group_wire _ _ t' _ _) in *. clearbody u v.
  split; [intros Q; assert (Q' : u = v) by congruence; apply (proj1 K) in Q'; apply Q'|intros Q; rewrite (proj2 K); auto].
Qed.
Example C75_case :
  let x := Fixed 0 0 0 0x8000 0 0 0xffffffff 0 0 0 in
  flow_wire 0 9 x [] [ApplyActions [Output 1 0xffff; Output 2 0xffff]] <> flow_wire 0 9 x [] [ApplyActions [Output 2 0xffff; Output 1 0xffff]]
  /\ flow_wire 0 9 x [] [ApplyActions [Noarg PopVlan]] <> flow_wire 0 9 x [] [WriteActions [Noarg PopVlan]]
  /\ flow_wire 0 9 x [] [ApplyActions [Learn [LSet LIdle 1; LSet LHard 2]]] = flow_wire 0 9 x [] [ApplyActions [Learn [LSet LHard 2; LSet LIdle 7; LSet LIdle 1]]]
  /\ str2mod $"@apply,output=1,output=2" 0 9 <> str2mod $"@apply,output=2,output=1" 0 9
  /\ str2mod $"priority=1,priority=2 @apply output=1" 0 9 = str2mod $"priority=2,@apply_actions,output(0x1)" 0 9.
Proof. vm_compute. repeat split; discriminate. Qed.
(** a field too long for its length byte, which then stays at 255, swallows the next one *)
Theorem C75_long_refuted : exists f t, let v := repeat x61 251 in
  known_tlv (Tlv f (v ++ wire t) None) /\ known_tlv (Tlv f v None) /\ proper t
  /\ forall cmd xid x is, flow_wire cmd xid x [Tlv f (v ++ wire t) None] is = flow_wire cmd xid x [Tlv f v None; t] is.
Proof.
  exists (Field $"dot11_ssid" Stratos 8 KSsid), (Tlv (Field $"eth_type" Basic 5 (KInt 2 (Hex 2) None)) [x08; x00] None).
  split; [split; [right; vm_compute; tauto|vm_compute; tauto]|]. split; [split; [right; vm_compute; tauto|vm_compute; tauto]|].
  split; [split; [split; [right; vm_compute; tauto|vm_compute; tauto]|unfold fits; cbn; lia]|].
  intros cmd xid x is. unfold flow_wire. 
  assert (E : match_wire [Tlv (Field $"dot11_ssid" Stratos 8 KSsid) (repeat x61 251 ++ wire (Tlv (Field $"eth_type" Basic 5 (KInt 2 (Hex 2) None)) [x08; x00] None)) None]
    = match_wire [Tlv (Field $"dot11_ssid" Stratos 8 KSsid) (repeat x61 251) None; Tlv (Field $"eth_type" Basic 5 (KInt 2 (Hex 2) None)) [x08; x00] None]) by (vm_compute; reflexivity).
  now rewrite E.
Qed.
Print Assumptions C75_match.
Print Assumptions C75_act.
Print Assumptions C75_acts.
Print Assumptions C75_flow.
Print Assumptions C75_group.
Print Assumptions C75_mpflow.
Print Assumptions C75_mpdesc.
Print Assumptions C75_mpstats.
Print Assumptions C75_flow_texts.
Print Assumptions C75_group_texts.
Print Assumptions C75_case.
Print Assumptions C75_long_refuted.
