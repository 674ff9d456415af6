(** Properties C27 (flow texts) and C29-C37: flow rules (ofp4.py). *)
From Coq Require Import Strings.Ascii Permutation.
From Verif Require Import Base PyNum Util PyLib OxmCodec OxmTables Oxm Nx Ofp4 Spec SpecOxm SpecOfp.
From Verif Require Import BaseFacts UtilFacts NumFacts OxmRead OxmPrint OxmFacts OxmFrame OxmMore.
From Verif Require Import ActBase ActText FlowRead FlowMod FlowText FlowFrame FlowDenote FlowPrefix FlowMore.

Lemma literal_dec n : literal (dec n) n.
Proof. apply dec_literal. Qed.

Definition is_ok {A} (r : res A) : bool := match r with Ok _ => true | _ => false end.

(** ** C27, second half *)
Theorem C27_encodes : forall l r nm xid, spells NApply nm -> writes_acts l r -> flow_ok 0 xid (defaults 0) [] [ApplyActions l] ->
  str2mod (nm ++ r) 0 xid = Ok (flow_wire 0 xid (defaults 0) [] [ApplyActions l]).
Proof.
  intros l r nm xid Hn Hr Hok. pose proof (flow_encodes [] [ApplyActions l] (nm ++ r) 0 xid) as H. cbn [fixed_of sets_of flat_map fold_left matches_of] in H.
  apply H; auto. rewrite <- (app_nil_r (nm ++ r)). apply (wf_instr (ApplyActions l) [] [] (nm ++ r) []); constructor; auto.
Qed.
(** the last bytes of that message *)
Theorem C27_bytes : forall l xid, flow_wire 0 xid (defaults 0) [] [ApplyActions l]
  = mod_head 0 xid (Z.of_nat (64 + length (flat_map act_wire l))) (defaults 0) ++ be 2 1 ++ be 2 4 ++ pad 4
    ++ be 2 4 ++ be 2 (Z.of_nat (8 + length (flat_map act_wire l))) ++ pad 4 ++ flat_map act_wire l.
Proof.
  intros l xid. unfold flow_wire, mod_head. cbn [instrs_wire flat_map instr_wire]. rewrite app_nil_r. unfold std_act.
  change (match_wire []) with (be 2 1 ++ be 2 4 ++ pad 4). unfold acts_wire.
  replace (48 + length ((be 2 1 ++ be 2 4 ++ pad 4) ++ be 2 4 ++ be 2 (Z.of_nat (4 + length (pad 4 ++ flat_map act_wire l))) ++ pad 4 ++ flat_map act_wire l))%nat
    with (64 + length (flat_map act_wire l))%nat by len.
  replace (4 + length (pad 4 ++ flat_map act_wire l))%nat with (8 + length (flat_map act_wire l))%nat by len.
  now rewrite <- !app_assoc.
Qed.
Example C27_flow_case : forall xid, in_bytes 4 xid ->
  str2mod $"@apply, set_queue(7) pop_vlan,,output = 3" 0 xid = Ok (flow_wire 0 xid (defaults 0) [] [ApplyActions [SetQueue 7; Noarg PopVlan; Output 3 0xffff]]).
Proof.
  intros xid Hx. unfold str2mod. replace (str2dict $"@apply, set_queue(7) pop_vlan,,output = 3") with
    (Ok (add_inst info0 (instr_wire (ApplyActions [SetQueue 7; Noarg PopVlan; Output 3 0xffff])))) by (vm_compute; reflexivity).
  cbn [bind]. set (I := instr_wire _). cbn [i_match i_inst add_inst info0 i_cookie i_cookie_mask i_table i_idle i_hard i_priority i_buffer i_out_port i_out_group i_flags].
  replace (match_block []) with (Ok (match_wire [])) by (vm_compute; reflexivity). cbn [bind].
  replace (48 + Z.of_nat (align8 (4 + length (@nil byte))) + Z.of_nat (length ([] ++ I))) with 96 by (vm_compute; reflexivity).
  cbn [opt_or mod_default Z.eqb orb]. unfold ofpfc_default. cbn [k_cookie k_cookie_mask k_table k_idle k_hard k_priority k_buffer k_out_port k_out_group k_flags opt_or].
  unfold mod_fmt. packs. reflexivity.
Qed.

(** ** C29 *)
Theorem C29_framed : forall s cmd xid m, str2mod s cmd xid = Ok m ->
  exists x ts bs, in_bytes 1 cmd /\ in_bytes 4 xid /\ fixed_ok x /\ Z.of_nat (length m) <= 65535
  /\ m = mod_head cmd xid (Z.of_nat (length m)) x ++ match_wire ts ++ concat bs
  /\ Forall (fun t => (tfield t = ct_label_short \/ In (tfield t) registry) /\ sized t) ts /\ Forall instr_framed bs.
Proof.
  intros s cmd xid m H. destruct (mod_sound _ _ _ _ H) as (ps & x & ts & bs & _ & H1 & H2 & H3 & _ & _ & H4 & _ & H5 & H6 & H7).
  exists x, ts, bs. repeat match goal with |- _ /\ _ => split end; auto.
Qed.
Example C29_case : str2mod $"table=3,tcp_dst=80,@apply,output=2,@goto=5" 0 9 = Ok
  (map z2b ([4; 14; 0; 96; 0; 0; 0; 9] ++ repeat 0 8 ++ repeat 0 8 ++ [3; 0; 0; 0; 0; 0; 128; 0; 255; 255; 255; 255] ++ repeat 0 12
     ++ [0; 1; 0; 10; 128; 0; 28; 2; 0; 80] ++ repeat 0 6
     ++ [0; 4; 0; 24; 0; 0; 0; 0; 0; 0; 0; 16; 0; 0; 0; 2; 255; 255] ++ repeat 0 6
     ++ [0; 1; 0; 8; 5; 0; 0; 0])).
Proof. vm_compute. reflexivity. Qed.

(** ** C30 *)
Theorem C30_encodes : forall es is s cmd xid, writes_flow es is s -> flow_ok cmd xid (fixed_of (defaults cmd) es) (matches_of es) is ->
  str2mod s cmd xid = Ok (flow_wire cmd xid (fixed_of (defaults cmd) es) (matches_of es) is).
Proof. exact flow_encodes. Qed.
Theorem C30_canonical : forall cmd xid x ts is, good_flow cmd xid x ts is -> named_flags (x_flags x) ->
  str2mod (flow_text cmd x ts is) cmd xid = Ok (flow_wire cmd xid x ts is).
Proof. exact flow_text_encodes. Qed.
Example C30_case : writes_flow [ESet (SPriority 5); ESet (SFlag ResetCounts)] [Goto 5] $"priority=5,reset_counts @goto=5"
  /\ flow_wire 1 7 (fixed_of (defaults 1) [ESet (SPriority 5); ESet (SFlag ResetCounts)]) [] [Goto 5]
     = map z2b ([4; 14; 0; 64; 0; 0; 0; 7] ++ repeat 0 16 ++ [0; 1; 0; 0; 0; 0; 0; 5; 255; 255; 255; 255] ++ repeat 0 8 ++ [0; 4; 0; 0]
         ++ [0; 1; 0; 4; 0; 0; 0; 0; 0; 1; 0; 8; 5; 0; 0; 0])
  /\ str2mod $"priority=5,reset_counts @goto=5" 1 7 = Ok (flow_wire 1 7 (fixed_of (defaults 1) [ESet (SPriority 5); ESet (SFlag ResetCounts)]) [] [Goto 5]).
Proof.
  split; [|vm_compute; auto].
  change $"priority=5,reset_counts @goto=5" with ([] ++ $"priority=5" ++ ($"," ++ fflag_name ResetCounts ++ ($" " ++ $"@goto=5" ++ []))).
  apply wf_entry; [constructor| |].
  - constructor. apply (ws_priority (dec 5) 5); [apply literal_dec|apply (assigned_plain $"priority")].
  - apply wt_entry; [|constructor; constructor|].
    + exists 44, []. split; [reflexivity|]. split; [|constructor]. unfold sep_char. chr_red. lia.
    + apply wt_instr; [| |constructor].
      * exists 32, []. split; [reflexivity|]. split; [|constructor]. unfold sep_char. chr_red. lia.
      * apply (wi_goto $"@goto" (dec 5) 5); [left; reflexivity|apply literal_dec|apply (assigned_plain $"@goto")].
Qed.

(** ** C31 *)
Theorem C31_prints : forall cmd xid x ts is, good_flow cmd xid x ts is -> mod2str (flow_wire cmd xid x ts is) = Ok (flow_text cmd x ts is).
Proof. exact flow_prints. Qed.
Example C31_case : let x := Fixed 0x1234 0xff 0xff 7 0 60 0 0xfffffffd 0xffffffff 5 in
  let is := [Meter 3; ClearActions; WriteMetadata 0xf0 0xff] in
  flow_text 3 x [] is = $"cookie=0x1234/0xff,priority=7,out_port=controller,hard_timeout=60,send_flow_rem,reset_counts,@meter=3,@clear,@metadata=0xf0/0xff"
  /\ mod2str (flow_wire 3 1 x [] is) = Ok (flow_text 3 x [] is).
Proof. vm_compute. auto. Qed.
(** actions that cannot be printed *)
Example C31_set_nw_ttl_refuted : (m <- str2mod $"@apply,set_nw_ttl=5" 0 0 ;; mod2str m) = Raise AssertionError
  /\ (m <- str2mod $"@apply,note=abcd" 0 0 ;; mod2str m) = Raise AssertionError.
Proof. vm_compute. auto. Qed.

(** ** C32 *)
Theorem C32_binary : forall cmd xid x ts is, good_flow cmd xid x ts is -> named_flags (x_flags x) ->
  let m := flow_wire cmd xid x ts is in
  exists t kw, mod2str m = Ok t /\ mod2extra m = Ok kw /\ str2mod_kw t kw = Ok m.
Proof.
  intros cmd xid x ts is Hg Hf m. exists (flow_text cmd x ts is), ((if cmd =? 0 then [] else [($"command", cmd)]) ++ [($"xid", xid)]).
  split; [now apply flow_prints|]. split; [apply flow_extra; apply Hg|].
  transitivity (str2mod (flow_text cmd x ts is) cmd xid); [|now apply flow_text_encodes].
  destruct (Z.eqb_spec cmd 0) as [->|]; reflexivity.
Qed.
Theorem C32_text : forall cmd xid x ts is, good_flow cmd xid x ts is -> named_flags (x_flags x) ->
  (m <- str2mod (flow_text cmd x ts is) cmd xid ;; mod2str m) = Ok (flow_text cmd x ts is).
Proof. intros cmd xid x ts is Hg Hf. rewrite flow_text_encodes by auto. cbn [bind]. now apply flow_prints. Qed.
(** any other spelling becomes the canonical text *)
Theorem C32_written : forall es is s cmd xid, writes_flow es is s -> good_flow cmd xid (fixed_of (defaults cmd) es) (matches_of es) is ->
  (m <- str2mod s cmd xid ;; mod2str m) = Ok (flow_text cmd (fixed_of (defaults cmd) es) (matches_of es) is).
Proof. intros es is s cmd xid Hw Hg. rewrite (flow_encodes es is s) by (auto; apply Hg). cbn [bind]. now apply flow_prints. Qed.
Example C32_case : (m <- str2mod $" @write_actions output( 3 , 0x80 ),, exit" 0 1 ;; mod2str m) = Ok $"@write,output=3,exit"
  /\ (m <- str2mod $"eth_type=0x800 , ipv4_dst = 10.0.0.1,flag" 0 1 ;; mod2str m) = Raise AssertionError
  /\ (m <- str2mod $"eth_type=0x800 , ipv4_dst = 10.0.0.1 no_pkt_counts" 4 1 ;; mod2str m) = Ok $"no_pkt_counts,eth_type=0x800,ipv4_dst=10.0.0.1".
Proof. vm_compute. auto. Qed.
(** flags without a name are lost *)
Theorem C32_flags_refuted : forall cmd xid x ts is, good_flow cmd xid x ts is -> ~ named_flags (x_flags x) ->
  exists m', (t <- mod2str (flow_wire cmd xid x ts is) ;; str2mod t cmd xid) = Ok m' /\ m' <> flow_wire cmd xid x ts is.
Proof.
  intros cmd xid x ts is Hg Hn. rewrite flow_prints by auto. cbn [bind]. rewrite flags_lost by auto. eexists. split; [reflexivity|].
  assert (Hf : in_bytes 2 (x_flags x)) by apply Hg. pose proof (land31 _ Hf) as Hl. intros E. apply flags_differ in E; auto.
  - apply Hn. red. lia.
  - unfold in_bytes. cbn. lia.
Qed.

(** ** C33 *)
Definition mentions (s w : text) : Prop := exists a b, s = a ++ w ++ b.
Lemma accepted_mentions w s ps : accepted w s ps -> forall n, In n (names_set ps) -> mentions s n.
Proof.
  assert (P : forall a s n, mentions s n -> mentions (a ++ s) n) by (intros a s0 n (x & y & ->); exists (a ++ x), y; now rewrite app_assoc).
  induction 1; intros n Hn; cbn [names_set flat_map app In] in Hn; try contradiction; auto.
  - destruct Hn as [<-|Hn]; [exists h, (x ++ r); reflexivity|]. do 3 apply P. now apply IHaccepted.
Qed.
Theorem C33_defaults : forall s cmd xid m, str2mod s cmd xid = Ok m ->
  exists x rest, m = mod_head cmd xid (Z.of_nat (length m)) x ++ rest
  /\ (~ mentions s $"table" -> x_table x = x_table (defaults cmd)) /\ (~ mentions s $"priority" -> x_priority x = 0x8000)
  /\ (~ mentions s $"idle_timeout" -> x_idle x = 0) /\ (~ mentions s $"hard_timeout" -> x_hard x = 0)
  /\ (~ mentions s $"buffer" -> x_buffer x = x_buffer (defaults cmd)) /\ (~ mentions s $"cookie" -> x_cookie x = 0 /\ x_mask x = 0)
  /\ (~ mentions s $"out_port" -> x_port x = x_port (defaults cmd)) /\ (~ mentions s $"out_group" -> x_group x = x_group (defaults cmd))
  /\ named_flags (x_flags x) /\ (forall f, ~ mentions s (fflag_name f) -> Z.land (x_flags x) (fflag_bit f) = 0).
Proof.
  intros s cmd xid m H. destruct (mod_sound _ _ _ _ H) as (ps & x & ts & bs & Ha & _ & _ & _ & Hd & _ & _ & _ & _ & _ & Hm).
  exists x, (match_wire ts ++ concat bs). split; [exact Hm|]. pose proof (accepted_mentions _ _ _ Ha) as K.
  destruct Hd as (D1 & D2 & D3 & D4 & D5 & D6 & D7 & D8 & D9).
  assert (C : forall k : fixedp -> Z, k (defaults cmd) = (if deleting cmd then k (defaults 3) else k (defaults 0))) by (intros k; unfold defaults; destruct (deleting cmd); reflexivity).
  rewrite (C x_priority) in D2. rewrite (C x_idle) in D3. rewrite (C x_hard) in D4. rewrite (C x_cookie), (C x_mask) in D6.
  repeat match goal with |- _ /\ _ => split end; try intros Hn; auto.
  - rewrite D2 by (intros Hi; apply Hn; auto). now destruct (deleting cmd).
  - rewrite D3 by (intros Hi; apply Hn; auto). now destruct (deleting cmd).
  - rewrite D4 by (intros Hi; apply Hn; auto). now destruct (deleting cmd).
  - destruct D6 as [-> ->]; [intros Hi; apply Hn; auto|]. now destruct (deleting cmd).
  - rewrite D9. apply flags_named_range.
  - rename Hn into f. intros Hn. rewrite D9. apply flags_named_not. intros Hi. apply Hn. auto.
Qed.
Theorem C33_delete : forall cmd, cmd = 3 \/ cmd = 4 ->
  x_table (defaults cmd) = 0xff /\ x_buffer (defaults cmd) = 0 /\ x_port (defaults cmd) = 0xffffffff /\ x_group (defaults cmd) = 0xffffffff.
Proof. intros cmd [->| ->]; auto. Qed.
Theorem C33_other : forall cmd, cmd <> 3 -> cmd <> 4 ->
  x_table (defaults cmd) = 0 /\ x_buffer (defaults cmd) = 0xffffffff /\ x_port (defaults cmd) = 0 /\ x_group (defaults cmd) = 0.
Proof.
  intros cmd H3 H4. unfold defaults, deleting. destruct (Z.eqb_spec cmd 3); [contradiction|]. destruct (Z.eqb_spec cmd 4); [contradiction|]. auto.
Qed.
Example C33_case : str2mod [] 3 0 = Ok (mod_head 3 0 56 (Fixed 0 0 0xff 0x8000 0 0 0 0xffffffff 0xffffffff 0) ++ match_wire [])
  /\ str2mod [] 2 0 = Ok (mod_head 2 0 56 (Fixed 0 0 0 0x8000 0 0 0xffffffff 0 0 0) ++ match_wire []).
Proof. vm_compute. auto. Qed.

(** ** C34 *)
(** after anything that is a flow text so far, and whatever follows, errors included *)
Theorem C34_alias : forall es is p g n r cmd xid, writes_flow es is p -> Forall instr_ok is -> next_to p g -> ends r ->
  str2mod (p ++ g ++ short_name n ++ r) cmd xid = str2mod (p ++ g ++ long_name n ++ r) cmd xid.
Proof. exact alias_same. Qed.
Example C34_case : str2mod $"tcp_src=1,@write,output=2,@goto = 5 @clear" 0 0 = str2mod $"tcp_src=1,@write_actions,output=2,@goto_table = 5 @clear_actions" 0 0
  /\ is_ok (str2mod $"tcp_src=1,@write,output=2,@goto = 5 @clear" 0 0) = true
  /\ str2mod $"@metadata=x" 0 0 = Raise ValueError /\ str2mod $"@write_metadata=x" 0 0 = Raise ValueError.
Proof. vm_compute. auto. Qed.
(** an alias is part of a longer word where none ends *)
Example C34_word_refuted : str2mod $"dot11_ssid=@goto" 0 0 <> str2mod $"dot11_ssid=@goto_table" 0 0.
Proof. vm_compute. discriminate. Qed.

(** ** C35 *)
(** an accepted text is made of known names *)
Theorem C35_accepted : forall s cmd xid m, str2mod s cmd xid = Ok m ->
  exists ps, accepted AtEntry s ps.
Proof. intros s cmd xid m H. destruct (mod_sound _ _ _ _ H) as (ps & x & ts & bs & Ha & _). eauto. Qed.
Theorem C35_entry : forall es p g n r cmd xid, writes_flow es [] p -> next_to p g ->
  token n -> solid n -> startswith $"@" n = false -> ~ In n entry_names -> ends r ->
  exists e, str2mod (p ++ g ++ n ++ r) cmd xid = Raise e.
Proof. exact unknown_entry. Qed.
Theorem C35_action : forall es is p g n z r cmd xid, writes_flow es is p -> Forall instr_ok is -> next_to p g -> after is = AtAction ->
  Forall (fun c => ~ opener c) n -> match z with [] => True | c :: _ => opener c end -> token (n ++ z) -> solid (n ++ z) ->
  startswith $"@" (n ++ z) = false -> unknown_act n -> ends r ->
  exists e, str2mod (p ++ g ++ (n ++ z) ++ r) cmd xid = Raise e.
Proof. exact unknown_action. Qed.
Theorem C35_instruction : forall es is p g n r cmd xid, writes_flow es is p -> Forall instr_ok is -> next_to p g ->
  token n -> startswith $"@" n = true -> ~ In n instr_names -> ends r ->
  exists e, str2mod (p ++ g ++ n ++ r) cmd xid = Raise e.
Proof. exact unknown_instr. Qed.
(** after an instruction without actions nothing but an instruction may follow *)
Theorem C35_after_instruction : forall es is p g n r cmd xid, writes_flow es is p -> Forall instr_ok is -> next_to p g -> after is = AtInstr ->
  token n -> solid n -> startswith $"@" n = false -> ends r ->
  str2mod (p ++ g ++ n ++ r) cmd xid = Raise ValueError.
Proof. exact late_entry. Qed.
Example C35_case : map (fun s => str2mod s 0 0) [$"tcp_dest=80"; $"@apply,outputs=3"; $"@apply,set_foo=3"; $"@jump=3"; $"@goto=3,tcp_dst=80"]
  = [Raise KeyError; Raise ValueError; Raise KeyError; Raise ValueError; Raise ValueError].
Proof. vm_compute. reflexivity. Qed.
(** where an action is expected an "=" may stand and means nothing *)
Example C35_stray_refuted : str2mod $"@apply,=output=1" 0 0 = str2mod $"@apply,output=1" 0 0 /\ str2mod $"@apply,=" 0 0 = str2mod $"@apply" 0 0
  /\ is_ok (str2mod $"@apply,=" 0 0) = true.
Proof. vm_compute. auto. Qed.
(** a field with an empty value may be ignored *)
Example C35_empty_refuted : str2mod $"dot11_ssid=" 0 0 = str2mod [] 0 0 /\ is_ok (str2mod [] 0 0) = true.
Proof. vm_compute. auto. Qed.

(** ** C36 *)
Theorem C36_separators : forall es is s s' cmd xid, writes_flow es is s -> writes_flow es is s' -> Forall instr_ok is ->
  str2mod s cmd xid = str2mod s' cmd xid.
Proof. intros es is s s' cmd xid H H' Hok. apply (settings_same es es is s s'); auto. Qed.
Example C36_case : let f s := str2mod s 0 0 in
  f $"table=3,tcp_dst=80,@apply,output=1,group=2,@goto=5" = f $" , table = 3  tcp_dst  =  80	@apply output(1) , group= 2,,,@goto =5"
  /\ is_ok (f $"table=3,tcp_dst=80,@apply,output=1,group=2,@goto=5") = true.
Proof. vm_compute. auto. Qed.
(** but nothing may follow the last part *)
Example C36_trailing_refuted : str2mod $"table=3," 0 0 = Raise ValueError /\ str2mod $"@goto=5 " 0 0 = Raise ValueError.
Proof. vm_compute. auto. Qed.

(** ** C37 *)
(** only the last setting of each field and the set of flags count *)
Theorem C37_last : forall es es' is s s' cmd xid, writes_flow es is s -> writes_flow es' is s' -> Forall instr_ok is ->
  matches_of es = matches_of es' ->
  (forall g d, In g getters -> last (values g (sets_of es)) d = last (values g (sets_of es')) d) ->
  (forall f, In (SFlag f) (sets_of es) <-> In (SFlag f) (sets_of es')) ->
  str2mod s cmd xid = str2mod s' cmd xid.
Proof. intros es es' is s s' cmd xid H H' Hok Hm Hg Hf. apply (settings_same es es' is s s'); auto. intros d _. now apply last_counts. Qed.
Theorem C37_order : forall es es' is s s' cmd xid, writes_flow es is s -> writes_flow es' is s' -> Forall instr_ok is ->
  matches_of es = matches_of es' -> Permutation (sets_of es) (sets_of es') -> (forall g, In g getters -> (length (values g (sets_of es)) <= 1)%nat) ->
  str2mod s cmd xid = str2mod s' cmd xid.
Proof. intros es es' is s s' cmd xid H H' Hok Hm Hp H1. apply (settings_same es es' is s s'); auto. intros d _. now apply order_free. Qed.
Example C37_case : let f s := str2mod s 0 0 in
  f $"reset_counts,table=3,priority=7,tcp_dst=80,check_overlap,buffer=5" = f $"buffer=5,tcp_dst=80,check_overlap,priority=7,reset_counts,table=3"
  /\ f $"table=1,check_overlap,table=2,check_overlap,table=3" = f $"check_overlap,table=3"
  /\ is_ok (f $"check_overlap,table=3") = true /\ f $"check_overlap,table=3" <> f $"table=3".
Proof. vm_compute. repeat split; discriminate. Qed.
(** the mask of an earlier cookie stays *)
Example C37_cookie_refuted : str2mod $"cookie=1/2,cookie=3" 0 0 = str2mod $"cookie=3/2" 0 0 /\ str2mod $"cookie=3/2" 0 0 <> str2mod $"cookie=3" 0 0.
Proof. vm_compute. split; [reflexivity|discriminate]. Qed.

Print Assumptions C27_encodes.
Print Assumptions C29_framed.
Print Assumptions C30_encodes.
Print Assumptions C31_prints.
Print Assumptions C32_binary.
Print Assumptions C32_flags_refuted.
Print Assumptions C33_defaults.
Print Assumptions C34_alias.
Print Assumptions C35_action.
Print Assumptions C36_separators.
Print Assumptions C37_last.
