(** The lines of a printed reply, read by str2mod and str2group. *)
From Coq Require Import Strings.Ascii.
From Verif Require Import Base PyNum Util PyLib OxmCodec OxmTables Oxm Nx Ofp4 Spec SpecOxm SpecOfp SpecMp SpecReload.
From Verif Require Import BaseFacts UtilFacts NumFacts OxmRead OxmPrint OxmFacts OxmFrame OxmMore TermFacts OfpTerm.
From Verif Require Import ActBase ActRead ActReadNx ActReadReg ActReadLearn ActPrint ActText ActFrame FlowRead FlowMod FlowText FlowFrame FlowPrefix GroupRead GroupText GroupFrame MpBase MpFlow MpGroup.

(** ** Flows *)
Lemma loaded_fixed cmd x : x_mask x = 0 -> x_buffer x = 0 -> x_port x = 0 -> x_group x = 0 -> named_flags (x_flags x) ->
  fold_left apply_set (map fst (printed_sets print_defaults x)) (defaults cmd) = loaded cmd x.
Proof.
  destruct x as [c m t p i h b op og f]. cbn [x_mask x_buffer x_port x_group x_flags]. intros -> -> -> -> Hf. unfold loaded. cbn [x_cookie x_mask x_table x_priority x_idle x_hard x_buffer x_port x_group x_flags].
  assert (D : x_cookie (defaults cmd) = 0 /\ x_mask (defaults cmd) = 0 /\ x_priority (defaults cmd) = 0x8000 /\ x_idle (defaults cmd) = 0 /\ x_hard (defaults cmd) = 0 /\ x_flags (defaults cmd) = 0)
    by (unfold defaults; destruct (deleting cmd); auto 10).
  destruct (defaults cmd) as [dc dm dt dp di dh db dop dog df]. cbn [x_cookie x_mask x_table x_priority x_idle x_hard x_buffer x_port x_group x_flags] in *. destruct D as (-> & -> & -> & -> & -> & ->).
  unfold printed_sets, print_defaults. cbn [x_cookie x_mask x_table x_priority x_idle x_hard x_buffer x_port x_group x_flags]. rewrite !map_app, !fold_left_app.
  set (q := if t =? 0 then dt else t). cbn [Z.eqb map fold_left].
  match goal with |- context [?F] => match F with fold_left apply_set (map fst (if c =? 0 then _ else _)) _ =>
    replace F with (Fixed c 0 dt 0x8000 0 0 db dop dog 0) by (destruct (Z.eqb_spec c 0) as [->|]; reflexivity) end end.
  match goal with |- context [?F] => match F with fold_left apply_set (map fst (if t =? 0 then _ else _)) _ =>
    replace F with (Fixed c 0 q 0x8000 0 0 db dop dog 0) by (unfold q; destruct (Z.eqb_spec t 0) as [->|]; reflexivity) end end.
  next p 0x8000 (Fixed c 0 q p 0 0 db dop dog 0). next i 0 (Fixed c 0 q p i 0 db dop dog 0). next h 0 (Fixed c 0 q p i h db dop dog 0).
  now apply flags_sum.
Qed.
Lemma loaded_ok cmd x : fixed_ok x -> fixed_ok (loaded cmd x).
Proof.
  intros (H1 & H2 & H3 & H4 & H5 & H6 & H7 & H8 & H9 & H10). unfold loaded, fixed_ok. cbn [x_cookie x_mask x_table x_priority x_idle x_hard x_buffer x_port x_group x_flags].
  unfold defaults. destruct (deleting cmd), (x_table x =? 0); cbn [x_cookie x_mask x_table x_priority x_idle x_hard x_buffer x_port x_group x_flags]; unfold in_bytes in *; cbn in *; lia.
Qed.
Lemma load_length cmd xid e : length (load_wire cmd xid e) = length (fstat_wire e).
Proof. unfold load_wire, flow_wire, fstat_wire. cbv zeta. rewrite !app_length, !be_length. cbn [pad]. unfold pad. rewrite !repeat_length. lia. Qed.
Theorem rule_loads e cmd xid : fshown e -> in_bytes 1 cmd -> in_bytes 4 xid -> str2mod (rule_text e) cmd xid = Ok (load_wire cmd xid e).
Proof.
  intros ((_ & _ & _ & _ & Hx & Hi & Hl) & (P1 & P2 & P3 & P4 & P5 & P6 & P7) & Hf) Hc Hxid.
  pose proof (text_writes_flow print_defaults (fs_fixed e) (fs_match e) (fs_instrs e) Hx P5 (good_instrs _ Hi P7)) as W.
  destruct (printed_entries_parts print_defaults (fs_fixed e) (fs_match e) eq_refl Hf) as [M _].
  assert (F : fixed_of (defaults cmd) (printed_entries print_defaults (fs_fixed e) (fs_match e)) = loaded cmd (fs_fixed e)).
  { unfold printed_entries, fixed_of, sets_of. rewrite flat_map_app.
    assert (C : forall l, flat_map (fun e => match e with ESet s => [s] | EMatch _ => [] end) (map ESet l) = l) by (induction l as [|t l IH]; [reflexivity|cbn; now rewrite IH]).
    assert (D : forall l, flat_map (fun e => match e with ESet s => [s] | EMatch _ => [] end) (map EMatch l) = []) by (induction l; auto).
    rewrite C, D, app_nil_r. now apply loaded_fixed. }
  pose proof (flow_encodes _ _ _ cmd xid W) as K. rewrite F, M in K. apply K. split; [exact Hc|]. split; [exact Hxid|]. split; [now apply loaded_ok|]. split; [exact Hi|].
  fold (load_wire cmd xid e). rewrite load_length. exact Hl.
Qed.
Lemma no_counts_text e : no_counts e -> fstat_text e = rule_text e.
Proof. intros (H1 & H2 & H3 & H4). unfold fstat_text, counter_texts, fstat_counters. cbn [flat_map fst snd]. rewrite H1, H2, H3, H4. reflexivity. Qed.
Lemma counts_first e : ~ no_counts e -> exists c n l, counter_texts (fstat_counters e) = (counter_name c ++ $"=" ++ dec n) :: l /\ In (c, n) (fstat_counters e) /\ n <> 0.
Proof.
  intros H. unfold no_counts in H. unfold counter_texts, fstat_counters, unless. cbn [flat_map fst snd].
  destruct (Z.eqb_spec (fs_packets e) 0); [|exists CPackets; eexists; eexists; split; [reflexivity|]; split; [cbn; auto 10|assumption]].
  destruct (Z.eqb_spec (fs_bytes e) 0); [|exists CBytes; eexists; eexists; split; [reflexivity|]; split; [cbn; auto 10|assumption]].
  destruct (Z.eqb_spec (fs_sec e) 0); [|exists CSec; eexists; eexists; split; [reflexivity|]; split; [cbn; auto 10|assumption]].
  destruct (Z.eqb_spec (fs_nsec e) 0); [|exists CNsec; eexists; eexists; split; [reflexivity|]; split; [cbn; auto 10|assumption]]. tauto.
Qed.
(** a counter is no name of an entry *)
Lemma counter_refused c n r cmd xid : 0 <= n -> follow r -> str2mod (counter_name c ++ $"=" ++ dec n ++ r) cmd xid = Raise KeyError.
Proof.
  intros Hn Hr. pose proof (writes_counter_tokens (c, n) (counter_name c ++ $"=" ++ dec n) [] r) as K.
  destruct K as (t & E & Ei); [apply wc with (u := dec n); [now apply dec_literal|apply assigned_plain]|constructor|exact Hr|]. cbn [app fst snd] in E, Ei. rewrite <- !app_assoc in E. cbn [fst] in E.
  assert (Hne : counter_name c ++ $"=" ++ dec n ++ r <> []) by (destruct c; discriminate).
  unfold str2mod. rewrite str2dict_run, dict_run_eq by exact Hne. unfold dict_step. rewrite E. cbn [has_char existsb negb assert bind].
  assert (Ea : startswith $"@" (counter_name c) = false) by (destruct c; reflexivity). rewrite Ea.
  pose proof (get_token_concat _ _ _ _ E) as Es. cbn [app] in Es. apply app_inv_head in Es. subst t.
  assert (Em : match_token info0 (counter_name c) ($"=" ++ dec n ++ r) = Raise KeyError).
  { assert (Eo : str2oxm (counter_name c ++ $"=" ++ dec n ++ r) false = Raise KeyError).
    { unfold str2oxm. destruct (counter_name c ++ $"=" ++ dec n ++ r) as [|c0 s0] eqn:Ec; [congruence|]. cbn [length str2oxm_go]. rewrite E.
      unfold int_arg in Ei. destruct (get_token ($"=" ++ dec n ++ r)) as [[op pl] u2]. destruct (has_char 61 op); [|discriminate]. cbn [has_char existsb negb andb assert bind].
      unfold str2bin. rewrite str2bin_unknown; [reflexivity|]. intros Hi.
      assert (K : existsb (text_eqb (counter_name c)) (map fname accepted_fields) = true) by (apply existsb_exists; exists (counter_name c); split; [exact Hi|apply text_eqb_refl]).
      destruct c; vm_compute in K; discriminate. }
    unfold match_token. destruct c; cbn match; change (assoc_t (counter_name _) proc_fields) with (@None (info -> Z -> info)); change (assoc_t (counter_name _) ofpff) with (@None Z); cbn match; rewrite Eo; reflexivity. }
  rewrite Em. reflexivity.
Qed.
Theorem counts_refused e cmd xid : fshown e -> ~ no_counts e -> str2mod (fstat_text e) cmd xid = Raise KeyError.
Proof.
  intros ((H1 & H2 & H3 & H4 & _) & _) H. destruct (counts_first e H) as (c & n & l & E & Hi & _).
  assert (Hn : 0 <= n) by (cbn [fstat_counters In] in Hi; unfold in_bytes in *; destruct Hi as [Hi|[Hi|[Hi|[Hi|[]]]]]; injection Hi as <- <-; lia).
  assert (K : exists r, follow r /\ fstat_text e = counter_name c ++ $"=" ++ dec n ++ r).
  { unfold fstat_text, two_parts. rewrite E. rewrite commas_tailed. 
    assert (Ft : forall u, follow u -> follow (tailed l ++ u)) by (intros u Hu; destruct l; [exact Hu|unfold tailed; cbn [flat_map]; rewrite <- !app_assoc; apply gap_follow; apply comma_gap]).
    destruct (fixed_texts print_defaults (fs_fixed e) ++ rule_texts (fs_match e) (fs_instrs e)).
    - exists (tailed l). rewrite <- !app_assoc. split; [|reflexivity]. rewrite <- (app_nil_r (tailed l)). apply Ft. exact I.
    - exists (tailed l ++ $" " ++ commas (t :: l0)). rewrite <- !app_assoc. split; [|reflexivity]. apply Ft. right. left. reflexivity. }
  destruct K as (r & Hr & ->). now apply counter_refused.
Qed.

(** ** Groups *)
Lemma gdesc_group_written e : good_gdesc e -> writes_group [HGroup (gd_id e); HType (gd_type e)] (printed_buckets (gd_type e) (gd_buckets e)) (gdesc_text e).
Proof.
  intros [(Hd & Hb & Hl) Hg]. unfold gdesc_text. cbn [app]. rewrite commas_tailed. unfold tailed. cbn [flat_map]. rewrite <- !app_assoc.
  apply (wgr_head (HGroup (gd_id e)) [HType (gd_type e)] _ [] ($"group=" ++ dec (gd_id e))); [constructor| |].
  - apply (wg_id (dec (gd_id e))); [apply dec_literal; unfold in_bytes in Hd; lia|]. apply (assigned_plain $"group").
  - apply wgt_head; auto using comma_gap. { constructor. } constructor. fold (tailed (buckets_texts (gd_type e) (gd_buckets e))). now apply buckets_written.
Qed.
Theorem group_loads e cmd xid : good_gdesc e -> Z.of_nat (length (gdesc_wire e)) <= 65527 -> in_bytes 2 cmd -> in_bytes 4 xid ->
  str2group (gdesc_text e) cmd xid = Ok (group_wire cmd xid (gd_type e) (gd_id e) (gd_buckets e)).
Proof.
  intros Hg Hl Hc Hx. pose proof (group_encodes _ _ _ cmd xid (gdesc_group_written e Hg)) as K. cbn [fold_left apply_ghead fst snd] in K.
  destruct Hg as [(Hd & Hb & _) Hg]. rewrite printed_buckets_parts in K by auto. apply K; [now apply printed_buckets_ok|].
  split; [exact Hc|]. split; [exact Hx|]. split; [exact Hd|]. split; [exact Hb|]. rewrite gdesc_length in Hl. unfold group_wire. rewrite !app_length, !be_length. unfold pad. rewrite repeat_length. lia.
Qed.
