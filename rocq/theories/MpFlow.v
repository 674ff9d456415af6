(** Flow statistics (OFPMP_FLOW). *)
From Coq Require Import Strings.Ascii.
From Verif Require Import Base PyNum Util PyLib OxmCodec OxmTables Oxm Nx Ofp4 Spec SpecOxm SpecOfp SpecMp.
From Verif Require Import BaseFacts UtilFacts NumFacts OxmRead OxmPrint OxmFacts OxmFrame OxmMore TermFacts OfpTerm.
From Verif Require Import ActBase ActRead ActReadNx ActReadReg ActReadLearn ActPrint ActText ActFrame FlowRead FlowMod FlowText FlowFrame FlowPrefix GroupRead GroupText MpBase.

(** ** Reading counters *)
Definition named (cs : list (counter * Z)) : list (text * Z) := map (fun c => (counter_name (fst c), snd c)) cs.
Lemma counter_name_eq a b : text_eqb (counter_name a) (counter_name b) = counter_eqb a b.
Proof. destruct a, b; reflexivity. Qed.
Lemma count_snoc c cs x : count c (cs ++ [x]) = if counter_eqb c (fst x) then snd x else count c cs.
Proof. unfold count. rewrite fold_left_app. reflexivity. Qed.
Lemma counter_count cs c : Ofp4.counter (rev (named cs)) (counter_name c) = count c cs.
Proof.
  induction cs as [|x cs IH] using rev_ind; [reflexivity|]. unfold named in *. rewrite map_app, rev_app_distr. cbn [map rev app]. unfold Ofp4.counter in *. cbn [assoc_t].
  rewrite counter_name_eq, count_snoc. destruct (counter_eqb c (fst x)); [reflexivity|exact IH].
Qed.
Lemma counter_plain c : Forall plain (counter_name c) /\ counter_name c <> [].
Proof. split; [destruct c; pl|destruct c; discriminate]. Qed.
Lemma writes_counter_tokens c u h r : writes_counter c u -> Forall filler h -> follow r ->
  exists t, get_token (h ++ u ++ r) = (h, counter_name (fst c), t) /\ int_arg t = Ok (snd c, r).
Proof.
  intros [u' c' n s Hl Ha] Hh Hr. cbn [fst snd]. destruct (counter_plain c') as [Hp Hn]. destruct (literal_plain _ _ Hl) as [Hu Hu0].
  destruct (assigned_tokens (counter_name c') u' s h r) as (op & t & E1 & E2 & E3); auto. exists t. split; [exact E1|]. eapply int_arg_ok; eauto.
Qed.
Lemma writes_counter_nonnil c u : writes_counter c u -> u <> [].
Proof. intros [u' c' n s Hl Ha]. pose proof (assigned_nonnil _ _ _ [] [] Ha) as K. intros ->. now apply K. Qed.
Lemma counters_step fuel names acc c u h r : writes_counter c u -> Forall filler h -> follow r -> in_names (counter_name (fst c)) names = true ->
  counters_go (S fuel) names acc (h ++ u ++ r) = counters_go fuel names ((counter_name (fst c), snd c) :: acc) r.
Proof.
  intros Hw Hh Hr Hn. destruct (writes_counter_tokens c u h r Hw Hh Hr) as (t & E1 & E2).
  assert (Hne : h ++ u ++ r <> []) by (apply mid_nonnil; eapply writes_counter_nonnil; eauto).
  destruct (h ++ u ++ r) as [|c0 s0] eqn:Es; [congruence|]. cbn [counters_go]. rewrite E1, Hn, E2. reflexivity.
Qed.
(** a text that is a flow rule does not start with a counter *)
Lemma counter_no_rule s i h name t : str2dict s = Ok i -> get_token s = (h, name, t) -> in_names name flow_counters = false.
Proof.
  intros H E. destruct (in_names name flow_counters) eqn:Hn; [|reflexivity]. exfalso.
  assert (Hc : exists c, c <> CRef /\ name = counter_name c).
  { unfold in_names in Hn. apply existsb_exists in Hn as (x & Hx & Hn). apply text_eqb_eq in Hn as ->. cbn [In flow_counters] in Hx.
    destruct Hx as [<-|[<-|[<-|[<-|[]]]]]; [exists CPackets|exists CBytes|exists CSec|exists CNsec]; split; (discriminate || reflexivity). }
  destruct Hc as (c & Hc & ->). destruct (counter_plain c) as [Hp Hne].
  assert (s <> []) by (intros ->; rewrite get_token_nil in E; destruct c; discriminate).
  rewrite str2dict_run, dict_run_eq in H by auto. unfold dict_step in H. rewrite E in H. destruct (negb (has_char 61 h)) eqn:Eh; [|discriminate]. cbn [assert bind] in H.
  assert (Ea : startswith $"@" (counter_name c) = false) by (destruct c; reflexivity). rewrite Ea in H.
  assert (Em : exists e, match_token info0 (counter_name c) t = Raise e).
  { destruct (unknown_raises (counter_name c) [] t false) as [e He]; auto using plain_token, plain_solid, Forall_nil.
    - intros Hi. assert (K : existsb (text_eqb (counter_name c)) (map fname accepted_fields) = true) by (apply existsb_exists; exists (counter_name c); split; [exact Hi|apply text_eqb_refl]).
      destruct c; vm_compute in K; discriminate.
    - eapply token_ends; eauto.
    - exists (match str2oxm (counter_name c ++ t) false with Raise e => e | _ => ValueError end). cbn [app] in He. unfold match_token.
      destruct c; cbn match; change (assoc_t (counter_name _) proc_fields) with (@None (info -> Z -> info)); change (assoc_t (counter_name _) ofpff) with (@None Z); cbn match;
        rewrite He; reflexivity. }
  destruct Em as [e Em]. rewrite Em in H. discriminate.
Qed.
Lemma counters_stop s i acc fuel : str2dict s = Ok i -> (length s <= fuel)%nat -> counters_go fuel flow_counters acc s = Ok (acc, s).
Proof.
  intros H Hf. destruct s as [|c s]; [destruct fuel; reflexivity|]. destruct fuel; [cbn in Hf; lia|]. cbn [counters_go]. set (U := c :: s) in *.
  destruct (get_token U) as [[h name] t] eqn:E. now rewrite (counter_no_rule _ _ _ _ _ H E).
Qed.
Lemma flow_counter_in c : c <> CRef -> in_names (counter_name c) flow_counters = true.
Proof. destruct c; intros H; (congruence || reflexivity). Qed.
Lemma tail_is_flow es is s : writes_tail es is s -> writes_flow es is s.
Proof. intros [|i is' g u r Hg Hu Hr|e es' is' g u r Hg Hu Hr]; constructor; auto using gap_filler. Qed.
Lemma rtail_follow cs es is s : writes_rtail cs es is s -> follow s.
Proof. intros [es' is' r H|]; [eapply tail_follow; eauto|now apply gap_follow]. Qed.
Lemma rtail_go cs es is s : writes_rtail cs es is s -> Forall instr_ok is -> forall fuel acc, (length s <= fuel)%nat ->
  exists r, writes_flow es is r /\ counters_go fuel flow_counters acc s = Ok (rev (named cs) ++ acc, r).
Proof.
  induction 1 as [es is r Hr|c cs es is g u r Hc Hg Hu Hr IH]; intros Hi fuel acc Hf.
  - exists r. pose proof (tail_is_flow _ _ _ Hr) as W. split; auto. destruct (flow_reads es is r W Hi) as (i & E & _). eapply counters_stop; eauto.
  - pose proof (writes_counter_nonnil _ _ Hu) as Hn. rewrite !app_length in Hf. assert (length u > 0)%nat by (destruct u; [congruence|cbn; lia]).
    destruct fuel as [|f]; [lia|]. rewrite (counters_step f flow_counters acc c u g r) by eauto using gap_filler, rtail_follow, flow_counter_in.
    destruct (IH Hi f ((counter_name (fst c), snd c) :: acc)) as (r' & W & E); [lia|]. exists r'. split; auto. rewrite E. cbn [named map rev]. rewrite <- app_assoc. reflexivity.
Qed.
Theorem row_parses cs es is s : writes_row cs es is s -> Forall instr_ok is ->
  exists i, mpflow_parse s = Ok (rev (named cs), i) /\ i_match i = flat_map wire (matches_of es) /\ i_inst i = instrs_wire is
    /\ forall d, x_flags d = 0 -> view d i = fixed_of d es.
Proof.
  intros Hw Hi. unfold mpflow_parse. destruct Hw as [es is s W|c cs es is g u r Hc Hg Hu Hr].
  - destruct (flow_reads es is s W Hi) as (i & E & P). exists i. rewrite (counters_stop s i) by auto. cbn [bind]. rewrite E. auto.
  - pose proof (writes_counter_nonnil _ _ Hu) as Hn. assert (L : exists f, length (g ++ u ++ r) = S f /\ (length r <= f)%nat).
    { rewrite !app_length. assert (length u > 0)%nat by (destruct u; [congruence|cbn; lia]). exists (length g + length u + length r - 1)%nat. lia. }
    destruct L as (f & -> & Hf). rewrite (counters_step f flow_counters [] c u g r) by eauto using rtail_follow, flow_counter_in.
    destruct (rtail_go _ _ _ _ Hr Hi f [(counter_name (fst c), snd c)] Hf) as (r' & W & E). rewrite E. cbn [bind].
    destruct (flow_reads es is r' W Hi) as (i & E' & P). exists i. rewrite E'. split; [reflexivity|exact P].
Qed.

(** ** Encoding *)
Lemma fstat_length e : length (fstat_wire e) = (48 + length (match_wire (fs_match e) ++ instrs_wire (fs_instrs e)))%nat.
Proof. unfold fstat_wire. len. Qed.
Lemma row_body cs es is s : writes_row cs es is s -> fstat_ok (fstat_of cs es is) ->
  (ci <- mpflow_parse s ;; mpflow_body 19 ci) = Ok (fstat_wire (fstat_of cs es is)).
Proof.
  intros Hw (H1 & H2 & H3 & H4 & (F1 & F2 & F3 & F4 & F5 & F6 & F7 & F8 & F9 & F10) & Hi & Hl). cbn [fs_instrs] in Hi. destruct (row_parses _ _ _ _ Hw Hi) as (i & E & M & I & V). rewrite E. cbn [bind].
  rewrite fstat_length in Hl. cbn [fstat_of fs_match fs_instrs fs_packets fs_bytes fs_sec fs_nsec fs_fixed] in *. rewrite app_length, match_length in Hl. pose proof (align8_ge (4 + length (flat_map wire (matches_of es)))) as Ha.
  unfold mpflow_body. rewrite M, I. rewrite match_block_ok by lia. cbn [bind]. change (negb (19 =? 19)) with false. cbn match.
  specialize (V read_defaults eq_refl). unfold view in V. cbn [read_defaults x_cookie x_mask x_table x_priority x_idle x_hard x_buffer x_port x_group x_flags] in V.
  unfold fstat_wire. cbn [fstat_of fs_match fs_instrs fs_packets fs_bytes fs_sec fs_nsec fs_fixed].
  rewrite <- V in *. cbn [x_cookie x_mask x_table x_priority x_idle x_hard x_buffer x_port x_group x_flags] in *.
  change (Ofp4.counter (rev (named cs)) $"duration_sec") with (Ofp4.counter (rev (named cs)) (counter_name CSec)).
  change (Ofp4.counter (rev (named cs)) $"duration_nsec") with (Ofp4.counter (rev (named cs)) (counter_name CNsec)).
  change (Ofp4.counter (rev (named cs)) $"packet_count") with (Ofp4.counter (rev (named cs)) (counter_name CPackets)).
  change (Ofp4.counter (rev (named cs)) $"byte_count") with (Ofp4.counter (rev (named cs)) (counter_name CBytes)).
  rewrite !counter_count. fold (match_wire (matches_of es)).
  assert (EL : 48 + Z.of_nat (length (match_wire (matches_of es))) + Z.of_nat (length (instrs_wire is)) = Z.of_nat (48 + length (match_wire (matches_of es) ++ instrs_wire is))) by (rewrite app_length; lia).
  assert (in_bytes 2 (Z.of_nat (48 + length (match_wire (matches_of es) ++ instrs_wire is)))) as Hb by (apply in_bytes_2; rewrite app_length, match_length; lia).
  rewrite EL. unfold mpflow_fmt. packs. rewrite <- !app_assoc. reflexivity.
Qed.
Lemma mapM_ok {A B} (f : A -> res B) l l' : Forall2 (fun a b => f a = Ok b) l l' -> mapM f l = Ok l'.
Proof. induction 1 as [|a b l l' H _ IH]; [reflexivity|]. cbn [mapM]. rewrite H. cbn [bind]. rewrite IH. reflexivity. Qed.

Lemma in_bytes_1_19 : in_bytes 1 19.
Proof. unfold in_bytes. lia. Qed.
Theorem fstats_encode l ss xid : Forall2 writes_fstat l ss -> l <> [] -> Forall fstat_ok l -> in_bytes 4 xid ->
  Z.of_nat (16 + length (fstats_wire l)) <= 65535 -> text2mpflow (lines ss) 19 xid = Ok (mp_wire 19 xid 1 0 (fstats_wire l)).
Proof.
  intros H Hn Hok Hx Hl. assert (Hs : ss <> []) by (intros ->; inversion H; congruence).
  assert (Ho : Forall one_line ss) by (clear -H; induction H as [|? ? ? ? [? _]]; constructor; auto).
  unfold text2mpflow. rewrite lines_split by auto.
  assert (K : exists cis, Forall2 (fun s ci => mpflow_parse s = Ok ci) ss cis /\ map (mpflow_body 19) cis = map Ok (map fstat_wire l)).
  { clear -H Hok. induction H as [|e s l ss (_ & cs & es & is & Hw & ->) _ IH]; [exists []; split; constructor|]. inversion Hok; subst. destruct (IH H2) as (cis & E1 & E2).
    pose proof (row_body _ _ _ _ Hw H1) as B. destruct (mpflow_parse s) as [ci|e|] eqn:E; [|discriminate|discriminate]. cbn [bind] in B. exists (ci :: cis). split; [now constructor|]. cbn [map]. now rewrite B, E2. }
  destruct K as (cis & E1 & E2). rewrite (mapM_ok _ _ _ E1). cbn [bind]. rewrite E2. unfold fstats_wire in *. rewrite flat_map_concat_map in *.
  apply mp_message_ok; auto using in_bytes_1_19.
Qed.
(** requests: one rule; counters and instructions of the text are not sent *)
Theorem frequest_encodes es is s type xid : writes_flow es is s -> one_line s -> Forall instr_ok is -> fixed_ok (fixed_of request_defaults es) -> type <> 19 -> in_bytes 1 type -> in_bytes 4 xid ->
  Z.of_nat (16 + length (frequest_wire (fixed_of request_defaults es) (matches_of es))) <= 65535 ->
  text2mpflow s type xid = Ok (mp_wire type xid 1 0 (frequest_wire (fixed_of request_defaults es) (matches_of es))).
Proof.
  intros Hw Ho Hi (F1 & F2 & F3 & F4 & F5 & F6 & F7 & F8 & F9 & F10) Ht Hty Hx Hl. unfold text2mpflow.
  change s with (lines [s]). rewrite lines_split by (auto; discriminate). destruct (row_parses [] es is s (wr_rule _ _ _ Hw) Hi) as (i & E & M & I & V).
  cbn [mapM]. rewrite E. cbn [bind map]. specialize (V request_defaults eq_refl). rewrite <- V in *. unfold view in *. cbn [request_defaults x_cookie x_mask x_table x_priority x_idle x_hard x_buffer x_port x_group x_flags] in *.
  assert (Hm : Z.of_nat (4 + length (flat_map wire (matches_of es))) <= 65535).
  { revert Hl. unfold frequest_wire. len. rewrite match_length. pose proof (align8_ge (4 + length (flat_map wire (matches_of es)))). lia. }
  assert (B : mpflow_body type (rev (named []), i) = Ok (frequest_wire (view request_defaults i) (matches_of es))).
  { unfold mpflow_body. rewrite M. rewrite match_block_ok by auto. cbn [bind]. destruct (Z.eqb_spec type 19); [congruence|]. cbn [negb].
    fold (match_wire (matches_of es)). unfold mpflow_req_fmt. packs. unfold frequest_wire, view.
    cbn [request_defaults x_cookie x_mask x_table x_priority x_idle x_hard x_buffer x_port x_group x_flags]. rewrite <- !app_assoc. reflexivity. }
  rewrite B. unfold view. cbn [request_defaults x_cookie x_mask x_table x_priority x_idle x_hard x_buffer x_port x_group x_flags].
  match goal with |- mp_message _ _ _ [Ok ?b] = _ => replace (mp_message type xid 1 [Ok b]) with (mp_message type xid 1 (map Ok [b])) by reflexivity end.
  rewrite mp_message_ok; cbn [concat]; rewrite ?app_nil_r; auto. unfold in_bytes; lia.
Qed.

(** ** The printed text *)
Definition printed_counts (l : list (counter * Z)) : list (counter * Z) := filter (fun cn => negb (snd cn =? 0)) l.
Definition count_text (cn : counter * Z) : text := counter_name (fst cn) ++ $"=" ++ dec (snd cn).
Lemma counter_texts_eq l : counter_texts l = map count_text (printed_counts l).
Proof. induction l as [|[c n] l IH]; [reflexivity|]. unfold counter_texts, printed_counts, unless in *. cbn [flat_map filter fst snd]. destruct (n =? 0); cbn [negb map app]; rewrite IH; reflexivity. Qed.
Lemma count_written cn : 0 <= snd cn -> writes_counter cn (count_text cn).
Proof. destruct cn as [c n]. cbn. intros H. econstructor; [now apply dec_literal|]. apply assigned_plain. Qed.
Lemma counts_rtail l es is r : Forall (fun cn => 0 <= snd cn /\ fst cn <> CRef) l -> writes_tail es is r -> writes_rtail l es is (tailed (map count_text l) ++ r).
Proof.
  intros H Hr. induction H as [|cn l [H1 H2] _ IH]; [now constructor|]. unfold tailed. cbn [map flat_map]. rewrite <- !app_assoc. apply wrt_count; auto using comma_gap, count_written.
Qed.
Lemma flow_after_blank es is s : writes_flow es is s -> s <> [] -> writes_tail es is ($" " ++ s).
Proof.
  assert (G : forall h, Forall filler h -> gap ($" " ++ h)) by (intros h Hh; exists 32, h; repeat split; auto; right; left; reflexivity).
  intros [|i is' h u r Hh Hu Hr|e es' is' h u r Hh Hu Hr] Hs; [congruence| |].
  - rewrite app_assoc. apply wt_instr; auto.
  - rewrite app_assoc. apply wt_entry; auto.
Qed.
Lemma flow_empty es is : writes_flow es is [] -> es = [] /\ is = [].
Proof.
  intros H. remember [] as s eqn:E. destruct H as [|i is' h u r Hh Hu Hr|e es' is' h u r Hh Hu Hr]; [auto| |].
  - exfalso. eapply (mid_nonnil' h u r); eauto using instr_nonnil.
  - exfalso. eapply (mid_nonnil' h u r); eauto using entry_nonnil.
Qed.
Lemma two_parts_row l es is r : Forall (fun cn => 0 <= snd cn /\ fst cn <> CRef) l -> writes_flow es is (commas r) -> Forall (fun t => t <> []) r ->
  writes_row l es is (two_parts (map count_text l) r).
Proof.
  intros Hl Hw Hr. destruct l as [|cn l]; [now constructor|]. cbn [map]. unfold two_parts. inversion Hl as [|? ? [Hc Hc'] Hl']; subst.
  rewrite commas_tailed. destruct r as [|t r].
  - destruct (flow_empty _ _ Hw) as [-> ->]. pose proof (counts_rtail l [] [] [] Hl' wt_nil) as T. rewrite app_nil_r in T.
    now apply (wr_count cn l [] [] [] _ _ Hc' (Forall_nil _) (count_written cn Hc)).
  - pose proof (flow_after_blank _ _ _ Hw) as B. assert (N : commas (t :: r) <> []) by (intros E; apply commas_nil in E; [discriminate|auto]). specialize (B N).
    pose proof (counts_rtail l es is _ Hl' B) as T. rewrite <- app_assoc. now apply (wr_count cn l es is [] _ _ Hc' (Forall_nil _) (count_written cn Hc)).
Qed.
Lemma fixed_nonnil d x : Forall (fun t : text => t <> []) (fixed_texts d x).
Proof.
  unfold fixed_texts. repeat (apply Forall_app; split); unfold unless.
  1: destruct (x_mask x =? x_mask d), (x_cookie x =? x_cookie d); repeat constructor; discriminate.
  all: try (match goal with |- context [if ?b then _ else _] => destruct b end; repeat constructor; discriminate).
  constructor.
Qed.
Lemma rule_nonnil ts is : Forall good ts -> Forall (fun t : text => t <> []) (rule_texts ts is).
Proof.
  intros H. unfold rule_texts. apply Forall_app. split; apply Forall_map; [eapply Forall_impl; [|exact H]; apply text_of_nonnil|]. apply Forall_forall. intros. apply instr_text_nonnil.
Qed.
(** the priority is printed unless it is 0x8000, and read as 0 if it is not there *)
Lemma printed_row_fixed x : named_flags (x_flags x) -> fold_left apply_set (map fst (printed_sets print_defaults x)) read_defaults = reread_fixed x.
Proof.
  destruct x as [c m t p i h b op og f]. unfold printed_sets, print_defaults, read_defaults. cbn [x_cookie x_mask x_table x_priority x_idle x_hard x_buffer x_port x_group x_flags].
  intros Hf. unfold reread_fixed. rewrite !map_app, !fold_left_app. set (q := if p =? 0x8000 then 0 else p).
  match goal with |- context [?F] => match F with fold_left apply_set (map fst (if m =? 0 then _ else _)) _ =>
    replace F with (Fixed c m 0 0 0 0 0 0 0 0)
      by (destruct (Z.eqb_spec m 0) as [->|]; [destruct (Z.eqb_spec c 0) as [->|]; reflexivity|reflexivity]) end end.
  next t 0 (Fixed c m t 0 0 0 0 0 0 0).
  match goal with |- context [?F] => match F with fold_left apply_set (map fst (if p =? 0x8000 then [] else _)) _ =>
    replace F with (Fixed c m t q 0 0 0 0 0 0) by (unfold q; destruct (Z.eqb_spec p 0x8000) as [->|]; reflexivity) end end.
  next b 0 (Fixed c m t q 0 0 b 0 0 0). next op 0 (Fixed c m t q 0 0 b op 0 0). next og 0 (Fixed c m t q 0 0 b op og 0).
  next i 0 (Fixed c m t q i 0 b op og 0). next h 0 (Fixed c m t q i h b op og 0).
  now apply flags_sum.
Qed.
Lemma count_filter c l : NoDup (map fst l) -> In c (map fst l) -> forall v, In (c, v) l -> count c (printed_counts l) = v.
Proof.
  intros Hn _ v Hv. 
  assert (Z0 : forall l, ~ In c (map fst l) -> forall a, fold_left (fun x cn => if counter_eqb c (fst cn) then snd cn else x) (printed_counts l) a = a).
  { clear. induction l as [|[c' n] l IH]; intros H a; [reflexivity|]. unfold printed_counts. cbn [filter snd]. cbn [map fst] in H.
    destruct (n =? 0); cbn [negb]; fold (printed_counts l); [apply IH; intros K; apply H; now right|]. cbn [fold_left fst].
    assert (counter_eqb c c' = false) as -> by (destruct c, c'; try reflexivity; exfalso; apply H; now left). apply IH. intros K. apply H. now right. }
  unfold count. induction l as [|[c' n] l IH]; [destruct Hv|]. cbn [map fst] in Hn. inversion Hn; subst. unfold printed_counts. cbn [filter snd].
  destruct Hv as [[= -> ->]|Hv].
  - destruct (Z.eqb_spec v 0) as [->|]; cbn [negb]; fold (printed_counts l); [now apply Z0|]. cbn [fold_left fst snd]. assert (counter_eqb c c = true) as -> by (destruct c; reflexivity). now apply Z0.
  - assert (c <> c') as Hc by (intros ->; apply H1; apply in_map_iff; exists (c', v); auto).
    destruct (n =? 0); cbn [negb]; fold (printed_counts l); [now apply IH|]. cbn [fold_left fst]. assert (counter_eqb c c' = false) as -> by (destruct c, c'; congruence || reflexivity). now apply IH.
Qed.
Lemma fstat_text_written e : fstat_ok e -> fstat_printable e -> named_flags (x_flags (fs_fixed e)) -> writes_fstat (reread e) (fstat_text e).
Proof.
  intros (H1 & H2 & H3 & H4 & Hx & Hi & Hl) (P1 & P2 & P3 & P4 & P5 & P6 & P7) Hf. split.
  - unfold fstat_text, two_parts. pose proof (counter_lines (fstat_counters e)) as L1.
    assert (L2 : Forall one_line (fixed_texts print_defaults (fs_fixed e) ++ rule_texts (fs_match e) (fs_instrs e))) by (apply Forall_app; split; auto using fixed_lines, rule_lines).
    destruct (counter_texts (fstat_counters e)); [now apply commas_line|]. destruct (fixed_texts _ _ ++ _); [now apply commas_line|].
    apply one_line_app. split; [now apply commas_line|]. apply one_line_app. split; [apply lit_line; reflexivity|now apply commas_line].
  - exists (printed_counts (fstat_counters e)), (printed_entries print_defaults (fs_fixed e) (fs_match e)), (fs_instrs e). split.
    + unfold fstat_text. rewrite counter_texts_eq. apply two_parts_row.
      * unfold printed_counts. apply Forall_forall. intros cn Hc. apply filter_In in Hc as [Hc _]. cbn [fstat_counters In] in Hc. unfold in_bytes in *.
        destruct Hc as [<-|[<-|[<-|[<-|[]]]]]; cbn [fst snd]; (split; [lia|discriminate]).
      * apply text_writes_flow; auto using good_instrs.
      * apply Forall_app. split; [apply fixed_nonnil|now apply rule_nonnil].
    + destruct (printed_entries_parts print_defaults (fs_fixed e) (fs_match e) eq_refl Hf) as [M _]. unfold fstat_of. rewrite M.
      assert (fixed_of read_defaults (printed_entries print_defaults (fs_fixed e) (fs_match e)) = reread_fixed (fs_fixed e)) as ->.
      { unfold printed_entries, fixed_of, sets_of. rewrite flat_map_app.
        assert (C : forall l, flat_map (fun e => match e with ESet s => [s] | EMatch _ => [] end) (map ESet l) = l) by (induction l as [|t l IH]; [reflexivity|cbn; now rewrite IH]).
        assert (D : forall l, flat_map (fun e => match e with ESet s => [s] | EMatch _ => [] end) (map EMatch l) = []) by (induction l; auto).
        rewrite C, D, app_nil_r. now apply printed_row_fixed. }
      assert (N : NoDup (map fst (fstat_counters e))) by (cbn; repeat constructor; cbn; intuition discriminate).
      rewrite (count_filter CPackets (fstat_counters e) N) with (v := fs_packets e) by (cbn; auto).
      rewrite (count_filter CBytes (fstat_counters e) N) with (v := fs_bytes e) by (cbn; auto).
      rewrite (count_filter CSec (fstat_counters e) N) with (v := fs_sec e) by (cbn; auto).
      rewrite (count_filter CNsec (fstat_counters e) N) with (v := fs_nsec e) by (cbn; auto 10).
      destruct e; reflexivity.
Qed.
Lemma fixed_reply x : fixed_ok x -> x_mask x = 0 -> x_buffer x = 0 -> x_port x = 0 -> x_group x = 0 ->
  fixed reply_default (Kw (Some (x_cookie x)) None (Some (x_table x)) (Some (x_priority x)) None None None (Some (x_idle x)) (Some (x_hard x)) (Some (x_flags x))) = fixed_texts print_defaults x.
Proof.
  intros Ho Hm Hb Hp Hg. rewrite <- (fixed_prints print_defaults x eq_refl Ho). unfold fixed, kw_of, emit_d, emit_named, emit, reply_default.
  cbn [k_cookie k_cookie_mask k_table k_priority k_buffer k_out_port k_out_group k_idle k_hard k_flags opt_or print_defaults x_cookie x_mask x_table x_priority x_idle x_hard x_buffer x_port x_group x_flags].
  rewrite Hm, Hb, Hp, Hg. reflexivity.
Qed.
Lemma nonzero_counts e : nonzero [($"packet_count", fs_packets e); ($"byte_count", fs_bytes e); ($"duration_sec", fs_sec e); ($"duration_nsec", fs_nsec e)] = counter_texts (fstat_counters e).
Proof.
  unfold nonzero, counter_texts, fstat_counters, unless. cbn [flat_map fst snd]. rewrite !fmt_d_dec. reflexivity.
Qed.
Lemma join2 (a b : list text) : join $" " (map (join $",") (filter (fun x => negb (Nat.eqb (length x) 0)) [a; b])) = two_parts a b.
Proof. destruct a as [|x a], b as [|y b]; cbn [filter length Nat.eqb negb map]; try reflexivity; rewrite ?join_commas; cbn [join]; unfold two_parts; rewrite ?join_commas, ?app_nil_r; reflexivity. Qed.
Lemma two_parts_commas a b c : commas b = commas c -> (b = [] <-> c = []) -> two_parts a b = two_parts a c.
Proof. intros H K. unfold two_parts. destruct a; auto. destruct b, c; auto; try (exfalso; destruct K as [K1 K2]; (now discriminate K1 || now discriminate K2)). now rewrite H. Qed.
Lemma rules_step e r : fstat_ok e -> fstat_printable e -> forall f, (length (fstat_wire e ++ r) <= S f)%nat ->
  mpflow_rules_go (S f) (fstat_wire e ++ r) = (l <- mpflow_rules_go f r ;; Ok (fstat_text e :: l)).
Proof.
  intros Hok (P1 & P2 & P3 & P4 & P5 & P6 & P7) f _. pose proof Hok as (H1 & H2 & H3 & H4 & Hx & Hi & Hl). pose proof Hx as (F1 & F2 & F3 & F4 & F5 & F6 & F7 & F8 & F9 & F10).
  pose proof (match_length (fs_match e)) as ML. pose proof (fstat_length e) as FL.
  destruct e as [pc bc sec nsec x ts is]. cbn [fs_packets fs_bytes fs_sec fs_nsec fs_fixed fs_match fs_instrs] in *.
  set (W := flat_map wire ts) in *. set (L := Z.of_nat (48 + length (match_wire ts ++ instrs_wire is))) in *.
  assert (HL : Z.to_nat L = length (fstat_wire (FStat pc bc sec nsec x ts is))) by (unfold L; lia).
  pose proof (align8_ge (4 + length W)) as Ha.
  rewrite FL, app_length, ML in Hl.
  assert (in_bytes 2 L) by (apply in_bytes_2; unfold L; rewrite app_length, ML; lia).
  assert (in_bytes 2 (Z.of_nat (4 + length W))) by (apply in_bytes_2; lia).
  assert (A8 : (8 <= align8 (4 + length W))%nat) by (unfold align8; lia).
  set (M := fstat_wire _) in *.
  assert (E : unpack_from (mpflow_fmt ++ [sH; sH]) (M ++ r) 0 = Ok [L; x_table x; sec; nsec; x_priority x; x_idle x; x_hard x; x_flags x; x_cookie x; pc; bc; 1; Z.of_nat (4 + length W)]).
  { rewrite unpack_from_ok.
    - unfold M, fstat_wire. cbn [fs_packets fs_bytes fs_sec fs_nsec fs_fixed fs_match fs_instrs]. fold L. clearbody L. unfold match_wire, mpflow_fmt. fold W. cbn [app]. rewrite <- !app_assoc.
      unpacks. reflexivity.
    - rewrite app_length, FL, app_length, ML. unfold mpflow_fmt. cbn [app calcsize fold_right fwidth]. lia. }
  cbn [mpflow_rules_go]. destruct (Nat.ltb_spec (length (M ++ r)) 56) as [Hs|_]; [rewrite app_length, FL, app_length, ML in Hs; lia|].
  rewrite E. cbn [bind]. cbv zeta. change (1 =? 1) with true. cbn match. rewrite Nat2Z.id, HL.
  assert (S1 : slice 52 (52 + (4 + length W) - 4) (M ++ r) = W).
  { unfold M, fstat_wire, match_wire. cbn [fs_packets fs_bytes fs_sec fs_nsec fs_fixed fs_match fs_instrs]. fold W. set (q := Z.of_nat (48 + _)).
    match goal with |- slice _ _ ?m = _ => replace m with ((be 2 q ++ be 1 (x_table x) ++ pad 1 ++ be 4 sec ++ be 4 nsec
    ++ be 2 (x_priority x) ++ be 2 (x_idle x) ++ be 2 (x_hard x) ++ be 2 (x_flags x) ++ pad 4 ++ be 8 (x_cookie x) ++ be 8 pc ++ be 8 bc
      ++ be 2 1 ++ be 2 (Z.of_nat (4 + length W))) ++ W ++ (pad_to8 (4 + length W) ++ instrs_wire is ++ r)) by (rewrite <- !app_assoc; reflexivity) end.
    apply slice_mid; [len|lia]. }
  assert (S2 : slice (48 + align8 (4 + length W)) (length M) (M ++ r) = instrs_wire is).
  { rewrite FL, app_length, ML. unfold M, fstat_wire. cbn [fs_packets fs_bytes fs_sec fs_nsec fs_fixed fs_match fs_instrs]. set (q := Z.of_nat (48 + _)).
    match goal with |- slice _ _ ?m = _ => replace m with ((be 2 q ++ be 1 (x_table x) ++ pad 1 ++ be 4 sec ++ be 4 nsec
    ++ be 2 (x_priority x) ++ be 2 (x_idle x) ++ be 2 (x_hard x) ++ be 2 (x_flags x) ++ pad 4 ++ be 8 (x_cookie x) ++ be 8 pc ++ be 8 bc
      ++ match_wire ts) ++ instrs_wire is ++ r) by (rewrite <- !app_assoc; reflexivity) end.
    apply slice_mid; [len; rewrite ML; lia|lia]. }
  rewrite S1, S2. unfold W. rewrite oxm2str_prints, inst2str_list by (auto using good_instrs). cbn [bind].
  rewrite fixed_reply by auto. rewrite skipn_len_app.
  pose proof (nonzero_counts (FStat pc bc sec nsec x ts is)) as N. cbn [fs_packets fs_bytes fs_sec fs_nsec] in N. rewrite N. rewrite join2.
  match goal with |- (_ <- _ ;; Ok (?a :: _)) = (_ <- _ ;; Ok (?b :: _)) => replace a with b; [reflexivity|] end.
  unfold fstat_text. cbn [fs_packets fs_bytes fs_sec fs_nsec fs_fixed fs_match fs_instrs]. symmetry. apply two_parts_commas.
  - unfold rule_texts. rewrite texts_commas.
    rewrite commas_flat by (apply Forall_map; eapply Forall_impl; [|exact P5]; apply text_of_nonnil).
    rewrite app_assoc. rewrite <- (app_nil_r (opt_tok _)), commas_flat, app_nil_r, <- app_assoc by (apply Forall_map, Forall_forall; intros; apply instr_text_nonnil). reflexivity.
  - rewrite texts_commas, !opt_tok_commas; [|apply Forall_map, Forall_forall; intros; apply instr_text_nonnil|apply Forall_map; eapply Forall_impl; [|exact P5]; apply text_of_nonnil].
    unfold rule_texts. destruct (fixed_texts print_defaults x); [|split; discriminate]. cbn [app]. destruct ts; [|split; discriminate]. cbn [app map]. destruct is; cbn; split; auto; discriminate.
Qed.
Lemma rules_print l : Forall fstat_ok l -> Forall fstat_printable l -> forall fuel, (length (fstats_wire l) <= fuel)%nat -> mpflow_rules_go fuel (fstats_wire l) = Ok (map fstat_text l).
Proof.
  induction l as [|e l IH]; intros Ho Hp fuel Hf; [destruct fuel; reflexivity|]. inversion Ho; inversion Hp; subst. cbn [fstats_wire flat_map map] in *.
  rewrite app_length, fstat_length in Hf. destruct fuel as [|f]; [lia|]. rewrite rules_step by (auto; rewrite app_length, fstat_length; lia). fold (fstats_wire l) in *. rewrite IH by (auto; lia). reflexivity.
Qed.
Theorem fstats_one xid fl l : Forall fstat_ok l -> Forall fstat_printable l -> in_bytes 4 xid -> in_bytes 2 fl -> Z.of_nat (16 + length (fstats_wire l)) <= 65535 ->
  mpflow2text_one (mp_wire 19 xid 1 fl (fstats_wire l)) = Ok (map fstat_text l).
Proof.
  intros Ho Hp Hx Hfl Hl. unfold mpflow2text_one. rewrite mp_unpack by (auto using in_bytes_1_19; unfold in_bytes; lia). cbn [bind]. change (1 =? 1) with true. cbn [assert bind].
  rewrite mp_slice. change (negb (19 =? 19)) with false. cbn match. now apply rules_print.
Qed.

Lemma reread_good e : x_priority (fs_fixed e) <> 0x8000 -> reread e = e.
Proof.
  destruct e as [pc bc sec nsec [c m t p i h b op og fl] ts is]. unfold reread, reread_fixed. cbn. intros H. destruct (Z.eqb_spec p 0x8000); [congruence|reflexivity].
Qed.
Lemma reread_length e : length (fstat_wire (reread e)) = length (fstat_wire e).
Proof. rewrite !fstat_length. reflexivity. Qed.
Lemma reread_lengths l : length (fstats_wire (map reread l)) = length (fstats_wire l).
Proof. unfold fstats_wire. induction l as [|e l IH]; [reflexivity|]. cbn [map flat_map]. rewrite !app_length, reread_length, IH. reflexivity. Qed.
Lemma reread_ok e : fstat_ok e -> fstat_ok (reread e).
Proof.
  intros (H1 & H2 & H3 & H4 & Hx & Hi & Hl). unfold fstat_ok. rewrite reread_length. repeat match goal with |- _ /\ _ => split end; auto. clear -Hx.
  destruct e as [pc bc sec nsec [c m t p i h b op og fl] ts is]. unfold fixed_ok in *. cbn in *. intuition. destruct (p =? 0x8000); auto. unfold in_bytes. lia.
Qed.
Theorem fstats_reread l xid : Forall fshown l -> l <> [] -> in_bytes 4 xid -> Z.of_nat (16 + length (fstats_wire l)) <= 65535 ->
  text2mpflow (lines (map fstat_text l)) 19 xid = Ok (mp_wire 19 xid 1 0 (fstats_wire (map reread l))).
Proof.
  intros H Hn Hx Hl. apply fstats_encode; auto.
  - clear -H. induction H as [|e l (H1 & H2 & H3) _ IH]; cbn [map]; constructor; auto using fstat_text_written.
  - intros E. apply map_eq_nil in E. congruence.
  - apply Forall_map. eapply Forall_impl; [|exact H]. intros e (H1 & _). now apply reread_ok.
  - now rewrite reread_lengths.
Qed.
Lemma reread_goods l : Forall good_fstat l -> map reread l = l.
Proof. induction 1 as [|e l (_ & _ & H & _) _ IH]; [reflexivity|]. cbn [map]. now rewrite IH, reread_good. Qed.
Lemma good_shown l : Forall good_fstat l -> Forall fshown l.
Proof. apply Forall_impl. intros e (H1 & H2 & _ & H3). exact (conj H1 (conj H2 H3)). Qed.
(** several messages in a row: the lines of all entries *)
Lemma parts_print {A} (one : bytes -> res (list text)) (mt : Z) (wire : A -> bytes) (shown : A -> text) (ok : A -> Prop) (ms : list (Z * Z * list A)) :
  (forall xid fl l, Forall ok l -> part_ok (flat_map wire l) xid fl -> one (mp_wire 19 xid mt fl (flat_map wire l)) = Ok (map shown l)) ->
  Forall (fun m => Forall ok (snd m) /\ part_ok (flat_map wire (snd m)) (fst (fst m)) (snd (fst m))) ms ->
  mp_text one (flat_map (fun m => mp_wire 19 (fst (fst m)) mt (snd (fst m)) (flat_map wire (snd m))) ms) = Ok (lines (map shown (flat_map snd ms))).
Proof.
  intros One H. pose proof (mp_text_ok one (map (fun m => MpMsg 19 (fst (fst m)) mt (snd (fst m)) (flat_map wire (snd m))) ms) (map (fun m => map shown (snd m)) ms)) as K.
  replace (flat_map mm_wire (map (fun m => MpMsg 19 (fst (fst m)) mt (snd (fst m)) (flat_map wire (snd m))) ms)) with
    (flat_map (fun m => mp_wire 19 (fst (fst m)) mt (snd (fst m)) (flat_map wire (snd m))) ms) in K by (rewrite !flat_map_concat_map, map_map; reflexivity).
  rewrite K.
  - do 2 f_equal. rewrite flat_map_concat_map, concat_map, map_map. reflexivity.
  - apply Forall_map. eapply Forall_impl; [|exact H]. intros [[xid fl] l] [_ (Hx & _ & Hl)]. split; [exact in_bytes_1_19|]. split; [exact Hx|]. unfold mm_wire. rewrite mp_length. exact Hl.
  - clear K. induction H as [|[[xid fl] l] ms [Ho Hp] _ IH]; cbn [map]; constructor; auto. unfold mm_wire. cbn [mm_type mm_xid mm_mt mm_flags mm_body fst snd] in *. auto.
Qed.
Theorem fstats_print (ms : list (Z * Z * list fstat)) :
  Forall (fun m => Forall (fun e => fstat_ok e /\ fstat_printable e) (snd m) /\ part_ok (fstats_wire (snd m)) (fst (fst m)) (snd (fst m))) ms ->
  mpflow2text (flat_map (fun m => mp_wire 19 (fst (fst m)) 1 (snd (fst m)) (fstats_wire (snd m))) ms) = Ok (lines (map fstat_text (flat_map snd ms))).
Proof.
  intros H. apply (parts_print mpflow2text_one 1 fstat_wire fstat_text (fun e => fstat_ok e /\ fstat_printable e)); auto.
  intros xid fl l Hl (Hx & Hf & Hn). apply Forall_and_inv in Hl as [H1 H2]. now apply fstats_one.
Qed.
(** ** What goes wrong *)
(** too much for one message *)
Lemma capture_raises bodies : forall c, Z.of_nat (length c) <= 65519 -> 65519 < Z.of_nat (length (c ++ concat bodies)) -> mp_capture c (map Ok bodies) = Raise NameError.
Proof.
  induction bodies as [|b bs IH]; intros c Hc H; cbn [map concat mp_capture] in *; [rewrite app_nil_r in H; lia|]. cbn [bind].
  destruct (Z.ltb_spec (0xffff - 16) (Z.of_nat (length c) + Z.of_nat (length b))); [reflexivity|]. apply IH; rewrite !app_length in *; lia.
Qed.
Lemma message_raises type xid mt bodies : 65535 < Z.of_nat (16 + length (concat bodies)) -> mp_message type xid mt (map Ok bodies) = Raise NameError.
Proof. intros H. unfold mp_message. rewrite capture_raises; [reflexivity| |]; cbn [app length]; lia. Qed.
Theorem fstats_too_long l ss xid : Forall2 writes_fstat l ss -> Forall fstat_ok l -> 65535 < Z.of_nat (16 + length (fstats_wire l)) -> text2mpflow (lines ss) 19 xid = Raise NameError.
Proof.
  intros H Hok Hl. assert (Hn : l <> []) by (intros ->; cbn in Hl; lia). assert (Hs : ss <> []) by (intros ->; inversion H; congruence).
  assert (Ho : Forall one_line ss) by (clear -H; induction H as [|? ? ? ? [? _]]; constructor; auto).
  unfold text2mpflow. rewrite lines_split by auto.
  assert (K : exists cis, Forall2 (fun s ci => mpflow_parse s = Ok ci) ss cis /\ map (mpflow_body 19) cis = map Ok (map fstat_wire l)).
  { clear -H Hok. induction H as [|e s l ss (_ & cs & es & is & Hw & ->) _ IH]; [exists []; split; constructor|]. inversion Hok; subst. destruct (IH H2) as (cis & E1 & E2).
    pose proof (row_body _ _ _ _ Hw H1) as B. destruct (mpflow_parse s) as [ci|e|] eqn:E; [|discriminate|discriminate]. cbn [bind] in B. exists (ci :: cis). split; [now constructor|]. cbn [map]. now rewrite B, E2. }
  destruct K as (cis & E1 & E2). rewrite (mapM_ok _ _ _ E1). cbn [bind]. rewrite E2. unfold fstats_wire in *. rewrite flat_map_concat_map in *. now apply message_raises.
Qed.
(** requests cannot be printed *)
Theorem frequest_unprintable type xid fl x ts rest : type <> 19 -> in_bytes 1 type -> in_bytes 4 xid -> in_bytes 2 fl -> fixed_ok x -> Forall good ts -> Forall printable ts ->
  Z.of_nat (16 + length (frequest_wire x ts)) <= 65535 ->
  mpflow2text (mp_wire type xid 1 fl (frequest_wire x ts) ++ rest) = Raise TypeError.
Proof.
  intros Ht Hty Hx Hf (F1 & F2 & F3 & F4 & F5 & F6 & F7 & F8 & F9 & F10) Hg Hp Hl. set (B := frequest_wire x ts) in *. set (M := mp_wire type xid 1 fl B).
  assert (LM : length M = (16 + length B)%nat) by apply mp_length.
  assert (K : mpflow2text_one M = Raise TypeError).
  { unfold mpflow2text_one, M. rewrite mp_unpack by (auto; unfold in_bytes; lia). cbn [bind]. change (1 =? 1) with true. cbn [assert bind]. rewrite mp_slice. destruct (Z.eqb_spec type 19); [congruence|]. cbn [negb].
    assert (E : unpack_from (mpflow_req_fmt ++ [sH; sH]) B 0 = Ok [x_table x; x_port x; x_group x; x_cookie x; x_mask x; 1; Z.of_nat (4 + length (flat_map wire ts))]).
    { pose proof (match_length ts) as ML. pose proof (align8_ge (4 + length (flat_map wire ts))) as Ha. assert (A8 : (8 <= align8 (4 + length (flat_map wire ts)))%nat) by (unfold align8; lia).
      assert (LB : length B = (32 + length (match_wire ts))%nat) by (unfold B, frequest_wire; len).
      assert (in_bytes 2 (Z.of_nat (4 + length (flat_map wire ts)))) by (apply in_bytes_2; rewrite LB, ML in Hl; lia).
      rewrite unpack_from_ok; [|rewrite LB, ML; unfold mpflow_req_fmt; cbn [app calcsize fold_right fwidth]; lia]. unfold B, frequest_wire, match_wire, mpflow_req_fmt. cbn [app]. set (L := Z.of_nat (4 + _)) in *. clearbody L. rewrite <- ?app_assoc. unpacks. reflexivity. }
    rewrite E. cbn [bind]. change (1 =? 1) with true. cbn match. rewrite Nat2Z.id.
    assert (S1 : slice 36 (36 + (4 + length (flat_map wire ts)) - 4) B = flat_map wire ts).
    { unfold B, frequest_wire, match_wire. set (q := Z.of_nat (4 + _)).
      match goal with |- slice _ _ ?m = _ => replace m with ((be 1 (x_table x) ++ pad 3 ++ be 4 (x_port x) ++ be 4 (x_group x) ++ pad 4 ++ be 8 (x_cookie x) ++ be 8 (x_mask x) ++ be 2 1 ++ be 2 q) ++ flat_map wire ts ++ pad_to8 (4 + length (flat_map wire ts))) by (rewrite <- !app_assoc; reflexivity) end.
      apply slice_mid; [len|lia]. }
    rewrite S1, oxm2str_prints by auto. reflexivity. }
  unfold mpflow2text, mp_text. assert (Hne : M ++ rest <> []) by (intros E; apply (f_equal (@length _)) in E; rewrite app_length, LM in E; cbn in E; lia).
  assert (E2 : unpack_from [sB; sB; sH; sI] (M ++ rest) 0 = Ok [4; type; Z.of_nat (length M); xid]).
  { rewrite unpack_from_ok by (rewrite app_length, LM; cbn; lia). unfold M at 1, mp_wire. rewrite <- LM. assert (in_bytes 2 (Z.of_nat (length M))) by (apply in_bytes_2; rewrite LM; lia).
    set (L := Z.of_nat (length M)) in *. clearbody L. rewrite <- !app_assoc. unpacks. reflexivity. }
  destruct (M ++ rest) as [|b0 m0] eqn:EM; [congruence|]. cbn [mp_rows_go length]. rewrite E2. cbn [bind nth]. rewrite Nat2Z.id, <- EM, firstn_len_app, K. reflexivity.
Qed.
