(** The printed flow text is one of the written ones, so printing and reading invert each other. *)
From Coq Require Import Strings.Ascii.
From Verif Require Import Base PyNum Util PyLib OxmCodec OxmTables Oxm Nx Ofp4 Spec SpecOxm SpecOfp.
From Verif Require Import BaseFacts UtilFacts NumFacts OxmRead OxmPrint OxmFacts OxmFrame OxmMore TermFacts OfpTerm.
From Verif Require Import ActBase ActRead ActReadNx ActReadReg ActReadLearn ActPrint ActText FlowRead FlowMod.

Definition tailed (l : list text) : text := flat_map (fun t => $"," ++ t) l.
Lemma commas_tailed t l : commas (t :: l) = t ++ tailed l.
Proof.
  revert t; induction l as [|u l IH]; intros t; [symmetry; apply app_nil_r|].
  rewrite commas_cons, IH. unfold tailed. cbn [flat_map]. now rewrite <- !app_assoc.
Qed.
Lemma comma_gap : gap $",".
Proof. exists 44, []. split; [reflexivity|]. split; [|constructor]. unfold sep_char. auto. Qed.
Lemma tail_written pes pis : Forall (fun p => writes_entry (fst p) (snd p)) pes -> Forall (fun p => writes_instr (fst p) (snd p)) pis ->
  writes_tail (map fst pes) (map fst pis) (tailed (map snd pes ++ map snd pis)).
Proof.
  intros He Hi. induction He as [|[e u] pes H He IH].
  - induction Hi as [|[i u] pis H Hi IH]; [constructor|]. unfold tailed in *. cbn [map fst snd app flat_map] in *. rewrite <- app_assoc.
    apply wt_instr; auto using comma_gap.
  - unfold tailed in *. cbn [map fst snd app flat_map] in *. rewrite <- app_assoc. apply wt_entry; auto using comma_gap.
Qed.
Lemma commas_written pes pis : Forall (fun p => writes_entry (fst p) (snd p)) pes -> Forall (fun p => writes_instr (fst p) (snd p)) pis ->
  writes_flow (map fst pes) (map fst pis) (commas (map snd pes ++ map snd pis)).
Proof.
  intros He Hi. destruct He as [|[e u] pes H He].
  - destruct Hi as [|[i u] pis H Hi]; [constructor|]. cbn [map fst snd app]. rewrite commas_tailed. apply (wf_instr _ _ []); auto.
    now apply (tail_written [] pis).
  - cbn [map fst snd app]. rewrite commas_tailed. apply (wf_entry _ _ _ []); auto. now apply tail_written.
Qed.

(** the settings a printed text spells out *)
Definition printed_sets (d x : fixedp) : list (setting * text) :=
  (if x_mask x =? x_mask d then if x_cookie x =? x_cookie d then [] else [(SCookie (x_cookie x) None, $"cookie=" ++ hex (x_cookie x))]
   else [(SCookie (x_cookie x) (Some (x_mask x)), $"cookie=" ++ hex (x_cookie x) ++ $"/" ++ hex (x_mask x))])
  ++ (if x_table x =? x_table d then [] else [(STable (x_table x), $"table=" ++ dec (x_table x))])
  ++ (if x_priority x =? x_priority d then [] else [(SPriority (x_priority x), $"priority=" ++ dec (x_priority x))])
  ++ (if x_buffer x =? x_buffer d then [] else [(SBuffer (x_buffer x), $"buffer=" ++ hex (x_buffer x))])
  ++ (if x_port x =? x_port d then [] else [(SPort (x_port x), $"out_port=" ++ port_text 4 (x_port x))])
  ++ (if x_group x =? x_group d then [] else [(SGroup (x_group x), $"out_group=" ++ group_str (x_group x))])
  ++ (if x_idle x =? x_idle d then [] else [(SIdle (x_idle x), $"idle_timeout=" ++ dec (x_idle x))])
  ++ (if x_hard x =? x_hard d then [] else [(SHard (x_hard x), $"hard_timeout=" ++ dec (x_hard x))])
  ++ flat_map (fun f => if Z.land (x_flags x) (fflag_bit f) =? 0 then [] else [(SFlag f, fflag_name f)]) fflags.
Lemma printed_texts d x : map snd (printed_sets d x) = fixed_texts d x.
Proof.
  unfold printed_sets, fixed_texts, unless. rewrite !map_app.
  f_equal; [destruct (x_mask x =? x_mask d), (x_cookie x =? x_cookie d); reflexivity|].
  repeat (f_equal; [match goal with |- context [if ?b then _ else _] => destruct b; reflexivity end|]).
  unfold fflags. cbn [flat_map fflag_bit fflag_name]. set (f := x_flags x).
  destruct (Z.land f 1 =? 0), (Z.land f 2 =? 0), (Z.land f 4 =? 0), (Z.land f 8 =? 0), (Z.land f 16 =? 0); reflexivity.
Qed.
Lemma assigned_plain name u : assigned name u (name ++ $"=" ++ u).
Proof. exact (assigned_intro name u [] [] (or_introl eq_refl) (Forall_nil _)). Qed.
Lemma group_str_of g : group_of (group_str g) g.
Proof.
  unfold group_str, reserved_groups. cbn [find fst snd].
  destruct (0xffffff00 =? g) eqn:E1; [apply Z.eqb_eq in E1 as <-; apply group_nm; cbn; tauto|].
  destruct (0xfffffffc =? g) eqn:E2; [apply Z.eqb_eq in E2 as <-; apply group_nm; cbn; tauto|].
  destruct (0xffffffff =? g) eqn:E3; [apply Z.eqb_eq in E3 as <-; apply group_nm; cbn; tauto|].
  apply group_lit. apply dec_literal.
Qed.

Ltac one_set := apply Forall_cons; [|apply Forall_nil]; cbn [fst snd].
Lemma printed_written d x : fixed_ok x -> Forall (fun p => writes_set (fst p) (snd p)) (printed_sets d x).
Proof.
  intros (H1 & H2 & H3 & H4 & H5 & H6 & H7 & H8 & H9 & H10). apply nonneg in H1, H2, H7. unfold printed_sets.
  apply Forall_app; split.
  { destruct (_ =? _); [destruct (_ =? _); [constructor|]|]; one_set.
    - eapply ws_cookie; [now apply hex_literal|apply (assigned_plain $"cookie")].
    - eapply ws_cookie_mask; [now apply hex_literal|now apply hex_literal|apply (assigned_plain $"cookie")]. }
  apply Forall_app; split. { destruct (_ =? _); [constructor|one_set]. eapply ws_table; [apply dec_literal|apply (assigned_plain $"table")]. }
  apply Forall_app; split. { destruct (_ =? _); [constructor|one_set]. eapply ws_priority; [apply dec_literal|apply (assigned_plain $"priority")]. }
  apply Forall_app; split. { destruct (_ =? _); [constructor|one_set]. eapply ws_buffer; [now apply hex_literal|apply (assigned_plain $"buffer")]. }
  apply Forall_app; split. { destruct (_ =? _); [constructor|one_set]. eapply ws_port; [apply port_text_of|apply (assigned_plain $"out_port")]. }
  apply Forall_app; split. { destruct (_ =? _); [constructor|one_set]. eapply ws_group; [apply group_str_of|apply (assigned_plain $"out_group")]. }
  apply Forall_app; split. { destruct (_ =? _); [constructor|one_set]. eapply ws_idle; [apply dec_literal|apply (assigned_plain $"idle_timeout")]. }
  apply Forall_app; split. { destruct (_ =? _); [constructor|one_set]. eapply ws_hard; [apply dec_literal|apply (assigned_plain $"hard_timeout")]. }
  induction fflags as [|f l IH]; [constructor|]. cbn [flat_map]. apply Forall_app; split; auto.
  destruct (_ =? _); [constructor|one_set]. constructor.
Qed.
(** flags beyond the five named ones are not printed *)
Lemma flags_sum c m t p i h b op og f : named_flags f ->
  fold_left apply_set (map fst (flat_map (fun g => if Z.land f (fflag_bit g) =? 0 then [] else [(SFlag g, fflag_name g)]) fflags)) (Fixed c m t p i h b op og 0)
  = Fixed c m t p i h b op og f.
Proof.
  intros H. unfold named_flags in H.
  assert (K : forallb (fun n => let f := Z.of_nat n in
    fold_left (fun a s => match s with SFlag g => Z.lor a (fflag_bit g) | _ => a end)
      (map fst (flat_map (fun g => if Z.land f (fflag_bit g) =? 0 then [] else [(SFlag g, fflag_name g)]) fflags)) 0 =? f) (seq 0 32) = true) by (vm_compute; reflexivity).
  rewrite forallb_forall in K. specialize (K (Z.to_nat f)). cbv zeta in K. rewrite Z2Nat.id in K by lia.
  assert (K' : In (Z.to_nat f) (seq 0 32)) by (apply in_seq; lia). apply K, Z.eqb_eq in K'. clear K.
  assert (G : forall l a, fold_left apply_set (map fst (flat_map (fun g => if Z.land f (fflag_bit g) =? 0 then [] else [(SFlag g, fflag_name g)]) l)) (Fixed c m t p i h b op og a)
    = Fixed c m t p i h b op og (fold_left (fun a s => match s with SFlag g => Z.lor a (fflag_bit g) | _ => a end)
      (map fst (flat_map (fun g => if Z.land f (fflag_bit g) =? 0 then [] else [(SFlag g, fflag_name g)]) l)) a)).
  { intros l. induction l as [|g l IH]; intros a; [reflexivity|]. cbn [flat_map]. destruct (Z.land f (fflag_bit g) =? 0); cbn [app map fst fold_left]; auto.
    cbn [apply_set]. apply IH. }
  rewrite G. now rewrite K'.
Qed.
Lemma printed_fixed d x : x_flags d = 0 -> named_flags (x_flags x) -> fold_left apply_set (map fst (printed_sets d x)) d = x.
Proof.
  destruct d as [dc dm dt dp di dh db dop dog df], x as [c m t p i h b op og f]. unfold printed_sets. cbn [x_cookie x_mask x_table x_priority x_idle x_hard x_buffer x_port x_group x_flags].
  intros -> Hf. rewrite !map_app, !fold_left_app.
  match goal with |- context [?F] => match F with fold_left apply_set (map fst (if m =? dm then _ else _)) _ =>
    replace F with (Fixed c m dt dp di dh db dop dog 0)
      by (destruct (Z.eqb_spec m dm) as [->|]; [destruct (Z.eqb_spec c dc) as [->|]; reflexivity|reflexivity]) end end.
  Ltac next a b v := match goal with |- context [?F] => match F with fold_left apply_set (map fst (if a =? b then [] else _)) _ =>
    replace F with v by (destruct (Z.eqb_spec a b) as [->|]; reflexivity) end end.
  next t dt (Fixed c m t dp di dh db dop dog 0). next p dp (Fixed c m t p di dh db dop dog 0).
  next b db (Fixed c m t p di dh b dop dog 0). next op dop (Fixed c m t p di dh b op dog 0). next og dog (Fixed c m t p di dh b op og 0).
  next i di (Fixed c m t p i dh b op og 0). next h dh (Fixed c m t p i h b op og 0).
  now apply flags_sum.
Qed.

Lemma with_acts_tailed name l : with_acts name l = name ++ flat_map (fun a => $"," ++ act_text a) l.
Proof.
  destruct l as [|a l]; [symmetry; apply app_nil_r|]. unfold with_acts, acts_text. cbn [map]. rewrite commas_tailed. unfold tailed. f_equal.
  cbn [flat_map]. rewrite <- app_assoc. do 2 f_equal. induction l as [|b l IH]; [reflexivity|]. cbn [map flat_map]. now rewrite IH.
Qed.
Lemma instr_written i : good_instr i -> writes_instr i (instr_text i).
Proof.
  intros [[Hi _] Hp]. destruct i as [t|v m|l|l| |n]; cbn [instr_text instr_printable] in *.
  - eapply wi_goto; [left; reflexivity|apply dec_literal|apply (assigned_plain $"@goto")].
  - destruct Hi as [Hv Hm]. apply nonneg in Hv, Hm. destruct (Z.eqb_spec m 0) as [->|].
    + rewrite app_nil_r. eapply wi_metadata; [left; reflexivity|now apply hex_literal|apply (assigned_plain $"@metadata")].
    + eapply wi_metadata_mask; [left; reflexivity|now apply hex_literal|now apply hex_literal|apply (assigned_plain $"@metadata")].
  - rewrite with_acts_tailed. apply wi_write; [left; reflexivity|]. apply acts_written. apply good_acts; [auto|apply Hp].
  - rewrite with_acts_tailed. apply wi_apply; [left; reflexivity|]. apply acts_written. apply good_acts; [auto|apply Hp].
  - apply wi_clear. left; reflexivity.
  - eapply wi_meter; [apply dec_literal|apply (assigned_plain $"@meter")].
Qed.

Definition printed_entries (d x : fixedp) (ts : list tlv) : list entry := map ESet (map fst (printed_sets d x)) ++ map EMatch ts.
Lemma text_writes_flow d x ts is : fixed_ok x -> Forall good ts -> Forall good_instr is ->
  writes_flow (printed_entries d x ts) is (commas (fixed_texts d x ++ rule_texts ts is)).
Proof.
  intros Hx Ht Hi.
  pose proof (commas_written (map (fun p => (ESet (fst p), snd p)) (printed_sets d x) ++ map (fun t => (EMatch t, text_of t)) ts) (map (fun i => (i, instr_text i)) is)) as W.
  rewrite !map_app, !map_map in W. cbn [fst snd] in W. rewrite map_id in W. unfold printed_entries, rule_texts. rewrite map_map.
  rewrite printed_texts, <- app_assoc in W. apply W.
  - apply Forall_app; split; apply Forall_map; cbn [fst snd].
    + eapply Forall_impl; [|now apply printed_written]. intros p Hp. now constructor.
    + eapply Forall_impl; [|exact Ht]. intros t Hg. constructor. now apply text_item.
  - apply Forall_map. cbn [fst snd]. eapply Forall_impl; [|exact Hi]. apply instr_written.
Qed.
Lemma printed_entries_parts d x ts : x_flags d = 0 -> named_flags (x_flags x) ->
  matches_of (printed_entries d x ts) = ts /\ fixed_of d (printed_entries d x ts) = x.
Proof.
  intros Hd Hf. unfold printed_entries, matches_of, fixed_of, sets_of. rewrite !flat_map_app.
  assert (A : forall l, flat_map (fun e => match e with EMatch t => [t] | ESet _ => [] end) (map ESet l) = []) by (induction l; auto).
  assert (B : forall l, flat_map (fun e => match e with EMatch t => [t] | ESet _ => [] end) (map EMatch l) = l) by (induction l as [|t l IH]; [reflexivity|cbn; now rewrite IH]).
  assert (C : forall l, flat_map (fun e => match e with ESet s => [s] | EMatch _ => [] end) (map ESet l) = l) by (induction l as [|t l IH]; [reflexivity|cbn; now rewrite IH]).
  assert (D : forall l, flat_map (fun e => match e with ESet s => [s] | EMatch _ => [] end) (map EMatch l) = []) by (induction l; auto).
  rewrite A, B, C, D, app_nil_r. split; [reflexivity|]. now apply printed_fixed.
Qed.
Lemma defaults_flags cmd : x_flags (defaults cmd) = 0.
Proof. unfold defaults. destruct (deleting cmd); reflexivity. Qed.
Theorem flow_text_encodes cmd xid x ts is : good_flow cmd xid x ts is -> named_flags (x_flags x) ->
  str2mod (flow_text cmd x ts is) cmd xid = Ok (flow_wire cmd xid x ts is).
Proof.
  intros (Hok & Hg & Hp & Hip) Hf. pose proof Hok as (Hc & Hx & Hxk & Hi & Hl).
  pose proof (text_writes_flow (defaults cmd) x ts is Hxk Hg (good_instrs _ Hi Hip)) as W.
  destruct (printed_entries_parts (defaults cmd) x ts (defaults_flags cmd) Hf) as [E1 E2].
  unfold flow_text. rewrite <- E2 at 2. rewrite <- E1 at 3. apply flow_encodes; auto. now rewrite E1, E2.
Qed.
(** mod2extra gives back command and xid *)
Lemma flow_extra cmd xid x ts is : flow_ok cmd xid x ts is -> mod2extra (flow_wire cmd xid x ts is) = Ok ((if cmd =? 0 then [] else [($"command", cmd)]) ++ [($"xid", xid)]).
Proof.
  intros (Hc & Hx & Hf & Hi & Hl). pose proof (flow_length cmd xid x ts is) as FL. rewrite FL in Hl.
  pose proof Hf as (? & ? & ? & ? & ? & ? & ? & ? & ? & ?).
  set (L := Z.of_nat (48 + length (match_wire ts ++ instrs_wire is))).
  assert (in_bytes 2 L) by (apply in_bytes_2; unfold L; lia).
  assert (E : unpack_from [sB; sB; sH; sI; sQ; sQ; sB; sB] (flow_wire cmd xid x ts is) 0 = Ok [4; 14; L; xid; x_cookie x; x_mask x; x_table x; cmd]).
  { rewrite unpack_from_ok.
    - unfold flow_wire. fold L. clearbody L. unpacks. reflexivity.
    - rewrite FL. cbn [calcsize fold_right fwidth]. lia. }
  unfold mod2extra. rewrite E. reflexivity.
Qed.
