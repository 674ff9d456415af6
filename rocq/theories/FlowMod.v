(** Flow rules: encoding (str2mod), printing (mod2str), and the two together. *)
From Coq Require Import Strings.Ascii.
From Verif Require Import Base PyNum Util PyLib OxmCodec OxmTables Oxm Nx Ofp4 Spec SpecOxm SpecOfp.
From Verif Require Import BaseFacts UtilFacts NumFacts OxmRead OxmPrint OxmFacts OxmFrame OxmMore TermFacts OfpTerm.
From Verif Require Import ActBase ActRead ActReadNx ActReadReg ActReadLearn ActPrint ActText FlowRead.

(** ** Encoding *)
Lemma match_length ts : length (match_wire ts) = align8 (4 + length (flat_map wire ts)).
Proof. unfold match_wire. rewrite pad_to8_align. pose proof (align8_ge (4 + length (flat_map wire ts))). len. Qed.
Lemma flow_length cmd xid x ts is : length (flow_wire cmd xid x ts is) = (48 + length (match_wire ts ++ instrs_wire is))%nat.
Proof. unfold flow_wire. len. Qed.
Lemma match_block_ok oxm : Z.of_nat (4 + length oxm) <= 65535 ->
  match_block oxm = Ok (be 2 1 ++ be 2 (Z.of_nat (4 + length oxm)) ++ oxm ++ pad_to8 (4 + length oxm)).
Proof.
  intros H. unfold match_block. assert (in_bytes 2 (Z.of_nat (4 + length oxm))) by (apply in_bytes_2; lia). packs.
  rewrite pad_to8_align. now rewrite <- !app_assoc.
Qed.
Lemma mod_encodes s cmd xid i x ts is : str2dict s = Ok i -> i_match i = flat_map wire ts -> i_inst i = instrs_wire is ->
  view (defaults cmd) i = x -> flow_ok cmd xid x ts is -> str2mod s cmd xid = Ok (flow_wire cmd xid x ts is).
Proof.
  intros Ei Em En Ev (Hc & Hx & Hf & Hi & Hl). rewrite flow_length, app_length, match_length in Hl.
  pose proof (align8_ge (4 + length (flat_map wire ts))) as Ha. unfold str2mod. rewrite Ei. cbn [bind]. rewrite Em, En, match_block_ok by lia. cbn [bind].
  set (L := 48 + Z.of_nat (align8 (4 + length (flat_map wire ts))) + Z.of_nat (length (instrs_wire is))).
  assert (HL : L = Z.of_nat (48 + length (match_wire ts ++ instrs_wire is))) by (rewrite app_length, match_length; lia).
  assert (in_bytes 2 L) by (apply in_bytes_2; lia).
  assert (E : [opt_or (i_cookie i) (opt_or (k_cookie (mod_default cmd)) 0); opt_or (i_cookie_mask i) (opt_or (k_cookie_mask (mod_default cmd)) 0);
    opt_or (i_table i) (opt_or (k_table (mod_default cmd)) 0); cmd; opt_or (i_idle i) (opt_or (k_idle (mod_default cmd)) 0);
    opt_or (i_hard i) (opt_or (k_hard (mod_default cmd)) 0); opt_or (i_priority i) (opt_or (k_priority (mod_default cmd)) 0);
    opt_or (i_buffer i) (opt_or (k_buffer (mod_default cmd)) 0); opt_or (i_out_port i) (opt_or (k_out_port (mod_default cmd)) 0);
    opt_or (i_out_group i) (opt_or (k_out_group (mod_default cmd)) 0); opt_or (i_flags i) (opt_or (k_flags (mod_default cmd)) 0)]
    = [x_cookie x; x_mask x; x_table x; cmd; x_idle x; x_hard x; x_priority x; x_buffer x; x_port x; x_group x; x_flags x]).
  { subst x. unfold view, defaults, deleting, mod_default. destruct ((cmd =? 3) || (cmd =? 4)); reflexivity. }
  cbv zeta. rewrite E. destruct Hf as (? & ? & ? & ? & ? & ? & ? & ? & ? & ?). unfold mod_fmt. packs.
  unfold flow_wire. rewrite HL. unfold match_wire. rewrite <- !app_assoc. reflexivity.
Qed.
Theorem flow_encodes es is s cmd xid : writes_flow es is s -> flow_ok cmd xid (fixed_of (defaults cmd) es) (matches_of es) is ->
  str2mod s cmd xid = Ok (flow_wire cmd xid (fixed_of (defaults cmd) es) (matches_of es) is).
Proof.
  intros Hw Hok. destruct (flow_reads es is s Hw) as (i & E1 & E2 & E3 & E4); [apply Hok|].
  apply (mod_encodes s cmd xid i); auto. apply E4. unfold defaults. destruct (deleting cmd); reflexivity.
Qed.

(** ** Printing *)
Lemma std_act_mod t p : ((4 + length p) mod 8 = 0)%nat -> (length (std_act t p) mod 8 = 0)%nat.
Proof. now rewrite std_act_length. Qed.
Lemma act_mod8 a : match a with SetNwTtl _ | Note _ => True | _ => (length (act_wire a) mod 8 = 0)%nat end.
Proof.
  assert (A : forall n, (align8 n mod 8 = 0)%nat) by (intros n; unfold align8; apply Nat.mod_mul; discriminate).
  assert (N : forall s p, (length (nx_act s p) mod 8 = 0)%nat) by (intros; rewrite nx_act_length; apply A).
  destruct a; auto; try (destruct v2); cbn [act_wire]; lazymatch goal with |- context [nx_act] => apply N | _ => idtac end.
  all: lazymatch goal with |- context [padded_act] => idtac | _ => rewrite std_act_length; autorewrite with len; reflexivity end.
  rewrite padded_act_eq, std_act_length, app_length, zeros_length. pose proof (align8_ge (4 + length (wire t))).
  replace (4 + (length (wire t) + (align8 (4 + length (wire t)) - (4 + length (wire t)))))%nat with (align8 (4 + length (wire t))) by lia. apply A.
Qed.
Definition instr_toks (i : instr) : list text :=
  match i with
  | WriteActions (a :: l) => [$"@write"; acts_text (a :: l)]
  | ApplyActions (a :: l) => [$"@apply"; acts_text (a :: l)]
  | _ => [instr_text i]
  end.
Lemma act_text_nonnil a : good_act a -> act_text a <> [].
Proof. intros [H1 H2] E. destruct (act_first a (act_text a)) as (c & u & Ec & _); [now apply text_written|auto|congruence]. Qed.
Lemma acts_text_nonnil a l : good_act a -> acts_text (a :: l) <> [].
Proof.
  intros Ha. unfold acts_text, commas. cbn [map]. destruct (map act_text l) as [|t ts].
  - cbn [sepby]. now apply act_text_nonnil.
  - change (sepby (chr ",") (act_text a :: t :: ts)) with (act_text a ++ chr "," :: sepby (chr ",") (t :: ts)). intros E. apply app_eq_nil in E as [_ E]. discriminate.
Qed.
Definition good_instr (i : instr) : Prop := instr_ok i /\ instr_printable i.
Lemma good_acts l : Forall act_ok l -> Forall act_printable l -> Forall good_act l.
Proof. induction 1; intros H'; inversion H'; subst; constructor; auto. split; auto. Qed.
Lemma unpack2_std t p r : in_bytes 2 t -> Z.of_nat (length (std_act t p)) <= 65535 ->
  unpack_from [sH; sH] (std_act t p ++ r) 0 = Ok [t; Z.of_nat (4 + length p)].
Proof.
  intros Ht Hl. rewrite std_act_length in Hl. assert (in_bytes 2 (Z.of_nat (4 + length p))) by (apply in_bytes_2; lia).
  rewrite unpack_from_ok by (unfold std_act; len). unfold std_act. rewrite <- !app_assoc. unpacks. reflexivity.
Qed.
Lemma acts_slice t l r : slice 8 (4 + length (pad 4 ++ acts_wire l)) (std_act t (pad 4 ++ acts_wire l) ++ r) = acts_wire l.
Proof.
  unfold std_act. set (n := Z.of_nat _).
  replace ((be 2 t ++ be 2 n ++ pad 4 ++ acts_wire l) ++ r) with ((be 2 t ++ be 2 n ++ pad 4) ++ acts_wire l ++ r) by (rewrite <- !app_assoc; reflexivity).
  apply slice_mid; len.
Qed.
Lemma instr_prints i r : good_instr i -> inst2str_one (instr_wire i ++ r) = Ok (instr_toks i, r).
Proof.
  intros [[Hok Hl] Hp].
  assert (A : forall name n l, (n = 3 /\ name = $"@write") \/ (n = 4 /\ name = $"@apply") -> Forall act_ok l -> Forall act_printable l /\ (length (acts_wire l) mod 8 = 0)%nat ->
    Z.of_nat (length (std_act n (pad 4 ++ acts_wire l))) <= 65535 ->
    inst2str_one (std_act n (pad 4 ++ acts_wire l) ++ r) = Ok (match l with [] => [name] | _ => [name; acts_text l] end, r)).
  { intros name n l Hn Ha [Hp' M8] Hl'. assert (In2 : in_bytes 2 n) by (destruct Hn as [[-> _]|[-> _]]; fits).
    unfold inst2str_one. rewrite unpack2_std by auto. cbn [bind]. rewrite Nat2Z.id, acts_slice.
    rewrite act2str_list by (now apply good_acts). cbn [bind].
    assert (M : Z.of_nat (4 + length (pad 4 ++ acts_wire l)) mod 8 =? 0 = true).
    { apply Z.eqb_eq. rewrite app_length, pad_length. lia. }
    rewrite M. cbn [assert bind]. rewrite skipn_at by apply std_act_length.
    assert (T : (match acts_text l with [] => [name] | _ :: _ => [name; acts_text l] end) = match l with [] => [name] | _ => [name; acts_text l] end).
    { destruct l as [|a l]; [reflexivity|]. inversion Ha; inversion Hp'; subst. destruct (acts_text (a :: l)) eqn:E; [|reflexivity].
      exfalso. revert E. apply acts_text_nonnil. split; auto. }
    destruct Hn as [[-> ->]|[-> ->]]; cbn [Z.eqb Pos.eqb bind]; rewrite T; reflexivity. }
  destruct i as [t|v m|l|l| |n]; cbn [instr_wire] in *.
  - cbn [instr_ok] in Hok. unfold inst2str_one. rewrite unpack2_std by fits. cbn [bind]. rewrite Nat2Z.id, skipn_at by apply std_act_length.
    change (1 =? 1) with true. cbn match. rewrite app_length, be_length, pad_length. change (Z.of_nat (4 + (1 + 3)) =? 8) with true. cbn [assert bind].
    unfold std_act. set (z := Z.of_nat _). replace ((be 2 1 ++ be 2 z ++ be 1 t ++ pad 3) ++ r) with ((be 2 1 ++ be 2 z) ++ be 1 t ++ pad 3 ++ r) by (rewrite <- !app_assoc; reflexivity).
    rewrite unpack_from_off by len. rewrite unpack_from_ok by len. unpacks. cbn [bind nth]. rewrite fmt_d_dec. reflexivity.
  - destruct Hok as [Hv Hm]. unfold inst2str_one. rewrite unpack2_std by fits. cbn [bind]. rewrite Nat2Z.id, skipn_at by apply std_act_length.
    change (2 =? 1) with false. change (2 =? 2) with true. cbn match. rewrite !app_length, !be_length, pad_length. change (Z.of_nat (4 + (4 + (8 + 8))) =? 24) with true. cbn [assert bind].
    unfold std_act. set (z := Z.of_nat _). replace ((be 2 2 ++ be 2 z ++ pad 4 ++ be 8 v ++ be 8 m) ++ r) with ((be 2 2 ++ be 2 z ++ pad 4) ++ be 8 v ++ be 8 m ++ r) by (rewrite <- !app_assoc; reflexivity).
    rewrite unpack_from_off by len. rewrite unpack_from_ok by len. unpacks. cbn [bind]. unfold in_bytes in *. rewrite !fmt_x_hex by lia.
    cbn [instr_toks instr_text]. destruct (m =? 0); [now rewrite app_nil_r|reflexivity].
  - rewrite (A $"@write" 3 l) by auto. destruct l; reflexivity.
  - rewrite (A $"@apply" 4 l) by auto. destruct l; reflexivity.
  - unfold inst2str_one. rewrite unpack2_std by fits. cbn [bind]. rewrite Nat2Z.id, skipn_at by apply std_act_length. reflexivity.
  - cbn [instr_ok] in Hok. unfold inst2str_one. rewrite unpack2_std by fits. cbn [bind]. rewrite Nat2Z.id, skipn_at by apply std_act_length.
    change (6 =? 1) with false. change (6 =? 2) with false. change (6 =? 3) with false. change (6 =? 4) with false. change (6 =? 5) with false. change (6 =? 6) with true. cbn match.
    rewrite be_length. change (Z.of_nat (4 + 4) =? 8) with true. cbn [assert bind].
    unfold std_act. set (z := Z.of_nat _). replace ((be 2 6 ++ be 2 z ++ be 4 n) ++ r) with ((be 2 6 ++ be 2 z) ++ be 4 n ++ r) by (rewrite <- !app_assoc; reflexivity).
    rewrite unpack_from_off by len. rewrite unpack_from_ok by len. unpacks. cbn [bind nth]. rewrite fmt_d_dec. reflexivity.
Qed.
Lemma instr_wire_long i : (4 < length (instr_wire i))%nat.
Proof. destruct i; cbn [instr_wire]; rewrite std_act_length; autorewrite with len; lia. Qed.
Lemma instrs_print l : Forall good_instr l -> forall fuel, (length (instrs_wire l) <= fuel)%nat ->
  inst2str_go fuel true (instrs_wire l) = Ok (flat_map instr_toks l).
Proof.
  induction 1 as [|i l Hi Hl IH]; intros fuel Hf; [destruct fuel; reflexivity|].
  unfold instrs_wire in *. cbn [flat_map] in *. rewrite app_length in Hf. pose proof (instr_wire_long i).
  destruct fuel as [|fuel]; [lia|]. cbn [inst2str_go]. rewrite app_length.
  destruct (Nat.leb_spec (length (instr_wire i) + length (flat_map instr_wire l)) 4); [lia|].
  rewrite instr_prints by auto. cbn [bind]. rewrite IH by lia. reflexivity.
Qed.
(** joining with commas *)
Lemma commas_app a b : a <> [] -> b <> [] -> commas (a ++ b) = commas a ++ $"," ++ commas b.
Proof.
  intros Ha Hb. induction a as [|x a IH]; [contradiction|]. destruct a as [|y a].
  - destruct b as [|y b]; [contradiction|]. cbn [app]. rewrite commas_cons. reflexivity.
  - cbn [app]. rewrite !commas_cons. cbn [app] in IH. rewrite IH by discriminate. now rewrite <- !app_assoc.
Qed.
Lemma commas_app0 a b : commas (a ++ b) = match a, b with [], _ => commas b | _, [] => commas a | _, _ => commas a ++ $"," ++ commas b end.
Proof. destruct a as [|x a]; [reflexivity|]. destruct b as [|y b]; [now rewrite app_nil_r|]. now apply commas_app. Qed.
Lemma commas_toks l : commas (flat_map instr_toks l) = commas (map instr_text l).
Proof.
  induction l as [|i l IH]; [reflexivity|]. cbn [flat_map map].
  assert (E : commas (instr_toks i) = instr_text i) by (destruct i as [| |[]|[]| |]; reflexivity).
  assert (N : instr_toks i <> []) by (destruct i as [| |[]|[]| |]; discriminate).
  destruct l as [|j l]; [cbn [flat_map map]; now rewrite app_nil_r|].
  assert (N' : flat_map instr_toks (j :: l) <> []).
  { cbn [flat_map]. intros K. apply app_eq_nil in K as [K _]. revert K. destruct j as [| |[]|[]| |]; discriminate. }
  rewrite commas_app, E, IH by auto. cbn [map]. now rewrite commas_cons.
Qed.
Theorem inst2str_list l : Forall good_instr l -> inst2str (instrs_wire l) true = Ok (commas (map instr_text l)).
Proof. intros H. unfold inst2str. rewrite instrs_print by auto. cbn [bind]. now rewrite join_commas, commas_toks. Qed.

Lemma group_str_eq g : match assoc_z g ofpg with Some n => n | None => fmt_d g end = group_str g.
Proof.
  unfold group_str, ofpg, reserved_groups. cbn [assoc_z find fst snd]. rewrite fmt_d_dec. rewrite !(Z.eqb_sym g).
  destruct (0xffffff00 =? g), (0xfffffffc =? g), (0xffffffff =? g); reflexivity.
Qed.
Lemma port_str_eq p : match assoc_z p ofpp with Some n => n | None => fmt_d p end = port_text 4 p.
Proof.
  unfold port_text, ofpp, reserved. cbn [assoc_z find fst snd]. rewrite fmt_d_dec.
  repeat match goal with |- context [?a mod 256 ^ Z.of_nat 4] => change (a mod 256 ^ Z.of_nat 4) with a end.
  rewrite !(Z.eqb_sym _ p).
  repeat match goal with |- context [if ?b then _ else _] => destruct b; [reflexivity|] end. reflexivity.
Qed.
(** the fixed part *)
Definition kw_of (x : fixedp) : kwargs :=
  Kw (Some (x_cookie x)) (Some (x_mask x)) (Some (x_table x)) (Some (x_priority x)) (Some (x_buffer x)) (Some (x_port x)) (Some (x_group x))
     (Some (x_idle x)) (Some (x_hard x)) (Some (x_flags x)).
Lemma mod_default_kw cmd : mod_default cmd = kw_of (defaults cmd).
Proof. unfold mod_default, defaults, deleting. destruct ((cmd =? 3) || (cmd =? 4)); reflexivity. Qed.
Lemma flags_text f : map fst (filter (fun nf => negb (Z.land f (snd nf) =? 0)) ofpff) = flat_map (fun g => unless (Z.land f (fflag_bit g) =? 0) (fflag_name g)) fflags.
Proof.
  unfold ofpff, fflags. cbn [filter snd flat_map fflag_bit fflag_name].
  destruct (Z.land f 1 =? 0), (Z.land f 2 =? 0), (Z.land f 4 =? 0), (Z.land f 8 =? 0), (Z.land f 16 =? 0); reflexivity.
Qed.
Lemma fixed_prints d x : x_flags d = 0 -> fixed_ok x -> fixed (kw_of d) (kw_of x) = fixed_texts d x.
Proof.
  intros Hd (H1 & H2 & H3 & H4 & H5 & H6 & H7 & H8 & H9 & H10). unfold in_bytes in *. unfold fixed, fixed_texts, kw_of, emit_d, emit_named, emit. cbn [k_cookie k_cookie_mask k_table k_priority k_buffer k_out_port k_out_group k_idle k_hard k_flags opt_or].
  rewrite Hd. unfold unless at 1 2 3 4 5 6 7 8.
  f_equal; [destruct (x_mask x =? x_mask d), (x_cookie x =? x_cookie d); rewrite ?fmt_x_hex by lia; reflexivity|].
  repeat (f_equal; [match goal with |- context [if ?b then _ else _] => destruct b; [reflexivity|] end;
    rewrite ?port_str_eq, ?group_str_eq, ?fmt_d_dec; rewrite ?fmt_x_hex by lia; reflexivity|]).
  destruct (Z.eqb_spec (x_flags x) 0) as [->|]; [reflexivity|apply flags_text].
Qed.
Lemma commas_nil l : Forall (fun t => t <> []) l -> commas l = [] -> l = [].
Proof.
  intros H E. destruct l as [|t l]; auto. inversion H; subst. destruct l as [|t' l]; [cbn in E; congruence|].
  rewrite commas_cons in E. apply app_eq_nil in E as [E _]. congruence.
Qed.
Lemma opt_tok_commas l : Forall (fun t => t <> []) l -> opt_tok (commas l) = match l with [] => [] | _ => [commas l] end.
Proof. intros H. destruct (commas l) eqn:E; [now rewrite (commas_nil l H E)|]. destruct l; [discriminate|reflexivity]. Qed.
Lemma commas_flat x a y : Forall (fun t => t <> []) a -> commas (x ++ opt_tok (commas a) ++ y) = commas (x ++ a ++ y).
Proof.
  intros H. rewrite opt_tok_commas by auto. destruct a as [|t a]; [reflexivity|].
  rewrite !(commas_app0 x). assert (E : commas ([commas (t :: a)] ++ y) = commas ((t :: a) ++ y)).
  { rewrite !commas_app0. destruct y; reflexivity. }
  rewrite E. reflexivity.
Qed.
Lemma text_of_nonnil t : good t -> text_of t <> [].
Proof. intros (Hf & _). unfold text_of. destruct (name_reg (tfield t)) as [_ Hn]; [now apply reg_accepted|]. intros E. apply app_eq_nil in E. tauto. Qed.
Lemma instr_text_nonnil i : instr_text i <> [].
Proof. destruct i as [| |[]|[]| |]; discriminate. Qed.
Lemma texts_commas ts : texts ts = commas (map text_of ts).
Proof. reflexivity. Qed.
Lemma good_instrs l : Forall instr_ok l -> Forall instr_printable l -> Forall good_instr l.
Proof. induction 1; intros H'; inversion H'; subst; constructor; auto. split; auto. Qed.
Theorem flow_prints cmd xid x ts is : good_flow cmd xid x ts is -> mod2str (flow_wire cmd xid x ts is) = Ok (flow_text cmd x ts is).
Proof.
  intros ((Hc & Hx & Hf & Hi & Hl) & Hg & Hp & Hip). pose proof (flow_length cmd xid x ts is) as FL. rewrite FL in Hl.
  pose proof Hf as (? & ? & ? & ? & ? & ? & ? & ? & ? & ?). pose proof (match_length ts) as ML. rewrite app_length, ML in Hl.
  pose proof (align8_ge (4 + length (flat_map wire ts))) as Ha.
  set (W := flat_map wire ts) in *. set (L := Z.of_nat (48 + length (match_wire ts ++ instrs_wire is))).
  assert (HL : Z.to_nat L = length (flow_wire cmd xid x ts is)) by (unfold L; lia).
  assert (in_bytes 2 L) by (apply in_bytes_2; unfold L; rewrite app_length, ML; lia).
  assert (in_bytes 2 (Z.of_nat (4 + length W))) by (apply in_bytes_2; lia).
  assert (E : unpack_from (mod_fmt ++ [sH; sH]) (flow_wire cmd xid x ts is) 0 =
    Ok [4; 14; L; xid; x_cookie x; x_mask x; x_table x; cmd; x_idle x; x_hard x; x_priority x; x_buffer x; x_port x; x_group x; x_flags x; 1; Z.of_nat (4 + length W)]).
  { rewrite unpack_from_ok.
    - unfold flow_wire. fold L. clearbody L. unfold match_wire, mod_fmt. fold W. cbn [app]. rewrite <- !app_assoc.
      unpacks. reflexivity.
    - rewrite FL, app_length, ML. unfold mod_fmt. cbn [app calcsize fold_right fwidth]. lia. }
  unfold mod2str. rewrite E. cbn [bind]. cbv zeta. change (1 =? 1) with true. cbn match. rewrite Nat2Z.id, HL.
  assert (S1 : slice 52 (52 + (4 + length W) - 4) (flow_wire cmd xid x ts is) = W).
  { unfold flow_wire, match_wire. fold W. set (q := Z.of_nat (48 + _)).
    match goal with |- slice _ _ ?m = _ => replace m with ((be 1 4 ++ be 1 14 ++ be 2 q ++ be 4 xid ++ be 8 (x_cookie x) ++ be 8 (x_mask x) ++ be 1 (x_table x) ++ be 1 cmd
      ++ be 2 (x_idle x) ++ be 2 (x_hard x) ++ be 2 (x_priority x) ++ be 4 (x_buffer x) ++ be 4 (x_port x) ++ be 4 (x_group x) ++ be 2 (x_flags x) ++ pad 2
      ++ be 2 1 ++ be 2 (Z.of_nat (4 + length W))) ++ W ++ (pad_to8 (4 + length W) ++ instrs_wire is)) by (rewrite <- !app_assoc; reflexivity) end.
    apply slice_mid; [len|lia]. }
  assert (S2 : slice (48 + align8 (4 + length W)) (length (flow_wire cmd xid x ts is)) (flow_wire cmd xid x ts is) = instrs_wire is).
  { rewrite FL, app_length, ML. unfold flow_wire. set (q := Z.of_nat (48 + _)).
    match goal with |- slice _ _ ?m = _ => replace m with ((be 1 4 ++ be 1 14 ++ be 2 q ++ be 4 xid ++ be 8 (x_cookie x) ++ be 8 (x_mask x) ++ be 1 (x_table x) ++ be 1 cmd
      ++ be 2 (x_idle x) ++ be 2 (x_hard x) ++ be 2 (x_priority x) ++ be 4 (x_buffer x) ++ be 4 (x_port x) ++ be 4 (x_group x) ++ be 2 (x_flags x) ++ pad 2
      ++ match_wire ts) ++ instrs_wire is) by (rewrite <- !app_assoc; reflexivity) end.
    apply slice_end; [len; rewrite ML; lia|lia]. }
  rewrite S1, S2. unfold W. rewrite oxm2str_prints, inst2str_list by (auto using good_instrs). cbn [bind].
  change (Kw (Some (x_cookie x)) (Some (x_mask x)) (Some (x_table x)) (Some (x_priority x)) (Some (x_buffer x)) (Some (x_port x)) (Some (x_group x))
     (Some (x_idle x)) (Some (x_hard x)) (Some (x_flags x))) with (kw_of x).
  rewrite mod_default_kw, fixed_prints by (auto; unfold defaults; destruct (deleting cmd); reflexivity).
  unfold flow_text, rule_texts. rewrite join_commas, texts_commas. do 1 f_equal.
  rewrite commas_flat by (apply Forall_map; eapply Forall_impl; [|exact Hg]; apply text_of_nonnil).
  rewrite app_assoc. rewrite <- (app_nil_r (opt_tok _)), commas_flat, app_nil_r, <- app_assoc by (apply Forall_map, Forall_forall; intros; apply instr_text_nonnil). reflexivity.
Qed.
