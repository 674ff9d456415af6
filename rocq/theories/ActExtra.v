(** Notes that do not survive printing, bundle_load ranges and learn (for C50-C52). *)
From Coq Require Import Strings.Ascii.
From Verif Require Import Base PyNum Util PyLib OxmCodec OxmTables Oxm Nx Ofp4 Spec SpecOxm SpecOfp.
From Verif Require Import BaseFacts UtilFacts NumFacts OxmRead OxmPrint OxmFacts OxmMore ActBase ActRead ActReadNx ActReadReg ActReadLearn ActPrint ActText.

(** ** note: what follows the first word is dropped *)
Lemma note_cut b o e h x : act_ok (Note b) -> bracket o e -> Forall filler h -> closed quiet x -> ends x ->
  str2act (call o e $"note" (h ++ map byte_val b ++ x)) = Ok (act_wire (Note b), length (call o e $"note" (h ++ map byte_val b ++ x))).
Proof.
  intros [[Hb Hn] Hl] Ho Hh Hx Hr. pose proof (note_plain b Hb) as Hp. assert (Hn' : map byte_val b <> []) by (destruct b; [congruence|discriminate]).
  pose proof (call_reads $"note" (qp_str2act 8) o e (h ++ map byte_val b ++ x) (act_wire (Note b)) (length h + length (map byte_val b)) [] []) as H.
  cbn [app length Nat.add] in H. rewrite app_nil_r in H. apply H; auto; [|now apply mid_nonnil| |exact I].
  - apply closed_app; [now apply filler_closed|]. apply closed_app; auto using plain_closed_quiet.
  - unfold qp_str2act. rewrite get_token_complete by auto using filler_lead, plain_token, plain_solid. cbn [negb orb assert bind].
    rewrite nxast_hdr_ok by fits. cbn [bind]. rewrite a2b_qp_plain by auto. cbn [bind]. cbn [act_wire] in *. rewrite fix_len_ok; [reflexivity|].
    rewrite std_act_length in Hl. revert Hl. len.
Qed.

(** ** printing notes in quoted-printable *)
Definition no_break (c : Z) : Prop := c <> 10 /\ c <> 13.
Lemma qp_out crlf s : forall l out, Forall no_break s -> b2a_qp_go crlf l out s = rev out ++ b2a_qp_go crlf l [] s.
Proof.
  induction s as [|c s IH]; intros l out H; cbn [b2a_qp_go]; [now rewrite app_nil_r|]. inversion H as [|? ? [H1 H2] Hs]; subst.
  destruct (Z.eqb_spec c 10); [congruence|]. destruct (Z.eqb_spec c 13); [congruence|]. cbn [orb andb].
  repeat match goal with |- context [if ?b then _ else _] => destruct b end;
    (rewrite (IH _ _ Hs); symmetry; rewrite (IH _ _ Hs); rewrite ?rev_app_distr; cbn [rev app]; rewrite ?rev_app_distr, ?rev_involutive, <- ?app_assoc; reflexivity).
Qed.
Lemma hexu_quiet d : 0 <= d < 16 -> quiet (hexu_char d).
Proof. unfold hexu_char, quiet. destruct (Z.ltb_spec d 10); lia. Qed.
Lemma esc_quiet c : 0 <= c < 256 -> Forall quiet (qp_esc c).
Proof.
  intros H. unfold qp_esc. repeat (apply Forall_cons || apply Forall_nil); [exact eq_quiet| |]; apply hexu_quiet; lia.
Qed.
Lemma qp_quiet crlf s : forall l out, Forall no_break s -> Forall quiet s -> Forall (fun c => 0 <= c < 256) s -> Forall quiet out -> Forall quiet (b2a_qp_go crlf l out s).
Proof.
  assert (Q : Forall quiet (if crlf then [10; 13] else [10])) by (destruct crlf; repeat constructor; unfold quiet; lia).
  induction s as [|c s IH]; intros l out H Hq Hb Ho; cbn [b2a_qp_go]; [now apply Forall_rev|].
  inversion H as [|? ? [H1 H2] Hs]; inversion Hq; inversion Hb; subst.
  destruct (Z.eqb_spec c 10); [congruence|]. destruct (Z.eqb_spec c 13); [congruence|]. cbn [orb andb].
  repeat match goal with |- context [if ?b then _ else _] => lazymatch b with crlf => fail | _ => destruct b end end; apply IH; auto;
    repeat first [exact Q | exact Ho | apply Forall_rev, esc_quiet; assumption | apply Forall_app; split | apply Forall_cons; [first [assumption | exact eq_quiet]|] | apply Forall_nil].
Qed.
(** plain characters are copied while the line is short *)
Lemma qp_copy crlf s : forall l d x, Forall plain s -> d <> [] -> (l + length s <= 75)%nat -> (l = 0%nat -> s <> [46]) ->
  match d with c :: _ => c <> 10 | [] => True end ->
  b2a_qp_go crlf l x (s ++ d) = b2a_qp_go crlf (l + length s) (rev s ++ x) d.
Proof.
  induction s as [|c s IH]; intros l d x Hs Hd Hl H46 H10; [cbn; f_equal; lia|]. cbn [app b2a_qp_go length] in *.
  inversion Hs as [|? ? Hc Hs']; subst. unfold plain in Hc.
  assert (Eq : qp_quote l c match s ++ d with [] => None | n :: _ => Some n end = false).
  { unfold qp_quote. assert (E : (c =? 46) && Nat.eqb l 0 && match match s ++ d with [] => None | n :: _ => Some n end with
      | Some n => (n =? 10) || (n =? 13) || (n =? 0) | None => true end = false).
    { destruct (Z.eqb_spec c 46); [|reflexivity]. subst. destruct (Nat.eqb_spec l 0); [|reflexivity]. cbn [andb].
      destruct s as [|n s]; [exfalso; now apply H46|]. cbn [app]. inversion Hs' as [|? ? Hn]; subst. unfold plain in Hn. lia. }
    rewrite E. replace ((c =? 9) || (c =? 32)) with false by lia. cbn [andb]. lia. }
  rewrite Eq. replace (c =? 10) with false by lia. replace (c =? 13) with false by lia. cbn [orb andb].
  replace (76 <=? l + 1)%nat with false by (symmetry; apply Nat.leb_gt; lia). rewrite andb_false_r.
  rewrite IH; [|auto|auto|lia|lia|auto]. f_equal; [lia|]. cbn [rev]. now rewrite <- app_assoc.
Qed.
Lemma plain_no_break c : plain c -> no_break c.
Proof. unfold plain, no_break. lia. Qed.
Lemma plain_byte c : plain c -> 0 <= c < 256.
Proof. unfold plain. lia. Qed.
(** and the line is broken at the 76th *)
Lemma qp_break crlf c n d out : plain c -> n <> 10 ->
  b2a_qp_go crlf 75 out (c :: n :: d) = b2a_qp_go crlf 1 (c :: (if crlf then [10; 13] else [10]) ++ [61] ++ out) (n :: d).
Proof.
  intros Hc Hn. unfold plain in Hc. remember (n :: d) as s' eqn:Es.
  assert (En : match s' with [] => None | m :: _ => Some m end = Some n) by now subst. clear Es. cbn [b2a_qp_go]. rewrite En.
  assert (Eq : qp_quote 75 c (Some n) = false).
  { unfold qp_quote. cbn [Nat.eqb]. rewrite andb_false_r. replace ((c =? 9) || (c =? 32)) with false by lia. cbn [andb]. lia. }
  rewrite Eq. replace (c =? 10) with false by lia. replace (c =? 13) with false by lia. replace (n =? 10) with false by lia. reflexivity.
Qed.
(** a note of more than 76 bytes is broken after 75 *)
Lemma qp_long b : Forall note_byte b -> (77 <= length b)%nat ->
  exists t, Forall quiet t /\ b2a_qp b = map byte_val (firstn 75 b) ++ $"=" ++ t.
Proof.
  intros Hb Hl. pose proof (note_plain b Hb) as Hp. unfold b2a_qp. change b2z with byte_val.
  set (crlf := qp_crlf 0 _). clearbody crlf.
  replace (map byte_val b) with (map byte_val (firstn 75 b) ++ map byte_val (skipn 75 b)) by (now rewrite <- map_app, firstn_skipn).
  set (s := map byte_val (firstn 75 b)). set (d := map byte_val (skipn 75 b)).
  rewrite <- (firstn_skipn 75 b), map_app in Hp. apply Forall_app in Hp as [P1 P2]. fold s in P1. fold d in P2.
  assert (L1 : length s = 75%nat) by (unfold s; rewrite map_length, firstn_length; lia).
  assert (L2 : (2 <= length d)%nat) by (unfold d; rewrite map_length, skipn_length; lia).
  clearbody s d. destruct d as [|c [|n d]]; cbn [length] in L2; try lia. inversion P2 as [|? ? Hc P3]; subst. inversion P3 as [|? ? Hn P4]; subst.
  rewrite qp_copy; [|auto|discriminate|lia| |unfold plain in Hc; lia].
  2:{ intros _ E. rewrite E in L1. discriminate. }
  rewrite L1. cbn [Nat.add]. rewrite qp_break by (auto; unfold plain in Hn; lia). rewrite app_nil_r. unfold plain in Hc, Hn.
  assert (B1 : Forall no_break (n :: d)) by (eapply Forall_impl; [|exact P3]; apply plain_no_break).
  exists (rev (c :: (if crlf then [10; 13] else [10])) ++ b2a_qp_go crlf 1 [] (n :: d)). split.
  - apply Forall_app. split.
    + apply Forall_rev. constructor; [apply plain_quiet; unfold plain; lia|]. destruct crlf; repeat constructor; unfold quiet; lia.
    + apply qp_quiet; auto; (eapply Forall_impl; [|exact P3]); [apply plain_quiet|apply plain_byte].
  - pose proof (qp_out crlf (n :: d) 1 (c :: (if crlf then [10; 13] else [10]) ++ [61] ++ rev s) B1) as E. 
    rewrite E. rewrite app_comm_cons, !rev_app_distr, rev_involutive. cbn [rev app]. rewrite <- !app_assoc. reflexivity.
Qed.
(** a note padded with zeros *)
Lemma qp_zeros crlf k : forall l out, (l + 3 * k <= 75)%nat -> b2a_qp_go crlf l out (repeat 0 k) = rev out ++ flat_map (fun _ => $"=00") (repeat tt k).
Proof.
  induction k as [|k IH]; intros l out H; cbn [repeat b2a_qp_go flat_map]; [now rewrite app_nil_r|].
  assert (E : qp_quote l 0 match repeat 0 k with [] => None | n :: _ => Some n end = true) by (unfold qp_quote; cbn [Z.ltb Z.eqb Z.compare orb andb negb]; reflexivity).
  rewrite E. replace (76 <=? l + 3)%nat with false by (symmetry; apply Nat.leb_gt; lia). rewrite IH by lia. rewrite rev_app_distr, rev_involutive, <- app_assoc. reflexivity.
Qed.
Lemma qp_padded b k : Forall note_byte b -> b <> [x2e] -> (length b + 3 * k <= 75)%nat ->
  b2a_qp (b ++ repeat x00 k) = map byte_val b ++ flat_map (fun _ => $"=00") (repeat tt k).
Proof.
  intros Hb Hd Hl. pose proof (note_plain b Hb) as Hp. destruct k as [|k].
  - cbn [repeat flat_map]. rewrite !app_nil_r. apply b2a_qp_plain; auto; lia.
  - unfold b2a_qp. change b2z with byte_val. rewrite map_app. set (crlf := qp_crlf 0 _). clearbody crlf.
    replace (map byte_val (repeat x00 (S k))) with (repeat 0 (S k)) by (clear; induction (S k) as [|n IH]; [reflexivity|cbn [repeat map]; now rewrite <- IH]).
    rewrite qp_copy; [|auto|discriminate|rewrite map_length; lia| |discriminate].
    + rewrite qp_zeros by (rewrite map_length; lia). now rewrite app_nil_r, rev_involutive.
    + intros _ E. apply Hd. destruct b as [|c [|]]; try discriminate. injection E as E. f_equal. apply b2z_inj. exact E.
Qed.

(** ** notes as actions *)
Definition note_wire (b : bytes) : bytes := std_act 0xffff (be 4 0x2320 ++ be 2 8 ++ b).
Lemma one_prints w t : (4 < length w)%nat -> act2str_one w = Ok (t, []) -> act2str w true = Ok t.
Proof.
  intros Hl H. unfold act2str. destruct (length w) as [|n] eqn:E; [lia|]. cbn [act2str_go]. rewrite E. destruct (Nat.leb_spec (S n) 4); [lia|].
  rewrite H. cbn [bind]. destruct n; [lia|]. reflexivity.
Qed.
Lemma note_prints b : Z.of_nat (length (note_wire b)) <= 65535 -> act2str (note_wire b) true = Ok ($"note(" ++ b2a_qp b ++ $")").
Proof.
  unfold note_wire. rewrite std_act_length. len. intros Hl. apply one_prints; [rewrite std_act_length; len|].
  rewrite <- (app_nil_r (std_act _ _)). rewrite (nx_raw 8 b [] (qp_act2str $"note(")) by (auto; try fits; lia). reflexivity.
Qed.
Lemma note_reads_head b x : act_ok (Note b) -> closed quiet x -> ends x ->
  str2act ($"note(" ++ (map byte_val b ++ x) ++ $")") = Ok (note_wire b, length ($"note(" ++ (map byte_val b ++ x) ++ $")")).
Proof. intros Hb Hx He. exact (note_cut b 40 41 [] x Hb paren (Forall_nil _) Hx He). Qed.
Lemma quiet_closed s : Forall quiet s -> closed quiet s.
Proof. induction 1; constructor; auto using quiet_opener. Qed.
Lemma padded_quiet k : Forall quiet (flat_map (fun _ => $"=00") (repeat tt k)).
Proof. induction k; cbn [repeat flat_map]; [constructor|]. apply Forall_app. split; auto. repeat constructor; unfold quiet; cbn; lia. Qed.
(** a padded note is printed with its padding, which reading drops *)
Theorem note_padded b k : act_ok (Note b) -> b <> [x2e] -> (length b + 3 * k <= 75)%nat ->
  exists t, act2str (note_wire (b ++ repeat x00 k)) true = Ok t /\ str2act t = Ok (note_wire b, length t).
Proof.
  intros Hok Hd Hl. pose proof Hok as [[Hb Hn] Hl']. eexists. split.
  - rewrite note_prints, qp_padded; auto. unfold note_wire. rewrite std_act_length. len.
  - apply note_reads_head; auto using quiet_closed, padded_quiet. destruct k; cbn [repeat flat_map]; [exact I|]. right. reflexivity.
Qed.
(** a long note loses everything behind its 75th byte *)
Theorem note_long b : act_ok (Note b) -> (77 <= length b)%nat ->
  exists t, act2str (note_wire b) true = Ok t /\ str2act t = Ok (note_wire (firstn 75 b), length t).
Proof.
  intros Hok Hl. pose proof Hok as [[Hb Hn] Hl']. destruct (qp_long b Hb Hl) as (t & Ht & E). eexists. split.
  - rewrite note_prints by exact Hl'. rewrite E. reflexivity.
  - apply note_reads_head.
    + split; [split|].
      * rewrite <- (firstn_skipn 75 b) in Hb. now apply Forall_app in Hb as [Hb _].
      * destruct b; [cbn in Hl; lia|discriminate].
      * revert Hl'. cbn [act_wire]. rewrite !std_act_length. len. rewrite firstn_length. lia.
    + apply quiet_closed. apply Forall_app. split; auto. repeat constructor; cbn; lia.
    + right. reflexivity.
Qed.

(** ** actions that are not a multiple of 8 bytes long *)
Lemma unpadded_instr n l r : n = 3 \/ n = 4 -> Z.of_nat (length (std_act n (pad 4 ++ acts_wire l))) <= 65535 -> (length (acts_wire l) mod 8 <> 0)%nat ->
  inst2str_one (std_act n (pad 4 ++ acts_wire l) ++ r) = Raise AssertionError.
Proof.
  intros Hn Hl Hm. assert (In2 : in_bytes 2 n) by (destruct Hn as [-> | ->]; fits).
  unfold inst2str_one. rewrite std_act_length in Hl. unfold std_act at 1. 
  rewrite <- !app_assoc, unpack_from_ok by len. assert (in_bytes 2 (Z.of_nat (4 + length (pad 4 ++ acts_wire l)))) by (apply in_bytes_2; lia). unpacks. cbn [bind].
  assert (M : Z.of_nat (4 + length (pad 4 ++ acts_wire l)) mod 8 =? 0 = false).
  { apply Z.eqb_neq. rewrite app_length, pad_length. lia. }
  rewrite M. destruct Hn as [-> | ->]; reflexivity.
Qed.
Definition unpadded (i : instr) : Prop := match i with WriteActions l | ApplyActions l => (length (acts_wire l) mod 8 <> 0)%nat | _ => False end.
Theorem unpadded_raises i r : Z.of_nat (length (instr_wire i)) <= 65535 -> unpadded i -> inst2str (instr_wire i ++ r) true = Raise AssertionError.
Proof.
  intros Hl Hu. assert (E : inst2str_one (instr_wire i ++ r) = Raise AssertionError).
  { destruct i as [t|v m|l|l| |n]; try contradiction; apply unpadded_instr; auto. }
  assert (L : (4 < length (instr_wire i ++ r))%nat).
  { rewrite app_length. destruct i as [t|v m|l|l| |n]; try contradiction; cbn [instr_wire]; rewrite std_act_length; len. }
  unfold inst2str. destruct (length (instr_wire i ++ r)) as [|n] eqn:En; [lia|]. cbn [inst2str_go]. rewrite En.
  destruct (Nat.leb_spec (S n) 4); [lia|]. now rewrite E.
Qed.

(** ** bundle_load into bits that do not start at 0 *)
Theorem bundle_load_shifted h ub b a f d lo hi us ps o e o' e' o'' e'' g s s' : literal ub b -> Forall2 literal us ps ->
  bracket o e -> bracket o' e' -> bracket o'' e'' -> Forall filler g -> plain_args us s' ->
  args [hash_name h; ub; bdalg_name a; fname f; call o'' e'' (fname d) (dec lo ++ $":" ++ dec hi); call o' e' $"slaves" s'] s ->
  In f registry -> (exists n, fkind f = KPort n) -> In d registry -> fclass d <> Stratos -> fname d <> $"nxm_ip_frag" ->
  in_bytes 2 b -> 0 <= lo < 1024 -> 1 <= hi <= 64 -> Forall (in_bytes 2) ps -> Forall plain_port ps ->
  nx_fits 13 (bundle_load_payload h b a f d lo hi ps) ->
  let u := call o e $"bundle_load" (g ++ s) in
  exists w, str2act u = Ok (w, length u) /\ act2str w true = Ok (bundle_load_text h b a f d lo hi ps).
Proof.
  intros Hb Hu Ho Ho' Ho'' Hg Hs' Hs Hf Hk Hd Hcd Hnd Hi Hlo Hhi Hps Hpp Hfit. cbv zeta. exists (nx_act 13 (bundle_load_payload h b a f d lo hi ps)). split.
  - destruct (bundle_load_range h ub b a f d lo hi us ps o' e' o'' e'' g s s') as [k E]; auto; try lia; [apply in_bytes_2; unfold ofs_nbits; lia|].
    pose proof (call_reads $"bundle_load" bundle_load_str2act o e (g ++ s) (nx_act 13 (bundle_load_payload h b a f d lo hi ps)) k [] []) as H. cbn [app length Nat.add] in H.
    rewrite app_nil_r in H. apply H; auto; [| |exact I].
    + apply closed_app; [now apply filler_closed|]. apply (args_quiet _ _ Hs).
      repeat (apply Forall_cons || apply Forall_nil);
        try (apply plain_closed_quiet; first [apply hash_plain|apply bdalg_plain|eapply literal_plain; eassumption|apply name_reg; now apply reg_accepted]).
      * apply call_quiet; auto; [apply name_reg; now apply reg_accepted|]. apply plain_closed_quiet. apply (range_plain lo hi); auto; lia.
      * apply call_quiet; auto; [apply slaves_plain|]. apply (plain_args_quiet us); auto. now apply (literals_plain us ps).
    + apply (args_nonnil _ _ _ _ Hs). apply hash_plain.
  - apply one_prints; [unfold nx_act; rewrite padded_act_eq, std_act_length; len|]. rewrite <- (app_nil_r (nx_act _ _)).
    destruct (nx_step 13 (bundle_load_payload h b a f d lo hi ps) [] bundle_load_act2str) as [z ->]; auto; try fits; try lia.
    rewrite bundle_load_prints_at by auto. reflexivity.
Qed.

(** ** learn: what cannot be printed or read back *)
Lemma lkeys_all (P : lkey -> Prop) : P LIdle -> P LHard -> P LPriority -> P LCookie -> P LFlags -> P LTable -> P LFinIdle -> P LFinHard -> forall k, P k.
Proof. intros. destruct k; auto. Qed.
Theorem learn_fixed_raises l k : act_ok (Learn l) -> lvalue k 0 l <> 0 -> act2str (act_wire (Learn l)) true = Raise TypeError.
Proof.
  intros [Hok Hl] Hk. assert (E : act2str_one (act_wire (Learn l)) = Raise TypeError).
  { cbn [act_wire] in *. rewrite <- (app_nil_r (nx_act _ _)).
    destruct (nx_step 16 (lfixed_wire l ++ flat_map lspec_wire (lspecs l)) [] learn_act2str) as [z ->]; auto; try fits; try lia.
    assert (V : forall j, in_bytes (lkey_size j) (lvalue j 0 l)) by (intros j; apply lvalue_in; auto; destruct j; fits).
    pose proof (V LIdle) as V1. pose proof (V LHard) as V2. pose proof (V LPriority) as V3. pose proof (V LCookie) as V4.
    pose proof (V LFlags) as V5. pose proof (V LTable) as V6. pose proof (V LFinIdle) as V7. pose proof (V LFinHard) as V8. cbn [lkey_size] in *.
    unfold learn_act2str, lfixed_wire. cbn [lkey_size]. rewrite <- !app_assoc. rewrite unpack_from_ok by (unfold learn_fmt; len). unfold learn_fmt at 1. unpacks. cbn [bind].
    match goal with |- context [existsb ?f ?vs] => replace (existsb f vs) with true end; [reflexivity|]. symmetry. apply existsb_exists. exists (lvalue k 0 l).
    split; [destruct k; cbn; auto 12|]. apply negb_true_iff. now apply Z.eqb_neq. }
  unfold act2str. pose proof (act_wire_long (Learn l)) as L. destruct (length (act_wire (Learn l))) as [|n] eqn:En; [lia|]. cbn [act2str_go]. rewrite En.
  destruct (Nat.leb_spec (S n) 4); [lia|]. now rewrite E.
Qed.

(** after a comma there is no "=" *)
Lemma comma_head x : has_char 61 (fst (fst (get_token (44 :: x)))) = false.
Proof.
  destruct (get_token (44 :: x)) as [[h b] r] eqn:E. cbn [fst]. pose proof (get_token_concat _ _ _ _ E) as C. destruct (get_token_sound _ _ _ _ E) as [[F|(a & c & Ha & Hc & ->)] _].
  - apply has_char_false. intros Hin. apply (proj1 (Forall_forall _ _) F) in Hin. revert Hin. chr_red. unfold blank. lia.
  - exfalso. destruct a as [|y a]; cbn [app] in C; injection C as C _; [discriminate|]. subst. inversion Ha as [|? ? B]; subst. revert B. unfold blank. lia.
Qed.
Lemma single_no_eq name us : Forall plain name -> token us -> solid us -> closed quiet us -> us <> [] ->
  learn_single (call 40 41 name us) = Raise AssertionError.
Proof.
  intros Hn H1 H2 H3 H4. unfold learn_single. rewrite call_func by auto using paren. cbn [bind]. destruct us as [|c a] eqn:E; [congruence|]. rewrite <- E in *.
  pose proof (tok [] us [] (Forall_nil _) H1 H2 I) as T. cbn [app] in T. rewrite app_nil_r in T. rewrite T. rewrite get_token_nil. reflexivity.
Qed.
Definition output_arg (s : lspec) : text := match l_src s with FromBits f lo => bits_str f lo (l_bits s) | FromValue v => dec v end.
Lemma output_arg_text s : lspec_ok s -> token (output_arg s) /\ solid (output_arg s) /\ closed quiet (output_arg s) /\ output_arg s <> [].
Proof.
  intros (Hn & Hs & _). unfold output_arg. destruct (l_src s) as [f lo|v] eqn:Es.
  - apply (src_text (l_bits s) (FromBits f lo)); [|exact Hs]. constructor. apply bits_written; [apply (nonneg 2); apply Hs|lia].
  - apply (src_text (l_bits s) (FromValue v)); [|exact Hs]. constructor. apply dec_literal.
Qed.
Lemma output_go post : forall s g fuel info specs left p, lspec_ok s -> l_dst s = ToOutput -> Forall filler g -> learn_flush left = Ok p ->
  (length (g ++ commas (map lspec_text (s :: post))) <= fuel)%nat ->
  learn_go fuel info specs left (g ++ commas (map lspec_text (s :: post))) = Raise AssertionError.
Proof.
  intros s g fuel info specs left p Hok Hd Hg Hp Hl. destruct (output_arg_text s Hok) as (T1 & T2 & T3 & T4).
  set (u := call 40 41 $"output" (output_arg s)). assert (Po : Forall plain $"output") by (apply (act_name_plain $"output" output_str2act); reflexivity).
  assert (Eu : lspec_text s = u) by (unfold lspec_text, u, output_arg, call; rewrite Hd; destruct (l_src s); reflexivity).
  assert (Tu : token u) by (apply call_token; auto using paren). assert (Su : solid u) by (apply call_solid; auto; discriminate).
  assert (Fl : learn_flush (Some u) = Raise AssertionError) by (exact (single_no_eq $"output" (output_arg s) Po T1 T2 T3 T4)).
  assert (X : exists r, commas (map lspec_text (s :: post)) = u ++ r /\ (r = [] \/ exists x, r = 44 :: x)).
  { cbn [map]. destruct post as [|q post]; [exists []; cbn [map]; rewrite app_nil_r; split; auto|]. cbn [map]. rewrite commas_cons, Eu. eexists. split; [reflexivity|]. right. eexists. reflexivity. }
  destruct X as (r & X & Hr). rewrite X in *. assert (Fr : follow r) by (destruct Hr as [->|[x ->]]; cbn; auto; unfold sep_char; auto).
  destruct (learn_call g u r fuel info specs left p) as (f' & Lf & ->); auto; [discriminate|].
  destruct Hr as [->|[x ->]].
  - destruct f'; cbn [learn_go]; now rewrite Fl.
  - destruct f' as [|f']; [cbn in Lf; lia|]. cbn [learn_go]. pose proof (comma_head x) as C. destruct (get_token (44 :: x)) as [[h b] r]. cbn [fst] in C. rewrite C, Fl. reflexivity.
Qed.
Lemma output_go_list pre s post : forall g fuel info specs left p, Forall (fun s => lspec_ok s /\ lspec_printable s) pre -> lspec_ok s -> l_dst s = ToOutput -> Forall filler g -> learn_flush left = Ok p ->
  (length (g ++ commas (map lspec_text (pre ++ s :: post))) <= fuel)%nat ->
  learn_go fuel info specs left (g ++ commas (map lspec_text (pre ++ s :: post))) = Raise AssertionError.
Proof.
  induction pre as [|q pre IH]; intros g fuel info specs left p Hpre Hok Hd Hg Hp Hl; [now apply (output_go post s g fuel info specs left p)|].
  inversion Hpre as [|? ? [Q1 Q2] Hpre']; subst. cbn [app map] in *.
  assert (E : exists y l, map lspec_text (pre ++ s :: post) = y :: l) by (destruct pre; cbn [app map]; eauto). destruct E as (y & l & E).
  assert (Ec : commas (lspec_text q :: map lspec_text (pre ++ s :: post)) = lspec_text q ++ 44 :: commas (map lspec_text (pre ++ s :: post))) by (rewrite E, commas_cons; reflexivity).
  rewrite Ec in *.
  destruct (learn_entry (LAdd q) (lspec_text q) g (44 :: commas (map lspec_text (pre ++ s :: post))) fuel info specs left p) as (f' & left' & specs' & p' & Lf & Fp & _ & ->); auto.
  - constructor. now apply lspec_written.
  - cbn. unfold sep_char. auto.
  - apply (IH [44] f' _ specs' left' p'); auto. constructor; auto. unfold filler. auto.
Qed.
Lemma lspec_text_quiet s : lspec_ok s -> lspec_named s -> closed quiet (lspec_text s) /\ lspec_text s <> [].
Proof.
  intros Hok [N1 N2]. destruct (l_dst s) as [f lo|f lo|] eqn:Ed.
  3:{ destruct (output_arg_text s Hok) as (T1 & T2 & T3 & T4). assert (Eu : lspec_text s = call 40 41 $"output" (output_arg s)) by (unfold lspec_text, output_arg, call; rewrite Ed; destruct (l_src s); reflexivity).
    rewrite Eu. split; [|discriminate]. apply call_quiet; auto using paren. apply (act_name_plain $"output" output_str2act); reflexivity. }
  all: apply (lentry_quiet (LAdd s)); auto; constructor; apply lspec_written; auto; split; auto; rewrite Ed; auto.
Qed.
(** a learned output action is printed as a text that cannot be read *)
Theorem learn_output_unreadable pre s post : Forall (fun s => lspec_ok s /\ lspec_printable s) pre -> lspec_ok s -> l_dst s = ToOutput ->
  Forall lspec_ok post -> Forall lspec_named (s :: post) ->
  let l := map LAdd (pre ++ s :: post) in Z.of_nat (length (act_wire (Learn l))) <= 65535 ->
  act2str (act_wire (Learn l)) true = Ok (act_text (Learn l)) /\ str2act (act_text (Learn l)) = Raise AssertionError.
Proof.
  intros Hpre Hok Hd Hpost Hn l Hl. assert (El : lspecs l = pre ++ s :: post).
  { unfold l. clear. induction (pre ++ s :: post) as [|x r IH]; [reflexivity|]. cbn [map lspecs flat_map app]. f_equal. exact IH. }
  split.
  - apply one_prints; [apply act_wire_long|]. cbn [act_wire] in *. rewrite <- (app_nil_r (nx_act _ _)).
    destruct (nx_step_zeros 16 (lfixed_wire l ++ flat_map lspec_wire (lspecs l)) [] learn_act2str) as [z ->]; auto; try fits; try lia.
    rewrite learn_prints; [reflexivity| | |].
    + rewrite El. apply Forall_app. split; [eapply Forall_impl; [|exact Hpre]; now intros x [A _]|]. constructor; auto.
    + rewrite El. apply Forall_app. split; auto. eapply Forall_impl; [|exact Hpre]. intros x [_ [A B]]. split; auto. destruct (l_dst x); auto.
    + intros j. apply adds_value. unfold l. apply Forall_forall. intros e He. apply in_map_iff in He as (x & <- & _). exact I.
  - cbn [act_text]. rewrite El. set (a := commas (map lspec_text (pre ++ s :: post))).
    assert (Q : Forall (fun s => closed quiet (lspec_text s) /\ lspec_text s <> []) (pre ++ s :: post)).
    { apply Forall_app. split.
      - eapply Forall_impl; [|exact Hpre]. intros x [A [B C]]. apply lspec_text_quiet; auto. split; auto. destruct (l_dst x); auto.
      - inversion Hn as [|? ? Hn1 Hn2]; subst. constructor; [now apply lspec_text_quiet|]. apply Forall_forall. intros x Hx.
        apply lspec_text_quiet; [exact (proj1 (Forall_forall _ _) Hpost x Hx)|exact (proj1 (Forall_forall _ _) Hn2 x Hx)]. }
    pose proof (act_call $"learn" learn_str2act 40 41 a [] []) as H. cbn [app length Nat.add] in H. rewrite app_nil_r in H.
    refine (eq_trans (H _ _ _ _ _ _ _ _) _); auto using paren; [apply (act_name_plain $"learn" learn_str2act); reflexivity|discriminate| | |exact I|].
    + unfold a. clear -Q. destruct (pre ++ s :: post) as [|x l]; [constructor|]. cbn [map]. apply (args_quiet _ _ (args_commas _ _)).
      change (lspec_text x :: map lspec_text l) with (map lspec_text (x :: l)). rewrite Forall_map. eapply Forall_impl; [|exact Q]. now intros y [A _].
    + unfold a. clear -Q. destruct (pre ++ s :: post) as [|x l] eqn:E; [now destruct pre|]. inversion Q as [|? ? [_ N]]; subst. cbn [map]. destruct l as [|y l]; cbn [map]; [exact N|]. rewrite commas_cons. destruct (lspec_text x); [congruence|discriminate].
    + unfold learn_str2act, nxast_str2act. pose proof (output_go_list pre s post [] (length a) [] [] None []) as G. cbn [app] in G. unfold a at 2. rewrite G by (auto; unfold a; lia). reflexivity.
Qed.
