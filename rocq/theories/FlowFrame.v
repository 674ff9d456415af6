(** What an accepted flow text is made of, and the framing of the message it gives. *)
From Coq Require Import Strings.Ascii.
From Verif Require Import Base PyNum Util PyLib OxmCodec OxmTables Oxm Nx Ofp4 Spec SpecOxm SpecOfp.
From Verif Require Import BaseFacts UtilFacts NumFacts OxmRead OxmPrint OxmFacts OxmFrame OxmMore TermFacts OfpTerm.
From Verif Require Import ActBase ActRead ActReadNx ActReadReg ActReadLearn ActPrint ActText ActFrame ActDenote FlowRead FlowMod.

(** ** Tokens again *)
Lemma head_filler u h b r : get_token u = (h, b, r) -> has_char 61 h = false -> Forall filler h.
Proof.
  intros E Hn. pose proof (get_token_sound _ _ _ _ E) as [[Hl|(x & y & _ & _ & ->)] _]; [exact Hl|].
  rewrite (proj2 (has_char_true _ _)) in Hn; [discriminate|]. apply in_or_app. right. left. reflexivity.
Qed.
(** no name: the text ends, or "=" follows *)
Lemma no_name u h r : get_token u = (h, [], r) -> has_char 61 h = false -> r = [] \/ exists x, r = 61 :: x.
Proof.
  intros E Hn. pose proof (get_token_sound _ _ _ _ E) as [_ Ht]. apply token_split in E as [Eh Es].
  destruct (after_head u) as [_ Ha]. rewrite Eh, Es in Ha. specialize (Ha Hn). destruct r as [|c r]; [auto|]. right. cbn [app] in Ha.
  destruct Ht as [[_ [Hc|Hc]]|[_ ?]]; [exfalso; apply Ha|unfold eq_char in Hc; subst c; now exists r|discriminate].
  destruct Hc as [->|Hc]; [right; reflexivity|left; unfold blank; lia].
Qed.
Lemma retoken u h b r : get_token u = (h, b, r) -> b <> [] -> get_token (b ++ r) = ([], b, r).
Proof.
  intros E Hb. pose proof (name_solid _ _ _ _ E Hb) as Hs. apply get_token_sound in E as [_ [[Ht He]|[Ht ->]]].
  - apply (get_token_complete [] b r); auto. left. constructor.
  - rewrite app_nil_r. apply (get_token_unfinished [] b); auto. left. constructor.
Qed.
Lemma token_ends u h b r : get_token u = (h, b, r) -> ends r.
Proof.
  intros E. apply get_token_sound in E as [_ [[_ He]|[_ ->]]]; [auto|exact I].
Qed.

Lemma closed_drop P a b : closed P (a ++ b) -> Forall (fun c => ~ opener c) a -> closed P b.
Proof.
  intros H Ha. revert b H. induction Ha as [|c a Hc Ha IH]; intros b H; [exact H|]. cbn [app] in H.
  inversion H; subst; [auto|]. exfalso. apply Hc. eexists. eassumption.
Qed.
Lemma unclosed_drop P a b : unclosed P (a ++ b) -> Forall (fun c => ~ opener c) a -> unclosed P b.
Proof.
  intros H Ha. inversion H as [P' p o e g Hp Hb Hg EP E|P' p o e g Hp Hb Hg EP E]; subst.
  - destruct (before_opener a p o g b Ha (ex_intro _ e Hb) E) as [z ->]. rewrite <- app_assoc in E. apply app_inv_head in E. subst b.
    econstructor; eauto. eapply closed_drop; eauto.
  - destruct (before_opener a p o g b Ha (ex_intro _ e Hb) E) as [z ->]. rewrite <- app_assoc in E. apply app_inv_head in E. subst b.
    eapply unclosed_in; eauto. eapply closed_drop; eauto.
Qed.
Lemma blank_not_opener c : blank c -> ~ opener c.
Proof. intros Hb [e He]. unfold blank in Hb. inversion He; subst; cbv [chr] in *; cbn in *; lia. Qed.
Lemma take_while_ge {A} (f : A -> bool) a b : forallb f a = true -> (length a <= length (take_while f (a ++ b)))%nat.
Proof. induction a as [|c a IH]; cbn; intros H; [lia|]. apply andb_prop in H as [-> H]. cbn. specialize (IH H). lia. Qed.
Lemma forallb_imp {A} (f g : A -> bool) l : (forall x, f x = true -> g x = true) -> forallb f l = true -> forallb g l = true.
Proof. intros H. induction l as [|x l IH]; cbn; auto. intros K. apply andb_prop in K as [K1 K2]. now rewrite H, IH. Qed.
Lemma head_blanks w r : forallb is_space w = true -> (length w <= length (token_head (w ++ r)))%nat.
Proof.
  intros Hw. rewrite token_head_eq. destruct (match drop_while is_space (w ++ r) with [] => false | c :: _ => c =? 61 end).
  - rewrite app_length. pose proof (take_while_ge is_space w r Hw). lia.
  - apply take_while_ge. eapply forallb_imp; [|exact Hw]. now intros c ->.
Qed.
Lemma all_space_blank w : forallb is_space w = true -> Forall blank w.
Proof. intros H. apply Forall_forall. intros c Hc. apply is_space_iff. now apply (proj1 (forallb_forall _ _) H). Qed.

(** set_FIELD: at least the name is read *)
Lemma set_reach s h y arg op pl rr x p : get_token s = (h, $"set_" ++ y, arg) -> get_token arg = (op, pl, rr) ->
  str2oxm (y ++ op ++ pl) false = Ok (x, p) -> (length y <= p)%nat.
Proof.
  intros Es Ea H. remember (y ++ op ++ pl) as T eqn:ET. destruct T as [|c T'].
  { symmetry in ET. apply app_eq_nil in ET as [-> _]. cbn. lia. }
  unfold str2oxm in H. mons H. injection H as <- <-. cbn [length str2oxm_go] in Ea0. set (T := c :: T') in *.
  destruct (get_token T) as [[h1 nm1] u1] eqn:E1. destruct (get_token u1) as [[op1 pl1] u2] eqn:E2. mons Ea0.
  apply andb_prop in Eb as [_ Eb].
  assert (Er : t = u2). { destruct (Nat.eqb n 0); [congruence|]. mons Ea0. congruence. }
  subst t. clear Ea0 Ea1 Ea2. pose proof (get_token_concat _ _ _ _ E1) as C1. pose proof (get_token_concat _ _ _ _ E2) as C2.
  assert (CL : length T = (length h1 + length nm1 + (length op1 + length pl1 + length u2))%nat) by (rewrite <- C1, <- C2, !app_length; lia).
  change (length y <= length T - length u2)%nat. enough (length y <= length h1 + length nm1)%nat by lia.
  pose proof (take_drop is_space y) as Hy. pose proof (take_while_all is_space y) as Hw. pose proof (drop_while_head is_space y) as Hd.
  set (w := take_while is_space y) in *. set (y' := drop_while is_space y) in *. clearbody w y'.
  assert (Hwo : Forall (fun c => ~ opener c) w) by (eapply Forall_impl; [|apply (all_space_blank w Hw)]; apply blank_not_opener).
  assert (Hwl : lead w) by (left; eapply Forall_impl; [|apply (all_space_blank w Hw)]; auto).
  destruct y' as [|k y'].
  { rewrite app_nil_r in Hy. subst w. apply token_split in E1 as [Eh _]. rewrite <- Eh, ET. pose proof (head_blanks y (op ++ pl) Hw). lia. }
  assert (Hs : solid (k :: y')) by (cbn; now apply is_space_false).
  apply get_token_sound in Es as [_ [[Ht He]|[Ht ->]]].
  - assert (Ht' : token (k :: y')) by (apply (closed_drop _ w); auto; rewrite Hy; apply (closed_drop _ $"set_"); auto using set_no_opener).
    assert (E : get_token T = (w, k :: y', op ++ pl)).
    { rewrite ET, <- Hy, <- app_assoc. apply get_token_complete; auto. pose proof (get_token_concat _ _ _ _ Ea) as C.
      destruct op as [|o op]; [destruct pl as [|o pl]; [exact I|]|]; subst arg; exact He. }
    rewrite E in E1. injection E1 as <- <- _. rewrite <- Hy, app_length. lia.
  - rewrite get_token_nil in Ea. injection Ea as <- <- _. cbn [app] in ET. rewrite app_nil_r in ET.
    assert (Ht' : unfinished_token (k :: y')) by (apply (unclosed_drop _ w); auto; rewrite Hy; apply (unclosed_drop _ $"set_"); auto using set_no_opener).
    rewrite ET, <- Hy in E1. rewrite get_token_unfinished in E1 by auto. injection E1 as <- <- <-. rewrite get_token_nil in E2. injection E2 as <- _ _. discriminate.
Qed.

(** ** One action *)
Lemma framed_nonnil k b : act_framed k b -> b <> [].
Proof. intros [_ H] ->. destruct k; destruct H as [p H]; discriminate. Qed.
Lemma act_at s h name arg b n : get_token s = (h, name, arg) -> str2act s = Ok (b, n) ->
  (b = [] /\ n = length h)
  \/ exists fn z k, name = fn ++ z /\ match z with [] => True | c :: _ => opener c end
       /\ act_named fn k /\ act_framed k b /\ denotes fn b /\ (length h + length name <= n)%nat.
Proof.
  intros Et H. unfold str2act in H. rewrite Et in H. mons H. cbv zeta in H. rename t into fname, o into farg.
  pose proof (get_token_concat _ _ _ _ Et) as Hc. destruct (parse_func_inv _ _ _ Ea) as [Hn Hm].
  assert (Hz : exists z, name = fname ++ z /\ match z with [] => True | c :: _ => opener c end).
  { destruct farg as [p|]; [|exists []; rewrite app_nil_r; subst; auto]. destruct Hm as (o & e & Hb & [->| ->]); eexists; (split; [reflexivity|]); exists e; exact Hb. }
  destruct Hz as (z & Hz & Ho).
  assert (T : forall f u ra b n, assoc_t fname str2act_tbl = Some f -> f u ra = Ok (b, n) -> exists k, act_named fname k /\ act_framed k b /\ denotes fname b).
  { intros f u ra b' n' Hf Hb. destruct (frame_table _ _ _ _ _ _ Hf Hb) as (k & Hk & Hk1 & Hk2 & Hk3). exists k. split; [auto|]. split; [auto|]. eapply denote_table; eauto. }
  assert (S : forall x oxm b m, startswith $"set_" name = true -> str2oxm x false = Ok (oxm, m) -> set_field oxm = Ok b -> exists k, act_named fname k /\ act_framed k b /\ denotes fname b).
  { intros x oxm b' m Hs Hx Hb. exists (AStd 25). pose proof (denote_set_field fname _ _ _ _ Hx Hb). apply frame_set_field in Hb as (F & M & ->). split; [|auto].
    right. right. right. split; auto. apply startswith_iff in Hs as [y Hy]. destruct farg as [p|].
      + destruct Hm as (o & e & Hb & Hs). assert (Ho' : opener o) by (exists e; exact Hb).
        destruct Hs as [Hs|Hs]; rewrite Hs in Hy; apply (before_opener $"set_" fname o) in Hy; auto using set_no_opener.
      + subst fname. eauto. }
  assert (P : forall l : nat, (exists k, act_named fname k /\ act_framed k b /\ denotes fname b) -> (length h + length name <= l)%nat ->
    exists fn z k, name = fn ++ z /\ match z with [] => True | c :: _ => opener c end /\ act_named fn k /\ act_framed k b /\ denotes fn b /\ (length h + length name <= l)%nat).
  { intros l (k & H1 & H2 & H3) Hl. exists fname, z, k. auto 10. }
  assert (Q : forall op pl rr oxm p b', startswith $"set_" name = true -> get_token arg = (op, pl, rr) ->
    str2oxm (skipn 4 name ++ op ++ pl) false = Ok (oxm, p) -> set_field oxm = Ok b' -> (length h + length name <= length h + 4 + p)%nat).
  { intros op pl rr oxm p b' Hs He Hx _. apply startswith_iff in Hs as [y Hy]. rewrite Hy in Hx, Et. change (skipn 4 ($"set_" ++ y)) with y in Hx.
    pose proof (set_reach _ _ _ _ _ _ _ _ _ Et He Hx). rewrite Hy, app_length. cbn. lia. }
  assert (O : forall op pl rr, get_token arg = (op, pl, rr) ->
    (match assoc_t name str2act_tbl with
    | Some f => '(b, p) <- f arg true ;; Ok (b, (length h + length name + p)%nat)
    | None =>
        if startswith $"set_" name then
          '(oxm, consumed) <- ('(oxm, p) <- str2oxm (skipn 4 name ++ op ++ pl) false ;; Ok (oxm, (length h + 4 + p)%nat)) ;;
          b <- set_field oxm ;; Ok (b, consumed)
        else Ok ([], length h)
    end) = Ok (b, n) -> fname = name \/ assoc_t name str2act_tbl = None ->
    (b = [] /\ n = length h) \/ exists fn z k, name = fn ++ z /\ match z with [] => True | c :: _ => opener c end
       /\ act_named fn k /\ act_framed k b /\ denotes fn b /\ (length h + length name <= n)%nat).
  { intros op pl rr Eg K Hor. destruct (assoc_t name str2act_tbl) as [f|] eqn:Ef.
    - destruct Hor as [Hor|Hor]; [|discriminate]. mons K. injection K as <- <-. right. apply P; [|lia]. rewrite <- Hor in Ef. eapply T; eauto.
    - destruct (startswith $"set_" name) eqn:Es.
      + mons K. injection K as <- <-. mons Ea0. injection Ea0 as <- <-. right. apply P; [|eapply Q; eauto]. eapply S; eauto.
      + left. injection K as <- <-. auto. }
  assert (Z : forall p, farg = Some p -> assoc_t name str2act_tbl = None).
  { intros p ->. destruct Hm as (o & e & Hb & Hs). apply not_action. intros Hp.
    assert (Ho' : In o name) by (destruct Hs as [->| ->]; apply in_or_app; right; left; auto).
    apply (proj1 (Forall_forall _ _) Hp) in Ho'. apply plain_not_opener in Ho'. apply Ho'. exists e. exact Hb. }
  destruct (get_token arg) as [[op pl] rr] eqn:Eg.
  destruct farg as [[|c p]|].
  - eapply O; eauto.
  - destruct (assoc_t fname str2act_tbl) as [f|] eqn:Ef.
    + right. mons H. injection H as <- <-. apply P; [|lia]. eapply T; eauto.
    + rewrite (Z _ eq_refl) in H. destruct (startswith $"set_" name) eqn:Es.
      * right. mons H. injection H as <- <-. destruct (get_token (c :: p)) as [[a1 a2] a3]. mons Ea0. injection Ea0 as <- <-. apply P; [|lia]. eapply S; eauto.
      * left. injection H as <- <-. auto.
  - eapply O; eauto.
Qed.

(** ** One match field *)
Lemma eq_head x : has_char 61 (token_head (61 :: x)) = true.
Proof. rewrite token_head_eq. cbn. reflexivity. Qed.
Lemma match_at s h name rest oxm l : get_token s = (h, name, rest) -> has_char 61 h = false -> str2oxm (name ++ rest) false = Ok (oxm, l) -> l <> 0%nat ->
  (exists f, (f = ct_label_short \/ In f registry) /\ fname f = name /\ (oxm = [] \/ exists v m, sized (Tlv f v m) /\ oxm = wire (Tlv f v m)))
  /\ exists x, rest = x ++ skipn l (name ++ rest).
Proof.
  intros Et Hh H Hl. unfold str2oxm in H. mons H. injection H as <- <-. destruct name as [|c name].
  - destruct (no_name _ _ _ Et Hh) as [->|(x & ->)]; [injection Ea as <- <-; now cbn in Hl|]. exfalso. cbn [app length str2oxm_go] in Ea.
    destruct (get_token (61 :: x)) as [[h1 n1] u1] eqn:E1. destruct (get_token u1) as [[h2 n2] u2]. apply token_split in E1 as [E1 _]. pose proof (eq_head x) as E. rewrite E1 in E.
    rewrite E in Ea. discriminate.
  - assert (Hn : c :: name <> []) by discriminate. pose proof (retoken _ _ _ _ Et Hn) as Er.
    remember ((c :: name) ++ rest) as T eqn:ET. destruct T as [|c' T]; [discriminate|]. cbn [length str2oxm_go] in Ea. rewrite Er in Ea.
    destruct (get_token rest) as [[op pl] u2] eqn:E2. mons Ea. unfold str2bin in Ea0. destruct (assoc_t (c :: name) str2bin_tbl) as [c2|] eqn:Ec; [|discriminate].
    injection Ea0 as <-. apply str2bin_field in Ec as (f & Hf & En & ->). apply framed_field in Ea1 as (v & m & -> & Hs); [|auto].
    pose proof (get_token_concat _ _ _ _ E2) as C2.
    assert (K : t = u2 /\ (b = [] \/ b = wire (Tlv f v m))).
    { destruct (Nat.eqb n 0); [injection Ea as <- <-; auto|]. mons Ea. injection Ea as <- <-. auto. }
    destruct K as [-> K]. split.
    + exists f. split; [|split; [exact En|]].
      * destruct Hf as [<-|Hf]; [left; reflexivity|right; exact Hf].
      * destruct K as [->| ->]; [left; reflexivity|right; eauto].
    + exists (op ++ pl). rewrite ET. assert (R : (c :: name) ++ rest = ((c :: name) ++ op ++ pl) ++ u2) by (rewrite <- C2, <- !app_assoc; reflexivity).
      rewrite R, skipn_app_exact by (rewrite !app_length; lia). rewrite <- app_assoc. now rewrite C2.
Qed.

(** ** The whole text *)
Definition place_of (ph : phase) : place := match ph with PhMatch => AtEntry | PhAction => AtAction | PhNoarg => AtInstr end.
Definition pend_of (st : dstate) : option (Z * bytes) := match d_func st with Some t => Some (t, d_acts st) | None => None end.
Definition proper (st : dstate) : Prop :=
  match d_phase st with PhAction => d_func st = Some 3 \/ d_func st = Some 4 | _ => d_func st = None end.

Definition keeps (names : list text) (i j : info) : Prop :=
  (~ In $"table" names -> i_table j = i_table i) /\ (~ In $"priority" names -> i_priority j = i_priority i)
  /\ (~ In $"idle_timeout" names -> i_idle j = i_idle i) /\ (~ In $"hard_timeout" names -> i_hard j = i_hard i)
  /\ (~ In $"buffer" names -> i_buffer j = i_buffer i)
  /\ (~ In $"cookie" names -> i_cookie j = i_cookie i /\ i_cookie_mask j = i_cookie_mask i)
  /\ (~ In $"out_port" names -> i_out_port j = i_out_port i) /\ (~ In $"out_group" names -> i_out_group j = i_out_group i)
  /\ opt_or (i_flags j) 0 = Z.lor (opt_or (i_flags i) 0) (flags_named names).
Lemma flags_named_app a b : flags_named (a ++ b) = Z.lor (flags_named a) (flags_named b).
Proof. induction a as [|n a IH]; [reflexivity|]. cbn [app flags_named fold_right]. fold (flags_named (a ++ b)) (flags_named a). rewrite IH. apply Z.lor_assoc. Qed.
Lemma keeps_refl i : keeps [] i i.
Proof. unfold keeps. rewrite Z.lor_0_r. auto 15. Qed.
Lemma keeps_app a b i j k : keeps a i j -> keeps b j k -> keeps (a ++ b) i k.
Proof.
  intros (A1 & A2 & A3 & A4 & A5 & A6 & A7 & A8 & A9) (B1 & B2 & B3 & B4 & B5 & B6 & B7 & B8 & B9). unfold keeps.
  assert (S : forall n, ~ In n (a ++ b) -> ~ In n a /\ ~ In n b) by (intros n Hn; split; intros Hi; apply Hn, in_or_app; auto).
  repeat match goal with |- _ /\ _ => split end.
  - intros [H1 H2]%S. etransitivity; [apply B1|apply A1]; auto.
  - intros [H1 H2]%S. etransitivity; [apply B2|apply A2]; auto.
  - intros [H1 H2]%S. etransitivity; [apply B3|apply A3]; auto.
  - intros [H1 H2]%S. etransitivity; [apply B4|apply A4]; auto.
  - intros [H1 H2]%S. etransitivity; [apply B5|apply A5]; auto.
  - intros [H1 H2]%S. destruct (A6 H1), (B6 H2). split; congruence.
  - intros [H1 H2]%S. etransitivity; [apply B7|apply A7]; auto.
  - intros [H1 H2]%S. etransitivity; [apply B8|apply A8]; auto.
  - rewrite B9, A9, flags_named_app. symmetry. apply Z.lor_assoc.
Qed.
Lemma keeps_add_match i b : keeps [] i (add_match i b).
Proof. destruct i. unfold keeps. cbn. rewrite Z.lor_0_r. auto 15. Qed.
Lemma keeps_add_inst i b : keeps [] i (add_inst i b).
Proof. destruct i. unfold keeps. cbn. rewrite Z.lor_0_r. auto 15. Qed.

Lemma flush_inv t acts i j : flush_acts (Some t) acts i = Ok j -> j = add_inst i (finish (Some (t, acts))).
Proof.
  unfold flush_acts. intros H. mons H. apply pack_u_inv in Ea as (_ & a1 & Ea & ->). apply pack_u_inv in Ea as (_ & a2 & Ea & ->).
  apply pack_x_inv in Ea as (a3 & Ea & ->). apply pack_nil_inv in Ea as ->. assert (E : j = add_inst i ((be 2 t ++ be 2 (8 + Z.of_nat (length acts)) ++ pad 4 ++ []) ++ acts)) by congruence.
  rewrite E. unfold finish, std_act. replace (8 + Z.of_nat (length acts)) with (Z.of_nat (4 + length (pad 4 ++ acts))) by (rewrite app_length; cbn; lia).
  rewrite app_nil_r, <- !app_assoc. reflexivity.
Qed.
Lemma flushed_inv st j : flushed st = Ok j -> j = add_inst (d_info st) (finish (pend_of st)).
Proof.
  unfold flushed, pend_of. destruct st as [i [t|] a ph]; cbn [d_func d_acts d_info]; intros H; [now apply flush_inv|].
  injection H as <-. destruct i. unfold add_inst. cbn. now rewrite app_nil_r.
Qed.
Lemma std_head t p b : in_bytes 2 t -> b = be 2 t ++ be 2 (Z.of_nat (4 + length p)) ++ p -> b = std_act t p.
Proof. auto. Qed.

(** what one "@name" adds *)
Lemma inst_at i acts name s st r : inst_token i acts name s = Ok (st, r) ->
  (exists ins x, instr_name name ins /\ instr_ok ins /\ s = x ++ r /\ st = DState (add_inst i (instr_wire ins)) None acts PhNoarg)
  \/ (exists t, acts_name name t /\ s = r /\ st = DState i (Some t) [] PhAction).
Proof.
  unfold inst_token. intros H.
  destruct (in_names name [$"@goto"; $"@goto_table"]) eqn:E1.
  { left. destruct (get_token s) as [[op pl] rest] eqn:Et. mons H. assert (st = DState (add_inst i a) None acts PhNoarg /\ r = rest) as [-> ->] by (split; congruence).
    apply pack_u_inv in Ea0 as (_ & a1 & Ea0 & ->). apply pack_u_inv in Ea0 as (_ & a2 & Ea0 & ->). apply pack_u_inv in Ea0 as (Hz & a3 & Ea0 & ->).
    apply pack_x_inv in Ea0 as (a4 & Ea0 & ->). apply pack_nil_inv in Ea0 as ->.
    exists (Goto z), (op ++ pl). split; [|split; [|split]].
    - constructor. unfold in_names in E1. cbn [existsb] in E1. rewrite orb_false_r in E1. apply orb_prop in E1 as [E1|E1]; apply text_eqb_eq in E1; subst; [left|right]; reflexivity.
    - split; [exact Hz|]. cbn. lia.
    - rewrite <- app_assoc. symmetry. eapply get_token_concat; eauto.
    - reflexivity. }
  destruct (in_names name [$"@metadata"; $"@write_metadata"]) eqn:E2.
  { left. destruct (get_token s) as [[op pl] rest] eqn:Et. mons H. destruct (split1 47 pl) as [v m]. mons H.
    assert (st = DState (add_inst i a0) None acts PhNoarg /\ r = rest) as [-> ->] by (split; congruence).
    apply pack_u_inv in Ea1 as (_ & a1 & Ea1 & ->). apply pack_u_inv in Ea1 as (_ & a2 & Ea1 & ->). apply pack_x_inv in Ea1 as (a4 & Ea1 & ->).
    apply pack_u_inv in Ea1 as (Hz & a5 & Ea1 & ->). apply pack_u_inv in Ea1 as (Hm & a6 & Ea1 & ->). apply pack_nil_inv in Ea1 as ->.
    exists (WriteMetadata z a), (op ++ pl). split; [|split; [|split]].
    - constructor. unfold in_names in E2. cbn [existsb] in E2. rewrite orb_false_r in E2. apply orb_prop in E2 as [E2|E2]; apply text_eqb_eq in E2; subst; [left|right]; reflexivity.
    - split; [split; assumption|]. cbn. lia.
    - rewrite <- app_assoc. symmetry. eapply get_token_concat; eauto.
    - reflexivity. }
  destruct (in_names name [$"@apply"; $"@apply_actions"]) eqn:E3.
  { right. exists 4. injection H as <- <-. split; [|auto]. constructor.
    unfold in_names in E3. cbn [existsb] in E3. rewrite orb_false_r in E3. apply orb_prop in E3 as [E3|E3]; apply text_eqb_eq in E3; subst; [left|right]; reflexivity. }
  destruct (in_names name [$"@write"; $"@write_actions"]) eqn:E4.
  { right. exists 3. injection H as <- <-. split; [|auto]. constructor.
    unfold in_names in E4. cbn [existsb] in E4. rewrite orb_false_r in E4. apply orb_prop in E4 as [E4|E4]; apply text_eqb_eq in E4; subst; [left|right]; reflexivity. }
  destruct (in_names name [$"@clear"; $"@clear_actions"]) eqn:E5.
  { left. mons H. assert (st = DState (add_inst i a) None acts PhNoarg /\ r = s) as [-> ->] by (split; congruence).
    apply pack_u_inv in Ea as (_ & a1 & Ea & ->). apply pack_u_inv in Ea as (_ & a2 & Ea & ->). apply pack_x_inv in Ea as (a4 & Ea & ->). apply pack_nil_inv in Ea as ->.
    exists ClearActions, []. split; [|split; [|split]]; auto.
    - constructor. unfold in_names in E5. cbn [existsb] in E5. rewrite orb_false_r in E5. apply orb_prop in E5 as [E5|E5]; apply text_eqb_eq in E5; subst; [left|right]; reflexivity.
    - split; [exact I|]. cbn. lia. }
  destruct (text_eqb name $"@meter") eqn:E6; [|discriminate].
  left. destruct (get_token s) as [[op pl] rest] eqn:Et. mons H. assert (st = DState (add_inst i a) None acts PhNoarg /\ r = rest) as [-> ->] by (split; congruence).
  apply pack_u_inv in Ea0 as (_ & a1 & Ea0 & ->). apply pack_u_inv in Ea0 as (_ & a2 & Ea0 & ->). apply pack_u_inv in Ea0 as (Hz & a3 & Ea0 & ->). apply pack_nil_inv in Ea0 as ->.
  apply text_eqb_eq in E6. subst name. exists (Meter z), (op ++ pl). split; [constructor|split; [|split]].
  - split; [exact Hz|]. cbn. lia.
  - rewrite <- app_assoc. symmetry. eapply get_token_concat; eauto.
  - reflexivity.
Qed.
Lemma int_arg_rest s n r : int_arg s = Ok (n, r) -> exists x, s = x ++ r.
Proof.
  unfold int_arg. destruct (get_token s) as [[op pl] rest] eqn:Et. intros H. mons H. injection H as _ <-. exists (op ++ pl). rewrite <- app_assoc. symmetry. eapply get_token_concat; eauto.
Qed.
Lemma named_arg_rest l s n r : named_arg l s = Ok (n, r) -> exists x, s = x ++ r.
Proof.
  unfold named_arg. destruct (get_token s) as [[op pl] rest] eqn:Et. intros H. mons H. injection H as _ <-. exists (op ++ pl). rewrite <- app_assoc. symmetry. eapply get_token_concat; eauto.
Qed.
Ltac kept j := destruct j; unfold keeps; cbn; rewrite ?Z.lor_0_r; repeat match goal with |- _ /\ _ => split end; auto; intros K; exfalso; tauto.
Lemma entry_at u h i name s i' r : get_token u = (h, name, s) -> has_char 61 h = false -> match_token i name s = Ok (i', r) ->
  exists x, s = x ++ r /\
  ((In name fixed_names /\ keeps [name] i i' /\ i_match i' = i_match i /\ i_inst i' = i_inst i)
   \/ exists b, (exists f, (f = ct_label_short \/ In f registry) /\ fname f = name /\ (b = [] \/ exists v m, sized (Tlv f v m) /\ b = wire (Tlv f v m)))
        /\ i' = add_match i b).
Proof.
  intros Et Hh H. unfold match_token in H. destruct (assoc_t name proc_fields) as [set|] eqn:Ep.
  { mons H. injection H as <- <-. destruct (int_arg_rest _ _ _ Ea) as [x Hx]. exists x. split; auto. left. apply assoc_in in Ep.
    cbn [proc_fields In] in Ep. repeat destruct Ep as [Ep|Ep]; try contradiction; injection Ep as <- <-; (split; [cbn; tauto|kept i]). }
  destruct (assoc_t name ofpff) as [fl|] eqn:Ef.
  { injection H as <- <-. exists []. split; auto. left. apply assoc_in in Ef. cbn [ofpff In] in Ef.
    assert (K : exists f, name = fflag_name f /\ fl = flags_named [name]) by (repeat destruct Ef as [Ef|Ef]; try contradiction; injection Ef as <- <-;
      [exists SendFlowRem|exists CheckOverlap|exists ResetCounts|exists NoPktCounts|exists NoBytCounts]; split; reflexivity).
    destruct K as (f & -> & ->). split; [|split; [|destruct i; auto]].
    - unfold fixed_names. apply in_or_app. right. apply in_map. destruct f; cbn; tauto.
    - destruct i. unfold keeps. cbn -[flags_named]. repeat match goal with |- _ /\ _ => split end; auto. }
  destruct (text_eqb name $"cookie") eqn:E1.
  { apply text_eqb_eq in E1. subst name. destruct (get_token s) as [[op pl] rest] eqn:E2. mons H. destruct (split1 47 pl) as [v m]. mons H.
    exists (op ++ pl). destruct m as [mt|]; mons H; (assert (r = rest) as -> by congruence).
    - split; [rewrite <- app_assoc; symmetry; eapply get_token_concat; eauto|]. left. injection H as <-. split; [cbn; tauto|kept i].
    - split; [rewrite <- app_assoc; symmetry; eapply get_token_concat; eauto|]. left. injection H as <-. split; [cbn; tauto|kept i]. }
  destruct (text_eqb name $"out_port") eqn:E2.
  { apply text_eqb_eq in E2. subst name. mons H. injection H as <- <-. destruct (named_arg_rest _ _ _ _ Ea) as [x Hx]. exists x. split; auto. left. split; [cbn; tauto|kept i]. }
  destruct (text_eqb name $"out_group") eqn:E3.
  { apply text_eqb_eq in E3. subst name. mons H. injection H as <- <-. destruct (named_arg_rest _ _ _ _ Ea) as [x Hx]. exists x. split; auto. left. split; [cbn; tauto|kept i]. }
  mons H. destruct (Nat.eqb_spec n 0); [discriminate|]. destruct (match_at _ _ _ _ _ _ Et Hh Ea) as [Hf [x Hx]]; auto.
  assert (i' = add_match i b /\ r = skipn n (name ++ s)) as [-> ->] by (split; congruence). exists x. split; [exact Hx|]. right. exists b. auto.
Qed.

Lemma add_match_parts i b : i_match (add_match i b) = i_match i ++ b /\ i_inst (add_match i b) = i_inst i.
Proof. destruct i. auto. Qed.
Lemma add_inst_parts i b : i_match (add_inst i b) = i_match i /\ i_inst (add_inst i b) = i_inst i ++ b.
Proof. destruct i. auto. Qed.
Lemma run_sound fuel : forall st s st' j, dict_go fuel st s = Ok st' -> flushed st' = Ok j -> proper st ->
  exists ps, accepted (place_of (d_phase st)) s ps /\ i_match j = i_match (d_info st) ++ match_parts ps
    /\ i_inst j = i_inst (d_info st) ++ instr_parts (pend_of st) ps /\ keeps (names_set ps) (d_info st) j.
Proof.
  induction fuel as [|fuel IH]; intros st [|c s] st' j H Hj Hp; cbn [dict_go] in H; try discriminate;
    try (injection H as <-; exists []; split; [constructor|]; apply flushed_inv in Hj as ->; destruct (add_inst_parts (d_info st) (finish (pend_of st))) as [-> ->];
         cbn [match_parts flat_map instr_parts names_set]; rewrite app_nil_r; auto using keeps_add_inst).
  mons H. rename d into st1, t into rest. remember (c :: s) as u eqn:Eu. clear Eu c s. destruct st as [i func acts ph]. unfold dict_step in Ea.
  destruct (get_token u) as [[h name] r0] eqn:Et. mons Ea. rewrite negb_true_iff in Eb. pose proof (head_filler _ _ _ _ Et Eb) as Hh.
  pose proof (get_token_concat _ _ _ _ Et) as Hc. pose proof (token_ends _ _ _ _ Et) as He. cbn [d_phase d_info d_func d_acts] in *.
  destruct (startswith $"@" name) eqn:Es.
  - mons Ea. rename a into i1. assert (Hi : i1 = add_inst i (finish (pend_of (DState i func acts ph)))) by (apply (flushed_inv (DState i func acts ph)); exact Ea0).
    destruct (add_inst_parts i (finish (pend_of (DState i func acts ph)))) as [P1 P2]. rewrite <- Hi in P1, P2.
    assert (K1 : keeps [] i i1) by (rewrite Hi; apply keeps_add_inst).
    destruct (inst_at _ _ _ _ _ _ Ea) as [(ins & x & Hn & Hok & Hx & Est)|(t & Hn & Hx & Est)].
    + destruct (IH st1 rest st' j H Hj) as (ps & A1 & A2 & A3 & A4); [rewrite Est; reflexivity|]. rewrite Est in A1, A2, A3, A4. cbn [d_phase place_of d_info] in *.
      exists (PInstr ins :: ps). split; [|split; [|split]].
      * rewrite <- Hc, Hx. apply acc_instr; auto. rewrite <- Hx. exact He.
      * rewrite A2. destruct (add_inst_parts i1 (instr_wire ins)) as [-> _]. rewrite P1. reflexivity.
      * rewrite A3. destruct (add_inst_parts i1 (instr_wire ins)) as [_ ->]. rewrite P2. cbn [instr_parts pend_of d_func d_acts]. now rewrite <- !app_assoc.
      * change (names_set (PInstr ins :: ps)) with ([] ++ [] ++ names_set ps). eapply keeps_app; [exact K1|eapply keeps_app; [apply keeps_add_inst|exact A4]].
    + destruct (IH st1 rest st' j H Hj) as (ps & A1 & A2 & A3 & A4); [rewrite Est; destruct Hn; [left|right]; reflexivity|]. rewrite Est in A1, A2, A3, A4. cbn [d_phase place_of d_info] in *.
      exists (PActs t :: ps). split; [|split; [|split]].
      * rewrite <- Hc, Hx. apply acc_acts; auto. rewrite <- Hx. exact He.
      * rewrite A2, P1. reflexivity.
      * rewrite A3, P2. cbn [instr_parts pend_of d_func d_acts]. now rewrite <- !app_assoc.
      * change (names_set (PActs t :: ps)) with ([] ++ names_set ps). eapply keeps_app; [exact K1|exact A4].
  - destruct ph; [| |discriminate].
    + mons Ea. rename i0 into i1. assert (Est : st1 = DState i1 func acts PhMatch /\ rest = t) by (split; congruence). destruct Est as [Est ->]. clear Ea.
      destruct (entry_at _ _ _ _ _ _ _ Et Eb Ea0) as (x & Hx & Hcase).
      destruct (IH st1 t st' j H Hj) as (ps & A1 & A2 & A3 & A4); [rewrite Est; exact Hp|]. rewrite Est in A1, A2, A3, A4. cbn [d_phase place_of d_info] in *.
      destruct Hcase as [(Hn & Hk & Hm & Hin)|(b & Hf & ->)].
      * exists (PSet name :: ps). split; [|split; [|split]].
        -- rewrite <- Hc, Hx. apply acc_set; auto. rewrite <- Hx. exact He.
        -- rewrite A2, Hm. reflexivity.
        -- rewrite A3, Hin. reflexivity.
        -- change (names_set (PSet name :: ps)) with ([name] ++ names_set ps). eapply keeps_app; eauto.
      * exists (PMatch name b :: ps). destruct (add_match_parts i b) as [M1 M2]. split; [|split; [|split]].
        -- rewrite <- Hc, Hx. apply acc_match; auto. rewrite <- Hx. exact He.
        -- rewrite A2, M1. unfold match_parts. cbn [flat_map]. now rewrite <- app_assoc.
        -- rewrite A3, M2. reflexivity.
        -- change (names_set (PMatch name b :: ps)) with ([] ++ names_set ps). eapply keeps_app; [|exact A4]. apply keeps_add_match.
    + mons Ea. destruct (Nat.eqb_spec n 0) as [|Hn0]; [discriminate|]. assert (Est : st1 = DState i func (acts ++ b) PhAction /\ rest = skipn n (name ++ r0)) by (split; congruence).
      destruct Est as [Est ->]. clear Ea.
      destruct (IH st1 _ st' j H Hj) as (ps & A1 & A2 & A3 & A4); [rewrite Est; exact Hp|]. rewrite Est in A1, A2, A3, A4. cbn [d_phase place_of d_info pend_of d_func d_acts] in *.
      assert (G : exists h' name' r', get_token (name ++ r0) = (h', name', r') /\ (h' = [] \/ exists y, Forall blank y /\ h' = 61 :: y)).
      { destruct name as [|k name].
        - destruct (no_name _ _ _ Et Eb) as [->|(x & ->)]; [cbn in Ea0; injection Ea0 as _ <-; contradiction|].
          destruct (get_token ([] ++ 61 :: x)) as [[h' name'] r'] eqn:E'. exists h', name', r'. split; auto. right.
          apply token_split in E' as [E' _]. cbn [app] in E'. rewrite token_head_eq in E'. cbn in E'. exists (take_while is_space x). split; [|auto].
          apply all_space_blank. apply take_while_all.
        - exists [], (k :: name), r0. split; auto. eapply retoken; eauto. discriminate. }
      destruct G as (h' & name' & r' & Eg & Hh'). pose proof (get_token_concat _ _ _ _ Eg) as Hg. pose proof (token_ends _ _ _ _ Eg) as Heg.
      assert (Hhh : Forall filler (h ++ h') \/ stray (h ++ h')).
      { destruct Hh' as [->|(y & Hy & ->)]; [left; now rewrite app_nil_r|]. right. exists h, y. auto. }
      destruct (act_at _ _ _ _ _ _ Eg Ea0) as [[-> ->]|(fn & z & k & Hz & Ho & Hk & Hfr & Hde & Hl)].
      * exists (PStray :: ps). split; [|split; [|split]]; auto.
        -- rewrite <- Hc, <- Hg. rewrite app_assoc. apply acc_stray.
           ++ destruct Hh' as [->|(y & Hy & ->)]; [cbn in Hn0; contradiction|]. exists h, y. auto.
           ++ rewrite <- Hg, skipn_len_app in A1. exact A1.
        -- rewrite A3. cbn [instr_parts]. now rewrite app_nil_r.
      * assert (Hsp : exists x, r' = x ++ skipn n (name ++ r0)).
        { exists (firstn (n - (length h' + length name')) r'). rewrite <- Hg, app_assoc, skipn_app_ge by (rewrite app_length; lia).
          rewrite app_length. symmetry. apply firstn_skipn. }
        destruct Hsp as [x Hx]. exists (PAct fn b :: ps). split; [|split; [|split]]; auto.
        -- rewrite <- Hc, <- Hg, Hz. replace (h ++ h' ++ (fn ++ z) ++ r') with ((h ++ h') ++ fn ++ (z ++ x) ++ skipn n (name ++ r0)) by (rewrite Hx, <- !app_assoc; reflexivity).
           eapply acc_act; eauto. rewrite <- app_assoc, <- Hx. destruct z as [|o z]; [cbn [app]; destruct r' as [|c r']; [exact I|destruct Heg; auto]|]. cbn [app]. auto.
        -- rewrite A3. cbn [instr_parts]. unfold pend_of, proper in *. cbn [d_func d_acts d_phase] in *. destruct Hp as [-> | ->]; reflexivity.
Qed.
Theorem dict_sound s i : str2dict s = Ok i ->
  exists ps, accepted AtEntry s ps /\ i_match i = match_parts ps /\ i_inst i = instr_parts None ps /\ keeps (names_set ps) info0 i.
Proof.
  intros H. unfold str2dict in H. mons H. destruct a as [i1 func acts ph].
  destruct (run_sound _ _ _ _ _ Ea H eq_refl) as (ps & A1 & A2 & A3 & A4). exists ps. auto.
Qed.

(** ** The message *)
Definition block (b : bytes) : Prop :=
  exists t p, 1 <= t <= 6 /\ b = be 2 t ++ be 2 (Z.of_nat (length b)) ++ p
  /\ (t = 3 \/ t = 4 -> exists l, Forall act_item l /\ p = pad 4 ++ concat l).
Lemma block_std t p : 1 <= t <= 6 -> (t = 3 \/ t = 4 -> exists l, Forall act_item l /\ p = pad 4 ++ concat l) -> block (std_act t p).
Proof. intros Ht Hp. exists t, p. split; [exact Ht|]. split; [|exact Hp]. unfold std_act. rewrite !app_length, !be_length. reflexivity. Qed.
Definition pend_ok (pend : option (Z * bytes)) : Prop :=
  match pend with None => True | Some (t, b) => (t = 3 \/ t = 4) /\ exists l, Forall act_item l /\ b = concat l end.
Lemma finish_blocks pend : pend_ok pend -> exists bs, finish pend = concat bs /\ Forall block bs.
Proof.
  destruct pend as [[t b]|]; cbn [finish pend_ok]; [|exists []; auto]. intros [Ht (l & Hl & ->)]. exists [std_act t (pad 4 ++ concat l)].
  split; [symmetry; apply app_nil_r|]. constructor; [|constructor]. apply block_std; [lia|]. exists l. auto.
Qed.
Lemma parts_blocks w s ps : accepted w s ps -> forall pend, pend_ok pend -> exists bs, instr_parts pend ps = concat bs /\ Forall block bs.
Proof.
  induction 1 as [w|h name x r ps Hh Hn He Ha IH|h name x r ps b Hh He Hf Ha IH|w h nm x r ps i Hh Hn Hi He Ha IH|w h nm t r ps Hh Hn He Ha IH
    |h name x r ps k b Hh Hn Hk Hd Hx Ha IH|h r ps Hh Ha IH]; intros pend Hp; cbn [instr_parts].
  - now apply finish_blocks.
  - now apply IH.
  - now apply IH.
  - destruct (finish_blocks pend Hp) as (bs & -> & Hbs). destruct (IH None I) as (bs' & -> & Hbs'). exists (bs ++ instr_wire i :: bs').
    rewrite concat_app. cbn [concat]. split; [reflexivity|]. apply Forall_app; split; auto. constructor; auto.
    destruct Hn; cbn [instr_wire]; apply block_std; try lia; intros [K|K]; discriminate.
  - destruct (finish_blocks pend Hp) as (bs & -> & Hbs). destruct (IH (Some (t, []))) as (bs' & -> & Hbs').
    { split; [destruct Hn; auto|]. exists []. auto. }
    exists (bs ++ bs'). rewrite concat_app. split; [reflexivity|]. apply Forall_app; auto.
  - apply IH. destruct pend as [[t a]|]; [|exact I]. destruct Hp as [Ht (l & Hl & ->)]. split; auto. exists (l ++ [b]).
    rewrite concat_app. cbn [concat]. rewrite app_nil_r. split; auto. apply Forall_app; split; auto. constructor; [|constructor]. exists name, k. auto.
  - now apply IH.
Qed.
Lemma blocks_framed bs : Forall block bs -> Z.of_nat (length (concat bs)) <= 65535 -> Forall instr_framed bs.
Proof.
  induction 1 as [|b bs Hb Hbs IH]; intros Hl; [constructor|]. cbn [concat] in Hl. rewrite app_length in Hl. constructor; [|apply IH; lia].
  split; [lia|exact Hb].
Qed.
Lemma parts_tlvs w s ps : accepted w s ps -> exists ts, match_parts ps = flat_map wire ts /\ Forall (fun t => (tfield t = ct_label_short \/ In (tfield t) registry) /\ sized t) ts.
Proof.
  induction 1 as [w|h name x r ps Hh Hn He Ha IH|h name x r ps b Hh He Hf Ha IH|w h nm x r ps i Hh Hn Hi He Ha IH|w h nm t r ps Hh Hn He Ha IH
    |h name x r ps k b Hh Hn Hk Hd Hx Ha IH|h r ps Hh Ha IH]; try exact IH.
  - exists []. auto.
  - destruct IH as (ts & E & Hts). destruct Hf as (f & Hf & Hfn & [->|(v & m & Hs & ->)]); [exists ts; auto|].
    exists (Tlv f v m :: ts). split; [|constructor; auto]. unfold match_parts in *. cbn [flat_map]. now rewrite E.
Qed.
(** fields that no part names have the default *)
Lemma match_block_inv oxm b : match_block oxm = Ok b -> b = be 2 1 ++ be 2 (Z.of_nat (4 + length oxm)) ++ oxm ++ pad_to8 (4 + length oxm).
Proof.
  intros H. assert (Hl : Z.of_nat (4 + length oxm) <= 65535).
  { unfold match_block in H. mons H. apply pack_u_inv in Ea as (_ & a1 & Ea & ->). apply pack_u_inv in Ea as (Hl & a2 & Ea & ->).
    unfold in_bytes in Hl. change (256 ^ Z.of_nat 2) with 65536 in Hl. lia. }
  rewrite match_block_ok in H by exact Hl. congruence.
Qed.
Lemma mod_view cmd i (d := mod_default cmd) (x := view (defaults cmd) i) :
  [opt_or (i_cookie i) (opt_or (k_cookie d) 0); opt_or (i_cookie_mask i) (opt_or (k_cookie_mask d) 0);
   opt_or (i_table i) (opt_or (k_table d) 0); cmd; opt_or (i_idle i) (opt_or (k_idle d) 0);
   opt_or (i_hard i) (opt_or (k_hard d) 0); opt_or (i_priority i) (opt_or (k_priority d) 0);
   opt_or (i_buffer i) (opt_or (k_buffer d) 0); opt_or (i_out_port i) (opt_or (k_out_port d) 0);
   opt_or (i_out_group i) (opt_or (k_out_group d) 0); opt_or (i_flags i) (opt_or (k_flags d) 0)]
  = [x_cookie x; x_mask x; x_table x; cmd; x_idle x; x_hard x; x_priority x; x_buffer x; x_port x; x_group x; x_flags x].
Proof. subst d x. unfold view, defaults, deleting, mod_default. destruct ((cmd =? 3) || (cmd =? 4)); reflexivity. Qed.
Lemma view_defaulted names i d : keeps names info0 i -> x_flags d = 0 -> defaulted names d (view d i).
Proof.
  intros (A1 & A2 & A3 & A4 & A5 & A6 & A7 & A8 & A9) Hd. unfold defaulted, view. cbn [x_table x_priority x_idle x_hard x_buffer x_cookie x_mask x_port x_group x_flags].
  repeat match goal with |- _ /\ _ => split end.
  - intros H. now rewrite (A1 H).
  - intros H. now rewrite (A2 H).
  - intros H. now rewrite (A3 H).
  - intros H. now rewrite (A4 H).
  - intros H. now rewrite (A5 H).
  - intros H. destruct (A6 H) as [-> ->]. auto.
  - intros H. now rewrite (A7 H).
  - intros H. now rewrite (A8 H).
  - rewrite Hd. rewrite A9. reflexivity.
Qed.
Ltac next_field H := let H1 := fresh "Hf" in let b := fresh "b" in apply pack_u_inv in H as (H1 & b & H & ->).
Theorem mod_sound s cmd xid m : str2mod s cmd xid = Ok m -> exists ps x ts bs,
  accepted AtEntry s ps /\ in_bytes 1 cmd /\ in_bytes 4 xid /\ fixed_ok x /\ defaulted (names_set ps) (defaults cmd) x
  /\ match_parts ps = flat_map wire ts /\ Forall (fun t => (tfield t = ct_label_short \/ In (tfield t) registry) /\ sized t) ts
  /\ instr_parts None ps = concat bs /\ Forall instr_framed bs /\ Z.of_nat (length m) <= 65535
  /\ m = mod_head cmd xid (Z.of_nat (length m)) x ++ match_wire ts ++ concat bs.
Proof.
  intros H. unfold str2mod in H. mons H. rename a into i, a0 into mb. rename a1 into hd. rewrite mod_view in Ea1.
  destruct (dict_sound _ _ Ea) as (ps & A1 & A2 & A3 & A4). apply match_block_inv in Ea0.
  destruct (parts_tlvs _ _ _ A1) as (ts & T1 & T2). destruct (parts_blocks _ _ _ A1 None I) as (bs & B1 & B2).
  set (x := view (defaults cmd) i) in *.
  unfold mod_fmt in Ea1. do 15 next_field Ea1. apply pack_x_inv in Ea1 as (b14 & Ea1 & ->). apply pack_nil_inv in Ea1 as ->.
  rewrite A2, A3, T1, B1 in *. set (L := 48 + Z.of_nat (align8 (4 + length (flat_map wire ts))) + Z.of_nat (length (concat bs))) in *.
  assert (Em : m = mod_head cmd xid L x ++ match_wire ts ++ concat bs).
  { assert (E : m = (be 1 4 ++ be 1 14 ++ be 2 L ++ be 4 xid ++ be 8 (x_cookie x) ++ be 8 (x_mask x) ++ be 1 (x_table x) ++ be 1 cmd
    ++ be 2 (x_idle x) ++ be 2 (x_hard x) ++ be 2 (x_priority x) ++ be 4 (x_buffer x) ++ be 4 (x_port x) ++ be 4 (x_group x) ++ be 2 (x_flags x) ++ pad 2 ++ []) ++ mb ++ concat bs)
     by congruence.
    rewrite E, Ea0. unfold mod_head, match_wire. rewrite app_nil_r, <- !app_assoc. reflexivity. }
  assert (EL : L = Z.of_nat (length m)).
  { rewrite Em, !app_length, match_length. unfold mod_head. rewrite !app_length, !be_length. unfold L. cbn [length pad repeat]. change (length (pad 2)) with 2%nat. lia. }
  assert (HL : 0 <= L <= 65535). { match goal with K : in_bytes 2 L |- _ => unfold in_bytes in K; change (256 ^ Z.of_nat 2) with 65536 in K; lia end. }
  exists ps, x, ts, bs. rewrite <- EL. repeat match goal with |- _ /\ _ => split end; auto; try lia.
  - unfold fixed_ok. auto 12.
  - apply view_defaulted; auto. unfold defaults. destruct (deleting cmd); reflexivity.
  - apply blocks_framed; auto. unfold L in HL. lia.
Qed.
