(** NAME(ARG) and NAME=ARG give the same action (C26). *)
From Coq Require Import Strings.Ascii.
From Verif Require Import Base PyNum Util PyLib OxmCodec OxmTables Oxm Nx Ofp4 Spec SpecOxm SpecOfp.
From Verif Require Import BaseFacts UtilFacts NumFacts OxmRead OxmPrint OxmFacts OxmFrame OxmMore ActBase ActRead ActReadNx ActReadReg ActReadLearn ActPrint.

(** the bytes alone *)
Definition bytes_of (r : res (bytes * nat)) : res bytes := '(b, _) <- r ;; Ok b.
(** the circumstances in which the reader of an argument is called *)
Definition arg_at (u h t : text) (ra : bool) : Prop :=
  get_token (h ++ u ++ t) = (h, u, t) /\ follow t /\ (if ra then has_char 61 h = true else tail_gap t).
Definition agrees (f : text -> bool -> res (bytes * nat)) : Prop :=
  forall u h t ra h' t' ra', arg_at u h t ra -> arg_at u h' t' ra' ->
  bytes_of (f (h ++ u ++ t) ra) = bytes_of (f (h' ++ u ++ t') ra').

Ltac same := repeat (cbn [bind assert];
  lazymatch goal with
  | |- ?a = ?a => reflexivity
  | |- bytes_of (match ?x with (_, _) => _ end) = _ => destruct x
  | |- bytes_of (bind ?r _) = _ => destruct r
  | |- bytes_of (Ok _) = _ => reflexivity
  end).
Lemma nx_bytes r r' : bytes_of r = bytes_of r' -> bytes_of (nxast_str2act r) = bytes_of (nxast_str2act r').
Proof.
  unfold bytes_of, nxast_str2act. destruct r as [[b n]| |], r' as [[b' n']| |]; cbn [bind]; intros H; try discriminate; auto.
  injection H as <-. now destruct (fix_act_len (pad8 b)).
Qed.
Lemma uint_agrees t fs : agrees (uint_str2act t fs).
Proof. intros u h t1 ra h' t' ra' (E & _) (E' & _). unfold uint_str2act. rewrite E, E'. same. Qed.
Lemma output_agrees : agrees output_str2act.
Proof. intros u h t1 ra h' t' ra' (E & _) (E' & _). unfold output_str2act. rewrite E, E'. cbv zeta. same. Qed.
Lemma push_agrees t : agrees (push_str2act t).
Proof. intros u h t1 ra h' t' ra' (E & _) (E' & _). unfold push_str2act. rewrite E, E'. same. Qed.
Lemma arg_flag u h t ra : arg_at u h t ra -> negb ra || has_char 61 h = true.
Proof. intros (_ & _ & H). destruct ra; auto. Qed.
Lemma tunnel_agrees s : agrees (set_tunnel_str2act s).
Proof.
  intros u h t1 ra h' t' ra' H H'. pose proof (arg_flag _ _ _ _ H) as F. pose proof (arg_flag _ _ _ _ H') as F'.
  destruct H as [E _], H' as [E' _]. unfold set_tunnel_str2act. apply nx_bytes. rewrite E, E', F, F'. cbn [assert bind].
  same; cbv zeta; same.
Qed.
Lemma note_agrees s : agrees (qp_str2act s).
Proof.
  intros u h t1 ra h' t' ra' H H'. pose proof (arg_flag _ _ _ _ H) as F. pose proof (arg_flag _ _ _ _ H') as F'.
  destruct H as [E _], H' as [E' _]. unfold qp_str2act. rewrite E, E', F, F'. same.
Qed.
Lemma colon_follow t : follow t -> startswith $":" t = false.
Proof.
  destruct t as [|c t]; [reflexivity|]. intros H. destruct (startswith $":" (c :: t)) eqn:E; auto. apply startswith_iff in E as [r E].
  injection E as -> E. exfalso. revert H. unfold follow, sep_char. chr_red. lia.
Qed.
Ltac port := match goal with |- bytes_of (bind ?r _) = _ => destruct r end; cbn [bind assert length Nat.eqb orb]; same.
Lemma resubmit_agrees s : agrees (resubmit_str2act s).
Proof.
  assert (K : forall u h t ra, arg_at u h t ra -> bytes_of (resubmit_str2act s (h ++ u ++ t) ra) =
    bytes_of (nxast_str2act (
      port <- (if text_eqb (upper u) $"IN_PORT" then Ok 0xfff8
               else '(port, rlen) <- parseInt u ;; assert! (Nat.eqb (length u) rlen) ;; assert! (port <? 0xff00) ;; Ok port) ;;
      hd <- nxast_hdr s ;; pl <- pack [sH; sB] [port; 255] ;; Ok (hd ++ pl, 0%nat)))).
  { intros u h t ra (E & F & H). unfold resubmit_str2act. apply nx_bytes. rewrite E. destruct ra.
    - rewrite H, colon_follow, andb_false_r by auto. port.
    - destruct (s =? NXAST_RESUBMIT_TABLE); [rewrite tok_gap by now apply tail_gap_filler|]; port. }
  intros u h t1 ra h' t' ra' H H'. now rewrite !K.
Qed.

Lemma arg_table name : In name arg_names -> exists f, assoc_t name str2act_tbl = Some f /\ agrees f.
Proof.
  unfold arg_names. cbn [In]. intros H. repeat (destruct H as [<-|H]); [..|contradiction]; eexists; (split; [reflexivity|]);
  auto using uint_agrees, output_agrees, push_agrees, tunnel_agrees, note_agrees, resubmit_agrees.
Qed.
(** str2act calls the reader of the argument *)
Lemma act_calls name f u s h r : assoc_t name str2act_tbl = Some f -> Forall plain u -> u <> [] -> one_arg name u s ->
  Forall filler h -> follow r -> exists g t ra, arg_at u g t ra /\ bytes_of (str2act (h ++ s ++ r)) = bytes_of (f (g ++ u ++ t) ra).
Proof.
  intros Hf Hu H0 Hs Hh Hr. destruct (act_name_plain _ _ Hf) as [Hn Hn0]. destruct Hs as [a b Ha Hb|o e g t Ho Hg Ht].
  - exists (a ++ 61 :: b), r, true. split.
    + split; [|split; auto using eq_has]. rewrite <- app_assoc. cbn [app]. apply tok_eq; auto using plain_token, plain_solid.
    + rewrite (act_eq name f) by auto. rewrite <- app_assoc. cbn [app]. unfold bytes_of. now destruct (f _ true) as [[w n]| |].
  - exists g, t, false. split.
    + split; [apply tok_plain; auto using tail_gap_follow|split; auto using tail_gap_follow].
    + rewrite (act_call name f); auto.
      * unfold bytes_of. now destruct (f _ false) as [[w n]| |].
      * apply closed_app; [|apply closed_app]; auto using quiet_closed, filler_quiets, tail_gap_filler, plain_quiets.
      * intros E. apply app_eq_nil in E as [_ E]. apply app_eq_nil in E as [E _]. congruence.
Qed.
Theorem style_same name u s s' h h' r r' : In name arg_names -> Forall plain u -> u <> [] -> one_arg name u s -> one_arg name u s' ->
  Forall filler h -> Forall filler h' -> follow r -> follow r' ->
  bytes_of (str2act (h ++ s ++ r)) = bytes_of (str2act (h' ++ s' ++ r')).
Proof.
  intros Hn Hu H0 Hs Hs' Hh Hh' Hr Hr'. destruct (arg_table _ Hn) as (f & Hf & Ha).
  destruct (act_calls name f u s h r) as (g & t & ra & Hg & ->); auto.
  destruct (act_calls name f u s' h' r') as (g' & t' & ra' & Hg' & ->); auto.
Qed.

(** set_FIELD *)
Lemma oxm_styles x a b u : Forall plain x -> x <> [] -> Forall plain u -> u <> [] -> gap_eq a -> Forall blank b ->
  bytes_of (str2oxm (x ++ (a ++ 61 :: b) ++ u) false) = bytes_of (str2oxm (x ++ [61] ++ u) false).
Proof.
  assert (K : forall x a b u, Forall plain x -> x <> [] -> Forall plain u -> u <> [] -> gap_eq a -> Forall blank b ->
    bytes_of (str2oxm (x ++ (a ++ 61 :: b) ++ u) false) =
    (c <- str2bin x ;; '(bin, len) <- run_s2b c (AText u) ;;
     if Nat.eqb len 0 then Ok [] else assert! (Nat.eqb len (length u)) ;; Ok bin)).
  2:{ intros. rewrite K by auto. symmetry. apply (K x [] [] u); auto. now left. }
  clear. intros x a b u Hx Hx0 Hu Hu0 Ha Hb. unfold str2oxm. destruct (x ++ (a ++ 61 :: b) ++ u) as [|c w] eqn:E.
  { apply app_eq_nil in E as [E _]. congruence. }
  rewrite <- E. assert (El : exists n, length (x ++ (a ++ 61 :: b) ++ u) = S n) by (rewrite E; cbn; eauto). destruct El as [n ->].
  cbn [str2oxm_go]. rewrite E. rewrite <- E.
  assert (E1 : get_token (x ++ (a ++ 61 :: b) ++ u) = ([], x, (a ++ 61 :: b) ++ u)).
  { apply (get_token_complete [] x); auto using plain_token, plain_solid; [left; constructor|]. rewrite <- app_assoc. cbn [app]. now apply gap_eq_ends. }
  assert (E2 : get_token ((a ++ 61 :: b) ++ u) = (a ++ 61 :: b, u, [])).
  { rewrite <- app_assoc. cbn [app]. rewrite <- (app_nil_r u) at 1. apply tok_eq; auto using plain_token, plain_solid. exact I. }
  rewrite E1, E2. rewrite eq_has. cbn [has_char negb andb assert bind]. destruct (str2bin x) as [c'| |]; [|reflexivity..]. cbn [bind].
  destruct (run_s2b c' (AText u)) as [[bin len]| |]; [|reflexivity..]. cbn [bind]. destruct (Nat.eqb len 0); [reflexivity|].
  destruct (Nat.eqb len (length u)); reflexivity.
Qed.
Lemma set_calls x u s h r : Forall plain x -> x <> [] -> assoc_t ($"set_" ++ x) str2act_tbl = None -> Forall plain u -> u <> [] ->
  one_arg ($"set_" ++ x) u s -> Forall filler h -> follow r ->
  bytes_of (str2act (h ++ s ++ r)) = ('(oxm, _) <- str2oxm (x ++ [61] ++ u) false ;; set_field oxm).
Proof.
  intros Hx Hx0 Hnt Hu Hu0 Hs Hh Hr.
  assert (Hp : Forall plain ($"set_" ++ x)).
  { apply Forall_app. split; auto. repeat (apply Forall_cons; [unfold plain; cbn; lia|]). constructor. }
  assert (Hp0 : $"set_" ++ x <> []) by discriminate.
  destruct Hs as [a b Ha Hb|o e g t Hb Hg Ht].
  - replace (h ++ (($"set_" ++ x) ++ a ++ $"=" ++ b ++ u) ++ r) with (h ++ ($"set_" ++ x) ++ (a ++ 61 :: b ++ u ++ r))
      by (change $"=" with [61]; rewrite <- !app_assoc; reflexivity).
    unfold str2act. rewrite (get_token_complete h ($"set_" ++ x)) by auto using filler_lead, plain_token, plain_solid, gap_eq_ends.
    cbv zeta. rewrite plain_func by auto. cbn [bind]. rewrite Hnt, startswith_app.
    rewrite (tok_eq a b u r) by auto using plain_token, plain_solid. rewrite (skipn_app_exact 4) by reflexivity.
    pose proof (oxm_styles x a b u Hx Hx0 Hu Hu0 Ha Hb) as K. unfold bytes_of in K.
    destruct (str2oxm (x ++ (a ++ 61 :: b) ++ u) false) as [[w n]| |], (str2oxm (x ++ [61] ++ u) false) as [[w' n']| |];
      cbn [bind] in *; try discriminate; try (injection K as <-); unfold bytes_of; cbn [bind]; auto.
    now destruct (set_field w).
  - assert (Hq : closed quiet (g ++ u ++ t))
      by (apply closed_app; [|apply closed_app]; auto using quiet_closed, filler_quiets, tail_gap_filler, plain_quiets).
    assert (Hq0 : g ++ u ++ t <> []) by (intros E; apply app_eq_nil in E as [_ E]; apply app_eq_nil in E as [E _]; congruence).
    unfold str2act. rewrite ActBase.tok by auto using call_token, call_solid. cbv zeta. rewrite call_func by auto. cbn [bind].
    replace (match g ++ u ++ t with [] => None | c :: a => Some (c :: a) end) with (Some (g ++ u ++ t)) by (destruct (g ++ u ++ t); congruence).
    rewrite Hnt. rewrite not_action by now apply bracket_not_plain.
    replace (startswith $"set_" (call o e ($"set_" ++ x) (g ++ u ++ t))) with true.
    2:{ symmetry. unfold call. rewrite <- app_assoc. apply startswith_app. }
    rewrite (ActBase.tok g u t) by auto using plain_token, plain_solid, tail_gap_follow.
    rewrite (skipn_app_exact 4) by reflexivity. change $"=" with [61]. unfold bytes_of.
    destruct (str2oxm (x ++ [61] ++ u) false) as [[w n]| |]; cbn [bind]; auto. now destruct (set_field w).
Qed.
Lemma table_named n f : assoc_t n str2act_tbl = Some f -> In n (map fst named_acts).
Proof.
  assert (T : forallb (fun p => existsb (fun q => text_eqb (fst q) (fst p)) named_acts) str2act_tbl = true) by (vm_compute; reflexivity).
  intros H. apply assoc_t_in in H. apply in_map_iff in H as (p & <- & Hp). pose proof (proj1 (forallb_forall _ _) T _ Hp) as E. cbv beta in E.
  apply existsb_exists in E as (q & Hq & E). apply text_eqb_eq in E. rewrite <- E. now apply in_map.
Qed.
Theorem set_style_same x u s s' h h' r r' : Forall plain x -> x <> [] -> ~ In ($"set_" ++ x) (map fst named_acts) ->
  Forall plain u -> u <> [] -> one_arg ($"set_" ++ x) u s -> one_arg ($"set_" ++ x) u s' ->
  Forall filler h -> Forall filler h' -> follow r -> follow r' ->
  bytes_of (str2act (h ++ s ++ r)) = bytes_of (str2act (h' ++ s' ++ r')).
Proof.
  intros. assert (E : assoc_t ($"set_" ++ x) str2act_tbl = None).
  { destruct (assoc_t ($"set_" ++ x) str2act_tbl) eqn:E; auto. apply table_named in E. contradiction. }
  rewrite !(set_calls x u) by auto. reflexivity.
Qed.
