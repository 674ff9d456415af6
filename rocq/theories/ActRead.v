(** Reading actions: str2act reads every text SpecOfp.writes_act allows. *)
From Coq Require Import Strings.Ascii.
From Verif Require Import Base PyNum Util PyLib OxmCodec OxmTables Oxm Nx Ofp4 Spec SpecOxm SpecOfp.
From Verif Require Import BaseFacts UtilFacts NumFacts OxmRead OxmPrint OxmFacts OxmMore ActBase.

(** ** one argument *)
Lemma tok_reads f u w : Forall plain u -> u <> [] ->
  (forall h r ra, (ra = true -> has_char 61 h = true) -> follow r -> get_token (h ++ u ++ r) = (h, u, r) ->
     f (h ++ u ++ r) ra = Ok (w, (length h + length u)%nat)) -> reads_arg f u w.
Proof.
  intros Hp Hn H. split.
  - intros h t Hh Ht. eexists. apply H; [congruence|now apply tail_gap_follow|].
    apply tok_plain; auto using tail_gap_follow.
  - intros a b r Ha Hb Hr. pose proof (tok_eq a b u r Ha Hb (plain_token u Hp) (plain_solid u Hp Hn) Hr) as E.
    replace (a ++ 61 :: b ++ u ++ r) with ((a ++ 61 :: b) ++ u ++ r) in * by (rewrite <- app_assoc; reflexivity).
    rewrite H; auto using eq_has. do 2 f_equal. len.
Qed.
Lemma plain_closed_quiet u : Forall plain u -> closed quiet u.
Proof. intros H. apply plain_closed; auto. exact plain_quiet. Qed.

(** a name that is never a number *)
Lemma ofpp_num_named p lo up : In (p, (lo, up)) reserved -> ofpp_num lo = Some p.
Proof.
  intros H. cbn [reserved In] in H.
  repeat (destruct H as [H|H]; [injection H as <- <- <-; vm_compute; reflexivity|]). contradiction.
Qed.
Lemma ofpp_num_literal u v : literal u v -> ofpp_num u = None.
Proof.
  intros H. destruct (literal_first u v H) as (c & r & -> & Hc). unfold ofpp_num, ofpp. cbn [fold_left snd fst].
  repeat match goal with |- context [text_eqb $?n (c :: r)] =>
    replace (text_eqb $n (c :: r)) with false by (symmetry; cbn [s2t text_eqb]; apply andb_false_iff; left; apply Z.eqb_neq; cbn; lia) end.
  reflexivity.
Qed.
Lemma reserved_tidy p lo up : In (p, (lo, up)) reserved -> Forall tidy lo /\ lo <> [].
Proof.
  intros H. cbn [reserved In] in H.
  repeat (destruct H as [H|H]; [injection H as <- <- <-; split; [|discriminate];
    repeat (apply Forall_cons; [unfold tidy, plain; cbn; lia|]); apply Forall_nil|]). contradiction.
Qed.
Lemma port_of_tidy u p : port_of u p -> Forall tidy u /\ u <> [].
Proof. intros [u' p' H|lo up p' H]; [now apply (literal_tidy _ p')|now apply (reserved_tidy p' _ up)]. Qed.
Lemma port_of_num u p : port_of u p ->
  match ofpp_num u with Some n => Ok n | None => '(n, l) <- parseInt u ;; assert! (Nat.eqb (length u) l) ;; Ok n end = Ok p.
Proof.
  intros [u' p' H|lo up p' H].
  - rewrite (ofpp_num_literal _ _ H), (literal_alone _ _ H). cbn [bind]. now rewrite Nat.eqb_refl.
  - now rewrite (ofpp_num_named _ _ _ H).
Qed.

Lemma std_pack2 t n : in_bytes 2 t -> in_bytes 2 n -> pack [sH; sH] [t; n] = Ok (be 2 t ++ be 2 n).
Proof. exact (pack2 t n). Qed.

Lemma output_arg u p w m : port_of u p -> in_bytes 4 p -> in_bytes 2 m ->
  (w = [] /\ m = 0xffff) \/ (exists w', w = $":" ++ w' /\ literal w' m) ->
  Forall plain (u ++ w) /\ u ++ w <> [] /\ reads_arg output_str2act (u ++ w) (act_wire (Output p m)).
Proof.
  intros Hu Hp Hm Hw. destruct (port_of_tidy _ _ Hu) as [Ht Hn].
  assert (Hpl : Forall tame (u ++ w)).
  { apply Forall_app. split; [now apply tidy_tame|]. destruct Hw as [[-> _]|(w' & -> & Hw')]; [constructor|].
    constructor; [exact colon_tame|]. apply tidy_tame. now apply (literal_tidy _ m). }
  assert (Hnn : u ++ w <> []) by (intros E; apply app_eq_nil in E as [E _]; congruence).
  split; [now apply tame_plain|]. split; [exact Hnn|].
  apply tok_reads; auto using tame_plain. intros h r ra _ Hr E. unfold output_str2act. rewrite E.
  rewrite (proj2 (has_char_false 47 (u ++ w))) by now apply tame_no. cbn [negb assert bind].
  assert (Hs : split_all 58 (u ++ w) = u :: match w with [] => [] | _ :: w' => [w'] end).
  { destruct Hw as [[-> _]|(w' & -> & Hw')].
    - rewrite app_nil_r. apply split_all_none. now apply tidy_no; auto.
    - cbn [s2t app]. rewrite split_all_cons by (apply tidy_no; auto). f_equal. apply split_all_none. apply tidy_no; auto.
      now apply (literal_tidy _ m). }
  rewrite Hs. cbv zeta. unfold py_nth. cbn [nth_error bind]. rewrite (port_of_num _ _ Hu). cbn [bind].
  match goal with |- context [bind ?x (fun maxLen => bind (pack _ [_; _; _; maxLen]) _)] => replace x with (Ok m : res Z) end.
  - cbn [bind]. packs. cbn [act_wire]. unfold std_act. do 2 f_equal.
  - destruct Hw as [[-> ->]|(w' & -> & Hw')]; [reflexivity|]. cbn [s2t app nth_error].
    rewrite (literal_alone _ _ Hw'). cbn [bind]. now rewrite Nat.eqb_refl.
Qed.

Lemma uint_arg t fs u n p : literal u n -> in_bytes 2 t -> pack fs [n] = Ok p -> Z.of_nat (4 + length p) <= 65535 ->
  reads_arg (uint_str2act t fs) u (std_act t p).
Proof.
  intros Hu Ht Hp Hl. destruct (literal_plain _ _ Hu) as [Hpl Hn]. apply tok_reads; auto.
  intros h r ra _ Hr E. unfold uint_str2act. rewrite E, (literal_alone _ _ Hu). cbn [bind]. rewrite Nat.eqb_refl. cbn [assert bind].
  rewrite Hp. cbn [bind]. rewrite std_pack2 by (auto; apply in_bytes_2; lia). cbn [bind]. unfold std_act.
  rewrite <- app_assoc. do 4 f_equal. f_equal. lia.
Qed.
Lemma push_arg t u n : literal u n -> in_bytes 2 t -> in_bytes 2 n ->
  reads_arg (push_str2act t) u (std_act t (be 2 n ++ pad 2)).
Proof.
  intros Hu Ht Hn. destruct (literal_plain _ _ Hu) as [Hpl H0]. apply tok_reads; auto.
  intros h r ra _ Hr E. unfold push_str2act. rewrite E, (literal_alone _ _ Hu). cbn [bind].
  packs. reflexivity.
Qed.

(** ** the table of names *)
Lemma act_names : forallb (fun p => forallb plainb (fst p) && negb (text_eqb (fst p) [])) str2act_tbl = true.
Proof. vm_compute. reflexivity. Qed.
Lemma act_name_plain n f : assoc_t n str2act_tbl = Some f -> Forall plain n /\ n <> [].
Proof.
  intros H. assert (Hi : exists g, In (n, g) str2act_tbl).
  { revert H. generalize str2act_tbl. induction l as [|[k v] l IH]; cbn; [discriminate|].
    destruct (text_eqb n k) eqn:E; [apply text_eqb_eq in E; subst; eauto|]. intros H. destruct (IH H) as [g Hg]. eauto. }
  destruct Hi as [g Hg]. pose proof (proj1 (forallb_forall _ _) act_names _ Hg) as E. cbn [fst] in E.
  apply andb_prop in E as [E1 E2]. split.
  - apply Forall_forall. intros c Hc. apply plainb_plain. now apply (proj1 (forallb_forall _ _) E1).
  - intros ->. discriminate.
Qed.
Lemma not_action n : ~ Forall plain n -> assoc_t n str2act_tbl = None.
Proof. intros H. destruct (assoc_t n str2act_tbl) eqn:E; auto. apply act_name_plain in E as [E _]. contradiction. Qed.
Lemma set_names : forallb (fun f => match assoc_t ($"set_" ++ fname f) str2act_tbl with Some _ => false | None => true end) accepted_fields = true.
Proof. vm_compute. reflexivity. Qed.
Lemma set_name f : In f accepted_fields -> assoc_t ($"set_" ++ fname f) str2act_tbl = None.
Proof. intros H. pose proof (proj1 (forallb_forall _ _) set_names _ H) as E. cbv beta in E. destruct (assoc_t _ _); [discriminate|reflexivity]. Qed.
Lemma set_plain f : In f accepted_fields -> Forall plain ($"set_" ++ fname f) /\ $"set_" ++ fname f <> [].
Proof.
  intros H. destruct (name_reg f H) as [Hp _]. split; [|discriminate].
  apply Forall_app. split; auto. repeat (apply Forall_cons; [unfold plain; cbn; lia|]). constructor.
Qed.

Lemma set_field_ok w : Z.of_nat (length (padded_act 25 w)) <= 65535 -> set_field w = Ok (padded_act 25 w).
Proof.
  intros H. unfold set_field. cbv zeta.
  assert (E : padded_act 25 w = be 2 25 ++ be 2 (Z.of_nat (align8 (length w + 4))) ++ w ++ zeros (align8 (length w + 4) - (4 + length w))).
  { unfold padded_act, std_act. cbv zeta. rewrite pad_to8_align. pose proof (align8_ge (4 + length w)).
    replace (length w + 4)%nat with (4 + length w)%nat by lia. do 2 f_equal. f_equal. rewrite app_length, zeros_length. lia. }
  rewrite E in *. rewrite std_pack2; [|unfold in_bytes; lia|].
  - cbn [bind]. now rewrite <- app_assoc.
  - apply in_bytes_2. revert H. pose proof (align8_ge (length w + 4)). len.
Qed.

Lemma item_inv t u : item t u -> exists f v m w a b, t = Tlv f v m /\ u = fname f ++ a ++ $"=" ++ b ++ w /\
  In f accepted_fields /\ writes (fkind f) w v m /\ gap_eq a /\ Forall blank b.
Proof. intros [f u' v m a b Hf Hw Ha Hb]. exists f, v, m, u', a, b. auto 10 using reg_accepted. Qed.

Lemma field_reads_eq t u h r : item t u -> Z.of_nat (length (act_wire (SetField t))) <= 65535 -> Forall filler h -> follow r ->
  str2act (h ++ ($"set_" ++ u) ++ r) = Ok (act_wire (SetField t), (length h + length ($"set_" ++ u))%nat).
Proof.
  intros Hi Hl Hh Hr. pose proof (item_reads t [] u [] Hi (Forall_nil _) I) as Ho.
  destruct (item_inv t u Hi) as (f & v & m & w & a & b & -> & -> & Hf & Hw & Ha & Hb).
  destruct (set_plain f Hf) as [Hp Hn]. unfold str2act.
  replace (h ++ ($"set_" ++ fname f ++ a ++ $"=" ++ b ++ w) ++ r) with (h ++ ($"set_" ++ fname f) ++ (a ++ 61 :: b ++ w ++ r))
    by (change $"=" with [61]; rewrite <- !app_assoc; reflexivity).
  rewrite (get_token_complete h ($"set_" ++ fname f)) by auto using filler_lead, plain_token, plain_solid, gap_eq_ends.
  cbv zeta. rewrite plain_func by auto. cbn [bind]. rewrite set_name by auto. rewrite startswith_app.
  destruct (writes_plain _ _ _ _ Hw) as [Hpw Hnw].
  rewrite (tok_eq a b w r) by auto using plain_token, plain_solid.
  rewrite (skipn_app_exact 4) by reflexivity.
  replace (fname f ++ (a ++ 61 :: b) ++ w) with ([] ++ (fname f ++ a ++ $"=" ++ b ++ w) ++ [])
    by (change $"=" with [61]; rewrite app_nil_r; cbn [app]; rewrite <- !app_assoc; reflexivity).
  rewrite Ho. cbn [bind]. cbn [act_wire] in *. rewrite set_field_ok by auto. cbn [bind]. do 2 f_equal. rewrite (app_length $"set_"). cbn [s2t length]. lia.
Qed.
Lemma bracket_not_plain o e name args : bracket o e -> ~ Forall plain (call o e name args).
Proof.
  intros Hb H. unfold call in H. apply Forall_app in H as [_ H]. inversion H as [|x l Hx _ E]. apply plain_not_opener in Hx. apply Hx. now exists e.
Qed.
Lemma call_assoc o e name args r : call o e name args ++ r = name ++ o :: args ++ [e] ++ r.
Proof. unfold call. rewrite <- app_assoc. cbn [app]. now rewrite <- app_assoc. Qed.
Lemma field_reads_call f u v m o e g t h r : In f registry -> writes (fkind f) u v m -> bracket o e -> Forall filler g -> tail_gap t ->
  Z.of_nat (length (act_wire (SetField (Tlv f v m)))) <= 65535 -> Forall filler h -> follow r ->
  str2act (h ++ call o e ($"set_" ++ fname f) (g ++ u ++ t) ++ r)
  = Ok (act_wire (SetField (Tlv f v m)), (length h + length (call o e ($"set_" ++ fname f) (g ++ u ++ t)))%nat).
Proof.
  intros Hf Hw Hb Hg Ht Hl Hh Hr. apply reg_accepted in Hf as Hf'. destruct (set_plain f Hf') as [Hp Hn].
  destruct (writes_plain _ _ _ _ Hw) as [Hpw Hnw].
  assert (Hq : closed quiet (g ++ u ++ t))
    by (apply closed_app; [|apply closed_app]; auto using quiet_closed, filler_quiets, tail_gap_filler, plain_quiets).
  assert (Hq0 : g ++ u ++ t <> []) by (intros E; apply app_eq_nil in E as [_ E]; apply app_eq_nil in E as [E _]; congruence).
  unfold str2act. rewrite tok by auto using call_token, call_solid. cbv zeta. rewrite call_func by auto. cbn [bind].
  replace (match g ++ u ++ t with [] => None | c :: a => Some (c :: a) end) with (Some (g ++ u ++ t)) by (destruct (g ++ u ++ t); congruence).
  rewrite set_name by auto. rewrite not_action by now apply bracket_not_plain.
  replace (startswith $"set_" (call o e ($"set_" ++ fname f) (g ++ u ++ t))) with true.
  2:{ symmetry. unfold call. rewrite <- app_assoc. apply startswith_app. }
  rewrite (tok g u t) by auto using plain_token, plain_solid, tail_gap_follow.
  rewrite (skipn_app_exact 4) by reflexivity.
  assert (Hi : item (Tlv f v m) (fname f ++ [] ++ $"=" ++ [] ++ u)).
  { constructor; auto. now left. }
  pose proof (item_reads _ [] _ [] Hi (Forall_nil _) I) as Ho. rewrite app_nil_r in Ho. cbn [app] in Ho. rewrite Ho. cbn [bind].
  cbn [act_wire] in *. now rewrite set_field_ok.
Qed.
