(** What an accepted action text gives: framing, type and padding of the action. *)
From Coq Require Import Strings.Ascii.
From Verif Require Import Base PyNum Util PyLib OxmCodec OxmTables Oxm Nx Ofp4 Spec SpecOxm SpecOfp.
From Verif Require Import BaseFacts UtilFacts NumFacts OxmRead OxmPrint OxmFacts OxmFrame OxmMore ActBase ActRead ActReadNx ActReadReg ActReadLearn ActPrint.

(** decompose a monadic hypothesis completely *)
Ltac mons H :=
  lazymatch type of H with
  | bind (assert ?b) _ = Ok _ =>
      let E := fresh "Eb" in destruct b eqn:E; cbn [assert bind] in H; [mons H | discriminate H]
  | bind ?r _ = Ok _ =>
      let a := fresh "a" in let E := fresh "Ea" in
      apply bind_ok in H; destruct H as [a [E H]]; cbn beta in H; mons H
  | match ?x with (_, _) => _ end = Ok _ => tryif is_var x then (destruct x; mons H) else idtac
  | Raise _ = Ok _ => discriminate H
  | Diverge = Ok _ => discriminate H
  | _ => idtac
  end.
Lemma pack_u_inv n v fs vs b : pack (FU n :: fs) (v :: vs) = Ok b -> in_bytes n v /\ exists b', pack fs vs = Ok b' /\ b = be n v ++ b'.
Proof.
  cbn [pack]. destruct (in_range n v) eqn:E; [|discriminate]. apply in_range_256 in E. intros H. split; auto. mon H. injection H as <-.
  exists a. split; [exact Ea|]. now rewrite be_bytes_spec.
Qed.
Lemma pack_x_inv n fs vs b : pack (FX n :: fs) vs = Ok b -> exists b', pack fs vs = Ok b' /\ b = pad n ++ b'.
Proof. cbn [pack]. intros H. mon H. injection H as <-. eauto. Qed.
Lemma pack_nil_inv b : pack [] [] = Ok b -> b = [].
Proof. cbn. congruence. Qed.

(** ** Standard actions *)
Lemma frame_generic t u ra b n : generic_str2act t u ra = Ok (b, n) -> act_framed (AStd t) b /\ (length b mod 8 = 0)%nat.
Proof.
  unfold generic_str2act. intros H. mons H. injection H as <- <-. apply pack_u_inv in Ea as (Ht & b' & Eb & ->).
  apply pack_u_inv in Eb as (_ & b2 & Eb & ->). apply pack_x_inv in Eb as (b3 & Eb & ->). apply pack_nil_inv in Eb as ->.
  assert (E : length (be 2 t ++ be 2 8 ++ pad 4 ++ []) = 8%nat) by len. rewrite E. split; [|reflexivity]. split; [lia|]. rewrite E. eauto.
Qed.
Lemma frame_uint t fs u ra b n : uint_str2act t fs u ra = Ok (b, n) -> act_framed (AStd t) b /\ length b = (4 + calcsize fs)%nat.
Proof.
  unfold uint_str2act. destruct (get_token u) as [[h x] r]. intros H. mons H. injection H as <- <-.
  match goal with H : pack fs _ = Ok ?v |- _ => pose proof (pack_length _ _ _ H) as Hv end.
  match goal with H : pack [sH; sH] _ = Ok _ |- _ => apply pack_u_inv in H as (Ht & b' & Ek & ->) end.
  apply pack_u_inv in Ek as (Hl & b2 & Ek & ->). apply pack_nil_inv in Ek as ->. rewrite app_nil_r in *. unfold act_framed.
  rewrite <- !app_assoc. assert (E : forall v, length (be 2 t ++ be 2 (4 + Z.of_nat (length v)) ++ v) = (4 + length v)%nat) by (intros; len).
  rewrite !E. split; [split|]; [unfold in_bytes in Hl; lia| |lia]. eexists. do 2 f_equal. f_equal. lia.
Qed.
Lemma frame_output u ra b n : output_str2act u ra = Ok (b, n) -> act_framed (AStd 0) b /\ (length b mod 8 = 0)%nat.
Proof.
  unfold output_str2act. destruct (get_token u) as [[h x] r]. intros H. mons H. injection H as <- <-.
  match goal with H : pack _ _ = Ok ?v |- _ => rename H into E end.
  repeat first [apply pack_u_inv in E as (? & ? & E & ->) | apply pack_x_inv in E as (? & E & ->) | apply pack_nil_inv in E as ->].
  unfold act_framed.
  match goal with |- context [length ?l] => assert (El : length l = 16%nat) by len end. rewrite El. split; [split|]; [lia|eauto|reflexivity].
Qed.
Lemma frame_push t u ra b n : push_str2act t u ra = Ok (b, n) -> act_framed (AStd t) b /\ (length b mod 8 = 0)%nat.
Proof.
  unfold push_str2act. destruct (get_token u) as [[h x] r]. intros H. mons H. injection H as <- <-.
  match goal with H : pack _ _ = Ok ?v |- _ => rename H into E end.
  repeat first [apply pack_u_inv in E as (? & ? & E & ->) | apply pack_x_inv in E as (? & E & ->) | apply pack_nil_inv in E as ->].
  unfold act_framed.
  match goal with |- context [length ?l] => assert (El : length l = 8%nat) by len end. rewrite El. split; [split|]; [lia|eauto|reflexivity].
Qed.

(** ** Nicira actions *)
Lemma nxast_hdr_inv sub h : nxast_hdr sub = Ok h -> in_bytes 2 sub /\ h = nx_head sub.
Proof.
  intros H. assert (Hs : in_bytes 2 sub).
  { unfold nxast_hdr in H. apply pack_u_inv in H as (_ & ? & H & _). apply pack_u_inv in H as (_ & ? & H & _).
    apply pack_u_inv in H as (_ & ? & H & _). apply pack_u_inv in H as (Hs & _). exact Hs. }
  split; auto. rewrite nxast_hdr_ok in H by auto. congruence.
Qed.
Lemma fix_len_inv sub p b : fix_act_len (nx_head sub ++ p) = Ok b -> act_framed (ANx sub) b /\ length b = (10 + length p)%nat.
Proof.
  unfold fix_act_len. intros H. mons H.
  assert (H' : b = firstn 2 (nx_head sub ++ p) ++ a ++ skipn 4 (nx_head sub ++ p)) by congruence. subst b. clear H. apply pack_u_inv in Ea as (Hl & b' & Eb & ->). apply pack_nil_inv in Eb as ->.
  rewrite app_nil_r. rewrite app_length, nx_head_length in *. unfold nx_head in *. rewrite <- ?app_assoc.
  rewrite (firstn_app_exact 2) by apply be_length.
  replace (skipn 4 (be 2 65535 ++ be 2 10 ++ be 4 8992 ++ be 2 sub ++ p)) with (be 4 8992 ++ be 2 sub ++ p)
    by (symmetry; rewrite (app_assoc (be 2 65535)); apply skipn_at; len).
  unfold act_framed.
  assert (E : length (be 2 65535 ++ be 2 (Z.of_nat (10 + length p)) ++ be 4 8992 ++ be 2 sub ++ p) = (10 + length p)%nat) by len.
  rewrite E. split; [split|]; auto; [unfold in_bytes in Hl; lia|]. eauto.
Qed.
Lemma nxast_inv r b n : nxast_str2act r = Ok (b, n) -> exists m, r = Ok (m, n) /\ fix_act_len (pad8 m) = Ok b.
Proof. unfold nxast_str2act. intros H. mons H. injection H as <- <-. eauto. Qed.
(** the action is a header with the subtype and something behind *)
Definition nx_made (sub : Z) (m : bytes) : Prop := exists p, m = nx_head sub ++ p.
Lemma frame_nx r b n sub : nxast_str2act r = Ok (b, n) -> (forall m k, r = Ok (m, k) -> nx_made sub m) ->
  act_framed (ANx sub) b /\ (length b mod 8 = 0)%nat.
Proof.
  intros H Hm. apply nxast_inv in H as (m & Er & Ef). destruct (Hm _ _ Er) as [p ->]. unfold pad8 in Ef. rewrite <- app_assoc in Ef.
  apply fix_len_inv in Ef as [Hf Hl]. split; auto. rewrite Hl, !app_length, nx_head_length, zeros_length.
  pose proof (align8_ge (10 + length p)). replace (10 + (length p + (align8 (10 + length p) - (10 + length p))))%nat with (align8 (10 + length p)) by lia.
  unfold align8. apply Nat.mod_mul. lia.
Qed.

Ltac made := lazymatch goal with
  | H : nxast_hdr _ = Ok _ |- nx_made _ _ => apply nxast_hdr_inv in H as [_ ->]; eexists; reflexivity
  end.
Lemma frame_ids u ra b n : cnt_ids_str2act u ra = Ok (b, n) -> act_framed (ANx 21) b /\ (length b mod 8 = 0)%nat.
Proof.
  intros H. apply (frame_nx _ _ _ 21 H). intros m k E. mons E. injection E as <- <-. made.
Qed.
Lemma frame_load sub u ra b n : sub = 7 \/ sub = 33 -> reg_load_str2act sub u ra = Ok (b, n) -> act_framed (ANx sub) b /\ (length b mod 8 = 0)%nat.
Proof.
  intros Hs H. apply (frame_nx _ _ _ sub H). intros m k E. destruct ra; [discriminate|]. mons E. destruct (Nat.eqb n0 0); [discriminate|]. mons E. cbv zeta in E. destruct Hs as [-> | ->]; cbn [Z.eqb Pos.eqb] in E.
  - destruct (if Z.odd _ then _ else _) as [shift nbits] in E. mons E. destruct nbits; [|discriminate]. mons E. injection E as <- <-. made.
  - mons E. injection E as <- <-. made.
Qed.
Lemma frame_move u ra b n : reg_move_str2act u ra = Ok (b, n) -> act_framed (ANx 6) b /\ (length b mod 8 = 0)%nat.
Proof.
  intros H. apply (frame_nx _ _ _ 6 H). intros m k E. destruct ra; [discriminate|]. mons E. injection E as <- <-. made.
Qed.
Lemma frame_resubmit sub u ra b n : resubmit_str2act sub u ra = Ok (b, n) -> act_framed (ANx sub) b /\ (length b mod 8 = 0)%nat.
Proof.
  intros H. apply (frame_nx _ _ _ sub H). intros m k E. destruct (get_token u) as [[h p] u1]. mons E. injection E as <- <-. made.
Qed.
Lemma frame_tunnel sub u ra b n : set_tunnel_str2act sub u ra = Ok (b, n) ->
  (act_framed (ANx sub) b \/ act_framed (ANx 9) b) /\ (length b mod 8 = 0)%nat.
Proof.
  unfold set_tunnel_str2act. destruct (get_token u) as [[h p] u1]. intros H. destruct (nxast_inv _ _ _ H) as (m & Er & _). mons Er. rename z into num.
  assert (K : act_framed (ANx (if 0xffffffff <? num then 9 else sub)) b /\ (length b mod 8 = 0)%nat).
  { apply (frame_nx _ _ _ _ H). intros m' k E. cbn [assert bind] in E. rewrite Ea in E. cbn [bind] in E. mons E. cbv zeta in E. mons E. injection E as <- <-. made. }
  destruct K as [K Hl]. split; auto. destruct (0xffffffff <? num); auto.
Qed.
Lemma frame_null sub u ra b n : null_str2act sub u ra = Ok (b, n) -> act_framed (ANx sub) b /\ (length b mod 8 = 0)%nat.
Proof.
  intros H. apply (frame_nx _ _ _ sub H). intros m k E. mons E. injection E as <- <-. apply nxast_hdr_inv in Ea as [_ ->]. exists []. now rewrite app_nil_r.
Qed.
Lemma frame_note sub u ra b n : qp_str2act sub u ra = Ok (b, n) -> act_framed (ANx sub) b.
Proof.
  unfold qp_str2act. destruct (get_token u) as [[h p] u1]. intros H. mons H. injection H as <- <-.
  match goal with H : nxast_hdr _ = Ok _ |- _ => apply nxast_hdr_inv in H as [_ ->] end.
  match goal with H : fix_act_len _ = Ok _ |- _ => now apply fix_len_inv in H as [? _] end.
Qed.
Ltac tok E := repeat (progress (mons E; match type of E with context [get_token ?x] => destruct (get_token x) as [[? ?] ?] end)); mons E.
Lemma frame_multipath u ra b n : multipath_str2act u ra = Ok (b, n) -> act_framed (ANx 10) b /\ (length b mod 8 = 0)%nat.
Proof.
  intros H. apply (frame_nx _ _ _ 10 H). intros m k E. destruct ra; [discriminate|]. mons E. tok E. injection E as <- <-. made.
Qed.
Lemma frame_bundle u ra b n : bundle_str2act u ra = Ok (b, n) -> act_framed (ANx 12) b /\ (length b mod 8 = 0)%nat.
Proof.
  intros H. apply (frame_nx _ _ _ 12 H). intros m k E. destruct ra; [discriminate|]. tok E. injection E as <- <-. made.
Qed.
Lemma frame_bundle_load u ra b n : bundle_load_str2act u ra = Ok (b, n) -> act_framed (ANx 13) b /\ (length b mod 8 = 0)%nat.
Proof.
  intros H. apply (frame_nx _ _ _ 13 H). intros m k E. destruct ra; [discriminate|]. tok E. injection E as <- <-. made.
Qed.
Lemma frame_learn u ra b n : learn_str2act u ra = Ok (b, n) -> act_framed (ANx 16) b /\ (length b mod 8 = 0)%nat.
Proof.
  intros H. apply (frame_nx _ _ _ 16 H). intros m k E. destruct ra; [discriminate|]. mons E. injection E as <- <-. made.
Qed.
Lemma frame_output_reg sub u ra b n : output_reg_str2act sub u ra = Ok (b, n) ->
  (act_framed (ANx sub) b \/ act_framed (ANx 32) b) /\ (length b mod 8 = 0)%nat.
Proof.
  unfold output_reg_str2act. destruct (get_token u) as [[h p] u1]. intros H. destruct (nxast_inv _ _ _ H) as (m & Er & _). mons Er.
  rename a into oxmid.
  assert (K : act_framed (ANx (if (4 <? length oxmid)%nat then 32 else sub)) b /\ (length b mod 8 = 0)%nat).
  { apply (frame_nx _ _ _ _ H). intros m' k E. rewrite Ea in E. cbn [bind] in E. rewrite Ea0 in E. cbn [bind] in E. tok E. cbv zeta in E. mons E.
    destruct ((if (4 <? length oxmid)%nat then 32 else sub) =? 15); mons E; injection E as <- <-; made. }
  destruct K as [K Hl]. split; auto. destruct (4 <? length oxmid)%nat; auto.
Qed.

(** ** All actions of the table *)
Lemma assoc_in {A} n (l : list (text * A)) a : assoc_t n l = Some a -> In (n, a) l.
Proof.
  induction l as [|[k v] l IH]; cbn; [discriminate|]. destruct (text_eqb n k) eqn:E; [apply text_eqb_eq in E; subst; intros [= ->]; auto|auto].
Qed.
Lemma named n k : assoc_t n named_acts = Some k -> act_named n k.
Proof. intros H. left. now apply assoc_in. Qed.
Lemma frame_table name f u ra b n : assoc_t name str2act_tbl = Some f -> f u ra = Ok (b, n) ->
  exists k, k <> AStd 25 /\ act_named name k /\ act_framed k b /\ (name = $"set_nw_ttl" \/ name = $"note" \/ (length b mod 8 = 0)%nat).
Proof.
  intros Hf H. apply assoc_in in Hf. unfold str2act_tbl, nx_str2act_tbl in Hf. cbn [app In] in Hf.
  repeat (destruct Hf as [Hf|Hf]; [injection Hf as <- <-|]); [..|contradiction].
  Ltac ft L H := let F := fresh in let M := fresh in destruct (L _ _ _ _ H) as [F M]; eexists; split; [|split; [|split; [exact F|auto]]]; [discriminate|apply named; reflexivity].
  - ft frame_output H.
  - ft (frame_generic 11) H.
  - ft (frame_generic 12) H.
  - destruct (frame_uint _ _ _ _ _ _ H) as [F M]. eexists. split; [|split; [|split; [exact F|]]]; [discriminate|apply named; reflexivity|]. do 2 right. rewrite M. reflexivity.
  - ft (frame_generic 16) H.
  - ft (frame_push 17) H.
  - ft (frame_generic 18) H.
  - ft (frame_push 19) H.
  - ft (frame_push 20) H.
  - destruct (frame_uint _ _ _ _ _ _ H) as [F M]. eexists. split; [|split; [|split; [exact F|]]]; [discriminate|apply named; reflexivity|]. do 2 right. rewrite M. reflexivity.
  - destruct (frame_uint _ _ _ _ _ _ H) as [F M]. eexists. split; [|split; [|split; [exact F|]]]; [discriminate|apply named; reflexivity|]. do 2 right. rewrite M. reflexivity.
  - destruct (frame_uint _ _ _ _ _ _ H) as [F M]. eexists. split; [|split; [|split; [exact F|]]]; [discriminate|apply named; reflexivity|]. auto.
  - ft (frame_generic 24) H.
  - ft (frame_push 26) H.
  - ft (frame_generic 27) H.
  - ft frame_ids H.
  - destruct (frame_load 7 _ _ _ _ (or_introl eq_refl) H) as [F M]. eexists. split; [|split; [|split; [exact F|auto]]]; [discriminate|apply named; reflexivity].
  - destruct (frame_load 33 _ _ _ _ (or_intror eq_refl) H) as [F M]. eexists. split; [|split; [|split; [exact F|auto]]]; [discriminate|apply named; reflexivity].
  - ft frame_move H.
  - ft (frame_resubmit 1) H.
  - ft (frame_resubmit 14) H.
  - destruct (frame_tunnel _ _ _ _ _ H) as [[F|F] M]; eexists; (split; [|split; [|split; [exact F|auto]]]); [discriminate| |discriminate|]; [apply named; reflexivity|].
    right. left. auto.
  - destruct (frame_tunnel _ _ _ _ _ H) as [[F|F] M]; eexists; (split; [|split; [|split; [exact F|auto]]]); [discriminate| |discriminate|]; apply named; reflexivity.
  - ft (frame_null 5) H.
  - apply frame_note in H. eexists. split; [|split; [|split; [exact H|auto]]]; [discriminate|apply named; reflexivity].
  - ft (frame_null 17) H.
  - ft frame_multipath H.
  - ft frame_bundle H.
  - ft frame_bundle_load H.
  - destruct (frame_output_reg _ _ _ _ _ H) as [[F|F] M]; eexists; (split; [|split; [|split; [exact F|auto]]]); [discriminate| |discriminate|]; [apply named; reflexivity|].
    right. right. left. auto.
  - destruct (frame_output_reg _ _ _ _ _ H) as [[F|F] M]; eexists; (split; [|split; [|split; [exact F|auto]]]); [discriminate| |discriminate|]; apply named; reflexivity.
  - ft frame_learn H.
Qed.
Lemma frame_set_field x b : set_field x = Ok b -> act_framed (AStd 25) b /\ (length b mod 8 = 0)%nat /\ b = padded_act 25 x.
Proof.
  intros H. pose proof H as H0. unfold set_field in H. cbv zeta in H. mons H. apply pack_u_inv in Ea as (_ & b' & Ek & ->). apply pack_u_inv in Ek as (Hl & _).
  assert (El : length (padded_act 25 x) = align8 (length x + 4)).
  { rewrite padded_act_eq, std_act_length, app_length, zeros_length. pose proof (align8_ge (4 + length x)).
    replace (length x + 4)%nat with (4 + length x)%nat by lia. lia. }
  assert (Hs : Z.of_nat (length (padded_act 25 x)) <= 65535) by (rewrite El; unfold in_bytes in Hl; lia).
  rewrite set_field_ok in H0 by exact Hs. injection H0 as <-. repeat split; auto.
  - rewrite El. rewrite padded_act_eq in *. rewrite std_act_length in El. unfold std_act. rewrite El. eauto.
  - rewrite El. unfold align8. apply Nat.mod_mul. lia.
Qed.

(** ** The first word *)
Lemma parse_func_inv s fn fa : parse_func s = Ok (fn, fa) ->
  Forall (fun c => ~ opener c) fn /\
  match fa with
  | None => s = fn
  | Some p => exists o e, bracket o e /\ (s = fn ++ o :: p ++ [e] \/ s = fn ++ o :: p)
  end.
Proof.
  intros H. destruct (parse_func_cases s) as [Hn|(name & o & e & p & Hn & Hb & [[Hp ->]|[[Hp ->]|[Hp (x & r & ->)]]])].
  - rewrite parse_func_plain in H by auto. injection H as <- <-. split; [now apply Forall_forall|auto].
  - rewrite (parse_func_group name o e p) in H by auto. injection H as <- <-. split; [now apply Forall_forall|]. exists o, e. auto.
  - destruct Hp as [Hp|Hp].
    + rewrite (parse_func_open name o e p) in H by auto. injection H as <- <-. split; [now apply Forall_forall|]. exists o, e. auto.
    + rewrite (parse_func_open name o e p) in H by auto. injection H as <- <-. split; [now apply Forall_forall|]. exists o, e. auto.
  - rewrite (parse_func_trailing name o e p x r) in H by auto. discriminate.
Qed.
Lemma named_known name k : act_named name k -> assoc_t name str2act_tbl <> None \/ startswith $"set_" name = true.
Proof.
  assert (T : forallb (fun p => match assoc_t (fst p) str2act_tbl with Some _ => true | None => false end) named_acts = true) by (vm_compute; reflexivity).
  intros [H|[[-> _]|[[-> _]|[(x & ->) _]]]].
  - pose proof (proj1 (forallb_forall _ _) T _ H) as E. cbn [fst] in E. left. destruct (assoc_t name str2act_tbl); [discriminate|discriminate].
  - left. discriminate.
  - left. discriminate.
  - right. apply startswith_app.
Qed.
Lemma token_first s h name r fn fa : get_token s = (h, name, r) -> parse_func name = Ok (fn, fa) -> first_word s fn.
Proof.
  intros Et Hf. pose proof (get_token_concat _ _ _ _ Et) as Hc. apply get_token_sound in Et as [Hl Ht]. apply parse_func_inv in Hf as [Hn Hm].
  assert (He : ends r) by (destruct Ht as [[_ ?]|[_ ->]]; auto; exact I).
  destruct fa as [p|].
  - destruct Hm as (o & e & Hb & [->| ->]).
    + exists h, ((o :: p ++ [e]) ++ r). rewrite <- app_assoc in Hc. repeat split; auto. right. right. exists e. exact Hb.
    + exists h, ((o :: p) ++ r). rewrite <- app_assoc in Hc. repeat split; auto. right. right. exists e. exact Hb.
  - subst fn. exists h, r. repeat split; auto. destruct r; [auto|]. destruct He; auto.
Qed.

Lemma before_opener p fn o r y : Forall (fun c => ~ opener c) p -> opener o -> fn ++ o :: r = p ++ y -> exists z, fn = p ++ z.
Proof.
  intros Hp Ho. revert fn. induction Hp as [|c p Hc Hp IH]; intros fn H; [now exists fn|]. destruct fn as [|x fn]; cbn [app] in H; inversion H; subst; [contradiction|].
  match goal with E : fn ++ _ = _ |- _ => apply IH in E as [z ->]; now exists z end. 
Qed.
Lemma set_no_opener : Forall (fun c => ~ opener c) $"set_".
Proof. repeat (apply Forall_cons; [intros [e He]; inversion He|]). constructor. Qed.

Lemma closed_no_open P s : closed P s -> forall fn o, s = fn ++ [o] -> Forall (fun c => ~ opener c) fn -> ~ opener o.
Proof.
  induction 1 as [P|P c s Hc Ho Hs IH|P o' e g s Hb Hg IHg Hs IHs]; intros fn o E Hf; cbn [app] in E.
  - destruct fn; discriminate.
  - destruct fn as [|x fn]; injection E as <- E; [auto|]. inversion Hf; subst. eapply IH; eauto.
  - exfalso. destruct fn as [|x fn]; cbn [app] in E; injection E as E0 E; subst; [destruct g; discriminate|]. inversion Hf; subst. apply H1. exists e. exact Hb.
Qed.
(** ** C25 *)
Theorem act_frames s b n : str2act s = Ok (b, n) ->
  exists name, first_word s name /\
    ((b = [] /\ ((forall k, ~ act_named name k) \/ no_args s name))
     \/ exists k, act_named name k /\ act_framed k b
          /\ (name = $"set_nw_ttl" \/ name = $"note" \/ (length b mod 8 = 0)%nat)
          /\ (k = AStd 25 -> b = padded_act 25 [] \/ exists t, tlv_ok t /\ b = padded_act 25 (wire t))).
Proof.
  unfold str2act. destruct (get_token s) as [[h name] arg] eqn:Et. intros H. mons H. cbv zeta in H. rename t into fname, o into farg.
  pose proof (token_first _ _ _ _ _ _ Et Ea) as Hw. exists fname. split; auto.
  pose proof (get_token_concat _ _ _ _ Et) as Hc. destruct (parse_func_inv _ _ _ Ea) as [Hn Hm].
  (* a name of the table *)
  assert (T : forall f u ra b n, assoc_t fname str2act_tbl = Some f -> f u ra = Ok (b, n) ->
    exists k, act_named fname k /\ act_framed k b /\ (fname = $"set_nw_ttl" \/ fname = $"note" \/ (length b mod 8 = 0)%nat)
      /\ (k = AStd 25 -> b = padded_act 25 [] \/ exists t, tlv_ok t /\ b = padded_act 25 (wire t))).
  { intros f u ra b' n' Hf Hb. destruct (frame_table _ _ _ _ _ _ Hf Hb) as (k & Hk & Hk1 & Hk2 & Hk3). exists k. repeat (split; auto). contradiction. }
  (* set_FIELD *)
  assert (S : forall x oxm b m, startswith $"set_" name = true -> str2oxm x false = Ok (oxm, m) -> set_field oxm = Ok b ->
    exists k, act_named fname k /\ act_framed k b /\ (fname = $"set_nw_ttl" \/ fname = $"note" \/ (length b mod 8 = 0)%nat)
      /\ (k = AStd 25 -> b = padded_act 25 [] \/ exists t, tlv_ok t /\ b = padded_act 25 (wire t))).
  { intros x oxm b' m Hs Hx Hb. exists (AStd 25). apply frame_set_field in Hb as (F & M & ->). split; [|split; [|split]]; auto.
    - right. right. right. split; auto. apply startswith_iff in Hs as [y Hy]. destruct farg as [p|].
      + destruct Hm as (o & e & Hb & Hs). assert (Ho : opener o) by (exists e; exact Hb).
        destruct Hs as [->| ->]; apply (before_opener $"set_" fname o) in Hy; auto using set_no_opener.
      + subst name. eauto.
    - intros _. apply str2oxm_one_framed in Hx as [->|(t & Ht & ->)]; eauto. }
  (* a name outside the table *)
  assert (N : assoc_t fname str2act_tbl = None -> startswith $"set_" name = false -> forall k, ~ act_named fname k).
  { intros Hf Hs k Hk. destruct (named_known _ _ Hk) as [Hx|Hx]; [contradiction|]. apply startswith_iff in Hx as [x ->].
    assert (Hs' : startswith $"set_" name = true); [|congruence].
    destruct farg as [p|]; [destruct Hm as (o & e & _ & [->| ->]); rewrite <- app_assoc|subst name]; apply startswith_app. }
  assert (Z : forall p, farg = Some p -> assoc_t name str2act_tbl = None).
  { intros p ->. destruct Hm as (o & e & Hb & Hs). apply not_action. intros Hp.
    assert (Ho : In o name) by (destruct Hs as [->| ->]; apply in_or_app; right; left; auto).
    apply (proj1 (Forall_forall _ _) Hp) in Ho. apply plain_not_opener in Ho. apply Ho. exists e. exact Hb. }
  destruct farg as [[|c p]|].
  - rewrite (Z _ eq_refl) in H. destruct (startswith $"set_" name) eqn:Es.
    + right. mons H. injection H as <- <-. tok Ea0. injection Ea0 as <- <-. eapply S; eauto.
    + left. injection H as <- <-. split; auto. right. destruct Hm as (o & e & Hb & [->| ->]).
      * exists h, o, e, (e :: arg). split; auto. split; [|eauto]. rewrite <- Hc, <- app_assoc. reflexivity.
      * exists h, o, e, arg. split; auto. split; [rewrite <- Hc, <- app_assoc; reflexivity|]. left.
        apply get_token_sound in Et as [_ [[Ht _]|[_ ?]]]; [exfalso|auto].
        refine (closed_no_open _ _ Ht fname o eq_refl Hn _). exists e. exact Hb.
  - destruct (assoc_t fname str2act_tbl) as [f|] eqn:Ef.
    + right. mons H. injection H as <- <-. eapply T; eauto.
    + rewrite (Z _ eq_refl) in H. destruct (startswith $"set_" name) eqn:Es.
      * right. mons H. injection H as <- <-. tok Ea0. injection Ea0 as <- <-. eapply S; eauto.
      * left. injection H as <- <-. split; auto.
  - subst name. destruct (assoc_t fname str2act_tbl) as [f|] eqn:Ef.
    + right. mons H. injection H as <- <-. eapply T; eauto.
    + destruct (startswith $"set_" fname) eqn:Es.
      * right. mons H. injection H as <- <-. tok Ea0. injection Ea0 as <- <-. eapply S; eauto.
      * left. injection H as <- <-. split; auto.
Qed.
