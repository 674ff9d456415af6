(** Which settings and spellings of a flow text give the same message. *)
From Coq Require Import Strings.Ascii Permutation.
From Verif Require Import Base PyNum Util PyLib OxmCodec OxmTables Oxm Nx Ofp4 Spec SpecOxm SpecOfp.
From Verif Require Import BaseFacts UtilFacts NumFacts OxmRead OxmPrint OxmFacts OxmFrame OxmMore TermFacts OfpTerm.
From Verif Require Import ActBase ActRead ActReadNx ActReadReg ActReadLearn ActPrint ActText ActFrame FlowRead FlowMod FlowText FlowFrame.

Lemma same_mod s s' i i' cmd xid : str2dict s = Ok i -> str2dict s' = Ok i' -> i_match i = i_match i' -> i_inst i = i_inst i' ->
  (forall d, x_flags d = 0 -> view d i = view d i') -> str2mod s cmd xid = str2mod s' cmd xid.
Proof.
  intros E E' Hm Hi Hv. unfold str2mod. rewrite E, E'. cbn [bind]. rewrite Hm, Hi.
  pose proof (mod_view cmd i) as V. pose proof (mod_view cmd i') as V'. cbv zeta in V, V'.
  rewrite Hv in V by (unfold defaults; destruct (deleting cmd); reflexivity). rewrite <- V' in V. clear V'.
  set (d := mod_default cmd) in *.
  injection V as V1 V2 V3 V4 V5 V6 V7 V8 V9 V10. rewrite V1, V2, V3, V4, V5, V6, V7, V8, V9, V10. reflexivity.
Qed.
Theorem settings_same es es' is s s' cmd xid : writes_flow es is s -> writes_flow es' is s' -> Forall instr_ok is ->
  matches_of es = matches_of es' -> (forall d, x_flags d = 0 -> fixed_of d es = fixed_of d es') -> str2mod s cmd xid = str2mod s' cmd xid.
Proof.
  intros H H' Hok Hm Hf. destruct (flow_reads _ _ _ H Hok) as (i & E1 & E2 & E3 & E4). destruct (flow_reads _ _ _ H' Hok) as (i' & E1' & E2' & E3' & E4').
  apply (same_mod s s' i i'); auto; try congruence. intros d Hd. rewrite E4, E4' by auto. now apply Hf.
Qed.

(** ** The last setting counts *)
Lemma last_any {A} (l : list A) c a b : last (c :: l) a = last (c :: l) b.
Proof. revert c. induction l as [|d l IH]; intros c; [reflexivity|]. apply (IH d). Qed.
Lemma last_default {A} (l : list A) a b : last (a :: l) b = last l a.
Proof. destruct l as [|c l]; [reflexivity|]. apply (last_any l c b a). Qed.
Lemma last_step g s l d : last (values g (s :: l)) d = last (values g l) (match g s with Some n => n | None => d end).
Proof. unfold values. cbn [flat_map]. destruct (g s) as [n|]; [|reflexivity]. cbn [app]. apply last_default. Qed.
Definition flag_of (s : setting) : option Z := match s with SFlag f => Some (fflag_bit f) | _ => None end.
Definition field_is (k : fixedp -> Z) (g : setting -> option Z) : Prop :=
  forall x s, k (apply_set x s) = match g s with Some n => n | None => k x end.
Lemma fixed_last k g : field_is k g -> forall l d, k (fold_left apply_set l d) = last (values g l) (k d).
Proof.
  intros H l. induction l as [|s l IH]; intros d; [reflexivity|]. cbn [fold_left]. rewrite IH, last_step, H. reflexivity.
Qed.
Lemma fixed_flags l : forall d, x_flags (fold_left apply_set l d) = fold_left Z.lor (values flag_of l) (x_flags d).
Proof.
  induction l as [|s l IH]; intros d; [reflexivity|]. cbn [fold_left]. rewrite IH. unfold values. cbn [flat_map]. rewrite fold_left_app.
  f_equal. destruct d as [c1 c2 c3 c4 c5 c6 c7 c8 c9 c10]. destruct s as [| | | | |c [m|]| | |f]; reflexivity.
Qed.
Lemma lor_bits l : forall d i, 0 <= i -> Z.testbit (fold_left Z.lor l d) i = Z.testbit d i || existsb (fun n => Z.testbit n i) l.
Proof.
  induction l as [|n l IH]; intros d i Hi; cbn [fold_left existsb]; [now rewrite orb_false_r|]. rewrite IH, Z.lor_spec by auto. now rewrite orb_assoc.
Qed.
Lemma existsb_same {A} (f : A -> bool) l l' : (forall a, In a l <-> In a l') -> existsb f l = existsb f l'.
Proof.
  intros H. apply eq_true_iff_eq. rewrite !existsb_exists. split; intros (a & Ha & E); exists a; (split; [now apply H|exact E]).
Qed.
Lemma fixed_ext x y : x_cookie x = x_cookie y -> x_mask x = x_mask y -> x_table x = x_table y -> x_priority x = x_priority y ->
  x_idle x = x_idle y -> x_hard x = x_hard y -> x_buffer x = x_buffer y -> x_port x = x_port y -> x_group x = x_group y -> x_flags x = x_flags y -> x = y.
Proof. destruct x, y. cbn. intros. subst. reflexivity. Qed.
Theorem last_counts l l' d : (forall g e, In g getters -> last (values g l) e = last (values g l') e) ->
  (forall f, In (SFlag f) l <-> In (SFlag f) l') -> fold_left apply_set l d = fold_left apply_set l' d.
Proof.
  intros Hg Hf.
  assert (K : forall k g, field_is k g -> In g getters -> k (fold_left apply_set l d) = k (fold_left apply_set l' d)).
  { intros k g Hk Hi. rewrite !(fixed_last k g Hk). now apply Hg. }
  assert (F : forall k g, (forall x s, k (apply_set x s) = match g s with Some n => n | None => k x end) -> field_is k g) by auto.
  assert (G : forall k n g, nth_error getters n = Some g -> field_is k g -> k (fold_left apply_set l d) = k (fold_left apply_set l' d)).
  { intros k n g Hn Hk. apply (K k g Hk). eapply nth_error_In; eauto. }
  apply fixed_ext.
  - eapply (G x_cookie 7%nat); [reflexivity|]. intros [] [| | | | |? [?|]| | |]; reflexivity.
  - eapply (G x_mask 8%nat); [reflexivity|]. intros [] [| | | | |? [?|]| | |]; reflexivity.
  - eapply (G x_table 0%nat); [reflexivity|]. intros [] [| | | | |? [?|]| | |]; reflexivity.
  - eapply (G x_priority 1%nat); [reflexivity|]. intros [] [| | | | |? [?|]| | |]; reflexivity.
  - eapply (G x_idle 2%nat); [reflexivity|]. intros [] [| | | | |? [?|]| | |]; reflexivity.
  - eapply (G x_hard 3%nat); [reflexivity|]. intros [] [| | | | |? [?|]| | |]; reflexivity.
  - eapply (G x_buffer 4%nat); [reflexivity|]. intros [] [| | | | |? [?|]| | |]; reflexivity.
  - eapply (G x_port 5%nat); [reflexivity|]. intros [] [| | | | |? [?|]| | |]; reflexivity.
  - eapply (G x_group 6%nat); [reflexivity|]. intros [] [| | | | |? [?|]| | |]; reflexivity.
  - rewrite !fixed_flags. apply Z.bits_inj'. intros i Hi. rewrite !lor_bits by auto. f_equal. apply existsb_same. intros n. unfold values.
    rewrite !in_flat_map. split; intros (s & Hs & Hn); destruct s as [| | | | | | | |f]; try contradiction; exists (SFlag f); (split; [now apply Hf|exact Hn]).
Qed.
Lemma values_perm g l l' : Permutation l l' -> Permutation (values g l) (values g l').
Proof. intros H. unfold values. now apply Permutation_flat_map. Qed.
Theorem order_free l l' d : Permutation l l' -> (forall g, In g getters -> (length (values g l) <= 1)%nat) ->
  fold_left apply_set l d = fold_left apply_set l' d.
Proof.
  intros Hp H1. apply last_counts.
  - intros g e Hg. pose proof (values_perm g _ _ Hp) as P. specialize (H1 g Hg). destruct (values g l) as [|a [|b v]]; cbn in H1; [..|lia].
    + apply Permutation_nil in P. now rewrite P.
    + apply Permutation_length_1_inv in P. now rewrite P.
  - intros f. split; apply Permutation_in; auto using Permutation_sym.
Qed.

(** ** Flags without a name are lost *)
Definition with_flags (x : fixedp) (f : Z) : fixedp :=
  Fixed (x_cookie x) (x_mask x) (x_table x) (x_priority x) (x_idle x) (x_hard x) (x_buffer x) (x_port x) (x_group x) f.
Lemma flags_named_part f g : Z.land (Z.land f 31) (fflag_bit g) = Z.land f (fflag_bit g).
Proof. rewrite <- Z.land_assoc. f_equal. destruct g; reflexivity. Qed.
Lemma named_texts d x : fixed_texts d (with_flags x (Z.land (x_flags x) 31)) = fixed_texts d x.
Proof.
  unfold fixed_texts. cbn [with_flags x_mask x_cookie x_table x_priority x_buffer x_port x_group x_idle x_hard x_flags]. do 8 f_equal.
  apply flat_map_ext. intros f. now rewrite flags_named_part.
Qed.
Lemma land31 f : in_bytes 2 f -> 0 <= Z.land f 31 < 32.
Proof. intros H. change 31 with (Z.ones 5). rewrite Z.land_ones by lia. apply Z.mod_pos_bound. reflexivity. Qed.
Lemma flow_flags_length cmd xid x ts is f : length (flow_wire cmd xid (with_flags x f) ts is) = length (flow_wire cmd xid x ts is).
Proof. now rewrite !flow_length. Qed.
Lemma good_flags cmd xid x ts is : good_flow cmd xid x ts is -> good_flow cmd xid (with_flags x (Z.land (x_flags x) 31)) ts is.
Proof.
  intros ((Hc & Hx & Hf & Hi & Hl) & Hg & Hp & Hip). split; [|auto]. split; [auto|]. split; [auto|]. split; [|split; [auto|now rewrite flow_flags_length]].
  unfold fixed_ok in *. cbn [with_flags x_mask x_cookie x_table x_priority x_buffer x_port x_group x_idle x_hard x_flags].
  destruct Hf as (? & ? & ? & ? & ? & ? & ? & ? & ? & H10). repeat match goal with |- _ /\ _ => split end; auto.
  apply land31 in H10. unfold in_bytes. cbn. lia.
Qed.
(** the text of any rule gives the rule with the named flags only *)
Theorem flags_lost cmd xid x ts is : good_flow cmd xid x ts is ->
  str2mod (flow_text cmd x ts is) cmd xid = Ok (flow_wire cmd xid (with_flags x (Z.land (x_flags x) 31)) ts is).
Proof.
  intros H. pose proof (good_flags _ _ _ _ _ H) as H'. rewrite <- (flow_text_encodes _ _ _ _ _ H').
  - unfold flow_text. now rewrite named_texts.
  - apply land31. apply H.
Qed.
Lemma app_inj_len {A} (a b x y : list A) : length a = length b -> a ++ x = b ++ y -> a = b /\ x = y.
Proof.
  revert b. induction a as [|c a IH]; intros [|d b] Hl E; try discriminate; auto. cbn in *. injection Hl as Hl. injection E as <- E.
  destruct (IH b Hl E) as [-> ->]. auto.
Qed.
Lemma be_inj n v w : in_bytes n v -> in_bytes n w -> be n v = be n w -> v = w.
Proof.
  intros Hv Hw E. apply (f_equal num_be) in E. rewrite !num_be_be in E. unfold in_bytes in *. rewrite !Z.mod_small in E by lia. exact E.
Qed.
Lemma flags_differ cmd xid x ts is f : in_bytes 2 f -> in_bytes 2 (x_flags x) -> flow_wire cmd xid (with_flags x f) ts is = flow_wire cmd xid x ts is -> f = x_flags x.
Proof.
  intros Hf Hx E. unfold flow_wire in E. cbn [with_flags x_mask x_cookie x_table x_priority x_buffer x_port x_group x_idle x_hard x_flags] in E.
  repeat apply app_inv_head in E. apply app_inj_len in E as [E _]; [|now rewrite !be_length]. eapply be_inj; eauto.
Qed.
