(** The keyword arguments recovered from a message. *)
From Coq Require Import Strings.Ascii.
From Verif Require Import Base PyNum Util PyLib OxmCodec OxmTables Oxm Nx Ofp4 Spec SpecOxm SpecOfp.
From Verif Require Import BaseFacts UtilFacts NumFacts OxmRead OxmPrint OxmFacts OxmFrame OxmMore TermFacts OfpTerm.
From Verif Require Import ActBase ActRead ActReadNx ActReadReg ActReadLearn ActPrint ActText ActFrame FlowRead FlowMod FlowText FlowFrame GroupRead GroupText GroupFrame.

Lemma mod_extra s cmd xid m : str2mod s cmd xid = Ok m ->
  mod2extra m = Ok ((if cmd =? 0 then [] else [($"command", cmd)]) ++ [($"xid", xid)]).
Proof.
  intros H. destruct (mod_sound _ _ _ _ H) as (ps & x & ts & bs & _ & H1 & H2 & H3 & _ & _ & _ & _ & _ & H4 & H5).
  destruct H3 as (? & ? & ? & ? & ? & ? & ? & ? & ? & ?). set (L := Z.of_nat (length m)) in *. assert (in_bytes 2 L) by (apply in_bytes_2; lia).
  assert (E : unpack_from [sB; sB; sH; sI; sQ; sQ; sB; sB] m 0 = Ok [4; 14; L; xid; x_cookie x; x_mask x; x_table x; cmd]).
  { clearbody L. subst m. rewrite unpack_from_ok by (unfold mod_head; len). unfold mod_head. rewrite <- !app_assoc. unpacks. reflexivity. }
  unfold mod2extra. rewrite E. reflexivity.
Qed.
Lemma mod_extra_call s cmd xid m kw : str2mod s cmd xid = Ok m -> mod2extra m = Ok kw -> forall t, str2mod_kw t kw = str2mod t cmd xid.
Proof.
  intros H K t. rewrite (mod_extra _ _ _ _ H) in K. injection K as <-. destruct (Z.eqb_spec cmd 0) as [->|]; reflexivity.
Qed.
Lemma group_extra s cmd xid m : str2group s cmd xid = Ok m -> exists id,
  unpack_from group_fmt m 0 = Ok [4; 15; Z.of_nat (length m); xid; cmd; nth 5 (unpack_raw group_fmt m) 0; id]
  /\ group2extra m = Ok ([($"xid", xid); ($"group_id", id)] ++ (if cmd =? 0 then [] else [($"command", cmd)])).
Proof.
  intros H. destruct (group_framed _ _ _ _ H) as (Hl & t & id & bs & E & _ & Hx & Hc & Hi). exists id.
  set (L := Z.of_nat (length m)) in *. assert (in_bytes 2 L) by (apply in_bytes_2; lia). assert (in_bytes 1 (gtype_id t)) by (destruct t; cbn; unfold in_bytes; cbn; lia).
  assert (U : unpack_raw group_fmt m = [4; 15; L; xid; cmd; gtype_id t; id]) by (clearbody L; subst m; unfold group_fmt; unpacks; reflexivity).
  assert (K : unpack_from group_fmt m 0 = Ok [4; 15; L; xid; cmd; gtype_id t; id]).
  { rewrite unpack_from_ok, U; [reflexivity|]. rewrite E. unfold group_fmt. len. }
  split; [now rewrite K, U|]. unfold group2extra. rewrite K. reflexivity.
Qed.
(** str2group does not take the group_id that group2extra gives *)
Lemma group_extra_call s cmd xid m kw : str2group s cmd xid = Ok m -> group2extra m = Ok kw -> forall t, str2group_kw t kw = Raise TypeError.
Proof.
  intros H K t. destruct (group_extra _ _ _ _ H) as (id & _ & E). rewrite E in K. injection K as <-. reflexivity.
Qed.
(** without it the call would be the right one *)
Lemma group_extra_fixed s cmd xid m kw : str2group s cmd xid = Ok m -> group2extra m = Ok kw ->
  forall t, str2group_kw t (filter (fun k => negb (text_eqb (fst k) $"group_id")) kw) = str2group t cmd xid.
Proof.
  intros H K t. destruct (group_extra _ _ _ _ H) as (id & _ & E). rewrite E in K. injection K as <-. destruct (Z.eqb_spec cmd 0) as [->|]; reflexivity.
Qed.
