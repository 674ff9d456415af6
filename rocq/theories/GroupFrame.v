(** The framing of what str2bucket and str2group return, for every text. *)
From Coq Require Import Strings.Ascii.
From Verif Require Import Base PyNum Util PyLib OxmCodec OxmTables Oxm Nx Ofp4 Spec SpecOxm SpecOfp.
From Verif Require Import BaseFacts UtilFacts NumFacts OxmRead OxmPrint OxmFacts OxmFrame OxmMore TermFacts OfpTerm.
From Verif Require Import ActBase ActRead ActReadNx ActReadReg ActReadLearn ActPrint ActText ActFrame FlowRead FlowMod FlowText FlowFrame GroupRead GroupText.

Definition acts_framed (b : bytes) : Prop := exists l, b = concat l /\ Forall act_item l.
Lemma acts_framed_nil : acts_framed [].
Proof. exists []. now split. Qed.
Lemma acts_framed_app a b : acts_framed a -> (b = [] \/ act_item b) -> acts_framed (a ++ b).
Proof.
  intros (l & -> & Hl) [->|Hb]; [rewrite app_nil_r; now exists l|]. exists (l ++ [b]). rewrite concat_app. cbn [concat]. rewrite app_nil_r.
  split; [reflexivity|]. apply Forall_app. auto.
Qed.
Lemma act_framed_any s b n : str2act s = Ok (b, n) -> b = [] \/ act_item b.
Proof.
  intros H. destruct (get_token s) as [[h name] r] eqn:E. destruct (act_at _ _ _ _ _ _ E H) as [[-> _]|(fn & z & k & _ & _ & Hn & Hk & Hd & _)]; [auto|]. right. exists fn, k. auto.
Qed.
Lemma bucket_go_framed fuel : forall i acts u i' acts' u', bucket_go fuel i acts u = Ok (i', acts', u') -> acts_framed acts -> acts_framed acts'.
Proof.
  induction fuel as [|f IH]; intros i acts u i' acts' u' H Ha; (destruct u as [|c u]; [cbn in H; congruence|]); [discriminate|].
  cbn [bucket_go] in H. set (U := c :: u) in *. destruct (get_token U) as [[h name] r]. destruct (negb (has_char 61 h)); [|discriminate]. cbn [assert bind] in H.
  destruct (startswith $"@" name); [congruence|]. destruct (assoc_t name bucket_fields) as [set|].
  - destruct (get_token r) as [[op pl] rest]. mons H. eauto.
  - destruct (str2act U) as [[b l]|e|] eqn:E; cbn [bind] in H; try discriminate. destruct (0 <? l)%nat; [|congruence].
    eapply IH; [exact H|]. apply acts_framed_app; auto. eapply act_framed_any; eauto.
Qed.
Lemma str2bucket_framed s t b n : str2bucket s t = Ok (b, n) -> n <> O -> bucket_framed b.
Proof.
  unfold str2bucket. intros H Hn. destruct (bucket_go _ _ _ s) as [[[i acts] rest]|e|] eqn:E; cbn [bind] in H; try discriminate.
  destruct (Nat.eqb _ 0) eqn:E0; [congruence|]. destruct (bucket_go_framed _ _ _ _ _ _ _ E acts_framed_nil) as (l & -> & Hl).
  destruct (pack _ _) as [h|e|] eqn:Ep; cbn [bind] in H; try discriminate. assert (Eb : b = h ++ concat l) by congruence. clear H.
  apply pack_u_inv in Ep as (H1 & h1 & Ep & ->). apply pack_u_inv in Ep as (H2 & h2 & Ep & ->). apply pack_u_inv in Ep as (H3 & h3 & Ep & ->).
  apply pack_u_inv in Ep as (H4 & h4 & Ep & ->). cbn [pack] in Ep. injection Ep as <-. 
  assert (L : Z.of_nat (length b) = 16 + Z.of_nat (length (concat l))) by (subst b; len).
  split; [rewrite L; unfold in_bytes in H1; cbn in H1; lia|]. exists (b_weight i), (b_watch_port i), (b_watch_group i), l. split; [|auto].
  rewrite L, Eb, <- !app_assoc. reflexivity.
Qed.
Lemma buckets_go_framed fuel : forall t u b rest, group_buckets_go fuel t u = Ok (b, rest) -> exists bs, b = concat bs /\ Forall bucket_framed bs.
Proof.
  induction fuel as [|f IH]; intros t u b rest H; (destruct u as [|c u]; [cbn in H; exists []; split; [cbn; congruence|constructor]|]); [discriminate|].
  cbn [group_buckets_go] in H. set (U := c :: u) in *. destruct (str2bucket U t) as [[x l]|e|] eqn:E; cbn [bind] in H; try discriminate.
  destruct (Nat.eqb_spec l 0) as [->|Hl]; cbn [negb] in H.
  - destruct (get_token U) as [[h name] r]. destruct (_ || _); [eauto|]. exists []. split; [cbn; congruence|constructor].
  - destruct (group_buckets_go f t (skipn l U)) as [[y rest']|e|] eqn:Er; cbn [bind] in H; try discriminate.
    destruct (IH _ _ _ _ Er) as (bs & -> & Hb). exists (x :: bs). split; [cbn; congruence|]. constructor; auto. eapply str2bucket_framed; eauto.
Qed.
Lemma index_ofpgt n t : index_of n ofpgt = Ok t -> exists g, t = gtype_id g.
Proof.
  unfold ofpgt. cbn [index_of]. intros H.
  destruct (text_eqb n $"all"); [exists GAll; cbn in *; congruence|]. destruct (text_eqb n $"select"); [exists GSelect; cbn in *; congruence|].
  destruct (text_eqb n $"indirect"); [exists GIndirect; cbn in *; congruence|]. destruct (text_eqb n $"ff"); [exists GFF; cbn in *; congruence|]. discriminate.
Qed.
Lemma head_go_type fuel : forall gid g u gid' t' u', group_head_go fuel gid (gtype_id g) u = Ok (gid', t', u') -> exists g', t' = gtype_id g'.
Proof.
  induction fuel as [|f IH]; intros gid g u gid' t' u' H; (destruct u as [|c u]; [cbn in H; exists g; congruence|]); [discriminate|].
  cbn [group_head_go] in H. set (U := c :: u) in *. destruct (get_token U) as [[h name] r]. destruct (text_eqb name $"group").
  - destruct (get_token r) as [[op pl] rest]. mon H. eauto.
  - destruct (index_of name ofpgt) as [t|e|] eqn:E; [|exists g; congruence|exists g; congruence]. apply index_ofpgt in E as [g' ->]. eauto.
Qed.
Theorem group_framed s cmd xid m : str2group s cmd xid = Ok m -> Z.of_nat (length m) <= 65535 /\
  exists t id bs, m = be 1 4 ++ be 1 15 ++ be 2 (Z.of_nat (length m)) ++ be 4 xid ++ be 2 cmd ++ be 1 (gtype_id t) ++ pad 1 ++ be 4 id ++ concat bs
  /\ Forall bucket_framed bs /\ in_bytes 4 xid /\ in_bytes 2 cmd /\ in_bytes 4 id.
Proof.
  unfold str2group. intros H. destruct (group_head_go _ _ _ s) as [[[gid t0] u]|e|] eqn:E1; cbn [bind] in H; try discriminate.
  change OFPGT_ALL with (gtype_id GAll) in E1. apply head_go_type in E1 as [t ->].
  destruct (group_buckets_go _ _ u) as [[x rest]|e|] eqn:E2; cbn [bind] in H; try discriminate. apply buckets_go_framed in E2 as (bs & -> & Hb).
  destruct (Nat.eqb (length rest) 0); [|discriminate]. cbn [assert bind] in H.
  destruct (pack _ _) as [h|e|] eqn:Ep; cbn [bind] in H; try discriminate. assert (Em : m = h ++ concat bs) by congruence. clear H. unfold group_fmt in Ep.
  apply pack_u_inv in Ep as (H1 & h1 & Ep & ->). apply pack_u_inv in Ep as (H2 & h2 & Ep & ->). apply pack_u_inv in Ep as (H3 & h3 & Ep & ->).
  apply pack_u_inv in Ep as (H4 & h4 & Ep & ->). apply pack_u_inv in Ep as (H5 & h5 & Ep & ->). apply pack_u_inv in Ep as (H6 & h6 & Ep & ->).
  change (pack [sx 1; sI] [gid]) with (b <- pack [sI] [gid] ;; Ok (zeros 1 ++ b)) in Ep. destruct (pack [sI] [gid]) as [h7|e|] eqn:E7; cbn [bind] in Ep; try discriminate. apply pack_u_inv in E7 as (H7 & h8 & E7 & ->). cbn [pack] in E7. injection E7 as <-. injection Ep as <-.
  assert (L : Z.of_nat (length m) = 16 + Z.of_nat (length (concat bs))) by (subst m; len).
  split; [rewrite L; unfold in_bytes in H3; cbn in H3; lia|]. exists t, gid, bs. split; [|auto]. rewrite L, Em, <- !app_assoc. reflexivity.
Qed.
