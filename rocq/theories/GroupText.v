(** Printing groups, and reading what was printed. *)
From Coq Require Import Strings.Ascii.
From Verif Require Import Base PyNum Util PyLib OxmCodec OxmTables Oxm Nx Ofp4 Spec SpecOxm SpecOfp.
From Verif Require Import BaseFacts UtilFacts NumFacts OxmRead OxmPrint OxmFacts OxmFrame OxmMore TermFacts OfpTerm.
From Verif Require Import ActBase ActRead ActReadNx ActReadReg ActReadLearn ActPrint ActText ActFrame FlowRead FlowMod FlowText FlowFrame GroupRead.

(** ** The printed text is a written text *)
Definition printed_bitems (t : gtype) (b : bucket) : list (bitem * text) :=
  match t with GSelect => if bk_weight b =? 1 then [] else [(BSet (BWeight (bk_weight b)), $"weight=" ++ dec (bk_weight b))] | _ => [] end
  ++ (if bk_port b =? 0xffffffff then [] else [(BSet (BPort (bk_port b)), $"watch_port=" ++ dec (bk_port b))])
  ++ (if bk_group b =? 0xffffffff then [] else [(BSet (BGroup (bk_group b)), $"watch_group=" ++ dec (bk_group b))])
  ++ map (fun a => (BAct a, act_text a)) (bk_acts b).
Lemma printed_bitems_texts t b : map snd (printed_bitems t b) = bucket_texts t b.
Proof.
  unfold printed_bitems, bucket_texts, unless. rewrite !map_app, map_map. cbn [snd].
  f_equal; [destruct t, (bk_weight b =? 1); reflexivity|]. f_equal; [destruct (_ =? _); reflexivity|]. f_equal. destruct (_ =? _); reflexivity.
Qed.
Lemma printed_bitems_written t b : bucket_ok b -> bucket_printable t b -> Forall (fun p => writes_bitem (fst p) (snd p)) (printed_bitems t b).
Proof.
  intros (Hw & Hp & Hg & Ha & _) (_ & Hn). unfold printed_bitems. apply Forall_app; split.
  { destruct t; try constructor. destruct (_ =? _); [constructor|one_set]. eapply wb_weight; [apply dec_literal|apply (assigned_plain $"weight")]. }
  apply Forall_app; split. { destruct (_ =? _); [constructor|one_set]. eapply wb_port; [apply dec_literal|apply (assigned_plain $"watch_port")]. }
  apply Forall_app; split. { destruct (_ =? _); [constructor|one_set]. eapply wb_group; [apply dec_literal|apply (assigned_plain $"watch_group")]. }
  apply Forall_map. cbn [fst snd]. eapply Forall_impl; [|apply (Forall_and Ha Hn)]. intros a H. constructor. now apply text_written.
Qed.
Lemma bacts_added l b : fold_left apply_bitem (map BAct l) b = Bucket (bk_weight b) (bk_port b) (bk_group b) (bk_acts b ++ l).
Proof.
  revert b. induction l as [|a l IH]; intros b; cbn [map fold_left]; [destruct b; cbn; now rewrite app_nil_r|].
  rewrite IH. cbn [apply_bitem bk_weight bk_port bk_group bk_acts]. now rewrite <- app_assoc.
Qed.
Lemma printed_bucket t b : bucket_printable t b -> bucket_of t (map fst (printed_bitems t b)) = b.
Proof.
  intros [Hw _]. destruct b as [w p g l]. cbn [bk_weight] in Hw. unfold bucket_of, printed_bitems. cbn [bk_weight bk_port bk_group bk_acts]. rewrite !map_app, !fold_left_app, map_map. cbn [fst].
  match goal with |- context [?F] => match F with fold_left apply_bitem (map fst (match t with _ => _ end)) _ =>
    replace F with (Bucket w 0xffffffff 0xffffffff []) by (destruct t; try (rewrite Hw by discriminate; reflexivity); destruct (Z.eqb_spec w 1) as [->|]; reflexivity) end end.
  destruct (Z.eqb_spec p 0xffffffff) as [->|]; destruct (Z.eqb_spec g 0xffffffff) as [->|]; cbn [map fst fold_left apply_bitem apply_bset]; change (fun x => BAct x) with BAct; now rewrite bacts_added.
Qed.
Lemma bitems_written ps : Forall (fun p => writes_bitem (fst p) (snd p)) ps -> writes_bitems (map fst ps) (tailed (map snd ps)).
Proof.
  induction 1 as [|[i u] ps H _ IH]; cbn [map fst snd]; [constructor|]. cbn [tailed flat_map]. rewrite <- app_assoc. apply (wbi_cons i (map fst ps) $"," u); auto using comma_gap.
Qed.
Definition printed_buckets (t : gtype) (bs : list bucket) : list (list bitem) := map (fun b => map fst (printed_bitems t b)) bs.
Lemma buckets_written t bs : Forall (good_bucket t) bs -> writes_buckets (printed_buckets t bs) (tailed (buckets_texts t bs)).
Proof.
  induction 1 as [|b bs (Ho & Hp & Hn) _ IH]; [constructor|]. cbn [printed_buckets map buckets_texts flat_map].
  unfold tailed. rewrite !flat_map_app. fold (tailed (bucket_texts t b)). fold (buckets_texts t bs). fold (tailed (buckets_texts t bs)).
  cbn [flat_map app]. change (writes_buckets (map fst (printed_bitems t b) :: printed_buckets t bs) (($"," ++ $"@bucket" ++ tailed (bucket_texts t b)) ++ tailed (buckets_texts t bs))).
  rewrite <- !app_assoc. apply wbs_cons; auto using comma_gap.
  - intros E. apply Hn. rewrite <- printed_bitems_texts. apply map_eq_nil in E. now rewrite E.
  - rewrite <- printed_bitems_texts. apply bitems_written. now apply printed_bitems_written.
Qed.
Definition printed_heads (t : gtype) (id : Z) : list ghead := (if id =? 0xffffffff then [] else [HGroup id]) ++ [HType t].
Lemma group_text_written t id bs : Forall (good_bucket t) bs -> writes_group (printed_heads t id) (printed_buckets t bs) (group_text t id bs).
Proof.
  intros Hb. pose proof (buckets_written t bs Hb) as Hw. unfold group_text, group_id_texts, printed_heads.
  assert (Hg : forall u, writes_ghead (HGroup id) u -> writes_group ([HGroup id] ++ [HType t]) (printed_buckets t bs) (commas ([u] ++ [gtype_name t] ++ buckets_texts t bs))).
  { intros u Hu. cbn [app]. rewrite commas_tailed. unfold tailed. cbn [flat_map]. fold (tailed (buckets_texts t bs)). rewrite <- app_assoc.
    apply (wgr_head (HGroup id) [HType t] (printed_buckets t bs) []); [constructor|exact Hu|]. apply (wgt_head (HType t)); [apply comma_gap|constructor|now constructor]. }
  destruct (Z.eqb_spec id 0xfffffffc) as [->|]; [|destruct (Z.eqb_spec id 0xffffffff) as [->|]].
  - apply Hg. apply wg_all. apply (assigned_plain $"group").
  - cbn [app]. rewrite commas_tailed. apply (wgr_head (HType t) [] (printed_buckets t bs) []); [constructor|constructor|now constructor].
  - apply Hg. eapply wg_id; [apply dec_literal|apply (assigned_plain $"group")].
Qed.
Lemma printed_heads_parts t id : fold_left apply_ghead (printed_heads t id) (0xffffffff, GAll) = (id, t).
Proof. unfold printed_heads. destruct (Z.eqb_spec id 0xffffffff) as [->|]; reflexivity. Qed.
Lemma printed_buckets_parts t bs : Forall (good_bucket t) bs -> map (bucket_of t) (printed_buckets t bs) = bs.
Proof. induction 1 as [|b bs (_ & Hp & _) _ IH]; [reflexivity|]. cbn [printed_buckets map]. unfold printed_buckets in IH. now rewrite printed_bucket, IH. Qed.
Lemma printed_buckets_ok t bs : Forall (good_bucket t) bs -> Forall (Forall bitem_ok) (printed_buckets t bs).
Proof.
  intros H. apply Forall_map. eapply Forall_impl; [|exact H]. intros b ((_ & _ & _ & Ha & _) & _ & _). apply Forall_map. unfold printed_bitems.
  assert (S : forall (c : bool) s u, Forall (fun x => bitem_ok (fst x)) (if c then [] else [(BSet s, u : text)])) by (intros [|] s u; repeat constructor).
  apply Forall_app; split; [destruct t; auto|]. apply Forall_app; split; auto. apply Forall_app; split; auto. apply Forall_map. exact Ha.
Qed.
Theorem group_text_encodes cmd xid t id bs : good_group cmd xid t id bs -> str2group (group_text t id bs) cmd xid = Ok (group_wire cmd xid t id bs).
Proof.
  intros [Ho Hb]. pose proof (group_encodes _ _ _ cmd xid (group_text_written t id bs Hb)) as K. rewrite printed_heads_parts in K. cbn [fst snd] in K.
  rewrite printed_buckets_parts in K by auto. apply K; auto. now apply printed_buckets_ok.
Qed.

(** ** Printing *)
Lemma bucket_wire_length b : length (bucket_wire b) = (16 + length (acts_wire (bk_acts b)))%nat.
Proof. unfold bucket_wire. len. Qed.
Lemma bucket_good_acts t b : bucket_ok b -> bucket_printable t b -> Forall good_act (bk_acts b).
Proof. intros (_ & _ & _ & Ha & _) (_ & Hn). apply (Forall_and Ha Hn). Qed.
Lemma bucket_texts_nonnil t b : bucket_ok b -> bucket_printable t b -> Forall (fun t => t <> []) (bucket_texts t b).
Proof.
  intros Ho Hp. unfold bucket_texts, unless. assert (S : forall (c : bool) u, u <> [] -> Forall (fun t : text => t <> []) (if c then [] else [u])) by (intros [|] u; auto).
  apply Forall_app; split; [destruct t; auto; apply S; discriminate|]. apply Forall_app; split; [apply S; discriminate|]. apply Forall_app; split; [apply S; discriminate|].
  apply Forall_map. eapply Forall_impl; [|apply (bucket_good_acts t b Ho Hp)]. apply act_text_nonnil.
Qed.
Lemma bucket_prints t b : bucket_ok b -> bucket_printable t b -> bucket2str (bucket_wire b) (gtype_id t) = Ok (commas (bucket_texts t b)).
Proof.
  intros Ho Hp. pose proof (bucket_good_acts t b Ho Hp) as Hg. destruct Ho as (Hw & Hpo & Hgr & Ha & Hl). pose proof (bucket_wire_length b) as BL. rewrite BL in Hl.
  set (L := Z.of_nat (16 + length (acts_wire (bk_acts b)))). assert (in_bytes 2 L) by (apply in_bytes_2; unfold L; lia).
  assert (E : unpack_from [sH; sH; sI; sI; sx 4] (bucket_wire b) 0 = Ok [L; bk_weight b; bk_port b; bk_group b]).
  { rewrite unpack_from_ok; [|rewrite BL; cbn; lia]. unfold bucket_wire. fold L. clearbody L. unpacks. reflexivity. }
  unfold bucket2str. rewrite E. cbn [bind]. unfold L at 1. rewrite Nat2Z.id.
  assert (S : slice 16 (16 + length (acts_wire (bk_acts b))) (bucket_wire b) = acts_wire (bk_acts b)).
  { unfold bucket_wire. fold L. match goal with |- slice _ _ ?m = _ => replace m with ((be 2 L ++ be 2 (bk_weight b) ++ be 4 (bk_port b) ++ be 4 (bk_group b) ++ pad 4) ++ acts_wire (bk_acts b)) by (rewrite <- !app_assoc; reflexivity) end.
    apply slice_end; [len|lia]. }
  rewrite S, act2str_list by auto. cbn [bind]. rewrite join_commas. f_equal. unfold bucket_texts, unless, acts_text.
  rewrite !fmt_d_dec.
  transitivity (commas (((if (gtype_id t =? 1) && negb (bk_weight b =? 1) then [$"weight=" ++ dec (bk_weight b)] else [])
    ++ (if negb (bk_port b =? 0xffffffff) then [$"watch_port=" ++ dec (bk_port b)] else []) ++ (if negb (bk_group b =? 0xffffffff) then [$"watch_group=" ++ dec (bk_group b)] else []))
    ++ opt_tok (commas (map act_text (bk_acts b))) ++ [])). { rewrite <- !app_assoc, app_nil_r. reflexivity. }
  rewrite commas_flat by (apply Forall_map; eapply Forall_impl; [|exact Hg]; apply act_text_nonnil). rewrite app_nil_r, <- !app_assoc. f_equal.
  f_equal; [destruct t; try reflexivity; cbn [gtype_id Z.eqb Pos.eqb andb]; destruct (bk_weight b =? 1); reflexivity|]. f_equal; [destruct (_ =? _); reflexivity|]. f_equal. destruct (_ =? _); reflexivity.
Qed.
Lemma buckets_step min f t b bs : bucket_ok b -> bucket_printable t b -> (min <= length (buckets_wire (b :: bs)))%nat ->
  buckets2str_go min (S f) (gtype_id t) (buckets_wire (b :: bs))
  = (r <- buckets2str_go min f (gtype_id t) (buckets_wire bs) ;; Ok ($"@bucket" :: commas (bucket_texts t b) :: r)).
Proof.
  intros Ho Hp Hm. cbn [buckets2str_go]. rewrite (proj2 (Nat.ltb_ge _ _) Hm). cbn [buckets_wire flat_map]. fold (buckets_wire bs).
  pose proof (bucket_wire_length b) as BL. pose proof Ho as (Hw & Hpo & Hgr & Ha & Hl). assert (in_bytes 2 (Z.of_nat (length (bucket_wire b)))) by (apply in_bytes_2; lia).
  assert (E : unpack_from [sH] (bucket_wire b ++ buckets_wire bs) 0 = Ok [Z.of_nat (length (bucket_wire b))]).
  { rewrite unpack_from_ok; [|rewrite app_length, BL; cbn; lia]. rewrite BL in *. unfold bucket_wire. set (L := Z.of_nat _) in *. clearbody L. rewrite <- !app_assoc. unpacks. reflexivity. }
  rewrite E. cbn [bind nth]. rewrite Nat2Z.id, firstn_len_app, skipn_len_app, bucket_prints by auto. reflexivity.
Qed.
Lemma buckets_print16 t bs : Forall bucket_ok bs -> Forall (bucket_printable t) bs -> forall fuel, (length (buckets_wire bs) <= fuel)%nat ->
  buckets2str_go 16 fuel (gtype_id t) (buckets_wire bs) = Ok (shown_texts t bs).
Proof.
  induction 1 as [|b bs Ho _ IH]; intros Hp fuel Hf; [destruct fuel; reflexivity|]. inversion Hp; subst.
  assert (L : length (buckets_wire (b :: bs)) = (length (bucket_wire b) + length (buckets_wire bs))%nat) by (cbn [buckets_wire flat_map]; apply app_length).
  pose proof (bucket_wire_length b). destruct fuel as [|f]; [lia|]. rewrite buckets_step by (auto; lia). rewrite IH by (auto; lia). reflexivity.
Qed.
Lemma buckets_print17 t bs : Forall bucket_ok bs -> Forall (bucket_printable t) bs -> forall fuel, (length (buckets_wire bs) <= fuel)%nat ->
  buckets2str_go 17 fuel (gtype_id t) (buckets_wire bs) = Ok (shown_texts t (shown bs)).
Proof.
  induction 1 as [|b bs Ho Hr IH]; intros Hp fuel Hf; [destruct fuel; reflexivity|]. inversion Hp; subst.
  assert (L : length (buckets_wire (b :: bs)) = (length (bucket_wire b) + length (buckets_wire bs))%nat) by (cbn [buckets_wire flat_map]; apply app_length).
  pose proof (bucket_wire_length b) as BL. destruct fuel as [|f]; [lia|].
  destruct bs as [|b' bs].
  - cbn [shown]. destruct (bk_acts b) as [|a l] eqn:Ea.
    + cbn [buckets2str_go]. replace (length (buckets_wire [b]) <? 17)%nat with true; [reflexivity|]. symmetry. apply Nat.ltb_lt. rewrite L, BL. cbn. lia.
    + rewrite buckets_step; auto.
      * destruct f; reflexivity.
      * rewrite L, BL. cbn [acts_wire flat_map]. rewrite app_length. pose proof (act_nonnil a). destruct (act_wire a); [congruence|cbn; lia].
  - inversion Hr; subst. rewrite buckets_step; auto.
    + rewrite IH by (auto; lia). reflexivity.
    + rewrite L, BL. cbn [buckets_wire flat_map]. rewrite app_length, bucket_wire_length. lia.
Qed.
Lemma buckets_commas t x bs : Forall (good_bucket t) bs -> commas (x ++ shown_texts t bs) = commas (x ++ buckets_texts t bs).
Proof.
  intros H. revert x. induction H as [|b bs (Ho & Hp & Hn) _ IH]; intros x; [reflexivity|]. cbn [shown_texts buckets_texts flat_map]. fold (shown_texts t bs). fold (buckets_texts t bs).
  assert (E : [$"@bucket"; commas (bucket_texts t b)] ++ shown_texts t bs = [$"@bucket"] ++ opt_tok (commas (bucket_texts t b)) ++ shown_texts t bs).
  { rewrite opt_tok_commas by now apply bucket_texts_nonnil. destruct (bucket_texts t b); [congruence|reflexivity]. }
  rewrite E. rewrite (app_assoc x), commas_flat by now apply bucket_texts_nonnil. rewrite app_assoc, IH. now rewrite <- !app_assoc.
Qed.
Theorem group_prints cmd xid t id bs : group_ok cmd xid t id bs -> Forall (bucket_printable t) bs ->
  group2str (group_wire cmd xid t id bs) = Ok (commas (group_id_texts id ++ [gtype_name t] ++ shown_texts t (shown bs))).
Proof.
  intros (Hc & Hx & Hd & Hb & Hl) Hp. pose proof (group_length cmd xid t id bs) as GL. rewrite GL in Hl.
  set (L := Z.of_nat (16 + length (buckets_wire bs))). assert (in_bytes 2 L) by (apply in_bytes_2; unfold L; lia).
  assert (in_bytes 1 (gtype_id t)) by (destruct t; cbn; unfold in_bytes; cbn; lia).
  assert (E : unpack_from group_fmt (group_wire cmd xid t id bs) 0 = Ok [4; 15; L; xid; cmd; gtype_id t; id]).
  { rewrite unpack_from_ok; [|rewrite GL; cbn; lia]. unfold group_wire, group_fmt. fold L. clearbody L. unpacks. reflexivity. }
  unfold group2str. rewrite E. cbn [bind]. assert (T : py_nth ofpgt (Z.to_nat (gtype_id t)) = Ok (gtype_name t)) by (destruct t; reflexivity). rewrite T. cbn [bind].
  assert (S : skipn 16 (group_wire cmd xid t id bs) = buckets_wire bs).
  { unfold group_wire. fold L. clearbody L. match goal with |- skipn _ ?m = _ => replace m with ((be 1 4 ++ be 1 15 ++ be 2 L ++ be 4 xid ++ be 2 cmd ++ be 1 (gtype_id t) ++ pad 1 ++ be 4 id) ++ buckets_wire bs) by (rewrite <- !app_assoc; reflexivity) end.
    apply skipn_at. len. }
  rewrite S, buckets_print17 by (auto; lia). cbn [bind]. rewrite join_commas, fmt_d_dec. reflexivity.
Qed.
(** no bucket is lost when the last one has actions *)
Lemma shown_all bs : acts_last bs -> shown bs = bs.
Proof.
  intros [->|(bs' & b & -> & Hb)]; [reflexivity|]. induction bs' as [|c bs' IH]; cbn [app]; [cbn; destruct (bk_acts b); congruence|].
  rewrite <- IH at 2. destruct bs'; reflexivity.
Qed.
Lemma shown_drops bs b : bk_acts b = [] -> shown (bs ++ [b]) = bs.
Proof.
  intros Hb. induction bs as [|c bs IH]; cbn [app]; [cbn; now rewrite Hb|].
  rewrite <- IH at 2. destruct bs; reflexivity.
Qed.
Theorem good_group_prints cmd xid t id bs : good_group cmd xid t id bs -> acts_last bs -> group2str (group_wire cmd xid t id bs) = Ok (group_text t id bs).
Proof.
  intros [Ho Hg] Hl. rewrite group_prints; [|exact Ho|eapply Forall_impl; [|exact Hg]; intros b Hb; apply Hb].
  rewrite shown_all by auto. unfold group_text. f_equal. rewrite app_assoc, buckets_commas by auto. now rewrite <- app_assoc.
Qed.
