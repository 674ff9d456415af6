(** Lists of field names, for all texts and all bytes. *)
From Coq Require Import Strings.Ascii.
From Verif Require Import Base PyNum Util PyLib OxmCodec OxmTables Oxm Spec SpecOxm SpecText SpecActText SpecShow SpecIds.
From Verif Require Import BaseFacts UtilFacts NumFacts PyLibFacts OxmRead OxmPrint OxmFacts OxmFrame OxmMore TermFacts GramLib OxmGram GramTok GramField ShowLib.

(** ** reading *)
Lemma next_nonnil s h p r : next s h p r -> s <> [] -> (length r < length s)%nat.
Proof. intros N Hs. apply next_iff in N. exact (get_token_progress _ _ _ _ N Hs). Qed.
Lemma name_known f hm : readable f -> (if text_eqb (fname f) $"_" then Ok [] else match assoc_t (fname f) str2bin_tbl with
    | Some c => '(bin, len) <- run_s2b c (ABool hm) ;; assert! (Nat.eqb len 0) ;; Ok bin | None => Ok [] end) = Ok (id_wire hm f).
Proof.
  intros Hf%accepted_readable. pose proof (proj1 (forallb_forall _ _) underscore_reg f Hf) as U. cbv beta in U. apply negb_true_iff in U. rewrite U.
  rewrite str2bin_reg, id_enc by auto. reflexivity.
Qed.
Lemma name_unknown n hm : (forall f, readable f -> n <> fname f) -> (if text_eqb n $"_" then Ok [] else match assoc_t n str2bin_tbl with
    | Some c => '(bin, len) <- run_s2b c (ABool hm) ;; assert! (Nat.eqb len 0) ;; Ok bin | None => Ok [] end) = Ok ([] : bytes).
Proof.
  intros H. rewrite str2bin_unknown; [now destruct (text_eqb n $"_")|]. intros K. apply in_map_iff in K as (f & <- & Hf). apply (H f); auto. now apply accepted_readable.
Qed.
Lemma names_go s fs hm : fields_named s fs -> forall fuel, (length s <= fuel)%nat -> str2oxmid_go fuel hm s = Ok (flat_map (id_wire hm) fs).
Proof.
  intros H. induction H as [|s h f r fs N Hf H IH|s h n r fs Hs N Hn H IH]; intros fuel Hl.
  - destruct fuel; reflexivity.
  - assert (Hs : s <> []).
    { intros ->. apply next_cat in N. destruct h; [|discriminate]. apply accepted_readable in Hf. apply name_reg in Hf as [_ Hf]. destruct (fname f); [congruence|discriminate]. }
    pose proof (next_nonnil _ _ _ _ N Hs) as L. apply next_iff in N. destruct fuel as [|fuel]; [lia|]. destruct s as [|c0 s0]; [congruence|]. cbn [str2oxmid_go]. rewrite N.
    rewrite (name_known f hm Hf). cbn [bind]. rewrite IH by lia. reflexivity.
  - pose proof (next_nonnil _ _ _ _ N Hs) as L. apply next_iff in N. destruct fuel as [|fuel]; [lia|]. destruct s as [|c0 s0]; [congruence|]. cbn [str2oxmid_go]. rewrite N.
    rewrite (name_unknown n hm Hn). cbn [bind]. rewrite IH by lia. reflexivity.
Qed.
Theorem names_bytes s fs hm : fields_named s fs -> str2oxmid s hm = Ok (flat_map (id_wire hm) fs).
Proof. intros H. now apply names_go. Qed.
Theorem names_total s : exists fs, fields_named s fs.
Proof.
  assert (forall n s, (length s <= n)%nat -> exists fs, fields_named s fs) as K.
  { induction n as [|n IH]; intros u L; (destruct u as [|c u]; [exists []; constructor|cbn in L; try lia]).
    destruct (get_token (c :: u)) as [[h p] r] eqn:E. apply next_iff in E. assert (c :: u <> []) as Hs by discriminate. pose proof (next_nonnil _ _ _ _ E Hs) as L'. cbn [length] in L'.
    destruct (IH r ltac:(lia)) as [fs Hfs]. destruct (in_dec (list_eq_dec Z.eq_dec) p (map fname accepted_fields)) as [Hp|Hp].
    - apply in_map_iff in Hp as (f & <- & Hf). exists (f :: fs). eapply nr_field; eauto. now apply accepted_readable.
    - exists fs. eapply nr_other; eauto. intros f Hf ->. apply Hp. apply in_map. now apply accepted_readable. }
  now apply (K (length s)).
Qed.
Lemma names_nodup : NoDup (map fname accepted_fields).
Proof.
  assert (E : forall l : list text, (fix nd l := match l with [] => true | x :: l => negb (existsb (text_eqb x) l) && nd l end) l = true -> NoDup l).
  { induction l as [|x l IH]; intros H; [constructor|]. apply andb_prop in H as [H1 H2]. constructor; [|auto]. apply negb_true_iff in H1. now apply not_in_names. }
  apply E. vm_compute. reflexivity.
Qed.
Lemma same_name f g : readable f -> readable g -> fname f = fname g -> f = g.
Proof.
  intros Hf%accepted_readable Hg%accepted_readable. pose proof names_nodup as N. revert Hf Hg N. induction accepted_fields as [|x l IH]; [contradiction|].
  intros [->|Hf] [->|Hg] N E; auto; cbn [map] in N; inversion N; subst.
  - exfalso. match goal with K : ~ In _ _ |- _ => apply K end. rewrite E. now apply in_map.
  - exfalso. match goal with K : ~ In _ _ |- _ => apply K end. rewrite <- E. now apply in_map.
  - auto.
Qed.
Theorem names_one s fs fs' : fields_named s fs -> fields_named s fs' -> fs = fs'.
Proof.
  intros H. revert fs'. induction H as [|s h f r fs N Hf H IH|s h n r fs Hs N Hn H IH]; intros fs' H'.
  - inversion H' as [|? ? f ? ? N Hf|]; subst; auto; [|congruence]. exfalso. apply next_cat in N. destruct h; [|discriminate].
    apply accepted_readable in Hf. apply name_reg in Hf as [_ Hf]. destruct (fname f); [congruence|discriminate].
  - inversion H' as [E1 E2|? h' f' r' fs2 N' Hf' H2|? h' n' r' fs2 Hs' N' Hn' H2]; subst.
    + exfalso. apply next_cat in N. destruct h; [|discriminate]. apply accepted_readable in Hf. apply name_reg in Hf as [_ Hf]. destruct (fname f); [congruence|discriminate].
    + destruct (next_fun _ _ _ _ _ _ _ N N') as (_ & E & <-). f_equal; [now apply same_name|auto].
    + destruct (next_fun _ _ _ _ _ _ _ N N') as (_ & <- & _). now destruct (Hn' f Hf).
  - inversion H' as [E1 E2|? h' f' r' fs2 N' Hf' H2|? h' n' r' fs2 Hs' N' Hn' H2]; subst; [congruence| |].
    + destruct (next_fun _ _ _ _ _ _ _ N N') as (_ & -> & _). now destruct (Hn f' Hf').
    + destruct (next_fun _ _ _ _ _ _ _ N N') as (_ & _ & <-). auto.
Qed.

(** ** printing *)
Lemma shown_names : forallb (fun f => match assoc_k (key_of f) bin2str_tbl with Some c => text_eqb (b2s_name c) (fname f) | None => false end) (bare ++ shown_list_b) = true.
Proof. vm_compute. reflexivity. Qed.
Lemma name_shown f : shown_field f \/ In f bare -> (exists c, assoc_k (key_of f) bin2str_tbl = Some c /\ b2s_name c = fname f) /\ 0 <= fnum f < 128.
Proof.
  intros H. assert (In f (bare ++ shown_list_b)) as Hi by (apply in_app_iff; destruct H as [H|H]; [right; now apply shown_in|now left]). split.
  - pose proof (proj1 (forallb_forall _ _) shown_names f Hi) as E. cbv beta in E. destruct (assoc_k (key_of f) bin2str_tbl) as [c|]; [|discriminate].
    exists c. split; auto. now apply text_eqb_eq.
  - pose proof (proj1 (forallb_forall _ _) shown_num f Hi) as E. cbv beta in E. lia.
Qed.
Definition id_of (c : class) (x : byte) (r : bytes) : res (text * bytes) :=
  match assoc_k (cls_of c, Z.shiftr (byte_val x) 1) bin2str_tbl with Some k => Ok (b2s_name k, r) | None => Raise KeyError end.
Lemma one_id a c x l b : oxmid2str_one (a :: c :: x :: l :: b) =
  if num_be [a; c] =? 0xffff then
    if (4 <=? length b)%nat
    then if num_be (firstn 4 b) =? 0xff00e04d then id_of Stratos x (skipn 4 b) else Ok ($"?", skipn 4 b)
    else Raise StructError
  else if num_be [a; c] =? 0x8000 then id_of Basic x b
  else if num_be [a; c] =? 0 then id_of Nxm0 x b
  else if num_be [a; c] =? 1 then id_of Nxm1 x b
  else Ok ($"?", b).
Proof.
  unfold oxmid2str_one. rewrite one_head. cbn [bind]. unfold oxm_dispatch, bin2str, id_of.
  change OFPXMC_EXPERIMENTER with 0xffff. change OFPXMC_OPENFLOW_BASIC with 0x8000. change OFPXMC_NXM_0 with 0. change OFPXMC_NXM_1 with 1. change STRATOS_EXPERIMENTER_ID with 0xff00e04d.
  destruct (num_be [a; c] =? 0xffff).
  - rewrite unpack_exp. destruct (4 <=? length b)%nat; [|reflexivity]. cbn [bind]. destruct (num_be (firstn 4 b) =? 0xff00e04d); [|reflexivity].
    cbn [cls_of]. destruct (assoc_k _ bin2str_tbl); reflexivity.
  - destruct (num_be [a; c] =? 0x8000); [|destruct (num_be [a; c] =? 0); [|destruct (num_be [a; c] =? 1)]];
      cbn [cls_of]; try (destruct (assoc_k _ bin2str_tbl)); reflexivity.
Qed.
Lemma id_inv c x r t u : id_of c x r = Ok (t, u) -> u = r /\ exists f hm, fclass f = c /\ x = byte_of (2 * fnum f + flag_of hm) /\ (shown_field f \/ In f bare) /\ t = fname f.
Proof.
  unfold id_of. intros H. destruct (assoc_k _ bin2str_tbl) as [k|] eqn:Ek; [|discriminate]. injection H as <- <-. split; [reflexivity|].
  destruct (flags_of x) as (n & hm & Hn & Ex). rewrite Ex, flag_of_shift in Ek. destruct (tbl_field _ _ Ek) as (f & Ef & Hf). apply or_comm in Hf.
  destruct (name_shown f Hf) as [(k' & Ek' & En) _]. rewrite Ef, Ek in Ek'. injection Ek' as <-. unfold key_of in Ef. injection Ef as Ec Em. apply cls_of_inj in Ec.
  exists f, hm. split; [exact Ec|]. split; [|split; [exact Hf|auto]]. rewrite Em, <- Ex. symmetry. apply z2b_b2z.
Qed.
Lemma id_ok f hm r : shown_field f \/ In f bare -> id_of (fclass f) (byte_of (2 * fnum f + flag_of hm)) r = Ok (fname f, r).
Proof.
  intros H. destruct (name_shown f H) as [(c & Ec & En) Hn]. unfold id_of.
  assert (byte_val (byte_of (2 * fnum f + flag_of hm)) = 2 * fnum f + flag_of hm) as E by (apply byte_of_val; unfold flag_of; destruct hm; lia).
  rewrite E, flag_of_shift. unfold key_of in Ec. now rewrite Ec, En.
Qed.
Lemma go_ids fuel : forall msg ts, (length msg <= fuel)%nat -> oxmid2str_go fuel true msg = Ok ts -> ids_shown msg ts.
Proof.
  induction fuel as [|fuel IH]; intros msg ts Hl H.
  - destruct msg; [|cbn in Hl; lia]. injection H as <-. constructor. cbn. lia.
  - cbn [oxmid2str_go] in H. destruct (Nat.ltb_spec (length msg) 4) as [L|L]; [injection H as <-; now constructor|].
    destruct msg as [|a [|c [|x [|l b]]]]; try (cbn in L; lia). destruct (oxmid2str_one _) as [[t r]| |] eqn:E1; [|discriminate..]. cbn [bind] in H.
    destruct (oxmid2str_go fuel true r) as [ts'| |] eqn:Er; [|discriminate..]. cbn [bind] in H. injection H as <-. cbn [length] in Hl. rewrite one_id in E1.
    assert (forall k d, [a; c] = be 2 (class_id k) -> b = exp_id k ++ d -> id_of k x d = Ok (t, r) -> ids_shown (a :: c :: x :: l :: b) (t :: ts')) as F.
    { intros k d Ek Eb Hf. apply id_inv in Hf as [-> (f & hm & Ec & -> & Hs & ->)]. subst k.
      change (a :: c :: byte_of (2 * fnum f + flag_of hm) :: l :: b) with ([a; c] ++ byte_of (2 * fnum f + flag_of hm) :: l :: b). rewrite Ek, Eb.
      apply id_field; auto. apply IH; auto. rewrite Eb, app_length in Hl. lia. }
    destruct (Z.eqb_spec (num_be [a; c]) 0xffff) as [E|N1].
    + apply two_bytes in E; [|unfold in_bytes; lia]. destruct (Nat.leb_spec 4 (length b)) as [L4|]; [|discriminate].
      destruct (Z.eqb_spec (num_be (firstn 4 b)) 0xff00e04d) as [E4|N4].
      * apply (F Stratos (skipn 4 b)); auto. apply id4 in E4; auto. rewrite <- E4. now rewrite firstn_skipn.
      * injection E1 as <- <-. change (a :: c :: x :: l :: b) with ([a; c] ++ x :: l :: b). rewrite E, <- (firstn_skipn 4 b). apply id_exp.
        -- rewrite firstn_length. lia.
        -- intros K. apply N4. now apply id4.
        -- apply IH; auto. rewrite skipn_length. lia.
    + destruct (Z.eqb_spec (num_be [a; c]) 0x8000) as [E|N2]; [apply two_bytes in E; [|unfold in_bytes; lia]; now apply (F Basic b)|].
      destruct (Z.eqb_spec (num_be [a; c]) 0) as [E|N3]; [apply two_bytes in E; [|unfold in_bytes; lia]; now apply (F Nxm0 b)|].
      destruct (Z.eqb_spec (num_be [a; c]) 1) as [E|N4]; [apply two_bytes in E; [|unfold in_bytes; lia]; now apply (F Nxm1 b)|].
      injection E1 as <- <-. apply id_class; [cbn [In]; intuition congruence|]. apply IH; auto. lia.
Qed.
Lemma ids_go msg ts : ids_shown msg ts -> forall fuel, (length msg <= fuel)%nat -> oxmid2str_go fuel true msg = Ok ts.
Proof.
  intros H. induction H as [b L|f hm l r ts Hf H IH|a c x l r ts Hn H IH|x l e r ts L Hx H IH]; intros fuel Hl.
  - destruct fuel; cbn [oxmid2str_go]; (destruct (Nat.ltb_spec (length b) 4); [reflexivity|lia]).
  - rewrite class_bytes in *. set (hd := match fclass f with Basic => _ | Nxm0 => _ | Nxm1 => _ | Stratos => _ end) in *.
    assert (exists a c, hd = [a; c] /\ num_be [a; c] = class_id (fclass f)) as (a & c & Eh & Ec) by (unfold hd; destruct (fclass f); eexists _, _; split; reflexivity).
    rewrite Eh in *. cbn [app length] in *. rewrite app_length in Hl. destruct fuel as [|fuel]; [lia|]. cbn [oxmid2str_go]. replace (length _ <? 4)%nat with false by (symmetry; apply Nat.ltb_ge; cbn; lia).
    rewrite one_id, Ec. pose proof (id_ok f hm r Hf) as K.
    assert (oxmid2str_go fuel true r = Ok ts) as Er by (apply IH; lia).
    destruct (fclass f) eqn:Efc; cbn [class_id Z.eqb Pos.eqb exp_id app]; try (rewrite K; cbn [bind]; now rewrite Er).
    rewrite app_length. change (length (be 4 0xff00e04d)) with 4%nat. cbn [Nat.leb Nat.add]. rewrite firstn_app_exact by reflexivity. change (num_be (be 4 0xff00e04d) =? 0xff00e04d) with true. cbv beta iota.
    rewrite skipn_app_exact by reflexivity. rewrite K. cbn [bind]. now rewrite Er.
  - cbn [length] in Hl. destruct fuel as [|fuel]; [lia|]. cbn [oxmid2str_go]. replace (length _ <? 4)%nat with false by (symmetry; apply Nat.ltb_ge; cbn; lia).
    rewrite one_id. cbn [In] in Hn. destruct (Z.eqb_spec (num_be [a; c]) 0xffff); [exfalso; intuition|]. destruct (Z.eqb_spec (num_be [a; c]) 0x8000); [exfalso; intuition|].
    destruct (Z.eqb_spec (num_be [a; c]) 0); [exfalso; intuition|]. destruct (Z.eqb_spec (num_be [a; c]) 1); [exfalso; intuition|]. cbn [bind].
    rewrite IH by lia. reflexivity.
  - change (be 2 0xffff) with [xff; xff] in *. cbn [app length] in *. rewrite app_length in Hl. destruct fuel as [|fuel]; [lia|]. cbn [oxmid2str_go]. replace (length _ <? 4)%nat with false by (symmetry; apply Nat.ltb_ge; cbn; lia).
    rewrite one_id. change (num_be [xff; xff] =? 0xffff) with true. cbv beta iota. replace (4 <=? length (e ++ r))%nat with true by (symmetry; apply Nat.leb_le; rewrite app_length; lia).
    rewrite firstn_app_exact, skipn_app_exact by auto.
    destruct (Z.eqb_spec (num_be e) 0xff00e04d) as [E4|N4]; [exfalso; apply Hx; apply (num_be_eq e 4); auto; unfold in_bytes; lia|]. cbn [bind].
    rewrite IH by lia. reflexivity.
Qed.
Theorem ids_text b t : oxmid2str b true = Ok t <-> exists ts, ids_shown b ts /\ t = sepby (chr ",") ts.
Proof.
  unfold oxmid2str. split.
  - intros H. destruct (oxmid2str_go _ true b) as [ts| |] eqn:E; [|discriminate..]. cbn [bind] in H. injection H as <-. exists ts. split; [now apply (go_ids (length b))|]. apply join_sepby.
  - intros (ts & H & ->). rewrite (ids_go b ts H) by auto. cbn [bind]. now rewrite <- join_sepby.
Qed.
