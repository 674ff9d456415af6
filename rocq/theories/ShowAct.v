(** Printing arbitrary bytes: actions. *)
From Verif Require Import Base PyNum Util PyLib OxmCodec OxmTables Oxm Nx Ofp4 Spec SpecOxm SpecText SpecShow SpecOfp SpecShowOfp.
From Verif Require Import BaseFacts UtilFacts NumFacts PyLibFacts OxmRead OxmPrint OxmFacts OxmFrame OxmMore ActFrame GramLib OxmGram ShowLib.
From Verif Require Import TermFacts ActPrint ActReadNx.
From Coq Require Import Strings.Ascii.

(** ** words *)
Lemma word_skip n o k p : word n o (skipn k p) = word n (k + o) p.
Proof. unfold word. now rewrite skipn_skipn, Nat.add_comm. Qed.
Lemma word_range n o p : (o + n <= length p)%nat -> in_bytes n (word n o p).
Proof. intros H. unfold word, in_bytes. pose proof (num_be_range (firstn n (skipn o p))) as K. rewrite firstn_length_le in K; [exact K|rewrite skipn_length; lia]. Qed.
Lemma word_nonneg n o p : 0 <= word n o p.
Proof. unfold word. apply num_be_range. Qed.
Lemma raw_u n fs m : unpack_raw (FU n :: fs) m = word n 0 m :: unpack_raw fs (skipn n m).
Proof. cbn [unpack_raw]. now rewrite be_val_spec. Qed.
Lemma raw_x n fs m : unpack_raw (FX n :: fs) m = unpack_raw fs (skipn n m).
Proof. reflexivity. Qed.
Lemma from_words fs m o : unpack_from fs m o = if (o + calcsize fs <=? length m)%nat then Ok (unpack_raw fs (skipn o m)) else Raise StructError.
Proof. reflexivity. Qed.
Ltac words := repeat first [rewrite raw_u | rewrite raw_x]; rewrite ?skipn_skipn, ?word_skip; cbn [unpack_raw Nat.add].
Lemma part_slice a b (m : bytes) : slice a b m = part_of a b m.
Proof. reflexivity. Qed.

(** ** the first entry *)
Lemma one_inv msg t r : oxm2str_one msg = Ok (t, r) -> shown_one qpt msg t.
Proof.
  destruct msg as [|a [|c [|x [|l b]]]]; try discriminate. rewrite one_class.
  assert (forall cl, [a; c] = be 2 (class_id cl) -> field_of cl x l b = Ok (t, r) -> (cl = Stratos -> (4 <= length b)%nat /\ firstn 4 b = exp_id Stratos) -> shown_one qpt (a :: c :: x :: l :: b) t) as K.
  { intros cl Ec H He. apply field_inv in H as (-> & f & hm & Ef & -> & Ht).
    change (a :: c :: ?z) with ([a; c] ++ z). rewrite Ec. rewrite <- Ef. rewrite <- Ef in Ht. apply (so_field _ f hm l b (skipn (length (exp_id (fclass f))) b)); [exact Ht|].
    rewrite Ef. destruct cl; try reflexivity. destruct (He eq_refl) as [L E]. rewrite <- E, firstn_length_le by lia. symmetry. apply firstn_skipn. }
  destruct (Z.eqb_spec (num_be [a; c]) 0xffff) as [E|N1].
  - apply two_bytes in E; [|red; lia]. destruct (Nat.leb_spec 4 (length b)) as [L|L]; [|discriminate].
    destruct (Z.eqb_spec (num_be (firstn 4 b)) 0xff00e04d) as [E4|N4].
    + intros H. apply (K Stratos); auto. intros _. split; [exact L|]. now apply id4.
    + intros [= <- <-]. change (a :: c :: ?z) with ([a; c] ++ z). rewrite E. apply so_exp; [exact L|]. intros E4. apply N4. now apply id4.
  - destruct (Z.eqb_spec (num_be [a; c]) 0x8000) as [E|N2]; [intros H; apply (K Basic); [apply two_bytes; [red; cbn; lia|exact E]|exact H|discriminate]|].
    destruct (Z.eqb_spec (num_be [a; c]) 0) as [E|N3]; [intros H; apply (K Nxm0); [apply two_bytes; [red; cbn; lia|exact E]|exact H|discriminate]|].
    destruct (Z.eqb_spec (num_be [a; c]) 1) as [E|N4]; [intros H; apply (K Nxm1); [apply two_bytes; [red; cbn; lia|exact E]|exact H|discriminate]|].
    intros [= <- <-]. apply so_class. cbn [In]. intuition congruence.
Qed.
Lemma stratos_bytes : exp_id Stratos = [xff; x00; xe0; x4d].
Proof. vm_compute. reflexivity. Qed.
Lemma stratos_num r : num_be (firstn 4 (exp_id Stratos ++ r)) =? 0xff00e04d = true.
Proof. rewrite stratos_bytes. cbn [app firstn]. vm_compute. reflexivity. Qed.
Lemma stratos_len (r : bytes) : (4 <=? length (exp_id Stratos ++ r))%nat = true.
Proof. rewrite stratos_bytes. reflexivity. Qed.
Lemma class_num c : num_be (be 2 (class_id c)) = class_id c.
Proof. destruct c; vm_compute; reflexivity. Qed.
Lemma class_two c : exists a b, be 2 (class_id c) = [a; b].
Proof. rewrite class_bytes. destruct c; eauto. Qed.
Lemma one_known c x l b : (exists r, b = exp_id c ++ r) -> oxm2str_one (be 2 (class_id c) ++ x :: l :: b) = field_of c x l b.
Proof.
  intros (r & E). destruct (class_two c) as (a & d & Ec). pose proof (class_num c) as N. rewrite Ec in N. rewrite Ec. cbn [app]. rewrite one_class, N.
  destruct c; cbn [class_id Z.eqb Pos.eqb]; [reflexivity..|]. subst b. now rewrite stratos_len, stratos_num.
Qed.
Lemma one_ok msg t : (4 <= length msg)%nat -> shown_one qpt msg t -> exists r, oxm2str_one msg = Ok (t, r).
Proof.
  intros L H. destruct H as [b Hb|f hm l b r t Ht Eb|a c x l b Hn|x l b Hb Hx]; [lia| | |].
  - rewrite (one_known (fclass f) _ l b) by (subst b; eauto). rewrite (field_ok _ _ _ _ _ Ht). eauto.
  - rewrite one_class. cbn [In] in Hn. destruct (Z.eqb_spec (num_be [a; c]) 0xffff); [exfalso; intuition|]. destruct (Z.eqb_spec (num_be [a; c]) 0x8000); [exfalso; intuition|].
    destruct (Z.eqb_spec (num_be [a; c]) 0); [exfalso; intuition|]. destruct (Z.eqb_spec (num_be [a; c]) 1); [exfalso; intuition|]. eauto.
  - replace (be 2 0xffff) with [xff; xff] in * by (vm_compute; reflexivity). cbn [app]. rewrite one_class. replace (num_be [xff; xff] =? 0xffff) with true by (vm_compute; reflexivity).
    replace (4 <=? length b)%nat with true by (symmetry; now apply Nat.leb_le).
    destruct (Z.eqb_spec (num_be (firstn 4 b)) 0xff00e04d) as [E4|N4]; [apply id4 in E4; auto; contradiction|]. eauto.
Qed.
Lemma shown_first b t : oxm2str b false = Ok t <-> shown_one qpt b t.
Proof.
  unfold oxm2str. destruct (Nat.ltb_spec (length b) 4) as [L|L].
  - assert (forall n, oxm2str_go n false b = Ok []) as E by (intros n; destruct n; cbn [oxm2str_go]; replace (length b <? 4)%nat with true by (symmetry; now apply Nat.ltb_lt); reflexivity).
    rewrite E. cbn [bind join]. split; [intros [= <-]; now constructor|].
    intros H. destruct H; [reflexivity|exfalso; revert L; rewrite ?app_length; cbn; rewrite ?be_length; lia..].
  - destruct (length b) as [|n] eqn:En; [lia|]. cbn [oxm2str_go]. rewrite En. replace (S n <? 4)%nat with false by (symmetry; now apply Nat.ltb_ge). split.
    + intros H. destruct (oxm2str_one b) as [[t' r]| |] eqn:E; try discriminate. cbn in H. injection H as <-. now apply one_inv in E.
    + intros H. apply one_ok in H as (r & E); [|lia]. rewrite E. reflexivity.
Qed.

(** ** names *)
Lemma names_tbl : forallb (fun f => match assoc_k (key_of f) bin2str_tbl with Some c => text_eqb (b2s_name c) (fname f) | None => false end) (bare ++ shown_list_b) = true.
Proof. vm_compute. reflexivity. Qed.
Lemma name_codec f : In f bare \/ shown_field f -> exists c, assoc_k (key_of f) bin2str_tbl = Some c /\ b2s_name c = fname f /\ 0 <= fnum f < 128.
Proof.
  intros H. assert (In f (bare ++ shown_list_b)) as Hi by (apply in_app_iff; destruct H as [H|H]; [now left|right; now apply shown_in]).
  pose proof (proj1 (forallb_forall _ _) names_tbl f Hi) as K. cbv beta in K. destruct (assoc_k _ bin2str_tbl) as [c|]; [|discriminate].
  exists c. split; [reflexivity|]. split; [now apply text_eqb_eq|]. pose proof (proj1 (forallb_forall _ _) shown_num f Hi) as N. cbv beta in N. apply andb_prop in N as [N1 N2]. apply Z.leb_le in N1. apply Z.ltb_lt in N2. lia.
Qed.
Definition name_of (c : class) (x : byte) (r : bytes) : res (text * bytes) :=
  match assoc_k (cls_of c, Z.shiftr (byte_val x) 1) bin2str_tbl with Some k => Ok (b2s_name k, r) | None => Raise KeyError end.
Lemma id_class a c x l b : oxmid2str_one (a :: c :: x :: l :: b) =
  if num_be [a; c] =? 0xffff then
    if (4 <=? length b)%nat
    then if num_be (firstn 4 b) =? 0xff00e04d then name_of Stratos x (skipn 4 b) else Ok ($"?", skipn 4 b)
    else Raise StructError
  else if num_be [a; c] =? 0x8000 then name_of Basic x b
  else if num_be [a; c] =? 0 then name_of Nxm0 x b
  else if num_be [a; c] =? 1 then name_of Nxm1 x b
  else Ok ($"?", b).
Proof.
  unfold oxmid2str_one. rewrite one_head. cbn [bind]. unfold oxm_dispatch, bin2str, name_of.
  destruct (num_be [a; c] =? 0xffff).
  - rewrite unpack_exp. destruct (4 <=? length b)%nat; [|reflexivity]. cbn [bind]. destruct (num_be (firstn 4 b) =? 0xff00e04d); [|reflexivity].
    cbn [cls_of]. destruct (assoc_k _ bin2str_tbl); reflexivity.
  - destruct (num_be [a; c] =? 0x8000); [|destruct (num_be [a; c] =? 0); [|destruct (num_be [a; c] =? 1)]];
      cbn [cls_of]; try (destruct (assoc_k _ bin2str_tbl)); reflexivity.
Qed.
Lemma name_inv c x r t r' : name_of c x r = Ok (t, r') -> r' = r /\ exists f hm, fclass f = c /\ x = byte_of (2 * fnum f + SpecShow.flag_of hm) /\ (In f bare \/ shown_field f) /\ t = fname f.
Proof.
  unfold name_of. intros H. destruct (assoc_k _ bin2str_tbl) as [k|] eqn:Ek; [|discriminate]. injection H as <- <-. split; [reflexivity|].
  destruct (flags_of x) as (n & hm & Hn & Ex). rewrite Ex, flag_of_shift in Ek. destruct (tbl_field _ _ Ek) as (f & Ef & Hf).
  exists f, hm. unfold key_of in Ef. injection Ef as Ec En. apply cls_of_inj in Ec. split; [exact Ec|]. split; [rewrite En, <- Ex; symmetry; apply z2b_b2z|]. split; [exact Hf|].
  destruct (name_codec f Hf) as (c' & E' & <- & _). unfold key_of in E'. rewrite Ec, En, Ek in E'. now injection E' as <-.
Qed.
Lemma name_ok f hm r : In f bare \/ shown_field f -> name_of (fclass f) (byte_of (2 * fnum f + SpecShow.flag_of hm)) r = Ok (fname f, r).
Proof.
  intros H. destruct (name_codec f H) as (c & Ec & En & Hn). unfold name_of.
  assert (byte_val (byte_of (2 * fnum f + SpecShow.flag_of hm)) = 2 * fnum f + SpecShow.flag_of hm) as E by (apply byte_of_val; unfold SpecShow.flag_of; destruct hm; lia).
  rewrite E, flag_of_shift. unfold key_of in Ec. now rewrite Ec, En.
Qed.
Lemma id_inv_one msg t r : oxmid2str_one msg = Ok (t, r) -> id_named msg t.
Proof.
  destruct msg as [|a [|c [|x [|l b]]]]; try discriminate. rewrite id_class.
  assert (forall cl r0, [a; c] = be 2 (class_id cl) -> name_of cl x r0 = Ok (t, r) -> b = exp_id cl ++ skipn (length (exp_id cl)) b -> id_named (a :: c :: x :: l :: b) t) as K.
  { intros cl r0 Ec H He. apply name_inv in H as (-> & f & hm & <- & -> & Hf & ->).
    change (a :: c :: ?z) with ([a; c] ++ z). rewrite Ec, He. now apply nm_field. }
  destruct (Z.eqb_spec (num_be [a; c]) 0xffff) as [E|N1].
  - apply two_bytes in E; [|red; lia]. destruct (Nat.leb_spec 4 (length b)) as [L|L]; [|discriminate].
    destruct (Z.eqb_spec (num_be (firstn 4 b)) 0xff00e04d) as [E4|N4].
    + intros H. apply (K Stratos _ E H). apply id4 in E4; [|exact L]. rewrite <- E4, firstn_length_le by lia. symmetry. apply firstn_skipn.
    + intros [= <- <-]. change (a :: c :: ?z) with ([a; c] ++ z). rewrite E. apply nm_exp; [exact L|]. intros E4. apply N4. now apply id4.
  - destruct (Z.eqb_spec (num_be [a; c]) 0x8000) as [E|N2]; [intros H; apply (K Basic b); [apply two_bytes; [red; cbn; lia|exact E]|exact H|reflexivity]|].
    destruct (Z.eqb_spec (num_be [a; c]) 0) as [E|N3]; [intros H; apply (K Nxm0 b); [apply two_bytes; [red; cbn; lia|exact E]|exact H|reflexivity]|].
    destruct (Z.eqb_spec (num_be [a; c]) 1) as [E|N4]; [intros H; apply (K Nxm1 b); [apply two_bytes; [red; cbn; lia|exact E]|exact H|reflexivity]|].
    intros [= <- <-]. apply nm_class. cbn [In]. intuition congruence.
Qed.
Lemma id_known c x l b : oxmid2str_one (be 2 (class_id c) ++ x :: l :: exp_id c ++ b) = name_of c x b.
Proof.
  destruct (class_two c) as (a & d & Ec). pose proof (class_num c) as N. rewrite Ec in N. rewrite Ec. cbn [app]. rewrite id_class, N.
  destruct c; cbn [class_id Z.eqb Pos.eqb]; [reflexivity..|]. rewrite stratos_len, stratos_num. now rewrite stratos_bytes.
Qed.
Lemma id_ok_one msg t : (4 <= length msg)%nat -> id_named msg t -> exists r, oxmid2str_one msg = Ok (t, r).
Proof.
  intros L H. destruct H as [b Hb|f hm l b Hf|a c x l b Hn|x l b Hb Hx]; [lia| | |].
  - rewrite (id_known (fclass f) _ l b). rewrite name_ok by exact Hf. eauto.
  - rewrite id_class. cbn [In] in Hn. destruct (Z.eqb_spec (num_be [a; c]) 0xffff); [exfalso; intuition|]. destruct (Z.eqb_spec (num_be [a; c]) 0x8000); [exfalso; intuition|].
    destruct (Z.eqb_spec (num_be [a; c]) 0); [exfalso; intuition|]. destruct (Z.eqb_spec (num_be [a; c]) 1); [exfalso; intuition|]. eauto.
  - replace (be 2 0xffff) with [xff; xff] in * by (vm_compute; reflexivity). cbn [app]. rewrite id_class. replace (num_be [xff; xff] =? 0xffff) with true by (vm_compute; reflexivity).
    replace (4 <=? length b)%nat with true by (symmetry; now apply Nat.leb_le).
    destruct (Z.eqb_spec (num_be (firstn 4 b)) 0xff00e04d) as [E4|N4]; [apply id4 in E4; auto; contradiction|]. eauto.
Qed.
Lemma named_first b t : oxmid2str b false = Ok t <-> id_named b t.
Proof.
  unfold oxmid2str. destruct (Nat.ltb_spec (length b) 4) as [L|L].
  - assert (forall n, oxmid2str_go n false b = Ok []) as E by (intros n; destruct n; cbn [oxmid2str_go]; replace (length b <? 4)%nat with true by (symmetry; now apply Nat.ltb_lt); reflexivity).
    rewrite E. cbn [bind join]. split; [intros [= <-]; now constructor|].
    intros H. destruct H; [reflexivity|exfalso; revert L; rewrite ?app_length; cbn; rewrite ?be_length; lia..].
  - destruct (length b) as [|n] eqn:En; [lia|]. cbn [oxmid2str_go]. rewrite En. replace (S n <? 4)%nat with false by (symmetry; now apply Nat.ltb_ge). split.
    + intros H. destruct (oxmid2str_one b) as [[t' r]| |] eqn:E; try discriminate. cbn in H. injection H as <-. now apply id_inv_one in E.
    + intros H. apply id_ok_one in H as (r & E); [|lia]. rewrite E. reflexivity.
Qed.
(** a header on its own: the loop ends after it *)
Lemma named_alone b t : length b = 4%nat -> oxmid2str b true = Ok t <-> id_named b t.
Proof.
  intros L. rewrite <- named_first. destruct b as [|a [|c [|x [|l [|? ?]]]]]; try discriminate. unfold oxmid2str. cbn [length oxmid2str_go Nat.ltb Nat.leb].
  rewrite id_class. assert (forall (r : bytes), skipn 4 [] = r -> r = []) as S by (intros; now subst). cbn [length Nat.leb].
  destruct (num_be [a; c] =? 0xffff); [reflexivity|].
  assert (forall k, (toks <- ('(tok, rest) <- name_of k x [] ;; r <- oxmid2str_go 3 true rest ;; Ok (tok :: r)) ;; Ok (join $"," toks)) = Ok t
    <-> (toks <- ('(tok, _) <- name_of k x [] ;; Ok [tok]) ;; Ok (join $"," toks)) = Ok t) as K.
  { intros k. unfold name_of. destruct (assoc_k _ bin2str_tbl); reflexivity. }
  destruct (num_be [a; c] =? 0x8000); [apply K|]. destruct (num_be [a; c] =? 0); [apply K|]. destruct (num_be [a; c] =? 1); [apply K|]. reflexivity.
Qed.
