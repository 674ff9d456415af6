(** Printing arbitrary bytes: reg_load, learn and the list of actions. *)
From Verif Require Import Base PyNum Util PyLib OxmCodec OxmTables Oxm Nx Ofp4 Spec SpecOxm SpecText SpecShow SpecOfp SpecShowOfp.
From Verif Require Import BaseFacts UtilFacts NumFacts PyLibFacts OxmRead OxmPrint OxmFacts OxmFrame OxmMore ActBase ActFrame GramLib OxmGram ShowLib.
From Verif Require Import TermFacts OfpLoop ActPrint ActReadNx FlowMod ShowAct ShowAct2.
From Coq Require Import Strings.Ascii.

(** ** reg_load *)
Definition not_exp (f : field) : bool := match fclass f with Stratos => false | _ => true end.
Definition load_row (f : field) : bool :=
  if not_exp f then
    match str2oxmid (fname f) false with
    | Ok r => match filter (fun g => text_eqb (fname g) (fname f)) (ct_label_short :: registry) with
              | [] => bytes_eqb r []
              | gs => forallb (fun g => not_exp g && bytes_eqb r (id_wire false g)
                                          && (word 1 3 r =? Z.of_nat (match width (fkind g) with Some n => n | None => 255%nat end))) gs
              end
    | _ => false
    end
  else true.
Lemma load_tbl : forallb load_row (bare ++ shown_list_b) = true.
Proof. vm_compute. reflexivity. Qed.
Lemma load_names f : In f bare \/ shown_field f -> not_exp f = true ->
  (str2oxmid (fname f) false = Ok [] /\ forall g, g = ct_label_short \/ In g registry -> fname g <> fname f)
  \/ (exists g, (g = ct_label_short \/ In g registry) /\ fname g = fname f)
     /\ forall g, g = ct_label_short \/ In g registry -> fname g = fname f ->
          fclass g <> Stratos /\ str2oxmid (fname f) false = Ok (id_wire false g)
          /\ word 1 3 (id_wire false g) = Z.of_nat (match width (fkind g) with Some n => n | None => 255%nat end).
Proof.
  intros H N. assert (In f (bare ++ shown_list_b)) as Hi by (apply in_app_iff; destruct H as [H|H]; [now left|right; now apply shown_in]).
  pose proof (proj1 (forallb_forall _ _) load_tbl f Hi) as K. unfold load_row in K. rewrite N in K.
  destruct (str2oxmid (fname f) false) as [r| |]; [|discriminate..].
  assert (forall g, g = ct_label_short \/ In g registry -> fname g = fname f -> In g (filter (fun g => text_eqb (fname g) (fname f)) (ct_label_short :: registry))) as Hin.
  { intros g Hg E. apply filter_In. split; [destruct Hg as [->|Hg]; [now left|now right]|]. rewrite E. now apply text_eqb_eq. }
  destruct (filter _ (ct_label_short :: registry)) as [|g0 gs] eqn:Eg.
  - left. apply bytes_eqb_eq in K. subst r. split; [reflexivity|]. intros g Hg E. destruct (Hin g Hg E).
  - right. split.
    + exists g0. assert (In g0 (g0 :: gs)) as H0 by now left. rewrite <- Eg in H0. apply filter_In in H0 as [H0 E0]. apply text_eqb_eq in E0.
      split; [|exact E0]. destruct H0 as [<-|H0]; [now left|now right].
    + intros g Hg E. pose proof (proj1 (forallb_forall _ _) K g (Hin g Hg E)) as K2. cbv beta in K2. apply andb_prop in K2 as [K2 K3]. apply andb_prop in K2 as [K1 K2].
      apply bytes_eqb_eq in K2. subst r. apply Z.eqb_eq in K3. split; [unfold not_exp in K1; destruct (fclass g); discriminate || congruence|]. now split.
Qed.
Lemma named_four h name : length h = 4%nat -> id_named h name -> name = $"?" \/ exists f, (In f bare \/ shown_field f) /\ not_exp f = true /\ name = fname f.
Proof.
  intros L H. destruct H as [b L'|f hm l b Hf|a c x l b N|x l b L' N]; [lia| |now left|now left]. right. exists f. split; [exact Hf|]. split; [|reflexivity].
  unfold not_exp. destruct (fclass f); try reflexivity. exfalso. revert L. rewrite app_length. cbn [length]. rewrite app_length. cbn. lia.
Qed.
Lemma id_wire_four g : fclass g <> Stratos -> length (id_wire false g) = 4%nat.
Proof. intros H. unfold id_wire, hdr. cbn [andb]. destruct (fclass g); try reflexivity. congruence. Qed.
Lemma part_len a b p : reaches b p -> (a <= b)%nat -> length (part_of a b p) = (b - a)%nat.
Proof. unfold reaches, part_of. intros L H. rewrite firstn_length, skipn_length. lia. Qed.
Lemma width_byte g n : g = ct_label_short \/ In g registry -> width (fkind g) = Some n -> (n < 128)%nat.
Proof.
  intros H E. assert (In g (ct_label_short :: registry)) as Hi by (destruct H as [->|H]; [now left|now right]).
  assert (forallb (fun g => match width (fkind g) with Some n => (n <? 128)%nat | None => true end) (ct_label_short :: registry) = true) as T by (vm_compute; reflexivity).
  pose proof (proj1 (forallb_forall _ _) T g Hi) as K. cbv beta in K. rewrite E in K. now apply Nat.ltb_lt.
Qed.
Lemma firstn_two (h : bytes) : length h = 4%nat -> firstn 2 h = be 2 (word 2 0 h).
Proof. intros L. unfold word. cbn [skipn]. symmetry. rewrite <- (be_num_be (firstn 2 h)) at 2. rewrite firstn_length, L. reflexivity. Qed.
Lemma part_word n o a b p : (o + n <= b - a)%nat -> word n o (part_of a b p) = word n (a + o) p.
Proof.
  intros L. unfold word, part_of. rewrite skipn_firstn_comm, firstn_firstn, skipn_skipn. f_equal. f_equal. lia.
Qed.
(** the text of the argument *)
Lemma load_arg p g size : reaches 14 p -> g = ct_label_short \/ In g registry -> width (fkind g) = Some size ->
  forall t, (let shift := first_bit (word 2 0 p) in let nbits := bit_count (word 2 0 p) in
    if (shift =? 0) && (nbits =? Z.of_nat size * 8) then oxm2str (id_wire false g ++ be_bytes (Z.to_nat (Z.of_nat size)) (word 8 6 p)) true
    else h <- pack [sH; sB; sB] [word 2 2 p; Z.lor (word 1 4 p) 1; Z.of_nat size * 2] ;;
         oxm2str (h ++ be_bytes (Z.to_nat (Z.of_nat size)) (Z.shiftl (word 8 6 p) shift) ++ be_bytes (Z.to_nat (Z.of_nat size)) (Z.shiftl (2 ^ nbits - 1) shift)) true) = Ok t
  <-> oxm2str (load_wire (part_of 2 6 p) g size (first_bit (word 2 0 p)) (bit_count (word 2 0 p)) (word 8 6 p)) true = Ok t.
Proof.
  intros R Hg Hw t. cbv zeta. unfold load_wire. rewrite Nat2Z.id, (Z.mul_comm 8), !be_bytes_spec. pose proof (width_byte g size Hg Hw) as Hs.
  destruct ((first_bit (word 2 0 p) =? 0) && (bit_count (word 2 0 p) =? Z.of_nat size * 8)); [reflexivity|].
  assert (0 <= first_bit (word 2 0 p)) as Hf by (unfold first_bit; pose proof (word_nonneg 2 0 p); apply Z.div_pos; lia).
  rewrite !Z.shiftl_mul_pow2 by exact Hf.
  assert (in_bytes 1 (Z.lor (word 1 4 p) 1)) as Hl.
  { pose proof (word_range 1 4 p) as K. unfold reaches in R. red in K |- *. specialize (K ltac:(lia)). revert K. generalize (word 1 4 p). intros w K. cbn in K |- *. split; [apply Z.lor_nonneg; lia|].
    destruct (Z.eq_dec w 0) as [->|N0]; [reflexivity|]. apply Z.log2_lt_cancel. rewrite Z.log2_lor by lia. change (Z.log2 256) with 8. change (Z.log2 1) with 0.
    apply Z.max_lub_lt; [|lia]. apply Z.log2_lt_pow2; lia. }
  rewrite pack_u by (apply word_range; unfold reaches in R; lia). rewrite pack_u by exact Hl. rewrite pack_u by (red; cbn; lia). rewrite pack_nil. cbn [bind].
  rewrite firstn_two by (rewrite part_len; [reflexivity| |]; unfold reaches in *; lia). rewrite !part_word by lia. cbn [Nat.add].
  rewrite (Z.mul_comm (Z.of_nat size) 2). change (be 1 (Z.lor (word 1 4 p) 1)) with [byte_of (Z.lor (word 1 4 p) 1)]. change (be 1 (2 * Z.of_nat size)) with [byte_of (2 * Z.of_nat size)].
  rewrite <- !app_assoc. cbn [app]. reflexivity.
Qed.
Lemma load_shown p t : reg_load_act2str p = Ok t <-> nx_shows qpt 7 p t.
Proof.
  unfold reg_load_act2str. split.
  - wd; [|discriminate]. rewrite part_slice. destruct (oxmid2str (part_of 2 6 p) true) as [name| |] eqn:En; try discriminate. cbn [bind].
    assert (length (part_of 2 6 p) = 4%nat) as L4 by (apply part_len; unfold reaches; lia). apply named_alone in En; [|exact L4].
    destruct (named_four _ _ L4 En) as [->|(f & Hf & Nf & ->)]; [discriminate|].
    destruct (load_names f Hf Nf) as [[E _]|[(g & Hg & Eg) K]]; [rewrite E; discriminate|]. destruct (K g Hg Eg) as (Cg & E & Wg). rewrite E. cbn [bind].
    rewrite hdr_words, (id_wire_four g Cg). cbn [Nat.add Nat.leb bind]. rewrite Wg, first_bit_eq, bit_count_eq. destruct (width (fkind g)) as [size|] eqn:Ew.
    + pose proof (load_arg p g size L Hg Ew) as A. cbv zeta in A |- *.
      intros H. match type of H with (a <- ?x ;; _) = _ => destruct x as [a| |] eqn:Ea; try discriminate end. cbn [bind] in H. injection H as <-.
      pose proof (proj1 (A _) eq_refl) as B. apply oxm_shown in B as (ts & Ht & ->). now apply (ns_load _ p (fname f) g size ts).
    + assert (bit_count (word 2 0 p) =? Z.of_nat 255 * 8 = false) as -> by (apply Z.eqb_neq; unfold bit_count; pose proof (Z.mod_pos_bound (word 2 0 p) 64); lia).
      rewrite andb_false_r. intros H. match type of H with (a <- (h <- ?x ;; _) ;; _) = _ => destruct x as [a| |] eqn:Ea; try discriminate end.
      apply pack_u_inv in Ea as (_ & b & Ea & _). apply pack_u_inv in Ea as (_ & b2 & Ea & _). apply pack_u_inv in Ea as (B & _). red in B. cbn in B. lia.
  - intros H. remember 7 as ty. destruct H as [| | | |p name g size ts R Hn Hg Eg Ew Ht| | | | | | | | | | | |]; try discriminate. wd; [|lia]. rewrite part_slice.
    assert (length (part_of 2 6 p) = 4%nat) as L4 by (apply part_len; unfold reaches; lia). pose proof Hn as En. apply named_alone in En; [|exact L4]. rewrite En. cbn [bind].
    destruct (named_four _ _ L4 Hn) as [E|(f & Hf & Nf & E)]; subst name.
    { exfalso. assert (forallb (fun g => negb (text_eqb (fname g) $"?")) (ct_label_short :: registry) = true) as T by (vm_compute; reflexivity).
      assert (In g (ct_label_short :: registry)) as Hi by (destruct Hg as [->|Hg]; [now left|now right]).
      pose proof (proj1 (forallb_forall _ _) T g Hi) as K. cbv beta in K. rewrite E in K. discriminate. }
    destruct (load_names f Hf Nf) as [[_ K]|[_ K]]; [destruct (K g Hg E)|]. destruct (K g Hg E) as (Cg & Es & Wg). rewrite E, Es. cbn [bind].
    rewrite hdr_words, (id_wire_four g Cg). cbn [Nat.add Nat.leb bind]. rewrite Wg, Ew, first_bit_eq, bit_count_eq.
    pose proof (load_arg p g size L Hg Ew) as A. cbv zeta in A |- *.
    pose proof (proj2 (oxm_shown _ _) (ex_intro _ ts (conj Ht eq_refl))) as B. apply A in B. rewrite B. reflexivity.
Qed.

(** ** learn *)
Lemma obj_shown n p t : learn_obj p n = Ok t <-> spec_obj n p t.
Proof.
  unfold learn_obj, spec_obj. split.
  - destruct (oxmid2str p false) as [name| |] eqn:E; try discriminate. cbn [bind]. wd; [|discriminate]. intros H. split; [exact L|]. exists name. split; [now apply named_first|].
    injection H as <-. rewrite <- range_eq, (Z.eqb_sym n). reflexivity.
  - intros (R & name & Hn & ->). apply named_first in Hn. rewrite Hn. cbn [bind]. wd; [|lia]. rewrite <- range_eq, (Z.eqb_sym n). reflexivity.
Qed.
Lemma spec_split w : 0 <= w < 2 ^ 16 -> Z.shiftr w 13 = 0 ->
  exists n d (v : bool), 0 <= n < 1024 /\ 0 <= d < 4 /\ w = n + 1024 * d + 4096 * Z.b2z v
    /\ Z.land w 0x3ff = n /\ Z.land (Z.shiftr w 10) 3 = d /\ Z.land (Z.shiftr w 12) 1 = Z.b2z v.
Proof.
  intros Hw H. change 0x3ff with (Z.ones 10). change 3 with (Z.ones 2) at 1. change 1 with (Z.ones 1) at 1. rewrite !Z.land_ones, !Z.shiftr_div_pow2 in * by lia.
  exists (w mod 2 ^ 10), (w / 2 ^ 10 mod 2 ^ 2), (Z.eqb (w / 2 ^ 12 mod 2 ^ 1) 1). change (2 ^ 10) with 1024 in *. change (2 ^ 2) with 4 in *. change (2 ^ 12) with 4096 in *. change (2 ^ 1) with 2 in *. change (2 ^ 13) with 8192 in *.
  assert (w / 2 ^ 12 mod 2 ^ 1 = Z.b2z (w / 4096 mod 2 =? 1)) as E.
  { change (2 ^ 12) with 4096. change (2 ^ 1) with 2. pose proof (Z.mod_pos_bound (w / 4096) 2). destruct (Z.eqb_spec (w / 4096 mod 2) 1); cbn; lia. }
  rewrite <- E. change (2 ^ 12) with 4096. change (2 ^ 1) with 2.
  repeat split; try (apply Z.mod_pos_bound; lia). 
  Z.to_euclidean_division_equations. lia.
Qed.
Lemma spec_join n d v : 0 <= n < 1024 -> 0 <= d < 4 -> let w := n + 1024 * d + 4096 * Z.b2z v in
  Z.shiftr w 13 = 0 /\ Z.land w 0x3ff = n /\ Z.land (Z.shiftr w 10) 3 = d /\ Z.land (Z.shiftr w 12) 1 = Z.b2z v.
Proof.
  intros Hn Hd w. subst w. change 0x3ff with (Z.ones 10). change 3 with (Z.ones 2) at 1. change 1 with (Z.ones 1) at 1. rewrite !Z.land_ones, !Z.shiftr_div_pow2 in * by lia.
  change (2 ^ 10) with 1024 in *. change (2 ^ 2) with 4 in *. change (2 ^ 12) with 4096 in *. change (2 ^ 1) with 2 in *. change (2 ^ 13) with 8192 in *.
  destruct v; cbn [Z.b2z]; repeat split; Z.to_euclidean_division_equations; lia.
Qed.
Lemma imm_eq n : Z.to_nat ((n + 15) / 16 * 2) = imm_size n.
Proof.
  unfold imm_size. destruct (Z.le_gt_cases 0 ((n + 15) / 16)) as [H|H]; [rewrite Z2Nat.inj_mul by lia; change (Z.to_nat 2) with 2%nat; lia|].
  lia.
Qed.
(** the source *)
Definition src_read (v : bool) (n : Z) (p : bytes) : res (option Z * text * bytes) :=
  if Z.b2z v =? 1 then let rlen := Z.to_nat ((n + 15) / 16 * 2) in Ok (Some (be_val (firstn rlen p)), [], skipn rlen p)
  else t <- learn_obj p n ;; Ok (None, t, skipn 6 p).
Definition src_sum (o : option Z) (t : text) : Z + text := match o with Some v => inl v | None => inr t end.
Lemma src_ok v n p s r : spec_src n v p s r -> exists o t, src_read v n p = Ok (o, t, r) /\ src_sum o t = s.
Proof.
  intros H. destruct H as [p|p t Ho]; unfold src_read; cbn [Z.b2z Z.eqb Pos.eqb].
  - rewrite imm_eq. eexists _, _. split; [reflexivity|]. cbn [src_sum]. now rewrite be_val_spec.
  - apply obj_shown in Ho. rewrite Ho. cbn [bind]. eexists _, _. split; reflexivity.
Qed.
Lemma src_inv v n p o t r : src_read v n p = Ok (o, t, r) -> spec_src n v p (src_sum o t) r.
Proof.
  unfold src_read. destruct v; cbn [Z.b2z Z.eqb Pos.eqb].
  - rewrite imm_eq. intros H. injection H as <- <- <-. cbn [src_sum]. rewrite be_val_spec. constructor.
  - destruct (learn_obj p n) as [u| |] eqn:E; [|discriminate..]. cbn [bind]. intros H. injection H as <- <- <-. cbn [src_sum]. constructor. now apply obj_shown.
Qed.
Lemma sum_hex o t : (forall v, o = Some v -> 0 <= v) -> match o with Some v => fmt_x 0 v | None => t end = src_text hex (src_sum o t).
Proof. intros H. destruct o as [v|]; [|reflexivity]. cbn. now rewrite fmt_x_hexw by now apply H. Qed.
Lemma sum_dec o t : match o with Some v => fmt_d v | None => t end = src_text dec (src_sum o t).
Proof. destruct o as [v|]; [|reflexivity]. cbn. now rewrite fmt_d_dec. Qed.
Lemma src_nonneg v n p o t r : src_read v n p = Ok (o, t, r) -> forall x, o = Some x -> 0 <= x.
Proof.
  unfold src_read. destruct v; cbn [Z.b2z Z.eqb Pos.eqb]; [intros H x ->; injection H as <- _ _; rewrite be_val_spec; apply num_be_range|].
  destruct (learn_obj p n) as [u| |]; [|discriminate..]. cbn [bind]. intros H x ->. discriminate.
Qed.
Lemma src_left v n p o t r : src_read v n p = Ok (o, t, r) -> (length r <= length p)%nat.
Proof.
  unfold src_read. destruct v; cbn [Z.b2z Z.eqb Pos.eqb]; [intros H; apply (f_equal (fun x => match x with Ok (_, _, r) => r | _ => [] end)) in H; subst r; rewrite skipn_length; lia|].
  destruct (learn_obj p n) as [u| |]; [|discriminate..]. cbn [bind]. intros H. apply (f_equal (fun x => match x with Ok (_, _, r) => r | _ => [] end)) in H. cbv beta iota in H. subst r. rewrite skipn_length. lia.
Qed.
(** one turn of the loop, in terms of the parts of the first word *)
Definition spec_next (spec : option text) (n d : Z) (v : bool) (p : bytes) : res (option text * bytes) :=
  '(o, t, r) <- src_read v n p ;;
  if negb (d =? 2) then
    dobj <- learn_obj r n ;;
    let sobj := match o with Some v => fmt_x 0 v | None => t end in
    Ok (if d =? 0 then Some (dobj ++ $"=" ++ sobj) else if d =? 1 then Some ($"reg_load(" ++ dobj ++ $"=" ++ sobj ++ $")") else spec, skipn 6 r)
  else Ok (Some ($"output(" ++ match o with Some v => fmt_d v | None => t end ++ $")"), r).
Lemma specs_step f spec p n d v : (2 < length p)%nat -> 0 <= n < 1024 -> 0 <= d < 4 -> word 2 0 p = n + 1024 * d + 4096 * Z.b2z v -> word 2 0 p <> 0 ->
  learn_specs (S f) spec p = ('(spec, q) <- spec_next spec n d v (skipn 2 p) ;;
                              match spec with Some t => r <- learn_specs f spec q ;; Ok (t :: r) | None => Raise NameError end).
Proof.
  intros L Hn Hd Ew N0. cbn [learn_specs]. replace (length p <=? 2)%nat with false by (symmetry; apply Nat.leb_gt; lia).
  rewrite be_val_spec. change (num_be (firstn 2 p)) with (word 2 0 p). replace (word 2 0 p =? 0) with false by (symmetry; now apply Z.eqb_neq).
  rewrite Ew. destruct (spec_join n d v Hn Hd) as (E1 & E2 & E3 & E4). rewrite E1, E2, E3, E4. cbn [Z.eqb]. unfold spec_next, src_read.
  match goal with |- ?x = _ => idtac end. cbv zeta.
  destruct (if Z.b2z v =? 1 then _ else _) as [[[o t] r]| |]; [|reflexivity..]. cbn [bind]. destruct (negb (d =? 2)); [|reflexivity].
  destruct (learn_obj r n); reflexivity.
Qed.
Lemma specs_inv f : forall spec p ts, learn_specs f spec p = Ok ts -> spec_list spec p ts.
Proof.
  induction f as [|f IH]; intros spec p ts.
  - cbn [learn_specs]. destruct (Nat.leb_spec (length p) 2); [|discriminate]. intros [= <-]. constructor. now left.
  - destruct (Nat.leb_spec (length p) 2) as [L|L].
    { cbn [learn_specs]. replace (length p <=? 2)%nat with true by (symmetry; now apply Nat.leb_le). intros [= <-]. constructor. now left. }
    destruct (Z.eq_dec (word 2 0 p) 0) as [E0|N0].
    { cbn [learn_specs]. replace (length p <=? 2)%nat with false by (symmetry; apply Nat.leb_gt; lia). rewrite be_val_spec. change (num_be (firstn 2 p)) with (word 2 0 p). rewrite E0. cbn [Z.eqb].
      intros [= <-]. constructor. now right. }
    destruct (Z.eq_dec (Z.shiftr (word 2 0 p) 13) 0) as [E13|N13].
    2: { cbn [learn_specs]. replace (length p <=? 2)%nat with false by (symmetry; apply Nat.leb_gt; lia). rewrite be_val_spec. change (num_be (firstn 2 p)) with (word 2 0 p).
         replace (word 2 0 p =? 0) with false by (symmetry; now apply Z.eqb_neq). replace (Z.shiftr (word 2 0 p) 13 =? 0) with false by (symmetry; now apply Z.eqb_neq). discriminate. }
    destruct (spec_split (word 2 0 p)) as (n & d & v & Hn & Hd & Ew & _); [apply (word_range 2 0); lia|exact E13|].
    rewrite (specs_step f spec p n d v L Hn Hd Ew N0). unfold spec_next. destruct (src_read v n (skipn 2 p)) as [[[o t] r]| |] eqn:Es; [|discriminate..]. cbn [bind].
    pose proof (src_inv _ _ _ _ _ _ Es) as Hs. pose proof (src_nonneg _ _ _ _ _ _ Es) as Hpos. rewrite (sum_hex o t Hpos), sum_dec.
    destruct (Z.eqb_spec d 2) as [->|N2]; cbn [negb].
    { cbn [bind]. destruct (learn_specs f _ r) as [ts'| |] eqn:E; [|discriminate..]. cbn [bind]. intros [= <-]. apply (sp_output spec p n v (src_sum o t) r ts'); try assumption; auto. }
    destruct (learn_obj r n) as [dt| |] eqn:Ed; [|discriminate..]. apply obj_shown in Ed. cbn [bind].
    destruct (Z.eqb_spec d 0) as [->|Nd0].
    { destruct (learn_specs f _ (skipn 6 r)) as [ts'| |] eqn:E; [|discriminate..]. cbn [bind]. intros [= <-]. apply (sp_match spec p n v (src_sum o t) r dt ts'); try assumption; try lia; auto. }
    destruct (Z.eqb_spec d 1) as [->|Nd1].
    { destruct (learn_specs f _ (skipn 6 r)) as [ts'| |] eqn:E; [|discriminate..]. cbn [bind]. intros [= <-]. apply (sp_load spec p n v (src_sum o t) r dt ts'); try assumption; try lia; auto. }
    assert (d = 3) as -> by lia. destruct spec as [u|]; [|discriminate]. destruct (learn_specs f _ (skipn 6 r)) as [ts'| |] eqn:E; [|discriminate..]. cbn [bind]. intros [= <-].
    apply (sp_again u p n v (src_sum o t) r dt ts'); try assumption; try lia; auto.
Qed.
Lemma specs_ok spec p ts : spec_list spec p ts -> forall f, (length p <= f)%nat -> learn_specs f spec p = Ok ts.
Proof.
  intros H. induction H as [last p He|last p n v s r ts L Hn Ew Hs Ht IH|last p n v s r d ts L Hn Ew N0 Hs Hd Ht IH|last p n v s r d ts L Hn Ew Hs Hd Ht IH|t p n v s r d ts L Hn Ew Hs Hd Ht IH]; intros f Lf.
  - destruct f as [|f]; cbn [learn_specs]; destruct (Nat.leb_spec (length p) 2) as [L|L]; try reflexivity; [lia|].
    rewrite be_val_spec. change (num_be (firstn 2 p)) with (word 2 0 p). destruct He as [He|He]; [lia|]. now rewrite He.
  - destruct f as [|f]; [lia|]. pose proof (src_ok _ _ _ _ _ Hs) as (o & t & Es & <-). pose proof (src_left _ _ _ _ _ _ Es) as Ll. rewrite skipn_length in Ll.
    rewrite (specs_step f last p n 2 v L Hn) by (try lia; destruct v; cbn [Z.b2z] in *; lia). unfold spec_next. rewrite Es. cbn [bind Z.eqb Pos.eqb negb]. rewrite sum_dec.
    rewrite IH by lia. reflexivity.
  - destruct f as [|f]; [lia|]. pose proof (src_ok _ _ _ _ _ Hs) as (o & t & Es & <-). pose proof (src_left _ _ _ _ _ _ Es) as Ll. rewrite skipn_length in Ll. pose proof (src_nonneg _ _ _ _ _ _ Es) as Hpos.
    rewrite (specs_step f last p n 0 v L Hn) by (try lia; assumption). unfold spec_next. rewrite Es. cbn [bind Z.eqb Pos.eqb negb]. apply obj_shown in Hd. rewrite Hd. cbn [bind].
    rewrite (sum_hex o t Hpos). rewrite IH by (rewrite skipn_length; lia). reflexivity.
  - destruct f as [|f]; [lia|]. pose proof (src_ok _ _ _ _ _ Hs) as (o & t & Es & <-). pose proof (src_left _ _ _ _ _ _ Es) as Ll. rewrite skipn_length in Ll. pose proof (src_nonneg _ _ _ _ _ _ Es) as Hpos.
    rewrite (specs_step f last p n 1 v L Hn) by (try lia; destruct v; cbn [Z.b2z] in *; lia). unfold spec_next. rewrite Es. cbn [bind Z.eqb Pos.eqb negb]. apply obj_shown in Hd. rewrite Hd. cbn [bind].
    rewrite (sum_hex o t Hpos). rewrite IH by (rewrite skipn_length; lia). reflexivity.
  - destruct f as [|f]; [lia|]. pose proof (src_ok _ _ _ _ _ Hs) as (o & u & Es & <-). pose proof (src_left _ _ _ _ _ _ Es) as Ll. rewrite skipn_length in Ll.
    rewrite (specs_step f (Some t) p n 3 v L Hn) by (try lia; destruct v; cbn [Z.b2z] in *; lia). unfold spec_next. rewrite Es. cbn [bind Z.eqb Pos.eqb negb]. apply obj_shown in Hd. rewrite Hd. cbn [bind].
    rewrite IH by (rewrite skipn_length; lia). reflexivity.
Qed.
Lemma zero_head n (p : bytes) : (n <= length p)%nat -> (num_be (firstn n p) = 0 <-> Forall (fun i => word 1 i p = 0) (seq 0 n)).
Proof.
  revert p. induction n as [|n IH]; intros p L; [split; intros _; [constructor|reflexivity]|]. destruct p as [|x p]; [cbn in L; lia|]. cbn [firstn seq]. cbn [length] in L.
  assert (num_be (x :: firstn n p) = byte_val x * 256 ^ Z.of_nat n + num_be (firstn n p)) as E.
  { rewrite <- !be_val_spec, be_val_cons, firstn_length, Nat.min_l by lia. reflexivity. }
  rewrite E, Forall_cons_iff, <- seq_shift, Forall_map.
  assert (word 1 0 (x :: p) = byte_val x) as -> by (unfold word; cbn; lia).
  assert (Forall (fun i => word 1 (S i) (x :: p) = 0) (seq 0 n) <-> num_be (firstn n p) = 0) as -> by (rewrite (IH p) by lia; reflexivity).
  pose proof (num_be_range (firstn n p)). assert (0 <= byte_val x) as Hx by (unfold byte_val; lia). assert (0 < 256 ^ Z.of_nat n) by lia. nia.
Qed.
Lemma seq_cut a n : forall P : nat -> Prop, Forall P (seq a n) <-> forall i, (a <= i < a + n)%nat -> P i.
Proof. intros P. rewrite Forall_forall. split; intros H i Hi; apply H; [apply in_seq; lia|apply in_seq in Hi; lia]. Qed.
Lemma zero_word n o (p : bytes) : (o + n <= length p)%nat -> (word n o p = 0 <-> forall i, (o <= i < o + n)%nat -> word 1 i p = 0).
Proof.
  intros L. unfold word at 1. rewrite zero_head, seq_cut by (rewrite skipn_length; lia). split; intros H i Hi.
  - specialize (H (i - o)%nat ltac:(lia)). rewrite word_skip in H. replace (o + (i - o))%nat with i in H by lia. exact H.
  - rewrite word_skip. apply H. lia.
Qed.
Lemma learn_shown p t : learn_act2str p = Ok t <-> nx_shows qpt 16 p t.
Proof.
  assert (forall vs : list Z, existsb (fun v => negb (v =? 0)) vs = false <-> Forall (fun v => v = 0) vs) as EX.
  { induction vs as [|v vs IH]; [now split|]. cbn [existsb]. rewrite orb_false_iff, IH, negb_false_iff, Z.eqb_eq, Forall_cons_iff. reflexivity. }
  assert (forall q : bytes, (22 <= length q)%nat ->
    Forall (fun v => v = 0) [word 2 0 q; word 2 2 q; word 2 4 q; word 8 6 q; word 2 14 q; word 1 16 q; word 2 18 q; word 2 20 q]
    <-> Forall (fun i => i = 17%nat \/ word 1 i q = 0) (seq 0 22)) as Z0.
  { intros q L. rewrite !Forall_cons_iff, (zero_word 2 0), (zero_word 2 2), (zero_word 2 4), (zero_word 8 6), (zero_word 2 14), (zero_word 2 18), (zero_word 2 20), seq_cut by lia. split.
    - intros (H1 & H2 & H3 & H4 & H5 & H6 & H7 & H8 & _) i Hi.
      destruct (Nat.eq_dec i 17) as [->|N]; [now left|]. right. destruct (Nat.eq_dec i 16) as [->|N2]; [exact H6|].
      destruct (Nat.lt_ge_cases i 2); [apply H1; lia|]. destruct (Nat.lt_ge_cases i 4); [apply H2; lia|]. destruct (Nat.lt_ge_cases i 6); [apply H3; lia|].
      destruct (Nat.lt_ge_cases i 14); [apply H4; lia|]. destruct (Nat.lt_ge_cases i 16); [apply H5; lia|]. destruct (Nat.lt_ge_cases i 20); [apply H7; lia|apply H8; lia].
    - intros H. repeat split; try (intros i Hi; destruct (H i ltac:(lia)) as [->|K]; [lia|exact K]); try (destruct (H 16%nat ltac:(lia)) as [K|K]; [discriminate|exact K]). constructor. }
  assert (unpack_from learn_fmt p 0 = if (22 <=? length p)%nat then Ok [word 2 0 p; word 2 2 p; word 2 4 p; word 8 6 p; word 2 14 p; word 1 16 p; word 2 18 p; word 2 20 p] else Raise StructError) as EU.
  { unfold learn_fmt. rewrite from_words. cbn [calcsize fold_right fwidth Nat.add]. destruct (22 <=? length p)%nat; [|reflexivity]. words. reflexivity. }
  unfold learn_act2str. rewrite EU. change (calcsize learn_fmt) with 22%nat. split.
  - destruct (Nat.leb_spec 22 (length p)) as [L|L]; [|discriminate]. cbn [bind]. destruct (existsb _ _) eqn:E; [discriminate|]. apply EX, (Z0 p L) in E.
    destruct (learn_specs _ _ _) as [ts| |] eqn:Es; [|discriminate..]. cbn [bind]. intros [= <-]. rewrite commas_join. apply ns_learn; auto. now apply (specs_inv (length p)).
  - intros H. remember 16 as ty. destruct H as [| | | | | | | | | | | |p ts L Hz Hs| | | |]; try discriminate. unfold reaches in L. replace (22 <=? length p)%nat with true by (symmetry; now apply Nat.leb_le). cbn [bind].
    apply (Z0 p L), EX in Hz. rewrite Hz. rewrite (specs_ok None (skipn 22 p) ts Hs) by (rewrite skipn_length; lia). cbn [bind]. now rewrite commas_join.
Qed.

(** ** the tables *)
Ltac inx H := inversion H; subst; clear H.
Lemma nx_row p t : forall sub f, In (sub, f) nx_act2str_tbl -> (f p = Ok t <-> nx_shows qpt sub p t).
Proof.
  intros sub f H. unfold nx_act2str_tbl in H. cbn [In] in H.
  repeat (destruct H as [H|H]; [apply pair_equal_spec in H as [<- <-]|]); [..|destruct H].
  - rewrite ids_shown. split; [intros (R & R2 & ->); now apply ns_ids|]. intros H. inx H. now repeat split.
  - apply load_shown.
  - unfold reg_load2_act2str. split.
    + destruct (oxm2str p false) as [u| |] eqn:E; [|discriminate..]. cbn [bind]. intros [= <-]. apply ns_load2. now apply shown_first.
    + intros H. inx H. match goal with K : shown_one _ _ _ |- _ => apply shown_first in K; rewrite K end. reflexivity.
  - apply move_shown.
  - rewrite resubmit_shown. split; [intros (R & ->); now apply ns_resubmit|]. intros H. inx H. now split.
  - rewrite resubmit_table_shown. split; [intros (R & ->); now apply ns_resubmit_table|]. intros H. inx H. now split.
  - rewrite tunnel_shown. split; [intros (R & ->); now apply ns_tunnel|]. intros H. inx H. now split.
  - rewrite tunnel_shown. split; [intros (R & ->); now apply ns_tunnel64|]. intros H. inx H. now split.
  - unfold null_act2str. split; [intros [= <-]; constructor|]. intros H. inx H. reflexivity.
  - unfold qp_act2str. split; [intros [= <-]; now apply ns_note|]. intros H. inx H. match goal with K : qpt _ _ |- _ => now rewrite K end.
  - unfold null_act2str. split; [intros [= <-]; constructor|]. intros H. inx H. reflexivity.
  - apply multipath_shown.
  - apply bundle_shown.
  - apply bundle_load_shown.
  - apply output_reg_shown.
  - apply output_reg2_shown.
  - apply learn_shown.
Qed.
Lemma nx_types_eq : map fst nx_act2str_tbl = [21; 7; 33; 6; 1; 14; 2; 9; 5; 8; 17; 10; 12; 13; 15; 32; 16].
Proof. reflexivity. Qed.
Lemma nx_known sub : In sub nx_types <-> In sub (map fst nx_act2str_tbl).
Proof. rewrite nx_types_eq. unfold nx_types. cbn [In]. tauto. Qed.
Lemma nx_shows_type Q sub p t : nx_shows Q sub p t -> In sub nx_types /\ sub <> 25.
Proof. intros H. split; [|destruct H; discriminate]. destruct H; unfold nx_types; cbn [In]; tauto. Qed.
Lemma std_types_eq : map fst std_act2str_tbl = [0; 11; 12; 15; 16; 17; 18; 19; 20; 21; 22; 23; 24; 26; 27].
Proof. reflexivity. Qed.
Lemma one_shown m t : (4 < length m)%nat -> act2str_one m = Ok (t, skipn (entry_len m) m) <-> act_shown qpt m t.
Proof.
  intros L. unfold act2str_one. rewrite from_words. cbn [calcsize fold_right fwidth Nat.add]. replace (4 <=? length m)%nat with true by (symmetry; apply Nat.leb_le; lia). cbn [bind]. words.
  change (Z.to_nat (word 2 2 m)) with (entry_len m). split.
  - destruct (Z.eqb_spec (word 2 0 m) 0xffff) as [E|N].
    + rewrite from_words. cbn [calcsize fold_right fwidth Nat.add]. destruct (Nat.leb_spec 8 (length m)) as [L8|L8]; [|discriminate]. cbn [bind]. words.
      destruct (Z.eqb_spec (word 4 4 m) NX_VENDOR_ID) as [Ev|Nv].
      * rewrite from_words. cbn [calcsize fold_right fwidth Nat.add]. destruct (Nat.leb_spec 10 (length m)) as [L10|L10]; [|discriminate]. cbn [bind]. words. cbn [bind].
        destruct (Z.eqb_spec (word 2 8 m) 25) as [E25|N25].
        -- destruct (oxm2str (skipn 4 m) false) as [u| |] eqn:Eu; [|discriminate..]. cbn [bind]. intros H. injection H as <-. apply as_nx_set; auto. now apply shown_first.
        -- unfold act2str_get. destruct (assoc_z (word 2 8 m) nx_act2str_tbl) as [f|] eqn:Ef.
           ++ rewrite part_slice. destruct (f _) as [u| |] eqn:Eu; [|discriminate..]. cbn [bind]. intros H. injection H as <-. apply as_nx; auto. apply (nx_row _ _ _ f); [now apply assoc_z_in|exact Eu].
           ++ cbn [bind]. intros H. injection H as <-. apply as_nx_unknown; auto. apply assoc_z_none in Ef. rewrite <- nx_known in Ef. intros [K|K]; [now symmetry in K|contradiction].
      * cbn [bind]. rewrite E. cbn [Z.eqb Pos.eqb]. change (act2str_get false 65535) with (@None (bytes -> res text)). cbn [bind]. intros H. injection H as <-. now apply as_vendor.
    + cbn [bind]. destruct (Z.eqb_spec (word 2 0 m) 25) as [E25|N25].
      * destruct (oxm2str (skipn 4 m) false) as [u| |] eqn:Eu; [|discriminate..]. cbn [bind]. intros H. injection H as <-. apply as_set; auto. now apply shown_first.
      * unfold act2str_get. destruct (assoc_z (word 2 0 m) std_act2str_tbl) as [f|] eqn:Ef.
        -- rewrite part_slice. destruct (f _) as [u| |] eqn:Eu; [|discriminate..]. cbn [bind]. intros H. injection H as <-. apply as_std. now apply (std_inv _ f).
        -- cbn [bind]. intros H. injection H as <-. apply as_unknown; auto. apply assoc_z_none in Ef. rewrite std_types_eq in Ef. revert Ef N25. unfold std_types. cbn [In]. intuition congruence.
  - assert (forall v, word 4 4 m = v -> NX_VENDOR_ID = 0x2320) as _ by reflexivity.
    assert (reaches 8 m -> unpack_from [sI] m 4 = Ok [word 4 4 m]) as U4.
    { intros R. rewrite from_words. cbn [calcsize fold_right fwidth Nat.add]. apply Nat.leb_le in R. rewrite R. words. reflexivity. }
    assert (reaches 10 m -> unpack_from [sH] m 8 = Ok [word 2 8 m]) as U8.
    { intros R. rewrite from_words. cbn [calcsize fold_right fwidth Nat.add]. apply Nat.leb_le in R. rewrite R. words. reflexivity. }
    intros H. destruct H as [t Hs|t E Hs|N K|E R Nv|t E Ev R Hs|E Ev R K|t E Ev R E25 Hs].
    + apply std_ok in Hs as (f & Ef & Hf & N25 & Nf). replace (word 2 0 m =? 0xffff) with false by (symmetry; now apply Z.eqb_neq). cbn [bind].
      replace (word 2 0 m =? 25) with false by (symmetry; now apply Z.eqb_neq). unfold act2str_get. rewrite Ef, part_slice, Hf. reflexivity.
    + rewrite E. cbn [Z.eqb Pos.eqb bind]. apply shown_first in Hs. rewrite Hs. reflexivity.
    + replace (word 2 0 m =? 0xffff) with false by (symmetry; now apply Z.eqb_neq). cbn [bind].
      replace (word 2 0 m =? 25) with false by (symmetry; apply Z.eqb_neq; intros E; apply K; rewrite E; unfold std_types; cbn [In]; tauto).
      unfold act2str_get. replace (assoc_z (word 2 0 m) std_act2str_tbl) with (@None (bytes -> res text)); [reflexivity|]. symmetry. apply assoc_z_none. rewrite std_types_eq.
      intros H. apply K. revert H. unfold std_types. cbn [In]. tauto.
    + rewrite E. cbn [Z.eqb Pos.eqb]. rewrite U4 by exact R. cbn [bind]. replace (word 4 4 m =? NX_VENDOR_ID) with false by (symmetry; now apply Z.eqb_neq). cbn [bind]. reflexivity.
    + rewrite E. cbn [Z.eqb Pos.eqb]. rewrite U4 by (unfold reaches in *; lia). cbn [bind]. replace (word 4 4 m =? NX_VENDOR_ID) with true by (symmetry; now apply Z.eqb_eq).
      rewrite U8 by exact R. cbn [bind]. pose proof (nx_shows_type _ _ _ _ Hs) as [Ht N25]. replace (word 2 8 m =? 25) with false by (symmetry; now apply Z.eqb_neq).
      unfold act2str_get. destruct (assoc_z (word 2 8 m) nx_act2str_tbl) as [f|] eqn:Ef.
      * apply assoc_z_in in Ef. apply (nx_row _ _ _ f Ef) in Hs. rewrite part_slice, Hs. reflexivity.
      * apply assoc_z_none in Ef. rewrite <- nx_known in Ef. contradiction.
    + rewrite E. cbn [Z.eqb Pos.eqb]. rewrite U4 by (unfold reaches in *; lia). cbn [bind]. replace (word 4 4 m =? NX_VENDOR_ID) with true by (symmetry; now apply Z.eqb_eq).
      rewrite U8 by exact R. cbn [bind]. replace (word 2 8 m =? 25) with false by (symmetry; apply Z.eqb_neq; intros E25; apply K; now left).
      unfold act2str_get. replace (assoc_z (word 2 8 m) nx_act2str_tbl) with (@None (bytes -> res text)); [reflexivity|]. symmetry. apply assoc_z_none. rewrite <- nx_known.
      intros H. apply K. now right.
    + rewrite E. cbn [Z.eqb Pos.eqb]. rewrite U4 by (unfold reaches in *; lia). cbn [bind]. replace (word 4 4 m =? NX_VENDOR_ID) with true by (symmetry; now apply Z.eqb_eq).
      rewrite U8 by exact R. cbn [bind]. rewrite E25. cbn [Z.eqb Pos.eqb bind]. apply shown_first in Hs. rewrite Hs. reflexivity.
Qed.
Lemma one_rest m t r : act2str_one m = Ok (t, r) -> r = skipn (entry_len m) m.
Proof.
  unfold act2str_one. rewrite from_words. cbn [calcsize fold_right fwidth Nat.add]. destruct (4 <=? length m)%nat; [|discriminate]. cbn [bind]. words.
  change (Z.to_nat (word 2 2 m)) with (entry_len m).
  match goal with |- (_ <- ?x ;; _) = _ -> _ => destruct x as [[[nx ty] off]| |]; [|discriminate..] end. cbn [bind].
  match goal with |- (_ <- ?x ;; _) = _ -> _ => destruct x as [u| |]; [|discriminate..] end. cbn [bind].
  intros H. apply (f_equal (fun x => match x with Ok (_, r) => r | _ => [] end)) in H. now symmetry.
Qed.
Lemma one_total m : act2str_one m <> Diverge.
Proof. apply act2str_one_nd. Qed.
Lemma acts_inv f : forall m ts, act2str_go f true m = Ok ts -> acts_shown qpt m ts.
Proof.
  induction f as [|f IH]; intros m ts; cbn [act2str_go]; (destruct (Nat.leb_spec (length m) 4) as [L|L]; [intros [= <-]; now constructor|]); [discriminate|].
  destruct (act2str_one m) as [[t r]| |] eqn:E; [|discriminate..]. cbn [bind]. pose proof (one_rest _ _ _ E) as ->. apply one_shown in E; [|lia].
  destruct (act2str_go f true _) as [ts'| |] eqn:Es; [|discriminate..]. cbn [bind]. intros [= <-]. apply al_next; [lia|exact E|auto].
Qed.
Lemma acts_ok m ts : acts_shown qpt m ts -> forall f, (length m <= f)%nat -> act2str_go f true m = Ok ts.
Proof.
  intros H. induction H as [m L|m t ts L Ht H IH]; intros f Lf.
  - destruct f; cbn [act2str_go]; now replace (length m <=? 4)%nat with true by (symmetry; now apply Nat.leb_le).
  - destruct f as [|f]; [lia|]. cbn [act2str_go]. replace (length m <=? 4)%nat with false by (symmetry; now apply Nat.leb_gt).
    apply one_shown in Ht; [|exact L]. rewrite Ht. cbn [bind].
    destruct (Nat.eq_dec (entry_len m) 0) as [E0|N0].
    { exfalso. rewrite E0 in H. cbn [skipn] in H. revert L E0. clear -H. induction H as [m L|m t ts L Ht H IH]; intros L' E0; [lia|]. rewrite E0 in *. cbn [skipn] in *. auto. }
    rewrite IH by (rewrite skipn_length; lia). reflexivity.
Qed.
Theorem acts_text m t : act2str m true = Ok t <-> exists ts, acts_shown qpt m ts /\ t = commas ts.
Proof.
  unfold act2str. split.
  - destruct (act2str_go _ true m) as [ts| |] eqn:E; [|discriminate..]. cbn [bind]. intros [= <-]. exists ts. split; [now apply acts_inv in E|]. apply commas_join.
  - intros (ts & H & ->). rewrite (acts_ok m ts H) by lia. cbn [bind]. now rewrite commas_join.
Qed.
Lemma loop_inv f : forall m, (length m <= f)%nat -> act2str_go f true m = Diverge -> acts_loop qpt m.
Proof.
  induction f as [|f IH]; intros m Lf; cbn [act2str_go]; (destruct (Nat.leb_spec (length m) 4) as [L|L]; [discriminate|]); [lia|].
  destruct (act2str_one m) as [[t r]| |] eqn:E; [|discriminate|destruct (one_total m E)]. cbn [bind]. pose proof (one_rest _ _ _ E) as ->. apply one_shown in E; [|lia].
  destruct (act2str_go f true _) as [ts'| |] eqn:Es; [discriminate..|]. intros _. destruct (Nat.eq_dec (entry_len m) 0) as [E0|N0]; [now apply (lp_here _ m t)|].
  apply (lp_next _ m t); auto. apply IH; [rewrite skipn_length; lia|exact Es].
Qed.
Lemma loop_ok m : acts_loop qpt m -> forall f, act2str_go f true m = Diverge.
Proof.
  intros H. induction H as [m t L Ht E0|m t L Ht H IH]; intros f.
  - induction f as [|f IH]; cbn [act2str_go]; replace (length m <=? 4)%nat with false by (symmetry; now apply Nat.leb_gt); [reflexivity|].
    apply one_shown in Ht; [|exact L]. rewrite Ht. cbn [bind]. rewrite E0. cbn [skipn]. now rewrite IH.
  - destruct f as [|f]; cbn [act2str_go]; replace (length m <=? 4)%nat with false by (symmetry; now apply Nat.leb_gt); [reflexivity|].
    apply one_shown in Ht; [|exact L]. rewrite Ht. cbn [bind]. now rewrite IH.
Qed.
Theorem acts_endless m : act2str m true = Diverge <-> acts_loop qpt m.
Proof.
  unfold act2str. split.
  - intros H. destruct (act2str_go _ true m) as [ts| |] eqn:E; [discriminate..|]. now apply (loop_inv (length m)).
  - intros H. now rewrite (loop_ok m H).
Qed.
(** ** other ways of quoting *)
Lemma one_mono (Q R : bytes -> text -> Prop) b t : (forall p t, Q p t -> R p t) -> shown_one Q b t -> shown_one R b t.
Proof. intros QR H. destruct H; eauto using shown_one, token_mono. Qed.
Lemma nx_mono (Q R : bytes -> text -> Prop) s p t : (forall p t, Q p t -> R p t) -> nx_shows Q s p t -> nx_shows R s p t.
Proof.
  intros QR H. destruct H; try (econstructor; eassumption).
  - eapply ns_load; eauto. eapply shown_mono; eauto.
  - apply ns_note. auto.
  - apply ns_load2. eapply one_mono; eauto.
Qed.
Lemma act_mono (Q R : bytes -> text -> Prop) m t : (forall p t, Q p t -> R p t) -> act_shown Q m t -> act_shown R m t.
Proof. intros QR H. destruct H; eauto using act_shown, one_mono, nx_mono. Qed.
Lemma acts_mono (Q R : bytes -> text -> Prop) m ts : (forall p t, Q p t -> R p t) -> acts_shown Q m ts -> acts_shown R m ts.
Proof. intros QR H. induction H; eauto using acts_shown, act_mono. Qed.
Lemma one_some (Q R : bytes -> text -> Prop) b t : (forall p, exists t, R p t) -> shown_one Q b t -> exists t', shown_one R b t'.
Proof.
  intros HR H. destruct H; eauto using shown_one.
  match goal with K : token_of _ _ _ _ _ |- _ => inversion K; subst end.
  - match goal with K : shows _ _ _ _ _ |- _ => apply (shows_some Q R) in K as (u' & K); auto end. eexists. eapply so_field; [apply tok_field; [eassumption|eassumption]|try reflexivity..].
  - eexists. eapply so_field; [apply tok_bare; eassumption|try reflexivity..].
Qed.
Lemma nx_some (Q R : bytes -> text -> Prop) s p t : (forall p, exists t, R p t) -> nx_shows Q s p t -> exists t', nx_shows R s p t'.
Proof.
  intros HR H. destruct H; try (eexists; econstructor; eassumption).
  - match goal with K : shown_list _ _ _ |- _ => apply (shown_some Q R) in K as (us & K); auto end. eexists. eapply ns_load; eauto.
  - destruct (HR p) as (u & Hu). eexists. apply ns_note; eassumption.
  - match goal with K : shown_one _ _ _ |- _ => apply (one_some Q R) in K as (u & K); auto end. eexists. apply ns_load2; eassumption.
Qed.
Lemma act_some (Q R : bytes -> text -> Prop) m t : (forall p, exists t, R p t) -> act_shown Q m t -> exists t', act_shown R m t'.
Proof.
  intros HR H. destruct H; eauto using act_shown.
  - match goal with K : shown_one _ _ _ |- _ => apply (one_some Q R) in K as (u & K); auto end. eexists. apply as_set; eassumption.
  - match goal with K : nx_shows _ _ _ _ |- _ => apply (nx_some Q R) in K as (u & K); auto end. eexists. apply as_nx; eassumption.
  - match goal with K : shown_one _ _ _ |- _ => apply (one_some Q R) in K as (u & K); auto end. eexists. apply as_nx_set; eassumption.
Qed.
Lemma acts_some (Q R : bytes -> text -> Prop) m ts : (forall p, exists t, R p t) -> acts_shown Q m ts -> exists ts', acts_shown R m ts'.
Proof.
  intros HR H. induction H as [m L|m t ts L Ht H (ts' & IH)]; [exists []; now constructor|]. apply (act_some Q R) in Ht as (t' & Ht); auto. exists (t' :: ts'). now apply al_next.
Qed.
Lemma loop_some (Q R : bytes -> text -> Prop) m : (forall p, exists t, R p t) -> acts_loop Q m -> acts_loop R m.
Proof. intros HR H. induction H as [m t L Ht E0|m t L Ht H IH]; apply (act_some Q R) in Ht as (t' & Ht); auto; [now apply (lp_here _ m t')|now apply (lp_next _ m t')]. Qed.
