(** The bytes of an action determine it. *)
From Coq Require Import Strings.Ascii.
From Verif Require Import Base PyNum Util Spec SpecOxm SpecOfp SpecMp SpecInject.
From Verif Require Import BaseFacts UtilFacts NumFacts OxmMore OxmFacts FlowMore Inject.

Lemma in2 n : 0 <= n <= 65535 -> in_bytes 2 n.
Proof. intros H. unfold in_bytes. change (256 ^ Z.of_nat 2) with 65536. lia. Qed.
Lemma std_length t p : length (std_act t p) = (4 + length p)%nat.
Proof. unfold std_act. rewrite !app_length, !be_length. lia. Qed.
Lemma std_app t u p q (r s : bytes) : in_bytes 2 t -> in_bytes 2 u -> Z.of_nat (length (std_act t p)) <= 65535 -> Z.of_nat (length (std_act u q)) <= 65535 ->
  std_act t p ++ r = std_act u q ++ s -> t = u /\ p = q /\ r = s.
Proof.
  rewrite !std_length. intros Ht Hu Hp Hq E. unfold std_act in E. rewrite <- !app_assoc in E. apply be_app in E as [-> E]; auto.
  apply be_app in E as [El E]; [|apply in2; lia|apply in2; lia]. apply app_inj_len in E as [-> ->]; [auto|lia].
Qed.
(** type, Nicira subtype and body *)
Definition kindno (a : action) : Z :=
  match a with
  | Output _ _ => 0 | Noarg k => noarg_type k | SetMplsTtl _ => 15 | SetQueue _ => 21 | GroupAct _ => 22 | Ether k _ => ether_type k
  | SetField _ => 25 | SetNwTtl _ => 23 | _ => 0xffff
  end.
Definition subno (a : action) : option Z :=
  match a with
  | Resubmit _ => Some 1 | SetTunnel _ => Some 2 | PopQueue => Some 5 | RegMove _ _ _ _ _ => Some 6 | RegLoad _ _ _ _ => Some 7 | Note _ => Some 8
  | SetTunnel64 _ => Some 9 | Multipath _ _ _ _ _ _ _ _ => Some 10 | Bundle _ _ _ _ _ => Some 12 | BundleLoad _ _ _ _ _ _ _ => Some 13 | ResubmitTable _ _ => Some 14
  | OutputReg false _ _ _ => Some 15 | Learn _ => Some 16 | Exit => Some 17 | CntIds _ => Some 21 | OutputReg true _ _ _ => Some 32 | RegLoad2 _ => Some 33
  | _ => None
  end.
Definition body (a : action) : bytes :=
  match a with
  | Output p m => be 4 p ++ be 2 m ++ pad 6
  | Noarg k => pad 4
  | SetMplsTtl n => be 1 n ++ pad 3
  | SetQueue n => be 4 n
  | GroupAct n => be 4 n
  | Ether k n => be 2 n ++ pad 2
  | SetField t => wire t
  | Resubmit p => be 2 p ++ be 1 255
  | SetTunnel v => be 4 v
  | PopQueue => []
  | RegMove s slo d dlo n => be 2 n ++ be 2 slo ++ be 2 dlo ++ id_wire false s ++ id_wire false d
  | RegLoad f lo n v => be 2 (ofs_nbits lo n) ++ id_wire false f ++ be 8 v
  | SetTunnel64 v => be 8 v
  | Multipath h b a l arg d lo n =>
      be 2 (hash_id h) ++ be 2 b ++ pad 2 ++ be 2 (mpalg_id a) ++ be 2 l ++ be 4 arg ++ pad 2 ++ be 2 (ofs_nbits lo n) ++ id_wire false d
  | Bundle h b a s ps =>
      be 2 (bdalg_id a) ++ be 2 (hash_id h) ++ be 2 b ++ id_wire false s ++ be 2 (Z.of_nat (length ps)) ++ be 2 0 ++ be 4 0 ++ pad 4 ++ all_be 2 ps
  | ResubmitTable p t => be 2 p ++ be 1 t
  | OutputReg false f n m => be 2 (ofs_nbits 0 n) ++ id_wire false f ++ be 2 m ++ pad 6
  | Exit => []
  | CntIds ids => be 2 (Z.of_nat (length ids)) ++ pad 4 ++ all_be 2 ids
  | OutputReg true f n m => be 2 (ofs_nbits 0 n) ++ be 2 m ++ id_wire false f
  | RegLoad2 t => wire t
  | SetNwTtl n => be 1 n
  | Note b => b
  | BundleLoad h b a s d n ps =>
      be 2 (bdalg_id a) ++ be 2 (hash_id h) ++ be 2 b ++ id_wire false s ++ be 2 (Z.of_nat (length ps)) ++ be 2 (ofs_nbits 0 n) ++ id_wire true d ++ pad 4 ++ all_be 2 ps
  | Learn l => lfixed_wire l ++ flat_map lspec_wire (lspecs l)
  end.
Definition prefix (a : action) : bytes := match subno a with Some s => be 4 0x2320 ++ be 2 s | None => [] end.
Definition filled (a : action) : bytes :=
  match subno a, a with
  | _, Note _ => []
  | None, SetField t => pad_to8 (4 + length (wire t))
  | None, _ => []
  | Some s, _ => pad_to8 (4 + length (be 4 0x2320 ++ be 2 s ++ body a))
  end.
Lemma act_shape a : act_wire a = std_act (kindno a) (prefix a ++ body a ++ filled a).
Proof. destruct a; try destruct v2; cbn [act_wire prefix kindno subno filled body]; unfold nx_act, padded_act, std_act; rewrite ?app_nil_r; cbn [app]; rewrite <- ?app_assoc; try reflexivity. Qed.
Lemma kind_range a : in_bytes 2 (kindno a).
Proof. destruct a; try (apply in2; cbn; lia); destruct k; apply in2; cbn; lia. Qed.
Lemma sub_range a s : subno a = Some s -> in_bytes 2 s.
Proof. destruct a; try destruct v2; cbn [subno]; intros [= <-]; apply in2; lia. Qed.
Lemma act_app_parts a b (r s : bytes) : act_ok a -> act_ok b -> act_wire a ++ r = act_wire b ++ s ->
  kindno a = kindno b /\ subno a = subno b /\ body a ++ filled a = body b ++ filled b /\ r = s.
Proof.
  intros [_ Ha] [_ Hb] E. rewrite !act_shape in *. apply std_app in E as (Ek & E & ->); auto using kind_range. split; [exact Ek|].
  assert (K : forall a, kindno a = 0xffff <-> exists s, subno a = Some s).
  { clear. intros a. destruct a; try destruct k; try destruct v2; cbn; (split; [intros H; try discriminate; eauto|intros [s H]; (discriminate || reflexivity)]). }
  unfold prefix in E. destruct (subno a) as [i|] eqn:Ea, (subno b) as [j|] eqn:Eb.
  - rewrite <- !app_assoc in E. apply app_inv_head in E. apply be_app in E as [-> E]; eauto using sub_range.
  - assert (kindno a = 0xffff) as Q by (apply K; eauto). rewrite Ek in Q. apply K in Q as [q Q]. congruence.
  - assert (kindno b = 0xffff) as Q by (apply K; eauto). rewrite <- Ek in Q. apply K in Q as [q Q]. congruence.
  - auto.
Qed.
(** same name, so the same constructor *)
Definition shape (a : action) : Z :=
  match subno a with Some s => 65536 + s | None => kindno a end.

(** ** Parts *)
Lemma id_app hm f g (r s : bytes) : named f -> named g -> id_wire hm f ++ r = id_wire hm g ++ s -> f = g /\ r = s.
Proof.
  intros Hf Hg E. assert (H : fclass f = fclass g /\ fnum f = fnum g /\ r = s).
  { unfold id_wire in E. cbv zeta in E. destruct (hm && flaggable (fkind f)), (hm && flaggable (fkind g)); apply hdr_inj in E; auto; try (destruct (width (fkind f)); lia); try (destruct (width (fkind g)); lia); tauto. }
  destruct H as (Hc & Hn & ->). split; [now apply named_same|reflexivity].
Qed.
Lemma all_be_length n l : length (all_be n l) = (n * length l)%nat.
Proof. induction l as [|x l IH]; [cbn; lia|]. unfold all_be in *. cbn [flat_map length]. rewrite app_length, be_length, IH. lia. Qed.
Lemma all_be_app l m (r s : bytes) : Forall (in_bytes 2) l -> Forall (in_bytes 2) m -> length l = length m -> all_be 2 l ++ r = all_be 2 m ++ s -> l = m.
Proof.
  revert m. induction l as [|x l IH]; intros [|y m] Hl Hm Hn E; try discriminate; auto. unfold all_be in E. cbn [flat_map] in E. rewrite <- !app_assoc in E. inversion Hl; inversion Hm; subst.
  apply be_app in E as [-> E]; auto. f_equal. apply IH; auto.
Qed.
Lemma ofs_inj lo n lo' n' : 1 <= n <= 64 -> 1 <= n' <= 64 -> ofs_nbits lo n = ofs_nbits lo' n' -> lo = lo' /\ n = n'.
Proof. unfold ofs_nbits. intros. lia. Qed.
Lemma ofs_range lo n : 0 <= lo < 1024 -> 1 <= n <= 64 -> in_bytes 2 (ofs_nbits lo n).
Proof. intros. apply in2. unfold ofs_nbits. lia. Qed.
Lemma body_le a : act_ok a -> Z.of_nat (length (body a)) <= 65535.
Proof. intros [_ H]. rewrite act_shape, std_length, !app_length in H. lia. Qed.

(** learn *)
Lemma lvalue_range k l d : Forall lentry_ok l -> in_bytes (lkey_size k) d -> in_bytes (lkey_size k) (lvalue k d l).
Proof.
  intros H. revert d. induction H as [|e l He Hl IH]; intros d Hd; [exact Hd|]. destruct e as [j v|s]; cbn [lvalue]; apply IH; auto.
  cbn [lentry_ok] in He. destruct k, j; cbn [lkey_eqb] in *; auto.
Qed.
Lemma zero_range n : in_bytes n 0.
Proof. unfold in_bytes. pose proof (Z.pow_pos_nonneg 256 (Z.of_nat n)). lia. Qed.
Lemma lfixed_app l m (r s : bytes) : Forall lentry_ok l -> Forall lentry_ok m -> lfixed_wire l ++ r = lfixed_wire m ++ s -> (forall k, lvalue k 0 l = lvalue k 0 m) /\ r = s.
Proof.
  intros Hl Hm E. unfold lfixed_wire in E. cbv zeta in E. rewrite <- !app_assoc in E.
  assert (R : forall k l, Forall lentry_ok l -> in_bytes (lkey_size k) (lvalue k 0 l)) by (intros; apply lvalue_range; auto using zero_range).
  apply be_app in E as [E1 E]; auto. apply be_app in E as [E2 E]; auto. apply be_app in E as [E3 E]; auto. apply be_app in E as [E4 E]; auto. apply be_app in E as [E5 E]; auto. apply be_app in E as [E6 E]; auto.
  apply app_inv_head in E. apply be_app in E as [E7 E]; auto. apply be_app in E as [E8 E]; auto. split; [|exact E]. intros []; auto.
Qed.
Lemma bits_app f g lo lo' (r s : bytes) : lbits_ok f lo -> lbits_ok g lo' -> bits_wire f lo ++ r = bits_wire g lo' ++ s -> f = g /\ lo = lo' /\ r = s.
Proof.
  intros (Hf & _ & Hl) (Hg & _ & Hl') E. unfold bits_wire in E. rewrite <- !app_assoc in E. apply id_app in E as [-> E]; [|now right|now right]. apply be_app in E as [-> ->]; auto.
Qed.
Definition shead (s : lspec) : Z :=
  l_bits s + 1024 * (match l_dst s with ToMatch _ _ => 0 | ToLoad _ _ => 1 | ToOutput => 2 end) + 4096 * (match l_src s with FromBits _ _ => 0 | FromValue _ => 1 end).
Lemma lspec_shape s : lspec_wire s = be 2 (shead s) ++ match l_src s with FromBits f lo => bits_wire f lo | FromValue v => be (imm_size (l_bits s)) v end
  ++ match l_dst s with ToMatch f lo | ToLoad f lo => bits_wire f lo | ToOutput => [] end.
Proof. destruct s as [n [f lo|v] [g lo'|g lo'|]]; reflexivity. Qed.
Lemma shead_range s : lspec_ok s -> 1 <= shead s <= 65535.
Proof. intros (Hn & _). unfold shead. destruct (l_dst s), (l_src s); lia. Qed.
Lemma lspec_app a b (r s : bytes) : lspec_ok a -> lspec_ok b -> lspec_wire a ++ r = lspec_wire b ++ s -> a = b /\ r = s.
Proof.
  intros Ha Hb E. pose proof (shead_range a Ha). pose proof (shead_range b Hb). rewrite !lspec_shape, <- !app_assoc in E. apply be_app in E as [Eh E]; [|apply in2; lia|apply in2; lia].
  destruct Ha as (Hn & Hs & Hd), Hb as (Hn' & Hs' & Hd'). destruct a as [n sr d], b as [n' sr' d']. unfold shead in *. cbn [l_bits l_src l_dst] in *.
  assert (n = n') as <- by (destruct sr, sr', d, d'; lia).
  assert (K : exists r' s', sr = sr' /\ match d with ToMatch f lo | ToLoad f lo => bits_wire f lo | ToOutput => [] end ++ r = r' /\ match d' with ToMatch f lo | ToLoad f lo => bits_wire f lo | ToOutput => [] end ++ s = s' /\ r' = s').
  { eexists. eexists. destruct sr as [f lo|v], sr' as [g lo'|v']; try (exfalso; destruct d, d'; lia).
    - apply bits_app in E as (-> & -> & E); auto.
    - apply be_app in E as [-> E]; auto. }
  destruct K as (r' & s' & -> & E1 & E2 & E3). subst r' s'.
  destruct d as [f lo|f lo|], d' as [g lo'|g lo'|]; try (exfalso; destruct sr'; lia); [| |now cbn in E3; subst]; apply bits_app in E3 as (-> & -> & ->); auto.
Qed.
Lemma lspec_not_pad a l k : lspec_ok a -> lspec_wire a ++ l <> pad k.
Proof.
  intros Ha E. pose proof (shead_range a Ha) as R. rewrite lspec_shape, <- app_assoc in E. assert (L : (2 <= k)%nat) by (apply (f_equal (@length _)) in E; rewrite app_length, be_length in E; unfold pad in E; rewrite repeat_length in E; lia).
  replace k with (2 + (k - 2))%nat in E by lia. unfold pad in E. rewrite repeat_app in E. change (repeat x00 2) with (be 2 0) in E. apply be_app in E as [E _]; [lia|apply in2; lia|apply in2; lia].
Qed.
Lemma lspecs_pad l m j k : Forall lspec_ok l -> Forall lspec_ok m -> flat_map lspec_wire l ++ pad j = flat_map lspec_wire m ++ pad k -> l = m.
Proof.
  intros Hl. revert m. induction Hl as [|a l Ha Hl IH]; intros m Hm E.
  - destruct Hm as [|b m Hb Hm]; [reflexivity|]. cbn [flat_map app] in E. rewrite <- app_assoc in E. symmetry in E. now apply lspec_not_pad in E.
  - destruct Hm as [|b m Hb Hm]; [cbn [flat_map app] in E; rewrite <- app_assoc in E; now apply lspec_not_pad in E|]. cbn [flat_map] in E. rewrite <- !app_assoc in E.
    apply lspec_app in E as [-> E]; auto. f_equal. auto.
Qed.
Lemma lspecs_ok l : Forall lentry_ok l -> Forall lspec_ok (lspecs l).
Proof. induction 1 as [|e l He Hl IH]; [constructor|]. unfold lspecs in *. cbn [flat_map]. destruct e; cbn [app]; auto. Qed.

(** ** The theorem *)
Ltac peel E := apply be_app in E as [? E]; [|first [assumption|apply in2; lia|apply ofs_range; lia]|first [assumption|apply in2; lia|apply ofs_range; lia]].
Theorem act_app a b (r s : bytes) : act_proper a -> act_proper b -> act_wire a ++ r = act_wire b ++ s -> same_act a b /\ r = s.
Proof.
  intros [Ha Ta] [Hb Tb] E. destruct (act_app_parts a b r s Ha Hb E) as (Ek & Es & Eb & ->). split; [|reflexivity]. clear E.
  assert (L : Z.of_nat (length (body a)) <= 65535 /\ Z.of_nat (length (body b)) <= 65535) by auto using body_le. destruct Ha as [Ha _], Hb as [Hb _].
  destruct a; destruct b; cbn [kindno subno] in Ek, Es; try (exfalso; discriminate); try (exfalso; destruct k; discriminate); try (exfalso; destruct k; destruct k0; discriminate);
    try (exfalso; destruct v2; discriminate); cbn [same_act]; cbn [body] in Eb, L; cbn [act_tlvs] in Ta, Tb.
  all: cbv beta iota in Ha, Hb; rewrite <- ?app_assoc in Eb.
  - destruct Ha, Hb. peel Eb. peel Eb. congruence.
  - destruct k, k0; (reflexivity || discriminate).
  - peel Eb. congruence.
  - peel Eb. congruence.
  - peel Eb. congruence.
  - peel Eb. destruct k, k0; (congruence || discriminate).
  - inversion Ta; inversion Tb; subst. apply proper_app in Eb as [-> _]; auto.
  - unfold nx_port in *. peel Eb. congruence.
  - unfold nx_port in *. destruct Ha, Hb. peel Eb. peel Eb. congruence.
  - peel Eb. congruence.
  - peel Eb. congruence.
  - rewrite !app_length, !all_be_length in L. peel Eb. apply app_inv_head in Eb. apply all_be_app in Eb; auto; [congruence|lia].
  - destruct Ha as (Hf & _ & (w & _ & Hw & Hl) & H0 & H1 & Hv), Hb as (Hf' & _ & (w' & _ & Hw' & Hl') & H0' & H1' & Hv'). peel Eb.
    apply ofs_inj in H as [-> ->]; [|lia|lia]. apply id_app in Eb as [-> Eb]; [|now right|now right].
    assert (P : forall m, m <= 64 -> 2 ^ m <= 256 ^ Z.of_nat 8) by (intros m Hm; change (256 ^ Z.of_nat 8) with (2 ^ 64); apply Z.pow_le_mono_r; lia).
    apply be_app in Eb as [-> _]; [reflexivity| |]; unfold in_bytes; (split; [lia|]); (eapply Z.lt_le_trans; [eapply proj2; eassumption|apply P; lia]).
  - inversion Ta; inversion Tb; subst. apply proper_app in Eb as [-> _]; auto.
  - destruct Ha as (F1 & F2 & R1 & R2 & R3), Hb as (F1' & F2' & R1' & R2' & R3'). peel Eb. peel Eb. peel Eb. apply id_app in Eb as [-> Eb]; [|now right|now right]. apply id_app in Eb as [-> Eb]; [|now right|now right]. congruence.
  - destruct Ha as (F & R1 & R2 & R3 & R4 & R5), Hb as (F' & R1' & R2' & R3' & R4' & R5').
    apply be_app in Eb as [Eh Eb]; [|destruct h; apply in2; cbn; lia|destruct h0; apply in2; cbn; lia]. peel Eb. apply app_inv_head in Eb.
    apply be_app in Eb as [El Eb]; [|destruct a; apply in2; cbn; lia|destruct a0; apply in2; cbn; lia]. peel Eb. peel Eb. apply app_inv_head in Eb. apply be_app in Eb as [Eo Eb]; [|apply ofs_range; lia|apply ofs_range; lia].
    apply ofs_inj in Eo as [-> ->]; auto. apply id_app in Eb as [-> Eb]; [|now right|now right]. subst. destruct h, h0; try discriminate; destruct a, a0; (reflexivity || discriminate).
  - destruct Ha as (F & _ & R & Rs), Hb as (F' & _ & R' & Rs'). rewrite !app_length, !all_be_length in L.
    apply be_app in Eb as [El Eb]; [|destruct a; apply in2; cbn; lia|destruct a0; apply in2; cbn; lia]. apply be_app in Eb as [Eh Eb]; [|destruct h; apply in2; cbn; lia|destruct h0; apply in2; cbn; lia]. peel Eb.
    apply id_app in Eb as [-> Eb]; [|now right|now right]. peel Eb. repeat apply app_inv_head in Eb. apply all_be_app in Eb as ->; auto; [|lia]. subst. destruct h, h0; try discriminate; destruct a, a0; (reflexivity || discriminate).
  - destruct Ha as (F & _ & R & Rm), Hb as (F' & _ & R' & Rm'). assert (v2 = v0) as <- by (destruct v2, v0; (reflexivity || discriminate)). destruct v2; cbn [body] in Eb; rewrite <- !app_assoc in Eb.
    + apply be_app in Eb as [Eo Eb]; [|apply ofs_range; lia|apply ofs_range; lia]. apply ofs_inj in Eo as [_ ->]; [|lia|lia]. peel Eb. apply id_app in Eb as [-> Eb]; [|now right|now right]. congruence.
    + apply be_app in Eb as [Eo Eb]; [|apply ofs_range; lia|apply ofs_range; lia]. apply ofs_inj in Eo as [_ ->]; [|lia|lia]. apply id_app in Eb as [-> Eb]; [|now right|now right]. peel Eb. congruence.
  - reflexivity.
  - reflexivity.
  - peel Eb. congruence.
  - cbn [filled subno] in Eb. rewrite !app_nil_r in Eb. congruence.
  - destruct Ha as (F & _ & G & R & Rn & Rs), Hb as (F' & _ & G' & R' & Rn' & Rs'). rewrite !app_length, !all_be_length in L.
    apply be_app in Eb as [El Eb]; [|destruct a; apply in2; cbn; lia|destruct a0; apply in2; cbn; lia]. apply be_app in Eb as [Eh Eb]; [|destruct h; apply in2; cbn; lia|destruct h0; apply in2; cbn; lia]. peel Eb.
    apply id_app in Eb as [-> Eb]; [|now right|now right]. peel Eb. apply be_app in Eb as [Eo Eb]; [|apply ofs_range; lia|apply ofs_range; lia]. apply ofs_inj in Eo as [_ ->]; auto.
    apply id_app in Eb as [-> Eb]; [|now right|now right]. apply app_inv_head in Eb. apply all_be_app in Eb as ->; auto; [|lia]. subst. destruct h, h0; try discriminate; destruct a, a0; (reflexivity || discriminate).
  - apply lfixed_app in Eb as [Ev Eb]; auto. split; [exact Ev|]. unfold filled in Eb. cbn [subno] in Eb. unfold pad_to8 in Eb. eapply lspecs_pad; [| |exact Eb]; now apply lspecs_ok.
Qed.
Lemma act_nonnil a : act_wire a <> [].
Proof. rewrite act_shape. unfold std_act. intros E. apply (f_equal (@length _)) in E. rewrite app_length, be_length in E. discriminate. Qed.
Lemma acts_inj l m : Forall act_proper l -> Forall act_proper m -> acts_wire l = acts_wire m -> Forall2 same_act l m.
Proof. intros Hl Hm E. eapply (flat_inj act_wire act_proper); eauto using act_app, act_nonnil. Qed.
