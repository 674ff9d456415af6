(** The bytes of a message determine the rule it stands for. *)
From Coq Require Import Strings.Ascii.
From Verif Require Import Base PyNum Util Spec SpecOxm SpecOfp SpecMp SpecInject.
From Verif Require Import BaseFacts UtilFacts NumFacts OxmMore OxmFacts FlowMore.

Lemma be_app n x y (r s : bytes) : in_bytes n x -> in_bytes n y -> be n x ++ r = be n y ++ s -> x = y /\ r = s.
Proof. intros Hx Hy E. apply app_inj_len in E as [E ->]; [|now rewrite !be_length]. split; [|reflexivity]. eapply be_inj; eauto. Qed.
Lemma flat_inj {A} (w : A -> bytes) (P : A -> Prop) (R : A -> A -> Prop) : (forall a b r s, P a -> P b -> w a ++ r = w b ++ s -> R a b /\ r = s) -> (forall a, w a <> []) ->
  forall l m, Forall P l -> Forall P m -> flat_map w l = flat_map w m -> Forall2 R l m.
Proof.
  intros H N l. induction l as [|a l IH]; intros m Hl Hm E.
  - destruct m as [|b m]; [constructor|]. cbn [flat_map] in E. symmetry in E. apply app_eq_nil in E as [E _]. now apply N in E.
  - destruct m as [|b m]; [cbn [flat_map] in E; apply app_eq_nil in E as [E _]; now apply N in E|]. cbn [flat_map] in E. inversion Hl; inversion Hm; subst.
    apply H in E as [? E]; auto.
Qed.
Lemma Forall2_eq {A} (l m : list A) : Forall2 eq l m -> l = m.
Proof. induction 1; congruence. Qed.

(** ** Match fields *)
Lemma byte_of_inj a b : 0 <= a < 256 -> 0 <= b < 256 -> byte_of a = byte_of b -> a = b.
Proof. intros Ha Hb E. apply (f_equal byte_val) in E. now rewrite !byte_of_val in E. Qed.
Definition named (f : field) : Prop := f = ct_label_short \/ In f registry.
Lemma numbers : forallb (fun f => (0 <=? fnum f) && (fnum f <? 128)) registry = true.
Proof. vm_compute. reflexivity. Qed.
Lemma named_num f : named f -> 0 <= fnum f < 128.
Proof. intros [->|H]; [cbn; lia|]. pose proof (proj1 (forallb_forall _ _) numbers f H) as K. cbv beta in K. lia. Qed.
Lemma named_same f g : named f -> named g -> fclass f = fclass g -> fnum f = fnum g -> f = g.
Proof.
  assert (N : NoDup (map (fun f => (fclass f, fnum f)) (ct_label_short :: registry))).
  { apply (nodupb_NoDup (fun a b => class_eqb (fst a) (fst b) && (snd a =? snd b))); [|vm_compute; reflexivity]. intros a. unfold class_eqb. now rewrite !Z.eqb_refl. }
  intros Hf Hg Hc Hn. assert (In f (ct_label_short :: registry)) as Ha by (destruct Hf; [left; congruence|now right]). assert (In g (ct_label_short :: registry)) as Hb by (destruct Hg; [left; congruence|now right]).
  clear Hf Hg. revert Ha Hb N. generalize (ct_label_short :: registry). intros l Ha Hb N. induction l as [|c l IH]; [destruct Ha|]. cbn [map] in N. inversion N as [|? ? N1 N2]; subst.
  destruct Ha as [->|Ha], Hb as [->|Hb]; auto; exfalso; apply N1; apply in_map_iff; [exists g|exists f]; split; auto; congruence.
Qed.
Lemma class_id_inj a b : class_id a = class_id b -> a = b.
Proof. destruct a, b; intros E; (reflexivity || discriminate). Qed.
Lemma class_range c : in_bytes 2 (class_id c).
Proof. destruct c; unfold in_bytes; cbn; lia. Qed.
Lemma hdr_inj f g hm hm' n n' (r s : bytes) : named f -> named g -> 0 <= n -> 0 <= n' -> hdr f hm n ++ r = hdr g hm' n' ++ s ->
  fclass f = fclass g /\ fnum f = fnum g /\ hm = hm' /\ r = s
  /\ Z.min 255 (Z.of_nat (length (exp_id (fclass f))) + n) = Z.min 255 (Z.of_nat (length (exp_id (fclass f))) + n').
Proof.
  intros Hf Hg Hn Hn' E. pose proof (named_num f Hf). pose proof (named_num g Hg). unfold hdr in E. rewrite <- !app_assoc in E.
  apply be_app in E as [Ec E]; auto using class_range. apply class_id_inj in Ec. cbn [app] in E. rewrite Ec in *.
  injection E as E1 E2 E3. apply app_inv_head in E3.
  apply byte_of_inj in E1; [|destruct hm; lia|destruct hm'; lia]. apply byte_of_inj in E2; [|lia|lia].
  assert (hm = hm') as -> by (destruct hm, hm'; lia || reflexivity). repeat split; auto. lia.
Qed.
Lemma proper_app t u (r s : bytes) : proper t -> proper u -> wire t ++ r = wire u ++ s -> t = u /\ r = s.
Proof.
  intros [[Hf Hs] Ht] [[Hg Hu] Hv] E. destruct t as [f v m], u as [g w k]. unfold wire, sized, fits in *. cbn [tfield tval tmask] in *. rewrite <- !app_assoc in E.
  apply hdr_inj in E as (Ec & En & Em & E & El); auto; try lia. rewrite <- Ec in Hv.
  assert (L : length (v ++ mask_bytes m) = length (w ++ mask_bytes k)) by lia.
  assert (Lv : length v = length w).
  { rewrite !app_length in L. destruct m, k; cbn [has_mask mask_bytes length] in *; try discriminate; destruct Hs as [_ Hs], Hu as [_ Hu]; lia. }
  rewrite !app_assoc in E. apply app_inj_len in E as [E ->]; [|exact L]. apply app_inj_len in E as [-> E]; [|exact Lv].
  assert (m = k) as -> by (destruct m, k; cbn [has_mask mask_bytes] in *; congruence).
  split; [|reflexivity]. now rewrite (named_same f g Hf Hg Ec En).
Qed.
Lemma wire_nonnil t : wire t <> [].
Proof. destruct t as [[nm c n k] v m]. destruct c; discriminate. Qed.
Lemma tlvs_inj l m : Forall proper l -> Forall proper m -> flat_map wire l = flat_map wire m -> l = m.
Proof. intros Hl Hm E. apply Forall2_eq. eapply (flat_inj wire proper); eauto using proper_app, wire_nonnil. Qed.
Lemma match_app l m (r s : bytes) : Forall proper l -> Forall proper m -> Z.of_nat (4 + length (flat_map wire l)) <= 65535 -> Z.of_nat (4 + length (flat_map wire m)) <= 65535 ->
  match_wire l ++ r = match_wire m ++ s -> l = m /\ r = s.
Proof.
  intros Hl Hm Ll Lm E. unfold match_wire in E. rewrite <- !app_assoc in E. apply app_inv_head in E.
  apply be_app in E as [El E]; [|unfold in_bytes; cbn [Z.of_nat]; change (256 ^ Z.of_nat 2) with 65536; lia|unfold in_bytes; change (256 ^ Z.of_nat 2) with 65536; lia].
  apply app_inj_len in E as [E E']; [|lia]. apply tlvs_inj in E as ->; auto. apply app_inv_head in E'. auto.
Qed.
