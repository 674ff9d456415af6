(** Steady match entries are good ones. *)
From Verif Require Import Base PyNum Util PyLib OxmCodec OxmTables Oxm Spec SpecOxm.
From Verif Require Import BaseFacts UtilFacts NumFacts OxmRead OxmPrint OxmFacts OxmFrame OxmMore.

Lemma registry_fits : forallb (fun f => match width (fkind f) with Some w => Nat.leb (length (exp_id (fclass f)) + 2 * w) 255 | None => true end) registry = true.
Proof. vm_compute. reflexivity. Qed.
Lemma steady_good t : steady t -> sized t -> good t /\ printable t.
Proof.
  intros (Hr & Hp & Hk) [Hv Hm]. split; [|exact Hp]. split; [exact Hr|]. pose proof (proj1 (forallb_forall _ _) registry_fits _ Hr) as Hf. cbv beta in Hf.
  assert (G : good_value (fkind (tfield t)) (tval t) /\ good_mask (fkind (tfield t)) (tval t) (tmask t)).
  { clear Hr Hf Hp. destruct (fkind (tfield t)) as [n st ms|n| | | | | | |n st ms| | |l| |]; cbn in *; try contradiction; (split; [exact Hv|]);
      try (destruct ms; [|rewrite Hk; exact I]); destruct (tmask t) as [mk|]; try exact I; cbn in *; try tauto. }
  destruct G as [G1 G2]. split; [exact G1|]. split; [exact G2|]. unfold fits.
  destruct (width (fkind (tfield t))) as [w|] eqn:Ew; [|destruct (fkind (tfield t)); try discriminate Ew; contradiction].
  apply Nat.leb_le in Hf. rewrite app_length. destruct (tmask t) as [mk|]; cbn [mask_bytes length]; [destruct Hm as [Hm _]|]; lia.
Qed.
Lemma steady_all ts : Forall steady ts -> Forall sized ts -> Forall good ts /\ Forall printable ts.
Proof.
  induction 1 as [|t ts Ht _ IH]; intros Hs; [auto|]. inversion Hs; subst. destruct (steady_good t); auto. destruct IH; auto.
Qed.
