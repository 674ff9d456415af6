(** C78: lists of field names, for all texts and all bytes. *)
From Coq Require Import Strings.Ascii.
From Verif Require Import Base PyNum Util PyLib OxmCodec OxmTables Oxm Spec SpecOxm SpecText SpecActText SpecShow SpecIds.
From Verif Require Import BaseFacts UtilFacts OxmFacts OxmMore TermFacts Ids.

(** every text is read, and stands for one list of fields *)
Theorem C78_exactly : forall s hm b, str2oxmid s hm = Ok b <-> exists fs, fields_named s fs /\ b = flat_map (id_wire hm) fs.
Proof.
  intros s hm b. split.
  - intros H. destruct (names_total s) as [fs Hfs]. exists fs. split; auto. rewrite (names_bytes _ _ _ Hfs) in H. congruence.
  - intros (fs & Hfs & ->). now apply names_bytes.
Qed.
Theorem C78_read : forall s, exists fs, fields_named s fs.
Proof. exact names_total. Qed.
Theorem C78_unambiguous : forall s fs fs', fields_named s fs -> fields_named s fs' -> fs = fs'.
Proof. exact names_one. Qed.
(** every byte string *)
Theorem C78_shown : forall b t, oxmid2str b true = Ok t <-> exists ts, ids_shown b ts /\ t = sepby (chr ",") ts.
Proof. exact ids_text. Qed.
Theorem C78_refused : forall b, ~ (exists ts, ids_shown b ts) <-> exists e, oxmid2str b true = Raise e.
Proof.
  intros b. split.
  - intros H. destruct (oxmid2str b true) as [t|e|] eqn:E; [|eauto|now apply oxmid2str_total in E]. destruct H. apply ids_text in E as (ts & H & _). eauto.
  - intros [e He] [ts H]. rewrite (proj2 (ids_text b _) (ex_intro _ ts (conj H eq_refl))) in He. discriminate.
Qed.
(** so a text is brought to the names in it, separated by commas *)
Theorem C78_normal : forall s fs hm, fields_named s fs -> Forall (fun f => In f registry /\ fname f <> $"nxm_ip_frag") fs ->
  exists b, str2oxmid s hm = Ok b /\ oxmid2str b true = Ok (sepby (chr ",") (map fname fs)).
Proof.
  intros s fs hm H Hf. exists (flat_map (id_wire hm) fs). split; [now apply names_bytes|].
  rewrite ids_print by (eapply Forall_impl; [|exact Hf]; intros ? [? ?]; assumption). do 2 f_equal. apply map_ext_in. intros f K.
  apply (proj1 (Forall_forall _ _) Hf) in K as [_ K]. unfold id_name. destruct (text_eqb (fname f) $"nxm_ip_frag") eqn:E; [|reflexivity].
  apply text_eqb_eq in E. congruence.
Qed.
Example C78_case : str2oxmid $" eth_type, what = vlan_vid ,nxm_tun_id=5" false = Ok [x80; x00; x0a; x02; x80; x00; x0c; x02; x00; x01; x20; x08]
  /\ oxmid2str [x80; x00; x0a; x77; xff; xff; x4a; x01; xff; x00; xe0; x4d; x12; x34; x00; x00; xff; xff; x00; x00; x00; x00; x00; x01; x00] true
     = Ok $"eth_type,radiotap_vht,?,?"
  /\ oxmid2str [x80; x00; x0a; x02; xff; xff; x4a; x01; xff] true = Raise StructError
  /\ oxmid2str [x80; x00; xc8; x02] true = Raise KeyError.
Proof. vm_compute. auto. Qed.
(** misspelt names are dropped without a word *)
Theorem C78_typo_refuted : exists s, fields_named s [] /\ s = $"eth_typ,vlan" /\ str2oxmid s false = Ok [].
Proof.
  eexists. split; [|split; [reflexivity|vm_compute; reflexivity]]. destruct (names_total $"eth_typ,vlan") as [fs H].
  pose proof (names_bytes _ _ false H) as E. destruct fs as [|f fs]; [exact H|]. exfalso. cbn [flat_map] in E.
  assert (str2oxmid $"eth_typ,vlan" false = Ok []) as E' by (vm_compute; reflexivity). rewrite E' in E.
  pose proof (id_wire_length false f) as L. destruct (id_wire false f); [cbn in L; lia|discriminate].
Qed.
Print Assumptions C78_exactly.
Print Assumptions C78_read.
Print Assumptions C78_unambiguous.
Print Assumptions C78_shown.
Print Assumptions C78_refused.
Print Assumptions C78_normal.
Print Assumptions C78_case.
Print Assumptions C78_typo_refuted.
