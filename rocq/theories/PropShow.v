(** What is printed for arbitrary bytes (C58), and for any note (C50). *)
From Verif Require Import Base PyNum Util PyLib OxmCodec OxmTables Oxm Spec SpecOxm SpecText SpecShow.
From Verif Require Import BaseFacts UtilFacts NumFacts PyLibFacts OxmRead OxmPrint OxmFacts OxmFrame OxmMore TermFacts GramLib OxmGram ShowLib.
From Verif Require Import Nx Ofp4 SpecOfp FlowMod PropAct PropNx.
From Coq Require Import Strings.Ascii.

(** ** C58: what is shown for any bytes *)
Theorem C58_shown : forall b t, oxm2str b true = Ok t -> exists ts, shown_list quoted b ts /\ t = sepby (chr ",") ts.
Proof.
  intros b t H. apply oxm_shown in H as (ts & H & ->). exists ts. split; [|reflexivity]. apply (shown_mono qpt quoted); auto.
  intros p u ->. apply b2a_qp_quoted.
Qed.
(** without an SSID the text is fixed *)
Theorem C58_exactly : forall b ts, shown_list (fun _ _ => False) b ts -> oxm2str b true = Ok (sepby (chr ",") ts).
Proof. intros b ts H. apply oxm_shown. exists ts. split; [|reflexivity]. now apply (shown_mono (fun _ _ => False) qpt). Qed.
Theorem C58_printed : forall b, (exists ts, shown_list quoted b ts) <-> exists t, oxm2str b true = Ok t.
Proof.
  intros b. split.
  - intros (ts & H). apply (shown_some quoted qpt) in H as (ts' & H); [|intros p; now exists (b2a_qp p)].
    exists (sepby (chr ",") ts'). apply oxm_shown. eauto.
  - intros (t & H). apply C58_shown in H as (ts & H & _). eauto.
Qed.
Theorem C58_refused : forall b, ~ (exists ts, shown_list quoted b ts) -> exists e, oxm2str b true = Raise e.
Proof.
  intros b H. destruct (oxm2str b true) as [t|e|] eqn:E; [|eauto|].
  - exfalso. apply H. apply C58_printed. eauto.
  - now apply oxm2str_total in E.
Qed.
(** a quoted name is the bytes themselves unless it has line ends *)
Theorem C58_quoted_bytes : forall b t, quoted b t -> ~ In x0a b -> qp t b.
Proof.
  intros b t (_ & crlf & r & _ & He & Hq) Hn. assert (r = b) as ->; [|exact Hq]. clear Hq.
  induction He as [|b r He IH|b r He IH|x b r Hx Hl He IH]; auto.
  - exfalso. apply Hn. now left.
  - exfalso. apply Hn. right. now left.
  - f_equal. apply IH. intros K. apply Hn. now right.
Qed.
(** an integer that is cut off is shown as if it were complete *)
Theorem C58_short_refuted : forall f n s p, In f registry -> ~ In (fname f) misprinted -> fkind f = KInt n s None -> (length p < n)%nat ->
  oxm2str (hdr f false (Z.of_nat n) ++ p) true = Ok (fname f ++ $"=" ++ number s (num_be p)).
Proof.
  intros f n s p Hf Hm Ek Hl. pose proof (fnum_reg f (reg_accepted f Hf)) as Hn.
  apply (C58_exactly _ [fname f ++ $"=" ++ number s (num_be p)]). unfold hdr. rewrite <- !app_assoc. cbn [app].
  set (e := exp_id (fclass f)). set (L := byte_of (Z.min 255 _)).
  assert (n <= 200)%nat as H2.
  { assert (forallb (fun f => match fkind f with KInt n _ _ => (n <=? 200)%nat | _ => true end) registry = true) as K by (vm_compute; reflexivity).
    pose proof (proj1 (forallb_forall _ _) K f Hf) as E. cbv beta in E. rewrite Ek in E. now apply Nat.leb_le in E. }
  assert (length e <= 4)%nat as He by (unfold e; destruct (fclass f); cbn; lia).
  assert (byte_val L = Z.of_nat (length e + n)) as EL. { unfold L. rewrite byte_of_val, Z.min_r; lia. }
  apply (sl_field _ f false L (e ++ p) p); [|reflexivity|].
  - rewrite EL, Nat2Z.id. fold e. rewrite firstn_all2 by (rewrite app_length; lia). rewrite skipn_app_exact by auto. apply tok_field; [now left|]. rewrite Ek. constructor.
  - apply sl_end. rewrite EL, Nat2Z.id, skipn_all2; [cbn; lia|]. rewrite app_length. lia.
Qed.
Example C58_case :
  oxm2str [x80;x00;x0a;x02;x08;x00; x12;x34;x00;x02;xaa;xbb; xff;xff;x10;x07;xff;x00;xe0;x4d;x61;x3d;x62; x00;x01] true
    = Ok $"eth_type=0x800,?,dot11_ssid=a=3Db"
  /\ oxm2str [x80;x00;x0a;x02;x08;x00; x80;x00;x06;x02;x01;xff] true = Raise StructError
  /\ oxm2str [x80;x00;x0a;x02;x08] true = Ok $"eth_type=0x08"
  /\ oxm2str [x80;x00;xff;x02;x08] true = Raise KeyError.
Proof. repeat split; vm_compute; reflexivity. Qed.
(** notes: the printed text stands for exactly the bytes of the note *)
Theorem C50_quoted : forall b, Z.of_nat (length b) <= 65525 ->
  exists t, quoted b t /\ act_prints_as (note_act b) ($"note(" ++ t ++ $")").
Proof. intros b Hl. exists (b2a_qp b). split; [apply b2a_qp_quoted|now apply C50_prints]. Qed.
Example C50_quoted_case : act_prints_as (note_act [x61; x00; xff; x3d]) $"note(a=00=FF=3D)" /\ qp $"a=00=FF=3D" [x61; x00; xff; x3d].
Proof. split; [vm_compute; reflexivity|]. now apply a2b_qp_inv. Qed.
Print Assumptions C50_quoted.
Print Assumptions C58_shown.
Print Assumptions C58_exactly.
Print Assumptions C58_printed.
Print Assumptions C58_refused.
Print Assumptions C58_quoted_bytes.
Print Assumptions C58_short_refuted.
