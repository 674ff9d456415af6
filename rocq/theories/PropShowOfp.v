(** What is printed for arbitrary bytes: actions (C59). *)
From Verif Require Import Base PyNum Util PyLib OxmCodec OxmTables Oxm Nx Ofp4 Spec SpecOxm SpecText SpecShow SpecOfp SpecShowOfp.
From Verif Require Import BaseFacts UtilFacts NumFacts PyLibFacts OxmRead OxmPrint OxmFacts OxmFrame OxmMore TermFacts GramLib OxmGram ShowLib.
From Verif Require Import ShowAct ShowAct2 ShowAct3.
From Coq Require Import Strings.Ascii.

(** ** C59: what is shown for any bytes as actions *)
Theorem C59_shown : forall m t, act2str m true = Ok t -> exists ts, acts_shown quoted m ts /\ t = commas ts.
Proof.
  intros m t H. apply acts_text in H as (ts & H & ->). exists ts. split; [|reflexivity]. apply (acts_mono qpt quoted); auto.
  intros p u ->. apply b2a_qp_quoted.
Qed.
(** without quoted text the text is fixed *)
Theorem C59_exactly : forall m ts, acts_shown (fun _ _ => False) m ts -> act2str m true = Ok (commas ts).
Proof. intros m ts H. apply acts_text. exists ts. split; [|reflexivity]. now apply (acts_mono (fun _ _ => False) qpt). Qed.
Theorem C59_printed : forall m, (exists ts, acts_shown quoted m ts) <-> exists t, act2str m true = Ok t.
Proof.
  intros m. split.
  - intros (ts & H). apply (acts_some quoted qpt) in H as (ts' & H); [|intros p; now exists (b2a_qp p)]. exists (commas ts'). apply acts_text. eauto.
  - intros (t & H). apply C59_shown in H as (ts & H & _). eauto.
Qed.
Theorem C59_endless : forall m, acts_loop quoted m <-> act2str m true = Diverge.
Proof.
  intros m. rewrite acts_endless. split; apply loop_some; [intros p; now exists (b2a_qp p)|]. intros p. exists (b2a_qp p). apply b2a_qp_quoted.
Qed.
Theorem C59_refused : forall m, ~ (exists ts, acts_shown quoted m ts) -> ~ acts_loop quoted m -> exists e, act2str m true = Raise e.
Proof.
  intros m H N. destruct (act2str m true) as [t|e|] eqn:E; [|eauto|].
  - exfalso. apply H. apply C59_printed. eauto.
  - exfalso. apply N. now apply C59_endless.
Qed.
(** the field of a set_field action may reach beyond the action *)
Theorem C59_beyond_refuted : exists m t, act2str m true = Ok t /\ m = be 2 25 ++ be 2 8 ++ [x80;x00;x00;x04] ++ be 2 18 ++ be 2 8 ++ pad 4
  /\ t = $"set_in_port=1179656,pop_vlan".
Proof. eexists _, _. split; [|split; reflexivity]. vm_compute. reflexivity. Qed.
Example C59_case :
  act2str (be 2 0 ++ be 2 16 ++ be 4 0xfffffffd ++ be 2 128 ++ pad 6 ++ be 2 99 ++ be 2 8 ++ be 4 7
             ++ be 2 0xffff ++ be 2 24 ++ be 4 0x2320 ++ be 2 7 ++ be 2 0x103 ++ [x00;x01;x00;x04] ++ be 8 5 ++ [xaa;xbb]) true
    = Ok $"output=controller:0x80,?,reg_load(nxm_reg0)"
  /\ act2str (be 2 0xffff ++ be 2 56 ++ be 4 0x2320 ++ be 2 16 ++ pad 22 ++ be 2 0x1010 ++ be 2 0x800 ++ [x80;x00;x0a;x02] ++ be 2 0
                ++ be 2 0x820 ++ [x00;x01;x00;x04] ++ be 2 3) true = Ok $"learn(eth_type=0x800,output(nxm_reg0[3:35]))"
  /\ act2str (be 2 0xffff ++ be 2 16 ++ be 4 0x2320 ++ be 2 2 ++ pad 2) true = Raise StructError
  /\ act2str (be 2 99 ++ be 2 0 ++ pad 4) true = Diverge.
Proof. repeat split; vm_compute; reflexivity. Qed.
Print Assumptions C59_shown.
Print Assumptions C59_exactly.
Print Assumptions C59_printed.
Print Assumptions C59_endless.
Print Assumptions C59_refused.
Print Assumptions C59_beyond_refuted.
Print Assumptions C59_case.
