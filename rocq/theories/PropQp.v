(** C76: the printed text of every byte string, names and notes included. *)
From Verif Require Import Base PyNum Util PyLib OxmCodec OxmTables Oxm Nx Ofp4 Spec SpecOxm SpecOfp SpecMp SpecText SpecShow SpecShowOfp SpecShowMsg SpecQp.
From Verif Require Import BaseFacts ShowLib ShowAct3 ShowMsg ShowMsg2 ShowMsg3 ShowMsg4 Qp.
From Coq Require Import Strings.Ascii.

Lemma qpt_quotes p u : qpt p u -> quotes p u. Proof. intros ->. now apply quotes_iff. Qed.
Lemma quotes_qpt p u : quotes p u -> qpt p u. Proof. apply quotes_iff. Qed.

(** ** C76 *)
(** every byte string has one quoted text; short ones are written byte by byte *)
Theorem C76_quoted : forall b, exists! t, quotes b t.
Proof. intros b. exists (b2a_qp b). split; [now apply quotes_iff|]. intros t H. symmetry. now apply quotes_iff. Qed.
Theorem C76_short : forall b, (length b <= 25)%nat -> ~ In x0a b -> ~ In x0d b -> hd_error b <> Some x2e -> quotes b (quote (map byte_val b)).
Proof. exact quotes_short. Qed.
Theorem C76_match : forall b t, oxm2str b true = Ok t <-> exists ts, shown_list quotes b ts /\ t = sepby (chr ",") ts.
Proof. intros b t. rewrite oxm_shown. split; intros (ts & H & ->); exists ts; (split; [|reflexivity]); revert H; apply shown_mono; [exact qpt_quotes|exact quotes_qpt]. Qed.
Theorem C76_acts : forall m t, act2str m true = Ok t <-> exists ts, acts_shown quotes m ts /\ t = commas ts.
Proof. intros m t. rewrite acts_text. split; intros (ts & H & ->); exists ts; (split; [|reflexivity]); revert H; apply acts_mono; [exact qpt_quotes|exact quotes_qpt]. Qed.
Theorem C76_insts : forall m t, inst2str m true = Ok t <-> exists ts, insts_shown quotes m ts /\ t = commas ts.
Proof. intros m t. rewrite insts_text. split; intros (ts & H & ->); exists ts; (split; [|reflexivity]); revert H; apply insts_mono; [exact qpt_quotes|exact quotes_qpt]. Qed.
Theorem C76_flow : forall m t, mod2str m = Ok t <-> flow_shown quotes m t.
Proof. intros m t. rewrite flow_text_shown. split; apply flow_mono; [exact qpt_quotes|exact quotes_qpt]. Qed.
Theorem C76_group : forall m t, group2str m = Ok t <-> group_shown quotes m t.
Proof. intros m t. rewrite group_text_shown. split; apply group_mono; [exact qpt_quotes|exact quotes_qpt]. Qed.
Theorem C76_flows : forall m t, mpflow2text m = Ok t <-> exists ts, messages (fmsg_shown quotes) m ts /\ t = lines ts.
Proof. intros m t. rewrite mpflow_text. split; intros (ts & H & ->); exists ts; (split; [|reflexivity]); revert H; apply messages_mono, fmsg_mono; [exact qpt_quotes|exact quotes_qpt]. Qed.
Theorem C76_descs : forall m t, mpgroupdesc2text m = Ok t <-> exists ts, messages (dmsg_shown quotes) m ts /\ t = lines ts.
Proof. intros m t. rewrite mpdesc_text. split; intros (ts & H & ->); exists ts; (split; [|reflexivity]); revert H; apply messages_mono, dmsg_mono; [exact qpt_quotes|exact quotes_qpt]. Qed.
Example C76_case :
  quotes (map z2b (map (fun _ => 97) (seq 0 75) ++ [98; 99; 32; 13; 10; 46; 10; 61; 255; 32])) (repeat 97 75 ++ $"=" ++ [13; 10] ++ $"bc=20" ++ [13; 10] ++ $"=2E" ++ [13; 10] ++ $"=3D=FF=20")
  /\ quotes (map z2b $"a b.c") $"a b.c" /\ quotes (map z2b $".") $"=2E" /\ quotes (map z2b $"a ") $"a=20".
Proof. rewrite !quotes_iff. repeat split; vm_compute; reflexivity. Qed.
(** the line ends are not kept, and a blank before one can make its line too long *)
Theorem C76_eol_refuted : exists b c t, b <> c /\ quotes b t /\ quotes c t.
Proof. exists [x0a; x0d; x0a], [x0a; x0a], [10; 10]. rewrite !quotes_iff. split; [discriminate|split; vm_compute; reflexivity]. Qed.
Print Assumptions C76_quoted.
Print Assumptions C76_short.
Print Assumptions C76_match.
Print Assumptions C76_acts.
Print Assumptions C76_insts.
Print Assumptions C76_flow.
Print Assumptions C76_group.
Print Assumptions C76_flows.
Print Assumptions C76_descs.
Print Assumptions C76_case.
Print Assumptions C76_eol_refuted.
