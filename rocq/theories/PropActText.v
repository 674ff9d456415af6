(** Property C62: what an action text may look like and what it means, without exception
    (ofp4.py, nx.py, util.py). *)
From Coq Require Import Strings.Ascii.
From Verif Require Import Base PyNum Util PyLib OxmCodec OxmTables Oxm Nx Ofp4 Spec SpecOxm SpecText SpecOfp SpecActText.
From Verif Require Import BaseFacts UtilFacts OxmFacts ActReadLearn OfpTerm GramTok GramField GramAct GramStr.

(** ** C62 *)
(** every accepted text is in the grammar of SpecActText; the bytes are what it means there,
    and as many characters are consumed as it says *)
Theorem C62_grammar : forall s b n, str2act s = Ok (b, n) -> exists r, action_reads notation s b r /\ n = (length s - length r)%nat.
Proof. exact str2act_sound. Qed.
(** every text of the grammar is read, as the grammar says *)
Theorem C62_complete : forall s b r, action_reads notation s b r -> str2act s = Ok (b, (length s - length r)%nat).
Proof. exact str2act_read. Qed.
(** so the accepted texts are exactly those of the grammar *)
Theorem C62_exactly : forall s b n, str2act s = Ok (b, n) <-> exists r, action_reads notation s b r /\ n = (length s - length r)%nat.
Proof. intros s b n. split; [apply str2act_sound|]. intros (r & H & ->). now apply str2act_read. Qed.
(** everything else raises an exception *)
Theorem C62_refused : forall s, (forall b r, ~ action_reads notation s b r) -> exists e, str2act s = Raise e.
Proof.
  intros s Hs. destruct (str2act s) as [[b n]|e|] eqn:E; [|eauto|].
  - apply str2act_sound in E as (r & H & _). now destruct (Hs b r).
  - now apply str2act_nd in E.
Qed.
(** the grammar is unambiguous, and what it leaves is the end of the text *)
Theorem C62_unambiguous : forall s b r b' r', action_reads notation s b r -> action_reads notation s b' r' -> b = b' /\ r = r'.
Proof. exact action_once. Qed.
Theorem C62_rest : forall N s b r, action_reads N s b r -> exists x, s = x ++ r.
Proof. exact action_end. Qed.
(** what a user would write is part of it *)
Theorem C62_covers : forall a u h r, writes_act a u -> act_ok a -> Forall filler h -> follow r ->
  exists r', action_reads notation (h ++ u ++ r) (act_wire a) r' /\ length r' = length r.
Proof.
  intros a u h r Hw Ha Hh Hr. pose proof (act_reads a u h r Hw Ha Hh Hr) as E. apply str2act_sound in E as (r' & H & L).
  exists r'. split; [exact H|]. destruct (action_end _ _ _ _ H) as (x & Ex). apply (f_equal (@length Z)) in Ex. rewrite !app_length in *. lia.
Qed.

(** a derivation, step by step: the tokens, the number, the field and the slaves *)
Definition in_port : field := Field $"in_port" Basic 0 (KPort 4).
Example C62_case : action_reads notation $" bundle(symmetric_l4,7,hrw,in_port,slaves(1,2)), rest"
    (nx_act 12 (be 2 1 ++ be 2 1 ++ be 2 7 ++ id_wire true in_port ++ be 2 2 ++ be 2 0 ++ be 4 0 ++ pad 4 ++ be 2 1 ++ be 2 2 ++ []))
    $", rest".
Proof.
  eapply (ar_call notation _ $" " $"bundle(symmetric_l4,7,hrw,in_port,slaves(1,2))" $", rest" $"bundle" $"symmetric_l4,7,hrw,in_port,slaves(1,2)" _ []).
  - apply next_iff. reflexivity.
  - apply func_iff. reflexivity.
  - discriminate.
  - apply (s_bundle notation _ SymmetricL4 $"7" 7 BdHrw $"in_port" _ $"slaves(1,2)" [1; 2]).
    + apply (words_cons _ [] _ $",7,hrw,in_port,slaves(1,2)"); [apply next_iff; reflexivity|]. apply (words_cons _ $"," _ $",hrw,in_port,slaves(1,2)"); [apply next_iff; reflexivity|].
      apply (words_cons _ $"," _ $",in_port,slaves(1,2)"); [apply next_iff; reflexivity|]. apply (words_cons _ $"," _ $",slaves(1,2)"); [apply next_iff; reflexivity|].
      apply (words_cons _ $"," _ []); [apply next_iff; reflexivity|]. constructor.
    + apply numberish_iff. eexists. reflexivity.
    + unfold in_bytes; cbn; lia.
    + apply (id_field true $"in_port" in_port); [|reflexivity]. right. now left.
    + exists (Some $"1,2"). split; [apply func_iff; reflexivity|]. right. exists $"1,2", [$"1"; $"2"]. split; [split; [reflexivity|discriminate]|]. split; [apply split_iff; reflexivity|].
      split; [repeat constructor; apply numberish_iff; eexists; reflexivity|repeat constructor; unfold in_bytes; cbn; lia].
  - vm_compute. discriminate.
Qed.
Example C62_case2 :
  map str2act [$"learn(priority=5,reg_load(nxm_reg0[0:16]=nxm_reg1[16:32])) x"; $"reg_move(nxm_reg0[0:8],nxm_reg1[8:])"; $"set_tunnel=five"; $"output=1;2"]
  = [ Ok (nx_act 16 (be 2 0 ++ be 2 0 ++ be 2 5 ++ be 8 0 ++ be 2 0 ++ be 1 0 ++ pad 1 ++ be 2 0 ++ be 2 0
            ++ be 2 (16 + 1024) ++ be 4 0x00010204 ++ be 2 16 ++ be 4 0x00010004 ++ be 2 0), 58%nat);
      Raise AssertionError; Raise ValueError; Raise AssertionError ].
Proof. vm_compute. reflexivity. Qed.

(** ** What the grammar takes although nobody would write it *)
(** text behind the numbers is ignored, and an action that takes "=" does without it *)
Theorem C62_junk_refuted :
  str2act $"output=1:2:junk" = str2act $"output=1:2:rest"
  /\ str2act $"push_vlan=0x8100zz" = Ok (act_wire (Ether PushVlan 0x8100), 18%nat)
  /\ str2act $"set_queue 5" = Ok (act_wire (SetQueue 5), 11%nat).
Proof. vm_compute. auto. Qed.
(** an unknown slave type makes a bundle without its field: four bytes are missing *)
Theorem C62_slave_type_refuted : forall u h pb b a pt ps ports r, words u [hash_name h; pb; bdalg_name a; pt; ps] r -> numberish pb b -> in_bytes 2 b ->
  (forall f, readable f -> pt <> fname f) -> slaves_any ps ports ->
  says notation $"bundle" false u (nx_act 12 (be 2 (bdalg_id a) ++ be 2 (hash_id h) ++ be 2 b ++ be 2 (Z.of_nat (length ports)) ++ be 2 0 ++ be 4 0 ++ pad 4 ++ all_be 2 ports)) r.
Proof. intros u h pb b a pt ps ports r W Hb Hi Hp Hs. apply (s_bundle notation u h pb b a pt [] ps ports r W Hb Hi (id_none true pt Hp) Hs). Qed.
(** the name of a port as a slave is never accepted *)
Theorem C62_slave_names_refuted : forall p v, In p (map (fun x => fst (snd x)) reserved ++ map (fun x => snd (snd x)) reserved) -> ~ numberish p v.
Proof.
  intros p v H K. apply numberish_iff in K as (l & K). cbn [In map reserved app fst snd] in H.
  repeat (destruct H as [<-|H]; [vm_compute in K; discriminate K|]). contradiction.
Qed.
(** with "=", resubmit_table takes no table *)
Theorem C62_resubmit_table_refuted : forall u b r, says notation $"resubmit_table" true u b r -> exists port, b = act_wire (ResubmitTable port 255).
Proof.
  intros u b r H. remember $"resubmit_table" as name eqn:E. remember true as ra eqn:Er.
  destruct H; subst; try discriminate; try (vm_compute in E; discriminate E); eauto.
  all: try (destruct k; discriminate). all: try (destruct H as [H|H]; discriminate). destruct H as [[H _]|[H _]]; discriminate.
Qed.
Print Assumptions C62_grammar.
Print Assumptions C62_complete.
Print Assumptions C62_exactly.
Print Assumptions C62_refused.
Print Assumptions C62_unambiguous.
Print Assumptions C62_rest.
Print Assumptions C62_covers.
Print Assumptions C62_slave_type_refuted.
Print Assumptions C62_slave_names_refuted.
Print Assumptions C62_resubmit_table_refuted.
