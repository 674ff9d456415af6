(** Which exceptions can be raised: by the readers (C72) and by the printers (C73). *)
From Verif Require Import Base PyNum Util PyLib OxmCodec OxmTables Oxm Nx Ofp4 Spec SpecOxm SpecOfp SpecMp.
From Verif Require Import BaseFacts MpBase MpFlow MpGroup MpStat Refuse RefuseShow PropShowMsg.

(** ** C72: the readers *)
Definition is_raise {A} (e : exn) (r : res A) : bool :=
  match r, e with
  | Raise AssertionError, AssertionError | Raise ValueError, ValueError | Raise KeyError, KeyError | Raise IndexError, IndexError
  | Raise TypeError, TypeError | Raise StructError, StructError | Raise NameError, NameError | Raise OSError, OSError
  | Raise OverflowError, OverflowError => true
  | _, _ => false
  end.
Lemma is_raise_eq {A} e (r : res A) : is_raise e r = true -> r = Raise e.
Proof. destruct r as [|e'|]; cbn; try discriminate; destruct e', e; cbn; try discriminate; reflexivity. Qed.
Definition shows {A B} (f : A -> res B) (w : exn * A) : bool := is_raise (fst w) (f (snd w)).
(** a table with one example per exception *)
Lemma exactly {A B} (f : A -> res B) l (W : list (exn * A)) : (forall a, only l (f a)) -> map fst W = l -> forallb (shows f) W = true ->
  forall e, (exists a, f a = Raise e) <-> In e l.
Proof.
  intros O <- S e. split; [intros (a & H); exact (O a e H)|]. intros H. apply in_map_iff in H as ((e' & a) & <- & H).
  rewrite forallb_forall in S. exists a. apply is_raise_eq. exact (S _ H).
Qed.
Definition C72_field_texts : list (exn * text) :=
  [ (AssertionError, $"eth_type=0x800x"); (ValueError, $"eth_src=zz"); (KeyError, $"eth_typ=5"); (IndexError, $"radiotap_rate=5");
    (TypeError, $"radiotap_tsft=1/2"); (StructError, $"radiotap_rate=999M"); (OSError, $"ipv4_src=a");
    (OverflowError, $"radiotap_rate=1." ++ repeat 48 400 ++ $"M") ].
Definition C72_act_texts := map (fun w : exn * text => (fst w, $"set_" ++ snd w)) C72_field_texts.
Definition C72_group_texts := map (fun w : exn * text => (fst w, $"group=1,all,@bucket," ++ snd w)) C72_act_texts.
Lemma table {A B} (f : A -> res B) (W : list (exn * A)) e : forallb (shows f) W = true -> In e (map fst W) -> exists a, f a = Raise e.
Proof. intros S H. apply in_map_iff in H as ((e' & a) & <- & H). rewrite forallb_forall in S. exists a. apply is_raise_eq. exact (S _ H). Qed.
Definition every_error := [AssertionError; ValueError; KeyError; IndexError; TypeError; StructError; NameError; OSError; OverflowError].
Theorem C72_match : forall e, (exists s, str2oxm s true = Raise e) <-> e <> NameError.
Proof.
  intros e. rewrite (exactly (fun s => str2oxm s true) _ C72_field_texts (fun s => str2oxm_only s true) eq_refl); [|vm_compute; reflexivity].
  destruct e; cbn [In]; intuition congruence.
Qed.
Theorem C72_act : forall e, (exists s, str2act s = Raise e) <-> e <> NameError.
Proof.
  intros e. rewrite (exactly str2act _ C72_act_texts str2act_only eq_refl); [|vm_compute; reflexivity].
  destruct e; cbn [In]; intuition congruence.
Qed.
(** for flow rules and groups: whatever the command and the transaction number, with examples for 0 *)
Theorem C72_flow : forall e, (exists s cmd xid, str2mod s cmd xid = Raise e) <-> e <> NameError.
Proof.
  intros e. split; [intros (s & cmd & xid & H) ->; apply str2mod_only in H; cbn [In] in H; intuition congruence|].
  intros H. assert (exists s, str2mod s 0 0 = Raise e) as (s & K); [|eauto].
  apply (exactly (fun s => str2mod s 0 0) _ C72_field_texts (fun s => str2mod_only s 0 0) eq_refl); [vm_compute; reflexivity|].
  destruct e; cbn [In]; intuition congruence.
Qed.
Theorem C72_group : forall e, (exists s cmd xid, str2group s cmd xid = Raise e) <-> e <> NameError.
Proof.
  intros e. split; [intros (s & cmd & xid & H) ->; apply str2group_only in H; cbn [In] in H; intuition congruence|].
  intros H. assert (exists s, str2group s 0 0 = Raise e) as (s & K); [|eauto].
  apply (exactly (fun s => str2group s 0 0) _ C72_group_texts (fun s => str2group_only s 0 0) eq_refl); [vm_compute; reflexivity|].
  destruct e; cbn [In]; intuition congruence.
Qed.
(** multipart texts: any of the nine; NameError when the entries do not fit one message *)
Lemma repeated {A} (w : A -> text -> Prop) e s n : w e s -> Forall2 w (repeat e n) (repeat s n).
Proof. intros H. induction n; cbn; auto. Qed.
Lemma all_repeated {A} (P : A -> Prop) e n : P e -> Forall P (repeat e n).
Proof. intros H. induction n; cbn; auto. Qed.
Lemma repeated_length {A} (w : A -> bytes) e n : length (flat_map w (repeat e n)) = (n * length (w e))%nat.
Proof. induction n as [|n IH]; [reflexivity|]. cbn [repeat flat_map]. rewrite app_length, IH. lia. Qed.
Theorem C72_long : forall n, (9000 <= Z.of_nat n)%Z -> text2mpflow (lines (repeat [] n)) 19 0 = Raise NameError
  /\ text2mpgroupdesc (lines (repeat [] n)) 19 0 = Raise NameError /\ text2mpgroup (lines (repeat $"group=1 ref_count=1" n)) 19 0 = Raise NameError.
Proof.
  intros n Hn. split; [|split].
  - apply (fstats_too_long (repeat (FStat 0 0 0 0 read_defaults [] []) n)).
    + apply repeated. split; [intros []|]. exists [], [], []. split; [|reflexivity]. constructor. constructor.
    + apply all_repeated. repeat match goal with |- _ /\ _ => split | |- fstat_ok _ => unfold fstat_ok, fixed_ok | |- in_bytes _ _ => unfold in_bytes; cbn; lia | |- Forall _ _ => cbn; constructor | |- _ <= 65535 => vm_compute; discriminate end.
    + unfold fstats_wire. rewrite repeated_length. change (length (fstat_wire _)) with 56%nat. lia.
  - apply (gdescs_too_long (repeat (GDesc GAll 0 []) n)).
    + apply repeated. split; [intros []|]. exists [], []. split; [constructor|]. split; [constructor|reflexivity].
    + apply all_repeated. split; [unfold in_bytes; cbn; lia|]. split; [constructor|vm_compute; discriminate].
    + unfold gdescs_wire. rewrite repeated_length. change (length (gdesc_wire _)) with 8%nat. lia.
  - assert (O : gstat_ok (GStat 1 1 0 0 0 0 [])) by (repeat match goal with |- _ /\ _ => split | |- gstat_ok _ => unfold gstat_ok | |- in_bytes _ _ => unfold in_bytes; cbn; lia | |- Forall _ _ => cbn; constructor | |- _ <= 65535 => vm_compute; discriminate end).
    apply (gstats_too_long (repeat (GStat 1 1 0 0 0 0 []) n)).
    + apply repeated. apply (gstat_text_written (GStat 1 1 0 0 0 0 [])). split; [exact O|]. repeat split; discriminate.
    + now apply all_repeated.
    + unfold gstats_wire. rewrite repeated_length. change (length (gstat_wire _)) with 40%nat. lia.
Qed.
Lemma long_n : exists n, 9000 <= Z.of_nat n.
Proof. exists (Z.to_nat 9000). rewrite Z2Nat.id; lia. Qed.
Theorem C72_mpflow : forall e, exists s, text2mpflow s 19 0 = Raise e.
Proof.
  intros e. destruct e; try (apply (table (fun s => text2mpflow s 19 0) C72_field_texts); [vm_compute; reflexivity|cbn; tauto]).
  destruct long_n as [n Hn]. destruct (C72_long n Hn) as (K & _ & _). eauto.
Qed.
Theorem C72_mpdesc : forall e, exists s, text2mpgroupdesc s 19 0 = Raise e.
Proof.
  intros e. destruct e; try (apply (table (fun s => text2mpgroupdesc s 19 0) C72_group_texts); [vm_compute; reflexivity|cbn; tauto]).
  destruct long_n as [n Hn]. destruct (C72_long n Hn) as (_ & K & _). eauto.
Qed.
Theorem C72_mpstats : forall e, (exists s type xid, text2mpgroup s type xid = Raise e) <-> In e [AssertionError; ValueError; StructError; NameError].
Proof.
  intros e. split; [intros (s & type & xid & H); exact (text2mpgroup_only _ _ _ _ H)|].
  intros H. assert (exists s, text2mpgroup s 19 0 = Raise e) as (s & K); [|eauto]. cbn [In] in H.
  destruct H as [<-|[<-|[<-|[<-|[]]]]]; try (apply (table (fun s => text2mpgroup s 19 0) [(AssertionError, $"group"); (ValueError, $"group=x"); (StructError, $"group=4294967296")]); [vm_compute; reflexivity|cbn; tauto]).
  destruct long_n as [n Hn]. destruct (C72_long n Hn) as (_ & _ & K). eauto.
Qed.
Example C72_case : str2mod $"eth_type=0x800x" 0 0 = Raise AssertionError /\ str2mod $"eth_src=zz" 0 0 = Raise ValueError /\ str2mod $"eth_typ=5" 0 0 = Raise KeyError
  /\ str2mod $"radiotap_rate=5" 0 0 = Raise IndexError /\ str2mod $"radiotap_tsft=1/2" 0 0 = Raise TypeError /\ str2mod $"radiotap_rate=999M" 0 0 = Raise StructError
  /\ str2mod $"ipv4_src=a" 0 0 = Raise OSError.
Proof. repeat split; vm_compute; reflexivity. Qed.

(** ** C73: the printers *)
Definition C73_fields : list (exn * bytes) :=
  [ (AssertionError, [x80;x00;x06;x07] ++ pad 7); (ValueError, [x80;x00;x34;x00]); (KeyError, [x80;x00;xc8;x00]);
    (IndexError, [xff;xff;x11;x08;xff;x00;xe0;x4d] ++ [x00;x00;xff;xff]); (StructError, [x80;x00;x06;x02;x01]); (OSError, [x80;x00;x16;x00]) ].
Theorem C73_match : forall e, (exists b, oxm2str b true = Raise e) <-> In e [AssertionError; ValueError; KeyError; IndexError; StructError; OSError].
Proof. apply (exactly (fun b => oxm2str b true) _ C73_fields (fun b => oxm2str_only b true) eq_refl). vm_compute. reflexivity. Qed.
Definition C73_set (b : bytes) : bytes := be 2 25 ++ be 2 (4 + Z.of_nat (length b)) ++ b.
Definition C73_learn (b : bytes) : bytes := be 2 0xffff ++ be 2 (10 + Z.of_nat (length b)) ++ be 4 0x2320 ++ be 2 16 ++ b.
(** an action list for each exception *)
Definition C73_acts : list (exn * bytes) :=
  map (fun w : exn * bytes => (fst w, C73_set (snd w))) (firstn 4 C73_fields)
  ++ [(TypeError, C73_learn (be 2 1 ++ pad 20))]
  ++ map (fun w : exn * bytes => (fst w, C73_set (snd w))) (firstn 1 (skipn 4 C73_fields))
  ++ [(NameError, C73_learn (pad 22 ++ be 2 0x1c00 ++ be 4 0x80000606 ++ be 2 0))]
  ++ map (fun w : exn * bytes => (fst w, C73_set (snd w))) (skipn 5 C73_fields).
Theorem C73_acts_raise : forall e, (exists b, act2str b true = Raise e) <-> e <> OverflowError.
Proof.
  intros e. rewrite (exactly (fun b => act2str b true) _ C73_acts (fun b => act2str_only b true) eq_refl); [|vm_compute; reflexivity].
  destruct e; cbn [In]; intuition congruence.
Qed.
Definition wrapped (f : bytes -> bytes) (W : list (exn * bytes)) : list (exn * bytes) := map (fun w : exn * bytes => (fst w, f (snd w))) W.
Definition fill (n : nat) (b : bytes) : bytes := b ++ pad (n - length b).
Definition C73_inst (b : bytes) : bytes := be 2 4 ++ be 2 64 ++ pad 4 ++ fill 56 b.
Theorem C73_insts : forall e, (exists b, inst2str b true = Raise e) <-> e <> OverflowError.
Proof.
  intros e. rewrite (exactly (fun b => inst2str b true) _ (wrapped C73_inst C73_acts) (fun b => inst2str_only b true) eq_refl); [|vm_compute; reflexivity].
  destruct e; cbn [In]; intuition congruence.
Qed.
Definition C73_msg (b : bytes) : bytes := C60_msg 120 4 (pad 4 ++ C73_inst b).
Theorem C73_flow : forall e, (exists b, mod2str b = Raise e) <-> e <> OverflowError.
Proof.
  intros e. rewrite (exactly mod2str _ (wrapped C73_msg C73_acts) mod2str_only eq_refl); [|vm_compute; reflexivity].
  destruct e; cbn [In]; intuition congruence.
Qed.
Definition C73_bucket (b : bytes) : bytes := C61_bucket 72 1 (fill 56 b).
Theorem C73_group : forall e, (exists b, group2str b = Raise e) <-> e <> OverflowError.
Proof.
  intros e. rewrite (exactly group2str _ (wrapped (fun b => C61_group 1 (C73_bucket b)) C73_acts) group2str_only eq_refl); [|vm_compute; reflexivity].
  destruct e; cbn [In]; intuition congruence.
Qed.
Theorem C73_mpflow : forall e, (exists b, mpflow2text b = Raise e) <-> e <> OverflowError.
Proof.
  intros e. rewrite (exactly mpflow2text _ (wrapped (fun b => C61_mp 1 19 136 (C61_row 120 (be 2 4 ++ pad 4 ++ C73_inst b))) C73_acts) mpflow2text_only eq_refl); [|vm_compute; reflexivity].
  destruct e; cbn [In]; intuition congruence.
Qed.
Theorem C73_mpdesc : forall e, (exists b, mpgroupdesc2text b = Raise e) <-> e <> OverflowError.
Proof.
  intros e. rewrite (exactly mpgroupdesc2text _ (wrapped (fun b => C61_mp 7 19 96 (be 2 80 ++ be 1 0 ++ pad 1 ++ be 4 2 ++ C73_bucket b)) C73_acts) mpgroupdesc2text_only eq_refl); [|vm_compute; reflexivity].
  destruct e; cbn [In]; intuition congruence.
Qed.
Theorem C73_mpstats : forall e, (exists b, mpgroup2text b = Raise e) <-> In e [AssertionError; StructError].
Proof. apply (exactly mpgroup2text _ [(AssertionError, C61_mp 5 19 16 []); (StructError, pad 1)] mpgroup2text_only eq_refl). vm_compute. reflexivity. Qed.
Theorem C73_names : forall e, (exists b, oxmid2str b true = Raise e) <-> In e [KeyError; StructError].
Proof. apply (exactly (fun b => oxmid2str b true) _ [(KeyError, [x80;x00;xc8;x00]); (StructError, [xff;xff;x00;x00])] (fun b => oxmid2str_only b true) eq_refl). vm_compute. reflexivity. Qed.
Example C73_case : act2str (C73_learn (be 2 1 ++ pad 20)) true = Raise TypeError
  /\ act2str (C73_learn (pad 22 ++ be 2 0x1c00 ++ be 4 0x80000606 ++ be 2 0)) true = Raise NameError
  /\ mod2str (C73_msg (C73_set [x80;x00;x16;x00])) = Raise OSError.
Proof. repeat split; vm_compute; reflexivity. Qed.
Print Assumptions C72_match.
Print Assumptions C72_act.
Print Assumptions C72_flow.
Print Assumptions C72_group.
Print Assumptions C72_long.
Print Assumptions C72_mpflow.
Print Assumptions C72_mpdesc.
Print Assumptions C72_mpstats.
Print Assumptions C72_case.
Print Assumptions C73_match.
Print Assumptions C73_acts_raise.
Print Assumptions C73_insts.
Print Assumptions C73_flow.
Print Assumptions C73_group.
Print Assumptions C73_mpflow.
Print Assumptions C73_mpdesc.
Print Assumptions C73_mpstats.
Print Assumptions C73_names.
Print Assumptions C73_case.
