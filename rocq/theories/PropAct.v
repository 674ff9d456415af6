(** Properties C22-C27: actions (ofp4.py, nx.py). *)
From Coq Require Import Strings.Ascii.
From Verif Require Import Base PyNum Util PyLib OxmCodec OxmTables Oxm Nx Ofp4 Spec SpecOxm SpecOfp.
From Verif Require Import BaseFacts UtilFacts NumFacts OxmRead OxmPrint OxmFacts OxmFrame OxmMore.
From Verif Require Import ActBase ActRead ActReadNx ActReadReg ActReadLearn ActPrint ActText ActFrame ActStyle.

(** [u] is read as the action [w], all of it *)
Definition act_encodes (u : text) (w : bytes) : Prop := str2act u = Ok (w, length u).
Definition act_prints_as (w : bytes) (u : text) : Prop := act2str w true = Ok u.
Definition is_std (a : action) : Prop :=
  match a with Output _ _ | Noarg _ | SetMplsTtl _ | SetNwTtl _ | SetQueue _ | GroupAct _ | Ether _ _ => True | _ => False end.
Definition is_nx (a : action) : Prop := match a with SetField _ => False | _ => ~ is_std a end.

Lemma both a : good_act a -> act_prints_as (act_wire a) (act_text a) /\ act_encodes (act_text a) (act_wire a).
Proof. exact (act_roundtrip a). Qed.
Lemma written a u : writes_act a u -> act_ok a -> act_encodes u (act_wire a).
Proof.
  intros Hw Hok. pose proof (act_reads a u [] [] Hw Hok (Forall_nil _) I) as H. cbn [app] in H. now rewrite app_nil_r in H.
Qed.

(** [u] is read, and the action printed as [t] *)
Definition reprints (u t : text) : Prop := exists b, act_encodes u b /\ act_prints_as b t.
Lemma reprints_by u t :
  match str2act u with
  | Ok (b, n) => Nat.eqb n (length u) && match act2str b true with Ok t' => text_eqb t' t | _ => false end
  | _ => false
  end = true -> reprints u t.
Proof.
  intros H. unfold reprints, act_encodes, act_prints_as. destruct (str2act u) as [[b n]| |]; try discriminate. apply andb_prop in H as [H1 H2].
  apply Nat.eqb_eq in H1. subst n. exists b. split; auto. destruct (act2str b true) as [t'| |]; try discriminate. apply text_eqb_eq in H2. now subst.
Qed.

(** ** C22 *)
Theorem C22_roundtrip : forall a, is_std a -> good_act a ->
  act_prints_as (act_wire a) (act_text a) /\ act_encodes (act_text a) (act_wire a).
Proof. intros a _. apply both. Qed.
(** every spelling, also with blanks around and something behind *)
Theorem C22_written : forall a u h r, is_std a -> writes_act a u -> act_ok a -> Forall filler h -> follow r ->
  str2act (h ++ u ++ r) = Ok (act_wire a, (length h + length u)%nat).
Proof. intros a u h r _. apply act_reads. Qed.
Example C22_case : good_act (Output 0xfffffffd 128) /\ good_act (Ether PushMpls 0x8847)
  /\ act_text (Output 0xfffffffd 128) = $"output=controller:0x80" /\ act_text (Ether PushMpls 0x8847) = $"push_mpls=0x8847"
  /\ act_encodes $"push_mpls=0x8847" [x00; x13; x00; x08; x88; x47; x00; x00]
  /\ act_prints_as [x00; x00; x00; x10; xff; xff; xff; xfd; x00; x80; x00; x00; x00; x00; x00; x00] $"output=controller:0x80".
Proof.
  unfold act_encodes, act_prints_as. split; [|split; [|vm_compute; auto]]; unfold good_act, act_ok, act_printable, in_bytes; cbn; lia.
Qed.
(** max_len is printed for the controller port only *)
Theorem C22_max_len_refuted : forall p m, in_bytes 4 p -> in_bytes 2 m -> p <> 0xfffffffd ->
  act_prints_as (act_wire (Output p m)) ($"output=" ++ port_text 4 p).
Proof.
  intros p m Hp Hm Hc. unfold act_prints_as, act2str. cbn [act_wire].
  assert (E : act2str_one (std_act 0 (be 4 p ++ be 2 m ++ pad 6)) = Ok ($"output=" ++ port_text 4 p, [])).
  { rewrite <- (app_nil_r (std_act _ _)), std_step by (try fits; try lia; len). cbn [Z.eqb std_act2str_tbl assoc_z].
    assert (K : output_act2str (be 4 p ++ be 2 m ++ pad 6) = output_act2str (be 4 p ++ be 2 0xffff ++ pad 6)).
    { unfold output_act2str. rewrite !unpack_ok by len. rewrite <- (app_nil_r (pad 6)). unpacks. cbn [bind].
      replace (p =? 4294967293) with false by (symmetry; now apply Z.eqb_neq). reflexivity. }
    rewrite K. assert (G : good_act (Output p 0xffff)) by (split; [split; [split; [exact Hp|fits]|cbn [act_wire]; rewrite std_act_length; len]|right; reflexivity]).
    pose proof (act_prints (Output p 0xffff) [] G) as H. cbn [act_wire] in H.
    rewrite std_step in H by (try fits; try lia; len). cbn [Z.eqb std_act2str_tbl assoc_z] in H. rewrite H. cbn [act_text Z.eqb Pos.eqb]. now rewrite app_nil_r. }
  assert (El : length (std_act 0 (be 4 p ++ be 2 m ++ pad 6)) = 16%nat) by (rewrite std_act_length; len).
  rewrite El. cbn [act2str_go]. rewrite El. cbn [Nat.leb]. rewrite E. reflexivity.
Qed.
(** set_nw_ttl is read as an action of 5 bytes *)
Theorem C22_set_nw_ttl_refuted : forall u n s, literal u n -> in_bytes 1 n -> one_arg $"set_nw_ttl" u s ->
  act_encodes s (be 2 23 ++ be 2 5 ++ be 1 n).
Proof.
  intros u n s Hu Hn Hs. destruct (literal_plain _ _ Hu) as [Hp H0].
  pose proof (arg_reads $"set_nw_ttl" (uint_str2act 23 [sB]) u (std_act 23 (be 1 n)) s [] [] eq_refl Hp H0) as H.
  cbn [app] in H. rewrite app_nil_r in H. apply H; auto; [|exact I]. apply (uint_arg _ _ u n); auto; try fits; [|len]. packs. reflexivity.
Qed.
(** the blank may take the place of "=", and what follows the ethertype is ignored *)
Example C22_junk_refuted : str2act $"output,1" = Ok (act_wire (Output 1 0xffff), 8%nat)
  /\ act_encodes $"push_vlan=0x8100junk" (act_wire (Ether PushVlan 0x8100)).
Proof. unfold act_encodes. vm_compute. auto. Qed.

(** ** C23 *)
Theorem C23_encodes : forall t u, item t u -> act_ok (SetField t) -> act_encodes ($"set_" ++ u) (padded_act 25 (wire t)).
Proof. intros t u Hi Hok. apply (written (SetField t)); auto. now constructor. Qed.
Theorem C23_function : forall f u v m o e h t, In f registry -> writes (fkind f) u v m -> bracket o e -> Forall filler h -> tail_gap t ->
  act_ok (SetField (Tlv f v m)) -> act_encodes (call o e ($"set_" ++ fname f) (h ++ u ++ t)) (padded_act 25 (wire (Tlv f v m))).
Proof. intros f u v m o e h t. intros. apply (written (SetField (Tlv f v m))); auto. now constructor. Qed.
Theorem C23_roundtrip : forall t, good t -> printable t -> act_ok (SetField t) ->
  act_prints_as (padded_act 25 (wire t)) ($"set_" ++ text_of t) /\ act_encodes ($"set_" ++ text_of t) (padded_act 25 (wire t)).
Proof. intros t Hg Hp Hok. apply (both (SetField t)). split; auto. split; auto. Qed.
Theorem C23_padding : forall t, exists k, (k < 8)%nat /\ padded_act 25 (wire t) = be 2 25 ++ be 2 (Z.of_nat (4 + length (wire t) + k)) ++ wire t ++ repeat x00 k
  /\ ((4 + length (wire t) + k) mod 8 = 0)%nat.
Proof.
  intros t. exists (align8 (4 + length (wire t)) - (4 + length (wire t)))%nat. pose proof (align8_ge (4 + length (wire t))) as H. unfold align8 in *.
  set (n := (4 + length (wire t))%nat) in *. pose proof (Nat.div_mod (n + 7) 8 ltac:(lia)). pose proof (Nat.mod_upper_bound (n + 7) 8 ltac:(lia)).
  split; [lia|]. split.
  - rewrite padded_act_eq. unfold std_act, align8. fold n. rewrite app_length, zeros_length.
    replace (4 + (length (wire t) + ((n + 7) / 8 * 8 - n)))%nat with (n + ((n + 7) / 8 * 8 - n))%nat by lia. reflexivity.
  - replace (n + ((n + 7) / 8 * 8 - n))%nat with ((n + 7) / 8 * 8)%nat by lia. apply Nat.mod_mul. lia.
Qed.
Example C23_case : act_encodes $"set_tcp_dst=80" [x00; x19; x00; x10; x80; x00; x1c; x02; x00; x50; x00; x00; x00; x00; x00; x00]
  /\ act_prints_as [x00; x19; x00; x10; x80; x00; x1c; x02; x00; x50; x00; x00; x00; x00; x00; x00] $"set_tcp_dst=80"
  /\ act_encodes $"set_tcp_dst[ 80, ]" [x00; x19; x00; x10; x80; x00; x1c; x02; x00; x50; x00; x00; x00; x00; x00; x00].
Proof. unfold act_encodes, act_prints_as. vm_compute. auto. Qed.
(** an empty SSID gives an action without TLV, which cannot be printed *)
Example C23_empty_refuted : act_encodes $"set_dot11_ssid=" [x00; x19; x00; x08; x00; x00; x00; x00]
  /\ act2str [x00; x19; x00; x08; x00; x00; x00; x00] true = Raise AssertionError.
Proof. unfold act_encodes. vm_compute. auto. Qed.

(** ** C24 *)
Theorem C24_roundtrip : forall a, is_nx a -> good_act a ->
  act_prints_as (act_wire a) (act_text a) /\ act_encodes (act_text a) (act_wire a).
Proof. intros a _. apply both. Qed.
Theorem C24_written : forall a u h r, is_nx a -> writes_act a u -> act_ok a -> Forall filler h -> follow r ->
  str2act (h ++ u ++ r) = Ok (act_wire a, (length h + length u)%nat).
Proof. intros a u h r _. apply act_reads. Qed.
Example C24_case : good_act (CntIds [1; 0x20; 0xffff]) /\ act_text (CntIds [1; 0x20; 0xffff]) = $"cnt_ids(0x1,0x20,0xffff)"
  /\ act_encodes $"cnt_ids(0x1,0x20,0xffff)" [xff; xff; x00; x18; x00; x00; x23; x20; x00; x15; x00; x03; x00; x00; x00; x00; x00; x01; x00; x20; xff; xff; x00; x00]
  /\ act_encodes $"reg_move(eth_src[0:16]=eth_type)"
       [xff; xff; x00; x18; x00; x00; x23; x20; x00; x06; x00; x10; x00; x00; x00; x00; x80; x00; x0a; x02; x80; x00; x08; x06].
Proof.
  unfold act_encodes. split; [|vm_compute; auto]. split; [|discriminate]. split; [|vm_compute; discriminate].
  repeat (apply Forall_cons; [unfold in_bytes; cbn; lia|]). constructor.
Qed.
(** set_tunnel64 of a number below 2^32 has 4 bytes of payload instead of 8 and is not printed *)
Theorem C24_tunnel64_refuted : forall u v s, literal u v -> in_bytes 4 v -> one_arg $"set_tunnel64" u s ->
  act_encodes s (nx_act 9 (be 4 v)) /\ act2str (nx_act 9 (be 4 v)) true = Raise StructError /\ nx_act 9 (be 4 v) <> act_wire (SetTunnel64 v).
Proof.
  intros u v s Hu Hv Hs. destruct (literal_plain _ _ Hu) as [Hp H0].
  assert (Hf : nx_fits 9 (be 4 v)) by (unfold nx_fits; rewrite nx_act_length, be_length; cbn; lia). split; [|split].
  - pose proof (arg_reads $"set_tunnel64" (set_tunnel_str2act 9) u (nx_act 9 (be 4 v)) s [] [] eq_refl Hp H0) as H.
    cbn [app] in H. rewrite app_nil_r in H. apply H; auto; [|exact I]. apply tunnel_arg; auto; [fits|]. unfold in_bytes in Hv. lia.
  - reflexivity.
  - intros E. apply (f_equal (@length byte)) in E. cbn [act_wire] in E. rewrite !nx_act_length, !be_length in E. discriminate.
Qed.
(** a mask that is not one run of bits is encoded as a run of as many bits (and bits that were
    not to be written are); mask 0 fails *)
Example C24_reg_load_mask_refuted :
  act_encodes $"reg_load(nxm_tcp_src=0x101/0x101)"
    [xff; xff; x00; x18; x00; x00; x23; x20; x00; x07; x00; x01; x00; x00; x12; x02; x00; x00; x00; x00; x00; x00; x01; x01]
  /\ act_prints_as [xff; xff; x00; x18; x00; x00; x23; x20; x00; x07; x00; x01; x00; x00; x12; x02; x00; x00; x00; x00; x00; x00; x01; x01]
       $"reg_load(nxm_tcp_src=257/3)"
  /\ str2act $"reg_load(nxm_tcp_src=0/0)" = Raise TypeError.
Proof. unfold act_encodes, act_prints_as. vm_compute. auto. Qed.
(** the value loaded into a register is not printed *)
Example C24_reg_load_reg_refuted : forall v, In v [0; 5; 0xffffffff] ->
  act_prints_as (nx_act 7 (be 2 31 ++ [x00; x01; x02; x04] ++ be 8 v)) $"reg_load(nxm_reg1)"
  /\ act_encodes ($"reg_load(nxm_reg1=" ++ dec v ++ $")") (nx_act 7 (be 2 31 ++ [x00; x01; x02; x04] ++ be 8 v)).
Proof. unfold act_encodes, act_prints_as. intros v [<-|[<-|[<-|[]]]]; vm_compute; auto. Qed.
(** reg_move compares the destination with the size of the source *)
Example C24_reg_move_refuted :
  act_encodes $"reg_move(eth_src[0:16]=eth_type)"
       [xff; xff; x00; x18; x00; x00; x23; x20; x00; x06; x00; x10; x00; x00; x00; x00; x80; x00; x0a; x02; x80; x00; x08; x06]
  /\ act_prints_as [xff; xff; x00; x18; x00; x00; x23; x20; x00; x06; x00; x10; x00; x00; x00; x00; x80; x00; x0a; x02; x80; x00; x08; x06]
       $"reg_move(eth_src=eth_type)"
  /\ str2act $"reg_move(eth_src=eth_type)" = Raise AssertionError.
Proof. unfold act_encodes, act_prints_as. vm_compute. auto. Qed.
(** output_reg and bundle_load take the upper bound for the number of bits *)
Example C24_output_reg_refuted : reprints $"output_reg(nxm_reg1[4:12])" $"output_reg(nxm_reg1[4:16])"
  /\ reprints $"bundle_load(eth_src,1,hrw,in_port,nxm_reg1[4:12],slaves(1,2))" $"bundle_load(eth_src,1,hrw,in_port,nxm_reg1[4:16],slaves(1,2))".
Proof. split; apply reprints_by; vm_compute; reflexivity. Qed.
(** max_len of output_reg is not printed *)
Example C24_output_reg_max_len_refuted : reprints $"output_reg(nxm_reg1,20)" $"output_reg(nxm_reg1)".
Proof. apply reprints_by; vm_compute; reflexivity. Qed.
(** a slave whose number ends like a reserved port is printed with a name that is not read back *)
Example C24_bundle_refuted : reprints $"bundle(eth_src,1,hrw,in_port,slaves(1,0xfff8))" $"bundle(eth_src,1,hrw,in_port,slaves(1,in_port))"
  /\ str2act $"bundle(eth_src,1,hrw,in_port,slaves(1,in_port))" = Raise StructError.
Proof. split; [apply reprints_by|]; vm_compute; reflexivity. Qed.
(** a learn action with any fixed value set cannot be printed *)
Theorem C24_learn_refuted : forall p vs v, unpack_from learn_fmt p 0 = Ok vs -> In v vs -> v <> 0 -> learn_act2str p = Raise TypeError.
Proof.
  intros p vs v E Hv Hn. unfold learn_act2str. rewrite E. cbn [bind].
  replace (existsb (fun v => negb (v =? 0)) vs) with true; [reflexivity|]. symmetry. apply existsb_exists. exists v. split; auto.
  apply Z.eqb_neq in Hn. now rewrite Hn.
Qed.
Example C24_learn_case : reprints $"learn(eth_src=eth_dst)" $"learn(eth_src=eth_dst)"
  /\ ('(b, _) <- str2act $"learn(table=1,eth_src=eth_dst)" ;; act2str b true) = Raise TypeError.
Proof. split; [apply reprints_by|]; vm_compute; reflexivity. Qed.

(** ** C25 *)
(** either nothing was read, because the name is unknown or its argument list is empty, or the
    result is one action of the type of the name *)
Theorem C25_framed : forall s b n, str2act s = Ok (b, n) ->
  exists name, first_word s name /\
    ((b = [] /\ ((forall k, ~ act_named name k) \/ no_args s name))
     \/ exists k, act_named name k /\ act_framed k b
          /\ (name = $"set_nw_ttl" \/ name = $"note" \/ (length b mod 8 = 0)%nat)
          /\ (k = AStd 25 -> b = padded_act 25 [] \/ exists t, tlv_ok t /\ b = padded_act 25 (wire t))).
Proof. exact act_frames. Qed.
Example C25_case : act_encodes $"note=abcd" [xff; xff; x00; x0e; x00; x00; x23; x20; x00; x08; x61; x62; x63; x64]
  /\ str2act $"exit()" = Ok ([], 0%nat) /\ str2act $" nonsense=3" = Ok ([], 1%nat).
Proof. unfold act_encodes. vm_compute. auto. Qed.
Example C25_word : first_word $" set_queue(3),x" $"set_queue" /\ act_named $"set_queue" (AStd 21) /\ act_framed (AStd 21) (act_wire (SetQueue 3)).
Proof.
  split; [|split].
  - exists $" ", $"(3),x". split; [reflexivity|]. split; [left; constructor; [left; unfold blank; cbn; lia|constructor]|]. split.
    + repeat (apply Forall_cons; [intros [e He]; inversion He|]). constructor.
    + right. right. exists 41. constructor.
  - left. cbn [named_acts In]. do 9 right. left. reflexivity.
  - split; [vm_compute; discriminate|]. eexists. vm_compute. reflexivity.
Qed.

(** ** C26 *)
Theorem C26_same : forall name u s s' h h' r r', In name arg_names -> Forall plain u -> u <> [] ->
  one_arg name u s -> one_arg name u s' -> Forall filler h -> Forall filler h' -> follow r -> follow r' ->
  bytes_of (str2act (h ++ s ++ r)) = bytes_of (str2act (h' ++ s' ++ r')).
Proof. exact style_same. Qed.
Theorem C26_set_field : forall x u s s' h h' r r', Forall plain x -> x <> [] -> ~ In ($"set_" ++ x) (map fst named_acts) ->
  Forall plain u -> u <> [] -> one_arg ($"set_" ++ x) u s -> one_arg ($"set_" ++ x) u s' ->
  Forall filler h -> Forall filler h' -> follow r -> follow r' ->
  bytes_of (str2act (h ++ s ++ r)) = bytes_of (str2act (h' ++ s' ++ r')).
Proof. exact set_style_same. Qed.
Example C26_case : map (fun s => bytes_of (str2act s)) [$"resubmit=in_port"; $"resubmit( in_port ,)"; $"resubmit{in_port}"]
    = repeat (Ok (act_wire (Resubmit 0xfff8))) 3
  /\ map (fun s => bytes_of (str2act s)) [$"set_tunnel=five"; $"set_tunnel(five)"] = repeat (Raise ValueError) 2
  /\ bytes_of (str2act $"set_eth_type=0x800") = bytes_of (str2act $"set_eth_type(0x800)").
Proof. vm_compute. auto. Qed.
(** with a table number the assignment form is rejected *)
Example C26_resubmit_table_refuted : str2act $"resubmit_table=1:2" = Raise AssertionError
  /\ act_encodes $"resubmit_table(1,2)" (act_wire (ResubmitTable 1 2)).
Proof. unfold act_encodes. vm_compute. auto. Qed.
(** output_reg=FIELD takes the next token for max_len *)
Example C26_output_reg_refuted : bytes_of (str2act $"output_reg=nxm_reg1,exit") = Raise ValueError
  /\ bytes_of (str2act $"output_reg(nxm_reg1),exit") = Ok (nx_act 15 (be 2 31 ++ [x00; x01; x02; x04] ++ be 2 0xffff ++ pad 6)).
Proof. vm_compute. auto. Qed.

(** ** C27 *)
Theorem C27_print : forall l, Forall good_act l -> act_prints_as (acts_wire l) (acts_text l).
Proof. exact act2str_list. Qed.
Example C27_case : act_prints_as (acts_wire [SetQueue 7; Noarg PopVlan; Output 3 0xffff; Exit]) $"set_queue=7,pop_vlan,output=3,exit".
Proof. unfold act_prints_as. vm_compute. reflexivity. Qed.

Print Assumptions C22_roundtrip.
Print Assumptions C23_roundtrip.
Print Assumptions C24_written.
Print Assumptions C25_framed.
Print Assumptions C26_same.
Print Assumptions C27_print.
