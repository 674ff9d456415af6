(** Properties C50-C53: notes, bundle_load, learn and unpadded actions (nx.py, ofp4.py). *)
From Coq Require Import Strings.Ascii.
From Verif Require Import Base PyNum Util PyLib OxmCodec OxmTables Oxm Nx Ofp4 Spec SpecOxm SpecOfp.
From Verif Require Import BaseFacts UtilFacts NumFacts OxmRead OxmPrint OxmFacts OxmFrame OxmMore.
From Verif Require Import ActBase ActRead ActReadNx ActReadReg ActReadLearn ActPrint ActText ActExtra FlowMod PropAct.

(** ** C50 *)
(** the wire form of any note *)
Definition note_act (b : bytes) : bytes := be 2 0xffff ++ be 2 (Z.of_nat (10 + length b)) ++ be 4 0x2320 ++ be 2 8 ++ b.
Lemma note_act_eq b : note_act b = note_wire b.
Proof. unfold note_act, note_wire, std_act. repeat f_equal. Qed.
Lemma note_ok b : Forall note_byte b -> b <> [] -> Z.of_nat (length b) <= 65525 -> act_ok (Note b).
Proof. intros H1 H2 H3. split; auto. cbn [act_wire]. rewrite std_act_length. len. Qed.
Theorem C50_written : forall b u h r, one_arg $"note" (map byte_val b) u -> Forall note_byte b -> b <> [] -> Z.of_nat (length b) <= 65525 ->
  Forall filler h -> follow r -> str2act (h ++ u ++ r) = Ok (note_act b, (length h + length u)%nat).
Proof.
  intros b u h r Hu Hb Hn Hl Hh Hr. rewrite note_act_eq. apply (act_reads (Note b)); auto using note_ok. now constructor.
Qed.
(** any bytes at all are printed as quoted-printable *)
Theorem C50_prints : forall b, Z.of_nat (length b) <= 65525 -> act_prints_as (note_act b) ($"note(" ++ b2a_qp b ++ $")").
Proof. intros b Hl. rewrite note_act_eq. apply note_prints. unfold note_wire. rewrite std_act_length. len. Qed.
Theorem C50_roundtrip : forall b, Forall note_byte b -> b <> [] -> (length b <= 76)%nat -> b <> [x2e] ->
  let t := $"note(" ++ map byte_val b ++ $")" in act_prints_as (note_act b) t /\ act_encodes t (note_act b).
Proof.
  intros b Hb Hn Hl Hd. rewrite note_act_eq. apply (both (Note b)). split; [apply note_ok; auto; lia|]. split; auto.
Qed.
Example C50_case : act_encodes $"note(hello.world)" (note_act (map z2b $"hello.world")) /\ act_encodes $"note = a_b" (note_act (map z2b $"a_b"))
  /\ act_prints_as (note_act (map z2b $"hello.world")) $"note(hello.world)" /\ length (note_act (map z2b $"hello.world")) = 21%nat.
Proof. vm_compute. auto. Qed.
(** only the first word is kept *)
Theorem C50_words_refuted : forall b x, Forall note_byte b -> b <> [] -> Z.of_nat (length b) <= 65525 -> closed quiet x -> ends x ->
  act_encodes ($"note(" ++ (map byte_val b ++ x) ++ $")") (note_act b).
Proof. intros b x Hb Hn Hl Hx He. rewrite note_act_eq. apply note_reads_head; auto using note_ok. Qed.
Example C50_words_case : act_encodes $"note(some text)" (note_act (map z2b $"some")) /\ act_encodes $"note(a=3D)" (note_act (map z2b $"a")).
Proof. vm_compute. auto. Qed.
(** the padding of a note is shown, and does not come back *)
Theorem C50_padding_refuted : forall b k, Forall note_byte b -> b <> [] -> b <> [x2e] -> (length b + 3 * k <= 75)%nat ->
  exists t, act_prints_as (note_act (b ++ repeat x00 k)) t /\ act_encodes t (note_act b).
Proof. intros b k Hb Hn Hd Hl. rewrite !note_act_eq. apply note_padded; auto. apply note_ok; auto. lia. Qed.
Example C50_padding_case : act_prints_as (note_act (map z2b $"abc" ++ [x00; x00; x00])) $"note(abc=00=00=00)".
Proof. vm_compute. auto. Qed.
(** a note of more than 76 bytes is cut when its text is read *)
Theorem C50_long_refuted : forall b, Forall note_byte b -> (77 <= length b)%nat -> Z.of_nat (length b) <= 65525 ->
  exists t, act_prints_as (note_act b) t /\ act_encodes t (note_act (firstn 75 b)).
Proof. intros b Hb Hl Hl'. rewrite !note_act_eq. apply note_long; auto. apply note_ok; auto. destruct b; [cbn in Hl; lia|discriminate]. Qed.
Example C50_long_case : act_prints_as (note_act (repeat x61 78)) ($"note(" ++ repeat 97 75 ++ [61; 10] ++ $"aaa)").
Proof. vm_compute. auto. Qed.
(** a single "." comes back as the two letters of its code, the text of an empty note is no action *)
Example C50_dot_refuted : act_prints_as (note_act [x2e]) $"note(=2E)" /\ act_encodes $"note(=2E)" (note_act (map z2b $"2E"))
  /\ str2act $"note()" = Ok ([], 0%nat) /\ act_prints_as (note_act []) $"note()".
Proof. vm_compute. auto. Qed.

(** ** C51 *)
Theorem C51_roundtrip : forall h b a f d n ps, good_act (BundleLoad h b a f d n ps) ->
  act_prints_as (act_wire (BundleLoad h b a f d n ps)) (act_text (BundleLoad h b a f d n ps))
  /\ act_encodes (act_text (BundleLoad h b a f d n ps)) (act_wire (BundleLoad h b a f d n ps)).
Proof. intros. now apply both. Qed.
Theorem C51_written : forall h b a f d n ps u g r, writes_act (BundleLoad h b a f d n ps) u -> act_ok (BundleLoad h b a f d n ps) -> Forall filler g -> follow r ->
  str2act (g ++ u ++ r) = Ok (act_wire (BundleLoad h b a f d n ps), (length g + length u)%nat).
Proof. intros. now apply act_reads. Qed.
(** reading puts the end of the range where the number of bits belongs *)
Theorem C51_range_refuted : forall h b a f d lo hi ps, In f registry -> (exists n, fkind f = KPort n) -> In d registry -> fclass d <> Stratos -> fname d <> $"nxm_ip_frag" ->
  in_bytes 2 b -> 0 <= lo < 1024 -> 1 <= hi <= 64 -> Forall (in_bytes 2) ps -> Forall plain_port ps -> (length ps <= 1000)%nat ->
  let text e := $"bundle_load(" ++ commas [hash_name h; dec b; bdalg_name a; fname f; fname d ++ $"[" ++ dec lo ++ $":" ++ dec e ++ $"]"; $"slaves(" ++ commas (map dec ps) ++ $")"] ++ $")" in
  reprints (text hi) (text (lo + hi)).
Proof.
  intros h b a f d lo hi ps Hf Hk Hd Hcd Hnd Hb Hlo Hhi Hps Hpp Hl text.
  assert (Fit : nx_fits 13 (bundle_load_payload h b a f d lo hi ps)).
  { unfold nx_fits. rewrite nx_act_length. unfold bundle_load_payload. destruct Hk as [n Hk]. pose proof (id_len4_any false f (port_class f n Hf Hk)) as L1.
    pose proof (id_len4_any true d Hcd) as L2. len. rewrite L1, L2. unfold align8. lia. }
  destruct (bundle_load_shifted h (dec b) b a f d lo hi (map dec ps) ps 40 41 40 41 91 93 []
    (commas [hash_name h; dec b; bdalg_name a; fname f; call 91 93 (fname d) (dec lo ++ $":" ++ dec hi); call 40 41 $"slaves" (commas (map dec ps))]) (commas (map dec ps)))
    as (w & E1 & E2); auto using dec_literal, paren, plain_commas, args_commas.
  - clear. induction ps; constructor; auto using dec_literal.
  - constructor.
  - exists w. assert (Et : text hi = call 40 41 $"bundle_load" ([] ++ commas [hash_name h; dec b; bdalg_name a; fname f; call 91 93 (fname d) (dec lo ++ $":" ++ dec hi); call 40 41 $"slaves" (commas (map dec ps))])).
    { unfold text, call. cbn [app]. rewrite <- !app_assoc. reflexivity. }
    rewrite Et. split; auto.
Qed.
Example C51_case : reprints $"bundle_load(symmetric_l4,60,hrw,nxm_in_port,nxm_reg0[0:16],slaves(2,3))" $"bundle_load(symmetric_l4,60,hrw,nxm_in_port,nxm_reg0[0:16],slaves(2,3))"
  /\ reprints $"bundle_load(symmetric_l4,60,hrw,nxm_in_port,nxm_reg0[8:16],slaves(2,3))" $"bundle_load(symmetric_l4,60,hrw,nxm_in_port,nxm_reg0[8:24],slaves(2,3))".
Proof. split; apply reprints_by; vm_compute; reflexivity. Qed.
(** without a range the size is that of a masked field: twice the bits *)
Example C51_whole_refuted : reprints $"bundle_load(symmetric_l4,60,hrw,nxm_in_port,nxm_reg0,slaves(2,3))" $"bundle_load(symmetric_l4,60,hrw,nxm_in_port,nxm_reg0[0:64],slaves(2,3))".
Proof. apply reprints_by. vm_compute. reflexivity. Qed.
(** and the identifier written carries the mask flag and the size of a masked field *)
Example C51_mask_refuted : exists p q, act_encodes $"bundle_load(symmetric_l4,60,hrw,nxm_in_port,nxm_reg0[0:16],slaves(2,3))" (p ++ [x00; x01; x01; x08] ++ q)
  /\ length p = 24%nat /\ str2oxmid $"nxm_reg0" false = Ok [x00; x01; x00; x04].
Proof.
  exists (map z2b [255; 255; 0; 40; 0; 0; 35; 32; 0; 13; 0; 1; 0; 1; 0; 60; 0; 0; 0; 2; 0; 2; 0; 15]), (map z2b [0; 0; 0; 0; 0; 2; 0; 3; 0; 0; 0; 0]). vm_compute. auto.
Qed.

(** ** C52 *)
Theorem C52_roundtrip : forall l, good_act (Learn l) ->
  act_prints_as (act_wire (Learn l)) (act_text (Learn l)) /\ act_encodes (act_text (Learn l)) (act_wire (Learn l)).
Proof. intros. now apply both. Qed.
Theorem C52_written : forall l u g r, writes_act (Learn l) u -> act_ok (Learn l) -> Forall filler g -> follow r ->
  str2act (g ++ u ++ r) = Ok (act_wire (Learn l), (length g + length u)%nat).
Proof. intros. now apply act_reads. Qed.
Example C52_case : reprints $"learn(nxm_in_port=0x10,nxm_eth_dst=nxm_eth_src,reg_load(nxm_reg1[16:32]=nxm_in_port))" $"learn(nxm_in_port=0x10,nxm_eth_dst=nxm_eth_src,reg_load(nxm_reg1[16:32]=nxm_in_port))"
  /\ act_encodes $"learn(priority=0x10, cookie=7, nxm_eth_dst = nxm_eth_src)"
       (map z2b ([255; 255; 0; 48; 0; 0; 35; 32; 0; 16; 0; 0; 0; 0; 0; 16] ++ [0; 0; 0; 0; 0; 0; 0; 7] ++ [0; 0; 0; 0; 0; 0; 0; 0]
                 ++ [0; 48; 0; 0; 4; 6; 0; 0; 0; 0; 2; 6; 0; 0] ++ [0; 0])).
Proof. split; [apply reprints_by|]; vm_compute; reflexivity. Qed.
(** a learned flow with any fixed value cannot be printed *)
Theorem C52_fixed_refuted : forall l k, act_ok (Learn l) -> lvalue k 0 l <> 0 -> act2str (act_wire (Learn l)) true = Raise TypeError.
Proof. exact learn_fixed_raises. Qed.
Example C52_fixed_case : (' (w, _) <- str2act $"learn(idle_timeout=10,nxm_eth_dst=nxm_eth_src)" ;; act2str w true) = Raise TypeError.
Proof. vm_compute. reflexivity. Qed.
(** nor can the text of a learned output be read *)
Theorem C52_output_refuted : forall pre s post, Forall (fun s => lspec_ok s /\ lspec_printable s) pre -> lspec_ok s -> l_dst s = ToOutput ->
  Forall lspec_ok post -> Forall lspec_named (s :: post) ->
  let l := map LAdd (pre ++ s :: post) in Z.of_nat (length (act_wire (Learn l))) <= 65535 ->
  act_prints_as (act_wire (Learn l)) (act_text (Learn l)) /\ str2act (act_text (Learn l)) = Raise AssertionError.
Proof. exact learn_output_unreadable. Qed.
Example C52_output_case : reprints $"learn(output(any=nxm_in_port))" $"learn(output(nxm_in_port))"
  /\ str2act $"learn(output(nxm_in_port))" = Raise AssertionError.
Proof. split; [apply reprints_by|]; vm_compute; reflexivity. Qed.
(** a destination with no end of its range takes the bits of the whole field *)
Example C52_open_range_refuted : reprints $"learn(nxm_reg1[16:]=5)" $"learn(nxm_reg1[16:48]=0x5)".
Proof. apply reprints_by. vm_compute. reflexivity. Qed.
(** a value that does not fit is cut *)
Example C52_value_refuted : reprints $"learn(eth_type=0x12345)" $"learn(eth_type=0x2345)".
Proof. apply reprints_by. vm_compute. reflexivity. Qed.
(** without arguments there is no action *)
Example C52_empty_refuted : str2act $"learn()" = Ok ([], 0%nat).
Proof. vm_compute. reflexivity. Qed.

(** ** C53 *)
(** every other action is a multiple of 8 bytes *)
Theorem C53_padded : forall a, (forall n, a <> SetNwTtl n) -> (forall b, a <> Note b) -> (length (act_wire a) mod 8 = 0)%nat.
Proof. intros a H1 H2. pose proof (act_mod8 a) as H. destruct a; auto; [exfalso; now eapply H1|exfalso; now eapply H2]. Qed.
Theorem C53_ttl_refuted : forall n u s, literal u n -> one_arg $"set_nw_ttl" u s -> in_bytes 1 n -> act_encodes s (be 2 23 ++ be 2 5 ++ be 1 n).
Proof.
  intros n u s Hu Hs Hn. apply (written (SetNwTtl n)); [now apply (wa_nw_ttl u)|]. split; auto. cbn [act_wire]. rewrite std_act_length. len.
Qed.
(** an instruction with such actions is encoded, but printing it fails *)
Theorem C53_refuted : forall i r, Z.of_nat (length (instr_wire i)) <= 65535 ->
  match i with WriteActions l | ApplyActions l => (length (acts_wire l) mod 8 <> 0)%nat | _ => False end ->
  inst2str (instr_wire i ++ r) true = Raise AssertionError.
Proof. exact unpadded_raises. Qed.
Example C53_case : (m <- str2mod $"@apply,set_nw_ttl=5" 0 0 ;; mod2str m) = Raise AssertionError
  /\ (m <- str2mod $"@apply,note=abcd" 0 0 ;; mod2str m) = Raise AssertionError
  /\ (m <- str2mod $"@apply,set_nw_ttl=5,note=a" 0 0 ;; mod2str m) = Ok $"@apply,set_nw_ttl=5,note(a)".
Proof. vm_compute. auto. Qed.

Print Assumptions C50_written.
Print Assumptions C50_prints.
Print Assumptions C50_roundtrip.
Print Assumptions C50_words_refuted.
Print Assumptions C50_padding_refuted.
Print Assumptions C50_long_refuted.
Print Assumptions C51_roundtrip.
Print Assumptions C51_written.
Print Assumptions C51_range_refuted.
Print Assumptions C52_roundtrip.
Print Assumptions C52_written.
Print Assumptions C52_fixed_refuted.
Print Assumptions C52_output_refuted.
Print Assumptions C53_padded.
Print Assumptions C53_ttl_refuted.
Print Assumptions C53_refuted.
