(** The printed text of an action is one of its written texts; lists of actions. *)
From Coq Require Import Strings.Ascii.
From Verif Require Import Base PyNum Util PyLib OxmCodec OxmTables Oxm Nx Ofp4 Spec SpecOxm SpecOfp.
From Verif Require Import BaseFacts UtilFacts NumFacts OxmRead OxmPrint OxmFacts OxmMore ActBase ActRead ActReadNx ActReadReg ActReadLearn ActPrint.

Lemma paren : bracket 40 41.
Proof. constructor. Qed.
Lemma square : bracket 91 93.
Proof. constructor. Qed.
Lemma one_eq name u : one_arg name u (name ++ $"=" ++ u).
Proof. exact (arg_eq name u [] [] (or_introl eq_refl) (Forall_nil _)). Qed.
Lemma one_call name u : one_arg name u (call 40 41 name u).
Proof. pose proof (arg_call name u 40 41 [] [] paren (Forall_nil _) (or_introl eq_refl)) as H. cbn [app] in H. now rewrite app_nil_r in H. Qed.
Lemma hex_literal n : 0 <= n -> literal (hex n) n.
Proof. intros H. exact (hexw_literal 0 n H). Qed.
Lemma port_text_of n : port_of (port_text 4 n) n.
Proof.
  unfold port_text. destruct (find _ reserved) as [[q [lo up]]|] eqn:E.
  - apply find_some in E as [Hi E]. cbn [fst] in E. apply Z.eqb_eq in E. apply (port_name lo up).
    replace n with q; auto. rewrite <- E. symmetry. apply Z.mod_small. assert (H : forallb (fun r => (0 <=? fst r) && (fst r <? 256 ^ Z.of_nat 4)) reserved = true) by (vm_compute; reflexivity).
    pose proof (proj1 (forallb_forall _ _) H _ Hi) as H'. cbv beta in H'. cbn [fst] in H'. lia.
  - apply port_lit, dec_literal.
Qed.
Lemma nx_port_text p : nx_port p -> nx_port_of (nx_port_str p) p.
Proof.
  intros H. unfold nx_port_str. destruct (Z.eqb_spec p 65528) as [->|Hn]; [exact nx_port_lo|]. apply nx_port_lit; [apply dec_literal|].
  destruct H as [H|H]; lia.
Qed.
Lemma plain_commas us : plain_args us (commas us).
Proof.
  destruct us as [|u us]; [constructor; constructor|]. revert u. induction us as [|v us IH]; intros u.
  - unfold commas. cbn [sepby]. replace u with ([] ++ u ++ []) at 2 by (cbn; now rewrite app_nil_r).
    apply plain_args_cons; [constructor|constructor; constructor|now left].
  - rewrite commas_cons. change (u ++ $"," ++ commas (v :: us)) with ([] ++ u ++ 44 :: commas (v :: us)).
    specialize (IH v). apply plain_args_cons; [constructor| |right; left; reflexivity].
    remember (commas (v :: us)) as s eqn:Es. clear Es. inversion IH as [|h w ws r Hh Hr Hs]; subst.
    change (44 :: h ++ v ++ r) with ((44 :: h) ++ v ++ r). apply plain_args_cons; auto. constructor; auto. left. reflexivity.
Qed.
Lemma args_commas u us : args (u :: us) (commas (u :: us)).
Proof.
  revert u. induction us as [|v us IH]; intros u.
  - unfold commas. cbn [sepby]. pose proof (args_last u [] (or_introl eq_refl)) as H. now rewrite app_nil_r in H.
  - rewrite commas_cons. apply args_cons; auto. exact comma_gap.
Qed.
Lemma range_written f lo n : 0 <= lo -> 0 <= n -> bits_of f lo n (range_str f lo n).
Proof.
  intros Hlo Hn. pose proof (bits_range f 91 93 lo (lo + n) (dec lo) (dec (lo + n)) square Hlo ltac:(lia) (or_introl eq_refl) (or_introl eq_refl)) as H.
  replace (lo + n - lo) with n in H by lia.
  replace (range_str f lo n) with (call 91 93 (fname f) (dec lo ++ $":" ++ dec (lo + n))); auto.
  unfold range_str, call. rewrite <- !app_assoc. reflexivity.
Qed.
Lemma full_written f lo n : 0 <= lo -> 0 <= n -> full_bits_of f lo n (range_str f lo n).
Proof.
  intros Hlo Hn. pose proof (full_range f 91 93 lo (lo + n) square Hlo ltac:(lia)) as H.
  replace (lo + n - lo) with n in H by lia.
  replace (range_str f lo n) with (call 91 93 (fname f) (dec lo ++ $":" ++ dec (lo + n))); auto.
  unfold range_str, call. rewrite <- !app_assoc. reflexivity.
Qed.
Lemma bits_written f lo n : 0 <= lo -> 0 <= n -> bits_of f lo n (bits_str f lo n).
Proof.
  intros Hlo Hn. unfold bits_str. destruct (bits f) as [b|] eqn:E; [|now apply range_written].
  destruct ((lo =? 0) && (n =? b)) eqn:E2; [|now apply range_written]. apply andb_prop in E2 as [E2 E3]. apply Z.eqb_eq in E2, E3. subst. now constructor.
Qed.
Lemma full_bits_written f lo n : 0 <= lo -> 0 <= n -> full_bits_of f lo n (bits_str f lo n).
Proof.
  intros Hlo Hn. unfold bits_str. destruct (bits f) as [b|] eqn:E; [|now apply full_written].
  destruct ((lo =? 0) && (n =? b)) eqn:E2; [|now apply full_written]. apply andb_prop in E2 as [E2 E3]. apply Z.eqb_eq in E2, E3. subst. now constructor.
Qed.
Lemma dst_bits_written f lo n : 0 <= lo -> 0 <= n -> dst_bits_of f lo n (bits_str f lo n).
Proof.
  intros Hlo Hn. assert (H : forall o e lo hi, bracket o e -> 0 <= lo -> 0 <= hi -> dst_bits_of f lo (hi - lo) (call o e (fname f) (dec lo ++ $":" ++ dec hi))).
  { intros o e l hi Ho Hl Hh. now apply dst_range; auto. }
  destruct (full_bits_written f lo n Hlo Hn) as [b Hb|o e l hi Ho Hl Hh]; [now apply dst_whole|auto].
Qed.
Lemma eq_alone : eq_sep $"=".
Proof. exact (eq_sep_intro [] [] (or_introl eq_refl) (Forall_nil _)). Qed.
Lemma nonneg n v : in_bytes n v -> 0 <= v.
Proof. unfold in_bytes. lia. Qed.
Lemma Forall2_map {A B} (f : A -> B) (P : B -> A -> Prop) l : (forall x, In x l -> P (f x) x) -> Forall2 P (map f l) l.
Proof. induction l as [|a l IH]; intros H; constructor; [apply H; now left|apply IH; intros x Hx; apply H; now right]. Qed.

Lemma lspec_written s : lspec_ok s -> lspec_printable s -> writes_lspec s (lspec_text s).
Proof.
  intros (Hn & Hs & Hd) (_ & Pd). destruct s as [n src dst]. unfold lspec_text. cbn [l_bits l_src l_dst] in *.
  assert (Hsrc : src_of n src (match src with FromBits f lo => bits_str f lo n | FromValue v => hex v end)).
  { destruct src as [f lo|v]; constructor; [apply bits_written; [apply (nonneg 2); apply Hs|lia]|apply hex_literal; now apply (nonneg (imm_size n))]. }
  destruct dst as [f lo|f lo|]; [| |contradiction].
  - apply wl_match; auto using eq_alone. apply dst_bits_written; [apply (nonneg 2); apply Hd|lia].
  - pose proof (wl_load n src _ f lo _ $"=" 40 41 [] [] Hsrc (dst_bits_written f lo n ltac:(apply (nonneg 2); apply Hd) ltac:(lia)) eq_alone paren (Forall_nil _) (or_introl eq_refl)) as H.
    cbn [app] in H. rewrite app_nil_r in H. refine (eq_ind _ (writes_lspec _) H _ _). unfold call. cbn [app]. rewrite <- !app_assoc. reflexivity.
Qed.

(** the printed text is one of the written texts *)
Theorem text_written a : good_act a -> writes_act a (act_text a).
Proof.
  intros [[Hok Hlen] Hp].
  destruct a as [p m|k|n|n|n|k n|t|p|p t|v|v|ids|f lo n v|t|s slo d dlo n|h b a l arg d lo n|h b a f ps|v2 f n m| | |n|b|h b a f d n ps|l]; cbn [act_text] in *.
  - destruct Hok as [H1 H2]. destruct (Z.eqb_spec m 65535) as [->|Hm].
    + rewrite app_nil_r. apply (wa_output (port_text 4 p)); [apply port_text_of|]. exact (one_eq $"output" _).
    + apply (wa_output_max (port_text 4 p) p (hex m)); [apply port_text_of|apply hex_literal; now apply (nonneg 2)|]. exact (one_eq $"output" _).
  - constructor.
  - apply (wa_ttl (dec n)); [apply dec_literal|]. exact (one_eq $"set_mpls_ttl" _).
  - apply (wa_queue (dec n)); [apply dec_literal|]. exact (one_eq $"set_queue" _).
  - apply (wa_group (dec n)); [apply dec_literal|]. exact (one_eq $"group" _).
  - apply (wa_ether k (hexw 4 n)); [apply hexw_literal; now apply (nonneg 2)|]. exact (one_eq _ _).
  - apply wa_field, text_item. apply Hp.
  - apply (wa_resubmit (nx_port_str p)); [now apply nx_port_text|]. exact (one_call $"resubmit" _).
  - destruct Hok as [H1 H2].
    assert (Hw : table_of (if t =? 255 then $"all" else dec t) t)
      by (destruct (Z.eqb_spec t 255) as [->|_]; [exact table_all|apply table_lit, dec_literal]).
    pose proof (wa_resubmit_table (nx_port_str p) p _ t 40 41 [] _ (nx_port_text p H1) Hw paren (Forall_nil _) (args_commas _ _)) as H.
    refine (eq_ind _ (writes_act _) H _ _). rewrite commas_cons. unfold call, commas. cbn [sepby app]. rewrite <- !app_assoc.
    destruct (t =? 255); reflexivity.
  - apply (wa_tunnel (hex v)); [apply hex_literal; now apply (nonneg 4)|unfold in_bytes in Hok; lia|]. exact (one_call $"set_tunnel" _).
  - apply (wa_tunnel64 (hex v)); [apply hex_literal; now apply (nonneg 8)|exact Hp|]. exact (one_call $"set_tunnel64" _).
  - apply (wa_ids (map hex ids) ids 40 41); auto using paren, plain_commas.
    + apply Forall2_map. intros x Hx. apply hex_literal. apply (nonneg 2). now apply (proj1 (Forall_forall _ _) Hok).
    + destruct ids; [now elim Hp|discriminate].
  - destruct Hp as [Hg Hpr]. pose proof (wa_load f lo n v _ 40 41 [] [] (text_item _ Hg) paren (Forall_nil _) (or_introl eq_refl)) as H.
    cbn [app] in H. rewrite app_nil_r in H. exact H.
  - destruct Hp as [Hg Hpr]. pose proof (wa_load2 t _ 40 41 [] [] (text_item _ Hg) paren (Forall_nil _) (or_introl eq_refl)) as H.
    cbn [app] in H. rewrite app_nil_r in H. exact H.
  - destruct Hok as (Hs & Hd & H1 & H2 & H3). pose proof (nonneg _ _ H1). pose proof (nonneg _ _ H2). pose proof (nonneg _ _ H3).
    pose proof (wa_move s slo d dlo n (bits_str s slo n) (bits_str d dlo n) [] [] 40 41 [] []) as H'. cbn [app] in H'. rewrite app_nil_r in H'.
    replace ($"reg_move(" ++ bits_str d dlo n ++ $"=" ++ bits_str s slo n ++ $")")
      with (call 40 41 $"reg_move" (bits_str d dlo n ++ $"=" ++ bits_str s slo n)).
    + apply H'; auto using bits_written, paren; now left.
    + unfold call. rewrite <- !app_assoc. reflexivity.
  - destruct Hok as (Hd & H1 & H2 & H3 & H4 & H5).
    apply (wa_multipath h (dec b) b a (dec l) l (hex arg) arg d lo n (range_str d lo n) 40 41 []); auto using dec_literal, paren, args_commas.
    + apply hex_literal. now apply (nonneg 4).
    + apply range_written; lia.
    + exact (args_commas _ _).
  - destruct Hok as (Hf & Hk & H1 & H2).
    apply (wa_bundle h (dec b) b a f (map dec ps) ps 40 41 40 41 [] _ (commas (map dec ps))); auto using dec_literal, paren, plain_commas.
    + apply Forall2_map. intros; apply dec_literal.
    + exact (args_commas _ _).
  - destruct Hok as (Hf & Hc & H1 & H2). destruct Hp as (_ & _ & ->).
    pose proof (wa_output_reg v2 f n (bits_str f 0 n) 40 41 [] [] (full_bits_written f 0 n ltac:(lia) ltac:(lia)) paren (Forall_nil _) (or_introl eq_refl)) as H.
    cbn [app] in H. rewrite app_nil_r in H. destruct v2; exact H.
  - constructor.
  - constructor.
  - apply (wa_nw_ttl (dec n)); [apply dec_literal|]. exact (one_eq $"set_nw_ttl" _).
  - apply wa_note. exact (one_call $"note" _).
  - destruct Hok as (Hf & Hk & Hd & H1 & H2 & H3).
    assert (E : range_str d 0 n = call 91 93 (fname d) (dec 0 ++ $":" ++ dec n)) by (unfold range_str, call; now rewrite <- !app_assoc). rewrite E.
    apply (wa_bundle_load h (dec b) b a f d n (map dec ps) ps 40 41 40 41 91 93 [] _ (commas (map dec ps))); auto using dec_literal, paren, square, plain_commas.
    + apply Forall2_map. intros; apply dec_literal.
    + exact (args_commas _ _).
  - destruct Hp as [Hl0 Hp]. destruct l as [|e l]; [congruence|].
    assert (E : forall l, Forall lentry_ok l -> Forall (fun e => match e with LAdd s => lspec_printable s | LSet _ _ => False end) l ->
      Forall2 writes_lentry l (map lspec_text (lspecs l))).
    { clear. induction l as [|[k v|s] l IH]; intros H1 H2; inversion H1; inversion H2; subst; [constructor|contradiction|].
      cbn [lspecs flat_map app map]. constructor; [now constructor; apply lspec_written|now apply IH]. }
    specialize (E (e :: l) Hok Hp). destruct (map lspec_text (lspecs (e :: l))) as [|t ts] eqn:Et; [inversion E|].
    exact (wa_learn (e :: l) (t :: ts) 40 41 [] _ E paren (Forall_nil _) (args_commas _ _)).
Qed.

(** ** Round trips *)
Theorem act_roundtrip a : good_act a -> act2str (act_wire a) true = Ok (act_text a) /\ str2act (act_text a) = Ok (act_wire a, length (act_text a)).
Proof.
  intros Ha. split.
  - unfold act2str. assert (Hl : (4 < length (act_wire a))%nat).
    { destruct a as [| | | | | | | | | | | | | | | | |[|]| | | |b| |]; cbn [act_wire]; unfold nx_act; rewrite ?padded_act_eq, ?std_act_length; len.
      pose proof (wire_length t). lia. }
    destruct (length (act_wire a)) as [|n] eqn:E; [lia|]. cbn [act2str_go]. rewrite E. destruct (Nat.leb_spec (S n) 4); [lia|].
    pose proof (act_prints a [] Ha) as Hp. rewrite app_nil_r in Hp. rewrite Hp. cbn [bind]. destruct n; [lia|]. reflexivity.
  - pose proof (act_reads a (act_text a) [] [] (text_written a Ha) (proj1 Ha) (Forall_nil _) I) as H.
    cbn [app] in H. rewrite app_nil_r in H. exact H.
Qed.

(** ** Lists *)
Lemma act_wire_long a : (4 < length (act_wire a))%nat.
Proof.
  destruct a as [| | | | | | | | | | | | | | | | |[|]| | | |b| |]; cbn [act_wire]; unfold nx_act; rewrite ?padded_act_eq, ?std_act_length; len.
  pose proof (wire_length t). lia.
Qed.
Lemma acts_print l : Forall good_act l -> forall fuel, (length (acts_wire l) <= fuel)%nat -> act2str_go fuel true (acts_wire l) = Ok (map act_text l).
Proof.
  induction 1 as [|a l Ha Hl IH]; intros fuel Hf; [destruct fuel; reflexivity|].
  unfold acts_wire in *. cbn [flat_map] in *. rewrite app_length in Hf. pose proof (act_wire_long a).
  destruct fuel as [|fuel]; [lia|]. cbn [act2str_go]. rewrite app_length.
  destruct (Nat.leb_spec (length (act_wire a) + length (flat_map act_wire l)) 4); [lia|].
  rewrite act_prints by auto. cbn [bind]. rewrite IH by lia. reflexivity.
Qed.
Theorem act2str_list l : Forall good_act l -> act2str (acts_wire l) true = Ok (acts_text l).
Proof. intros H. unfold act2str. rewrite acts_print by auto. cbn [bind]. now rewrite join_commas. Qed.
Lemma acts_written l : Forall good_act l -> writes_acts l (flat_map (fun a => $"," ++ act_text a) l).
Proof.
  induction 1 as [|a l Ha Hl IH]; [constructor|]. cbn [flat_map]. rewrite <- app_assoc. constructor; auto using comma_gap, text_written.
Qed.
