(** The texts taken as learn actions. *)
From Verif Require Import Base PyNum Util PyLib OxmCodec OxmTables Oxm Nx Ofp4 Spec SpecOxm SpecText SpecOfp SpecActText.
From Verif Require Import BaseFacts UtilFacts NumFacts PyLibFacts OxmRead OxmPrint OxmFacts OxmFrame OxmMore ActBase ActRead ActReadNx ActReadReg ActReadLearn ActFrame ActDenote GramLib OxmGram OxmExact GramTok GramField GramAct.
From Coq Require Import Strings.Ascii.

(** ** Flow specs *)
Lemma id_sizes : forallb (fun f => match fclass f with Stratos => negb (Nat.eqb (length (id_wire false f)) 4)
    | _ => Nat.eqb (length (id_wire false f)) 4 && (len_byte false f * 8 =? SpecActText.whole f) end) accepted_fields = true.
Proof. vm_compute. reflexivity. Qed.
Lemma id_four f : readable f -> length (id_wire false f) = 4%nat <-> fclass f <> Stratos.
Proof.
  intros Hf%accepted_readable. pose proof (proj1 (forallb_forall _ _) id_sizes f Hf) as E. cbv beta in E. destruct (fclass f);
    try (apply andb_true_iff in E as [E _]; apply Nat.eqb_eq in E; split; [discriminate|auto]).
  apply negb_true_iff, Nat.eqb_neq in E. split; [contradiction|congruence].
Qed.
Lemma id_whole f : readable f -> fclass f <> Stratos -> len_byte false f * 8 = SpecActText.whole f.
Proof.
  intros Hf%accepted_readable Hc. pose proof (proj1 (forallb_forall _ _) id_sizes f Hf) as E. cbv beta in E. destruct (fclass f);
    try (now apply andb_true_iff in E as [_ E%Z.eqb_eq]). congruence.
Qed.
Lemma opt_range_iff a r0 r1 : opt_range a = Ok (r0, Ok r1) <-> exists x y, pair_text a x y /\ opt_int x = Ok r0 /\ opt_int y = Ok r1.
Proof.
  unfold opt_range. split.
  - destruct (split1 58 a) as [x [y|]] eqn:E; intros H; mons H; [|discriminate]. injection H as <- <-. apply pair_split in E. eauto 6.
  - intros (x & y & Hp & Hx & Hy). apply pair_split in Hp. rewrite Hp, Hx. cbn [bind]. now rewrite Hy.
Qed.
Lemma opt_range_raise a r0 r1 : opt_range a = Ok (r0, r1) -> (exists o, r1 = Ok o) \/ r1 = Raise IndexError.
Proof. unfold opt_range. destruct (split1 58 a) as [x [y|]]; intros H; mons H; injection H as <- <-; eauto. Qed.
Lemma src_range_iff p f arg lo n : readable f -> fclass f <> Stratos -> func p (fname f) arg ->
  src_range (len_byte false f) arg = Ok (lo, n) <-> bit_range p f lo n.
Proof.
  intros Hf Hc F. unfold src_range. rewrite (id_whole f Hf Hc). split.
  - destruct arg as [[|c a]|].
    + intros [= <- <-]. apply (range_whole _ _ (Some [])); auto. now right.
    + intros H. mons H. destruct (opt_range_raise _ _ _ Ea) as [[o0 ->]| ->]; [|discriminate]. injection Ea0 as <-. injection H as <- <-.
      apply opt_range_iff in Ea as (x & y & Hp & Hx & Hy). apply (range_bits _ _ (c :: a) x y); auto using opt_or_inv.
    + intros [= <- <-]. apply (range_whole _ _ None); auto. now left.
  - intros [a Hr F' Hg|a x y lo' hi Hr F' Hp Hx Hy]; destruct (func_fun _ _ _ _ _ F F') as [_ ->].
    + destruct Hg as [->| ->]; reflexivity.
    + destruct (pair_some _ _ _ Hp) as (c & a' & ->). apply py_or_opt in Hx as (r0 & Hx & <-), Hy as (r1 & Hy & <-).
      rewrite (proj2 (opt_range_iff (c :: a') r0 r1)) by eauto. reflexivity.
Qed.
Lemma dst_range_iff p f arg lo n : readable f -> fclass f <> Stratos -> func p (fname f) arg ->
  dst_range_of (len_byte false f) arg = Ok (lo, n) <-> learn_dst p f lo n.
Proof.
  intros Hf Hc F. unfold dst_range_of. rewrite (id_whole f Hf Hc). split.
  - destruct arg as [[|c a]|].
    + intros [= <- <-]. apply (lda_whole _ _ (Some [])); auto. now right.
    + intros H. mons H. destruct (opt_range_raise _ _ _ Ea) as [[o0 ->]| ->]; [|discriminate]. injection Ea0 as <-. injection H as <- <-.
      apply opt_range_iff in Ea as (x & y & Hp & Hx & Hy). unfold opt_int in Hy. destruct y as [|c' y].
      * injection Hy as <-. apply (lda_open _ _ (c :: a) x); auto using opt_or_inv.
      * mons Hy. injection Hy as <-. apply (lda_bits _ _ (c :: a) x (c' :: y)); auto using opt_or_inv. now apply py_number_iff.
    + intros [= <- <-]. apply (lda_whole _ _ None); auto. now left.
  - intros [a Hr F' Hg|a x y lo' hi Hr F' Hp Hx Hy|a x lo' Hr F' Hp Hx]; destruct (func_fun _ _ _ _ _ F F') as [_ ->].
    + destruct Hg as [->| ->]; reflexivity.
    + destruct (pair_some _ _ _ Hp) as (c & a' & ->). apply py_or_opt in Hx as (r0 & Hx & <-). apply py_number_iff in Hy.
      rewrite (proj2 (opt_range_iff (c :: a') r0 (Some hi))); [reflexivity|]. exists x, y. split; [exact Hp|]. split; [exact Hx|]. unfold opt_int. destruct y; [discriminate|]. now rewrite Hy.
    + destruct (pair_some _ _ _ Hp) as (c & a' & ->). apply py_or_opt in Hx as (r0 & Hx & <-).
      rewrite (proj2 (opt_range_iff (c :: a') r0 None)); [reflexivity|]. eauto 6.
Qed.
Definition src_part (src : text) : res (Nx.learn_src * option Z * Z) :=
  '(sname, sarg) <- parse_func src ;;
  soxm <- str2oxmid sname false ;;
  match soxm with
  | _ :: _ =>
      assert! (Nat.eqb (length soxm) 4) ;;
      '(_, _, size) <- oxm_hdr soxm 0 ;;
      '(sshift, nbits) <- src_range size sarg ;;
      p <- pack [sH] [sshift] ;;
      Ok (LBytes (soxm ++ p), Some nbits, 0)
  | [] => '(n, _) <- parseInt sname ;; Ok (LInt n, None, Z.shiftl 1 12)
  end.
Definition src_of (s : lsrc) : Nx.learn_src := match s with FromBits f lo => LBytes (bits_wire f lo) | FromValue v => LInt v end.
Definition src_flag (s : lsrc) : Z := match s with FromBits _ _ => 0 | FromValue _ => 4096 end.
Lemma id_some f : exists c w, id_wire false f = c :: w.
Proof. destruct (id_wire false f) as [|c w] eqn:E; [|eauto]. apply (f_equal (@length byte)) in E. rewrite id_length in E. discriminate. Qed.
Lemma src_part_iff src o k fl : named src -> src_part src = Ok (o, k, fl) <-> exists s, SpecActText.learn_src src s k /\ o = src_of s /\ fl = src_flag s.
Proof.
  intros Hn. unfold src_part. split.
  - intros H. mon H. destruct a as [sname sarg]. mon H. apply func_iff in Ea. apply field_id_iff in Ea0; [|eapply func_named; eauto]. destruct Ea0 as [f Hf ->|Hno].
    + destruct (id_wire false f) as [|c w] eqn:E; [destruct (id_some f) as (c & w & E'); congruence|]. rewrite <- E in H. destruct (Nat.eqb (length (id_wire false f)) 4) eqn:Eb; [|discriminate]. cbn [assert bind] in H. apply Nat.eqb_eq, (id_four f Hf) in Eb. destruct (id_hdr f Hf) as (c' & k' & Eh & _). rewrite Eh in H. cbn [bind] in H.
      mons H. injection H as <- <- <-. apply (src_range_iff src f sarg _ _ Hf Eb Ea) in Ea0. unpack_inv Ea1. rewrite app_nil_r. exists (FromBits f z). split; [now constructor|auto].
    + mons H. injection H as <- <- <-. exists (FromValue z). split; [|auto]. apply (lsa_value src sname sarg); auto. apply numberish_iff; eauto.
  - intros (s & Hs & -> & ->). destruct Hs as [p f lo n Hc Hb Hlo|p name a v F Hno Hv].
    + assert (exists a, func p (fname f) a /\ readable f) as (a & F & Hf) by (destruct Hb; eauto). pose proof F as F'. apply func_iff in F'. rewrite F'. cbn [bind].
      rewrite (proj2 (field_id_iff false (fname f) (id_wire false f) (func_named _ _ _ Hn F))) by now constructor. cbn [bind].
      destruct (id_some f) as (c & w & E). rewrite E. rewrite <- E. rewrite (proj2 (id_four f Hf) Hc). cbn [Nat.eqb assert bind].
      destruct (id_hdr f Hf) as (c' & k' & Eh & _). rewrite Eh. cbn [bind]. rewrite (proj2 (src_range_iff p f a lo n Hf Hc F) Hb). cbn [bind]. rewrite pack_u by auto. cbn [pack bind]. now rewrite app_nil_r.
    + pose proof F as F'. apply func_iff in F'. rewrite F'. cbn [bind]. rewrite (proj2 (field_id_iff false name [] (func_named _ _ _ Hn F))) by now constructor. cbn [bind].
      apply numberish_iff in Hv as (l & ->). reflexivity.
Qed.
Definition to_part (mode : option text) (dst : text) (o : Nx.learn_src) (nbits : option Z) (flags : Z) : res bytes :=
  '(dname, darg) <- parse_func dst ;;
  doxm <- str2oxmid dname false ;;
  assert! (Nat.eqb (length doxm) 4) ;;
  '(_, _, size) <- oxm_hdr doxm 0 ;;
  '(dshift, dnbits) <- dst_range_of size darg ;;
  nbits <- (if opt_or nbits 0 =? 0 then Ok dnbits
            else assert! (opt_or nbits 0 =? dnbits) ;; Ok (opt_or nbits 0)) ;;
  p <- pack [sH] [dshift] ;;
  let dbin := doxm ++ p in
  let sbin := match o with
              | LInt n => be_bytes (Z.to_nat ((nbits + 15) / 16 * 2)) n
              | LBytes b => b
              end in
  let flags := if match mode with Some m => text_eqb m $"reg_load" | None => false end
               then flags + Z.shiftl 1 10 else flags in
  q <- pack [sH] [flags + nbits] ;;
  Ok (q ++ sbin ++ dbin).
Definition out_part (o : Nx.learn_src) (nbits : option Z) (flags : Z) : res bytes :=
  let flags := flags + Z.shiftl 2 10 in
  match o with
  | LInt n => pack [sH; sH] [flags + 2; n]
  | LBytes b => p <- pack [sH] [flags + opt_or nbits 0] ;; Ok (p ++ b)
  end.
Definition is_mode (w : text) (mode : option text) : bool := match mode with Some m => text_eqb m w | None => false end.
Lemma is_mode_iff w mode : is_mode w mode = true <-> mode = Some w.
Proof. destruct mode; cbn [is_mode]; [rewrite text_eqb_eq; split; congruence|split; discriminate]. Qed.
Lemma spec_parts src dst mode : flow_mod_spec src dst mode =
  ('(o, k, fl) <- src_part src ;;
   if is_mode $"output" mode then out_part o k fl else match dst with None => Raise TypeError | Some d => to_part mode d o k fl end).
Proof.
  unfold flow_mod_spec, src_part. destruct (parse_func src) as [[sname sarg]|e|]; [|reflexivity..]. cbn [bind]. destruct (str2oxmid sname false) as [[|c w]|e|]; [| |reflexivity..].
  - cbn [bind]. destruct (parseInt sname) as [[n l]|e|]; reflexivity.
  - reflexivity.
Qed.
Lemma to_part_iff mode dst s k b : named dst -> mode <> Some $"output" ->
  to_part mode dst (src_of s) k (src_flag s) = Ok b <->
  exists f lo n d, learn_to mode f lo d /\ fclass f <> Stratos /\ learn_dst dst f lo n /\ in_bytes 2 lo /\ agree k n /\ in_bytes 2 (spec_head (LSpec n s d)) /\ b = lspec_wire (LSpec n s d).
Proof.
  intros Hn Hm. unfold to_part. change (match mode with Some m => text_eqb m $"reg_load" | None => false end) with (is_mode $"reg_load" mode).
  assert (forall f lo n d q, learn_to mode f lo d -> in_bytes 2 lo ->
    (q <- pack [sH] [(if is_mode $"reg_load" mode then src_flag s + Z.shiftl 1 10 else src_flag s) + n] ;;
     Ok (q ++ match src_of s with LInt v => be_bytes (Z.to_nat ((n + 15) / 16 * 2)) v | LBytes w => w end ++ id_wire false f ++ be 2 lo)) = Ok q <->
    in_bytes 2 (spec_head (LSpec n s d)) /\ q = lspec_wire (LSpec n s d)) as A.
  { intros f lo n d q Hd Hlo. assert ((if is_mode $"reg_load" mode then src_flag s + Z.shiftl 1 10 else src_flag s) + n = spec_head (LSpec n s d)) as ->.
    { unfold spec_head. cbn [l_bits l_src l_dst]. destruct Hd as [H1 H2|H1].
      - destruct (is_mode $"reg_load" mode) eqn:E; [apply is_mode_iff in E; congruence|]. destruct s; cbn [src_flag]; lia.
      - apply is_mode_iff in H1. rewrite H1. destruct s; cbn; lia. }
    assert (lspec_wire (LSpec n s d) = be 2 (spec_head (LSpec n s d)) ++ match src_of s with LInt v => be_bytes (Z.to_nat ((n + 15) / 16 * 2)) v | LBytes w => w end ++ id_wire false f ++ be 2 lo) as ->.
    { unfold lspec_wire, spec_head. cbn [l_bits l_src l_dst]. destruct Hd as [H1 H2|H1], s; cbn [src_of]; rewrite ?be_bytes_imm; unfold bits_wire; do 2 f_equal; lia. }
    split.
    - intros H. mons H. injection H as <-. unpack_inv Ea. now rewrite app_nil_r.
    - intros [Hi ->]. rewrite pack_u by auto. cbn [pack bind]. now rewrite app_nil_r. }
  split.
  - intros H. mon H. destruct a as [dname darg]. mon H. apply func_iff in Ea. apply field_id_iff in Ea0; [|eapply func_named; eauto]. destruct Ea0 as [f Hf ->|Hno]; [|discriminate].
    destruct (Nat.eqb (length (id_wire false f)) 4) eqn:Eb; [|discriminate]. cbn [assert bind] in H. apply Nat.eqb_eq, (id_four f Hf) in Eb. destruct (id_hdr f Hf) as (c' & k' & Eh & _). rewrite Eh in H. cbn [bind] in H.
    mon H. destruct a as [lo n]. apply (dst_range_iff dst f darg lo n Hf Eb Ea) in Ea0. mon H. mon H. unpack_inv Ea2. rewrite app_nil_r in H. cbv zeta in H.
    assert (agree k n /\ a = n) as [Hk ->].
    { destruct k as [k|]; cbn [opt_or agree] in *; [|injection Ea1 as <-; auto]. destruct (Z.eqb_spec k 0); [injection Ea1 as <-; auto|]. mons Ea1. apply Z.eqb_eq in Eb0. injection Ea1 as <-. auto. }
    destruct (is_mode $"reg_load" mode) eqn:Em.
    + apply is_mode_iff in Em. exists f, lo, n, (ToLoad f lo). assert (learn_to mode f lo (ToLoad f lo)) as Hd by now constructor. apply (A f lo n _ b Hd) in H; auto. tauto.
    + exists f, lo, n, (ToMatch f lo). assert (learn_to mode f lo (ToMatch f lo)) as Hd by (constructor; auto; intros K; apply is_mode_iff in K; congruence). apply (A f lo n _ b Hd) in H; auto. tauto.
  - intros (f & lo & n & d & Hd & Hc & Hb & Hlo & Hk & Hh & ->).
    assert (exists a, func dst (fname f) a /\ readable f) as (a & F & Hf) by (destruct Hb; eauto). pose proof F as F'. apply func_iff in F'. rewrite F'. cbn [bind].
    rewrite (proj2 (field_id_iff false (fname f) (id_wire false f) (func_named _ _ _ Hn F))) by now constructor. cbn [bind].
    rewrite (proj2 (id_four f Hf) Hc). cbn [Nat.eqb assert bind].
    destruct (id_hdr f Hf) as (c' & k' & Eh & _). rewrite Eh. cbn [bind]. rewrite (proj2 (dst_range_iff dst f a lo n Hf Hc F) Hb). cbn [bind].
    assert ((if opt_or k 0 =? 0 then Ok n else assert! (opt_or k 0 =? n) ;; Ok (opt_or k 0)) = Ok n) as ->.
    { destruct k as [k|]; cbn [opt_or agree] in *; [|reflexivity]. destruct (Z.eqb_spec k 0); [reflexivity|]. destruct Hk as [Hk|Hk]; [congruence|]. subst k. now rewrite Z.eqb_refl. }
    cbn [bind]. rewrite pack_u by auto. change (pack [] []) with (Ok (@nil byte)). cbn [bind]. rewrite app_nil_r. cbv zeta. apply (A f lo n d); auto.
Qed.
Lemma out_part_iff s k src b : SpecActText.learn_src src s k -> out_part (src_of s) k (src_flag s) = Ok b <->
  (exists n, k = Some n /\ in_bytes 2 (spec_head (LSpec n s ToOutput)) /\ b = lspec_wire (LSpec n s ToOutput)) \/
  (exists v, k = None /\ s = FromValue v /\ in_bytes 2 v /\ b = lspec_wire (LSpec 2 (FromValue v) ToOutput)).
Proof.
  intros [p f lo n Hc Hb Hlo|p name a v F Hno Hv]; unfold out_part; cbn [src_of src_flag opt_or]; cbv zeta.
  - assert (spec_head (LSpec n (FromBits f lo) ToOutput) = 0 + Z.shiftl 2 10 + n) as E by (unfold spec_head; cbn; lia).
    assert (lspec_wire (LSpec n (FromBits f lo) ToOutput) = be 2 (0 + Z.shiftl 2 10 + n) ++ bits_wire f lo) as E'.
    { unfold lspec_wire. cbn [l_bits l_src l_dst]. rewrite app_nil_r. do 2 f_equal. cbn; lia. }
    split.
    + intros H. mons H. injection H as <-. unpack_inv Ea. rewrite app_nil_r. left. exists n. rewrite E, E'. auto.
    + intros [(m & Em & Hh & ->)|(v & K & _)]; [|discriminate]. injection Em as <-. rewrite E in Hh. rewrite E', pack_u by auto. cbn [pack bind]. now rewrite app_nil_r.
  - assert (lspec_wire (LSpec 2 (FromValue v) ToOutput) = be 2 (4096 + Z.shiftl 2 10 + 2) ++ be 2 v) as E' by (unfold lspec_wire; cbn [l_bits l_src l_dst]; rewrite app_nil_r; reflexivity).
    split.
    + intros H. unpack_inv H. right. exists v. rewrite E', app_nil_r. auto.
    + intros [(m & K & _)|(v' & _ & Ev & Hv' & ->)]; [discriminate|]. injection Ev as <-. rewrite E'. rewrite pack_u by (unfold in_bytes; cbn; lia). rewrite pack_u by auto. cbn [pack bind]. now rewrite app_nil_r.
Qed.
Lemma spec_iff src dst mode b : named src -> named dst -> flow_mod_spec src (Some dst) mode = Ok b <-> exists s, learn_spec src dst mode s /\ b = lspec_wire s.
Proof.
  intros Hs Hd. rewrite spec_parts. split.
  - intros H. mon H. destruct a as [[o k] fl]. apply src_part_iff in Ea as (s & Es & -> & ->); [|exact Hs]. destruct (is_mode $"output" mode) eqn:Em.
    + apply is_mode_iff in Em. apply (out_part_iff s k src b Es) in H as [(n & -> & Hh & ->)|(v & -> & -> & Hv & ->)].
      * eexists. split; [|reflexivity]. now apply lsp_output.
      * eexists. split; [|reflexivity]. now apply lsp_output_value.
    + apply to_part_iff in H; [|exact Hd|intros K; apply is_mode_iff in K; congruence]. destruct H as (f & lo & n & d & Ht & Hc & Hb & Hlo & Hk & Hh & ->).
      eexists. split; [|reflexivity]. eapply lsp_to; eauto.
  - intros (s & H & ->). destruct H as [s k f lo n d Ht Es Hc Hb Hlo Hk Hh|s n Em Es Hh|v Em Es Hv].
    + rewrite (proj2 (src_part_iff src (src_of s) k (src_flag s) Hs)) by eauto. cbn [bind].
      assert (mode <> Some $"output") as Hm by (destruct Ht; [assumption|intros K; subst mode; discriminate]). destruct (is_mode $"output" mode) eqn:Em; [apply is_mode_iff in Em; congruence|].
      apply to_part_iff; auto. exists f, lo, n, d. auto 8.
    + rewrite (proj2 (src_part_iff src (src_of s) (Some n) (src_flag s) Hs)) by eauto. cbn [bind]. rewrite (proj2 (is_mode_iff _ _) Em). apply (out_part_iff s (Some n) src); auto. left. eauto.
    + rewrite (proj2 (src_part_iff src (LInt v) None 4096 Hs)) by (exists (FromValue v); auto). cbn [bind]. rewrite (proj2 (is_mode_iff _ _) Em). apply (out_part_iff (FromValue v) None src); auto. right. eauto.
Qed.

(** ** The list *)
Lemma learn_keys_iff w : in_names w learn_keys = true <-> exists k, w = lkey_name k.
Proof.
  split.
  - unfold in_names. rewrite existsb_exists. intros (x & H & E%text_eqb_eq). subst x. revert H. cbn [In learn_keys]. intros H. repeat (destruct H as [<-|H]; [|]); [exists LIdle|exists LHard|exists LPriority|exists LCookie|exists LFlags|exists LTable|exists LFinIdle|exists LFinHard|contradiction]; reflexivity.
  - intros (k & ->). apply key_is_key.
Qed.
Lemma single_iff w b : w <> [] -> learn_flush (Some w) = Ok b <->
  exists m a h1 x u1 h2 y u2 s, func w m (Some a) /\ a <> [] /\ next a h1 x u1 /\ next u1 h2 y u2 /\ SpecActText.eq_lead h2 /\ learn_spec y x (Some m) s /\ b = lspec_wire s.
Proof.
  intros Hw. destruct w as [|c w]; [congruence|]. cbn [learn_flush]. unfold learn_single. split.
  - intros H. mon H. destruct a as [m arg]. apply func_iff in Ea. destruct arg as [[|c' a]|]; try discriminate.
    destruct (get_token (c' :: a)) as [[h1 x] u1] eqn:E1. destruct (get_token u1) as [[h2 y] u2] eqn:E2. apply next_iff in E1, E2.
    mon H. apply lead_eq in Eb; [|eauto using next_lead]. apply spec_iff in H as (s & Hs & ->); [|eauto using next_named..].
    exists m, (c' :: a), h1, x, u1, h2, y, u2, s. repeat (split; auto). discriminate.
  - intros (m & a & h1 & x & u1 & h2 & y & u2 & s & F & Ha & N1 & N2 & Hl & Hs & ->). apply func_iff in F. rewrite F. cbn [bind]. destruct a as [|c' a]; [congruence|].
    pose proof N1 as G1. pose proof N2 as G2. apply next_iff in G1, G2. rewrite G1, G2. rewrite (proj2 (lead_eq h2 (next_lead _ _ _ _ N2)) Hl). cbn [assert bind].
    apply spec_iff; eauto using next_named.
Qed.
Lemma next_nil : next [] [] [] [].
Proof. apply next_iff. reflexivity. Qed.
Lemma eq_lead_nil : ~ SpecActText.eq_lead [].
Proof. intros (a & b & _ & _ & E). now destruct a. Qed.
(** a word that no "=" follows is an entry of its own *)
Lemma learn_left f info specs w u x : (forall h p r, next u h p r -> ~ SpecActText.eq_lead h) ->
  learn_go f info specs (Some w) u = Ok x <-> exists s, learn_flush (Some w) = Ok s /\ learn_go f info (specs ++ s) None u = Ok x.
Proof.
  intros Hu. destruct u as [|c u].
  - destruct f; cbn [learn_go bind]; change (learn_flush None) with (Ok (@nil byte)); cbn [bind]; (split; [intros H; mons H; exists a; rewrite app_nil_r; auto|intros (s & -> & H); cbn [bind]; now rewrite app_nil_r in H]).
  - destruct f as [|f]; [cbn [learn_go]; split; [discriminate|intros (s & _ & H); discriminate]|].
    cbn [learn_go]. destruct (get_token (c :: u)) as [[h p] r] eqn:E. apply next_iff in E. assert (has_char 61 h = false) as ->.
    { destruct (has_char 61 h) eqn:K; [|reflexivity]. apply lead_eq in K; [|eauto using next_lead]. now apply Hu in E. }
    change (learn_flush None) with (Ok (@nil byte)). cbn [bind]. split; [intros H; mons H; exists a; rewrite app_nil_r; auto|intros (s & -> & H); cbn [bind]; now rewrite app_nil_r in H].
Qed.
Lemma learn_sound f : forall info specs u info' specs', learn_go f info specs None u = Ok (info', specs') ->
  exists l, learn_list u l /\ info' = linfo l info /\ specs' = specs ++ flat_map lentry_wire l.
Proof.
  induction f as [f IH] using lt_wf_ind. intros info specs u info' specs' H. destruct u as [|c u].
  { assert (Ok (info, specs ++ []) = Ok (info', specs')) as E by (destruct f; exact H). injection E as <- <-. exists []. split; [constructor; constructor|]. auto. }
  destruct f as [|f]; [discriminate|]. cbn [learn_go] in H. destruct (get_token (c :: u)) as [[h p] r] eqn:E. apply next_iff in E.
  destruct (has_char 61 h) eqn:K.
  { rewrite spec_parts in H. destruct (src_part p) as [[[o k] fl]|e|]; discriminate. }
  assert (~ SpecActText.eq_lead h) as Hh. { intros G. apply lead_eq in G; [congruence|eauto using next_lead]. } clear K.
  cbn [learn_flush bind] in H. rewrite app_nil_r in H.
  destruct (get_token r) as [[h' p'] r'] eqn:E'. apply next_iff in E'.
  destruct (has_char 61 h') eqn:K.
  - assert (SpecActText.eq_lead h') as Hh' by (apply lead_eq; eauto using next_lead). 
    destruct r as [|c' r]. { apply next_cat in E'. destruct h'; [now apply eq_lead_nil in Hh'|discriminate]. }
    destruct f as [|f]; [discriminate|]. cbn [learn_go] in H. pose proof E' as G. apply next_iff in G. rewrite G, K in H. destruct (in_names p learn_keys) eqn:Ek.
    + apply learn_keys_iff in Ek as (k & ->). mons H. apply (IH f) in H as (l & Hl & -> & ->); [|lia]. exists (LSet k z :: l). rewrite linfo_cons. cbn [flat_map lentry_wire app].
      split; [|auto]. eapply ll_set; eauto. apply numberish_iff; eauto.
    + mons H. apply spec_iff in Ea as (s & Hs & ->); [|eauto using next_named..]. apply (IH f) in H as (l & Hl & -> & ->); [|lia]. exists (LAdd s :: l). rewrite linfo_cons. cbn [flat_map lentry_wire app].
      rewrite <- app_assoc. split; [|auto]. eapply ll_match; eauto. intros k ->. rewrite key_is_key in Ek. discriminate.
  - assert (forall h p0 r0, next r h p0 r0 -> ~ SpecActText.eq_lead h) as Hr.
    { intros h2 p2 r2 N G. destruct (next_fun _ _ _ _ _ _ _ E' N) as (<- & _ & _). apply lead_eq in G; [congruence|eauto using next_lead]. }
    apply (learn_left f info specs p r _ Hr) in H as (s & Hs & H). destruct p as [|c0 p].
    + injection Hs as <-. rewrite app_nil_r in H. inversion E as [? ? ? Hl [Hs0 _]|h0 r0 Hl Hv]; subst; [contradiction|].
      destruct Hv as [->|[[Hv _]|(Hf & Hi & r0 & ->)]]; [|contradiction|].
      * exists []. assert (Ok (info, specs ++ []) = Ok (info', specs')) as E0 by (destruct f; exact H). injection E0 as <- <-. split; [|auto]. constructor.
        rewrite app_nil_r. destruct Hl as [Hl|Hl]; [exact Hl|contradiction].
      * exfalso. destruct (get_token (chr "=" :: r0)) as [[h2 p2] r2] eqn:E2. pose proof E2 as N2. apply next_iff in N2. apply (Hr _ _ _ N2). clear - E2.
        assert (exists b, h2 = chr "=" :: b) as (b & ->). { unfold get_token in E2. injection E2 as <- _ _. eexists. reflexivity. }
        apply next_iff, next_lead in E2 as [Hl|Hl]; [|exact Hl]. inversion Hl as [|? ? [Hb|Hb]]; discriminate || (exfalso; revert Hb; chr_red; unfold blank; intuition lia).
    + apply single_iff in Hs as (m & a & h1 & x & u1 & h2 & y & u2 & s0 & F & Ha & N1 & N2 & Hl2 & Hsp & ->); [|discriminate].
      apply (IH f) in H as (l & Hl & -> & ->); [|lia]. exists (LAdd s0 :: l). rewrite linfo_cons. cbn [flat_map lentry_wire app]. rewrite <- app_assoc. split; [|auto]. eapply ll_mode; eauto.
Qed.
Lemma eq_lead_some h : SpecActText.eq_lead h -> (1 <= length h)%nat.
Proof. intros (a & b & _ & _ & ->). rewrite app_length. cbn. lia. Qed.
Lemma learn_read u l : learn_list u l -> forall f info specs, (length u <= f)%nat -> learn_go f info specs None u = Ok (linfo l info, specs ++ flat_map lentry_wire l).
Proof.
  induction 1 as [t Ht|t h k u h' p r v l N Hh N' Hh' Hv Hl IH|t h d u h' p r s l N Hh Hk N' Hh' Hs Hl IH|t h d u m a h1 x u1 h2 y u2 s l N Hh Hr F Ha N1 N2 Hl2 Hs Hl IH]; intros f info specs Hf.
  - destruct t as [|c t]; [destruct f; reflexivity|]. destruct f as [|f]; [cbn in Hf; lia|]. cbn [learn_go].
    assert (next (c :: t) (c :: t) [] []) as N. { pose proof (next_none (c :: t) []) as N. rewrite app_nil_r in N. apply N; [now left|now left]. }
    pose proof N as G. apply next_iff in G. rewrite G. assert (has_char 61 (c :: t) = false) as ->.
    { destruct (has_char 61 (c :: t)) eqn:K; [|reflexivity]. rewrite filler_no_eq in K by auto. discriminate. }
    cbn [learn_flush bind]. destruct f; cbn [learn_go learn_flush bind flat_map]; now rewrite !app_nil_r.
  - pose proof (next_cat _ _ _ _ N) as E. pose proof (next_cat _ _ _ _ N') as E'. pose proof (eq_lead_some _ Hh') as L. destruct (key_plain k) as [_ Kn].
    assert (1 <= length (lkey_name k))%nat as Lk by (destruct (lkey_name k); [congruence|cbn; lia]).
    assert (length t = length h + length (lkey_name k) + length h' + length p + length r)%nat as Lt by (rewrite E, E', !app_length; lia).
    destruct t as [|c t]; [cbn in Lt; lia|]. destruct f as [|[|f]]; [lia..|]. cbn [learn_go].
    pose proof N as G. pose proof N' as G'. apply next_iff in G, G'. rewrite G. assert (has_char 61 h = false) as ->.
    { destruct (has_char 61 h) eqn:K; [|reflexivity]. apply lead_eq in K; [contradiction|eauto using next_lead]. }
    cbn [learn_flush bind]. destruct u as [|c' u]; [apply (f_equal (@length Z)) in E'; rewrite !app_length in E'; cbn in E'; lia|]. rewrite G'.
    rewrite (proj2 (lead_eq h' (next_lead _ _ _ _ N')) Hh'), key_is_key. apply numberish_iff in Hv as (n & ->). cbn [bind]. rewrite IH by lia. rewrite (linfo_cons (LSet k v)), app_nil_r. reflexivity.
  - pose proof (next_cat _ _ _ _ N) as E. pose proof (next_cat _ _ _ _ N') as E'. pose proof (eq_lead_some _ Hh') as L.
    assert (d <> []) as Kn. { intros ->. assert (func [] [] None) as F by (constructor; constructor). assert (forall f, readable f -> fname f <> []) as Nn by (intros g Hg%accepted_readable; now apply name_reg).
      destruct Hs as [s0 k0 f0 lo n0 d0 T _ _ D _ _ _|s0 n0 T _ _|v0 T _ _]; [|discriminate..]. destruct D as [a R F'|a x y lo hi R F'|a x lo R F']; destruct (func_fun _ _ _ _ _ F F') as [K _]; now apply (Nn _ R). }
    assert (1 <= length d)%nat as Lk by (destruct d; [congruence|cbn; lia]).
    assert (length t = length h + length d + length h' + length p + length r)%nat as Lt by (rewrite E, E', !app_length; lia).
    destruct t as [|c t]; [cbn in Lt; lia|]. destruct f as [|[|f]]; [lia..|]. cbn [learn_go].
    pose proof N as G. pose proof N' as G'. apply next_iff in G, G'. rewrite G. assert (has_char 61 h = false) as ->.
    { destruct (has_char 61 h) eqn:K; [|reflexivity]. apply lead_eq in K; [contradiction|eauto using next_lead]. }
    cbn [learn_flush bind]. destruct u as [|c' u]; [apply (f_equal (@length Z)) in E'; rewrite !app_length in E'; cbn in E'; lia|]. rewrite G'.
    rewrite (proj2 (lead_eq h' (next_lead _ _ _ _ N')) Hh'). destruct (in_names d learn_keys) eqn:Kk; [apply learn_keys_iff in Kk as (k & ->); now destruct (Hk k)|].
    rewrite (proj2 (spec_iff p d None (lspec_wire s) ltac:(eauto using next_named) ltac:(eauto using next_named))) by eauto. cbn [bind]. rewrite IH by lia. cbn [flat_map lentry_wire]. rewrite app_nil_r, <- app_assoc. reflexivity.
  - pose proof (next_cat _ _ _ _ N) as E.
    assert (d <> []) as Kn. { intros ->. assert (func [] [] None) as F0 by (constructor; constructor). destruct (func_fun _ _ _ _ _ F F0) as [_ K]. discriminate. }
    assert (1 <= length d)%nat as Lk by (destruct d; [congruence|cbn; lia]).
    assert (length t = length h + length d + length u)%nat as Lt by (rewrite E, !app_length; lia).
    destruct t as [|c t]; [cbn in Lt; lia|]. destruct f as [|f]; [lia|]. cbn [learn_go].
    pose proof N as G. apply next_iff in G. rewrite G. assert (has_char 61 h = false) as ->.
    { destruct (has_char 61 h) eqn:K; [|reflexivity]. apply lead_eq in K; [contradiction|eauto using next_lead]. }
    cbn [learn_flush bind]. rewrite app_nil_r. apply learn_left; [exact Hr|]. exists (lspec_wire s). split.
    + apply single_iff; [exact Kn|]. exists m, a, h1, x, u1, h2, y, u2, s. repeat (split; auto).
    + rewrite IH by lia. cbn [flat_map lentry_wire]. now rewrite <- app_assoc.
Qed.
Definition all_keys := [LIdle; LHard; LPriority; LCookie; LFlags; LTable; LFinIdle; LFinHard].
Lemma learn_values l : map (fun k => opt_or (assoc_t k (linfo l [])) 0) learn_keys = map (fun k => lvalue k 0 l) all_keys.
Proof.
  change (map (fun k => opt_or (assoc_t k (linfo l [])) 0) learn_keys) with (map (fun k => opt_or (assoc_t (lkey_name k) (linfo l [])) 0) all_keys).
  cbn [map all_keys]. rewrite !linfo_lookup. reflexivity.
Qed.
Lemma sound_learn N : sound N $"learn" learn_str2act.
Proof.
  intros u ra b n H. destruct ra; [discriminate|]. unfold learn_str2act in H. nx_start H. mons Er. injection Er as <- <-. hdr_inv.
  apply learn_sound in Ea as (ll & Hl & -> & ->). cbn [app] in Ef. rewrite learn_values in *. unfold learn_fmt, all_keys in *. cbn [map] in *. unpack_inv Ea1.
  rewrite app_nil_r, <- lspecs_wire in Ef. change (fix_act_len (pad8 (nx_head 16 ++ lfixed_wire ll ++ flat_map lspec_wire (lspecs ll))) = Ok b) in Ef.
  apply nx_done in Ef as [-> L]. exists []. split; [|split; [exact L|cbn [length]; lia]]. apply (s_learn N u ll Hl). intros []; assumption.
Qed.
Lemma read_learn u l : learn_list u l -> (forall k, in_bytes (lkey_size k) (lvalue k 0 l)) -> reads_as learn_str2act false u (act_wire (Learn l)) [].
Proof.
  intros Hl Hz L. unfold learn_str2act. rewrite (learn_read u l Hl _ [] []) by lia. cbn [bind]. rewrite nxast_hdr_ok by (apply in_bytes_2; lia). cbn [bind].
  rewrite learn_values. unfold learn_fmt, all_keys. cbn [map].
  pose proof (Hz LIdle) as Z1. pose proof (Hz LHard) as Z2. pose proof (Hz LPriority) as Z3. pose proof (Hz LCookie) as Z4.
  pose proof (Hz LFlags) as Z5. pose proof (Hz LTable) as Z6. pose proof (Hz LFinIdle) as Z7. pose proof (Hz LFinHard) as Z8. clear Hz. cbn [lkey_size] in *.
  rewrite !pack_u by auto. rewrite pack_x. rewrite !pack_u by auto. cbn [pack bind]. cbn [app]. rewrite app_nil_r, <- lspecs_wire.
  cbn [act_wire] in *. cbn [length]. rewrite Nat.sub_0_r. apply nx_read; [reflexivity|exact L].
Qed.
