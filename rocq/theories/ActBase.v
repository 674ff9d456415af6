(** Shared by the action, flow and group lemmas: struct formats, action framing, token
    structure of NAME=ARG and NAME(ARGS). *)
From Coq Require Import Strings.Ascii.
From Verif Require Import Base PyNum Util PyLib OxmCodec OxmTables Oxm Nx Ofp4 Spec SpecOxm SpecOfp.
From Verif Require Import BaseFacts UtilFacts NumFacts OxmRead OxmPrint OxmFacts OxmMore.

(** ** struct *)
Lemma pack_u n v fs vs : in_bytes n v -> pack (FU n :: fs) (v :: vs) = (b <- pack fs vs ;; Ok (be n v ++ b)).
Proof. intros H. cbn [pack]. rewrite (proj2 (in_range_256 n v)) by auto. now rewrite be_bytes_spec. Qed.
Lemma pack_x n fs vs : pack (FX n :: fs) vs = (b <- pack fs vs ;; Ok (pad n ++ b)).
Proof. reflexivity. Qed.
Lemma pack_nil : pack [] [] = Ok [].
Proof. reflexivity. Qed.
Ltac fits := first [assumption | solve [unfold in_bytes; lia] | solve [auto]].
Ltac packs := repeat first [rewrite pack_u; [|fits] | rewrite pack_x]; rewrite ?pack_nil; cbn [bind]; rewrite ?app_nil_r.

Lemma in_bytes_num n v : in_bytes n v -> num_be (be n v) = v.
Proof. unfold in_bytes. intros H. rewrite num_be_be. now apply Z.mod_small. Qed.
Lemma unpack_u n v fs r : in_bytes n v -> unpack_raw (FU n :: fs) (be n v ++ r) = v :: unpack_raw fs r.
Proof.
  intros H. cbn [unpack_raw]. rewrite firstn_app_exact, skipn_app_exact by apply be_length.
  now rewrite be_val_spec, in_bytes_num.
Qed.
Lemma unpack_x n fs r : unpack_raw (FX n :: fs) (pad n ++ r) = unpack_raw fs r.
Proof. cbn [unpack_raw]. rewrite skipn_app_exact; auto. apply repeat_length. Qed.
Lemma unpack_0 r : unpack_raw [] r = [].
Proof. reflexivity. Qed.
Ltac unpacks := repeat first [rewrite unpack_u; [|fits] | rewrite unpack_x]; rewrite ?unpack_0.
Lemma pad_length n : length (pad n) = n.
Proof. apply repeat_length. Qed.
#[global] Hint Rewrite @app_length be_length pad_length be_bytes_length zeros_length @repeat_length : len.
Ltac len := repeat (progress (autorewrite with len; cbn [length calcsize fold_right fwidth])); try lia.
Lemma unpack_from_ok fs m : (calcsize fs <= length m)%nat -> unpack_from fs m 0 = Ok (unpack_raw fs m).
Proof. intros H. unfold unpack_from. cbn [Nat.add skipn]. destruct (Nat.leb_spec (calcsize fs) (length m)); [reflexivity|lia]. Qed.
Lemma unpack_from_at fs a m : unpack_from fs (a ++ m) (length a) = unpack_from fs m 0.
Proof.
  unfold unpack_from. rewrite skipn_len_app, app_length. cbn [Nat.add skipn].
  destruct (Nat.leb_spec (length a + calcsize fs) (length a + length m)), (Nat.leb_spec (calcsize fs) (length m)); auto; lia.
Qed.
Lemma unpack_from_off fs a m n : length a = n -> unpack_from fs (a ++ m) n = unpack_from fs m 0.
Proof. intros <-. apply unpack_from_at. Qed.
Lemma unpack_ok fs m : length m = calcsize fs -> unpack fs m = Ok (unpack_raw fs m).
Proof. intros H. unfold unpack. now rewrite <- H, Nat.eqb_refl. Qed.
Lemma slice_mid {A} (a b r : list A) i j : length a = i -> (j = i + length b)%nat -> slice i j (a ++ b ++ r) = b.
Proof. intros <- ->. unfold slice. rewrite skipn_len_app. replace (length a + length b - length a)%nat with (length b) by lia. apply firstn_len_app. Qed.
Lemma slice_end {A} (a b : list A) i j : length a = i -> (j = i + length b)%nat -> slice i j (a ++ b) = b.
Proof. intros H1 H2. rewrite <- (app_nil_r (a ++ b)), <- app_assoc. now apply slice_mid. Qed.

Ltac inb := unfold in_bytes; cbn [Z.of_nat Pos.of_succ_nat Pos.succ] in *; try lia.
Lemma in_bytes_small n v : (1 <= n)%nat -> 0 <= v < 256 -> in_bytes n v.
Proof.
  intros Hn H. unfold in_bytes. pose proof (Z.pow_le_mono_r 256 1 (Z.of_nat n) ltac:(lia) ltac:(lia)). lia.
Qed.
Lemma in_bytes_2 v : 0 <= v <= 65535 -> in_bytes 2 v.
Proof. unfold in_bytes. change (256 ^ Z.of_nat 2) with 65536. lia. Qed.

(** ** Text that leaves every bracket alone *)
(** outside groups no bracket character *)
Definition quiet (c : Z) : Prop := c <> 40 /\ c <> 41 /\ c <> 123 /\ c <> 125 /\ c <> 91 /\ c <> 93 /\ c <> 60 /\ c <> 62.
Lemma quiet_closer c e : quiet c -> closer e -> c <> e.
Proof. unfold quiet. intros H [o Ho]. inversion Ho; chr_red; lia. Qed.
Lemma quiet_opener c : quiet c -> ~ opener c.
Proof. unfold quiet. intros H [e He]. inversion He; chr_red; lia. Qed.
Lemma bracket_closer o e : bracket o e -> closer e.
Proof. now exists o. Qed.
Lemma closed_mono (P : Z -> Prop) s : closed P s -> forall Q : Z -> Prop, (forall c, P c -> Q c) -> closed Q s.
Proof. induction 1; intros Q HQ; [constructor|apply closed_chr; auto|apply (closed_grp Q o e); auto]. Qed.
Lemma closed_app (P : Z -> Prop) s t : closed P s -> closed P t -> closed P (s ++ t).
Proof.
  intros H Ht. induction H; cbn [app]; auto.
  - apply closed_chr; auto.
  - rewrite <- app_assoc. cbn [app]. apply (closed_grp P o e); auto.
Qed.
Lemma closed_all (P : Z -> Prop) s : Forall P s -> (forall c, P c -> ~ opener c) -> closed P s.
Proof. intros H HP. induction H; constructor; auto. Qed.
Lemma quiet_closed s : Forall quiet s -> closed quiet s.
Proof. intros H. apply closed_all; auto using quiet_opener. Qed.
Lemma closed_quiet e s : closer e -> closed quiet s -> closed (fun c => c <> e) s.
Proof. intros He H. apply (closed_mono _ _ H). intros c Hc. now apply quiet_closer. Qed.
Lemma plain_quiet c : plain c -> quiet c.
Proof. unfold plain, quiet. lia. Qed.
Lemma plain_quiets s : Forall plain s -> Forall quiet s.
Proof. intros H. eapply Forall_impl; [|exact H]. exact plain_quiet. Qed.
Lemma filler_quiet c : filler c -> quiet c.
Proof. unfold filler, blank, quiet. chr_red. lia. Qed.
Lemma filler_quiets s : Forall filler s -> Forall quiet s.
Proof. intros H. eapply Forall_impl; [|exact H]. exact filler_quiet. Qed.
Lemma blank_filler c : blank c -> filler c.
Proof. now left. Qed.
Lemma blank_quiets s : Forall blank s -> Forall quiet s.
Proof. intros H. eapply Forall_impl; [|exact H]. intros c Hc. apply filler_quiet. now left. Qed.
Lemma eq_quiet : quiet 61.
Proof. unfold quiet. lia. Qed.
Lemma call_closed (P : Z -> Prop) o e name args : bracket o e -> Forall plain name -> (forall c, plain c -> P c) -> closed quiet args ->
  closed P (call o e name args).
Proof.
  intros Hb Hn HP Ha. unfold call. apply closed_app.
  - apply plain_closed; auto.
  - apply (closed_grp P o e args []); auto; [|constructor]. apply closed_quiet; auto. now exists o.
Qed.
Lemma call_token o e name args : bracket o e -> Forall plain name -> closed quiet args -> token (call o e name args).
Proof. intros. apply call_closed; auto. exact plain_token_char. Qed.
Lemma call_quiet o e name args : bracket o e -> Forall plain name -> closed quiet args -> closed quiet (call o e name args).
Proof. intros. apply call_closed; auto. exact plain_quiet. Qed.
Lemma call_solid o e name args : Forall plain name -> name <> [] -> solid (call o e name args).
Proof. intros Hn H0. unfold call. destruct name as [|c n]; [congruence|]. cbn. inversion Hn. now apply plain_not_blank. Qed.
Lemma call_func o e name args : bracket o e -> Forall plain name -> closed quiet args -> parse_func (call o e name args) = Ok (name, Some args).
Proof.
  intros Hb Hn Ha. unfold call. apply parse_func_group; auto.
  - intros c Hc. apply plain_not_opener. rewrite Forall_forall in Hn. auto.
  - apply closed_quiet; auto. now exists o.
Qed.
Lemma plain_func name : Forall plain name -> parse_func name = Ok (name, None).
Proof. intros Hn. apply parse_func_plain. intros c Hc. apply plain_not_opener. rewrite Forall_forall in Hn. auto. Qed.
Lemma tail_gap_follow t : tail_gap t -> follow t.
Proof. intros [->|H]; [exact I|]. rewrite <- (app_nil_r t). now apply gap_follow. Qed.
Lemma tail_gap_filler t : tail_gap t -> Forall filler t.
Proof. intros [->|H]; [constructor|]. now apply gap_filler. Qed.
Lemma blank_lead b : Forall blank b -> Forall filler b.
Proof. intros H. eapply Forall_impl; [|exact H]. exact blank_filler. Qed.
Lemma eq_lead a b : gap_eq a -> Forall blank b -> lead (a ++ 61 :: b).
Proof. intros Ha Hb. right. exists a, b. auto using gap_eq_blank. Qed.
Lemma eq_has a b : has_char 61 (a ++ 61 :: b) = true.
Proof. apply has_char_true. apply in_or_app. right. now left. Qed.
Lemma sep_fillers s : Forall sep_char s -> Forall filler s.
Proof. intros H. eapply Forall_impl; [|exact H]. exact sep_filler. Qed.

(** tokens of H ++ u ++ R *)
Lemma tok h u r : Forall filler h -> token u -> solid u -> follow r -> get_token (h ++ u ++ r) = (h, u, r).
Proof. intros. apply get_token_complete; auto using filler_lead, follow_ends. Qed.
Lemma tok_plain h u r : Forall filler h -> Forall plain u -> u <> [] -> follow r -> get_token (h ++ u ++ r) = (h, u, r).
Proof. intros. apply tok; auto using plain_token, plain_solid. Qed.
Lemma tok_eq a b u r : gap_eq a -> Forall blank b -> token u -> solid u -> follow r ->
  get_token (a ++ 61 :: b ++ u ++ r) = (a ++ 61 :: b, u, r).
Proof.
  intros Ha Hb Hu Hs Hr. replace (a ++ 61 :: b ++ u ++ r) with ((a ++ 61 :: b) ++ u ++ r) by (rewrite <- app_assoc; reflexivity).
  apply get_token_complete; auto using follow_ends, eq_lead.
Qed.
Lemma tok_gap t : Forall filler t -> get_token t = (t, [], []).
Proof. intros H. apply get_token_lead. now apply filler_lead. Qed.

(** ** str2act by the shape of the token *)
Lemma act_call name f o e args h r : assoc_t name str2act_tbl = Some f -> Forall plain name -> name <> [] -> bracket o e ->
  closed quiet args -> args <> [] -> Forall filler h -> follow r ->
  str2act (h ++ call o e name args ++ r) =
  ('(b, _) <- f args false ;; Ok (b, (length h + length (call o e name args))%nat)).
Proof.
  intros Hf Hn H0 Hb Ha Ha0 Hh Hr. unfold str2act.
  rewrite (tok h _ r) by auto using call_token, call_solid. cbv zeta. rewrite call_func by auto. cbn [bind].
  destruct args as [|c a]; [congruence|]. now rewrite Hf.
Qed.
Lemma act_word name f h r : assoc_t name str2act_tbl = Some f -> Forall plain name -> name <> [] -> Forall filler h -> ends r ->
  str2act (h ++ name ++ r) = ('(b, p) <- f r true ;; Ok (b, (length h + length name + p)%nat)).
Proof.
  intros Hf Hn H0 Hh Hr. unfold str2act.
  rewrite (get_token_complete h name r) by auto using filler_lead, plain_token, plain_solid. cbv zeta.
  rewrite plain_func by auto. cbn [bind]. now rewrite Hf.
Qed.
Lemma act_eq name f a b u h r : assoc_t name str2act_tbl = Some f -> Forall plain name -> name <> [] -> Forall filler h -> gap_eq a ->
  str2act (h ++ (name ++ a ++ $"=" ++ b ++ u) ++ r)
  = ('(w, p) <- f (a ++ 61 :: b ++ u ++ r) true ;; Ok (w, (length h + length name + p)%nat)).
Proof.
  intros Hf Hn H0 Hh Ha.
  replace (h ++ (name ++ a ++ $"=" ++ b ++ u) ++ r) with (h ++ name ++ (a ++ 61 :: b ++ u ++ r))
    by (change $"=" with [61]; rewrite <- !app_assoc; reflexivity).
  apply act_word; auto using gap_eq_ends.
Qed.
(** actions of one argument *)
Definition reads_arg (f : text -> bool -> res (bytes * nat)) (u : text) (w : bytes) : Prop :=
  (forall h t, Forall filler h -> tail_gap t -> exists n, f (h ++ u ++ t) false = Ok (w, n))
  /\ (forall a b r, gap_eq a -> Forall blank b -> follow r ->
        f (a ++ 61 :: b ++ u ++ r) true = Ok (w, (length a + 1 + length b + length u)%nat)).
Lemma one_arg_reads name f u w s h r : assoc_t name str2act_tbl = Some f -> Forall plain name -> name <> [] ->
  u <> [] -> closed quiet u -> reads_arg f u w -> one_arg name u s -> Forall filler h -> follow r ->
  str2act (h ++ s ++ r) = Ok (w, (length h + length s)%nat).
Proof.
  intros Hf Hn H0 Hu Hq [Hc He] Hs Hh Hr. destruct Hs as [a b Ha Hb|o e g t Ho Hg Ht].
  - rewrite (act_eq name f) by auto. rewrite He by auto. cbn [bind]. do 2 f_equal. change $"=" with [61]. len.
  - assert (Hq' : closed quiet (g ++ u ++ t))
      by (apply closed_app; [|apply closed_app]; auto using quiet_closed, filler_quiets, tail_gap_filler).
    assert (Hn' : g ++ u ++ t <> [])
      by (intros E; apply app_eq_nil in E as [_ E]; apply app_eq_nil in E as [E _]; congruence).
    rewrite (act_call name f) by auto.
    destruct (Hc g t Hg Ht) as [n ->]. reflexivity.
Qed.

(** ** Nicira framing *)
Definition nx_head (sub : Z) : bytes := be 2 0xffff ++ be 2 10 ++ be 4 0x2320 ++ be 2 sub.
Lemma nxast_hdr_ok sub : in_bytes 2 sub -> nxast_hdr sub = Ok (nx_head sub).
Proof.
  intros H. unfold nxast_hdr. rewrite !pack_u by (exact H || (unfold in_bytes; lia)). rewrite pack_nil. cbn [bind].
  unfold nx_head. now rewrite app_nil_r.
Qed.
Lemma nx_head_length sub : length (nx_head sub) = 10%nat.
Proof. unfold nx_head. len. Qed.
Lemma nx_act_eq sub p : nx_act sub p = be 2 0xffff ++ be 2 (Z.of_nat (align8 (10 + length p))) ++ be 4 0x2320 ++ be 2 sub ++ p
  ++ zeros (align8 (10 + length p) - (10 + length p)).
Proof.
  unfold nx_act, padded_act, std_act. cbv zeta. rewrite pad_to8_align.
  rewrite !app_length, !be_length, zeros_length. replace (4 + (4 + (2 + length p)))%nat with (10 + length p)%nat by lia.
  pose proof (align8_ge (10 + length p)).
  replace (4 + ((4 + (2 + length p)) + (align8 (10 + length p) - (10 + length p))))%nat with (align8 (10 + length p)) by lia.
  now rewrite <- !app_assoc.
Qed.
Lemma nx_act_length sub p : length (nx_act sub p) = align8 (10 + length p).
Proof. rewrite nx_act_eq. pose proof (align8_ge (10 + length p)). len. Qed.
Lemma nx_finish sub p n : Z.of_nat (length (nx_act sub p)) <= 65535 -> nxast_str2act (Ok (nx_head sub ++ p, n)) = Ok (nx_act sub p, n).
Proof.
  rewrite nx_act_length. intros H. unfold nxast_str2act, fix_act_len, pad8. cbn [bind].
  rewrite !app_length, nx_head_length, zeros_length. pose proof (align8_ge (10 + length p)).
  replace (10 + length p + (align8 (10 + length p) - (10 + length p)))%nat with (align8 (10 + length p)) by lia.
  rewrite pack_u by (apply in_bytes_2; lia). rewrite pack_nil. cbn [bind]. rewrite nx_act_eq. unfold nx_head. rewrite <- !app_assoc.
  rewrite (firstn_app_exact 2) by apply be_length.
  replace (skipn 4 (be 2 65535 ++ be 2 10 ++ be 4 8992 ++ be 2 sub ++ p ++ zeros (align8 (10 + length p) - (10 + length p))))
    with (be 4 8992 ++ be 2 sub ++ p ++ zeros (align8 (10 + length p) - (10 + length p))); [reflexivity|].
  symmetry. rewrite (app_assoc (be 2 65535)). apply skipn_app_exact. len.
Qed.
Lemma nx_bind r sub p n : r = Ok (nx_head sub ++ p, n) -> Z.of_nat (length (nx_act sub p)) <= 65535 -> nxast_str2act r = Ok (nx_act sub p, n).
Proof. intros -> H. now apply nx_finish. Qed.
