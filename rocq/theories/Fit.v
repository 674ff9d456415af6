(** Numbers that do not fit. *)
From Coq Require Import Strings.Ascii.
From Verif Require Import Base PyNum Util PyLib OxmCodec OxmTables Oxm Nx Ofp4 Spec SpecOxm SpecText SpecOfp SpecActText SpecFlowText SpecCompose SpecName SpecFit.
From Verif Require Import BaseFacts UtilFacts NumFacts PyLibFacts OxmRead OxmPrint OxmFacts OxmFrame OxmMore TermFacts OfpTerm.
From Verif Require Import ActBase ActRead ActFrame ActDenote GramLib OxmGram OxmExact GramTok FlowRead FlowMod FlowFrame GroupRead GroupFrame GramField GramAct GramStr GramFlow GramGroup Compose Continue Refuse Names.

Lemma only_pack fs vs : (exists b, pack fs vs = Ok b) \/ pack fs vs = Raise StructError.
Proof.
  assert (K := pack_only fs vs). assert (D : pack fs vs <> Diverge).
  { clear K. revert vs. induction fs as [|f fs IH]; intros [|v vs]; cbn [pack]; nd. }
  destruct (pack fs vs) as [b|e|]; [eauto| |now destruct D]. destruct (K e eq_refl) as [<-|[]]. auto.
Qed.
(** rules *)
Theorem rule_fits s l cmd xid : rule_reads notation AtEntry s l -> Z.of_nat (length (concat (r_insts None l))) <= 65535 ->
  (exists m, str2mod s cmd xid = Ok m /\ parts_message l cmd xid m) \/ str2mod s cmd xid = Raise StructError /\ forall m, ~ parts_message l cmd xid m.
Proof.
  intros R F. pose proof (dict_read s l R (fits_concat _ F)) as E.
  assert (K : (exists m, str2mod s cmd xid = Ok m) \/ str2mod s cmd xid = Raise StructError).
  { unfold str2mod. rewrite E. cbn [bind]. unfold match_block.
    match goal with |- context [pack ?fs ?vs] => destruct (only_pack fs vs) as [(b & ->)| ->]; cbn [bind]; [|auto] end.
    match goal with |- context [pack ?fs ?vs] => destruct (only_pack fs vs) as [(b' & ->)| ->]; cbn [bind]; [|auto] end. eauto. }
  destruct K as [(m & K)|K].
  - left. exists m. split; auto. eapply parts_unique; eauto.
  - right. split; auto. intros m P. rewrite (parts_of _ _ _ _ _ R P) in K. discriminate.
Qed.
(** groups *)
Lemma bucket_or s l r t : bucket_text notation s l r -> l <> [] ->
  str2bucket s (gtype_id t) = Ok (bucket_part t l, (length s - length r)%nat) /\ bucket_fits t l \/ str2bucket s (gtype_id t) = Raise StructError.
Proof.
  intros B Hl. unfold str2bucket. fold (gbinfo t). rewrite gbinfo_eq, (bucket_read _ _ _ B) by lia. cbn [bind app].
  pose proof (consumed _ _ (bucket_text_end _ _ _ _ B)) as K. pose proof (bucket_text_none _ _ _ _ B) as K'.
  destruct (Nat.eqb_spec (length s - length r) 0) as [E0|_]; [tauto|].
  match goal with |- context [pack ?fs ?vs] => destruct (only_pack fs vs) as [(h & Ea)|Ea]; rewrite Ea; cbn [bind]; [|auto] end. left.
  apply pack_u_inv in Ea as (H1 & h1 & Ea & ->). apply pack_u_inv in Ea as (H2 & h2 & Ea & ->). apply pack_u_inv in Ea as (H3 & h3 & Ea & ->).
  apply pack_u_inv in Ea as (H4 & h4 & Ea & ->). apply pack_x_inv in Ea as (h5 & Ea & ->). apply pack_nil_inv in Ea as ->.
  split; [|unfold bucket_fits; cbv zeta; auto]. unfold bucket_part. cbv zeta. rewrite app_nil_r, <- !app_assoc.
  replace (16 + Z.of_nat (length (b_acts l))) with (Z.of_nat (16 + length (b_acts l))) by lia. reflexivity.
Qed.
Lemma buckets_or u ls : buckets_text notation u ls -> forall fuel t, (length u <= fuel)%nat ->
  group_buckets_go fuel (gtype_id t) u = Ok (flat_map (bucket_part t) ls, []) /\ Forall (bucket_fits t) ls \/ group_buckets_go fuel (gtype_id t) u = Raise StructError.
Proof.
  induction 1 as [|s l r ls B Hl _ IH|s u ls W _ IH]; intros fuel t Hf.
  - left. destruct fuel; auto.
  - pose proof (bucket_text_end _ _ _ _ B) as He. pose proof (consumed _ _ He) as K. pose proof (bucket_text_none _ _ _ _ B) as K'.
    destruct s as [|c s]; [exfalso; apply Hl, K'; destruct He as (y & He); symmetry in He; now apply app_eq_nil in He as [_ He]|]. destruct fuel as [|fuel]; [cbn in Hf; lia|]. cbn [group_buckets_go].
    destruct (bucket_or _ _ _ t B Hl) as [[-> F1]| ->]; cbn [bind]; [|auto]. destruct (Nat.eqb_spec (length (c :: s) - length r) 0) as [E0|E0]; [tauto|]. cbn [negb].
    rewrite skip_rest by auto. destruct (IH fuel t) as [[-> F2]| ->]; [unfold text in *; cbn [length] in *; lia| |]; cbn [bind]; auto.
  - destruct (word_get _ _ _ W) as (h & Et & Eb). assert (Hne : s <> []) by (eapply word_some; eauto; discriminate).
    assert (B : bucket_text notation s [] s) by (eapply bt_at; eauto; now exists $"bucket").
    pose proof (get_token_progress _ _ _ _ Et Hne) as Hp. destruct s as [|c s]; [congruence|]. destruct fuel as [|fuel]; [cbn in Hf; lia|]. cbn [group_buckets_go].
    rewrite (str2bucket_none _ t _ B). cbn [bind Nat.eqb negb]. rewrite Et. replace (Nat.eqb (length $"@bucket") 0 || text_eqb $"@bucket" $"@bucket") with true by reflexivity.
    apply IH. unfold text in *. cbn [length] in *. lia.
Qed.
Theorem group_fits s hs u ls cmd xid : heads s hs u -> buckets_text notation u ls ->
  (exists m, str2group s cmd xid = Ok m /\ group_parts hs ls cmd xid m) \/ str2group s cmd xid = Raise StructError /\ forall m, ~ group_parts hs ls cmd xid m.
Proof.
  intros A1 B1. assert (K : (exists m, str2group s cmd xid = Ok m /\ group_parts hs ls cmd xid m) \/ str2group s cmd xid = Raise StructError).
  { unfold group_parts. destruct (fold_left apply_ghead hs (0xffffffff, GAll)) as [id t] eqn:A2. unfold str2group.
    change OFPGT_ALL with (gtype_id GAll). change OFPG_ANY with 0xffffffff. rewrite (heads_read _ _ _ A1) by lia. cbn [bind]. rewrite A2. cbn [fst snd].
    destruct (buckets_or _ _ B1 (length u) t (le_n _)) as [[-> F]| ->]; cbn [bind]; [|auto]. cbn [length Nat.eqb assert bind].
    match goal with |- context [pack ?fs ?vs] => destruct (only_pack fs vs) as [(h & Ep)|Ep]; rewrite Ep; cbn [bind]; [|auto] end. left. eexists. split; [reflexivity|].
    unfold group_fmt in Ep.
    apply pack_u_inv in Ep as (H1 & h1 & Ep & ->). apply pack_u_inv in Ep as (H2 & h2 & Ep & ->). apply pack_u_inv in Ep as (H3 & h3 & Ep & ->).
    apply pack_u_inv in Ep as (H4 & h4 & Ep & ->). apply pack_u_inv in Ep as (H5 & h5 & Ep & ->). apply pack_u_inv in Ep as (H6 & h6 & Ep & ->).
    apply pack_x_inv in Ep as (h7 & Ep & ->). apply pack_u_inv in Ep as (H7 & h8 & Ep & ->). apply pack_nil_inv in Ep as ->.
    match goal with |- context [Z.of_nat (length ?m)] => assert (L : Z.of_nat (length m) = 16 + Z.of_nat (length (flat_map (bucket_part t) ls))) by len end.
    rewrite L. repeat match goal with |- _ /\ _ => split end; auto.
    all: unfold in_bytes in *; change (256 ^ Z.of_nat 2) with 65536 in *; try lia. all: rewrite <- !app_assoc; reflexivity. }
  destruct K as [K|K]; [auto|]. right. split; auto. intros m P. rewrite (gmessage_read s cmd xid m) in K; [discriminate|]. exists hs, u, ls. auto.
Qed.
(** actions *)
Lemma literal_no_name lo up p v : In (p, (lo, up)) reserved -> ~ literal lo v.
Proof. intros H L. apply literal_alone in L. cbn [reserved In] in H. repeat destruct H as [H|H]; try (injection H as <- <- <-; vm_compute in L; discriminate L). contradiction. Qed.
Lemma literal_numberish p v : literal p v -> numberish p v.
Proof. intros H. apply literal_iff in H. apply numberish_iff. eauto. Qed.
Ltac same_word := match goal with N : next ?x _ ?p _, K : next ?x _ ?q _ |- _ => assert (p = q) by exact (proj1 (proj2 (next_fun _ _ _ _ _ _ _ N K))); subst end.
Lemma says_fits name n eq a b r h p u v : number_arg name n -> next a h p u -> literal p v -> says notation name eq a b r -> in_bytes n v.
Proof.
  assert (B4 : forall w, in_bytes 4 w -> in_bytes 8 w) by (intros w; unfold in_bytes; change (256 ^ Z.of_nat 4) with 4294967296; change (256 ^ Z.of_nat 8) with 18446744073709551616; lia).
  assert (Fun : forall p v w, literal p v -> literal p w -> v = w) by (intros p0 v0 w0 L1 L2; apply literal_alone in L1, L2; congruence).
  intros Hn N L H. destruct Hn as [| | | | |k| |].
  - only_says H; same_word. erewrite Fun; eauto.
  - only_says H; same_word. erewrite Fun; eauto.
  - only_says H; same_word. erewrite Fun; eauto.
  - only_says H; same_word. erewrite Fun; eauto.
  - only_says H; same_word.
    match goal with K : output_any _ _ _ |- _ => destruct K as [x port P|x port y m t P _ _] end.
    + destruct P as [x port P|lo up port P]; [erewrite Fun; eauto|]. now apply literal_no_name with (v := v) in P.
    + exfalso. apply literal_tidy in L as [T _]. apply Forall_app in T as [_ T]. inversion T as [|? ? (_ & _ & Q)]; subst. now apply Q.
  - assert (K : exists h' p' r' w, next a h' p' r' /\ numberish p' w /\ in_bytes 2 w).
    { remember (ether_name k) as name eqn:E. destruct H; try (exfalso; destruct k; discriminate E); try (match goal with B : numberish ?x ?w, A : next _ ?g ?x ?y, C : in_bytes 2 ?w |- _ => exists g, x, y, w; auto end).
      all: exfalso; first [match goal with x : noarg |- _ => destruct k, x; discriminate E end | match goal with Q : _ \/ _ |- _ => destruct Q as [Q|Q]; rewrite Q in E; destruct k; discriminate E end
        | match goal with Q : _ /\ _ \/ _ /\ _ |- _ => destruct Q as [[Q _]|[Q _]]; rewrite Q in E; destruct k; discriminate E end]. }
    destruct K as (h' & p' & r' & w & K & W & B). destruct (next_fun _ _ _ _ _ _ _ N K) as (_ & <- & _).
    assert (numberish p v) as V by (apply literal_numberish; exact L). now rewrite (numberish_fun _ _ _ V W).
  - only_says H; same_word; erewrite Fun; eauto.
  - only_says H; same_word; erewrite Fun; eauto.
Qed.
Lemma number_act name n : number_arg name n -> act_name name.
Proof. intros H. destruct H as [| | | | |[]| |]; vm_compute; tauto. Qed.
Lemma number_func name n : number_arg name n -> func name name None.
Proof. intros H. destruct H as [| | | | |[]| |]; apply func_iff; vm_compute; reflexivity. Qed.
Lemma written_says s h name a b n k : next s h name a -> number_arg name k -> str2act s = Ok (b, n) -> exists r', says notation name true a b r'.
Proof.
  intros N Hk H. pose proof (number_act _ _ Hk) as Hn. pose proof (number_func _ _ Hk) as F. apply str2act_sound in H as (r1 & H & _).
  destruct H as [s h' p' r' name' a' b r2 N' F' Ha' Hs L|s h' p' u b r2 N' Hs L|s h' p' r' x a' h2 q u ts r2 N' F' Ha' Hx N2 O L|s h' x u name' a' h2 q r' ts r2 N' F' Hg Hx N2 O L|s h' p' u name' a' N' F' Hg Hx Hw];
    destruct (next_fun _ _ _ _ _ _ _ N N') as (<- & E & <-); subst.
  - destruct (func_fun _ _ _ _ _ F F') as [_ E]. discriminate.
  - eauto.
  - destruct (func_fun _ _ _ _ _ F F') as [_ E]. discriminate.
  - contradiction.
  - contradiction.
Qed.
Theorem action_fits s name n a h p u v : number_arg name n -> action_given s name a -> next a h p u -> literal p v -> ~ in_bytes n v -> exists e, str2act s = Raise e.
Proof.
  intros Hn G N L B. destruct (str2act s) as [[b k]|e|] eqn:E; [|eauto|now apply str2act_nd in E]. exfalso. apply B.
  destruct G as [(r & G)|(h' & G)].
  - destruct (called_says _ _ _ _ _ _ G (number_act _ _ Hn) E) as (r' & H & _). eapply says_fits; eauto.
  - destruct (written_says _ _ _ _ _ _ _ G Hn E) as (r' & H). eapply says_fits; eauto.
Qed.
(** the exception *)
Lemma pack_big n v fs vs : ~ in_bytes n v -> pack (FU n :: fs) (v :: vs) = Raise StructError.
Proof. intros H. cbn [pack]. match goal with |- (if ?b then _ else _) = _ => destruct b eqn:E; [|reflexivity] end. now apply (in_range_256 n v) in E. Qed.
Lemma tunnel_raises st a ra h p u v : in_bytes 2 st -> next a h p u -> literal p v -> ~ in_bytes 8 v -> (ra = true -> SpecActText.eq_lead h) -> set_tunnel_str2act st a ra = Raise StructError.
Proof.
  intros Hs N L B He. assert (E : negb ra || has_char 61 h = true).
  { destruct ra; [|reflexivity]. cbn [negb orb]. pose proof (He eq_refl) as (x & y & _ & _ & ->). apply has_char_true. apply in_or_app. right. now left. }
  apply next_iff in N. apply literal_iff in L. unfold set_tunnel_str2act, nxast_str2act. rewrite N, E. cbn [assert bind]. rewrite L. cbn [bind]. rewrite Nat.eqb_refl. cbn [assert bind].
  assert (Hh : forall b : bool, exists x, nxast_hdr (if b then NXAST_SET_TUNNEL64 else st) = Ok x).
  { intros b. unfold nxast_hdr. assert (in_bytes 2 (if b then NXAST_SET_TUNNEL64 else st)) by (destruct b; [apply in_bytes_2; lia|exact Hs]).
    rewrite pack_u by (apply in_bytes_2; lia). rewrite pack_u by (apply in_bytes_2; lia). rewrite pack_u by (unfold in_bytes; cbn; lia). rewrite pack_u by auto. rewrite pack_nil. cbn [bind]. eauto. }
  destruct (Hh (0xffffffff <? v)) as (x & ->). cbn [bind]. destruct (Z.ltb_spec 0xffffffff v) as [G|G]; rewrite pack_big; try reflexivity; auto.
  intros K. apply B. unfold in_bytes in *. change (256 ^ Z.of_nat 4) with 4294967296 in K. change (256 ^ Z.of_nat 8) with 18446744073709551616. lia.
Qed.
Lemma number_raises name n : number_arg name n -> exists f, assoc_t name str2act_tbl = Some f /\
  forall a ra h p u v, next a h p u -> literal p v -> ~ in_bytes n v -> (ra = true -> SpecActText.eq_lead h) -> f a ra = Raise StructError.
Proof.
  intros H. destruct H as [| | | | |k| |].
  all: try (eexists; split; [reflexivity|]; intros a ra h p u v N L B _; apply next_iff in N; apply literal_iff in L; unfold uint_str2act; rewrite N, L; cbn [bind]; rewrite Nat.eqb_refl; cbn [assert bind]; rewrite pack_big by exact B; reflexivity).
  - eexists. split; [reflexivity|]. intros a ra h p u v N L B _. apply next_iff in N. unfold output_str2act. rewrite N. pose proof (literal_tidy _ _ L) as [T _].
    assert (has_char 47 p = false) as ->. { destruct (has_char 47 p) eqn:E; [|reflexivity]. apply has_char_true in E. apply (proj1 (Forall_forall _ _) T) in E as (_ & E & _). now destruct E. }
    cbn [negb assert bind]. rewrite split_all_none by (apply (port_of_colon _ v); now constructor). cbn [py_nth nth_error bind]. rewrite (port_of_num p v) by now constructor. cbn [bind].
    rewrite pack_u by (apply in_bytes_2; lia). rewrite pack_u by (apply in_bytes_2; lia). rewrite pack_big by exact B. reflexivity.
  - exists (push_str2act (match k with PushVlan => 17 | PushMpls => 19 | PopMpls => 20 | PushPbb => 26 end)). split; [destruct k; reflexivity|].
    intros a ra h p u v N L B _. apply next_iff in N. apply literal_iff in L. unfold push_str2act. rewrite N, L. cbn [bind].
    rewrite pack_u by (apply in_bytes_2; destruct k; lia). rewrite pack_u by (apply in_bytes_2; lia). rewrite pack_big by exact B. reflexivity.
  - exists (set_tunnel_str2act NXAST_SET_TUNNEL). split; [reflexivity|]. intros; eapply tunnel_raises; eauto; apply in_bytes_2; vm_compute; split; congruence.
  - exists (set_tunnel_str2act NXAST_SET_TUNNEL64). split; [reflexivity|]. intros; eapply tunnel_raises; eauto; apply in_bytes_2; vm_compute; split; congruence.
Qed.
Theorem called_raises s name n a r h p u v : number_arg name n -> called s name a r -> next a h p u -> literal p v -> ~ in_bytes n v -> str2act s = Raise StructError.
Proof.
  intros Hn (h0 & q & N0 & F & Ha) N L B. destruct (number_raises _ _ Hn) as (f & Hf & R). unfold str2act. apply next_iff in N0. rewrite N0. apply func_iff in F. rewrite F. cbn [bind].
  destruct a as [|c a]; [congruence|]. cbv zeta. rewrite Hf, (R _ false _ _ _ _ N L B) by discriminate. reflexivity.
Qed.
Theorem assigned_raises s name n a h0 h p u v : number_arg name n -> next s h0 name a -> next a h p u -> SpecActText.eq_lead h -> literal p v -> ~ in_bytes n v -> str2act s = Raise StructError.
Proof.
  intros Hn N0 N He L B. destruct (number_raises _ _ Hn) as (f & Hf & R). pose proof (number_func _ _ Hn) as F. unfold str2act. apply next_iff in N0. rewrite N0. apply func_iff in F. rewrite F. cbn [bind].
  cbv zeta. rewrite Hf, (R _ true _ _ _ _ N L B) by auto. reflexivity.
Qed.
(** instructions *)
Lemma word_unique s nm u nm' u' : word s nm u -> word s nm' u' -> nm = nm' /\ u = u'.
Proof. intros (h & N & _) (h' & N' & _). destruct (next_fun _ _ _ _ _ _ _ N N') as (_ & ? & ?). auto. Qed.
Lemma number_at nm n : number_instr nm n -> at_word nm /\ nm <> [].
Proof. intros H. destruct H as [nm [-> | ->]|nm [-> | ->]|]; (split; [eexists; reflexivity|discriminate]). Qed.
Lemma instr_fits w x l nm a n p r v : rule_reads notation w x l -> word x nm a -> number_instr nm n -> valued a p r -> literal p v -> in_bytes n v.
Proof.
  assert (Fun : forall p v w, literal p v -> literal p w -> v = w) by (intros p0 v0 w0 L1 L2; apply literal_alone in L1, L2; congruence).
  assert (Same : forall a p r p' r', valued a p r -> valued a p' r' -> p = p') by (intros a0 p0 r0 p1 r1 (h & N & _) (h' & N' & _); destruct (next_fun _ _ _ _ _ _ _ N N') as (_ & ? & _); auto).
  intros R W Hn V L. destruct (number_at _ _ Hn) as [A Hne].
  destruct R as [w|s nm' u st r' l W' Hs _|s nm' u ts r' l W' _ Hf Hr _|w s nm' u i r' l W' Hi _|w s nm' u t l W' Ht _|s nm' u b r' l W' Hat _ _ _].
  - exfalso. destruct W as (h & N & _). apply next_cat in N. symmetry in N. apply app_eq_nil in N as [_ N]. apply app_eq_nil in N as [N _]. contradiction.
  - exfalso. destruct (word_unique _ _ _ _ _ W W') as [<- _]. now apply sets_names in Hs as [_ Hs].
  - exfalso. pose proof (field_no_at _ _ _ _ _ _ W' Hf Hr) as K. destruct (word_unique _ _ _ _ _ W W') as [<- _]. contradiction.
  - destruct (word_unique _ _ _ _ _ W W') as [<- <-]. destruct Hi as [nm u p' r' m S V' L' B|nm u p' r' m S V' L' B|nm u x y r' m k S V' L1 L2 B1 B2|nm u S|u p' r' m V' L' B].
    + inversion Hn as [? S'|? S'|]; subst; [|exfalso; destruct S as [-> | ->], S' as [E|E]; discriminate E|exfalso; destruct S as [E|E]; discriminate E].
      rewrite <- (Same _ _ _ _ _ V V') in L'. now rewrite (Fun _ _ _ L L').
    + inversion Hn as [? S'|? S'|]; subst; [exfalso; destruct S as [-> | ->], S' as [E|E]; discriminate E| |exfalso; destruct S as [E|E]; discriminate E].
      rewrite <- (Same _ _ _ _ _ V V') in L'. now rewrite (Fun _ _ _ L L').
    + exfalso. rewrite (Same _ _ _ _ _ V V') in L. apply literal_tidy in L as [T _]. apply Forall_app in T as [_ T]. inversion T as [|? ? (_ & Q & _)]; subst. now apply Q.
    + exfalso. inversion Hn as [? S'|? S'|]; subst; [destruct S as [-> | ->], S' as [E|E]; discriminate E..|destruct S as [E|E]; discriminate E].
    + inversion Hn as [? S'|? S'|]; subst; [exfalso; destruct S' as [E|E]; discriminate E..|]. rewrite <- (Same _ _ _ _ _ V V') in L'. now rewrite (Fun _ _ _ L L').
  - exfalso. destruct (word_unique _ _ _ _ _ W W') as [<- _]. destruct Ht as [nm S|nm S]; (inversion Hn as [? S'|? S'|]; subst; [destruct S as [-> | ->], S' as [E|E]; discriminate E..|destruct S as [E|E]; discriminate E]).
  - exfalso. destruct (word_unique _ _ _ _ _ W W') as [<- _]. contradiction.
Qed.
Theorem instr_refused u k x cmd xid nm a n p r v : rule_reads notation AtEntry u k -> finished u -> ~ wants_more u -> ends x -> word x nm a -> number_instr nm n -> valued a p r -> literal p v -> ~ in_bytes n v ->
  exists e, str2mod (u ++ x) cmd xid = Raise e.
Proof.
  intros R F Wm Hx W Hn V L B. destruct (str2mod (u ++ x) cmd xid) as [m|e|] eqn:E; [|eauto|now apply str2mod_total in E]. exfalso.
  apply (rule_continue u k x cmd xid m R F Wm Hx) in E as (l' & R' & _). apply B. eapply instr_fits; eauto.
Qed.
Theorem instr_refused_first x cmd xid nm a n p r v : word x nm a -> number_instr nm n -> valued a p r -> literal p v -> ~ in_bytes n v -> exists e, str2mod x cmd xid = Raise e.
Proof.
  intros W Hn V L B. destruct (str2mod x cmd xid) as [m|e|] eqn:E; [|eauto|now apply str2mod_total in E]. exfalso.
  apply message_sound in E as (l & R & _). apply B. eapply instr_fits; eauto.
Qed.
