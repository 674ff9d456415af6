(** The texts taken as actions: all of them. *)
From Verif Require Import Base PyNum Util PyLib OxmCodec OxmTables Oxm Nx Ofp4 Spec SpecOxm SpecText SpecOfp SpecActText.
From Verif Require Import BaseFacts UtilFacts NumFacts PyLibFacts OxmRead OxmPrint OxmFacts OxmFrame OxmMore ActBase ActRead ActReadNx ActReadReg ActReadLearn ActFrame ActDenote GramLib OxmGram OxmExact GramTok GramField GramAct GramReg GramBundle GramLearn.
From Coq Require Import Strings.Ascii.

Lemma table_sound name f : assoc_t name str2act_tbl = Some f -> sound notation name f.
Proof.
  intros Hf. apply assoc_in in Hf. unfold str2act_tbl, nx_str2act_tbl in Hf. cbn [app In] in Hf.
  repeat (destruct Hf as [Hf|Hf]; [injection Hf as <- <-|]); [..|contradiction].
  - apply sound_output.
  - apply (sound_noarg _ CopyTtlOut).
  - apply (sound_noarg _ CopyTtlIn).
  - apply sound_mpls_ttl.
  - apply (sound_noarg _ DecMplsTtl).
  - apply (sound_push _ PushVlan).
  - apply (sound_noarg _ PopVlan).
  - apply (sound_push _ PushMpls).
  - apply (sound_push _ PopMpls).
  - apply sound_queue.
  - apply sound_group.
  - apply sound_nw_ttl.
  - apply (sound_noarg _ DecNwTtl).
  - apply (sound_push _ PushPbb).
  - apply (sound_noarg _ PopPbb).
  - apply sound_ids.
  - apply sound_load.
  - apply sound_load2.
  - apply sound_move.
  - apply sound_resubmit.
  - apply sound_resubmit_table.
  - apply sound_tunnel.
  - apply sound_tunnel64.
  - apply (sound_null _ _ 5 PopQueue); [reflexivity|]. intros. apply s_pop_queue.
  - apply sound_note.
  - apply (sound_null _ _ 17 Exit); [reflexivity|]. intros. apply s_exit.
  - apply sound_multipath.
  - apply sound_bundle.
  - apply sound_bundle_load.
  - apply sound_reg.
  - apply sound_reg2.
  - apply sound_learn.
Qed.
Lemma table_read name ra u b r : says notation name ra u b r -> Z.of_nat (length b) <= 65535 ->
  exists f, assoc_t name str2act_tbl = Some f /\ f u ra = Ok (b, (length u - length r)%nat).
Proof.
  intros H L. revert L. change (exists f, assoc_t name str2act_tbl = Some f /\ f u ra = Ok (b, (length u - length r)%nat)) with (exists f, assoc_t name str2act_tbl = Some f /\ f u ra = Ok (b, (length u - length r)%nat)).
  assert ((exists f, assoc_t name str2act_tbl = Some f /\ reads_as f ra u b r) -> Z.of_nat (length b) <= 65535 -> exists f, assoc_t name str2act_tbl = Some f /\ f u ra = Ok (b, (length u - length r)%nat)) as A.
  { intros (f & Hf & Hr) L. exists f. split; [exact Hf|]. now apply Hr. }
  apply A. clear A. destruct H.
  - exists (generic_str2act (noarg_type k)). split; [destruct k; reflexivity|apply read_noarg].
  - eexists. split; [reflexivity|]. apply (read_null 5). apply in_bytes_2; lia.
  - eexists. split; [reflexivity|]. apply (read_null 17). apply in_bytes_2; lia.
  - eexists. split; [reflexivity|]. eapply read_mpls_ttl; eauto.
  - eexists. split; [reflexivity|]. eapply read_nw_ttl; eauto.
  - eexists. split; [reflexivity|]. eapply read_queue; eauto.
  - eexists. split; [reflexivity|]. eapply read_group; eauto.
  - eexists. split; [reflexivity|]. eapply read_output; eauto.
  - exists (push_str2act (ether_type k)). split; [destruct k; reflexivity|]. eapply read_push; eauto.
  - eexists. split; [reflexivity|]. eapply read_resubmit; eauto.
  - eexists. split; [reflexivity|]. eapply read_resubmit_all; eauto.
  - eexists. split; [reflexivity|]. eapply read_resubmit_table; eauto.
  - eexists. split; [reflexivity|]. eapply (read_tunnel_any 2); eauto. apply in_bytes_2; lia.
  - eexists. split; [reflexivity|]. eapply (read_tunnel_any 9); eauto. apply in_bytes_2; lia.
  - destruct H as [->| ->]; (eexists; split; [reflexivity|]; eapply read_tunnel_big; eauto).
  - eexists. split; [reflexivity|]. eapply read_note; eauto.
  - eexists. split; [reflexivity|]. eapply read_ids_eq; eauto.
  - eexists. split; [reflexivity|]. eapply read_ids; eauto.
  - eexists. split; [reflexivity|]. eapply read_load; eauto.
  - eexists. split; [reflexivity|]. eapply read_load2; eauto.
  - eexists. split; [reflexivity|]. eapply read_move; eauto.
  - eexists. split; [reflexivity|]. eapply read_multipath; eauto.
  - eexists. split; [reflexivity|]. eapply read_bundle; eauto.
  - eexists. split; [reflexivity|]. eapply read_bundle_load; eauto.
  - destruct H as [[-> ->]|[-> ->]].
    + exists (output_reg_str2act 15). split; [reflexivity|]. exact (read_output_reg false eq u p pm b lo hi m r H0 H1 H2 H3 H4).
    + exists (output_reg_str2act 32). split; [reflexivity|]. exact (read_output_reg true eq u p pm b lo hi m r H0 H1 H2 H3 H4).
  - eexists. split; [reflexivity|]. eapply read_learn; eauto.
Qed.
Lemma words_len u ps r : words u ps r -> (length r <= length u)%nat.
Proof. induction 1 as [|u h p u' ps r N W IH]; [lia|]. apply next_cat in N. subst u. rewrite !app_length. lia. Qed.
Lemma next_short u h p r : next u h p r -> (length r <= length u)%nat.
Proof. intros N. apply next_cat in N. subst u. rewrite !app_length. lia. Qed.
Lemma one_field_short N u ts r : one_field N u ts r -> (length r <= length u)%nat.
Proof. destruct 1; subst; rewrite ?app_length; cbn [length]; lia. Qed.
Lemma says_short N name ra u b r : says N name ra u b r -> (length r <= length u)%nat.
Proof.
  destruct 1; try reflexivity; try (now eapply next_short; eauto); try (now eapply words_len; eauto); try (now eapply one_field_short; eauto). cbn. lia.
Qed.
Lemma act_table : forallb (fun n => in_names n (map fst named_acts)) (map fst str2act_tbl) && forallb (fun n => in_names n (map fst str2act_tbl)) (map fst named_acts) = true.
Proof. vm_compute. reflexivity. Qed.
Lemma in_names_in n l : in_names n l = true <-> In n l.
Proof. unfold in_names. rewrite existsb_exists. split; [intros (x & H & E%text_eqb_eq); now subst|intros H; exists n; split; [exact H|apply text_eqb_refl]]. Qed.
Lemma assoc_none {A} n (l : list (text * A)) : assoc_t n l = None <-> ~ In n (map fst l).
Proof.
  induction l as [|[k v] l IH]; cbn [assoc_t map fst In]; [tauto|]. destruct (text_eqb n k) eqn:E.
  - apply text_eqb_eq in E. subst. split; [discriminate|tauto].
  - rewrite IH. split; [|tauto]. intros H [->|K]; [rewrite text_eqb_refl in E; discriminate|tauto].
Qed.
Lemma act_name_iff n : assoc_t n str2act_tbl = None <-> ~ act_name n.
Proof.
  rewrite assoc_none. unfold act_name. pose proof act_table as T. apply andb_true_iff in T as [T1 T2].
  assert (In n (map fst str2act_tbl) <-> In n (map fst named_acts)) as ->; [|reflexivity].
  split; intros H; [apply (proj1 (forallb_forall _ _) T1) in H|apply (proj1 (forallb_forall _ _) T2) in H]; now apply in_names_in.
Qed.
Lemma act_some n f : assoc_t n str2act_tbl = Some f -> func n n None.
Proof. intros H. apply act_name_plain in H as [H _]. apply func_iff. now apply plain_func. Qed.
Lemma func_bracket p name a : func p name (Some a) -> exists o e x, bracket o e /\ p = name ++ o :: x /\ Forall (fun c => ~ opener c) name.
Proof. intros H. inversion H; subst; eauto 8. Qed.
Lemma func_no_act p name a : func p name (Some a) -> assoc_t p str2act_tbl = None.
Proof.
  intros F. destruct (assoc_t p str2act_tbl) eqn:E; [|reflexivity]. apply act_some in E. destruct (func_fun _ _ _ _ _ F E) as [_ K]. discriminate.
Qed.
Lemma set_prefix p : startswith $"set_" p = true <-> set_word p.
Proof. apply startswith_iff. Qed.
Lemma set_func p name a : func p name (Some a) -> set_word p <-> set_word name.
Proof.
  intros F. destruct (func_bracket _ _ _ F) as (o & e & x & Ho & -> & Hn). split; [|intros (y & ->); exists (y ++ o :: x); now rewrite <- app_assoc].
  intros (y & E). assert (o <> chr "s" /\ o <> chr "e" /\ o <> chr "t" /\ o <> chr "_") as (H1 & H2 & H3 & H4).
  { chr_red. destruct Ho; repeat split; discriminate. }
  destruct name as [|a1 [|a2 [|a3 [|a4 n]]]]; cbn [app] in E.
  - injection E as E1 _. revert E1. chr_red. intros; congruence.
  - injection E as _ E1 _. revert E1. chr_red. intros; congruence.
  - injection E as _ _ E1 _. revert E1. chr_red. intros; congruence.
  - injection E as _ _ _ E1 _. revert E1. chr_red. intros; congruence.
  - exists n. injection E as -> -> -> -> _. reflexivity.
Qed.
Lemma str2act_sound s b n : str2act s = Ok (b, n) -> exists r, action_reads notation s b r /\ n = (length s - length r)%nat.
Proof.
  unfold str2act. destruct (get_token s) as [[h p] u] eqn:E. apply next_iff in E. pose proof (next_cat _ _ _ _ E) as C. intros H. mon H. destruct a as [fname farg]. apply func_iff in Ea.
  set (fa := match farg with Some (c :: a) => Some (c :: a) | _ => None end) in *. cbv zeta in H.
  assert (forall x, fa = Some x <-> given farg x) as Hfa. { intros x. unfold fa. rewrite given_some. destruct farg as [[|c a]|]; (split; [intros K; try discriminate|intros (c' & y & K & ->); try discriminate]); [injection K as <-; eauto|congruence]. }
  assert (fa = None <-> not_given farg) as Hno. { unfold fa, not_given. destruct farg as [[|c a]|]; (split; [intros K; auto; discriminate|intros [K|K]; congruence]). }
  clearbody fa.
  destruct (match fa with Some a => match assoc_t fname str2act_tbl with Some f => Some (f, a) | None => None end | None => None end) as [[f a]|] eqn:Ec.
  { destruct fa as [x|]; [|discriminate]. destruct (assoc_t fname str2act_tbl) as [g|] eqn:Et; [|discriminate]. injection Ec as -> ->. mons H. injection H as <- <-.
    destruct (proj1 (Hfa a) eq_refl) as [-> Hn]. apply (table_sound _ _ Et) in Ea0 as (r & Hs & L & ->). exists u. split; [eapply ar_call; eauto|]. subst s. rewrite !app_length. lia. }
  assert (match assoc_t p str2act_tbl with
          | Some f => '(b0, p0) <- f u true;; Ok (b0, (length h + length p + p0)%nat)
          | None => if startswith $"set_" p then
              '(oxm, consumed) <- match fa with
                | Some a => let '(_, payload, _) := get_token a in '(oxm, _) <- str2oxm (skipn 4 fname ++ $"=" ++ payload) false;; Ok (oxm, (length h + length p)%nat)
                | None => let '(op, payload, _) := get_token u in '(oxm, p0) <- str2oxm (skipn 4 p ++ op ++ payload) false;; Ok (oxm, (length h + 4 + p0)%nat)
                end;; b0 <- set_field oxm;; Ok (b0, consumed)
              else Ok ([], length h)
          end = Ok (b, n) /\ (forall x, fa = Some x -> assoc_t fname str2act_tbl = None)) as [H' Hx].
  { destruct fa as [x|]; [|split; [exact H|discriminate]]. destruct (assoc_t fname str2act_tbl); [discriminate|]. split; [exact H|auto]. }
  clear H Ec. rename H' into H. destruct (assoc_t p str2act_tbl) as [f|] eqn:Et.
  { mons H. injection H as <- <-. apply (table_sound _ _ Et) in Ea0 as (r & Hs & L & ->). exists r. split; [eapply ar_eq; eauto|]. apply says_short in Hs. subst s. rewrite !app_length. lia. }
  apply act_name_iff in Et. destruct (startswith $"set_" p) eqn:Ep.
  - apply set_prefix in Ep. mon H. destruct a as [oxm k]. mons H. injection H as <- <-. apply frame_set_field in Ea1 as ([L _] & _ & ->). destruct fa as [a|].
    + destruct (get_token a) as [[h' q] r'] eqn:E'. apply next_iff in E'. mons Ea0. injection Ea0 as <- <-. destruct (proj1 (Hfa a) eq_refl) as [-> Hn].
      apply (set_func _ _ _ Ea) in Ep as (x & ->). change (skipn 4 ($"set_" ++ x)) with x in Ea1. apply one_field_sound in Ea1 as (ts & r'' & O & -> & _).
      exists u. split; [eapply ar_set_call; eauto; now apply act_name_iff, (Hx a)|]. subst s. rewrite !app_length. lia.
    + destruct (get_token u) as [[h' q] r'] eqn:E'. apply next_iff in E'. mons Ea0. injection Ea0 as <- <-. destruct Ep as (x & ->). change (skipn 4 ($"set_" ++ x)) with x in Ea1.
      apply one_field_sound in Ea1 as (ts & r'' & O & -> & ->). exists (r'' ++ r'). split; [eapply ar_set_eq; eauto; now apply Hno|].
      apply one_field_short in O. apply next_cat in E'. subst s. rewrite E'. rewrite !app_length in *. change (length $"set_") with 4%nat in *. lia.
  - injection H as <- <-. exists (p ++ u). split.
    + eapply ar_none; eauto.
      * intros x Hg. apply Hfa in Hg. apply act_name_iff, (Hx x Hg).
      * intros K. apply set_prefix in K. congruence.
    + subst s. rewrite !app_length. lia.
Qed.
Lemma str2act_read s b r : action_reads notation s b r -> str2act s = Ok (b, (length s - length r)%nat).
Proof.
  intros [s' h p r' name a b' r'' N F Ha Hs L|s' h p u b' r' N Hs L|s' h p r' x a h' q u ts r'' N F Ha Hn N' O L|s' h x u name a h' q r' ts r'' N F Hg Hn N' O L|s' h p u name a N F Hx Hn Hw]; clear s b r; rename s' into s;
    pose proof (next_cat _ _ _ _ N) as C; unfold str2act; pose proof N as G; apply next_iff in G; rewrite G.
  - apply table_read in Hs as (f & Hf & Hr); [|exact L]. apply func_iff in F. rewrite F. cbn [bind]. destruct a as [|c a]; [congruence|]. cbv zeta. rewrite Hf, Hr. cbn [bind]. do 2 f_equal. subst s. rewrite !app_length. lia.
  - pose proof (says_short _ _ _ _ _ _ Hs) as S. apply table_read in Hs as (f & Hf & Hr); [|exact L]. pose proof (act_some _ _ Hf) as F. apply func_iff in F. rewrite F. cbn [bind]. cbv zeta. rewrite Hf, Hr. cbn [bind]. do 2 f_equal. subst s. rewrite !app_length. lia.
  - pose proof (func_no_act _ _ _ F) as Hp. assert (set_word p) as Hs by (apply (set_func _ _ _ F); exists x; reflexivity). apply set_prefix in Hs. apply func_iff in F. rewrite F. cbn [bind]. destruct a as [|c a]; [congruence|]. cbv zeta.
    apply act_name_iff in Hn. rewrite Hn, Hp, Hs. apply next_iff in N'. rewrite N'. change (skipn 4 ($"set_" ++ x)) with x. rewrite (one_field_read _ _ _ O). cbn [bind]. rewrite set_field_ok by exact L. cbn [bind]. do 2 f_equal. subst s. rewrite !app_length. lia.
  - apply func_iff in F. rewrite F. cbn [bind]. assert (match a with Some (c :: a) => Some (c :: a) | _ => None end = None) as -> by (destruct Hg as [->| ->]; reflexivity). cbv zeta. apply act_name_iff in Hn. rewrite Hn.
    rewrite (proj2 (set_prefix ($"set_" ++ x))) by (exists x; reflexivity). pose proof N' as G'. apply next_iff in G'. rewrite G'. change (skipn 4 ($"set_" ++ x)) with x. rewrite (one_field_read _ _ _ O). cbn [bind]. rewrite set_field_ok by exact L. cbn [bind]. do 2 f_equal.
    apply one_field_short in O. apply next_cat in N'. rewrite C, N'. rewrite !app_length in *. change (length $"set_") with 4%nat in *. lia.
  - apply func_iff in F. rewrite F. cbn [bind]. cbv zeta. apply act_name_iff in Hn. rewrite Hn. assert (startswith $"set_" p = false) as ->. { destruct (startswith $"set_" p) eqn:K; [|reflexivity]. now apply set_prefix in K. }
    replace (length s - length (p ++ u))%nat with (length h) by (subst s; rewrite !app_length; lia).
    destruct a as [[|c a]|]; [reflexivity| |reflexivity]. specialize (Hx (c :: a) ltac:(split; [reflexivity|discriminate])). apply act_name_iff in Hx. now rewrite Hx.
Qed.

(** ** What is left is the end of the text *)
Definition ends_with (u r : text) : Prop := exists x, u = x ++ r.
Lemma next_end u h p r : next u h p r -> ends_with u r.
Proof. intros N. apply next_cat in N. exists (h ++ p). subst u. now rewrite <- app_assoc. Qed.
Lemma words_end u ps r : words u ps r -> ends_with u r.
Proof.
  induction 1 as [u|u h p u' ps r N W (x & ->)]; [exists []; reflexivity|]. apply next_cat in N. exists (h ++ p ++ x). subst u. now rewrite <- !app_assoc.
Qed.
Lemma one_field_end N u ts r : one_field N u ts r -> ends_with u r.
Proof.
  destruct 1 as [|f h a b p v m r u _ _ _ _ _ _ ->|f h a b r u _ _ _ _ _ _ ->]; [exists []; reflexivity|exists (h ++ fname f ++ a ++ $"=" ++ b ++ p)|exists (h ++ fname f ++ a ++ $"=" ++ b)]; now rewrite <- !app_assoc.
Qed.
Lemma says_end N name ra u b r : says N name ra u b r -> ends_with u r.
Proof.
  destruct 1; try (exists []; reflexivity); try (now eapply next_end; eauto); try (now eapply words_end; eauto); try (now eapply one_field_end; eauto).
  exists u. now rewrite app_nil_r.
Qed.
Lemma action_end N s b r : action_reads N s b r -> ends_with s r.
Proof.
  intros [s' h p r' name a b' r'' Nx F Ha Hs L|s' h p u b' r' Nx Hs L|s' h p r' x a h' q u ts r'' Nx F Ha Hn N' O L|s' h x u name a h' q r' ts r'' Nx F Hg Hn N' O L|s' h p u name a Nx F Hx Hn Hw]; clear s b r; rename s' into s.
  - eapply next_end; eauto.
  - apply says_end in Hs as (x & ->). apply next_cat in Nx. exists (h ++ p ++ x). subst s. now rewrite <- !app_assoc.
  - eapply next_end; eauto.
  - apply one_field_end in O as (y & E). apply next_cat in Nx, N'. exists (h ++ $"set_" ++ y). subst s. rewrite N'. rewrite <- !app_assoc. do 2 f_equal. rewrite !app_assoc. f_equal. rewrite <- !app_assoc. exact E.
  - apply next_cat in Nx. exists h. exact Nx.
Qed.
Lemma ends_same u r r' : ends_with u r -> ends_with u r' -> length r = length r' -> r = r'.
Proof.
  intros (x & Ex) (y & Ey) L. pose proof (f_equal (@length Z) Ex) as Lx. pose proof (f_equal (@length Z) Ey) as Ly. rewrite !app_length in Lx, Ly.
  apply (f_equal (skipn (length x))) in Ex. rewrite skipn_app, skipn_all, Nat.sub_diag in Ex. replace (length x) with (length y) in Ex by lia. rewrite Ey, skipn_app, skipn_all, Nat.sub_diag in Ex. cbn in Ex. auto.
Qed.
Lemma action_once s b r b' r' : action_reads notation s b r -> action_reads notation s b' r' -> b = b' /\ r = r'.
Proof.
  intros H H'. pose proof (str2act_read _ _ _ H) as E. rewrite (str2act_read _ _ _ H') in E. injection E as -> E. split; [reflexivity|].
  apply action_end in H, H'. pose proof H as (x & Ex). pose proof H' as (x' & Ex'). apply (ends_same s); auto.
  apply (f_equal (@length Z)) in Ex, Ex'. rewrite !app_length in Ex, Ex'. lia.
Qed.
