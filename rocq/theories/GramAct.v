(** The texts taken as actions, action by action: standard actions and the Nicira actions of
    one argument. *)
From Verif Require Import Base PyNum Util PyLib OxmCodec OxmTables Oxm Nx Ofp4 Spec SpecOxm SpecText SpecOfp SpecActText.
From Verif Require Import BaseFacts UtilFacts NumFacts PyLibFacts OxmRead OxmPrint OxmFacts OxmFrame OxmMore ActBase ActRead ActReadNx ActReadReg ActReadLearn ActFrame ActDenote GramLib OxmGram OxmExact GramTok GramField.
From Coq Require Import Strings.Ascii.

Definition notes := kind -> text -> bytes -> option bytes -> Prop.
(** what is read is said; what is said is read *)
Definition sound (N : notes) (name : text) (f : text -> bool -> res (bytes * nat)) : Prop :=
  forall u ra b n, f u ra = Ok (b, n) -> exists r, says N name ra u b r /\ Z.of_nat (length b) <= 65535 /\ n = (length u - length r)%nat.
Definition reads_as (f : text -> bool -> res (bytes * nat)) (ra : bool) (u : text) (b : bytes) (r : text) : Prop :=
  Z.of_nat (length b) <= 65535 -> f u ra = Ok (b, (length u - length r)%nat).

Lemma token_next u h p r : get_token u = (h, p, r) -> next u h p r /\ (length h + length p)%nat = (length u - length r)%nat.
Proof. intros N%next_iff. split; [exact N|]. now apply next_len in N. Qed.
Lemma eq_ok_iff ra h : lead h -> (negb ra || has_char 61 h) = true <-> eq_ok ra h.
Proof.
  intros L. unfold eq_ok. destruct ra; cbn [negb orb].
  - rewrite lead_eq by auto. tauto.
  - split; [discriminate|reflexivity].
Qed.
Lemma none_read (u : text) : 0%nat = (length u - length u)%nat.
Proof. lia. Qed.

(** ** Standard actions *)
Lemma sound_noarg N k : sound N (noarg_name k) (generic_str2act (noarg_type k)).
Proof.
  intros u ra b n H. unfold generic_str2act in H. mons H. injection H as <- <-. unpack_inv Ea. exists u. split; [apply s_noarg|]. split; [cbn; lia|apply none_read].
Qed.
Lemma read_noarg k ra u : reads_as (generic_str2act (noarg_type k)) ra u (act_wire (Noarg k)) u.
Proof. intros _. unfold generic_str2act. rewrite Nat.sub_diag. destruct k; reflexivity. Qed.
Lemma sound_uint t fs u ra b n : uint_str2act t fs u ra = Ok (b, n) ->
  exists h p r v w, next u h p r /\ literal p v /\ pack fs [v] = Ok w /\ b = std_act t w /\ n = (length u - length r)%nat.
Proof.
  unfold uint_str2act. destruct (get_token u) as [[h x] r] eqn:Et. apply token_next in Et as [Nx El]. intros H. mons H. injection H as <- <-. apply Nat.eqb_eq in Eb. rewrite Eb in Ea.
  unpack_inv Ea1. exists h, x, r, z, a. repeat split; auto; [now apply literal_iff|]. rewrite app_nil_r, <- app_assoc. apply std_act_intro.
Qed.
Lemma read_uint t fs ra u h p r v w : in_bytes 2 t -> Z.of_nat (length w) < 65532 -> next u h p r -> literal p v -> pack fs [v] = Ok w -> reads_as (uint_str2act t fs) ra u (std_act t w) r.
Proof.
  intros Ht Hw Nx%next_iff Hp Ew _. unfold uint_str2act. rewrite Nx. apply literal_iff in Hp. rewrite Hp. cbn [bind]. rewrite Nat.eqb_refl. cbn [assert bind]. rewrite Ew. cbn [bind].
  rewrite pack_u by auto. rewrite pack_u by (apply in_bytes_2; lia). cbn [pack bind]. rewrite app_nil_r, <- app_assoc, std_act_intro. apply token_next in Nx as [_ ->]. reflexivity.
Qed.
Lemma sound_mpls_ttl N : sound N $"set_mpls_ttl" (uint_str2act 15 [sB; sx 3]).
Proof. intros u ra b n (h & p & r & v & w & Nx & Hp & E & -> & ->)%sound_uint. unpack_inv E. exists r. split; [eapply s_mpls_ttl; eauto|]. split; [cbn; lia|reflexivity]. Qed.
Lemma sound_nw_ttl N : sound N $"set_nw_ttl" (uint_str2act 23 [sB]).
Proof. intros u ra b n (h & p & r & v & w & Nx & Hp & E & -> & ->)%sound_uint. unpack_inv E. rewrite app_nil_r. exists r. split; [eapply s_nw_ttl; eauto|]. split; [cbn; lia|reflexivity]. Qed.
Lemma sound_queue N : sound N $"set_queue" (uint_str2act 21 [sI]).
Proof. intros u ra b n (h & p & r & v & w & Nx & Hp & E & -> & ->)%sound_uint. unpack_inv E. rewrite app_nil_r. exists r. split; [eapply s_queue; eauto|]. split; [cbn; lia|reflexivity]. Qed.
Lemma sound_group N : sound N $"group" (uint_str2act 22 [sI]).
Proof. intros u ra b n (h & p & r & v & w & Nx & Hp & E & -> & ->)%sound_uint. unpack_inv E. rewrite app_nil_r. exists r. split; [eapply s_group; eauto|]. split; [cbn; lia|reflexivity]. Qed.
Lemma read_mpls_ttl ra u h p r v : next u h p r -> literal p v -> in_bytes 1 v -> reads_as (uint_str2act 15 [sB; sx 3]) ra u (act_wire (SetMplsTtl v)) r.
Proof. intros Nx Hp Hv. eapply read_uint; eauto; [apply in_bytes_2; lia|len|]. rewrite pack_u, pack_x by auto. reflexivity. Qed.
Lemma read_nw_ttl ra u h p r v : next u h p r -> literal p v -> in_bytes 1 v -> reads_as (uint_str2act 23 [sB]) ra u (act_wire (SetNwTtl v)) r.
Proof. intros Nx Hp Hv. eapply read_uint; eauto; [apply in_bytes_2; lia|len|]. rewrite pack_u by auto. cbn [pack bind]. now rewrite app_nil_r. Qed.
Lemma read_queue ra u h p r v : next u h p r -> literal p v -> in_bytes 4 v -> reads_as (uint_str2act 21 [sI]) ra u (act_wire (SetQueue v)) r.
Proof. intros Nx Hp Hv. eapply read_uint; eauto; [apply in_bytes_2; lia|len|]. rewrite pack_u by auto. cbn [pack bind]. now rewrite app_nil_r. Qed.
Lemma read_group ra u h p r v : next u h p r -> literal p v -> in_bytes 4 v -> reads_as (uint_str2act 22 [sI]) ra u (act_wire (GroupAct v)) r.
Proof. intros Nx Hp Hv. eapply read_uint; eauto; [apply in_bytes_2; lia|len|]. rewrite pack_u by auto. cbn [pack bind]. now rewrite app_nil_r. Qed.

Lemma ofpp_num_inv p n : ofpp_num p = Some n -> exists up, In (n, (p, up)) reserved.
Proof.
  assert (forall l r, fold_left (fun r (pn : Z * text) => if text_eqb (snd pn) p then Some (fst pn) else r) l r = Some n -> r = Some n \/ In (n, p) l) as A.
  { induction l as [|[m q] l IH]; cbn [fold_left fst snd]; intros r H; [now left|]. apply IH in H as [H|H]; [|right; now right].
    destruct (text_eqb q p) eqn:E; [|now left]. apply text_eqb_eq in E. right. left. congruence. }
  intros H. apply A in H as [H|H]; [discriminate|]. unfold ofpp in H. cbn [In] in H.
  repeat (destruct H as [H|H]; [injection H as <- <-; eexists; unfold reserved; cbn [In]; eauto 12|]). contradiction.
Qed.
Lemma port_read_inv p n : match ofpp_num p with Some n => Ok n | None => '(n, l) <- parseInt p ;; assert! (Nat.eqb (length p) l) ;; Ok n end = Ok n -> port_of p n.
Proof.
  destruct (ofpp_num p) eqn:E; intros H.
  - injection H as <-. apply ofpp_num_inv in E as (up & E). eapply port_name; eauto.
  - mons H. injection H as <-. apply Nat.eqb_eq in Eb. subst. apply port_lit. now apply literal_iff.
Qed.
Lemma sound_output N : sound N $"output" output_str2act.
Proof.
  intros u ra b n H. unfold output_str2act in H. destruct (get_token u) as [[h x] r] eqn:Et. apply token_next in Et as [Nx El]. mons H. injection H as <- <-. unpack_inv Ea2.
  exists r. split; [|split; [cbn; lia|exact El]].
  assert (output_any x a0 a1) as Ho.
  { destruct (split_sepby_all 58 x) as (Ex & _ & Hf). destruct (split_all 58 x) as [|p0 ps]; [discriminate|]. cbn [py_nth nth_error] in Ea, Ea1. injection Ea as <-.
    apply port_read_inv in Ea0. destruct ps as [|p1 ps]; cbn [nth_error] in Ea1.
    - injection Ea1 as <-. cbn in Ex. subst x. now constructor.
    - mons Ea1. injection Ea1 as <-. apply Nat.eqb_eq in Eb0. subst. apply literal_iff in Ea.
      destruct ps as [|p2 ps]; cbn [sepby].
      + replace (p0 ++ 58 :: p1) with (p0 ++ $":" ++ p1 ++ []) by (now rewrite app_nil_r). econstructor; eauto.
      + match goal with |- output_any (p0 ++ 58 :: p1 ++ 58 :: ?t) _ _ => change (output_any (p0 ++ $":" ++ p1 ++ 58 :: t) a0 z) end. econstructor; eauto. right. eexists. reflexivity. }
  replace (be 2 0 ++ be 2 16 ++ be 4 a0 ++ be 2 a1 ++ pad 6 ++ []) with (act_wire (Output a0 a1)) by reflexivity.
  eapply s_output; eauto. apply negb_true_iff in Eb. intros K. apply (has_char_true 47) in K. congruence.
Qed.
Lemma port_of_colon p n : port_of p n -> ~ In 58 p.
Proof.
  intros [u v H|lo up v H].
  - apply literal_tidy in H as [H _]. rewrite Forall_forall in H. intros K. destruct (H _ K) as (_ & _ & E). congruence.
  - cbn [In reserved] in H. repeat (destruct H as [H|H]; [injection H as <- <- <-; cbn; intuition discriminate|]). contradiction.
Qed.
Lemma read_output ra u h p r port m : next u h p r -> ~ In (chr "/") p -> output_any p port m -> in_bytes 4 port -> in_bytes 2 m ->
  reads_as output_str2act ra u (act_wire (Output port m)) r.
Proof.
  intros Nx%next_iff Hs Ho Hp Hm _. unfold output_str2act. rewrite Nx. assert (has_char 47 p = false) as ->. { destruct (has_char 47 p) eqn:E; [|reflexivity]. apply has_char_true in E. contradiction. }
  cbn [negb assert bind]. apply token_next in Nx as [_ ->].
  destruct Ho as [x port Hx|x port y m t Hx Hy Ht].
  - rewrite split_all_none by (now apply (port_of_colon _ port)). cbn [py_nth nth_error bind]. rewrite (port_of_num x port Hx). cbn [bind].
    rewrite pack_u by (apply in_bytes_2; lia). rewrite pack_u by (apply in_bytes_2; lia). rewrite !pack_u by auto. rewrite pack_x. reflexivity.
  - assert (exists l, split_all 58 (x ++ $":" ++ y ++ t) = x :: y :: l) as [l ->].
    { cbn [s2t app]. change ($":" ++ y ++ t) with (58 :: y ++ t). rewrite split_all_cons by (now apply (port_of_colon _ port)).
      destruct Ht as [->|[t' ->]]; [rewrite app_nil_r, split_all_none by (apply (port_of_colon _ m); now constructor); eauto|].
      change ($":" ++ t') with (58 :: t'). rewrite split_all_cons by (apply (port_of_colon _ m); now constructor). eauto. }
    cbn [py_nth nth_error bind]. rewrite (port_of_num x port Hx). cbn [bind]. apply literal_iff in Hy. rewrite Hy. cbn [bind]. rewrite Nat.eqb_refl. cbn [assert bind].
    rewrite pack_u by (apply in_bytes_2; lia). rewrite pack_u by (apply in_bytes_2; lia). rewrite !pack_u by auto. rewrite pack_x. reflexivity.
Qed.
Lemma sound_push N k : sound N (ether_name k) (push_str2act (ether_type k)).
Proof.
  intros u ra b n H. unfold push_str2act in H. destruct (get_token u) as [[h x] r] eqn:Et. apply token_next in Et as [Nx El]. mons H. injection H as <- <-. unpack_inv Ea0.
  exists r. split; [|split; [cbn; lia|exact El]]. apply (s_ether N k ra u h x r z); auto. apply numberish_iff. eauto.
Qed.
Lemma read_push k ra u h p r v : next u h p r -> numberish p v -> in_bytes 2 v -> reads_as (push_str2act (ether_type k)) ra u (act_wire (Ether k v)) r.
Proof.
  intros Nx%next_iff (l & Hp)%numberish_iff Hv _. unfold push_str2act. rewrite Nx, Hp. cbn [bind]. apply token_next in Nx as [_ ->].
  rewrite pack_u by (destruct k; apply in_bytes_2; cbn; lia). rewrite pack_u by (apply in_bytes_2; lia). rewrite pack_u, pack_x by auto. reflexivity.
Qed.

(** ** Nicira actions of one argument *)
Lemma nx_read (r : res (bytes * nat)) sub p n : r = Ok (nx_head sub ++ p, n) -> Z.of_nat (length (nx_act sub p)) <= 65535 -> nxast_str2act r = Ok (nx_act sub p, n).
Proof. apply nx_bind. Qed.
Ltac nx_start H := let m := fresh "m" in let Er := fresh "Er" in let Ef := fresh "Ef" in destruct (nxast_inv _ _ _ H) as (m & Er & Ef); clear H.
Lemma sound_null N name sub a : act_wire a = nx_act sub [] -> (forall ra u, says N name ra u (act_wire a) u) -> sound N name (null_str2act sub).
Proof.
  intros Ea Hs u ra b n H. unfold null_str2act in H. nx_start H. mons Er. injection Er as <- <-. hdr_inv.
  rewrite <- (app_nil_r (nx_head sub)) in Ef. apply nx_done in Ef as [-> L]. exists u. split; [rewrite <- Ea; apply Hs|]. split; [exact L|apply none_read].
Qed.
Lemma read_null sub ra u : in_bytes 2 sub -> reads_as (null_str2act sub) ra u (nx_act sub []) u.
Proof.
  intros Hs L. unfold null_str2act. rewrite nxast_hdr_ok by auto. cbn [bind]. rewrite Nat.sub_diag. apply nx_read; [now rewrite app_nil_r|exact L].
Qed.
Lemma port_any_inv p v : (if text_eqb (upper p) $"IN_PORT" then Ok 0xfff8
             else '(port, rlen) <- parseInt p ;; assert! (Nat.eqb (length p) rlen) ;; assert! (port <? 0xff00) ;; Ok port) = Ok v -> 0 <= v -> nx_port_any p v.
Proof.
  destruct (text_eqb (upper p) $"IN_PORT") eqn:E; intros H.
  - injection H as <-. apply text_eqb_eq, any_case_iff in E. intros _. now constructor.
  - mons H. injection H as <-. apply Nat.eqb_eq in Eb. apply Z.ltb_lt in Eb0. subst. intros Hv. constructor; [now apply literal_iff|lia].
Qed.
Lemma port_any_read p v : nx_port_any p v -> (if text_eqb (upper p) $"IN_PORT" then Ok 0xfff8
             else '(port, rlen) <- parseInt p ;; assert! (Nat.eqb (length p) rlen) ;; assert! (port <? 0xff00) ;; Ok port) = Ok v /\ in_bytes 2 v.
Proof.
  intros [q w Hl Hv|q H].
  - assert (text_eqb (upper q) $"IN_PORT" = false) as ->.
    { destruct (text_eqb (upper q) $"IN_PORT") eqn:E; [|reflexivity]. exfalso. apply text_eqb_eq, any_case_iff in E. destruct (literal_first q w Hl) as (c & t & -> & Hc).
      inversion E as [|? ? ? ? Hr _]; subst. unfold raises in Hr. change (chr "I") with 73 in *. chr_red. unfold digit_in in Hc. chr_red. clear - Hr Hc. cbn in *. lia. }
    apply literal_iff in Hl. rewrite Hl. cbn [bind]. rewrite Nat.eqb_refl. cbn [assert bind]. destruct (Z.ltb_spec w 0xff00); [|lia]. cbn [assert bind]. split; [reflexivity|apply in_bytes_2; lia].
  - apply any_case_iff in H. rewrite H. split; [reflexivity|apply in_bytes_2; lia].
Qed.
Lemma table_any_inv p v : (if Nat.eqb (length p) 0 || text_eqb (upper p) $"ALL" then Ok 0xff
              else '(table, rlen) <- parseInt p ;; assert! (Nat.eqb rlen (length p)) ;; Ok table) = Ok v -> in_bytes 1 v -> table_any p v.
Proof.
  destruct p as [|c p]; [intros [= <-] _; constructor|]. cbn [length Nat.eqb orb]. destruct (text_eqb (upper (c :: p)) $"ALL") eqn:E; intros H.
  - injection H as <-. intros _. apply text_eqb_eq, any_case_iff in E. now constructor.
  - mons H. injection H as <-. destruct n; [discriminate|]. apply Nat.eqb_eq in Eb. intros Hv. apply ta_lit; [|exact Hv]. apply literal_iff. cbn [length]. now rewrite <- Eb.
Qed.
Lemma table_any_read p v : table_any p v -> (if Nat.eqb (length p) 0 || text_eqb (upper p) $"ALL" then Ok 0xff
              else '(table, rlen) <- parseInt p ;; assert! (Nat.eqb rlen (length p)) ;; Ok table) = Ok v /\ in_bytes 1 v.
Proof.
  intros [|q H|q w Hl Hv].
  - split; [reflexivity|]. unfold in_bytes. cbn. lia.
  - apply any_case_iff in H. rewrite H. cbn [text_eqb]. rewrite orb_true_r. split; [reflexivity|]. unfold in_bytes. cbn. lia.
  - split; [|exact Hv]. destruct (literal_first q w Hl) as (c & t & -> & Hc).
    assert (text_eqb (upper (c :: t)) $"ALL" = false) as ->.
    { destruct (text_eqb (upper (c :: t)) $"ALL") eqn:E; [|reflexivity]. exfalso. apply text_eqb_eq, any_case_iff in E.
      inversion E as [|? ? ? ? Hr _]; subst. unfold raises in Hr. unfold digit_in in Hc. chr_red. clear - Hr Hc. cbn in *. lia. }
    apply literal_iff in Hl. cbn [length Nat.eqb orb] in *. rewrite Hl. cbn [bind]. cbn [Nat.eqb]. now rewrite Nat.eqb_refl.
Qed.
(** after a token stands a separator or nothing *)
Lemma no_colon u h p r : next u h p r -> startswith $":" r = false.
Proof.
  intros N%next_ends. destruct r as [|c r]; [reflexivity|]. cbn in N. cbn. destruct (Z.eqb_spec 58 c) as [<-|]; [|reflexivity].
  exfalso. unfold sep_char, eq_char in N. chr_red. lia.
Qed.
Lemma sound_resubmit N : sound N $"resubmit" (resubmit_str2act 1).
Proof.
  intros u ra b n H. unfold resubmit_str2act in H. revert H. destruct (get_token u) as [[h p] u1] eqn:Et. intros H. nx_start H. apply token_next in Et as [Nx El].
  cbn [Z.eqb Pos.eqb] in Er. mons Er. injection Er as <- <-. hdr_inv. unpack_inv Ea3.
  assert (t = [] /\ t0 = u1 /\ eq_ok ra h) as (-> & -> & Hq).
  { destruct ra; [mons Ea0; cbn [andb] in Ea0|]; injection Ea0 as <- <-; (split; [reflexivity|split; [reflexivity|]]); [intros _; apply lead_eq; eauto using next_lead|intros K; discriminate K]. }
  cbn [length Nat.eqb orb] in Ea1. injection Ea1 as <-. apply nx_done in Ef as [-> L]. exists u1. split; [|split; [exact L|reflexivity]].
  eapply (s_resubmit N ra u h p u1 a); eauto. apply port_any_inv in Ea; auto. unfold in_bytes in *. lia.
Qed.
Lemma read_resubmit ra u h p r port : next u h p r -> eq_ok ra h -> nx_port_any p port -> reads_as (resubmit_str2act 1) ra u (act_wire (Resubmit port)) r.
Proof.
  intros Nx Hq (E & Hp)%port_any_read L. unfold resubmit_str2act. apply next_lead in Nx as Hl. apply next_get in Nx. rewrite Nx, E. cbn [bind Z.eqb Pos.eqb andb]. 
  destruct ra; [rewrite (proj2 (lead_eq h Hl)) by (now apply Hq)|]; cbn [assert bind length Nat.eqb orb]; rewrite nxast_hdr_ok by (apply in_bytes_2; lia); cbn [bind];
    rewrite pack_u by auto; rewrite pack_u by (unfold in_bytes; cbn; lia); cbn [pack bind]; rewrite app_nil_r; now apply nx_read.
Qed.
Lemma sound_resubmit_table N : sound N $"resubmit_table" (resubmit_str2act 14).
Proof.
  intros u ra b n H. unfold resubmit_str2act in H. revert H. destruct (get_token u) as [[h p] u1] eqn:Et. intros H. nx_start H. apply token_next in Et as [Nx El].
  cbn [Z.eqb Pos.eqb] in Er. mons Er. injection Er as <- <-. hdr_inv. unpack_inv Ea3. apply nx_done in Ef as [-> L].
  assert (nx_port_any p a) as Hp by (apply port_any_inv in Ea; auto; unfold in_bytes in *; lia).
  exists t0. split; [|split; [exact L|reflexivity]]. destruct ra.
  - mons Ea0. rewrite (no_colon _ _ _ _ Nx) in Ea0. cbn [andb] in Ea0. injection Ea0 as <- <-. cbn [length Nat.eqb orb] in Ea1. injection Ea1 as <-.
    apply lead_eq in Eb; [|eauto using next_lead]. eapply (s_resubmit_all N u h p u1 a); eauto.
  - revert Ea0. destruct (get_token u1) as [[h2 t'] u2] eqn:Et2. intros Ea0. apply token_next in Et2 as [Nx2 El2]. injection Ea0 as <- <-.
    apply (s_resubmit_table N u p t' u2 a a0); [|exact Hp|now apply table_any_inv]. eapply words_cons; eauto. eapply words_cons; eauto. constructor.
Qed.
Lemma read_resubmit_all u h p r port : next u h p r -> SpecActText.eq_lead h -> nx_port_any p port -> reads_as (resubmit_str2act 14) true u (act_wire (ResubmitTable port 255)) r.
Proof.
  intros Nx Hq (E & Hp)%port_any_read L. unfold resubmit_str2act. pose proof (no_colon _ _ _ _ Nx) as Hc. apply next_lead in Nx as Hl. apply next_get in Nx. rewrite Nx, E. cbn [bind Z.eqb Pos.eqb andb].
  rewrite (proj2 (lead_eq h Hl)) by auto. cbn [assert bind]. rewrite Hc. cbn [bind length Nat.eqb orb]. rewrite nxast_hdr_ok by (apply in_bytes_2; lia). cbn [bind].
  rewrite pack_u by auto. rewrite pack_u by (unfold in_bytes; cbn; lia). cbn [pack bind]. rewrite app_nil_r. now apply nx_read.
Qed.
Lemma words_inv1 u p ps r : words u (p :: ps) r -> exists h u', next u h p u' /\ words u' ps r.
Proof. inversion 1; subst; eauto. Qed.
Lemma words_inv0 u r : words u [] r -> u = r.
Proof. now inversion 1. Qed.
Lemma read_resubmit_table u p t r port table : words u [p; t] r -> nx_port_any p port -> table_any t table -> reads_as (resubmit_str2act 14) false u (act_wire (ResubmitTable port table)) r.
Proof.
  intros (h & u1 & Nx & W)%words_inv1 (E & Hp)%port_any_read (E2 & Ht)%table_any_read L. apply words_inv1 in W as (h2 & u2 & Nx2 & W). apply words_inv0 in W as ->.
  unfold resubmit_str2act. apply next_get in Nx, Nx2. rewrite Nx, E. cbn [bind Z.eqb Pos.eqb andb]. rewrite Nx2. cbn [bind]. rewrite E2. cbn [bind].
  rewrite nxast_hdr_ok by (apply in_bytes_2; lia). cbn [bind]. rewrite !pack_u by auto. cbn [pack bind]. rewrite app_nil_r. now apply nx_read.
Qed.
Lemma sound_tunnel_any sub u ra b n : set_tunnel_str2act sub u ra = Ok (b, n) -> exists h p r v, next u h p r /\ eq_ok ra h /\ literal p v /\ n = (length u - length r)%nat /\
  Z.of_nat (length b) <= 65535 /\ (in_bytes 4 v /\ b = nx_act sub (be 4 v) \/ 0xffffffff < v /\ in_bytes 8 v /\ b = nx_act 9 (be 8 v)).
Proof.
  intros H. unfold set_tunnel_str2act in H. revert H. destruct (get_token u) as [[h p] r] eqn:Et. intros H. nx_start H. apply token_next in Et as [Nx El].
  mons Er. injection Er as <- <-. hdr_inv. exists h, p, r, z. apply Nat.eqb_eq in Eb0. rewrite Eb0 in Ea.
  split; [exact Nx|]. split; [apply eq_ok_iff; eauto using next_lead|]. split; [now apply literal_iff|]. split; [exact El|].
  destruct (Z.ltb_spec 0xffffffff z) as [Hz|Hz]; unpack_inv Ea1; rewrite app_nil_r in Ef; apply nx_done in Ef as [-> L]; auto.
Qed.
Lemma read_tunnel_any sub ra u h p r v : in_bytes 2 sub -> next u h p r -> eq_ok ra h -> literal p v -> in_bytes 4 v -> reads_as (set_tunnel_str2act sub) ra u (nx_act sub (be 4 v)) r.
Proof.
  intros Hs Nx Hq Hp%literal_iff Hv L. unfold set_tunnel_str2act. apply next_lead in Nx as Hl. apply next_get in Nx. rewrite Nx, (proj2 (eq_ok_iff ra h Hl)) by auto. cbn [assert bind].
  rewrite Hp. cbn [bind]. rewrite Nat.eqb_refl. cbn [assert bind]. destruct (Z.ltb_spec 0xffffffff v); [unfold in_bytes in Hv; cbn in Hv; lia|].
  rewrite nxast_hdr_ok by auto. cbn [bind]. rewrite pack_u by auto. cbn [pack bind]. apply token_next in Nx as [_ ->]. rewrite app_nil_r. now apply nx_read.
Qed.
Lemma read_tunnel_big sub ra u h p r v : next u h p r -> eq_ok ra h -> literal p v -> 0xffffffff < v -> in_bytes 8 v -> reads_as (set_tunnel_str2act sub) ra u (nx_act 9 (be 8 v)) r.
Proof.
  intros Nx Hq Hp%literal_iff Hz Hv L. unfold set_tunnel_str2act. apply next_lead in Nx as Hl. apply next_get in Nx. rewrite Nx, (proj2 (eq_ok_iff ra h Hl)) by auto. cbn [assert bind].
  rewrite Hp. cbn [bind]. rewrite Nat.eqb_refl. cbn [assert bind]. destruct (Z.ltb_spec 0xffffffff v); [|lia].
  rewrite nxast_hdr_ok by (apply in_bytes_2; lia). cbn [bind]. rewrite pack_u by auto. cbn [pack bind]. apply token_next in Nx as [_ ->]. rewrite app_nil_r. now apply nx_read.
Qed.
Lemma sound_tunnel N : sound N $"set_tunnel" (set_tunnel_str2act 2).
Proof.
  intros u ra b n (h & p & r & v & Nx & Hq & Hp & -> & L & [[Hv ->]|(Hz & Hv & ->)])%sound_tunnel_any; exists r; (split; [|split; [exact L|reflexivity]]).
  - eapply (s_tunnel N); eauto.
  - eapply (s_tunnel_big N); eauto.
Qed.
Lemma sound_tunnel64 N : sound N $"set_tunnel64" (set_tunnel_str2act 9).
Proof.
  intros u ra b n (h & p & r & v & Nx & Hq & Hp & -> & L & [[Hv ->]|(Hz & Hv & ->)])%sound_tunnel_any; exists r; (split; [|split; [exact L|reflexivity]]).
  - eapply (s_tunnel64 N); eauto.
  - eapply (s_tunnel_big N); eauto.
Qed.
Lemma sound_note N : sound N $"note" (qp_str2act 8).
Proof.
  intros u ra b n H. unfold qp_str2act in H. revert H. destruct (get_token u) as [[h p] r] eqn:Et. intros H. apply token_next in Et as [Nx El]. mons H. injection H as <- <-. hdr_inv.
  apply a2b_qp_inv in Ea0. pose proof (proj2 (fix_len_inv _ _ _ Ea1)) as Hl.
  assert (Z.of_nat (10 + length a0) <= 65535) as Hs. { unfold fix_act_len in Ea1. mons Ea1. apply pack_u_inv in Ea as (Hb & _). rewrite app_length, nx_head_length in Hb. unfold in_bytes in Hb. cbn in Hb. lia. }
  rewrite fix_len_ok in Ea1 by lia. injection Ea1 as <-. exists r. split; [|split; [rewrite Hl; exact Hs|exact El]].
  apply (s_note N ra u h p r a0); auto. apply eq_ok_iff; eauto using next_lead.
Qed.
Lemma read_note ra u h p r b : next u h p r -> eq_ok ra h -> qp p b -> reads_as (qp_str2act 8) ra u (act_wire (Note b)) r.
Proof.
  intros Nx Hq Hp L. unfold qp_str2act. apply next_lead in Nx as Hl. apply next_get in Nx. rewrite Nx, (proj2 (eq_ok_iff ra h Hl)) by auto. cbn [assert bind].
  rewrite nxast_hdr_ok by (apply in_bytes_2; lia). cbn [bind]. rewrite (a2b_qp_reads _ _ Hp). cbn [bind]. apply token_next in Nx as [_ ->].
  cbn [act_wire] in *. rewrite fix_len_ok; [reflexivity|]. revert L. unfold std_act. len.
Qed.
Lemma parse_ids_inv us ids : parse_ids us = Ok ids -> Forall2 numberish us ids.
Proof.
  unfold parse_ids. revert ids. induction us as [|x us IH]; intros ids H; cbn [mapM] in H; [injection H as <-; constructor|].
  mons H. injection H as <-. mons Ea. injection Ea as <-. constructor; [apply numberish_iff; eauto|auto].
Qed.
Lemma parse_ids_read us ids : Forall2 numberish us ids -> parse_ids us = Ok ids.
Proof.
  unfold parse_ids. induction 1 as [|x v us ids (l & Hx)%numberish_iff H IH]; cbn [mapM]; [reflexivity|]. rewrite Hx. cbn [bind]. now rewrite IH.
Qed.
Lemma sound_ids N : sound N $"cnt_ids" cnt_ids_str2act.
Proof.
  intros u ra b n H. unfold cnt_ids_str2act in H. nx_start H. mons Er. injection Er as <- <-. hdr_inv.
  unpack_inv Ea2. apply pack_all_inv in Ea2 as [Hi ->]. apply nx_done in Ef as [-> L]. apply parse_ids_inv in Ea0. destruct ra.
  - revert Ea. destruct (get_token u) as [[h p] r] eqn:Et. intros Ea. apply token_next in Et as [Nx El]. mons Ea. injection Ea as <- <-. exists r. split; [|split; [exact L|exact El]].
    destruct (split_sepby_all 58 p) as (Ep & Hne & Hf). eapply (s_ids_eq N u h p r (split_all 58 p)); eauto. apply lead_eq; eauto using next_lead.
  - injection Ea as <- <-. exists u. split; [|split; [exact L|apply none_read]]. apply (s_ids N u (split u)); auto. apply split_split_of.
Qed.
Lemma ids_count ids : Z.of_nat (length (act_wire (CntIds ids))) <= 65535 -> in_bytes 2 (Z.of_nat (length ids)).
Proof. cbn [act_wire]. intros Hl. apply nx_fits_len in Hl. revert Hl. len. intros Hl. apply in_bytes_2. lia. Qed.
Lemma ids_pack ids : in_bytes 2 (Z.of_nat (length ids)) -> Forall (in_bytes 2) ids ->
  pack (sH :: sx 4 :: repeat sH (length ids)) (Z.of_nat (length ids) :: ids) = Ok (be 2 (Z.of_nat (length ids)) ++ pad 4 ++ all_be 2 ids).
Proof. intros Hl Hi. rewrite pack_u by auto. rewrite pack_x, pack_all by auto. reflexivity. Qed.
Lemma read_ids_eq u h p r us ids : next u h p r -> SpecActText.eq_lead h -> p = sepby (chr ":") us -> us <> [] -> Forall (fun t => ~ In (chr ":") t) us -> Forall2 numberish us ids -> Forall (in_bytes 2) ids ->
  reads_as cnt_ids_str2act true u (act_wire (CntIds ids)) r.
Proof.
  intros Nx Hq -> Hne Hf Hi Hb L. unfold cnt_ids_str2act. apply next_lead in Nx as Hl. apply next_get in Nx. rewrite Nx. rewrite (proj2 (lead_eq h Hl)) by auto. cbn [assert bind].
  change (chr ":") with 58 in *. rewrite split_sepby_no by auto. rewrite (parse_ids_read us ids) by auto. cbn [bind]. rewrite nxast_hdr_ok by (apply in_bytes_2; lia). cbn [bind].
  rewrite ids_pack by (auto using ids_count). cbn [bind]. apply token_next in Nx as [_ ->]. now apply nx_read.
Qed.
Lemma read_ids u us ids : split_of u us -> Forall2 numberish us ids -> Forall (in_bytes 2) ids -> reads_as cnt_ids_str2act false u (act_wire (CntIds ids)) u.
Proof.
  intros Hs Hi Hb L. unfold cnt_ids_str2act. cbn [bind]. rewrite (split_of_split _ _ Hs). rewrite (parse_ids_read us ids) by auto. cbn [bind]. rewrite nxast_hdr_ok by (apply in_bytes_2; lia). cbn [bind].
  rewrite ids_pack by (auto using ids_count). cbn [bind]. rewrite Nat.sub_diag. now apply nx_read.
Qed.
