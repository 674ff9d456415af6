(** Termination: the loops of the action, flow, group and multipart parsers always
    make progress; the printing loops do unless an entry says its length is 0. *)
From Verif Require Import Base PyNum Util PyLib OxmCodec OxmTables Oxm Nx Ofp4 BaseFacts UtilFacts TermFacts.

(** ** the loops of the Nicira actions *)
Lemma py_int_nd x : py_int x <> Diverge.
Proof. nd. Qed.
Lemma py_nth_nd {A} (l : list A) i : py_nth l i <> Diverge.
Proof. nd. Qed.
Lemma a2b_qp_nd s : a2b_qp s <> Diverge.
Proof. nd. Qed.
Global Hint Resolve py_int_nd py_nth_nd a2b_qp_nd : nd.
Lemma oxm_hdr_nd m o : oxm_hdr m o <> Diverge.
Proof. nd. Qed.
Lemma opt_int_nd x : opt_int x <> Diverge.
Proof. nd. Qed.
Lemma nxast_hdr_nd s : nxast_hdr s <> Diverge.
Proof. nd. Qed.
Lemma fix_act_len_nd b : fix_act_len b <> Diverge.
Proof. nd. Qed.
Lemma int_range_nd a : int_range a <> Diverge.
Proof. nd. Qed.
Lemma range_end_nd a : range_end a <> Diverge.
Proof. nd. Qed.
Lemma opt_range_nd a : opt_range a <> Diverge.
Proof. nd. Qed.
Global Hint Resolve oxm_hdr_nd opt_int_nd nxast_hdr_nd fix_act_len_nd int_range_nd range_end_nd opt_range_nd : nd.
Lemma get_bits_nd u : get_bits u <> Diverge.
Proof. nd. Qed.
Lemma parse_ids_nd l : parse_ids l <> Diverge.
Proof. unfold parse_ids. apply mapM_nd. intros a. nd. Qed.
Lemma slave_port_nd p : slave_port p <> Diverge.
Proof. nd. Qed.
Global Hint Resolve get_bits_nd parse_ids_nd slave_port_nd : nd.
Lemma slave_list_nd s : slave_list s <> Diverge.
Proof. nd. Qed.
Global Hint Resolve slave_list_nd : nd.
Lemma opt_range_snd x0 r0 r1 : opt_range x0 = Ok (r0, r1) -> r1 <> Diverge.
Proof.
  unfold opt_range. destruct (split1 58 x0) as [x [y|]]; intros H; mon H; [mon H|]; injection H as <- <-; discriminate.
Qed.
Lemma flow_mod_spec_nd s d m : flow_mod_spec s d m <> Diverge.
Proof.
  assert (forall (a : text) (k : option Z * res (option Z) -> res (Z * Z)),
            (forall r0 r1, r1 <> Diverge -> k (r0, r1) <> Diverge) -> bind (opt_range a) k <> Diverge) as R.
  { intros a k Hk. apply bind_nd; [apply opt_range_nd|]. intros [r0 r1] E. apply Hk. eapply opt_range_snd; eauto. }
  unfold flow_mod_spec. apply bind_nd; [nd|]. intros [sname sarg] _. apply bind_nd; [nd|]. intros soxm _. apply bind_nd.
  - destruct soxm as [|b soxm]; [nd|]. apply bind_nd; [nd|]. intros ? _. apply bind_nd; [nd|]. intros [[? ?] size] _.
    apply bind_nd; [|intros [? ?] _; nd]. destruct sarg as [[|c0 a0]|]; [nd| |nd]. apply R. intros r0 r1 H1. nd.
  - intros [[sobj nbits] flags] _.
    match goal with |- (if ?x then _ else _) <> _ => destruct x end; [nd|]. destruct d as [d|]; [|nd].
    apply bind_nd; [nd|]. intros [dname darg] _. apply bind_nd; [nd|]. intros doxm _. apply bind_nd; [nd|]. intros ? _.
    apply bind_nd; [nd|]. intros [[? ?] size] _. apply bind_nd; [|intros [? ?] _; nd].
    destruct darg as [[|c0 a0]|]; [nd| |nd]. apply R. intros r0 r1 H1. nd.
Qed.
Global Hint Resolve flow_mod_spec_nd : nd.
Lemma learn_single_nd t : learn_single t <> Diverge.
Proof. nd. Qed.
Global Hint Resolve learn_single_nd : nd.
Lemma learn_flush_nd t : learn_flush t <> Diverge.
Proof. nd. Qed.
Global Hint Resolve learn_flush_nd : nd.
Lemma learn_go_nd fuel : forall info specs left u, (length u <= fuel)%nat -> learn_go fuel info specs left u <> Diverge.
Proof.
  induction fuel as [|fuel IH]; intros info specs left u Hl; (destruct u as [|c u]; [cbn [learn_go]; nd|]); [cbn in Hl; lia|].
  cbn [learn_go]. destruct (get_token (c :: u)) as [[h arg] rest] eqn:E. apply get_token_progress in E; [|discriminate].
  assert (forall i s l, learn_go fuel i s l rest <> Diverge) as K by (intros; apply IH; lia).
  destruct (has_char 61 h); [destruct left as [l|]; [destruct (in_names l learn_keys)|]|]; (apply bind_nd; [nd|intros ? _]);
    try destruct a; auto.
Qed.
Lemma learn_str2act_nd u r : learn_str2act u r <> Diverge.
Proof.
  unfold learn_str2act, nxast_str2act. apply bind_nd; [|intros [? ?] _; nd]. destruct r; [nd|].
  apply bind_nd; [now apply learn_go_nd|]. intros [? ?] _. nd.
Qed.
Global Hint Resolve learn_str2act_nd : nd.

Ltac table H :=
  repeat (match type of H with
          | (if ?b then _ else _) = Some _ => destruct b; [injection H as <-; nd|]
          end); discriminate H.

Lemma cnt_ids_nd u r : cnt_ids_str2act u r <> Diverge. Proof. nd. Qed.
Lemma reg_load_nd t u r : reg_load_str2act t u r <> Diverge.
Proof. unfold reg_load_str2act, nxast_str2act. apply bind_nd; [|intros [? ?] _; nd]. nd. Qed.
Lemma reg_move_nd u r : reg_move_str2act u r <> Diverge. Proof. nd. Qed.
Lemma resubmit_nd t u r : resubmit_str2act t u r <> Diverge. Proof. nd. Qed.
Lemma set_tunnel_nd t u r : set_tunnel_str2act t u r <> Diverge. Proof. nd. Qed.
Lemma null_nd t u r : null_str2act t u r <> Diverge. Proof. nd. Qed.
Lemma qp_nd t u r : qp_str2act t u r <> Diverge. Proof. nd. Qed.
Lemma multipath_nd u r : multipath_str2act u r <> Diverge. Proof. nd. Qed.
Lemma bundle_nd u r : bundle_str2act u r <> Diverge. Proof. nd. Qed.
Lemma bundle_load_nd u r : bundle_load_str2act u r <> Diverge. Proof. nd. Qed.
Lemma output_reg_nd t u r : output_reg_str2act t u r <> Diverge. Proof. nd. Qed.
Lemma output_nd u r : output_str2act u r <> Diverge. Proof. nd. Qed.
Lemma generic_nd t u r : generic_str2act t u r <> Diverge. Proof. nd. Qed.
Lemma uint_nd t fs u r : uint_str2act t fs u r <> Diverge. Proof. nd. Qed.
Lemma push_nd t u r : push_str2act t u r <> Diverge. Proof. nd. Qed.
Global Hint Resolve cnt_ids_nd reg_load_nd reg_move_nd resubmit_nd set_tunnel_nd null_nd qp_nd multipath_nd bundle_nd
  bundle_load_nd output_reg_nd output_nd generic_nd uint_nd push_nd : nd.

Lemma assoc_t_forall {A} (P : A -> Prop) n (l : list (text * A)) a :
  Forall (fun p => P (snd p)) l -> assoc_t n l = Some a -> P a.
Proof. induction 1 as [|[k v] l Hv Hl IH]; cbn; [discriminate|]. destruct (text_eqb n k); [intros [= <-]; exact Hv|exact IH]. Qed.
Lemma assoc_z_forall {A} (P : A -> Prop) n (l : list (Z * A)) a :
  Forall (fun p => P (snd p)) l -> assoc_z n l = Some a -> P a.
Proof. induction 1 as [|[k v] l Hv Hl IH]; cbn; [discriminate|]. destruct (n =? k); [intros [= <-]; exact Hv|exact IH]. Qed.

Lemma act_parsers_nd : Forall (fun p => forall u r, snd p u r <> Diverge) str2act_tbl.
Proof. unfold str2act_tbl, nx_str2act_tbl. repeat (constructor; [cbn [snd]; intros; auto with nd|]). constructor. Qed.
Lemma str2act_nd s : str2act s <> Diverge.
Proof.
  unfold str2act. destruct (get_token s) as [[h name] arg]. apply bind_nd; [nd|]. intros [fname farg] _.
  assert (forall n f u r, assoc_t n str2act_tbl = Some f -> f u r <> Diverge) as K.
  { intros n f u r E. exact (assoc_t_forall (fun f => forall u r, f u r <> Diverge) n str2act_tbl f act_parsers_nd E u r). }
  set (fa := match farg with Some (_ :: _) => _ | _ => None end).
  cbv zeta.
  assert (match assoc_t name str2act_tbl with
    | Some f => '(b, p) <- f arg true ;; Ok (b, (length h + length name + p)%nat)
    | None =>
        if startswith $"set_" name then
          '(oxm, consumed) <-
            match fa with
            | Some a =>
                let '(_, payload, _) := get_token a in
                '(oxm, _) <- str2oxm (skipn 4 fname ++ $"=" ++ payload) false ;;
                Ok (oxm, (length h + length name)%nat)
            | None =>
                let '(op, payload, _) := get_token arg in
                '(oxm, p) <- str2oxm (skipn 4 name ++ op ++ payload) false ;;
                Ok (oxm, (length h + 4 + p)%nat)
            end ;;
          b <- set_field oxm ;; Ok (b, consumed)
        else Ok ([], length h)
    end <> Diverge) as O.
  { destruct (assoc_t name str2act_tbl) as [f|] eqn:E; [apply bind_nd; [eapply K; eauto|intros [? ?] _; nd]|].
    destruct (startswith _ name); [|nd]. apply bind_nd; [|intros [? ?] _; nd]. destruct fa as [a|]; nd. }
  destruct fa as [a|]; [|exact O]. destruct (assoc_t fname str2act_tbl) as [f|] eqn:E; [|exact O].
  apply bind_nd; [eapply K; eauto|]. intros [? ?] _. nd.
Qed.
Global Hint Resolve str2act_nd : nd.

(** ** flow rules *)
Lemma skipn_shorter {A} n (l : list A) : n <> O -> l <> [] -> (length (skipn n l) < length l)%nat.
Proof. intros Hn Hl. rewrite skipn_length. destruct l; [easy|]. cbn [length]. lia. Qed.
Lemma int_arg_nd s : int_arg s <> Diverge. Proof. nd. Qed.
Lemma named_num_nd l p : named_num l p <> Diverge. Proof. nd. Qed.
Global Hint Resolve int_arg_nd named_num_nd : nd.
Lemma named_arg_nd l s : named_arg l s <> Diverge. Proof. nd. Qed.
Global Hint Resolve named_arg_nd : nd.
Lemma int_arg_le s n r : int_arg s = Ok (n, r) -> (length r <= length s)%nat.
Proof.
  unfold int_arg. destruct (get_token s) as [[op pl] rest] eqn:E. intros H. mon H. mon H. destruct a. mon H. injection H as <- <-.
  now apply get_token_le in E.
Qed.
Lemma named_arg_le l s n r : named_arg l s = Ok (n, r) -> (length r <= length s)%nat.
Proof.
  unfold named_arg. destruct (get_token s) as [[op pl] rest] eqn:E. intros H. mon H. mon H. injection H as <- <-.
  now apply get_token_le in E.
Qed.
Lemma flush_acts_nd f a i : flush_acts f a i <> Diverge. Proof. nd. Qed.
Lemma inst_token_nd i a n s : inst_token i a n s <> Diverge.
Proof.
  unfold inst_token. destruct (get_token s) as [[op pl] rest]. repeat (match goal with |- (if ?b then _ else _) <> _ => destruct b end); nd.
Qed.
Lemma match_token_nd i n s : match_token i n s <> Diverge. Proof. nd. Qed.
Global Hint Resolve flush_acts_nd inst_token_nd match_token_nd : nd.
Lemma dict_step_nd st s : dict_step st s <> Diverge.
Proof. nd. Qed.

Lemma inst_token_le i a n s st r : inst_token i a n s = Ok (st, r) -> (length r <= length s)%nat.
Proof.
  unfold inst_token. destruct (get_token s) as [[op pl] rest] eqn:E. apply get_token_le in E.
  destruct (in_names n _); [intros H; do 4 (mon H; try destruct a0); congruence || (injection H as <- <-; lia)|].
  destruct (in_names n _).
  { intros H. mon H. destruct (split1 47 pl). mon H. destruct a0. mon H. mon H. mon H. injection H as <- <-; lia. }
  destruct (in_names n _); [intros [= <- <-]; lia|]. destruct (in_names n _); [intros [= <- <-]; lia|].
  destruct (in_names n _); [intros H; mon H; injection H as <- <-; lia|].
  destruct (text_eqb n _); [|discriminate]. intros H. mon H. mon H. destruct a0. mon H. mon H. injection H as <- <-; lia.
Qed.
Lemma match_token_le i n s i' r : match_token i n s = Ok (i', r) -> n ++ s <> [] -> (length r < length (n ++ s))%nat \/ (length r <= length s)%nat.
Proof.
  unfold match_token. intros H Hn. destruct (assoc_t n proc_fields) as [set|].
  { right. mon H. destruct a. injection H as <- <-. eapply int_arg_le; eauto. }
  destruct (assoc_t n ofpff) as [fl|]; [right; injection H as <- <-; lia|].
  destruct (text_eqb n _).
  { right. destruct (get_token s) as [[op pl] rest] eqn:E. apply get_token_le in E. mon H. destruct (split1 47 pl) as [v m]. mon H. destruct a.
    mon H. destruct m as [mt|]; [mon H; destruct a; injection H as <- <-|injection H as <- <-]; lia. }
  destruct (text_eqb n _); [right; mon H; destruct a; injection H as <- <-; eapply named_arg_le; eauto|].
  destruct (text_eqb n _); [right; mon H; destruct a; injection H as <- <-; eapply named_arg_le; eauto|].
  left. mon H. destruct a as [oxm l]. destruct (Nat.eqb_spec l 0); [discriminate|]. injection H as <- <-. now apply skipn_shorter.
Qed.
Lemma dict_step_shorter st s st' r : s <> [] -> dict_step st s = Ok (st', r) -> (length r < length s)%nat.
Proof.
  intros Hs. unfold dict_step. destruct st as [i func actions ph]. destruct (get_token s) as [[h name] rest] eqn:E.
  pose proof (get_token_concat _ _ _ _ E) as C. pose proof (get_token_progress _ _ _ _ E Hs) as P.
  assert (length s = length h + length (name ++ rest))%nat as L by (rewrite <- C, app_length; reflexivity).
  intros H. mon H. destruct (startswith _ name); [mon H; apply inst_token_le in H; lia|].
  destruct (list_eq_dec Z.eq_dec (name ++ rest) []) as [Hn|Hn].
  - destruct ph; [| |discriminate].
    + mon H. destruct a as [i' r']. injection H as <- <-. apply app_eq_nil in Hn as [-> ->].
      unfold match_token in Ea. change (assoc_t [] proc_fields) with (@None (info -> Z -> info)) in Ea.
      change (assoc_t [] ofpff) with (@None Z) in Ea. cbn in Ea. discriminate.
    + mon H. destruct a as [act l]. destruct (Nat.eqb_spec l 0); [discriminate|]. injection H as <- <-. rewrite Hn, skipn_nil.
      cbn [length]. destruct s; [easy|cbn [length]; lia].
  - destruct ph; [| |discriminate].
    + mon H. destruct a as [i' r']. injection H as <- <-. apply match_token_le in Ea; [|exact Hn]. lia.
    + mon H. destruct a as [act l]. destruct (Nat.eqb_spec l 0); [discriminate|]. injection H as <- <-.
      pose proof (skipn_shorter l (name ++ rest)) as K. specialize (K n Hn). lia.
Qed.
Lemma dict_go_total fuel : forall st s, (length s <= fuel)%nat -> dict_go fuel st s <> Diverge.
Proof.
  induction fuel as [|fuel IH]; intros st [|c s] Hl; cbn [dict_go]; try discriminate; [cbn in Hl; lia|].
  apply bind_nd; [apply dict_step_nd|]. intros [st' r] E. apply dict_step_shorter in E; [|discriminate]. apply IH. lia.
Qed.
Lemma str2dict_total s : str2dict s <> Diverge.
Proof. unfold str2dict. apply bind_nd; [now apply dict_go_total|]. intros [i f a p] _. nd. Qed.
Global Hint Resolve str2dict_total : nd.
Lemma str2mod_total s c x : str2mod s c x <> Diverge.
Proof. nd. Qed.

(** ** groups *)
Lemma bucket_go_total fuel : forall i a u, (length u <= fuel)%nat -> bucket_go fuel i a u <> Diverge.
Proof.
  induction fuel as [|fuel IH]; intros i a u Hl; (destruct u as [|c u]; [cbn [bucket_go]; nd|]); [cbn in Hl; lia|].
  cbn [bucket_go]. destruct (get_token (c :: u)) as [[h name] r] eqn:E. apply get_token_progress in E; [|discriminate].
  apply bind_nd; [nd|]. intros _ _. destruct (startswith _ name); [nd|]. destruct (assoc_t name bucket_fields) as [set|].
  - destruct (get_token r) as [[op pl] rest] eqn:E2. apply get_token_le in E2. apply bind_nd; [nd|]. intros _ _.
    apply bind_nd; [nd|]. intros [num l] _. apply bind_nd; [nd|]. intros _ _. apply IH. lia.
  - apply bind_nd; [nd|]. intros [b l] _. destruct (Nat.ltb_spec 0 l); [|nd]. apply IH.
    pose proof (skipn_shorter l (c :: u)) as K. assert (length (skipn l (c :: u)) < length (c :: u))%nat by (apply K; [lia|discriminate]). lia.
Qed.
Lemma str2bucket_total s t : str2bucket s t <> Diverge.
Proof. unfold str2bucket. apply bind_nd; [now apply bucket_go_total|]. intros [[i a] r] _. nd. Qed.
Global Hint Resolve str2bucket_total : nd.
Lemma group_head_go_total fuel : forall g t u, (length u <= fuel)%nat -> group_head_go fuel g t u <> Diverge.
Proof.
  induction fuel as [|fuel IH]; intros g t u Hl; (destruct u as [|c u]; [cbn [group_head_go]; nd|]); [cbn in Hl; lia|].
  cbn [group_head_go]. destruct (get_token (c :: u)) as [[h name] r] eqn:E. apply get_token_progress in E; [|discriminate].
  destruct (text_eqb name _).
  - destruct (get_token r) as [[op pl] rest] eqn:E2. apply get_token_le in E2. apply bind_nd; [nd|]. intros ? _. apply IH. lia.
  - destruct (index_of name ofpgt); try nd. apply IH. lia.
Qed.
Lemma group_buckets_go_total fuel : forall t u, (length u <= fuel)%nat -> group_buckets_go fuel t u <> Diverge.
Proof.
  induction fuel as [|fuel IH]; intros t u Hl; (destruct u as [|c u]; [cbn [group_buckets_go]; nd|]); [cbn in Hl; lia|].
  cbn [group_buckets_go]. apply bind_nd; [nd|]. intros [b l] _. destruct (Nat.eqb_spec l 0) as [|Hn]; cbn [negb].
  - destruct (get_token (c :: u)) as [[h name] r] eqn:E. apply get_token_progress in E; [|discriminate].
    match goal with |- (if ?b then _ else _) <> _ => destruct b end; [apply IH; lia|nd].
  - apply bind_nd; [|intros [? ?] _; nd]. apply IH. pose proof (skipn_shorter l (c :: u) Hn). assert (c :: u <> []) by discriminate. lia.
Qed.
Lemma str2group_total s c x : str2group s c x <> Diverge.
Proof.
  unfold str2group. apply bind_nd; [now apply group_head_go_total|]. intros [[g t] u] _.
  apply bind_nd; [now apply group_buckets_go_total|]. intros [b r] _. nd.
Qed.

(** ** multipart *)
Lemma counters_go_total fuel : forall ns acc s, (length s <= fuel)%nat -> counters_go fuel ns acc s <> Diverge.
Proof.
  induction fuel as [|fuel IH]; intros ns acc s Hl; (destruct s as [|c s]; [cbn [counters_go]; nd|]); [cbn in Hl; lia|].
  cbn [counters_go]. destruct (get_token (c :: s)) as [[h name] r] eqn:E. apply get_token_progress in E; [|discriminate].
  destruct (in_names name ns); [|nd]. apply bind_nd; [nd|]. intros [n rest] E2. apply int_arg_le in E2. apply IH. lia.
Qed.
Lemma mpflow_parse_nd s : mpflow_parse s <> Diverge.
Proof. unfold mpflow_parse. apply bind_nd; [now apply counters_go_total|]. intros [c r] _. nd. Qed.
Lemma mp_capture_nd bs : Forall (fun r => r <> Diverge) bs -> forall c, mp_capture c bs <> Diverge.
Proof. induction 1 as [|b bs Hb Hbs IH]; intros c; cbn [mp_capture]; [nd|]. apply bind_nd; [exact Hb|]. intros body _. destruct (_ <? _); [nd|apply IH]. Qed.
Lemma mp_message_nd t x m bs : Forall (fun r => r <> Diverge) bs -> mp_message t x m bs <> Diverge.
Proof. intros H. unfold mp_message. apply bind_nd; [now apply mp_capture_nd|]. intros c _. nd. Qed.
Lemma map_nd {A B} (f : A -> res B) l : (forall a, f a <> Diverge) -> Forall (fun r => r <> Diverge) (map f l).
Proof. intros H. induction l; cbn [map]; constructor; auto. Qed.
Lemma text2mpflow_total s t x : text2mpflow s t x <> Diverge.
Proof.
  unfold text2mpflow. apply bind_nd; [apply mapM_nd, mpflow_parse_nd|]. intros rules _. apply mp_message_nd, map_nd. intros a. nd.
Qed.
Lemma gdesc_head_go_total fuel : forall g t u, (length u <= fuel)%nat -> gdesc_head_go fuel g t u <> Diverge.
Proof.
  induction fuel as [|fuel IH]; intros g t u Hl; (destruct u as [|c u]; [cbn [gdesc_head_go]; nd|]); [cbn in Hl; lia|].
  cbn [gdesc_head_go]. destruct (get_token (c :: u)) as [[h name] r] eqn:E. apply get_token_progress in E; [|discriminate].
  destruct (text_eqb name _).
  - apply bind_nd; [nd|]. intros [n rest] E2. apply int_arg_le in E2. apply IH. lia.
  - destruct (index_of (lower name) ofpgt); try nd. apply IH. lia.
Qed.
Lemma gdesc_buckets_go_total fuel : forall t u, (length u <= fuel)%nat -> gdesc_buckets_go fuel t u <> Diverge.
Proof.
  induction fuel as [|fuel IH]; intros t u Hl; (destruct u as [|c u]; [cbn [gdesc_buckets_go]; nd|]); [cbn in Hl; lia|].
  cbn [gdesc_buckets_go]. destruct (get_token (c :: u)) as [[h name] r] eqn:E. apply get_token_progress in E; [|discriminate].
  destruct (text_eqb name _); [apply IH; lia|]. apply bind_nd; [nd|]. intros [b l] _. destruct (Nat.eqb_spec l 0) as [|Hn]; [nd|].
  apply bind_nd; [|intros ? _; nd]. apply IH. pose proof (skipn_shorter l (c :: u) Hn). assert (c :: u <> []) by discriminate. lia.
Qed.
Lemma gdesc_body_nd s : gdesc_body s <> Diverge.
Proof.
  unfold gdesc_body. apply bind_nd; [now apply gdesc_head_go_total|]. intros [[g t] u] _.
  apply bind_nd; [now apply gdesc_buckets_go_total|]. intros bs _. nd.
Qed.
Lemma text2mpgroupdesc_total s t x : text2mpgroupdesc s t x <> Diverge.
Proof. unfold text2mpgroupdesc. destruct (negb _); [nd|]. apply mp_message_nd, map_nd, gdesc_body_nd. Qed.
Lemma mpg_head_go_total fuel : forall g u, (length u <= fuel)%nat -> mpg_head_go fuel g u <> Diverge.
Proof.
  induction fuel as [|fuel IH]; intros g u Hl; (destruct u as [|c u]; [cbn [mpg_head_go]; nd|]); [cbn in Hl; lia|].
  cbn [mpg_head_go]. destruct (get_token (c :: u)) as [[h name] r] eqn:E. apply get_token_progress in E; [|discriminate].
  destruct (text_eqb name _); [|nd]. apply bind_nd; [nd|]. intros [n rest] E2. apply int_arg_le in E2. apply IH. lia.
Qed.
Lemma mpg_stats_go_total fuel : forall g bs u, (length u <= fuel)%nat -> mpg_stats_go fuel g bs u <> Diverge.
Proof.
  induction fuel as [|fuel IH]; intros g bs u Hl; (destruct u as [|c u]; [cbn [mpg_stats_go]; nd|]); [cbn in Hl; lia|].
  cbn [mpg_stats_go]. destruct (get_token (c :: u)) as [[h name] r] eqn:E. apply get_token_progress in E; [|discriminate].
  destruct (text_eqb name _); [apply IH; lia|]. apply bind_nd; [nd|]. intros [n rest] E2. apply int_arg_le in E2.
  destruct bs as [|b bs]; (match goal with |- (if ?b then _ else _) <> _ => destruct b end); try nd; apply IH; lia.
Qed.
Lemma mpg_body_nd s : mpg_body s <> Diverge.
Proof.
  unfold mpg_body. apply bind_nd; [now apply mpg_head_go_total|]. intros [g u] _.
  apply bind_nd; [now apply mpg_stats_go_total|]. intros [c bs] _. apply bind_nd; [apply mapM_nd; intros; nd|]. intros ? _. nd.
Qed.
Lemma text2mpgroup_total s t x : text2mpgroup s t x <> Diverge.
Proof.
  unfold text2mpgroup. destruct (negb _).
  - apply bind_nd; [now apply mpg_head_go_total|]. intros [g u] _. nd.
  - apply mp_message_nd, map_nd, mpg_body_nd.
Qed.
