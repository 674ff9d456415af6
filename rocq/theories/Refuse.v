(** Which exceptions a reader can raise. *)
From Verif Require Import Base PyNum Util PyLib OxmCodec OxmTables Oxm Nx Ofp4 BaseFacts UtilFacts OfpTerm.

Definition only (l : list exn) {A} (r : res A) : Prop := forall e, r = Raise e -> In e l.
Lemma only_bind l {A B} (r : res A) (k : A -> res B) : only l r -> (forall a, r = Ok a -> only l (k a)) -> only l (bind r k).
Proof. intros H K e. destruct r; cbn; [intros E; eapply K; eauto|intros [= <-]; now apply H|discriminate]. Qed.
Lemma only_ok l {A} (a : A) : only l (Ok a). Proof. discriminate. Qed.
Lemma only_div l {A} : only l (@Diverge A). Proof. discriminate. Qed.
Lemma only_raise l {A} e : In e l -> only l (@Raise A e). Proof. intros H ? [= <-]. exact H. Qed.
Lemma only_incl l l' {A} (r : res A) : only l r -> incl l l' -> only l' r.
Proof. unfold only. auto. Qed.
Lemma only_assert l b : In AssertionError l -> only l (assert b).
Proof. destruct b; [discriminate|]. intros H ? [= <-]. exact H. Qed.
Ltac inex := solve [cbn [In]; repeat (first [left; reflexivity|right])].
Ltac sub := let e := fresh in let H := fresh in intros e H; cbn [In] in H; repeat (destruct H as [<-|H]; [inex|]); destruct H.
Create HintDb only.
(** prove [only l r]: known functions by hint, the others by unfolding *)
Ltac hd t := match t with ?f _ => hd f | _ => t end.
Ltac on :=
  cbv beta zeta;
  match goal with
  | |- only _ (Ok _) => apply only_ok
  | |- only _ Diverge => apply only_div
  | |- only _ (Raise _) => apply only_raise; inex
  | |- only _ (assert _) => apply only_assert; inex
  | |- only _ (bind _ _) => apply only_bind; [on|intros ? ?; on]
  | |- only _ (if ?x then _ else _) => destruct x eqn:?; on
  | |- only _ (match ?x with _ => _ end) => destruct x eqn:?; on
  | |- _ => solve [auto with only]
  | |- _ => solve [eapply only_incl; [solve [auto with only]|sub]]
  | |- only _ ?x => let h := hd x in unfold h; on
  end.
Lemma mapM_only l {A B} (f : A -> res B) xs : (forall a, only l (f a)) -> only l (mapM f xs).
Proof. intros Hf. induction xs; cbn [mapM]; [discriminate|]. apply only_bind; auto. intros ? _. apply only_bind; auto. discriminate. Qed.
Lemma index_of_only n l : only [ValueError] (index_of n l).
Proof. induction l; cbn [index_of]; on. Qed.
Lemma pack_only fs : forall vs, only [StructError] (pack fs vs).
Proof. induction fs as [|f fs IH]; intros [|v vs]; cbn [pack]; on. Qed.
Lemma unpack_from_only fs m off : only [StructError] (unpack_from fs m off).
Proof. on. Qed.
Lemma unpack_only fs m : only [StructError] (unpack fs m).
Proof. on. Qed.
Lemma parse_func_go_only s : forall total name, only [AssertionError] (parse_func_go total name s).
Proof. induction s as [|c s IH]; intros total name; cbn [parse_func_go]; on. Qed.
#[export] Hint Resolve mapM_only index_of_only pack_only unpack_from_only unpack_only parse_func_go_only : only.
Lemma parse_func_only s : only [AssertionError] (parse_func s). Proof. on. Qed.
Lemma parseInt_only u : only [ValueError] (parseInt u). Proof. on. Qed.
Lemma f_of_Z_only z : only [OverflowError] (f_of_Z z). Proof. unfold f_of_Z. cbv zeta. destruct (SpecFloat.binary_normalize 53 1024 z 0 false); on. Qed.
Lemma f_trunc_only z : only [OverflowError; ValueError] (f_trunc z). Proof. on. Qed.
#[export] Hint Resolve parse_func_only parseInt_only f_of_Z_only f_trunc_only : only.
Lemma parseFloat_only u : only [ValueError; OverflowError] (parseFloat u). Proof. on. Qed.
Lemma py_int_only x : only [ValueError] (py_int x). Proof. on. Qed.
Lemma py_nth_only {A} (l : list A) i : only [IndexError] (py_nth l i). Proof. on. Qed.
Lemma a2b_qp_only s : only [ValueError] (a2b_qp s). Proof. on. Qed.
Lemma a2b_hex_only s : only [ValueError] (a2b_hex s).
Proof.
  assert (forall n s, (length s <= n)%nat -> only [ValueError] (a2b_hex s)) as K; [|eauto].
  clear s. induction n as [|n IH]; intros [|c [|d s]] H; cbn in H; try lia; try on.
  cbn [a2b_hex]. assert (only [ValueError] (a2b_hex s)) by (apply IH; lia). on.
Qed.
Lemma inet_aton_only s : only [ValueError; OSError] (inet_aton s). Proof. on. Qed.
#[export] Hint Resolve parseFloat_only py_int_only py_nth_only a2b_qp_only a2b_hex_only inet_aton_only : only.
Lemma ipv4_mask_only m : only [ValueError; OSError; StructError] (ipv4_mask m).
Proof.
  unfold ipv4_mask. pose proof (inet_aton_only m) as H. destruct (inet_aton m) as [b|e|]; [on| |on].
  specialize (H e eq_refl). cbn [In] in H. destruct H as [<-|[<-|[]]]; on.
Qed.
#[export] Hint Resolve ipv4_mask_only : only.
Lemma mac_scan_go_only l u : only [ValueError] (mac_scan_go l u).
Proof. induction l as [|[r n] l IH]; cbn [mac_scan_go]; on. Qed.
Lemma comp_item_only t : only [ValueError; AssertionError] (comp_item t). Proof. on. Qed.
Lemma vht_items_only ts : forall i, only [ValueError] (vht_items i ts).
Proof. induction ts as [|t ts IH]; intros i; cbn [vht_items]; on. Qed.
#[export] Hint Resolve mac_scan_go_only comp_item_only vht_items_only : only.
Lemma comp_parse_only p t : only [ValueError; AssertionError; StructError] (comp_parse p t).
Proof. unfold comp_parse. apply only_bind; [|intros; on]. apply mapM_only. intros a. eapply only_incl; [apply comp_item_only|sub]. Qed.
#[export] Hint Resolve comp_parse_only : only.
Notation field_errors := [AssertionError; ValueError; IndexError; TypeError; StructError; OSError; OverflowError].
Lemma run_s2b_only c a : only field_errors (run_s2b c a).
Proof. destruct c; cbn [run_s2b]; on. Qed.
#[export] Hint Resolve run_s2b_only : only.
Lemma str2bin_only n : only [KeyError] (str2bin n). Proof. on. Qed.
#[export] Hint Resolve str2bin_only : only.
Notation match_errors := [AssertionError; ValueError; KeyError; IndexError; TypeError; StructError; OSError; OverflowError].
Lemma str2oxm_go_only fuel : forall loop u, only match_errors (str2oxm_go fuel loop u).
Proof. induction fuel as [|fuel IH]; intros loop [|c u]; cbn [str2oxm_go]; on. Qed.
Lemma str2oxm_only u loop : only match_errors (str2oxm u loop).
Proof. unfold str2oxm. apply only_bind; [apply str2oxm_go_only|]. intros [msg rest] _. on. Qed.
Lemma run_s2b_bool_only c b : only [AssertionError; StructError] (run_s2b c (ABool b)).
Proof. destruct c; cbn [run_s2b]; on. Qed.
Lemma str2oxmid_go_only fuel : forall hm u, only [AssertionError; StructError] (str2oxmid_go fuel hm u).
Proof.
  pose proof run_s2b_bool_only as K. induction fuel as [|fuel IH]; intros hm [|c u]; cbn [str2oxmid_go]; on.
Qed.
Lemma str2oxmid_only u hm : only [AssertionError; StructError] (str2oxmid u hm).
Proof. apply str2oxmid_go_only. Qed.
#[export] Hint Resolve str2oxm_only str2oxmid_only : only.

(** ** actions *)
Lemma oxm_hdr_only m o : only [StructError] (oxm_hdr m o). Proof. on. Qed.
Lemma opt_int_only x : only [ValueError] (opt_int x). Proof. on. Qed.
Lemma fix_act_len_only b : only match_errors (fix_act_len b). Proof. on. Qed.
Lemma int_range_only a : only match_errors (int_range a). Proof. on. Qed.
Lemma range_end_only a : only match_errors (range_end a). Proof. on. Qed.
Lemma nxast_hdr_only s : only match_errors (nxast_hdr s). Proof. on. Qed.
#[export] Hint Resolve oxm_hdr_only opt_int_only fix_act_len_only int_range_only range_end_only nxast_hdr_only : only.
Lemma opt_range_only a : only match_errors (opt_range a). Proof. on. Qed.
Lemma opt_range_snd_only x0 r0 r1 : opt_range x0 = Ok (r0, r1) -> only match_errors r1.
Proof.
  unfold opt_range. destruct (split1 58 x0) as [x [y|]]; intros H; mon H; [mon H|]; injection H as <- <-; on.
Qed.
Lemma get_bits_only u : only match_errors (get_bits u). Proof. on. Qed.
Lemma parse_ids_only l : only match_errors (parse_ids l).
Proof. unfold parse_ids. apply mapM_only. intros a. on. Qed.
Lemma slave_port_only p : only match_errors (slave_port p). Proof. on. Qed.
#[export] Hint Resolve opt_range_only get_bits_only parse_ids_only slave_port_only : only.
Lemma slave_list_only s : only match_errors (slave_list s). Proof. on. Qed.
#[export] Hint Resolve slave_list_only : only.
Lemma flow_mod_spec_only s d m : only match_errors (flow_mod_spec s d m).
Proof.
  assert (forall (a : text) (k : option Z * res (option Z) -> res (Z * Z)),
            (forall r0 r1, only match_errors r1 -> only match_errors (k (r0, r1))) -> only match_errors (bind (opt_range a) k)) as R.
  { intros a k Hk. apply only_bind; [apply opt_range_only|]. intros [r0 r1] E. apply Hk. eapply opt_range_snd_only; eauto. }
  unfold flow_mod_spec. apply only_bind; [on|]. intros [sname sarg] _. apply only_bind; [on|]. intros soxm _. apply only_bind.
  - destruct soxm as [|b soxm]; [on|]. apply only_bind; [on|]. intros ? _. apply only_bind; [on|]. intros [[? ?] size] _.
    apply only_bind; [|intros [? ?] _; on]. destruct sarg as [[|c0 a0]|]; [on| |on]. apply R. intros r0 r1 H1. on.
  - intros [[sobj nbits] flags] _.
    match goal with |- only _ (if ?x then _ else _) => destruct x end; [on|]. destruct d as [d|]; [|on].
    apply only_bind; [on|]. intros [dname darg] _. apply only_bind; [on|]. intros doxm _. apply only_bind; [on|]. intros ? _.
    apply only_bind; [on|]. intros [[? ?] size] _. apply only_bind; [|intros [? ?] _; on].
    destruct darg as [[|c0 a0]|]; [on| |on]. apply R. intros r0 r1 H1. on.
Qed.
#[export] Hint Resolve flow_mod_spec_only : only.
Lemma learn_single_only t : only match_errors (learn_single t). Proof. on. Qed.
#[export] Hint Resolve learn_single_only : only.
Lemma learn_flush_only t : only match_errors (learn_flush t). Proof. on. Qed.
#[export] Hint Resolve learn_flush_only : only.
Lemma learn_go_only fuel : forall info specs left u, only match_errors (learn_go fuel info specs left u).
Proof.
  induction fuel as [|fuel IH]; intros info specs left [|c u]; cbn [learn_go]; try on.
Qed.
Lemma learn_str2act_only u r : only match_errors (learn_str2act u r).
Proof.
  unfold learn_str2act, nxast_str2act. apply only_bind; [|intros [? ?] _; on]. destruct r; [on|].
  apply only_bind; [apply learn_go_only|]. intros [? ?] _. on.
Qed.
#[export] Hint Resolve learn_str2act_only : only.
Lemma cnt_ids_only u r : only match_errors (cnt_ids_str2act u r). Proof. on. Qed.
Lemma reg_load_only t u r : only match_errors (reg_load_str2act t u r).
Proof. unfold reg_load_str2act, nxast_str2act. apply only_bind; [|intros [? ?] _; on]. on. Qed.
Lemma reg_move_only u r : only match_errors (reg_move_str2act u r). Proof. on. Qed.
Lemma resubmit_only t u r : only match_errors (resubmit_str2act t u r). Proof. on. Qed.
Lemma set_tunnel_only t u r : only match_errors (set_tunnel_str2act t u r). Proof. on. Qed.
Lemma null_only t u r : only match_errors (null_str2act t u r). Proof. on. Qed.
Lemma qp_only t u r : only match_errors (qp_str2act t u r). Proof. on. Qed.
Lemma multipath_only u r : only match_errors (multipath_str2act u r). Proof. on. Qed.
Lemma bundle_only u r : only match_errors (bundle_str2act u r). Proof. on. Qed.
Lemma bundle_load_only u r : only match_errors (bundle_load_str2act u r). Proof. on. Qed.
Lemma output_reg_only t u r : only match_errors (output_reg_str2act t u r). Proof. on. Qed.
Lemma output_only u r : only match_errors (output_str2act u r). Proof. on. Qed.
Lemma generic_only t u r : only match_errors (generic_str2act t u r). Proof. on. Qed.
Lemma uint_only t fs u r : only match_errors (uint_str2act t fs u r). Proof. on. Qed.
Lemma push_only t u r : only match_errors (push_str2act t u r). Proof. on. Qed.
#[export] Hint Resolve cnt_ids_only reg_load_only reg_move_only resubmit_only set_tunnel_only null_only qp_only multipath_only bundle_only
  bundle_load_only output_reg_only output_only generic_only uint_only push_only : only.
Lemma set_field_only o : only [StructError] (set_field o). Proof. on. Qed.
#[export] Hint Resolve set_field_only : only.
Lemma act_parsers_only : Forall (fun p => forall u r, only match_errors (snd p u r)) str2act_tbl.
Proof. unfold str2act_tbl, nx_str2act_tbl. repeat (constructor; [cbn [snd]; intros; auto with only|]). constructor. Qed.
Lemma str2act_only s : only match_errors (str2act s).
Proof.
  unfold str2act. destruct (get_token s) as [[h name] arg]. apply only_bind; [on|]. intros [fname farg] _.
  assert (forall n f u r, assoc_t n str2act_tbl = Some f -> only match_errors (f u r)) as K.
  { intros n f u r E. exact (assoc_t_forall (fun f => forall u r, only match_errors (f u r)) n str2act_tbl f act_parsers_only E u r). }
  set (fa := match farg with Some (_ :: _) => _ | _ => None end).
  cbv zeta.
  assert (only match_errors (match assoc_t name str2act_tbl with
    | Some f => '(b, p) <- f arg true ;; Ok (b, (length h + length name + p)%nat)
    | None =>
        if startswith $"set_" name then
          '(oxm, consumed) <-
            match fa with
            | Some a =>
                let '(_, payload, _) := get_token a in
                '(oxm, _) <- str2oxm (skipn 4 fname ++ $"=" ++ payload) false ;;
                Ok (oxm, (length h + length name)%nat)
            | None =>
                let '(op, payload, _) := get_token arg in
                '(oxm, p) <- str2oxm (skipn 4 name ++ op ++ payload) false ;;
                Ok (oxm, (length h + 4 + p)%nat)
            end ;;
          b <- set_field oxm ;; Ok (b, consumed)
        else Ok ([], length h)
    end)) as O.
  { destruct (assoc_t name str2act_tbl) as [f|] eqn:E; [apply only_bind; [eapply K; eauto|intros [? ?] _; on]|].
    destruct (startswith _ name); [|on]. apply only_bind; [|intros [? ?] _; on]. destruct fa as [a|]; on. }
  destruct fa as [a|]; [|exact O]. destruct (assoc_t fname str2act_tbl) as [f|] eqn:E; [|exact O].
  apply only_bind; [eapply K; eauto|]. intros [? ?] _. on.
Qed.
#[export] Hint Resolve str2act_only : only.

(** ** flow rules and groups *)
Lemma int_arg_only s : only [AssertionError; ValueError] (int_arg s). Proof. on. Qed.
Lemma named_num_only l p : only [AssertionError; ValueError] (named_num l p). Proof. on. Qed.
#[export] Hint Resolve int_arg_only named_num_only : only.
Lemma named_arg_only l s : only [AssertionError; ValueError] (named_arg l s). Proof. on. Qed.
#[export] Hint Resolve named_arg_only : only.
Lemma flush_acts_only f a i : only match_errors (flush_acts f a i). Proof. on. Qed.
Lemma inst_token_only i a n s : only match_errors (inst_token i a n s).
Proof.
  unfold inst_token. destruct (get_token s) as [[op pl] rest]. repeat (match goal with |- only _ (if ?b then _ else _) => destruct b end); on.
Qed.
Lemma match_token_only i n s : only match_errors (match_token i n s). Proof. on. Qed.
#[export] Hint Resolve flush_acts_only inst_token_only match_token_only : only.
Lemma dict_step_only st s : only match_errors (dict_step st s). Proof. on. Qed.
#[export] Hint Resolve dict_step_only : only.
Lemma dict_go_only fuel : forall st s, only match_errors (dict_go fuel st s).
Proof. induction fuel as [|fuel IH]; intros st [|c s]; cbn [dict_go]; on. Qed.
#[export] Hint Resolve dict_go_only : only.
Lemma str2dict_only s : only match_errors (str2dict s).
Proof. unfold str2dict. apply only_bind; [on|]. intros [i f a p] _. on. Qed.
#[export] Hint Resolve str2dict_only : only.
Lemma str2mod_only s c x : only match_errors (str2mod s c x). Proof. on. Qed.
Lemma bucket_go_only fuel : forall i a u, only match_errors (bucket_go fuel i a u).
Proof. induction fuel as [|fuel IH]; intros i a [|c u]; cbn [bucket_go]; on. Qed.
#[export] Hint Resolve bucket_go_only : only.
Lemma str2bucket_only s t : only match_errors (str2bucket s t).
Proof. unfold str2bucket. apply only_bind; [on|]. intros [[i a] r] _. on. Qed.
#[export] Hint Resolve str2bucket_only : only.
Lemma group_head_go_only fuel : forall g t u, only match_errors (group_head_go fuel g t u).
Proof.
  induction fuel as [|fuel IH]; intros g t [|c u]; cbn [group_head_go]; try on.
Qed.
Lemma group_buckets_go_only fuel : forall t u, only match_errors (group_buckets_go fuel t u).
Proof. induction fuel as [|fuel IH]; intros t [|c u]; cbn [group_buckets_go]; on. Qed.
#[export] Hint Resolve group_head_go_only group_buckets_go_only : only.
Lemma str2group_only s c x : only match_errors (str2group s c x).
Proof. unfold str2group. apply only_bind; [on|]. intros [[g t] u] _. apply only_bind; [on|]. intros [b r] _. on. Qed.

(** ** multipart *)
Notation mp_errors := [AssertionError; ValueError; KeyError; IndexError; TypeError; StructError; NameError; OSError; OverflowError].
Notation count_errors := [AssertionError; ValueError; StructError; NameError].
Lemma counters_go_only fuel : forall ns acc s, only [AssertionError; ValueError] (counters_go fuel ns acc s).
Proof. induction fuel as [|fuel IH]; intros ns acc [|c s]; cbn [counters_go]; on. Qed.
#[export] Hint Resolve counters_go_only : only.
Lemma mpflow_parse_only s : only match_errors (mpflow_parse s).
Proof. unfold mpflow_parse. apply only_bind; [on|]. intros [c r] _. on. Qed.
#[export] Hint Resolve mpflow_parse_only : only.
Lemma mp_capture_only l bs : In NameError l -> Forall (only l) bs -> forall c, only l (mp_capture c bs).
Proof. intros N. induction 1 as [|b bs Hb Hbs IH]; intros c; cbn [mp_capture]; [on|]. apply only_bind; [exact Hb|]. intros body _. destruct (_ <? _); [now apply only_raise|apply IH]. Qed.
Lemma mp_message_only l t x m bs : In NameError l -> In StructError l -> Forall (only l) bs -> only l (mp_message t x m bs).
Proof.
  intros N S H. unfold mp_message. apply only_bind; [now apply mp_capture_only|]. intros c _. apply only_bind; [|intros; on].
  unfold mp_hdr. eapply only_incl; [apply pack_only|]. intros e [<-|[]]. exact S.
Qed.
Lemma map_only l {A B} (f : A -> res B) xs : (forall a, only l (f a)) -> Forall (only l) (map f xs).
Proof. intros H. induction xs; cbn [map]; constructor; auto. Qed.
Lemma text2mpflow_only s t x : only mp_errors (text2mpflow s t x).
Proof.
  unfold text2mpflow. apply only_bind; [apply mapM_only; intros a; on|]. intros rules _. apply mp_message_only; [inex|inex|]. apply map_only. intros a. on.
Qed.
Lemma gdesc_head_go_only fuel : forall g t u, only match_errors (gdesc_head_go fuel g t u).
Proof.
  induction fuel as [|fuel IH]; intros g t [|c u]; cbn [gdesc_head_go]; try on.
Qed.
Lemma gdesc_buckets_go_only fuel : forall t u, only match_errors (gdesc_buckets_go fuel t u).
Proof. induction fuel as [|fuel IH]; intros t [|c u]; cbn [gdesc_buckets_go]; on. Qed.
#[export] Hint Resolve gdesc_head_go_only gdesc_buckets_go_only : only.
Lemma gdesc_body_only s : only mp_errors (gdesc_body s).
Proof. unfold gdesc_body. apply only_bind; [on|]. intros [[g t] u] _. apply only_bind; [on|]. intros bs _. on. Qed.
Lemma text2mpgroupdesc_only s t x : only mp_errors (text2mpgroupdesc s t x).
Proof. unfold text2mpgroupdesc. destruct (negb _); [on|]. apply mp_message_only; [inex|inex|]. apply map_only, gdesc_body_only. Qed.
Lemma mpg_head_go_only fuel : forall g u, only [AssertionError; ValueError] (mpg_head_go fuel g u).
Proof. induction fuel as [|fuel IH]; intros g [|c u]; cbn [mpg_head_go]; on. Qed.
Lemma mpg_stats_go_only fuel : forall g bs u, only [AssertionError; ValueError] (mpg_stats_go fuel g bs u).
Proof. induction fuel as [|fuel IH]; intros g bs [|c u]; cbn [mpg_stats_go]; on. Qed.
#[export] Hint Resolve mpg_head_go_only mpg_stats_go_only : only.
Lemma mpg_body_only s : only count_errors (mpg_body s).
Proof.
  unfold mpg_body. apply only_bind; [on|]. intros [g u] _. apply only_bind; [on|]. intros [c bs] _.
  apply only_bind; [apply mapM_only; intros; on|]. intros ? _. on.
Qed.
Lemma text2mpgroup_only s t x : only count_errors (text2mpgroup s t x).
Proof.
  unfold text2mpgroup. destruct (negb _).
  - apply only_bind; [on|]. intros [g u] _. on.
  - apply mp_message_only; [inex|inex|]. apply map_only, mpg_body_only.
Qed.
