(** Which exceptions a printer can raise. *)
From Verif Require Import Base PyNum Util PyLib OxmCodec OxmTables Oxm Nx Ofp4 BaseFacts UtilFacts OfpTerm Refuse.

Lemma fmt_run_only l : forall args, only [IndexError] (fmt_run l args).
Proof. induction l as [|[c|h] l IH]; intros args; cbn [fmt_run]; on. Qed.
Lemma strip0_rev_only l : only [IndexError] (strip0_rev l).
Proof. induction l as [|b l IH]; cbn [strip0_rev]; on. Qed.
#[export] Hint Resolve fmt_run_only strip0_rev_only : only.
Lemma comp_items_only ns : forall fmts, only [IndexError] (comp_items ns fmts).
Proof. induction ns as [|n ns IH]; intros [|f fmts]; cbn [comp_items]; on. Qed.
#[export] Hint Resolve comp_items_only : only.
Notation oxm_errors := [AssertionError; ValueError; KeyError; IndexError; StructError; OSError].
Lemma run_b2s_only c p hm : only oxm_errors (run_b2s c p hm).
Proof. destruct c; cbn [run_b2s]; on. Qed.
Lemma oxm_dispatch_only m k f : only oxm_errors (oxm_dispatch m k f).
Proof. on. Qed.
#[export] Hint Resolve run_b2s_only oxm_dispatch_only : only.
Lemma oxm2str_one_only msg : only oxm_errors (oxm2str_one msg).
Proof. on. Qed.
#[export] Hint Resolve oxm2str_one_only : only.
Lemma oxm2str_go_only fuel : forall loop msg, only oxm_errors (oxm2str_go fuel loop msg).
Proof. induction fuel as [|fuel IH]; intros loop msg; cbn [oxm2str_go]; on. Qed.
#[export] Hint Resolve oxm2str_go_only : only.
Lemma oxm2str_only msg loop : only oxm_errors (oxm2str msg loop).
Proof. on. Qed.
Lemma oxmid2str_go_only fuel : forall loop msg, only [KeyError; StructError] (oxmid2str_go fuel loop msg).
Proof. induction fuel as [|fuel IH]; intros loop msg; cbn [oxmid2str_go]; on. Qed.
#[export] Hint Resolve oxm2str_only oxmid2str_go_only : only.
Lemma oxmid2str_only msg loop : only [KeyError; StructError] (oxmid2str msg loop).
Proof. on. Qed.
#[export] Hint Resolve oxmid2str_only : only.

(** ** actions *)
Notation act_errors := [AssertionError; ValueError; KeyError; IndexError; TypeError; StructError; NameError; OSError].
Lemma learn_obj_only p n : only act_errors (learn_obj p n). Proof. on. Qed.
#[export] Hint Resolve learn_obj_only : only.
Lemma learn_specs_only fuel : forall spec p, only act_errors (learn_specs fuel spec p).
Proof. induction fuel as [|fuel IH]; intros spec p; cbn [learn_specs]; on. Qed.
#[export] Hint Resolve learn_specs_only : only.
Lemma nx_printers_only : Forall (fun p => forall b, only act_errors (snd p b)) nx_act2str_tbl.
Proof. unfold nx_act2str_tbl. repeat (apply Forall_cons; [cbn [snd]; intros; try on|]); try apply Forall_nil. Qed.
Lemma std_printers_only : Forall (fun p => forall b, only act_errors (snd p b)) std_act2str_tbl.
Proof. unfold std_act2str_tbl. repeat (apply Forall_cons; [cbn [snd]; intros; try on|]); try apply Forall_nil. Qed.
Lemma act2str_get_only nx t f b : act2str_get nx t = Some f -> only act_errors (f b).
Proof.
  unfold act2str_get. destruct nx; intros E.
  - exact (assoc_z_forall (fun f => forall b, only act_errors (f b)) t _ f nx_printers_only E b).
  - exact (assoc_z_forall (fun f => forall b, only act_errors (f b)) t _ f std_printers_only E b).
Qed.
Lemma act2str_one_only msg : only act_errors (act2str_one msg).
Proof.
  unfold act2str_one. apply only_bind; [on|]. intros vs _. destruct vs as [|atype [|l [|]]]; try on.
  apply only_bind; [on|]. intros [[nx t] off] _. apply only_bind; [|intros; on]. destruct (t =? 25); [on|].
  destruct (act2str_get nx t) as [f|] eqn:E; [|on]. eapply act2str_get_only; eauto.
Qed.
#[export] Hint Resolve act2str_one_only : only.
Lemma act2str_go_only fuel : forall loop msg, only act_errors (act2str_go fuel loop msg).
Proof. induction fuel as [|fuel IH]; intros loop msg; cbn [act2str_go]; on. Qed.
#[export] Hint Resolve act2str_go_only : only.
Lemma act2str_only msg loop : only act_errors (act2str msg loop). Proof. on. Qed.
#[export] Hint Resolve act2str_only : only.
Lemma inst2str_one_only msg : only act_errors (inst2str_one msg). Proof. on. Qed.
#[export] Hint Resolve inst2str_one_only : only.
Lemma inst2str_go_only fuel : forall loop msg, only act_errors (inst2str_go fuel loop msg).
Proof. induction fuel as [|fuel IH]; intros loop msg; cbn [inst2str_go]; on. Qed.
#[export] Hint Resolve inst2str_go_only : only.
Lemma inst2str_only msg loop : only act_errors (inst2str msg loop). Proof. on. Qed.
#[export] Hint Resolve inst2str_only : only.

(** ** messages *)
Lemma mod2str_only msg : only act_errors (mod2str msg).
Proof.
  unfold mod2str. apply only_bind; [on|]. intros vs _. do 17 (destruct vs as [|? vs]; [on|]). destruct vs; [|on].
  cbv zeta. destruct (_ =? OFPMT_OXM); [|on]. apply only_bind; [on|]. intros ? _. apply only_bind; [on|]. intros ? _. apply only_ok.
Qed.
Lemma bucket2str_only msg g : only act_errors (bucket2str msg g).
Proof.
  unfold bucket2str. apply only_bind; [on|]. intros vs _. do 4 (destruct vs as [|? vs]; [on|]). destruct vs; [|on].
  apply only_bind; [on|]. intros ? _. apply only_ok.
Qed.
#[export] Hint Resolve bucket2str_only : only.
Lemma buckets2str_go_only min fuel : forall g bin, only act_errors (buckets2str_go min fuel g bin).
Proof. induction fuel as [|fuel IH]; intros g bin; cbn [buckets2str_go]; on. Qed.
#[export] Hint Resolve buckets2str_go_only : only.
Lemma group2str_only msg : only act_errors (group2str msg).
Proof.
  unfold group2str. apply only_bind; [on|]. intros vs _. do 7 (destruct vs as [|? vs]; [on|]). destruct vs; [|on].
  apply only_bind; [on|]. intros ? _. apply only_bind; [on|]. intros ? _. apply only_ok.
Qed.
Lemma mp_rows_only l one fuel : In StructError l -> (forall m, only l (one m)) -> forall m, only l (mp_rows_go one fuel m).
Proof.
  intros S H. induction fuel as [|fuel IH]; intros [|c m]; cbn [mp_rows_go]; try on. apply only_bind; [|intros; apply only_bind; [apply H|]; intros; apply only_bind; [apply IH|intros; apply only_ok]].
  eapply only_incl; [apply unpack_from_only|]. intros e [<-|[]]. exact S.
Qed.
Lemma mp_text_only l one m : In StructError l -> (forall m, only l (one m)) -> only l (mp_text one m).
Proof. intros S H. unfold mp_text. apply only_bind; [now apply mp_rows_only|]. intros; apply only_ok. Qed.
Lemma mpflow_rules_go_only fuel : forall b, only act_errors (mpflow_rules_go fuel b).
Proof.
  induction fuel as [|fuel IH]; intros b; cbn [mpflow_rules_go]; destruct (_ <? _)%nat; try on.
Qed.
#[export] Hint Resolve mpflow_rules_go_only : only.
Lemma mpflow2text_only m : only act_errors (mpflow2text m).
Proof. apply mp_text_only; [inex|]. intros b. on. Qed.
Lemma gdesc_rows_go_only fuel : forall b, only act_errors (gdesc_rows_go fuel b).
Proof. induction fuel as [|fuel IH]; intros b; cbn [gdesc_rows_go]; on. Qed.
#[export] Hint Resolve gdesc_rows_go_only : only.
Lemma mpgroupdesc2text_only m : only act_errors (mpgroupdesc2text m).
Proof. apply mp_text_only; [inex|]. intros b. on. Qed.
Lemma mpg_buckets_go_only fuel : forall b, only [AssertionError; StructError] (mpg_buckets_go fuel b).
Proof. induction fuel as [|fuel IH]; intros b; cbn [mpg_buckets_go]; on. Qed.
#[export] Hint Resolve mpg_buckets_go_only : only.
Lemma mpg_rows_go_only fuel : forall b, only [AssertionError; StructError] (mpg_rows_go fuel b).
Proof.
  induction fuel as [|fuel IH]; intros b; cbn [mpg_rows_go]; destruct (_ <? _)%nat; try on.
Qed.
#[export] Hint Resolve mpg_rows_go_only : only.
Lemma mpgroup2text_only m : only [AssertionError; StructError] (mpgroup2text m).
Proof. apply mp_text_only; [inex|]. intros b. on. Qed.
