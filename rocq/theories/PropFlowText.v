(** Properties C63 and C64: what a flow rule and a group text may look like and what they mean,
    without exception (ofp4.py). *)
From Coq Require Import Strings.Ascii.
From Verif Require Import Base PyNum Util PyLib OxmCodec OxmTables Oxm Nx Ofp4 Spec SpecOxm SpecText SpecOfp SpecActText SpecFlowText.
From Verif Require Import BaseFacts UtilFacts OxmFacts OxmRead OxmPrint OxmGram FlowRead FlowMod GroupRead OfpTerm GramTok GramField GramAct GramStr GramFlow GramGroup.

(** ** C63 *)
(** every accepted rule is in the grammar of SpecFlowText, and the message is what it means there *)
Theorem C63_grammar : forall s cmd xid m, str2mod s cmd xid = Ok m -> rule_message notation s cmd xid m.
Proof. exact message_sound. Qed.
(** every rule of the grammar is read, as the grammar says *)
Theorem C63_complete : forall s cmd xid m, rule_message notation s cmd xid m -> str2mod s cmd xid = Ok m.
Proof. exact message_read. Qed.
(** so the accepted rules are exactly those of the grammar *)
Theorem C63_exactly : forall s cmd xid m, str2mod s cmd xid = Ok m <-> rule_message notation s cmd xid m.
Proof. intros s cmd xid m. split; [apply message_sound|apply message_read]. Qed.
(** everything else raises an exception *)
Theorem C63_refused : forall s cmd xid, (forall m, ~ rule_message notation s cmd xid m) -> exists e, str2mod s cmd xid = Raise e.
Proof.
  intros s cmd xid Hs. destruct (str2mod s cmd xid) as [m|e|] eqn:E; [|eauto|].
  - apply message_sound in E. now destruct (Hs m).
  - now apply str2mod_total in E.
Qed.
(** the grammar is unambiguous *)
Theorem C63_unambiguous : forall s cmd xid m m', rule_message notation s cmd xid m -> rule_message notation s cmd xid m' -> m = m'.
Proof. intros s cmd xid m m' H H'. apply message_read in H, H'. congruence. Qed.
(** what a user would write is part of it *)
Theorem C63_covers : forall es is s cmd xid, writes_flow es is s -> flow_ok cmd xid (fixed_of (defaults cmd) es) (matches_of es) is ->
  rule_message notation s cmd xid (flow_wire cmd xid (fixed_of (defaults cmd) es) (matches_of es) is).
Proof. intros es is s cmd xid Hw Ho. apply message_sound. now apply flow_encodes. Qed.

Lemma plain_word s h nm u : get_token s = (h, nm, u) -> has_char 61 h = false -> word s nm u.
Proof. apply get_word. Qed.
Ltac w := eapply plain_word; [vm_compute; reflexivity|reflexivity].
Ltac v := eapply get_valued; [vm_compute; reflexivity|reflexivity].
Ltac n := apply next_iff; vm_compute; reflexivity.
(** a derivation, step by step *)
Example C63_case : rule_reads notation AtEntry $"priority=5 in_port=7,@apply,dec_nw_ttl @goto=3"
  [RSet (SPriority 5); RMatch (Tlv (Field $"in_port" Basic 0 (KPort 4)) (be 4 7) None); RActs 4; RAct (act_wire (Noarg DecNwTtl)); RInstr (Goto 3)].
Proof.
  eapply rr_set; [w|eapply st_priority; [v|apply literal_iff; reflexivity]|].
  eapply (rr_match notation _ $"in_port" _ [_]); [w| | | |].
  - cbn. intuition discriminate.
  - apply (of_item notation _ [] [] [] $"7" (be 4 7) None $",@apply,dec_nw_ttl @goto=3"); [right; left; reflexivity|constructor|now left|constructor| | |reflexivity].
    + split; [cbn; unfold blank; lia|]. left. split; [|cbn; unfold sep_char; auto]. apply plain_token. constructor; [|constructor]. unfold plain, sep_char, eq_char, opener; cbn; intuition (try discriminate; try lia).
    + apply n_port; [apply literal_iff; reflexivity|]. unfold in_bytes; cbn; lia.
  - discriminate.
  - eapply rr_acts; [w|apply an_apply; now left|].
    eapply (rr_act notation _ $"dec_nw_ttl"); [w|now apply at_no| | |].
    + eapply ar_eq; [n|apply (s_noarg notation DecNwTtl)|vm_compute; discriminate].
    + discriminate.
    + eapply rr_instr; [w| |apply rr_end].
      eapply is_goto; [now left|v|apply literal_iff; reflexivity|unfold in_bytes; cbn; lia].
Qed.
(** the message of these parts *)
Example C63_case_message : str2mod $"priority=5 in_port=7,@apply,dec_nw_ttl @goto=3" 0 9
  = Ok (mod_head 0 9 88 (fold_left apply_set [SPriority 5] (defaults 0)) ++ match_wire [Tlv (Field $"in_port" Basic 0 (KPort 4)) (be 4 7) None]
        ++ std_act 4 (pad 4 ++ act_wire (Noarg DecNwTtl)) ++ instr_wire (Goto 3)).
Proof. vm_compute. reflexivity. Qed.
Example C63_case2 : map (fun s => str2mod s 0 9) [$"priority 5"; $"@goto=3,in_port=7"; $"@apply drop"; $"in_port=7junk"; $"table=256"]
  = [Raise AssertionError; Raise ValueError; Raise ValueError; Raise AssertionError; Raise StructError].
Proof. vm_compute. reflexivity. Qed.
(** ** What the grammar takes although nobody would write it *)
(** text behind a cookie mask is ignored; a "=" that belongs to nothing may stand between commas before an action *)
Theorem C63_junk_refuted : forall cmd xid, str2mod $"cookie=1/2junk" cmd xid = str2mod $"cookie=1/2" cmd xid
  /\ str2mod $"@apply,=,output=1" cmd xid = str2mod $"@apply output=1" cmd xid.
Proof. intros cmd xid. split; reflexivity. Qed.
(** metadata without a mask is written under the mask 0, which leaves all of it as it was *)
Theorem C63_metadata_refuted : forall nm u p r i, spells NMetadata nm -> valued u p r -> ~ In (chr "/") p -> instructs nm u i r ->
  exists v, literal p v /\ i = WriteMetadata v 0.
Proof.
  intros nm u p r i Hn V Hp H. destruct (valued_get _ _ _ V) as (h & Et & _). destruct H as [nm u p' r n S| nm u p' r v S V' L|nm u x y r v m S V' _ _ _ _|nm u S|u p' r n V'].
  all: try (exfalso; destruct Hn as [->| ->], S as [K|K]; discriminate K).
  1, 2: destruct (valued_get _ _ _ V') as (h' & Et' & _).
  - assert (p' = p) as -> by congruence. eauto.
  - exfalso. apply Hp. assert (p = x ++ $"/" ++ y) as -> by congruence. apply in_or_app. right. now left.
  - exfalso. destruct Hn as [K|K]; discriminate K.
Qed.

(** ** C64 *)
(** every accepted group text is in the grammar of SpecFlowText, and the message is what it means there *)
Theorem C64_grammar : forall s cmd xid m, str2group s cmd xid = Ok m -> group_message notation s cmd xid m.
Proof. exact gmessage_sound. Qed.
(** every text of the grammar is read, as the grammar says *)
Theorem C64_complete : forall s cmd xid m, group_message notation s cmd xid m -> str2group s cmd xid = Ok m.
Proof. exact gmessage_read. Qed.
(** so the accepted texts are exactly those of the grammar *)
Theorem C64_exactly : forall s cmd xid m, str2group s cmd xid = Ok m <-> group_message notation s cmd xid m.
Proof. intros s cmd xid m. split; [apply gmessage_sound|apply gmessage_read]. Qed.
(** everything else raises an exception *)
Theorem C64_refused : forall s cmd xid, (forall m, ~ group_message notation s cmd xid m) -> exists e, str2group s cmd xid = Raise e.
Proof.
  intros s cmd xid Hs. destruct (str2group s cmd xid) as [m|e|] eqn:E; [|eauto|].
  - apply gmessage_sound in E. now destruct (Hs m).
  - now apply str2group_total in E.
Qed.
(** the grammar is unambiguous *)
Theorem C64_unambiguous : forall s cmd xid m m', group_message notation s cmd xid m -> group_message notation s cmd xid m' -> m = m'.
Proof. intros s cmd xid m m' H H'. apply gmessage_read in H, H'. congruence. Qed.
(** what a user would write is part of it *)
Theorem C64_covers : forall hs ls s cmd xid, writes_group hs ls s ->
  let id := fst (fold_left apply_ghead hs (0xffffffff, GAll)) in let t := snd (fold_left apply_ghead hs (0xffffffff, GAll)) in
  Forall (Forall bitem_ok) ls -> group_ok cmd xid t id (map (bucket_of t) ls) ->
  group_message notation s cmd xid (group_wire cmd xid t id (map (bucket_of t) ls)).
Proof. intros hs ls s cmd xid Hw id t Hl Ho. apply gmessage_sound. now apply group_encodes. Qed.
(** a derivation, step by step *)
Example C64_case_head : heads $"group=5,select @bucket weight=3,dec_nw_ttl @bucket dec_nw_ttl" [HGroup 5; HType GSelect] $" @bucket weight=3,dec_nw_ttl @bucket dec_nw_ttl".
Proof.
  eapply hd_group; [n|n|apply gi_lit, literal_iff; reflexivity|].
  eapply (hd_type _ _ GSelect); [n|]. eapply hd_end; [n|discriminate|intros []; discriminate].
Qed.
Example C64_case : buckets_text notation $" @bucket weight=3,dec_nw_ttl @bucket dec_nw_ttl"
  [[BPSet (BWeight 3); BPAct (act_wire (Noarg DecNwTtl))]; [BPAct (act_wire (Noarg DecNwTtl))]].
Proof.
  eapply bts_word; [w|]. eapply bts_bucket; [|discriminate|].
  - eapply bt_set; [w|eapply bs_weight; [v|apply literal_iff; reflexivity]|].
    eapply bt_act; [w|now apply at_no|cbn; intuition discriminate| | |].
    + eapply ar_eq; [n|apply (s_noarg notation DecNwTtl)|vm_compute; discriminate].
    + discriminate.
    + eapply bt_at; [w|now exists $"bucket"].
  - eapply bts_word; [w|]. eapply bts_bucket; [|discriminate|apply bts_end].
    eapply bt_act; [w|now apply at_no|cbn; intuition discriminate| | |].
    + eapply ar_eq; [n|apply (s_noarg notation DecNwTtl)|vm_compute; discriminate].
    + discriminate.
    + apply bt_end.
Qed.
Example C64_case_message : str2group $"group=5,select @bucket weight=3,dec_nw_ttl @bucket dec_nw_ttl" 0 9
  = Ok (be 1 4 ++ be 1 15 ++ be 2 64 ++ be 4 9 ++ be 2 0 ++ be 1 1 ++ pad 1 ++ be 4 5
        ++ flat_map (bucket_part GSelect) [[BPSet (BWeight 3); BPAct (act_wire (Noarg DecNwTtl))]; [BPAct (act_wire (Noarg DecNwTtl))]]).
Proof. vm_compute. reflexivity. Qed.
Example C64_case2 : map (fun s => str2group s 0 9) [$"group=five"; $"group=5 any"; $"group=5 @buckets output=1"; $"group=5 @bucket weight=65536"]
  = [Raise ValueError; Raise AssertionError; Raise AssertionError; Raise StructError].
Proof. vm_compute. reflexivity. Qed.
(** ** What the grammar takes although nobody would write it *)
(** separators alone make a bucket, the word "@bucket" alone does not *)
Theorem C64_stray_refuted : forall h, Forall filler h -> h <> [] -> buckets_text notation h [[BPAct []]].
Proof.
  intros h Hh Hn. assert (W : next h h [] []).
  { rewrite <- (app_nil_r h) at 1. apply next_none; [now apply filler_lead|now left]. }
  eapply bts_bucket; [|discriminate|apply bts_end].
  apply (bt_act notation h [] [] [] []); [|now apply at_no|cbn; intuition discriminate| |exact (fun E => Hn (eq_sym E))|apply bt_end].
  - eapply plain_word; [apply next_iff; exact W|]. now apply filler_no_eq.
  - apply (ar_none notation h h [] [] [] None); [exact W|apply func_plain; constructor|intros x [K _]; discriminate K|now apply act_name_iff|intros (x & K); discriminate K].
Qed.
Theorem C64_bucket_word_refuted : forall s u, word s $"@bucket" u -> forall ls, buckets_text notation u ls -> buckets_text notation s ls.
Proof. intros s u W ls H. eapply bts_word; eauto. Qed.
Example C64_refuted_case :
  str2group $"group=5,all," 0 9 = Ok (be 1 4 ++ be 1 15 ++ be 2 32 ++ be 4 9 ++ be 2 0 ++ be 1 0 ++ pad 1 ++ be 4 5 ++ bucket_part GAll [])
  /\ str2group $"group=5,all,@bucket" 0 9 = Ok (be 1 4 ++ be 1 15 ++ be 2 16 ++ be 4 9 ++ be 2 0 ++ be 1 0 ++ pad 1 ++ be 4 5)
  /\ str2group $"group 5" 0 9 = str2group $"group=5" 0 9.
Proof. vm_compute. auto. Qed.
Print Assumptions C63_grammar.
Print Assumptions C63_complete.
Print Assumptions C63_exactly.
Print Assumptions C63_refused.
Print Assumptions C63_unambiguous.
Print Assumptions C63_covers.
Print Assumptions C63_metadata_refuted.
Print Assumptions C64_grammar.
Print Assumptions C64_complete.
Print Assumptions C64_exactly.
Print Assumptions C64_refused.
Print Assumptions C64_unambiguous.
Print Assumptions C64_covers.
Print Assumptions C64_stray_refuted.
