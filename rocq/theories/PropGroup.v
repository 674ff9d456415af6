(** C38-C40, C45: group messages, and the keyword arguments of both kinds of message. *)
From Coq Require Import Strings.Ascii.
From Verif Require Import Base PyNum Util PyLib OxmCodec OxmTables Oxm Nx Ofp4 Spec SpecOxm SpecOfp.
From Verif Require Import BaseFacts UtilFacts NumFacts OxmRead OxmPrint OxmFacts OxmFrame OxmMore TermFacts OfpTerm.
From Verif Require Import ActBase ActRead ActReadNx ActReadReg ActReadLearn ActPrint ActText ActFrame FlowRead FlowMod FlowText FlowFrame GroupRead GroupText GroupFrame GroupExtra.

(** ** C38 *)
(** any spelling: heads in any order, any separators *)
Theorem C38_encodes : forall hs ls s cmd xid id t, writes_group hs ls s -> fold_left apply_ghead hs (0xffffffff, GAll) = (id, t) ->
  Forall (Forall bitem_ok) ls -> group_ok cmd xid t id (map (bucket_of t) ls) ->
  str2group s cmd xid = Ok (group_wire cmd xid t id (map (bucket_of t) ls)).
Proof. intros hs ls s cmd xid id t Hw E Hi Hg. pose proof (group_encodes hs ls s cmd xid Hw) as K. rewrite E in K. cbn [fst snd] in K. auto. Qed.
Theorem C38_canonical : forall cmd xid t id bs, good_group cmd xid t id bs -> str2group (group_text t id bs) cmd xid = Ok (group_wire cmd xid t id bs).
Proof. exact group_text_encodes. Qed.
Theorem C38_prints : forall cmd xid t id bs, good_group cmd xid t id bs -> acts_last bs -> group2str (group_wire cmd xid t id bs) = Ok (group_text t id bs).
Proof. exact good_group_prints. Qed.
Theorem C38_binary : forall cmd xid t id bs, good_group cmd xid t id bs -> acts_last bs ->
  (s <- group2str (group_wire cmd xid t id bs) ;; str2group s cmd xid) = Ok (group_wire cmd xid t id bs).
Proof. intros cmd xid t id bs Hg Hl. rewrite good_group_prints by auto. now apply group_text_encodes. Qed.
Theorem C38_text : forall cmd xid t id bs, good_group cmd xid t id bs -> acts_last bs ->
  (m <- str2group (group_text t id bs) cmd xid ;; group2str m) = Ok (group_text t id bs).
Proof. intros cmd xid t id bs Hg Hl. rewrite group_text_encodes by auto. now apply good_group_prints. Qed.
Example C38_case : let bs := [Bucket 2 0xffffffff 0xffffffff [Output 1 0xffff]; Bucket 1 7 0xffffffff [Noarg PopVlan; Output 2 0xffff]] in
  group_text GSelect 5 bs = $"group=5,select,@bucket,weight=2,output=1,@bucket,watch_port=7,pop_vlan,output=2"
  /\ str2group (group_text GSelect 5 bs) 0 9 = Ok (group_wire 0 9 GSelect 5 bs)
  /\ group2str (group_wire 0 9 GSelect 5 bs) = Ok (group_text GSelect 5 bs)
  /\ length (group_wire 0 9 GSelect 5 bs) = 88%nat
  /\ str2group $" select group = 5, @bucket weight=2 , output(1),, @bucket watch_port = 0x7 pop_vlan,output=2" 0 9 = Ok (group_wire 0 9 GSelect 5 bs).
Proof. vm_compute. auto. Qed.
(** buckets that say nothing are lost: the last one ... *)
Example C38_last_refuted : let bs := [Bucket 0 0xffffffff 0xffffffff [Output 1 0xffff]; Bucket 0 3 0xffffffff []] in
  (s <- group2str (group_wire 0 9 GFF 5 bs) ;; str2group s 0 9) = Ok (group_wire 0 9 GFF 5 [Bucket 0 0xffffffff 0xffffffff [Output 1 0xffff]]).
Proof. vm_compute. auto. Qed.
(** ... and one in the middle, even though its "@bucket" is printed *)
Example C38_middle_refuted : let bs := [Bucket 0 0xffffffff 0xffffffff []; Bucket 0 0xffffffff 0xffffffff [Output 1 0xffff]] in
  group2str (group_wire 0 9 GAll 5 bs) = Ok $"group=5,all,@bucket,,@bucket,output=1"
  /\ str2group $"group=5,all,@bucket,,@bucket,output=1" 0 9 = Ok (group_wire 0 9 GAll 5 [Bucket 0 0xffffffff 0xffffffff [Output 1 0xffff]]).
Proof. vm_compute. auto. Qed.
(** a separator after the group's type is a bucket *)
Example C38_separator_refuted : str2group $"group=5,all" 0 9 = Ok (group_wire 0 9 GAll 5 [])
  /\ str2group $"group=5,all," 0 9 = Ok (group_wire 0 9 GAll 5 [Bucket 0 0xffffffff 0xffffffff []]).
Proof. vm_compute. auto. Qed.

(** ** C39 *)
Theorem C39_framed : forall s cmd xid m, str2group s cmd xid = Ok m -> Z.of_nat (length m) <= 65535 /\
  exists t id bs, m = be 1 4 ++ be 1 15 ++ be 2 (Z.of_nat (length m)) ++ be 4 xid ++ be 2 cmd ++ be 1 (gtype_id t) ++ pad 1 ++ be 4 id ++ concat bs
  /\ Forall bucket_framed bs /\ in_bytes 4 xid /\ in_bytes 2 cmd /\ in_bytes 4 id.
Proof. exact group_framed. Qed.
Example C39_case : str2group $"group=all,ff,@bucket,watch_group=3,output=1" 2 0x01020304 = Ok (map z2b
  ([4; 15; 0; 48; 1; 2; 3; 4; 0; 2; 3; 0; 255; 255; 255; 252] ++ [0; 32; 0; 0; 255; 255; 255; 255; 0; 0; 0; 3; 0; 0; 0; 0]
   ++ [0; 0; 0; 16; 0; 0; 0; 1; 255; 255; 0; 0; 0; 0; 0; 0])).
Proof. vm_compute. auto. Qed.

(** ** C40 *)
(** exactly what is printed: [shown] drops a last bucket without actions *)
Theorem C40_shown : forall cmd xid t id bs, group_ok cmd xid t id bs -> Forall (bucket_printable t) bs ->
  group2str (group_wire cmd xid t id bs) = Ok (commas (group_id_texts id ++ [gtype_name t] ++ shown_texts t (shown bs))).
Proof. exact group_prints. Qed.
Theorem C40_every_bucket : forall cmd xid t id bs, group_ok cmd xid t id bs -> Forall (bucket_printable t) bs -> acts_last bs ->
  group2str (group_wire cmd xid t id bs) = Ok (commas (group_id_texts id ++ [gtype_name t] ++ shown_texts t bs)).
Proof. intros cmd xid t id bs Ho Hp Hl. rewrite group_prints by auto. now rewrite shown_all. Qed.
(** two different groups with the same text *)
Theorem C40_refuted : forall cmd xid t id bs b, group_ok cmd xid t id (bs ++ [b]) -> Forall (bucket_printable t) (bs ++ [b]) -> acts_last bs -> bk_acts b = [] ->
  group2str (group_wire cmd xid t id (bs ++ [b])) = group2str (group_wire cmd xid t id bs)
  /\ group_wire cmd xid t id (bs ++ [b]) <> group_wire cmd xid t id bs.
Proof.
  intros cmd xid t id bs b Ho Hp Hl Hb. assert (L : length (buckets_wire (bs ++ [b])) = (length (buckets_wire bs) + length (bucket_wire b))%nat).
  { unfold buckets_wire. rewrite flat_map_app, app_length. cbn [flat_map]. now rewrite app_nil_r. }
  split.
  - rewrite group_prints by auto. rewrite shown_drops by auto. apply Forall_app in Hp as [Hp _]. rewrite group_prints; auto.
    + now rewrite shown_all.
    + destruct Ho as (H1 & H2 & H3 & H4 & H5). rewrite group_length in H5. apply Forall_app in H4 as [H4 _].
      unfold group_ok. rewrite group_length. repeat match goal with |- _ /\ _ => split end; auto. lia.
  - intros E. apply (f_equal (@length _)) in E. rewrite !group_length, L, bucket_wire_length in E. lia.
Qed.
Example C40_case : group2str (group_wire 0 9 GFF 5 [Bucket 0 0xffffffff 0xffffffff [Output 1 0xffff]; Bucket 0 3 0xffffffff []]) = Ok $"group=5,ff,@bucket,output=1"
  /\ group2str (group_wire 0 9 GFF 5 [Bucket 0 3 0xffffffff []; Bucket 0 0xffffffff 0xffffffff [Output 1 0xffff]]) = Ok $"group=5,ff,@bucket,watch_port=3,@bucket,output=1".
Proof. vm_compute. auto. Qed.

(** ** C45 *)
Theorem C45_flow : forall s cmd xid m, str2mod s cmd xid = Ok m ->
  mod2extra m = Ok ((if cmd =? 0 then [] else [($"command", cmd)]) ++ [($"xid", xid)]).
Proof. exact mod_extra. Qed.
Theorem C45_flow_call : forall s cmd xid m kw, str2mod s cmd xid = Ok m -> mod2extra m = Ok kw -> str2mod_kw s kw = Ok m.
Proof. intros s cmd xid m kw H K. rewrite (mod_extra_call _ _ _ _ _ H K). exact H. Qed.
Theorem C45_group : forall s cmd xid m, str2group s cmd xid = Ok m -> exists id a b, m = a ++ be 4 id ++ b /\ length a = 12%nat
  /\ group2extra m = Ok ([($"xid", xid); ($"group_id", id)] ++ (if cmd =? 0 then [] else [($"command", cmd)])).
Proof.
  intros s cmd xid m H. destruct (group_extra _ _ _ _ H) as (id & E1 & E2). destruct (group_framed _ _ _ _ H) as (_ & t & id' & bs & E & _ & _ & _ & Hi).
  assert (id = id').
  { set (L := Z.of_nat (length m)) in *. destruct (group_framed _ _ _ _ H) as (Hl & _ & _ & _ & _ & _ & Hx & Hc & _). fold L in Hl.
    assert (in_bytes 2 L) by (apply in_bytes_2; lia). assert (in_bytes 1 (gtype_id t)) by (destruct t; cbn; unfold in_bytes; cbn; lia).
    assert (U : unpack_raw group_fmt m = [4; 15; L; xid; cmd; gtype_id t; id']) by (clearbody L; subst m; unfold group_fmt; unpacks; reflexivity).
    rewrite unpack_from_ok, U in E1 by (rewrite E; unfold group_fmt; len). congruence. }
  subst id'. exists id. eexists (be 1 4 ++ be 1 15 ++ be 2 (Z.of_nat (length m)) ++ be 4 xid ++ be 2 cmd ++ be 1 (gtype_id t) ++ pad 1), (concat bs).
  split; [rewrite <- !app_assoc; exact E|]. split; [reflexivity|exact E2].
Qed.
(** str2group has no parameter group_id *)
Theorem C45_group_refuted : forall s cmd xid m kw, str2group s cmd xid = Ok m -> group2extra m = Ok kw -> str2group_kw s kw = Raise TypeError.
Proof. intros s cmd xid m kw H K. exact (group_extra_call _ _ _ _ _ H K s). Qed.
Theorem C45_group_without_id : forall s cmd xid m kw, str2group s cmd xid = Ok m -> group2extra m = Ok kw ->
  str2group_kw s (filter (fun k => negb (text_eqb (fst k) $"group_id")) kw) = Ok m.
Proof. intros s cmd xid m kw H K. rewrite (group_extra_fixed _ _ _ _ _ H K). exact H. Qed.
Example C45_case : (m <- str2mod $"priority=3,@clear" 3 7 ;; mod2extra m) = Ok [($"command", 3); ($"xid", 7)]
  /\ (m <- str2group $"group=5,all" 2 7 ;; group2extra m) = Ok [($"xid", 7); ($"group_id", 5); ($"command", 2)]
  /\ (m <- str2group $"group=5,all" 0 7 ;; kw <- group2extra m ;; str2group_kw $"group=5,all" kw) = Raise TypeError.
Proof. vm_compute. auto. Qed.

Print Assumptions C38_encodes.
Print Assumptions C38_binary.
Print Assumptions C39_framed.
Print Assumptions C40_shown.
Print Assumptions C40_refuted.
Print Assumptions C45_flow_call.
Print Assumptions C45_group.
