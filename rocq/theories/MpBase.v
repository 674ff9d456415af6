(** Multipart messages: what the three kinds have in common; printed texts are single lines. *)
From Coq Require Import Strings.Ascii.
From Verif Require Import Base PyNum Util PyLib OxmCodec OxmTables Oxm Nx Ofp4 Spec SpecOxm SpecOfp SpecMp.
From Verif Require Import BaseFacts UtilFacts NumFacts OxmRead OxmPrint OxmFacts OxmFrame OxmMore TermFacts OfpTerm.
From Verif Require Import ActBase ActRead ActReadNx ActReadReg ActReadLearn ActPrint ActText ActFrame FlowRead FlowMod FlowText FlowFrame GroupRead GroupText.

(** ** Lines *)
Lemma join_lines rows : join [10] rows = lines rows.
Proof.
  induction rows as [|r rows IH]; [reflexivity|]. destruct rows as [|r' rows]; [reflexivity|].
  cbn [join] in *. rewrite IH. reflexivity.
Qed.
Lemma lines_split rows : rows <> [] -> Forall one_line rows -> split_all 10 (lines rows) = rows.
Proof.
  intros Hn H. induction H as [|r rows Hr H IH]; [congruence|]. destruct rows as [|r' rows].
  - cbn [lines sepby]. now apply split_all_none.
  - change (lines (r :: r' :: rows)) with (r ++ 10 :: lines (r' :: rows)). rewrite split_all_cons by auto. rewrite IH by discriminate. reflexivity.
Qed.
Lemma one_line_app a b : one_line (a ++ b) <-> one_line a /\ one_line b.
Proof. unfold one_line. rewrite in_app_iff. tauto. Qed.
Lemma one_line_nil : one_line [].
Proof. intros []. Qed.
Lemma one_line_cons c s : c <> 10 -> one_line s -> one_line (c :: s).
Proof. intros H H' [E|E]; auto. Qed.
Lemma plain_line s : Forall plain s -> one_line s.
Proof. intros H Hi. apply (proj1 (Forall_forall _ _) H) in Hi. apply plain_not_blank in Hi. apply Hi. unfold blank. lia. Qed.
Lemma tidy_line s : Forall tidy s -> one_line s.
Proof. intros H. apply plain_line. now apply tidy_plain. Qed.
Lemma lit_line s : forallb (fun c => negb (c =? 10)) s = true -> one_line s.
Proof. intros H Hi. apply (proj1 (forallb_forall _ _) H) in Hi. discriminate. Qed.
Ltac ol := repeat lazymatch goal with
  | |- one_line [] => apply one_line_nil
  | |- one_line (_ ++ _) => apply one_line_app; split
  | |- one_line (s2t _) => apply lit_line; reflexivity
  | |- one_line (if _ then _ else _) => match goal with |- one_line (if ?b then _ else _) => destruct b end
  end.
Lemma dec_line n : one_line (dec n).
Proof. apply plain_line, dec_plain_str. Qed.
Lemma hex_line n : 0 <= n -> one_line (hex n).
Proof. intros H. apply plain_line. apply (literal_plain _ _ (hex_literal n H)). Qed.
Lemma port_line p : one_line (port_text 4 p).
Proof. apply tidy_line. apply (port_of_tidy _ _ (port_text_of p)). Qed.
Lemma name_line f : In f registry -> one_line (fname f).
Proof. intros H. apply plain_line. apply name_reg. now apply reg_accepted. Qed.
Lemma text_line t : good t -> one_line (text_of t).
Proof.
  intros (Hf & Hv & Hm & Hfit). unfold text_of. apply one_line_app; split; [now apply name_line|]. apply one_line_app; split; [ol|].
  apply plain_line. eapply writes_plain. apply good_writes; eauto using wide_reg, reg_accepted.
Qed.
Lemma commas_line l : Forall one_line l -> one_line (commas l).
Proof.
  induction 1 as [|t l H Hl IH]; [apply one_line_nil|]. destruct l as [|u l]; [exact H|]. rewrite commas_cons. apply one_line_app; split; auto. apply one_line_app; split; [ol|exact IH].
Qed.

Lemma commas_map_line {A} (f : A -> text) l : (forall x, In x l -> one_line (f x)) -> one_line (commas (map f l)).
Proof. intros H. apply commas_line, Forall_map, Forall_forall. exact H. Qed.
Lemma bits_line f lo n : In f registry -> one_line (bits_str f lo n) /\ one_line (range_str f lo n).
Proof.
  intros H. pose proof (name_line f H) as Hn. assert (R : one_line (range_str f lo n)) by (unfold range_str; ol; auto using dec_line).
  split; auto. unfold bits_str. destruct (bits f); [destruct (_ && _)|]; auto.
Qed.
Lemma hexw_line w n : 0 <= n -> one_line (hexw w n).
Proof. intros H. apply plain_line. apply (literal_plain _ _ (hexw_literal w n H)). Qed.
Lemma nx_port_line p : one_line (nx_port_str p).
Proof. unfold nx_port_str. ol. apply dec_line. Qed.
Lemma act_line a : good_act a -> one_line (act_text a).
Proof.
  intros [[Ho _] Hp].
  assert (Hash : forall h, one_line (hash_name h)) by (intros []; apply lit_line; reflexivity).
  destruct a; cbn [act_ok act_printable act_text] in *; ol; auto using dec_line, port_line, nx_port_line.
  all: repeat match goal with H : _ /\ _ |- _ => destruct H end; try (apply hex_line || apply hexw_line); eauto using nonneg, text_line.
  all: try (apply bits_line; assumption).
  - destruct k; apply lit_line; reflexivity.
  - destruct k; apply lit_line; reflexivity.
  - apply commas_map_line. intros x Hx. apply hex_line. eapply nonneg. apply (proj1 (Forall_forall _ _) Ho x Hx).
  - apply commas_line. repeat (apply Forall_cons; [|]); try apply Forall_nil; auto using dec_line.
    + destruct a; apply lit_line; reflexivity.
    + apply hex_line. eapply nonneg; eauto.
    + apply bits_line; assumption.
  - apply commas_line. repeat (apply Forall_cons; [|]); try apply Forall_nil; auto using dec_line, name_line.
    + destruct a; apply lit_line; reflexivity.
    + ol. apply commas_map_line. intros. apply dec_line.
  - apply plain_line. now apply note_plain.
  - apply commas_line. repeat (apply Forall_cons; [|]); try apply Forall_nil; auto using dec_line, name_line.
    + destruct a; apply lit_line; reflexivity.
    + apply bits_line; assumption.
    + ol. apply commas_map_line. intros. apply dec_line.
  - apply commas_map_line. intros s Hs. unfold lspecs in Hs. apply in_flat_map in Hs as ([k v|s'] & Hi & Hs); [destruct Hs|]. destruct Hs as [<-|[]].
    pose proof (proj1 (Forall_forall _ _) Ho _ Hi) as (Hn & H1 & H2). pose proof (proj1 (Forall_forall _ _) H0 _ Hi) as (P1 & P2).
    unfold lspec_text. destruct (l_src s') as [f lo|v], (l_dst s') as [g lo'|g lo'|]; ol; try contradiction;
      try (apply bits_line; first [apply H1|apply H2]); apply hex_line; eapply nonneg; exact H1.
Qed.
Lemma instr_line i : instr_ok i -> instr_printable i -> one_line (instr_text i).
Proof.
  intros [Ho _] Hp. assert (A : forall n l, one_line n -> Forall act_ok l -> Forall act_printable l -> one_line (with_acts n l)).
  { intros n l Hn H1 H2. destruct l as [|a l]; [exact Hn|]. unfold with_acts. ol; auto. apply commas_map_line. intros x Hx. apply act_line.
    split; [apply (proj1 (Forall_forall _ _) H1 x Hx)|apply (proj1 (Forall_forall _ _) H2 x Hx)]. }
  destruct i; cbn [instr_ok instr_printable instr_text] in *; ol; auto using dec_line.
  - apply hex_line. apply (nonneg 8). apply Ho.
  - apply hex_line. apply (nonneg 8). apply Ho.
  - apply A; auto; [apply lit_line; reflexivity|apply Hp].
  - apply A; auto; [apply lit_line; reflexivity|apply Hp].
Qed.
Lemma unless_line b t : one_line t -> Forall one_line (unless b t).
Proof. destruct b; repeat constructor; auto. Qed.
Lemma group_str_line g : one_line (group_str g).
Proof. destruct (group_of_num _ _ (group_str_of g)) as (_ & H & _). now apply tidy_line. Qed.
Lemma fixed_lines d x : fixed_ok x -> Forall one_line (fixed_texts d x).
Proof.
  intros (H1 & H2 & H3 & H4 & H5 & H6 & H7 & H8 & H9 & H10). apply nonneg in H1, H2, H7. unfold fixed_texts.
  apply Forall_app; split. { destruct (_ =? _); [apply unless_line|apply Forall_cons; [|constructor]]; ol; auto using hex_line. }
  do 7 (apply Forall_app; split; [apply unless_line; ol; auto using dec_line, hex_line, port_line, group_str_line|]).
  apply Forall_forall. intros s Hs. apply in_flat_map in Hs as (f & _ & Hs). unfold unless in Hs. destruct (_ =? _); [destruct Hs|]. destruct Hs as [<-|[]]. destruct f; apply lit_line; reflexivity.
Qed.
Lemma rule_lines ts is : Forall good ts -> Forall instr_ok is -> Forall instr_printable is -> Forall one_line (rule_texts ts is).
Proof.
  intros H1 H2 H3. apply Forall_app; split; apply Forall_map; [eapply Forall_impl; [|exact H1]; apply text_line|].
  eapply Forall_impl; [|apply (Forall_and H2 H3)]. intros i [Ha Hb]. now apply instr_line.
Qed.
Lemma counter_lines l : Forall one_line (counter_texts l).
Proof.
  induction l as [|[c n] l IH]; [constructor|]. cbn [counter_texts flat_map]. apply Forall_app; split; auto. apply unless_line. cbn [fst snd]. ol; auto using dec_line.
  destruct c; apply lit_line; reflexivity.
Qed.
Lemma bucket_lines t b : bucket_ok b -> bucket_printable t b -> Forall one_line (bucket_texts t b).
Proof.
  intros Ho Hp. pose proof (bucket_good_acts t b Ho Hp) as Hg. unfold bucket_texts. apply Forall_app; split; [destruct t; try constructor; apply unless_line; ol; apply dec_line|].
  apply Forall_app; split; [apply unless_line; ol; apply dec_line|]. apply Forall_app; split; [apply unless_line; ol; apply dec_line|].
  apply Forall_map. eapply Forall_impl; [|exact Hg]. apply act_line.
Qed.

(** ** Messages *)
Lemma mp_length type xid mt fl b : length (mp_wire type xid mt fl b) = (16 + length b)%nat.
Proof. unfold mp_wire. len. Qed.
Lemma mp_capture_ok bodies : forall c, Z.of_nat (length (c ++ concat bodies)) <= 65519 -> mp_capture c (map Ok bodies) = Ok (c ++ concat bodies).
Proof.
  induction bodies as [|b bs IH]; intros c H; cbn [map concat mp_capture] in *; [now rewrite app_nil_r|]. cbn [bind].
  rewrite !app_length in H. destruct (Z.ltb_spec (0xffff - 16) (Z.of_nat (length c) + Z.of_nat (length b))); [lia|]. rewrite IH; [now rewrite app_assoc|]. rewrite !app_length. lia.
Qed.
Lemma mp_message_ok type xid mt bodies : in_bytes 1 type -> in_bytes 4 xid -> in_bytes 2 mt -> Z.of_nat (16 + length (concat bodies)) <= 65535 ->
  mp_message type xid mt (map Ok bodies) = Ok (mp_wire type xid mt 0 (concat bodies)).
Proof.
  intros Ht Hx Hm Hl. unfold mp_message. rewrite mp_capture_ok by (cbn [app]; lia). cbn [bind app]. unfold mp_hdr, mp_fmt, mp_wire. set (B := concat bodies) in *.
  assert (in_bytes 2 (16 + Z.of_nat (length B))) by (apply in_bytes_2; lia). replace (Z.of_nat (16 + length B)) with (16 + Z.of_nat (length B)) by lia. packs. rewrite <- ?app_assoc. reflexivity.
Qed.
Lemma mp_unpack type xid mt fl b : in_bytes 1 type -> in_bytes 4 xid -> in_bytes 2 mt -> in_bytes 2 fl -> Z.of_nat (16 + length b) <= 65535 ->
  unpack_from mp_fmt (mp_wire type xid mt fl b) 0 = Ok [4; type; Z.of_nat (16 + length b); xid; mt; fl].
Proof.
  intros Ht Hx Hm Hf Hl. rewrite unpack_from_ok by (rewrite mp_length; cbn; lia). unfold mp_wire, mp_fmt. set (L := Z.of_nat _) in *. assert (in_bytes 2 L) by (apply in_bytes_2; unfold L in *; lia). clearbody L.
  unpacks. reflexivity.
Qed.
Lemma mp_slice type xid mt fl b : slice 16 (Z.to_nat (Z.of_nat (16 + length b))) (mp_wire type xid mt fl b) = b.
Proof.
  rewrite Nat2Z.id. unfold mp_wire. set (L := Z.of_nat _).
  match goal with |- slice _ _ ?m = _ => replace m with ((be 1 4 ++ be 1 type ++ be 2 L ++ be 4 xid ++ be 2 mt ++ be 2 fl ++ pad 4) ++ b) by (rewrite <- !app_assoc; reflexivity) end.
  apply slice_end; [len|lia].
Qed.
(** several messages in a row *)
Record mpmsg := MpMsg { mm_type : Z; mm_xid : Z; mm_mt : Z; mm_flags : Z; mm_body : bytes }.
Definition mm_wire (m : mpmsg) : bytes := mp_wire (mm_type m) (mm_xid m) (mm_mt m) (mm_flags m) (mm_body m).
Definition mm_ok (m : mpmsg) : Prop := in_bytes 1 (mm_type m) /\ in_bytes 4 (mm_xid m) /\ Z.of_nat (length (mm_wire m)) <= 65535.
Lemma mp_rows one ms : forall rows, Forall mm_ok ms -> Forall2 (fun m r => one (mm_wire m) = Ok r) ms rows -> forall fuel, (length (flat_map mm_wire ms) <= fuel)%nat ->
  mp_rows_go one fuel (flat_map mm_wire ms) = Ok (concat rows).
Proof.
  intros rows Hok H. induction H as [|m r ms rows Hm H IH]; intros fuel Hf; [destruct fuel; reflexivity|]. inversion Hok as [|? ? (Ht & Hx & Hl) Hok']; subst.
  cbn [flat_map] in *. rewrite app_length in Hf. assert (L : length (mm_wire m) = (16 + length (mm_body m))%nat) by apply mp_length.
  assert (E : unpack_from [sB; sB; sH; sI] (mm_wire m ++ flat_map mm_wire ms) 0 = Ok [4; mm_type m; Z.of_nat (length (mm_wire m)); mm_xid m]).
  { rewrite unpack_from_ok by (rewrite app_length, L; cbn; lia). unfold mm_wire at 1, mp_wire. rewrite <- L. set (q := Z.of_nat _) in *. assert (in_bytes 2 q) by (apply in_bytes_2; lia). clearbody q.
    rewrite <- !app_assoc. unpacks. reflexivity. }
  destruct fuel as [|f]; [lia|]. assert (Hne : mm_wire m ++ flat_map mm_wire ms <> []) by (intros Z; apply app_eq_nil in Z as [Z _]; rewrite Z in L; discriminate).
  destruct (mm_wire m ++ flat_map mm_wire ms) as [|b0 bs] eqn:Eb; [congruence|]. cbn [mp_rows_go]. rewrite E. cbn [bind nth]. rewrite <- Eb, Nat2Z.id, firstn_len_app, skipn_len_app, Hm. cbn [bind].
  rewrite IH by (auto; lia). reflexivity.
Qed.
Lemma mp_text_ok one ms rows : Forall mm_ok ms -> Forall2 (fun m r => one (mm_wire m) = Ok r) ms rows -> mp_text one (flat_map mm_wire ms) = Ok (lines (concat rows)).
Proof. intros H1 H2. unfold mp_text. rewrite (mp_rows one ms rows) by auto. cbn [bind]. now rewrite join_lines. Qed.
