(** Group descriptions (OFPMP_GROUP_DESC). *)
From Coq Require Import Strings.Ascii.
From Verif Require Import Base PyNum Util PyLib OxmCodec OxmTables Oxm Nx Ofp4 Spec SpecOxm SpecOfp SpecMp.
From Verif Require Import BaseFacts UtilFacts NumFacts OxmRead OxmPrint OxmFacts OxmFrame OxmMore TermFacts OfpTerm.
From Verif Require Import ActBase ActRead ActReadNx ActReadReg ActReadLearn ActPrint ActText ActFrame FlowRead FlowMod FlowText FlowFrame GroupRead GroupText MpBase MpFlow.

(** ** Reading *)
Lemma dword_step f t g y : Forall filler g -> follow y -> gdesc_buckets_go (S f) t (g ++ $"@bucket" ++ y) = gdesc_buckets_go f t y.
Proof.
  intros Hg Hy. pose proof (at_bucket g y Hg Hy) as E. assert (Hne : g ++ $"@bucket" ++ y <> []) by (apply mid_nonnil; discriminate).
  destruct (g ++ $"@bucket" ++ y) as [|c u'] eqn:Eu; [congruence|]. cbn [gdesc_buckets_go]. rewrite E. reflexivity.
Qed.
Lemma dbucket_step f t l s r : writes_bitems l s -> l <> [] -> Forall bitem_ok l -> bucket_ok (bucket_of t l) -> follow r -> stops r ->
  gdesc_buckets_go (S f) (gtype_id t) (s ++ r) = (b <- gdesc_buckets_go f (gtype_id t) r ;; Ok (bucket_wire (bucket_of t l) ++ b)).
Proof.
  intros Hw Hn Hok Hb Hr Hst. pose proof (bucket_reads t l s r Hw Hn Hok Hb Hr Hst) as E. pose proof (bitems_nonnil _ _ Hw Hn) as Hs.
  assert (Hne : s ++ r <> []) by (destruct s; [congruence|discriminate]). assert (Hsk : skipn (length s) (s ++ r) = r) by apply skipn_len_app.
  destruct (get_token (s ++ r)) as [[h name] y] eqn:Et.
  assert (Hname : text_eqb name $"@bucket" = false).
  { destruct (text_eqb name $"@bucket") eqn:Q; auto. apply text_eqb_eq in Q as ->. exfalso. unfold str2bucket in E. destruct (s ++ r) as [|c u'] eqn:Eu; [congruence|].
    cbn [length bucket_go] in E. rewrite Et in E. destruct (negb (has_char 61 h)); [|discriminate]. cbn [assert bind] in E. change (startswith $"@" $"@bucket") with true in E. cbn match in E. cbn [bind] in E.
    rewrite Nat.sub_diag in E. injection E as _ E. destruct s; [congruence|discriminate]. }
  destruct (s ++ r) as [|c u'] eqn:Eu; [congruence|]. cbn [gdesc_buckets_go]. rewrite Et, Hname, E. cbn [bind].
  destruct (Nat.eqb_spec (length s) 0) as [E0|_]; [destruct s; [congruence|discriminate]|]. rewrite Hsk. reflexivity.
Qed.
Lemma dbuckets_go t ls s : writes_buckets ls s -> forall fuel, Forall (bitems_ok t) ls -> (length s <= fuel)%nat ->
  gdesc_buckets_go fuel (gtype_id t) s = Ok (buckets_wire (map (bucket_of t) ls)).
Proof.
  induction 1 as [|l ls g u r Hg Hl Hu Hr IH]; intros fuel Hok Hf.
  - destruct fuel; reflexivity.
  - inversion Hok as [|? ? [Hi Hb] Hok']; subst. pose proof (bitems_nonnil _ _ Hu Hl) as Hn.
    assert (L : (length u > 0)%nat) by (destruct u; [congruence|cbn; lia]). rewrite !app_length in Hf. cbn [length] in Hf.
    change (length $"@bucket") with 7%nat in Hf. destruct fuel as [|[|f]]; [lia|lia|].
    rewrite dword_step by (auto using gap_filler; apply follow_app; eauto using bitems_follow, buckets_follow).
    rewrite (dbucket_step f t l u r) by eauto using buckets_follow, buckets_stops. rewrite IH by (auto; lia). reflexivity.
Qed.
Lemma lower_case u t : Forall2 letter_case u t -> Forall (fun c => 97 <= c <= 122) t -> lower u = t /\ Forall plain u.
Proof.
  induction 1 as [|a b u t H _ IH]; intros Ht; [split; [reflexivity|constructor]|]. inversion Ht; subst. destruct IH as [E P]; auto. split.
  - unfold lower in *. cbn [map]. rewrite E. f_equal. unfold lower_c. chr_red. destruct H as [->|[_ ->]];
      destruct ((65 <=? _) && (_ <=? 90)) eqn:Q; try lia; destruct (Z.eqb_spec b 8490); try lia.
  - constructor; auto. destruct H as [->|[_ ->]]; unfold plain, blank; chr_red; lia.
Qed.
Lemma gtype_letters t : Forall (fun c => 97 <= c <= 122) (gtype_name t).
Proof. destruct t; repeat (apply Forall_cons; [now cbv|]); constructor. Qed.
Lemma dhead_step f gid t h g u r : writes_dhead h u -> Forall filler g -> follow r ->
  gdesc_head_go (S f) gid (gtype_id t) (g ++ u ++ r) = gdesc_head_go f (fst (apply_ghead (gid, t) h)) (gtype_id (snd (apply_ghead (gid, t) h))) r.
Proof.
  intros Hw Hg Hr. destruct Hw as [u n s Hl Ha|t' u Hu].
  - destruct (literal_plain _ _ Hl) as [Hu Hu0]. destruct (assigned_tokens $"group" u s g r) as (op & y & E1 & E2 & E3); auto; [pl|discriminate|].
    pose proof (assigned_nonnil _ _ _ g r Ha) as Hne. destruct (g ++ s ++ r) as [|c0 s0] eqn:Es; [congruence|]. cbn [gdesc_head_go]. rewrite E1.
    change (text_eqb $"group" $"group") with true. cbn match. erewrite int_arg_ok by eauto. reflexivity.
  - destruct (lower_case u (gtype_name t') Hu (gtype_letters t')) as [El Hp]. assert (Hn : u <> []) by (intros ->; inversion Hu; destruct t'; discriminate).
    assert (E : get_token (g ++ u ++ r) = (g, u, r)) by (apply tok_plain; auto).
    assert (Hne : g ++ u ++ r <> []) by (apply mid_nonnil; auto).
    destruct (g ++ u ++ r) as [|c0 s0] eqn:Es; [congruence|]. cbn [gdesc_head_go]. rewrite E.
    assert (text_eqb u $"group" = false) as ->. { destruct (text_eqb u $"group") eqn:Q; auto. apply text_eqb_eq in Q as ->. destruct t'; discriminate. }
    rewrite El. replace (index_of (gtype_name t') ofpgt) with (Ok (gtype_id t')) by (destruct t'; reflexivity). reflexivity.
Qed.
Lemma dhead_bucket f gid t g y : Forall filler g -> follow y -> gdesc_head_go (S f) gid t (g ++ $"@bucket" ++ y) = Ok (gid, t, g ++ $"@bucket" ++ y).
Proof.
  intros Hg Hy. pose proof (at_bucket g y Hg Hy) as E. assert (Hne : g ++ $"@bucket" ++ y <> []) by (apply mid_nonnil; discriminate).
  destruct (g ++ $"@bucket" ++ y) as [|c0 s0] eqn:Es; [congruence|]. cbn [gdesc_head_go]. rewrite E. reflexivity.
Qed.
Lemma dhead_end f gid t ls s : writes_buckets ls s -> (length s <= f)%nat -> gdesc_head_go f gid t s = Ok (gid, t, s).
Proof.
  intros Hw Hf. destruct Hw as [|l ls g u r Hg Hl Hu Hr]; [destruct f; reflexivity|].
  rewrite !app_length in Hf. change (length $"@bucket") with 7%nat in Hf. destruct f; [lia|]. apply dhead_bucket; auto using gap_filler. apply follow_app; eauto using bitems_follow, buckets_follow.
Qed.
Lemma dtail_follow hs ls s : writes_dtail hs ls s -> follow s.
Proof. intros [ls' r H|]; [eauto using buckets_follow|now apply gap_follow]. Qed.
Lemma dhead_nonnil h u : writes_dhead h u -> u <> [].
Proof.
  intros [u' n s Hl Ha|t s Hs]; [|intros ->; inversion Hs; destruct t; discriminate]. intros ->. pose proof (assigned_nonnil _ _ _ [] [] Ha) as K; apply K; reflexivity.
Qed.
Lemma dheads_go hs ls s : writes_dtail hs ls s -> forall fuel gid t, (length s <= fuel)%nat ->
  exists r, writes_buckets ls r
  /\ gdesc_head_go fuel gid (gtype_id t) s = Ok (fst (fold_left apply_ghead hs (gid, t)), gtype_id (snd (fold_left apply_ghead hs (gid, t))), r).
Proof.
  induction 1 as [ls r Hr|h hs ls g u r Hg Hu Hr IH]; intros fuel gid t Hf.
  - exists r. split; auto. now apply (dhead_end fuel gid (gtype_id t) ls).
  - pose proof (dhead_nonnil _ _ Hu) as Hn. rewrite !app_length in Hf. assert (length u > 0)%nat by (destruct u; [congruence|cbn; lia]).
    destruct fuel as [|f]; [lia|]. rewrite (dhead_step f gid t h g u r) by eauto using gap_filler, dtail_follow. cbn [fold_left].
    destruct (apply_ghead (gid, t) h) as [gid' t'] eqn:E. cbn [fst snd]. apply IH. lia.
Qed.
Lemma desc_head hs ls s : writes_desc hs ls s -> let x := fold_left apply_ghead hs (0, GAll) in
  exists r, gdesc_head_go (length s) 0 OFPGT_ALL s = Ok (fst x, gtype_id (snd x), r)
  /\ forall fuel t, Forall (bitems_ok t) ls -> (length r <= fuel)%nat -> gdesc_buckets_go fuel (gtype_id t) r = Ok (buckets_wire (map (bucket_of t) ls)).
Proof.
  intros Hw x. subst x. destruct Hw as [|h hs ls g u r Hg Hu Hr|l ls g u r Hg Hl Hu Hr].
  - exists []. split; [reflexivity|]. intros [|f] t _ _; reflexivity.
  - pose proof (dhead_nonnil _ _ Hu) as Hn. assert (Hlen : exists f, length (g ++ u ++ r) = S f /\ (length r <= f)%nat).
    { rewrite !app_length. assert (length u > 0)%nat by (destruct u; [congruence|cbn; lia]). exists (length g + length u + length r - 1)%nat. lia. }
    destruct Hlen as (f & -> & Hf). change (gdesc_head_go (S f) 0 OFPGT_ALL) with (gdesc_head_go (S f) 0 (gtype_id GAll)). rewrite (dhead_step f 0 GAll h g u r) by eauto using dtail_follow.
    cbn [fold_left]. destruct (apply_ghead (0, GAll) h) as [gid t] eqn:E. cbn [fst snd].
    destruct (dheads_go hs ls r Hr f gid t Hf) as (r' & Hb & E'). exists r'. split; [exact E'|]. intros fuel t' Hok Hf'. now apply dbuckets_go.
  - exists (g ++ $"@bucket" ++ u ++ r). assert (Hy : follow (u ++ r)) by (apply follow_app; eauto using bitems_follow, buckets_follow).
    assert (Hlen : exists f, length (g ++ $"@bucket" ++ u ++ r) = S f) by (exists (length g + 6 + length (u ++ r))%nat; rewrite !app_length; change (length $"@bucket") with 7%nat; lia).
    split.
    + destruct Hlen as [f ->]. now apply dhead_bucket.
    + intros fuel t Hok Hf. inversion Hok as [|? ? [Hi Hb] Hok']; subst. pose proof (bitems_nonnil _ _ Hu Hl) as Hn.
      assert (L : (length u > 0)%nat) by (destruct u; [congruence|cbn; lia]). rewrite !app_length in Hf. change (length $"@bucket") with 7%nat in Hf.
      destruct fuel as [|[|f]]; [lia|lia|]. rewrite dword_step by auto.
      rewrite (dbucket_step f t l u r) by eauto using buckets_follow, buckets_stops. rewrite (dbuckets_go t ls r Hr) by (auto; lia). reflexivity.
Qed.
Lemma gdesc_length e : length (gdesc_wire e) = (8 + length (buckets_wire (gd_buckets e)))%nat.
Proof. unfold gdesc_wire. len. Qed.

Lemma desc_body hs ls s : writes_desc hs ls s -> Forall (Forall bitem_ok) ls -> gdesc_ok (desc_of hs ls) -> gdesc_body s = Ok (gdesc_wire (desc_of hs ls)).
Proof.
  intros Hw Hi (Hd & Hb & Hl). destruct (desc_head hs ls s Hw) as (r & E1 & E2). rewrite gdesc_length in Hl. unfold gdesc_body. rewrite E1. cbn [bind].
  unfold desc_of in *. set (x := fold_left _ _ _) in *. cbn [gd_id gd_buckets gd_type] in *. rewrite E2 by (try apply Forall_and; auto; now apply Forall_map). cbn [bind].
  unfold gdesc_wire. cbn [gd_id gd_buckets gd_type]. set (B := buckets_wire _) in *. assert (in_bytes 2 (8 + Z.of_nat (length B))) by (apply in_bytes_2; lia).
  assert (in_bytes 1 (gtype_id (snd x))) by (destruct (snd x); cbn; unfold in_bytes; cbn; lia). unfold gdesc_fmt. packs. f_equal.
  rewrite <- !app_assoc. replace (Z.of_nat (8 + length B)) with (8 + Z.of_nat (length B)) by lia. reflexivity.
Qed.
Lemma gdesc_bodies l ss : Forall2 writes_gdesc l ss -> Forall gdesc_ok l -> map gdesc_body ss = map Ok (map gdesc_wire l).
Proof. induction 1 as [|e s l ss (_ & hs & ls & Hw & Hi & ->) _ IH]; intros Hok; [reflexivity|]. inversion Hok; subst. cbn [map]. rewrite IH by auto. f_equal. now apply desc_body. Qed.
Lemma writes_lines {A} (w : A -> text -> Prop) l ss : (forall e s, w e s -> one_line s) -> Forall2 w l ss -> l <> [] -> split_all 10 (lines ss) = ss.
Proof.
  intros Hw H Hn. apply lines_split; [intros ->; inversion H; congruence|]. induction H; constructor; eauto. destruct l; [inversion H0; constructor|]. apply IHForall2. discriminate.
Qed.
Theorem gdescs_encode l ss xid : Forall2 writes_gdesc l ss -> l <> [] -> Forall gdesc_ok l -> in_bytes 4 xid ->
  Z.of_nat (16 + length (gdescs_wire l)) <= 65535 -> text2mpgroupdesc (lines ss) 19 xid = Ok (mp_wire 19 xid 7 0 (gdescs_wire l)).
Proof.
  intros H Hn Hok Hx Hl. unfold text2mpgroupdesc. change (negb (19 =? 19)) with false. cbn match. rewrite (writes_lines writes_gdesc l) by (auto; now intros ? ? []).
  rewrite (gdesc_bodies l) by auto. unfold gdescs_wire in *. rewrite flat_map_concat_map in *. apply mp_message_ok; auto using in_bytes_1_19; unfold in_bytes; lia.
Qed.
Theorem gdescs_too_long l ss xid : Forall2 writes_gdesc l ss -> Forall gdesc_ok l -> 65535 < Z.of_nat (16 + length (gdescs_wire l)) -> text2mpgroupdesc (lines ss) 19 xid = Raise NameError.
Proof.
  intros H Hok Hl. assert (Hn : l <> []) by (intros ->; cbn in Hl; lia). unfold text2mpgroupdesc. change (negb (19 =? 19)) with false. cbn match. rewrite (writes_lines writes_gdesc l) by (auto; now intros ? ? []).
  rewrite (gdesc_bodies l) by auto. unfold gdescs_wire in *. rewrite flat_map_concat_map in *. now apply message_raises.
Qed.
Theorem gdesc_request txt type xid : type <> 19 -> in_bytes 1 type -> in_bytes 4 xid -> text2mpgroupdesc txt type xid = Ok (mp_wire type xid 7 0 []).
Proof.
  intros Ht Hty Hx. unfold text2mpgroupdesc. destruct (Z.eqb_spec type 19); [congruence|]. cbn [negb]. unfold mp_hdr, mp_fmt, mp_wire. cbn [length]. change (16 + Z.of_nat 0) with (Z.of_nat 16).
  assert (in_bytes 2 (Z.of_nat 16)) by (unfold in_bytes; cbn; lia). assert (in_bytes 2 7) by (unfold in_bytes; lia). packs. reflexivity.
Qed.

(** ** Printing *)
Lemma drow_step e r : gdesc_ok e -> gdesc_printable e -> forall f, gdesc_rows_go (S f) (gdesc_wire e ++ r) = (l <- gdesc_rows_go f r ;; Ok (gdesc_shown e :: l)).
Proof.
  intros (Hd & Hb & Hl) Hp f. pose proof (gdesc_length e) as GL. rewrite GL in Hl. destruct e as [t id bs]. unfold gdesc_printable in Hp. cbn [gd_id gd_buckets gd_type] in *.
  set (M := gdesc_wire _) in *. set (B := buckets_wire bs) in *. set (L := Z.of_nat (8 + length B)).
  assert (HL : Z.to_nat L = length M) by (unfold L; lia). assert (in_bytes 2 L) by (apply in_bytes_2; unfold L; lia).
  assert (in_bytes 1 (gtype_id t)) by (destruct t; cbn; unfold in_bytes; cbn; lia).
  assert (E : unpack_from gdesc_fmt (M ++ r) 0 = Ok [L; gtype_id t; id]).
  { rewrite unpack_from_ok by (rewrite app_length, GL; unfold gdesc_fmt; cbn [app calcsize fold_right fwidth]; lia).
    unfold M, gdesc_wire. cbn [gd_id gd_buckets gd_type]. fold B L. clearbody L. unfold gdesc_fmt. rewrite <- !app_assoc. unpacks. reflexivity. }
  cbn [gdesc_rows_go]. destruct (Nat.ltb_spec (length (M ++ r)) 8) as [Hs|_]; [rewrite app_length, GL in Hs; lia|]. rewrite E. cbn [bind].
  assert ((8 <=? L) = true) as -> by (unfold L; apply Z.leb_le; lia). cbn [assert bind].
  replace (py_nth ofpgt (Z.to_nat (gtype_id t))) with (Ok (gtype_name t)) by (destruct t; reflexivity). cbn [bind]. cbv zeta. rewrite HL.
  assert (S1 : slice 8 (length M) (M ++ r) = B).
  { rewrite GL. unfold M, gdesc_wire. cbn [gd_id gd_buckets gd_type]. fold B L.
    match goal with |- slice _ _ ?m = _ => replace m with ((be 2 L ++ be 1 (gtype_id t) ++ pad 1 ++ be 4 id) ++ B ++ r) by (rewrite <- !app_assoc; reflexivity) end.
    apply slice_mid; [len|lia]. }
  rewrite S1. unfold B at 1 2. rewrite buckets_print16 by auto. cbn [bind]. rewrite skipn_len_app, join_commas, fmt_d_dec. reflexivity.
Qed.
Lemma drows_print l : Forall gdesc_ok l -> Forall gdesc_printable l -> forall fuel, (length (gdescs_wire l) <= fuel)%nat -> gdesc_rows_go fuel (gdescs_wire l) = Ok (map gdesc_shown l).
Proof.
  induction l as [|e l IH]; intros Ho Hp fuel Hf; [destruct fuel; reflexivity|]. inversion Ho; inversion Hp; subst. cbn [gdescs_wire flat_map map] in *.
  rewrite app_length, gdesc_length in Hf. destruct fuel as [|f]; [lia|]. rewrite drow_step by auto. fold (gdescs_wire l) in *. rewrite IH by (auto; lia). reflexivity.
Qed.
Theorem gdescs_one xid fl l : Forall gdesc_ok l -> Forall gdesc_printable l -> part_ok (gdescs_wire l) xid fl ->
  mpgroupdesc2text_one (mp_wire 19 xid 7 fl (gdescs_wire l)) = Ok (map gdesc_shown l).
Proof.
  intros Ho Hp (Hx & Hfl & Hl). unfold mpgroupdesc2text_one. rewrite mp_unpack by (auto using in_bytes_1_19; unfold in_bytes; lia). cbn [bind]. change (7 =? 7) with true. cbn [assert bind].
  rewrite mp_slice. change (negb (19 =? 19)) with false. cbn match. cbv zeta. now apply drows_print.
Qed.
Theorem gdescs_print (ms : list (Z * Z * list gdesc)) :
  Forall (fun m => Forall (fun e => gdesc_ok e /\ gdesc_printable e) (snd m) /\ part_ok (gdescs_wire (snd m)) (fst (fst m)) (snd (fst m))) ms ->
  mpgroupdesc2text (flat_map (fun m => mp_wire 19 (fst (fst m)) 7 (snd (fst m)) (gdescs_wire (snd m))) ms) = Ok (lines (map gdesc_shown (flat_map snd ms))).
Proof.
  intros H. apply (parts_print mpgroupdesc2text_one 7 gdesc_wire gdesc_shown (fun e => gdesc_ok e /\ gdesc_printable e)); auto.
  intros xid fl l Hl Hp. apply Forall_and_inv in Hl as [H1 H2]. now apply gdescs_one.
Qed.
Lemma gdesc_good_shown e : good_gdesc e -> gdesc_shown e = gdesc_text e.
Proof. intros [_ H]. unfold gdesc_shown, gdesc_text. now apply buckets_commas. Qed.
Lemma same_case s : Forall2 letter_case s s.
Proof. induction s; constructor; auto. now left. Qed.
Lemma gdesc_text_written e : good_gdesc e -> writes_gdesc e (gdesc_text e).
Proof.
  intros [(Hd & Hb & Hl) Hg]. split.
  - unfold gdesc_text. apply commas_line. apply Forall_app. split.
    + apply Forall_cons; [|apply Forall_cons; [|constructor]]; [ol; try apply dec_line; apply lit_line; reflexivity|destruct (gd_type e); apply lit_line; reflexivity].
    + unfold buckets_texts. clear -Hg. induction Hg as [|b bs (H1 & H2 & _) _ IH]; [constructor|]. cbn [flat_map]. apply Forall_app. split; auto.
      constructor; [apply lit_line; reflexivity|]. now apply bucket_lines.
  - exists [HGroup (gd_id e); HType (gd_type e)], (printed_buckets (gd_type e) (gd_buckets e)). split; [|split].
    + unfold gdesc_text. cbn [app]. rewrite commas_tailed. unfold tailed. cbn [flat_map]. rewrite <- !app_assoc.
      apply (wde_head (HGroup (gd_id e)) [HType (gd_type e)] _ [] ($"group=" ++ dec (gd_id e))); [constructor| |].
      * apply (wd_id (dec (gd_id e))); [apply dec_literal; unfold in_bytes in Hd; lia|]. apply (assigned_plain $"group").
      * apply wdt_head; auto using comma_gap. { constructor. apply same_case. } constructor. fold (tailed (buckets_texts (gd_type e) (gd_buckets e))). now apply buckets_written.
    + now apply printed_buckets_ok.
    + unfold desc_of. cbn [fold_left apply_ghead fst snd]. rewrite printed_buckets_parts by auto. destruct e; reflexivity.
Qed.
Theorem gdescs_text_encode l xid : Forall good_gdesc l -> l <> [] -> in_bytes 4 xid -> Z.of_nat (16 + length (gdescs_wire l)) <= 65535 ->
  text2mpgroupdesc (lines (map gdesc_text l)) 19 xid = Ok (mp_wire 19 xid 7 0 (gdescs_wire l)).
Proof.
  intros H Hn Hx Hl. apply gdescs_encode; auto.
  - clear -H. induction H; cbn [map]; constructor; auto using gdesc_text_written.
  - eapply Forall_impl; [|exact H]. now intros e [? _].
Qed.
Lemma gdescs_good_shown l : Forall good_gdesc l -> map gdesc_shown l = map gdesc_text l.
Proof. induction 1; [reflexivity|]. cbn [map]. now rewrite IHForall, gdesc_good_shown. Qed.
Lemma good_gdescs l : Forall good_gdesc l -> Forall (fun e => gdesc_ok e /\ gdesc_printable e) l.
Proof. apply Forall_impl. intros e [H1 H2]. split; [exact H1|]. eapply Forall_impl; [|exact H2]. now intros b (_ & H & _). Qed.
