(** Group texts: reading buckets and groups. *)
From Coq Require Import Strings.Ascii.
From Verif Require Import Base PyNum Util PyLib OxmCodec OxmTables Oxm Nx Ofp4 Spec SpecOxm SpecOfp.
From Verif Require Import BaseFacts UtilFacts NumFacts OxmRead OxmPrint OxmFacts OxmFrame OxmMore TermFacts OfpTerm.
From Verif Require Import ActBase ActRead ActReadNx ActReadReg ActReadLearn ActPrint ActText ActFrame FlowRead FlowMod FlowText.

(** ** Buckets *)
Definition binfo_of (b : bucket) : binfo := BInfo (bk_weight b) (bk_port b) (bk_group b).
(** the rest of the text belongs to the next bucket *)
Definition stops (r : text) : Prop :=
  r = [] \/ exists h n y, get_token r = (h, n, y) /\ Forall filler h /\ startswith $"@" n = true.
Lemma stops_nonnil r h n y : get_token r = (h, n, y) -> startswith $"@" n = true -> r <> [].
Proof. intros E Hn ->. cbn in E. injection E as <- <- <-. discriminate. Qed.
Lemma bucket_stop fuel i acts r : stops r -> (length r <= fuel)%nat -> bucket_go fuel i acts r = Ok (i, acts, r).
Proof.
  intros [->|(h & n & y & E & Hh & Hn)] Hf; [destruct fuel; reflexivity|]. pose proof (stops_nonnil _ _ _ _ E Hn) as Hne.
  destruct fuel as [|f]; [destruct r; [congruence|cbn in Hf; lia]|]. destruct r as [|c r]; [congruence|]. cbn [bucket_go].
  rewrite E, (filler_no_eq h Hh). cbn [negb assert bind]. now rewrite Hn.
Qed.
Lemma bset_go name set f i acts u n s h r : assoc_t name bucket_fields = Some set -> Forall plain name -> name <> [] -> startswith $"@" name = false ->
  literal u n -> assigned name u s -> Forall filler h -> follow r ->
  bucket_go (S f) i acts (h ++ s ++ r) = bucket_go f (set i n) acts r.
Proof.
  intros Ef Hn Hn0 Hat Hl Ha Hh Hr. destruct (literal_plain _ _ Hl) as [Hu Hu0].
  destruct (assigned_tokens name u s h r) as (op & t & E1 & E2 & E3); auto. pose proof (assigned_nonnil name u s h r Ha) as Hne.
  destruct (h ++ s ++ r) as [|c0 s0] eqn:Es; [congruence|]. cbn [bucket_go]. rewrite E1, (filler_no_eq h Hh). cbn [negb assert bind]. rewrite Hat, Ef, E2, E3.
  cbn [assert bind]. rewrite (literal_alone _ _ Hl). cbn [bind]. rewrite Nat.eqb_refl. reflexivity.
Qed.
Lemma act_std a : exists t p, act_wire a = std_act t p.
Proof. destruct a; cbn [act_wire]; unfold nx_act, padded_act; cbv zeta; try destruct v2; eexists; eexists; reflexivity. Qed.
Lemma act_nonnil a : act_wire a <> [].
Proof. destruct (act_std a) as (t & p & ->). intros E. apply (f_equal (@length byte)) in E. unfold std_act in E. rewrite !app_length, !be_length in E. discriminate. Qed.
Lemma bact_go f i acts a u h r : writes_act a u -> act_ok a -> Forall filler h -> follow r ->
  bucket_go (S f) i acts (h ++ u ++ r) = bucket_go f i (acts ++ act_wire a) r.
Proof.
  intros Hw Hok Hh Hr. pose proof (act_reads a u h r Hw Hok Hh Hr) as E. destruct (act_first a u Hw Hok) as (c & u' & Eu & Hc).
  destruct (word_token h u r c u' Hh Eu (letter_plain c Hc)) as (x & y & Et & Exy).
  assert (Hne : h ++ u ++ r <> []) by (rewrite Eu; apply mid_nonnil; discriminate).
  destruct (h ++ u ++ r) as [|c0 s0] eqn:Es; [congruence|]. cbn [bucket_go]. rewrite Et, (filler_no_eq h Hh). cbn [negb assert bind].
  replace (startswith $"@" (c :: x)) with false by (cbn; destruct (Z.eqb_spec 64 c); [lia|reflexivity]).
  destruct (assoc_t (c :: x) bucket_fields) as [set|] eqn:Ef.
  - exfalso. (* then it would not be an action *)
    assert (N : c :: x = $"weight" \/ c :: x = $"watch_port" \/ c :: x = $"watch_group").
    { unfold bucket_fields in Ef. cbn [assoc_t] in Ef. destruct (text_eqb (c :: x) $"weight") eqn:Q1; [apply text_eqb_eq in Q1; auto|].
      destruct (text_eqb (c :: x) $"watch_port") eqn:Q2; [apply text_eqb_eq in Q2; auto|].
      destruct (text_eqb (c :: x) $"watch_group") eqn:Q3; [apply text_eqb_eq in Q3; auto|]. discriminate. }
    assert (B : forall b n, str2act (c0 :: s0) = Ok (b, n) -> b = []).
    { intros b n H. unfold str2act in H. rewrite Et in H. destruct N as [N|[N|N]]; rewrite N in H;
        (match type of H with context [parse_func ?w] => replace (parse_func w) with (Ok (w, @None text)) in H by reflexivity end);
        cbn [bind] in H; cbv zeta in H; (match type of H with context [assoc_t ?w str2act_tbl] => replace (assoc_t w str2act_tbl) with (@None (text -> bool -> res (bytes * nat))) in H by reflexivity end);
        cbn in H; congruence. }
    apply B in E. now apply act_nonnil in E.
  - rewrite E. cbn [bind]. assert (L : (0 < length h + length u)%nat) by (rewrite Eu; cbn; lia).
    destruct (Nat.ltb_spec 0 (length h + length u)); [|lia]. rewrite <- Es, app_assoc. rewrite (skipn_app_exact (length h + length u)) by (rewrite app_length; reflexivity). reflexivity.
Qed.
Lemma bitem_go f b i u h r : writes_bitem i u -> bitem_ok i -> Forall filler h -> follow r ->
  bucket_go (S f) (binfo_of b) (acts_wire (bk_acts b)) (h ++ u ++ r) = bucket_go f (binfo_of (apply_bitem b i)) (acts_wire (bk_acts (apply_bitem b i))) r.
Proof.
  intros Hw Hok Hh Hr. destruct b as [w p g l]. destruct Hw as [u n s Hl Ha|u n s Hl Ha|u n s Hl Ha|a u Ha]; cbn [bitem_ok] in Hok.
  - rewrite (bset_go $"weight" (fun i v => BInfo v (b_watch_port i) (b_watch_group i)) f _ _ u n s h r); auto; [pl|discriminate].
  - rewrite (bset_go $"watch_port" (fun i v => BInfo (b_weight i) v (b_watch_group i)) f _ _ u n s h r); auto; [pl|discriminate].
  - rewrite (bset_go $"watch_group" (fun i v => BInfo (b_weight i) (b_watch_port i) v) f _ _ u n s h r); auto; [pl|discriminate].
  - rewrite (bact_go f _ _ a u h r) by auto. cbn [apply_bitem bk_acts bk_weight bk_port bk_group binfo_of]. unfold acts_wire. rewrite flat_map_app. cbn [flat_map]. now rewrite app_nil_r.
Qed.
Lemma bitem_nonnil i u : writes_bitem i u -> bitem_ok i -> u <> [].
Proof.
  intros Hw Hok. destruct Hw as [u n s Hl Ha|u n s Hl Ha|u n s Hl Ha|a u Ha].
  1-3: intros ->; pose proof (assigned_nonnil _ _ _ [] [] Ha) as K; apply K; reflexivity.
  destruct (act_first a u Ha Hok) as (c & u' & -> & _). discriminate.
Qed.
Lemma bitems_follow l s : writes_bitems l s -> follow s.
Proof. intros []; [exact I|now apply gap_follow]. Qed.
Lemma bitems_go l s : writes_bitems l s -> forall b r fuel, Forall bitem_ok l -> follow r -> stops r -> (length (s ++ r) <= fuel)%nat ->
  bucket_go fuel (binfo_of b) (acts_wire (bk_acts b)) (s ++ r)
  = Ok (binfo_of (fold_left apply_bitem l b), acts_wire (bk_acts (fold_left apply_bitem l b)), r).
Proof.
  induction 1 as [|i l g u s Hg Hu Hs IH]; intros b r fuel Hok Hr Hst Hf.
  - now apply bucket_stop.
  - inversion Hok as [|? ? Hi Hok']; subst. pose proof (bitem_nonnil _ _ Hu Hi) as Hn. rewrite <- !app_assoc in *. rewrite !app_length in Hf.
    destruct fuel as [|f]; [destruct u; [congruence|cbn in Hf; lia]|].
    rewrite (bitem_go f b i u g (s ++ r)); auto using gap_filler; [|apply follow_app; eauto using bitems_follow]. cbn [fold_left]. apply IH; auto.
    rewrite app_length. destruct u; [congruence|cbn in Hf; lia].
Qed.
Lemma bitems_nonnil l s : writes_bitems l s -> l <> [] -> s <> [].
Proof. intros [|i l' g u r (c & x & -> & _) _ _] H; [congruence|discriminate]. Qed.
Lemma bucket_pack b : bucket_ok b ->
  pack [sH; sH; sI; sI; sx 4] [16 + Z.of_nat (length (acts_wire (bk_acts b))); bk_weight b; bk_port b; bk_group b]
  = Ok (be 2 (16 + Z.of_nat (length (acts_wire (bk_acts b)))) ++ be 2 (bk_weight b) ++ be 4 (bk_port b) ++ be 4 (bk_group b) ++ pad 4).
Proof.
  intros (Hw & Hp & Hg & _ & Hl). unfold bucket_wire in Hl. rewrite !app_length, !be_length, pad_length in Hl.
  assert (in_bytes 2 (16 + Z.of_nat (length (acts_wire (bk_acts b))))) by (apply in_bytes_2; lia). packs. reflexivity.
Qed.
Theorem bucket_reads t l s r : writes_bitems l s -> l <> [] -> Forall bitem_ok l -> bucket_ok (bucket_of t l) -> follow r -> stops r ->
  str2bucket (s ++ r) (gtype_id t) = Ok (bucket_wire (bucket_of t l), length s).
Proof.
  intros Hw Hn Hok Hb Hr Hst. unfold str2bucket.
  replace (BInfo (if gtype_id t =? OFPGT_SELECT then 1 else 0) OFPP_ANY OFPG_ANY) with (binfo_of (empty_bucket t)) by (destruct t; reflexivity).
  change (@nil byte) with (acts_wire (bk_acts (empty_bucket t))) at 1. rewrite (bitems_go l s Hw) by auto. cbn [bind].
  fold (bucket_of t l). set (b := bucket_of t l) in *. rewrite app_length. replace (length s + length r - length r)%nat with (length s) by lia.
  pose proof (bitems_nonnil _ _ Hw Hn). destruct (Nat.eqb_spec (length s) 0) as [E|_]; [destruct s; [congruence|discriminate]|].
  cbn [binfo_of b_weight b_watch_port b_watch_group]. rewrite bucket_pack by auto. cbn [bind]. f_equal. f_equal. unfold bucket_wire. rewrite <- !app_assoc. do 2 f_equal. lia.
Qed.

(** ** Lists of buckets *)
Lemma at_bucket g y : Forall filler g -> follow y -> get_token (g ++ $"@bucket" ++ y) = (g, $"@bucket", y).
Proof. intros. apply tok_plain; auto; [pl|discriminate]. Qed.
Lemma bucket_word_stops g y : Forall filler g -> follow y -> stops (g ++ $"@bucket" ++ y).
Proof. intros Hg Hy. right. exists g, $"@bucket", y. split; [now apply at_bucket|auto]. Qed.
Lemma buckets_follow ls s : writes_buckets ls s -> follow s.
Proof. intros []; [exact I|now apply gap_follow]. Qed.
Lemma buckets_stops ls s : writes_buckets ls s -> stops s.
Proof. intros [|l ls' g u r Hg Hl Hu Hr]; [now left|]. apply bucket_word_stops; auto using gap_filler. apply follow_app; eauto using bitems_follow, buckets_follow. Qed.
Lemma word_step f t g y : Forall filler g -> follow y -> group_buckets_go (S f) t (g ++ $"@bucket" ++ y) = group_buckets_go f t y.
Proof.
  intros Hg Hy. pose proof (at_bucket g y Hg Hy) as E. pose proof (bucket_word_stops g y Hg Hy) as Hs.
  assert (Hne : g ++ $"@bucket" ++ y <> []) by (apply mid_nonnil; discriminate). set (u := g ++ $"@bucket" ++ y) in *.
  assert (Es : str2bucket u t = Ok ([], 0%nat)).
  { unfold str2bucket. rewrite bucket_stop by auto. cbn [bind]. now rewrite Nat.sub_diag. }
  destruct u as [|c u'] eqn:Eu; [congruence|]. cbn [group_buckets_go]. rewrite Es. cbn [bind]. cbn [Nat.eqb negb]. rewrite E. reflexivity.
Qed.
Lemma bucket_step f t l s r : writes_bitems l s -> l <> [] -> Forall bitem_ok l -> bucket_ok (bucket_of t l) -> follow r -> stops r ->
  group_buckets_go (S f) (gtype_id t) (s ++ r) = ('(b, rest) <- group_buckets_go f (gtype_id t) r ;; Ok (bucket_wire (bucket_of t l) ++ b, rest)).
Proof.
  intros Hw Hn Hok Hb Hr Hst. pose proof (bucket_reads t l s r Hw Hn Hok Hb Hr Hst) as E. pose proof (bitems_nonnil _ _ Hw Hn) as Hs.
  assert (Hne : s ++ r <> []) by (destruct s; [congruence|discriminate]). assert (Hsk : skipn (length s) (s ++ r) = r) by apply skipn_len_app.
  destruct (s ++ r) as [|c u'] eqn:Eu; [congruence|]. cbn [group_buckets_go]. rewrite E. cbn [bind].
  destruct (Nat.eqb_spec (length s) 0) as [E0|_]; [destruct s; [congruence|discriminate]|]. cbn [negb]. rewrite Hsk. reflexivity.
Qed.
Definition bitems_ok (t : gtype) (l : list bitem) : Prop := Forall bitem_ok l /\ bucket_ok (bucket_of t l).
Lemma buckets_go t ls s : writes_buckets ls s -> forall fuel, Forall (bitems_ok t) ls -> (length s <= fuel)%nat ->
  group_buckets_go fuel (gtype_id t) s = Ok (buckets_wire (map (bucket_of t) ls), []).
Proof.
  induction 1 as [|l ls g u r Hg Hl Hu Hr IH]; intros fuel Hok Hf.
  - destruct fuel; reflexivity.
  - inversion Hok as [|? ? [Hi Hb] Hok']; subst. pose proof (bitems_nonnil _ _ Hu Hl) as Hn.
    assert (L : (length u > 0)%nat) by (destruct u; [congruence|cbn; lia]). rewrite !app_length in Hf. cbn [length] in Hf.
    change (length $"@bucket") with 7%nat in Hf. destruct fuel as [|[|f]]; [lia|lia|].
    rewrite word_step by (auto using gap_filler; apply follow_app; eauto using bitems_follow, buckets_follow).
    rewrite (bucket_step f t l u r) by eauto using buckets_follow, buckets_stops. rewrite IH by (auto; lia). reflexivity.
Qed.

(** ** Heads *)
Lemma literal_not_all u v : literal u v -> text_eqb (lower u) $"all" = false.
Proof.
  intros H. destruct (literal_first _ _ H) as (c & r & -> & Hc). cbn [lower map text_eqb]. destruct (text_eqb (lower_c c :: map lower_c r) $"all") eqn:E; auto.
  apply text_eqb_eq in E. injection E as E _. exfalso. revert E. unfold lower_c. chr_red. destruct ((65 <=? c) && (c <=? 90)) eqn:Q; [|destruct (Z.eqb_spec c 8490)]; lia.
Qed.
Lemma ghead_step f gid t h g u r : writes_ghead h u -> Forall filler g -> follow r ->
  group_head_go (S f) gid (gtype_id t) (g ++ u ++ r)
  = group_head_go f (fst (apply_ghead (gid, t) h)) (gtype_id (snd (apply_ghead (gid, t) h))) r.
Proof.
  intros Hw Hg Hr. destruct Hw as [u n s Hl Ha|s Ha|t'].
  - destruct (literal_plain _ _ Hl) as [Hu Hu0]. destruct (assigned_tokens $"group" u s g r) as (op & y & E1 & E2 & E3); auto; [pl|discriminate|].
    pose proof (assigned_nonnil _ _ _ g r Ha) as Hne. destruct (g ++ s ++ r) as [|c0 s0] eqn:Es; [congruence|]. cbn [group_head_go]. rewrite E1.
    change (text_eqb $"group" $"group") with true. cbn match. rewrite E2, (literal_not_all _ _ Hl), (literal_alone _ _ Hl). cbn [bind]. rewrite Nat.eqb_refl. reflexivity.
  - destruct (assigned_tokens $"group" $"all" s g r) as (op & y & E1 & E2 & E3); auto; [pl|discriminate|pl|discriminate|].
    pose proof (assigned_nonnil _ _ _ g r Ha) as Hne. destruct (g ++ s ++ r) as [|c0 s0] eqn:Es; [congruence|]. cbn [group_head_go]. rewrite E1.
    change (text_eqb $"group" $"group") with true. cbn match. rewrite E2. reflexivity.
  - assert (E : get_token (g ++ gtype_name t' ++ r) = (g, gtype_name t', r)) by (apply tok_plain; auto; destruct t'; [pl|pl|pl|pl|discriminate..]).
    assert (Hne : g ++ gtype_name t' ++ r <> []) by (apply mid_nonnil; destruct t'; discriminate).
    destruct (g ++ gtype_name t' ++ r) as [|c0 s0] eqn:Es; [congruence|]. cbn [group_head_go]. rewrite E.
    replace (text_eqb (gtype_name t') $"group") with false by (destruct t'; reflexivity).
    replace (index_of (gtype_name t') ofpgt) with (Ok (gtype_id t')) by (destruct t'; reflexivity). reflexivity.
Qed.
Lemma head_end f gid t ls s : writes_buckets ls s -> (length s <= f)%nat -> group_head_go f gid t s = Ok (gid, t, s).
Proof.
  intros Hw Hf. destruct Hw as [|l ls g u r Hg Hl Hu Hr]; [destruct f; reflexivity|].
  assert (Hy : follow (u ++ r)) by (apply follow_app; eauto using bitems_follow, buckets_follow).
  pose proof (at_bucket g (u ++ r) (gap_filler _ Hg) Hy) as E. assert (Hne : g ++ $"@bucket" ++ u ++ r <> []) by (apply mid_nonnil; discriminate).
  destruct (g ++ $"@bucket" ++ u ++ r) as [|c0 s0] eqn:Es; [congruence|]. destruct f; [cbn in Hf; lia|]. cbn [group_head_go]. rewrite E. reflexivity.
Qed.
Lemma gtail_follow hs ls s : writes_gtail hs ls s -> follow s.
Proof. intros [ls' r H|]; [eauto using buckets_follow|now apply gap_follow]. Qed.
Lemma ghead_nonnil h u : writes_ghead h u -> u <> [].
Proof.
  intros [u' n s Hl Ha|s Ha|t]; [| |destruct t; discriminate]; intros ->; pose proof (assigned_nonnil _ _ _ [] [] Ha) as K; apply K; reflexivity.
Qed.
Lemma heads_go hs ls s : writes_gtail hs ls s -> forall fuel gid t, (length s <= fuel)%nat ->
  exists r, writes_buckets ls r
  /\ group_head_go fuel gid (gtype_id t) s = Ok (fst (fold_left apply_ghead hs (gid, t)), gtype_id (snd (fold_left apply_ghead hs (gid, t))), r).
Proof.
  induction 1 as [ls r Hr|h hs ls g u r Hg Hu Hr IH]; intros fuel gid t Hf.
  - exists r. split; auto. now apply (head_end fuel gid (gtype_id t) ls).
  - pose proof (ghead_nonnil _ _ Hu) as Hn. rewrite !app_length in Hf. assert (length u > 0)%nat by (destruct u; [congruence|cbn; lia]).
    destruct fuel as [|f]; [lia|]. rewrite (ghead_step f gid t h g u r) by eauto using gap_filler, gtail_follow. cbn [fold_left].
    destruct (apply_ghead (gid, t) h) as [gid' t'] eqn:E. cbn [fst snd]. apply IH. lia.
Qed.
Lemma group_head hs ls s : writes_group hs ls s -> let x := fold_left apply_ghead hs (0xffffffff, GAll) in
  exists r, group_head_go (length s) OFPG_ANY OFPGT_ALL s = Ok (fst x, gtype_id (snd x), r)
  /\ forall fuel t, Forall (bitems_ok t) ls -> (length r <= fuel)%nat -> group_buckets_go fuel (gtype_id t) r = Ok (buckets_wire (map (bucket_of t) ls), []).
Proof.
  intros Hw x. subst x. destruct Hw as [|h hs ls g u r Hg Hu Hr|l ls g u r Hg Hl Hu Hr].
  - exists []. split; [reflexivity|]. intros [|f] t _ _; reflexivity.
  - pose proof (ghead_nonnil _ _ Hu) as Hn. assert (Hlen : exists f, length (g ++ u ++ r) = S f /\ (length r <= f)%nat).
    { rewrite !app_length. assert (length u > 0)%nat by (destruct u; [congruence|cbn; lia]). exists (length g + length u + length r - 1)%nat. lia. }
    destruct Hlen as (f & -> & Hf). change OFPGT_ALL with (gtype_id GAll). rewrite (ghead_step f OFPG_ANY GAll h g u r) by eauto using gtail_follow.
    change OFPG_ANY with 0xffffffff. cbn [fold_left]. destruct (apply_ghead (0xffffffff, GAll) h) as [gid t] eqn:E. cbn [fst snd].
    destruct (heads_go hs ls r Hr f gid t Hf) as (r' & Hb & E'). exists r'. split; [exact E'|]. intros fuel t' Hok Hf'. now apply buckets_go.
  - exists (g ++ $"@bucket" ++ u ++ r). assert (Hy : follow (u ++ r)) by (apply follow_app; eauto using bitems_follow, buckets_follow).
    split.
    + pose proof (at_bucket g (u ++ r) Hg Hy) as E. assert (Hne : g ++ $"@bucket" ++ u ++ r <> []) by (apply mid_nonnil; discriminate).
      destruct (g ++ $"@bucket" ++ u ++ r) as [|c0 s0] eqn:Es; [congruence|]. cbn [length group_head_go]. rewrite E. reflexivity.
    + intros fuel t Hok Hf. inversion Hok as [|? ? [Hi Hb] Hok']; subst. pose proof (bitems_nonnil _ _ Hu Hl) as Hn.
      assert (L : (length u > 0)%nat) by (destruct u; [congruence|cbn; lia]). rewrite !app_length in Hf. change (length $"@bucket") with 7%nat in Hf.
      destruct fuel as [|[|f]]; [lia|lia|]. rewrite word_step by auto.
      rewrite (bucket_step f t l u r) by eauto using buckets_follow, buckets_stops. rewrite (buckets_go t ls r Hr) by (auto; lia). reflexivity.
Qed.
Lemma group_length cmd xid t id bs : length (group_wire cmd xid t id bs) = (16 + length (buckets_wire bs))%nat.
Proof. unfold group_wire. len. Qed.
Theorem group_encodes hs ls s cmd xid : writes_group hs ls s ->
  let id := fst (fold_left apply_ghead hs (0xffffffff, GAll)) in let t := snd (fold_left apply_ghead hs (0xffffffff, GAll)) in
  Forall (Forall bitem_ok) ls -> group_ok cmd xid t id (map (bucket_of t) ls) ->
  str2group s cmd xid = Ok (group_wire cmd xid t id (map (bucket_of t) ls)).
Proof.
  intros Hw id t Hi (Hc & Hx & Hd & Hb & Hl). destruct (group_head hs ls s Hw) as (r & E1 & E2). rewrite group_length in Hl.
  unfold str2group. rewrite E1. fold id t. cbn [bind]. rewrite E2 by (try apply Forall_and; auto; now apply Forall_map). cbn [bind]. cbn [length Nat.eqb assert bind].
  set (B := buckets_wire _) in *. assert (in_bytes 2 (16 + Z.of_nat (length B))) by (apply in_bytes_2; lia).
  assert (in_bytes 1 (gtype_id t)) by (destruct t; cbn; unfold in_bytes; cbn; lia). unfold group_fmt. packs. f_equal. unfold group_wire. fold B.
  rewrite <- !app_assoc. replace (Z.of_nat (16 + length B)) with (16 + Z.of_nat (length B)) by lia. reflexivity.
Qed.
