(** Fields, bit ranges and single match fields: the reader's functions are the relations of
    SpecActText. *)
From Verif Require Import Base PyNum Util PyLib OxmCodec OxmTables Oxm Nx Spec SpecOxm SpecText SpecOfp SpecActText.
From Verif Require Import BaseFacts UtilFacts NumFacts PyLibFacts OxmRead OxmPrint OxmFacts OxmFrame OxmMore ActBase ActRead ActFrame ActDenote GramLib OxmGram OxmExact GramTok.
From Coq Require Import Strings.Ascii.

(** ** Names *)
Definition named (u : text) : Prop := u = [] \/ get_token u = ([], u, []).
Lemma next_named u h p r : next u h p r -> named p.
Proof.
  intros N. destruct p as [|c p]; [now left|right]. apply cutting_token. apply next_get in N. split.
  - apply get_token_sound in N as [_ [[H _]|[H _]]]; auto.
  - right. apply (name_solid _ _ _ _ N). discriminate.
Qed.
Lemma func_named p n a : named p -> func p n a -> named n.
Proof.
  intros H F%func_iff. destruct n as [|c n]; [now left|right]. destruct H as [->|H]; [discriminate F|].
  apply (name_token _ _ _ _ _ _ H F). discriminate.
Qed.
Lemma field_id_iff hm name b : named name -> str2oxmid name hm = Ok b <-> field_id hm name b.
Proof.
  intros Hn.
  assert (forall f, readable f -> name = fname f -> str2oxmid name hm = Ok (id_wire hm f)) as A.
  { intros f Hf ->. pose proof (ids_read hm [f]) as K. cbn [map sepby flat_map] in K. rewrite app_nil_r in K. apply K. constructor; [now apply accepted_readable|constructor]. }
  assert ((forall f, readable f -> name <> fname f) -> str2oxmid name hm = Ok []) as B.
  { intros Hno. destruct Hn as [->|Hn]; [reflexivity|]. destruct name as [|c nm]; [reflexivity|]. set (name := c :: nm) in *.
    unfold str2oxmid. cbn [length name str2oxmid_go]. fold name. rewrite Hn, str2bin_unknown.
    - destruct (text_eqb name $"_"); cbn [bind]; destruct (length nm); reflexivity.
    - intros K. apply in_map_iff in K as (f & Ef & Hf). apply (Hno f); auto. now apply accepted_readable. }
  split.
  - intros H. destruct (in_dec (list_eq_dec Z.eq_dec) name (map fname accepted_fields)) as [K|K].
    + apply in_map_iff in K as (f & Ef & Hf). apply accepted_readable in Hf. rewrite (A f Hf (eq_sym Ef)) in H. injection H as <-. now constructor.
    + assert (forall f, readable f -> name <> fname f) as K'. { intros f Hf ->. apply K. apply in_map. now apply accepted_readable. }
      rewrite (B K') in H. injection H as <-. now constructor.
  - intros [f Hf E|Hno]; auto.
Qed.
Lemma readable_name f g : readable f -> readable g -> fname f = fname g -> id_wire false f = id_wire false g /\ id_wire true f = id_wire true g.
Proof.
  intros Hf%accepted_readable Hg%accepted_readable E. split; [pose proof (ids_read false [f]) as K; pose proof (ids_read false [g]) as L|pose proof (ids_read true [f]) as K; pose proof (ids_read true [g]) as L];
    cbn [map sepby flat_map] in K, L; rewrite app_nil_r in K, L; rewrite E, L in K by auto; specialize (K ltac:(auto)); congruence.
Qed.
Lemma id_reads : forallb (fun f => match oxm_hdr (id_wire false f) 0, oxm_hdr (id_wire true f) 0 with
    | Ok (c, _, l), Ok (c', _, l') => (l =? len_byte false f) && (l' =? len_byte true f) && ((if c =? 0xffff then l - 4 else l) * 8 =? SpecActText.whole f)
    | _, _ => false end) accepted_fields = true.
Proof. vm_compute. reflexivity. Qed.
Lemma id_hdr f : readable f -> exists c k, oxm_hdr (id_wire false f) 0 = Ok (c, k, len_byte false f) /\ (if c =? 0xffff then len_byte false f - 4 else len_byte false f) * 8 = SpecActText.whole f.
Proof.
  intros Hf%accepted_readable. pose proof (proj1 (forallb_forall _ _) id_reads f Hf) as E. cbv beta in E.
  destruct (oxm_hdr (id_wire false f) 0) as [[[c k] l]|?|]; try discriminate. destruct (oxm_hdr (id_wire true f) 0) as [[[c' k'] l']|?|]; try discriminate.
  apply andb_true_iff in E as [[El _]%andb_true_iff E]. apply Z.eqb_eq in E, El. subst l. now exists c, k.
Qed.

(** ** Ranges of bits *)
Lemma pair_split a x y : split1 58 a = (x, Some y) <-> pair_text a x y.
Proof.
  split.
  - intros E. pose proof (split1_spec 58 a) as S. rewrite E in S. destruct S as [S1 S2]. split; [exact S1|exact S2].
  - intros [-> H]. now apply split1_some.
Qed.
Lemma pair_some a x y : pair_text a x y -> exists c a', a = c :: a'.
Proof. intros [-> _]. destruct x; cbn; eauto. Qed.
Lemma opt_or_inv d u o : opt_int u = Ok o -> py_or d u (opt_or o d).
Proof. intros E. apply py_or_iff. now rewrite E. Qed.
Lemma py_or_opt d u v : py_or d u v -> exists o, opt_int u = Ok o /\ opt_or o d = v.
Proof. intros H%py_or_iff. mons H. injection H as <-. eauto. Qed.
Lemma get_bits_iff u x lo n r : get_bits u = Ok (x, lo, n, r) <-> exists h p f, next u h p r /\ bit_range p f lo n /\ x = id_wire false f.
Proof.
  unfold get_bits. split.
  - destruct (get_token u) as [[h F] rest] eqn:Et. apply next_iff in Et. intros H. mons H.
    apply func_iff in Ea. apply field_id_iff in Ea0; [|eapply func_named; eauto using next_named].
    destruct Ea0 as [f Hf ->|]; [|discriminate]. destruct (id_hdr f Hf) as (c & k & E & Ew). rewrite E in Ea1. injection Ea1 as <- <- <-. rewrite Ew in H.
    destruct o as [[|c' a]|].
    + injection H as <- <- <- <-. exists h, F, f. split; [exact Et|]. split; [|reflexivity]. apply (range_whole _ _ (Some [])); auto. now right.
    + destruct (split1 58 (c' :: a)) as [y1 [y2|]] eqn:Es; [|discriminate]. mons H. injection H as <- <- <- <-. apply pair_split in Es.
      exists h, F, f. split; [exact Et|]. split; [|reflexivity]. apply (range_bits _ _ (c' :: a) y1 y2); auto using opt_or_inv.
    + injection H as <- <- <- <-. exists h, F, f. split; [exact Et|]. split; [|reflexivity]. apply (range_whole _ _ None); auto. now left.
  - intros (h & p & f & N & B & ->). apply next_get in N as Et. rewrite Et.
    destruct B as [a Hf Hp Ha|a y1 y2 lo hi Hf Hp Hs Hx Hy]; apply func_iff in Hp as Ef; rewrite Ef; cbn [bind];
      (rewrite (proj2 (field_id_iff false (fname f) (id_wire false f) (func_named _ _ _ (next_named _ _ _ _ N) Hp))) by (now constructor)); cbn [bind];
      destruct (id_hdr f Hf) as (c & k & E & Ew); rewrite E; cbn [bind]; rewrite Ew.
    + destruct Ha as [->| ->]; reflexivity.
    + destruct (pair_some _ _ _ Hs) as (c' & a' & ->). apply pair_split in Hs. rewrite Hs.
      apply py_or_opt in Hx as (o1 & -> & <-). apply py_or_opt in Hy as (o2 & -> & <-). reflexivity.
Qed.
(** a token and nothing else *)
Lemma get_bits_token p x lo n r : named p -> get_bits p = Ok (x, lo, n, r) -> exists f, bit_range p f lo n /\ x = id_wire false f /\ r = [].
Proof.
  intros [->|Hn] H; [discriminate|]. apply get_bits_iff in H as (h & q & f & N & B & ->). apply next_iff in Hn.
  destruct (next_fun _ _ _ _ _ _ _ N Hn) as (_ & -> & ->). eauto.
Qed.
Lemma token_get_bits p f lo n : named p -> bit_range p f lo n -> get_bits p = Ok (id_wire false f, lo, n, []).
Proof.
  intros [->|Hn] B.
  - destruct B as [a Hf Hp _|a x y lo hi Hf Hp _ _ _]; exfalso; apply func_iff in Hp; cbn in Hp; injection Hp as K _; apply accepted_readable, name_reg in Hf as [_ Hf]; congruence.
  - apply next_iff in Hn. apply get_bits_iff. eauto 7.
Qed.

(** ** One field *)
Lemma one_field_inv u b r : str2oxm_go (length u) false u = Ok (b, r) -> exists ts, one_field notation u ts r /\ b = flat_map wire ts.
Proof.
  destruct u as [|c u]; cbn [str2oxm_go length]; [intros [= <- <-]; exists []; split; [constructor|reflexivity]|].
  intros H. remember (c :: u) as w eqn:Ew. clear c u Ew. destruct (get_token w) as [[h nm] u1] eqn:E1. destruct (get_token u1) as [[op p] u2] eqn:E2. mon H. apply andb_true_iff in Eb as [Eh Eo]. apply negb_true_iff in Eh.
  mon H. mon H. destruct a0 as [bin len]. unfold str2bin in Ea. destruct (assoc_t nm str2bin_tbl) as [c'|] eqn:Ec; [|discriminate]. injection Ea as <-.
  apply str2bin_field in Ec as (f & Hf & <- & ->).
  pose proof (get_token_concat _ _ _ _ E1) as W1. pose proof (get_token_concat _ _ _ _ E2) as W2.
  destruct (get_token_sound _ _ _ _ E1) as [L1 T1]. destruct (get_token_sound _ _ _ _ E2) as [L2 T2].
  destruct (op_gap op L2 Eo) as (ga & gb & -> & Hga & Hgb). pose proof (head_filler h L1 Eh) as Hh.
  assert (gap_eq ga) as Hgap.
  { destruct ga as [|x ga]; [now left|right]. exists x, ga. destruct T1 as [[_ He]|[_ ->]]; [|discriminate W2]. rewrite <- W2 in He. cbn [app ends] in He.
    inversion Hga as [|? ? Hx Hr]; subst. repeat split; auto.
    - destruct He as [He|He]; auto. unfold eq_char in He. subst x. exfalso. unfold blank in Hx. cbn in Hx. lia.
    - intros ->. unfold blank in Hx. cbn in Hx. lia. }
  pose proof (body_solid _ _ _ _ E2 Eo) as Hso.
  assert (cutting p) as Hcut. { split; [tauto|]. destruct p; [now left|right]. destruct Hso as [K|K]; [discriminate|exact K]. }
  assert (w = h ++ fname f ++ ga ++ $"=" ++ gb ++ p ++ u2) as Ew. { rewrite <- W1, <- W2. rewrite <- !app_assoc. reflexivity. }
  destruct (Nat.eqb_spec len 0) as [->|Hl].
  - injection H as <- <-. apply nothing_field in Ea0 as [-> Hk]; auto. exists []. split; [|reflexivity].
    apply (of_stop _ f h ga gb u2 w); auto; [now apply accepted_readable|]. destruct T2 as [[_ T2]|[_ ->]]; [|exact I]. clear - Hso T2. destruct u2 as [|c u2]; [exact I|]. destruct Hso as [K|K]; [discriminate|]. cbn [app solid cut_off ends] in *.
    destruct T2 as [T2|T2]; [left|now right]. unfold sep_char in T2. unfold blank in K. chr_red. lia.
  - mon H. destruct (Nat.eqb_spec len (length p)) as [->|]; [|discriminate Eb]. injection H as <- <-.
    apply noted_field in Ea0 as (v & m & -> & Hn); auto. exists [Tlv f v m]. split; [|symmetry; apply app_nil_r].
    apply (of_item _ f h ga gb p v m u2 w); auto; [now apply accepted_readable|]. split; [|exact T2]. destruct p; [now destruct Hl|]. destruct Hso as [K|K]; [discriminate|exact K].
Qed.
Lemma one_field_go u ts r : one_field notation u ts r -> str2oxm_go (length u) false u = Ok (flat_map wire ts, r).
Proof.
  intros [|f h a b p v m r' u' Hf%accepted_readable Hh Ha Hb Hc Hn ->|f h a b r' u' Hf%accepted_readable Hh Ha Hb Hc Hk ->]; [reflexivity| |].
  - destruct (value_tokens f p a b h r' Hf Hc Ha Hb Hh) as [E1 E2].
    pose proof (name_some f h (a ++ $"=" ++ b ++ p ++ r') Hf) as Hne. destruct (h ++ fname f ++ a ++ $"=" ++ b ++ p ++ r') as [|c0 s0]; [congruence|].
    cbn [str2oxm_go length]. rewrite E1, E2, filler_no_eq by auto.
    assert (has_char 61 (a ++ 61 :: b) = true) as -> by (apply has_char_true, in_or_app; right; left; reflexivity).
    cbn [negb andb assert bind]. unfold str2bin. rewrite str2bin_reg by auto. cbn [bind].
    destruct Hc as [Hso Hc]. assert (cutting p) as Hcut by (split; [tauto|now right]). assert (p <> []) as Hp by (intros ->; destruct Hso).
    rewrite (read_field f p v m) by auto. cbn [bind]. destruct (Nat.eqb_spec (length p) 0) as [E|E]; [destruct p; [congruence|discriminate]|].
    rewrite Nat.eqb_refl. cbn [assert bind flat_map]. now rewrite app_nil_r.
  - destruct (stop_tokens f a b h r' Hf Hc Ha Hb Hh) as [E1 E2]. pose proof (name_some f h (a ++ $"=" ++ b ++ r') Hf) as Hne.
    destruct (h ++ fname f ++ a ++ $"=" ++ b ++ r') as [|c0 s0]; [congruence|].
    cbn [str2oxm_go length]. rewrite E1, E2, filler_no_eq by auto.
    assert (has_char 61 (a ++ 61 :: b) = true) as -> by (apply has_char_true, in_or_app; right; left; reflexivity).
    cbn [negb andb assert bind]. unfold str2bin. rewrite str2bin_reg by auto. cbn [bind]. destruct (nothing_read f Hf Hk) as [x ->]. reflexivity.
Qed.
Lemma one_field_sound u b n : str2oxm u false = Ok (b, n) -> exists ts r, one_field notation u ts r /\ b = flat_map wire ts /\ n = (length u - length r)%nat.
Proof. unfold str2oxm. intros H. mons H. injection H as <- <-. apply one_field_inv in Ea as (ts & Ho & ->). eauto. Qed.
Lemma one_field_read u ts r : one_field notation u ts r -> str2oxm u false = Ok (flat_map wire ts, (length u - length r)%nat).
Proof. intros H. unfold str2oxm. now rewrite (one_field_go _ _ _ H). Qed.
Lemma one_field_len N u t r : one_field N u [t] r -> (length r < length u)%nat /\ exists f, readable f /\ tfield t = f /\ exists p, N (fkind f) p (tval t) (tmask t).
Proof.
  inversion 1 as [|f h a b p v m r' u' Hf Hh Ha Hb Hc Hn E E1 E2 E3|]; subst. split; [|exists f; cbn; eauto].
  rewrite !app_length. destruct p; [destruct Hc as [[] _]|cbn; lia].
Qed.
