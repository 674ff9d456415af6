(** Printing arbitrary bytes: the action printers. *)
From Verif Require Import Base PyNum Util PyLib OxmCodec OxmTables Oxm Nx Ofp4 Spec SpecOxm SpecText SpecShow SpecOfp SpecShowOfp.
From Verif Require Import BaseFacts UtilFacts NumFacts PyLibFacts OxmRead OxmPrint OxmFacts OxmFrame OxmMore ActFrame GramLib OxmGram ShowLib.
From Verif Require Import TermFacts ActPrint ActReadNx FlowMod ShowAct.
From Coq Require Import Strings.Ascii.

Lemma assoc_z_in {A} k (l : list (Z * A)) v : assoc_z k l = Some v -> In (k, v) l.
Proof.
  induction l as [|[a x] l IH]; [discriminate|]. cbn [assoc_z]. destruct (Z.eqb_spec k a) as [->|N]; [intros [= ->]; now left|]. intros H. right. auto.
Qed.
Lemma assoc_z_none {A} k (l : list (Z * A)) : assoc_z k l = None <-> ~ In k (map fst l).
Proof.
  induction l as [|[a x] l IH]; [now split|]. cbn [assoc_z map fst In]. destruct (Z.eqb_spec k a) as [->|N]; [split; [discriminate|tauto]|].
  rewrite IH. split; intros H; [intros [K|K]; [congruence|tauto]|tauto].
Qed.
(** the number of bytes needed, and the words read *)
Ltac wd := unfold reaches in *; rewrite ?from_words; cbn [calcsize fold_right fwidth Nat.add];
  try match goal with |- context [(?n <=? length ?p)%nat] => destruct (Nat.leb_spec n (length p)) as [?L|?L] end; cbn [bind]; words; cbn [bind].
Ltac nums := rewrite ?fmt_d_dec; rewrite ?fmt_x_hexw by apply word_nonneg; cbn [Nat.sub].
Ltac seps := unfold commas; cbn [sepby]; repeat (rewrite <- app_assoc || rewrite <- app_comm_cons); reflexivity.

Lemma output_shown p t : output_act2str p = Ok t <-> std_shows 0 p t.
Proof.
  unfold output_act2str, unpack. cbn [calcsize fold_right fwidth Nat.add]. destruct (Nat.eqb_spec 12 (length p)) as [L|L].
  - cbn [bind]. words. rewrite port_str_eq. nums.
    assert ((if (word 4 0 p =? 0xfffffffd) && negb (word 2 4 p =? 0xffff) then Ok ($"output=" ++ port_text 4 (word 4 0 p) ++ $":" ++ hexw 0 (word 2 4 p)) else Ok ($"output=" ++ port_text 4 (word 4 0 p))) =
      Ok ($"output=" ++ port_text 4 (word 4 0 p) ++ (if (word 4 0 p =? 0xfffffffd) && negb (word 2 4 p =? 0xffff) then $":" ++ hex (word 2 4 p) else []))) as E
      by (destruct ((word 4 0 p =? 0xfffffffd) && negb (word 2 4 p =? 0xffff)); now rewrite ?app_nil_r).
    rewrite E. split; [intros [= <-]; now apply ss_output|]. intros H. remember 0 as ty. destruct H; try discriminate; [reflexivity|destruct k; discriminate..].
  - split; [discriminate|]. intros H. exfalso. remember 0 as ty. destruct H; try discriminate; try congruence; destruct k; discriminate.
Qed.
Lemma std_ok ty p t : std_shows ty p t -> exists f, assoc_z ty std_act2str_tbl = Some f /\ f p = Ok t /\ ty <> 25 /\ ty <> 0xffff.
Proof.
  intros H. destruct H as [p H|k|p H|p H|p H|p H|k p H].
  - exists output_act2str. repeat split; [|discriminate..]. apply output_shown. now constructor.
  - exists (generic_act2str (noarg_name k)). destruct k; repeat split; discriminate.
  - eexists. split; [reflexivity|]. split; [|split; discriminate]. unfold uint_act2str. wd; [|lia]. now nums.
  - eexists. split; [reflexivity|]. split; [|split; discriminate]. unfold uint_act2str. wd; [|lia]. now nums.
  - eexists. split; [reflexivity|]. split; [|split; discriminate]. unfold uint_act2str. wd; [|lia]. now nums.
  - eexists. split; [reflexivity|]. split; [|split; discriminate]. unfold uint_act2str. wd; [|lia]. now nums.
  - exists (push_act2str (ether_name k)). split; [destruct k; reflexivity|]. split; [|destruct k; split; discriminate].
    unfold push_act2str. wd; [|lia]. now nums.
Qed.
Lemma std_inv ty f p t : assoc_z ty std_act2str_tbl = Some f -> f p = Ok t -> std_shows ty p t.
Proof.
  intros E H. apply assoc_z_in in E.
  assert (forall k, generic_act2str (noarg_name k) p = Ok t -> std_shows (noarg_type k) p t) as G.
  { intros k K. unfold generic_act2str in K. destruct (bytes_eqb p (zeros 4)) eqn:Eb; [|discriminate]. cbn [assert bind] in K. injection K as <-.
    apply bytes_eqb_eq in Eb. subst p. apply ss_noarg. }
  assert (forall k, push_act2str (ether_name k) p = Ok t -> std_shows (ether_type k) p t) as P.
  { intros k. unfold push_act2str. wd; [|discriminate]. nums. intros [= <-]. now apply ss_ether. }
  unfold std_act2str_tbl in E. cbn [In] in E.
  repeat (destruct E as [E|E]; [apply pair_equal_spec in E as [<- <-]|]); [..|contradiction].
  1: now apply output_shown.
  all: try (first [apply (G CopyTtlOut)|apply (G CopyTtlIn)|apply (G DecMplsTtl)|apply (G PopVlan)|apply (G DecNwTtl)|apply (G PopPbb)]; exact H).
  all: try (first [apply (P PushVlan)|apply (P PushMpls)|apply (P PopMpls)|apply (P PushPbb)]; exact H).
  all: revert H; unfold uint_act2str; wd; [|discriminate]; nums; intros [= <-]; now constructor.
Qed.

(** ** Nicira actions *)
Lemma resubmit_port_eq p : resubmit_port p = nx_port_str p.
Proof. unfold resubmit_port, nx_port_str. now rewrite fmt_d_dec. Qed.
Lemma resubmit_shown p t : resubmit_act2str p = Ok t <-> reaches 2 p /\ t = $"resubmit(" ++ nx_port_str (word 2 0 p) ++ $")".
Proof. unfold resubmit_act2str. wd; [|split; [discriminate|lia]]. rewrite resubmit_port_eq. split; [intros [= <-]; now split|now intros [_ ->]]. Qed.
Lemma resubmit_table_shown p t : resubmit_table_act2str p = Ok t <->
  reaches 3 p /\ t = $"resubmit_table(" ++ nx_port_str (word 2 0 p) ++ $"," ++ (if word 1 2 p =? 255 then $"all" else dec (word 1 2 p)) ++ $")".
Proof. unfold resubmit_table_act2str. wd; [|split; [discriminate|lia]]. rewrite resubmit_port_eq. nums. split; [intros [= <-]; now split|now intros [_ ->]]. Qed.
Lemma tunnel_shown n pre p t : set_tunnel_act2str (FU n) pre p = Ok t <-> reaches n p /\ t = pre ++ hex (word n 0 p) ++ $")".
Proof.
  unfold set_tunnel_act2str. rewrite from_words. cbn [calcsize fold_right fwidth Nat.add]. rewrite Nat.add_0_r. unfold reaches.
  destruct (Nat.leb_spec n (length p)); cbn [bind]; [|split; [discriminate|lia]]. words. nums. split; [intros [= <-]; now split|now intros [_ ->]].
Qed.
(** runs of 16-bit numbers *)
Lemma raw_repeat n : forall p, unpack_raw (repeat sH n) p = words n 0 p.
Proof.
  induction n as [|n IH]; intros p; [reflexivity|]. cbn [repeat]. rewrite raw_u, IH. unfold words. cbn [seq map]. f_equal.
  rewrite <- seq_shift, map_map. apply map_ext. intros i. rewrite word_skip. f_equal. lia.
Qed.
Lemma words_skip n o k p : words n o (skipn k p) = words n (k + o) p.
Proof. unfold words. apply map_ext. intros i. rewrite word_skip. f_equal. lia. Qed.
Lemma size_repeat n : calcsize (repeat sH n) = (2 * n)%nat.
Proof. induction n as [|n IH]; [reflexivity|]. cbn [repeat calcsize fold_right fwidth]. fold (calcsize (repeat sH n)). lia. Qed.
Lemma repeat_words n p o : unpack_from (repeat sH n) p o = if (o + 2 * n <=? length p)%nat then Ok (words n o p) else Raise StructError.
Proof. rewrite from_words, size_repeat, raw_repeat, words_skip, Nat.add_0_r. reflexivity. Qed.
Lemma hex_words n o p : map (fmt_x 0) (words n o p) = map hex (words n o p).
Proof. unfold words. rewrite !map_map. apply map_ext. intros i. rewrite fmt_x_hexw by apply word_nonneg. reflexivity. Qed.
Lemma commas_join l : join $"," l = commas l.
Proof. apply join_sepby. Qed.
Lemma ids_shown p t : cnt_ids_act2str p = Ok t <->
  reaches 2 p /\ reaches (6 + 2 * Z.to_nat (word 2 0 p)) p /\ t = $"cnt_ids(" ++ commas (map hex (words (Z.to_nat (word 2 0 p)) 6 p)) ++ $")".
Proof.
  unfold cnt_ids_act2str. wd; [|split; [discriminate|lia]]. rewrite repeat_words, Nat.mul_comm.
  destruct (Nat.leb_spec (6 + Z.to_nat (word 2 0 p) * 2) (length p)); cbn [bind]; [|split; [discriminate|intros (_ & K & _); lia]].
  rewrite commas_join, hex_words. split; [intros [= <-]; repeat split; try assumption; lia|now intros (_ & _ & ->)].
Qed.
(** offset and number of bits *)
Lemma first_bit_eq w : Z.shiftr w 6 = first_bit w.
Proof. now rewrite Z.shiftr_div_pow2 by lia. Qed.
Lemma bit_count_eq w : Z.land w 0x3f + 1 = bit_count w.
Proof. unfold bit_count. change 0x3f with (Z.ones 6). now rewrite Z.land_ones by lia. Qed.
Lemma bits_text_eq name lo n : bits_text name lo (lo + n) = bits_shown name lo n.
Proof. unfold bits_text, bits_shown. now rewrite !fmt_d_dec. Qed.
Lemma range_eq name lo n size : (if (lo =? 0) && (n =? size * 8) then name else bits_text name lo (lo + n)) = range_shown name lo n size.
Proof. unfold range_shown. now rewrite bits_text_eq, Z.mul_comm. Qed.
Lemma hdr_words p o : oxm_hdr p o = if (o + 4 <=? length p)%nat then Ok (word 2 o p, word 1 (o + 2) p, word 1 (o + 3) p) else Raise StructError.
Proof.
  unfold oxm_hdr. rewrite from_words. cbn [calcsize fold_right fwidth Nat.add]. destruct (o + 4 <=? length p)%nat; [|reflexivity]. cbn [bind]. words.
  rewrite !Nat.add_0_r, <- Nat.add_assoc. reflexivity.
Qed.
Lemma range_pair (d s : text) dlo n size : (if (dlo =? 0) && (n =? size * 8) then d ++ $"=" ++ s else bits_text d dlo (dlo + n) ++ $"=" ++ s) = range_shown d dlo n size ++ $"=" ++ s.
Proof. rewrite <- range_eq. now destruct ((dlo =? 0) && (n =? size * 8)). Qed.
Lemma move_shown p t : reg_move_act2str p = Ok t <-> nx_shows qpt 6 p t.
Proof.
  split.
  - unfold reg_move_act2str. wd; [|discriminate]. destruct (oxmid2str (skipn 6 p) false) as [s| |] eqn:Es; try discriminate. cbn [bind].
    rewrite hdr_words. cbn [Nat.add]. destruct (Nat.leb_spec 10 (length p)) as [L1|L1]; [|discriminate]. cbn [bind].
    set (doff := if word 2 6 p =? 0xffff then 14%nat else 10%nat). destruct (oxmid2str (skipn doff p) false) as [d| |] eqn:Ed; try discriminate. cbn [bind].
    rewrite hdr_words. destruct (Nat.leb_spec (doff + 4) (length p)) as [L2|L2]; [|discriminate]. cbn [bind].
    rewrite range_pair, range_eq, <- !app_assoc. intros [= <-]. apply named_first in Es, Ed. now apply (ns_move _ p s d doff).
  - intros H. remember 6 as ty. destruct H as [| | |p s d doff R1 Hs Ed R2 Hd| | | | | | | | | | | | |]; try discriminate. subst doff. unfold reg_move_act2str. wd; [|lia].
    apply named_first in Hs, Hd. rewrite Hs. cbn [bind]. rewrite hdr_words. cbn [Nat.add]. replace (10 <=? length p)%nat with true by (symmetry; now apply Nat.leb_le). cbn [bind].
    rewrite Hd. cbn [bind]. rewrite hdr_words. apply Nat.leb_le in R2. rewrite R2. cbn [bind].
    now rewrite range_pair, range_eq, <- !app_assoc.
Qed.
Lemma multipath_shown p t : multipath_act2str p = Ok t <-> nx_shows qpt 10 p t.
Proof.
  assert (forall v n, py_nth nx_hash_names (Z.to_nat v) = Ok n -> 0 <= v -> exists h, v = hash_id h /\ n = hash_name h) as Hh.
  { intros v n H Hv. unfold nx_hash_names in H. destruct (Z.to_nat v) as [|[|k]] eqn:E; [exists EthSrc|exists SymmetricL4|destruct k; discriminate]; injection H as <-; split; cbn; lia || reflexivity. }
  assert (forall v n, py_nth nx_mp_alg_names (Z.to_nat v) = Ok n -> 0 <= v -> exists h, v = mpalg_id h /\ n = mpalg_name h) as Ha.
  { intros v n H Hv. unfold nx_mp_alg_names in H. destruct (Z.to_nat v) as [|[|[|[|k]]]] eqn:E; [exists ModuloN|exists HashThreshold|exists MpHrw|exists IterHash|destruct k; discriminate]; injection H as <-; split; cbn; lia || reflexivity. }
  split.
  - unfold multipath_act2str, multipath_fmt. wd; [|discriminate].
    destruct (oxmid2str (skipn 18 p) false) as [d| |] eqn:Ed; try discriminate. cbn [bind]. apply named_first in Ed.
    destruct (py_nth nx_hash_names _) as [hn| |] eqn:Eh; try discriminate. cbn [bind]. apply Hh in Eh as (h & Eh & ->); [|apply word_nonneg].
    destruct (py_nth nx_mp_alg_names _) as [an| |] eqn:Ea; try discriminate. cbn [bind]. apply Ha in Ea as (a & Ea & ->); [|apply word_nonneg]. rewrite first_bit_eq, bit_count_eq, bits_text_eq. nums.
    intros H. assert (t = $"multipath(" ++ commas [hash_name h; dec (word 2 2 p); mpalg_name a; dec (word 2 8 p); hex (word 4 10 p);
                       bits_shown d (first_bit (word 2 16 p)) (bit_count (word 2 16 p))] ++ $")") as ->; [|now apply ns_multipath].
    injection H as <-. seps.
  - intros H. remember 10 as ty. destruct H as [| | | | | | |p h a d L Eh Ea Hd| | | | | | | | |]; try discriminate. unfold multipath_act2str, multipath_fmt. wd; [|lia].
    apply named_first in Hd. rewrite Hd. cbn [bind]. rewrite Eh, Ea.
    replace (py_nth nx_hash_names (Z.to_nat (hash_id h))) with (@Ok text (hash_name h)) by (destruct h; reflexivity).
    replace (py_nth nx_mp_alg_names (Z.to_nat (mpalg_id a))) with (@Ok text (mpalg_name a)) by (destruct a; reflexivity). cbn [bind]. rewrite first_bit_eq, bit_count_eq, bits_text_eq. nums. f_equal.
    seps.
Qed.
(** bundles *)
Lemma slave_eq p : slave_name p = port_text 2 p.
Proof.
  unfold slave_name, port_text. rewrite fmt_d_dec. unfold ofpp, reserved. cbn [fold_left find fst snd].
  repeat match goal with |- context [Z.land ?a 0xffff] => let v := eval vm_compute in (Z.land a 0xffff) in change (Z.land a 0xffff) with v end.
  repeat match goal with |- context [?a mod 256 ^ Z.of_nat 2] => let v := eval vm_compute in (a mod 256 ^ Z.of_nat 2) in change (a mod 256 ^ Z.of_nat 2) with v end.
  repeat match goal with |- context [?a =? p] => destruct (Z.eqb_spec a p); [subst p; reflexivity|] end. reflexivity.
Qed.
Lemma hash_inv v n : py_nth nx_hash_names (Z.to_nat v) = Ok n -> 0 <= v -> exists h, v = hash_id h /\ n = hash_name h.
Proof. intros H Hv. unfold nx_hash_names in H. destruct (Z.to_nat v) as [|[|k]] eqn:E; [exists EthSrc|exists SymmetricL4|destruct k; discriminate]; injection H as <-; split; cbn; lia || reflexivity. Qed.
Lemma bd_inv v n : py_nth nx_bd_alg_names (Z.to_nat v) = Ok n -> 0 <= v -> exists h, v = bdalg_id h /\ n = bdalg_name h.
Proof. intros H Hv. unfold nx_bd_alg_names in H. destruct (Z.to_nat v) as [|[|k]] eqn:E; [exists ActiveBackup|exists BdHrw|destruct k; discriminate]; injection H as <-; split; cbn; lia || reflexivity. Qed.
Lemma bundle_words p : unpack_from bundle_fmt p 0 = if (22 <=? length p)%nat then Ok [word 2 0 p; word 2 2 p; word 2 4 p; word 4 6 p; word 2 10 p; word 2 12 p; word 4 14 p] else Raise StructError.
Proof. unfold bundle_fmt. rewrite from_words. cbn [calcsize fold_right fwidth Nat.add]. destruct (22 <=? length p)%nat; [|reflexivity]. words. reflexivity. Qed.
Lemma slaves_eq l : join $"," (map slave_name l) = commas (map (port_text 2) l).
Proof. rewrite commas_join. f_equal. apply map_ext, slave_eq. Qed.
Lemma bundle_shown p t : bundle_act2str p = Ok t <-> nx_shows qpt 12 p t.
Proof.
  split.
  - unfold bundle_act2str. rewrite bundle_words. destruct (Nat.leb_spec 22 (length p)) as [L|L]; [|discriminate]. cbn [bind].
    rewrite repeat_words. change (calcsize bundle_fmt) with 22%nat. destruct (Nat.leb_spec (22 + 2 * Z.to_nat (word 2 10 p)) (length p)) as [L2|L2]; [|discriminate]. cbn [bind].
    destruct (py_nth nx_hash_names _) as [hn| |] eqn:Eh; try discriminate. cbn [bind]. apply hash_inv in Eh as (h & Eh & ->); [|apply word_nonneg].
    destruct (py_nth nx_bd_alg_names _) as [an| |] eqn:Ea; try discriminate. cbn [bind]. apply bd_inv in Ea as (a & Ea & ->); [|apply word_nonneg].
    destruct (oxmid2str (slice 6 10 p) false) as [s| |] eqn:Es; try discriminate. cbn [bind]. apply named_first in Es. rewrite slaves_eq. nums.
    intros H. assert (t = $"bundle(" ++ commas [hash_name h; dec (word 2 4 p); bdalg_name a; s; $"slaves(" ++ commas (map (port_text 2) (words (Z.to_nat (word 2 10 p)) 22 p)) ++ $")"] ++ $")") as ->;
      [|now apply ns_bundle].
    injection H as <-. seps.
  - intros H. remember 12 as ty. destruct H as [| | | | | | | |p h a s n L En L2 Ea Eh Hs| | | | | | | |]; try discriminate. subst n. unfold bundle_act2str. rewrite bundle_words.
    unfold reaches in *. apply Nat.leb_le in L, L2. rewrite L. cbn [bind]. rewrite repeat_words. change (calcsize bundle_fmt) with 22%nat. rewrite L2. cbn [bind].
    rewrite Eh, Ea. replace (py_nth nx_hash_names (Z.to_nat (hash_id h))) with (@Ok text (hash_name h)) by (destruct h; reflexivity).
    replace (py_nth nx_bd_alg_names (Z.to_nat (bdalg_id a))) with (@Ok text (bdalg_name a)) by (destruct a; reflexivity). cbn [bind].
    apply named_first in Hs. rewrite part_slice, Hs. cbn [bind]. rewrite slaves_eq. nums. f_equal. seps.
Qed.
Lemma bundle_load_shown p t : bundle_load_act2str p = Ok t <-> nx_shows qpt 13 p t.
Proof.
  split.
  - unfold bundle_load_act2str. rewrite bundle_words. destruct (Nat.leb_spec 22 (length p)) as [L|L]; [|discriminate]. cbn [bind].
    rewrite repeat_words. change (calcsize bundle_fmt) with 22%nat. destruct (Nat.leb_spec (22 + 2 * Z.to_nat (word 2 10 p)) (length p)) as [L2|L2]; [|discriminate]. cbn [bind].
    destruct (py_nth nx_hash_names _) as [hn| |] eqn:Eh; try discriminate. cbn [bind]. apply hash_inv in Eh as (h & Eh & ->); [|apply word_nonneg].
    destruct (py_nth nx_bd_alg_names _) as [an| |] eqn:Ea; try discriminate. cbn [bind]. apply bd_inv in Ea as (a & Ea & ->); [|apply word_nonneg].
    destruct (oxmid2str (slice 6 10 p) false) as [s| |] eqn:Es; try discriminate. cbn [bind]. apply named_first in Es.
    destruct (oxmid2str (slice 14 18 p) false) as [d| |] eqn:Ed; try discriminate. cbn [bind]. apply named_first in Ed.
    rewrite slaves_eq, first_bit_eq, bit_count_eq, bits_text_eq. nums.
    intros H. assert (t = $"bundle_load(" ++ commas [hash_name h; dec (word 2 4 p); bdalg_name a; s; bits_shown d (first_bit (word 2 12 p)) (bit_count (word 2 12 p));
      $"slaves(" ++ commas (map (port_text 2) (words (Z.to_nat (word 2 10 p)) 22 p)) ++ $")"] ++ $")") as ->;
      [|now apply ns_bundle_load].
    injection H as <-. seps.
  - intros H. remember 13 as ty. destruct H as [| | | | | | | | |p h a s d n L En L2 Ea Eh Hs Hd| | | | | | |]; try discriminate. subst n. unfold bundle_load_act2str. rewrite bundle_words.
    unfold reaches in *. apply Nat.leb_le in L, L2. rewrite L. cbn [bind]. rewrite repeat_words. change (calcsize bundle_fmt) with 22%nat. rewrite L2. cbn [bind].
    rewrite Eh, Ea. replace (py_nth nx_hash_names (Z.to_nat (hash_id h))) with (@Ok text (hash_name h)) by (destruct h; reflexivity).
    replace (py_nth nx_bd_alg_names (Z.to_nat (bdalg_id a))) with (@Ok text (bdalg_name a)) by (destruct a; reflexivity). cbn [bind].
    apply named_first in Hs, Hd. rewrite !part_slice, Hs. cbn [bind]. rewrite part_slice, Hd. cbn [bind]. rewrite slaves_eq, first_bit_eq, bit_count_eq, bits_text_eq. nums. f_equal. seps.
Qed.
(** output_reg, output_reg2 *)
Lemma output_reg_shown p t : output_reg_act2str p = Ok t <-> nx_shows qpt 15 p t.
Proof.
  split.
  - unfold output_reg_act2str. wd; [|discriminate]. destruct (oxmid2str (slice 2 6 p) false) as [s| |] eqn:Es; try discriminate. cbn [bind]. apply named_first in Es.
    unfold reg_text. rewrite first_bit_eq, bit_count_eq, range_eq. intros [= <-]. now apply ns_output_reg.
  - intros H. remember 15 as ty. destruct H as [| | | | | | | | | | |p s L Hs| | | | |]; try discriminate. unfold output_reg_act2str. wd; [|lia].
    apply named_first in Hs. rewrite part_slice, Hs. cbn [bind]. unfold reg_text. now rewrite first_bit_eq, bit_count_eq, range_eq.
Qed.
Lemma output_reg2_shown p t : output_reg2_act2str p = Ok t <-> nx_shows qpt 32 p t.
Proof.
  split.
  - unfold output_reg2_act2str. wd; [|discriminate]. destruct (oxmid2str (skipn 4 p) false) as [s| |] eqn:Es; try discriminate. cbn [bind]. apply named_first in Es.
    unfold reg_text. rewrite first_bit_eq, bit_count_eq, range_eq. intros [= <-]. now apply ns_output_reg2.
  - intros H. remember 32 as ty. destruct H as [| | | | | | | | | | | | | | |p s L Hs|]; try discriminate. unfold output_reg2_act2str. wd; [|lia].
    apply named_first in Hs. rewrite Hs. cbn [bind]. unfold reg_text. now rewrite first_bit_eq, bit_count_eq, range_eq.
Qed.
