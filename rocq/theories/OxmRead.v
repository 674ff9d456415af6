(** Reading: each codec of oxm.py reads every text SpecOxm.writes allows. *)
From Verif Require Import Base PyNum Util PyLib OxmCodec OxmTables Oxm Spec SpecOxm.
From Verif Require Import BaseFacts UtilFacts NumFacts PyLibFacts.
From Coq Require Import Strings.Ascii.

(** ** plain characters: cannot be mistaken for a separator, "=", a bracket or a blank *)
Definition plain (c : Z) : Prop :=
  33 <= c <= 126 /\ c <> 44 /\ c <> 61 /\ c <> 40 /\ c <> 41 /\ c <> 123 /\ c <> 125 /\ c <> 91 /\ c <> 93 /\ c <> 60 /\ c <> 62.
Lemma plain_token_char c : plain c -> token_char c.
Proof.
  unfold plain, token_char, sep_char, eq_char. chr_red. intros H. split; lia.
Qed.
Lemma plain_not_opener c : plain c -> ~ opener c.
Proof. intros H [e He]. unfold plain in H. inversion He; subst; revert H; chr_red; lia. Qed.
Lemma plain_not_blank c : plain c -> ~ blank c.
Proof. unfold plain, blank. lia. Qed.
Lemma plain_closed (P : Z -> Prop) s : Forall plain s -> (forall c, plain c -> P c) -> closed P s.
Proof.
  intros H HP. induction H as [|c s Hc Hs IH]; constructor; auto. now apply plain_not_opener.
Qed.
Lemma plain_token s : Forall plain s -> token s.
Proof. intros H. apply plain_closed; auto. apply plain_token_char. Qed.
Lemma plain_solid s : Forall plain s -> s <> [] -> solid s.
Proof. intros H Hn. destruct s as [|c s]; [congruence|]. inversion H; subst. now apply plain_not_blank. Qed.

(** a token alone *)
Lemma get_token_alone s : Forall plain s -> s <> [] -> get_token s = ([], s, []).
Proof.
  intros H Hn. pose proof (get_token_complete [] s [] (or_introl (Forall_nil _)) (plain_token s H) (plain_solid s H Hn) I) as E.
  cbn [app] in E. now rewrite app_nil_r in E.
Qed.

(** ** sepby and join *)
Lemma join_sepby c l : join [c] l = sepby c l.
Proof.
  induction l as [|a l IH]; [reflexivity|]. destruct l as [|b l]; [reflexivity|].
  cbn [join sepby app]. do 2 f_equal. exact IH.
Qed.
Lemma quad_ipv4 l : quad l = ipv4_str l.
Proof. unfold quad, ipv4_str. apply join_sepby. Qed.

(** ** headers *)
Definition cls_of (c : class) : cls :=
  match c with Basic => COfb | Nxm0 => CNxm0 | Nxm1 => CNxm1 | Stratos => CStratos end.
Definition key_of (f : field) : key := (cls_of (fclass f), fnum f).
Lemma be1 v : be 1 v = [byte_of v].
Proof. reflexivity. Qed.
Lemma header_hdr f n hm : 0 <= fnum f < 128 ->
  header (key_of f) n hm = Ok (hdr f hm (if hm then 2 * Z.of_nat n else Z.of_nat n)).
Proof.
  intros Hf. unfold header, key_of. set (len := if hm then 2 * Z.of_nat n else Z.of_nat n).
  assert (0 <= len) as Hl by (subst len; destruct hm; lia).
  assert (forall L, 0 <= L -> in_range 1 (if 255 <? L then 255 else L) = true) as R1.
  { intros L HL. apply in_range_256. change (256 ^ Z.of_nat 1) with 256. destruct (Z.ltb_spec 255 L); lia. }
  assert (forall L, (if 255 <? L then 255 else L) = Z.min 255 L) as R2 by (intros L; destruct (Z.ltb_spec 255 L); lia).
  assert (Z.shiftl (fnum f) 1 + (if hm then 1 else 0) = 2 * fnum f + (if hm then 1 else 0)) as Es.
  { rewrite Z.shiftl_mul_pow2 by lia. change (2 ^ 1) with 2. lia. }
  assert (in_range 1 (Z.shiftl (fnum f) 1 + (if hm then 1 else 0)) = true) as R3.
  { rewrite Es. apply in_range_256. change (256 ^ Z.of_nat 1) with 256. destruct hm; lia. }
  unfold hdr. destruct (fclass f); cbn [cls_of class_id exp_id length Z.of_nat]; cbn [pack];
    rewrite R3, R1 by lia; cbn [bind];
    repeat match goal with |- context [in_range ?n (Zpos ?p)] =>
      let v := eval vm_compute in (in_range n (Zpos p)) in change (in_range n (Zpos p)) with v end;
    repeat match goal with |- context [in_range ?n 0] =>
      let v := eval vm_compute in (in_range n 0) in change (in_range n 0) with v end;
    cbn [bind]; rewrite !be_bytes_spec, Es, R2, !be1; cbn [app]; rewrite ?app_nil_r, ?(be_length 4);
    rewrite (Z.add_comm len); reflexivity.
Qed.
Lemma hdr_cat_wire f v m n rlen : 0 <= fnum f < 128 -> length v = n ->
  match m with Some m => length m = n | None => True end ->
  hdr_cat (key_of f) n (has_mask m) (v ++ mask_bytes m) rlen = Ok (wire (Tlv f v m), rlen).
Proof.
  intros Hf Hv Hm. unfold hdr_cat. rewrite header_hdr by auto. cbn [bind]. unfold wire. cbn [tfield tval tmask].
  rewrite app_length. do 3 f_equal. f_equal. destruct m; cbn [has_mask mask_bytes length] in *; lia.
Qed.
Lemma hdr_cat_plain f v n rlen : 0 <= fnum f < 128 -> length v = n ->
  hdr_cat (key_of f) n false v rlen = Ok (wire (Tlv f v None), rlen).
Proof. intros Hf Hv. rewrite <- (hdr_cat_wire f v None n) by auto. cbn [mask_bytes has_mask]. now rewrite app_nil_r. Qed.
Lemma hdr_cat_mask f v m n rlen : 0 <= fnum f < 128 -> length v = n -> length m = n ->
  hdr_cat (key_of f) n true (v ++ m) rlen = Ok (wire (Tlv f v (Some m)), rlen).
Proof. intros Hf Hv Hm. now rewrite <- (hdr_cat_wire f v (Some m) n) by auto. Qed.

(** ** integer literals *)
Lemma digit_plain c d : digit c = Some d -> plain c /\ c <> 47 /\ c <> 58 /\ c <> 46 /\ c <> 45.
Proof.
  unfold digit, plain. chr_red. intros H.
  destruct ((48 <=? c) && (c <=? 57)) eqn:E1; [lia|].
  destruct ((97 <=? c) && (c <=? 102)) eqn:E2; [lia|].
  destruct ((65 <=? c) && (c <=? 70)) eqn:E3; [lia|discriminate].
Qed.
Definition tidy (c : Z) : Prop := plain c /\ c <> 47 /\ c <> 58.
Lemma digits_tidy b s : Forall (digit_in b) s -> Forall tidy s.
Proof. apply Forall_impl. intros c (d & Hd & _). apply digit_plain in Hd. unfold tidy. tauto. Qed.
Lemma literal_tidy u v : literal u v -> Forall tidy u /\ u <> [].
Proof.
  unfold literal. intros H. remember (length u) as l. destruct H as [ds r Hn Hr|x ds r Hx Hn Hr|ds r Hn Hr|ds r Hn Hr H1 H2];
    destruct Hn as [Hnn Hds]; cbn [length] in Heql; rewrite app_length in Heql;
    (destruct r; [rewrite app_nil_r in *|cbn in Heql; lia]); pose proof (digits_tidy _ _ Hds) as Ht.
  - split; [|discriminate]. constructor; auto. unfold tidy, plain. chr_red. lia.
  - split; [|discriminate]. constructor; [unfold tidy, plain; chr_red; lia|]. constructor; auto.
    unfold tidy, plain. destruct Hx as [->| ->]; chr_red; lia.
  - split; [|discriminate]. constructor; auto. unfold tidy, plain. chr_red. lia.
  - split; auto.
Qed.
Lemma literal_app u v r : literal u v -> match r with [] => True | c :: _ => c = 47 \/ c = 58 end ->
  parseInt (u ++ r) = Ok (v, length u).
Proof.
  intros H Hr. apply reads_parseInt. unfold literal in H. remember (length u) as l.
  assert (forall b, stops b r) as Hst.
  { intros b. destruct r as [|c r]; [exact I|]. intros (d & Hd & _). apply digit_plain in Hd. lia. }
  destruct H as [ds r' Hn Hs|x ds r' Hx Hn Hs|ds r' Hn Hs|ds r' Hn Hs H1 H2];
    cbn [length] in Heql; rewrite app_length in Heql;
    (destruct r'; [rewrite app_nil_r in *|cbn in Heql; lia]); cbn [app].
  - now constructor.
  - now constructor.
  - now constructor.
  - constructor; auto. intros x r' _ ->. chr_red. destruct Hr; subst; lia.
Qed.
Lemma literal_alone u v : literal u v -> parseInt u = Ok (v, length u).
Proof. intros H. pose proof (literal_app u v [] H I) as E. now rewrite app_nil_r in E. Qed.
Lemma tidy_plain s : Forall tidy s -> Forall plain s.
Proof. apply Forall_impl. unfold tidy. tauto. Qed.
Lemma tidy_no c s : Forall tidy s -> c = 47 \/ c = 58 -> ~ In c s.
Proof. intros H Hc Hin. apply (proj1 (Forall_forall _ _) H) in Hin. unfold tidy in Hin. lia. Qed.

(** printed numbers are literals *)
Lemma dec_literal n : literal (dec n) n.
Proof. pose proof (reads_dec_text n [] (conj I I)) as H. rewrite app_nil_r in H. exact H. Qed.
Lemma hexw_literal w n : 0 <= n -> literal (hexw w n) n.
Proof. intros Hn. pose proof (reads_hex_text w n [] Hn I) as H. rewrite app_nil_r in H. exact H. Qed.
Lemma number_literal s n : 0 <= n -> literal (number s n) n.
Proof. intros H. destruct s; [apply dec_literal|now apply hexw_literal]. Qed.

(** ** reading: one lemma per codec *)
Lemma slash_text r : $"/" ++ r = 47 :: r. Proof. reflexivity. Qed.
Lemma colon_text r : $":" ++ r = 58 :: r. Proof. reflexivity. Qed.
Lemma skipn_one {A} (a : list A) c b : skipn (length a + 1) (a ++ c :: b) = b.
Proof. rewrite skipn_app_ge by lia. replace (length a + 1 - length a)%nat with 1%nat by lia. reflexivity. Qed.
Lemma sw_slash r : startswith $"/" (47 :: r) = true. Proof. destruct r; reflexivity. Qed.
Lemma enc_int f n s m u v mk : 0 <= fnum f < 128 -> writes (KInt n s m) u v mk ->
  uint_str2bin (key_of f) n (AText u) = Ok (wire (Tlv f v mk), length u).
Proof.
  intros Hf H. unfold uint_str2bin. inversion H; subst.
  - rewrite literal_alone with (v := v0) by auto. cbn [bind].
    rewrite skipn_all. cbn [startswith]. rewrite be_bytes_spec. apply hdr_cat_plain; auto. apply be_length.
  - rewrite slash_text, literal_app with (v := v0) by (auto; now left). cbn [bind].
    rewrite skipn_len_app, sw_slash, skipn_one. rewrite literal_alone with (v := v') by auto. cbn [bind].
    rewrite !be_bytes_spec, hdr_cat_mask by (auto; apply be_length). do 2 f_equal. rewrite app_length. cbn; lia.
Qed.
Lemma enc_le f n s m u v mk : 0 <= fnum f < 128 -> writes (KLe n s m) u v mk ->
  le_str2bin (key_of f) n (AText u) = Ok (wire (Tlv f v mk), length u).
Proof.
  intros Hf H. unfold le_str2bin. inversion H; subst.
  rewrite literal_alone with (v := v0) by auto. cbn [bind].
  rewrite skipn_all. cbn [startswith]. rewrite le_bytes_spec. apply hdr_cat_plain; auto. apply le_length.
Qed.
Lemma pack1 n v : in_bytes n v -> pack [FU n] [v] = Ok (be n v).
Proof.
  intros H. cbn [pack]. replace (in_range n v) with true by (symmetry; now apply in_range_256). cbn [bind].
  now rewrite be_bytes_spec, app_nil_r.
Qed.
Lemma land_wmask n p : Z.land p (wmask n) = p mod 256 ^ Z.of_nat n.
Proof.
  unfold wmask. destruct (pow256 (Z.of_nat n)) as [->|]; [|lia].
  rewrite <- Z.land_ones by lia. f_equal. rewrite Z.ones_equiv. lia.
Qed.
Lemma in_bytes_mod n p : in_bytes n (p mod 256 ^ Z.of_nat n).
Proof. apply Z.mod_pos_bound. apply Z.pow_pos_nonneg; lia. Qed.
Lemma port_scan_named p lo up : In (p, (lo, up)) reserved ->
  port_scan lo = Some (p, length lo) /\ port_scan up = Some (p, length up).
Proof.
  intros H. unfold reserved in H.
  repeat (destruct H as [H|H]; [injection H as <- <- <-; split; vm_compute; reflexivity|]). destruct H.
Qed.
Lemma port_scan_digit c u : is_hex c = true -> (48 <= c <= 57) -> port_scan (c :: u) = None.
Proof.
  intros _ H. unfold port_scan, ofpp. cbn [fold_left map].
  assert (forall k, k < 45 \/ 57 < k -> (k =? c) = false) as E by lia.
  cbn. rewrite !E by lia. reflexivity.
Qed.
Lemma port_scan_minus u : port_scan (45 :: u) = None.
Proof. reflexivity. Qed.
Lemma literal_first u v : literal u v -> exists c r, u = c :: r /\ (c = 45 \/ 48 <= c <= 57).
Proof.
  unfold literal. intros H. remember (length u) as l. destruct H as [ds r Hn Hs|x ds r Hx Hn Hs|ds r Hn Hs|ds r Hn Hs H1 H2]; chr_red.
  - eexists _, _. split; [reflexivity|lia].
  - eexists _, _. split; [reflexivity|lia].
  - eexists _, _. split; [reflexivity|lia].
  - destruct Hn as [Hn Hd]. destruct ds as [|c ds]; [congruence|]. eexists _, _. split; [reflexivity|].
    inversion Hd as [|? ? (d & Hc & Hlt)]; subst. unfold digit in Hc. revert Hc. chr_red.
    destruct ((48 <=? c) && (c <=? 57)) eqn:E1; [lia|].
    destruct ((97 <=? c) && (c <=? 102)) eqn:E2; [intros [= <-]; lia|].
    destruct ((65 <=? c) && (c <=? 70)) eqn:E3; [intros [= <-]; lia|discriminate].
Qed.
Lemma port_scan_literal u v : literal u v -> port_scan u = None.
Proof.
  intros H. apply literal_first in H as (c & r & -> & Hc).
  destruct Hc as [->|Hc]; [apply port_scan_minus|]. apply port_scan_digit; auto. unfold is_hex, is_dec. lia.
Qed.
Lemma enc_port f n u v mk : 0 <= fnum f < 128 -> writes (KPort n) u v mk ->
  port_str2bin (key_of f) n (AText u) = Ok (wire (Tlv f v mk), length u).
Proof.
  intros Hf H. unfold port_str2bin. inversion H; subst.
  - rewrite (port_scan_literal _ v0), (literal_alone _ v0) by auto. cbn [bind]. rewrite pack1 by auto. cbn [bind].
    apply hdr_cat_plain; auto. apply be_length.
  - match goal with Hin : In (p, (lo, up)) reserved |- _ => destruct (port_scan_named p lo up Hin) as [E1 E2] end.
    assert (port_scan u = Some (p, length u)) as E.
    { match goal with Ho : u = lo \/ u = up |- _ => destruct Ho; subst; auto end. }
    rewrite E. cbn [bind]. rewrite land_wmask, pack1 by apply in_bytes_mod. cbn [bind].
    rewrite be_mod. apply hdr_cat_plain; auto. apply be_length.
Qed.
Lemma pack_s8 v : -128 <= v < 128 -> pack [FS8] [v] = Ok (be 1 v).
Proof. intros H. cbn [pack]. replace ((-128 <=? v) && (v <? 128)) with true by lia. reflexivity. Qed.
Lemma enc_s8 f u v mk : 0 <= fnum f < 128 -> writes KS8 u v mk ->
  s8_str2bin (key_of f) (AText u) = Ok (wire (Tlv f v mk), length u).
Proof.
  intros Hf H. unfold s8_str2bin. inversion H; subst. rewrite (literal_alone _ v0) by auto. cbn [bind].
  rewrite pack_s8 by auto. cbn [bind]. now apply hdr_cat_plain.
Qed.
Lemma nth_error_len {A} (a : list A) c b : nth_error (a ++ c :: b) (length a) = Some c.
Proof. rewrite nth_error_app2, Nat.sub_diag by lia. reflexivity. Qed.
Lemma pack2 a b : in_bytes 2 a -> in_bytes 2 b -> pack [sH; sH] [a; b] = Ok (be 2 a ++ be 2 b).
Proof.
  intros Ha Hb. cbn [pack]. replace (in_range 2 a) with true by (symmetry; now apply in_range_256).
  replace (in_range 2 b) with true by (symmetry; now apply in_range_256). cbn [bind].
  now rewrite !be_bytes_spec, app_nil_r.
Qed.
Lemma enc_pkt f u v mk : key_of f = OFB "packet_type" -> 0 <= fnum f < 128 -> writes KPkt u v mk ->
  pkt_str2bin (AText u) = Ok (wire (Tlv f v mk), length u).
Proof.
  intros Ek Hf H. unfold pkt_str2bin. inversion H; subst. rewrite colon_text.
  rewrite (literal_app _ v0) by (auto; now right). cbn [bind]. unfold py_nth. rewrite nth_error_len. cbn [bind].
  change (58 =? 58) with true. cbn [assert bind]. rewrite skipn_one, (literal_alone _ v') by auto. cbn [bind].
  rewrite pack2 by auto. cbn [bind]. rewrite <- Ek. rewrite hdr_cat_plain; auto.
  - do 2 f_equal. rewrite app_length. cbn. lia.
Qed.

(** *** hex strings *)
Lemma digit_hex c d : digit c = Some d -> is_hex c = true /\ digit_val c = d /\ 0 <= d < 16.
Proof.
  unfold digit, is_hex, digit_val, is_dec, is_hexl, is_hexu. chr_red. intros H.
  destruct ((48 <=? c) && (c <=? 57)) eqn:E1; [injection H as <-; cbn; lia|].
  destruct ((97 <=? c) && (c <=? 102)) eqn:E2; [injection H as <-; cbn; lia|].
  destruct ((65 <=? c) && (c <=? 70)) eqn:E3; [injection H as <-; cbn; lia|discriminate].
Qed.
Lemma a2b_pairs ps b : Forall2 pair_of ps b -> forall r, a2b_hex (concat ps ++ r) = (x <- a2b_hex r ;; Ok (b ++ x)).
Proof.
  intros H. induction H as [|p x ps b Hp Hps IH]; intros r; cbn [concat app].
  - destruct (a2b_hex r); reflexivity.
  - destruct Hp as [c d x y Hc Hd]. apply digit_hex in Hc as (Hc & Ec & _), Hd as (Hd & Ed & _).
    cbn [app a2b_hex]. rewrite Hc, Hd, IH, Ec, Ed. cbn [andb]. destruct (a2b_hex r); cbn [bind]; auto.
    do 2 f_equal. change (byte_of ?z) with (z2b z). f_equal. lia.
Qed.
Lemma a2b_hex_of u b : hex_of u b -> a2b_hex u = Ok b.
Proof.
  intros (ps & H & ->). rewrite <- (app_nil_r (concat ps)), (a2b_pairs ps b H []). cbn. now rewrite app_nil_r.
Qed.
Lemma hex_of_tidy u b : hex_of u b -> Forall tidy u.
Proof.
  intros (ps & H & ->). induction H as [|p x ps b Hp Hps IH]; cbn [concat]; [constructor|].
  destruct Hp as [c d x y Hc Hd]. apply digit_plain in Hc, Hd. cbn [app].
  constructor; [unfold tidy; tauto|]. constructor; [unfold tidy; tauto|auto].
Qed.
Lemma hex_of_length u b : hex_of u b -> length u = (2 * length b)%nat.
Proof.
  intros (ps & H & ->). induction H as [|p x ps b Hp Hps IH]; cbn [concat]; [auto|].
  destruct Hp as [c d x y Hc Hd]. cbn [app length]. lia.
Qed.
Lemma byte_hex_pair b : pair_of (byte_hex b) b.
Proof.
  assert (exists c d x y, byte_hex b = [c; d] /\ digit c = Some x /\ digit d = Some y /\ byte_of (16 * x + y) = b)
    as (c & d & x & y & E & Hc & Hd & Hb).
  { destruct b; (eexists _, _, _, _; split; [vm_compute; reflexivity|]); (split; [vm_compute; reflexivity|]);
      (split; [vm_compute; reflexivity|]); vm_compute; reflexivity. }
  rewrite E, <- Hb. now constructor.
Qed.
Lemma byte_hexes_pairs l : Forall2 pair_of (map byte_hex l) l.
Proof. induction l as [|b l IH]; constructor; auto. apply byte_hex_pair. Qed.
Lemma hex_string_of l : hex_of (hex_string l) l.
Proof. exists (map byte_hex l). split; [apply byte_hexes_pairs|]. unfold hex_string. now rewrite flat_map_concat_map. Qed.
Lemma pad_mask_pad v m : pad_mask v m =
  (Nat.max (length v) (length m), fst (mask_pad v m) ++ mask_bytes (snd (mask_pad v m))).
Proof.
  unfold pad_mask, mask_pad, pad, zeros. cbn [fst snd mask_bytes].
  destruct (Nat.ltb_spec (length v) (length m)).
  - replace (length v - length m)%nat with 0%nat by lia. cbn [repeat]. rewrite app_nil_r, <- app_assoc. f_equal. lia.
  - replace (length m - length v)%nat with 0%nat by lia. cbn [repeat]. rewrite app_nil_r. f_equal. lia.
Qed.
Lemma mask_pad_wire f v m rlen : 0 <= fnum f < 128 ->
  (let '(len, p) := pad_mask v m in hdr_cat (key_of f) len true p rlen) =
  Ok (wire (Tlv f (fst (mask_pad v m)) (snd (mask_pad v m))), rlen).
Proof.
  intros Hf. rewrite pad_mask_pad. cbn [mask_pad fst snd mask_bytes].
  apply hdr_cat_mask; auto; unfold pad; rewrite app_length, repeat_length; lia.
Qed.
Lemma plain_slash u u' : Forall plain u -> Forall plain u' -> Forall plain (u ++ $"/" ++ u').
Proof. intros H1 H2. apply Forall_app. split; auto. rewrite slash_text. constructor; auto. unfold plain. lia. Qed.
Lemma slash_nonnil (u u' : text) : u ++ $"/" ++ u' <> [].
Proof. destruct u; discriminate. Qed.
Lemma enc_hex f u v mk : 0 <= fnum f < 128 -> writes KHex u v mk ->
  hex_str2bin (key_of f) (AText u) = Ok (wire (Tlv f v mk), length u).
Proof.
  intros Hf H. unfold hex_str2bin. inversion H as [| | | | | | | | | | |? ? Hh Hn|? v0 u' v' Hh Hh'| | | | | | | | | | | | |]; subst.
  - pose proof (hex_of_tidy _ _ Hh) as Ht. pose proof (hex_of_length _ _ Hh) as Hl.
    rewrite get_token_alone; [|now apply tidy_plain|intros ->; destruct v; cbn in Hl; [congruence|lia]].
    rewrite split1_none by (eapply tidy_no; eauto). rewrite (a2b_hex_of _ _ Hh). cbn [bind]. apply hdr_cat_plain; auto.
  - pose proof (hex_of_tidy _ _ Hh) as Ht. pose proof (hex_of_tidy _ _ Hh') as Ht'.
    rewrite get_token_alone; [|apply plain_slash; now apply tidy_plain|apply slash_nonnil].
    rewrite slash_text, split1_some by (eapply tidy_no; eauto).
    rewrite (a2b_hex_of _ _ Hh), (a2b_hex_of _ _ Hh'). cbn [bind]. now apply mask_pad_wire.
Qed.

Lemma F2_length {A B} (P : A -> B -> Prop) l m : Forall2 P l m -> length l = length m.
Proof. intros H. induction H; cbn; auto. Qed.

(** *** MAC addresses *)
Ltac pairs :=
  repeat match goal with
  | H : Forall2 pair_of (_ :: _) _ |- _ => inversion H; clear H; subst
  | H : Forall2 pair_of [] _ |- _ => inversion H; clear H; subst
  | H : pair_of _ _ |- _ => inversion H; clear H; subst
  end.
Lemma mac_scan_of u b r : mac_of u b -> exists hs ps, mac_scan (u ++ r) = Ok (hs, length u)
  /\ hs = concat ps /\ Forall2 pair_of ps b /\ length b = 6%nat /\ Forall plain u /\ ~ In 47 u /\ u <> [].
Proof.
  intros H.
  assert (forall ps, Forall2 pair_of ps b -> length ps = 6%nat -> mac_scan (u ++ r) = Ok (concat ps, length u) ->
    Forall plain u -> ~ In 47 u -> u <> [] ->
    exists hs ps, mac_scan (u ++ r) = Ok (hs, length u)
      /\ hs = concat ps /\ Forall2 pair_of ps b /\ length b = 6%nat /\ Forall plain u /\ ~ In 47 u /\ u <> []) as K.
  { intros ps H1 H2 H3 H4 H5 H6. exists (concat ps), ps. pose proof (F2_length _ _ _ H1). repeat split; auto. lia. }
  assert (forall c x, digit c = Some x -> is_hex c = true /\ plain c /\ c <> 47) as Kd.
  { intros c x Hc. pose proof (digit_hex _ _ Hc). pose proof (digit_plain _ _ Hc). tauto. }
  destruct H as [a0 b0 c0 d0 e0 f0 l H|a0 b0 c0 d0 e0 f0 l H|a0 b0 c0 d0 e0 f0 l H|a0 b0 c0 d0 e0 f0 l H];
    apply (K _ H eq_refl); clear K; pairs;
    repeat match goal with E : digit _ = Some _ |- _ => apply Kd in E; destruct E as (? & ? & ?) end;
    try (cbn [app sepby]; discriminate).
  all: try (cbn [app sepby]; unfold mac_scan, mac_rxs; chr_red; cbn;
    repeat match goal with E : is_hex ?c = true |- context [is_hex ?c] => rewrite E end; cbn;
    change (is_hex 46) with false; change (is_hex 58) with false; change (is_hex 45) with false; cbn; reflexivity).
  all: cbn [app sepby]; chr_red.
  all: try (cbn [In]; intros C; repeat (destruct C as [C|C]; [congruence|]); destruct C).
  all: repeat (constructor; [first [assumption|unfold plain; lia]|]); constructor.
Qed.
Lemma enc_mac f u v mk : 0 <= fnum f < 128 -> writes KMac u v mk ->
  mac_str2bin (key_of f) (AText u) = Ok (wire (Tlv f v mk), length u).
Proof.
  intros Hf H. unfold mac_str2bin. inversion H as [| | | |? ? Hh|? v0 u' v' Hh Hh'| | | | | | | | | | | | | | | | | | | |]; subst.
  - destruct (mac_scan_of u v [] Hh) as (hs & ps & E & -> & Hp & Hl & Hu & _). rewrite app_nil_r in E. rewrite E.
    cbn [bind]. rewrite skipn_all. cbn [startswith]. rewrite <- (app_nil_r (concat ps)), (a2b_pairs _ _ Hp). cbn [a2b_hex bind].
    rewrite (app_nil_r v). now apply hdr_cat_plain.
  - rewrite slash_text. destruct (mac_scan_of u0 v (47 :: u') Hh) as (hs & ps & E & -> & Hp & Hl & Hu & _). rewrite E.
    cbn [bind]. rewrite skipn_len_app, sw_slash, skipn_one.
    destruct (mac_scan_of u' v' [] Hh') as (hs' & ps' & E' & -> & Hp' & Hl' & Hu' & _). rewrite app_nil_r in E'. rewrite E'.
    cbn [bind]. rewrite (a2b_pairs _ _ Hp), <- (app_nil_r (concat ps')), (a2b_pairs _ _ Hp'). cbn [a2b_hex bind].
    rewrite (app_nil_r v'), hdr_cat_mask by auto. do 2 f_equal. rewrite app_length. cbn. lia.
Qed.

(** *** IP addresses *)
Lemma dec_plain c : is_dec c = true -> tidy c.
Proof. unfold is_dec, tidy, plain. lia. Qed.
Lemma ipv4_chars l : Forall plain (ipv4_str l) /\ ~ In 47 (ipv4_str l).
Proof.
  rewrite <- quad_ipv4. split.
  - apply Forall_forall. intros c Hc. apply quad_chars in Hc as [Hc| ->]; [now apply dec_plain|]. unfold plain. lia.
  - intros Hc. apply quad_chars in Hc as [Hc|Hc]; [|lia]. unfold is_dec in Hc. lia.
Qed.
Lemma ipv4_nonnil l : length l = 4%nat -> ipv4_str l <> [].
Proof.
  intros H. rewrite <- quad_ipv4. destruct l as [|b [|b' l]]; try discriminate. unfold quad. cbn [map]. rewrite join_cons.
  destruct (dec_byte b) as (c & s & -> & _). discriminate.
Qed.
Lemma enc_ipv4 f u v mk : 0 <= fnum f < 128 -> writes KIPv4 u v mk ->
  ipv4_str2bin (key_of f) (AText u) = Ok (wire (Tlv f v mk), length u).
Proof.
  intros Hf H. unfold ipv4_str2bin.
  inversion H as [| | | | | |? ? Hh|? v0 u' v' Hh Hh'| | | | | | | | | | | | | | | | | |]; subst.
  - destruct Hh as [Hl ->]. destruct (ipv4_chars v) as [Hp Hs].
    rewrite get_token_alone by (auto using ipv4_nonnil). rewrite split1_none by auto.
    rewrite <- quad_ipv4, inet_aton_quad by auto. cbn [bind]. now apply hdr_cat_plain.
  - destruct Hh as [Hl ->], Hh' as [Hl' ->]. destruct (ipv4_chars v) as [Hp Hs], (ipv4_chars v') as [Hp' Hs'].
    rewrite get_token_alone by (auto using plain_slash, slash_nonnil). rewrite slash_text, split1_some by auto.
    rewrite <- !quad_ipv4. unfold ipv4_mask. rewrite !inet_aton_quad by auto. cbn [bind]. now apply hdr_cat_mask.
Qed.

Lemma groups16_words l : groups16 l = words l.
Proof. reflexivity. Qed.
Lemma groups_str_eq g : grp_ok g -> groups_str g = groups g.
Proof.
  intros H. unfold groups_str, groups. rewrite join_sepby. f_equal. apply map_ext_in. intros w Hw.
  apply hex_digits_eq. apply (proj1 (Forall_forall _ _) H) in Hw. lia.
Qed.
Lemma colons_str_eq g : grp_ok g -> flat_map (fun w => hex_digits w ++ $":") g = flat_map (fun w => digits 16 w ++ [58]) g.
Proof.
  intros H. induction H as [|w g Hw Hg IH]; [reflexivity|]. cbn [flat_map]. rewrite IH, hex_digits_eq by lia. reflexivity.
Qed.
Definition v6_char (c : Z) : Prop := is_hex c = true \/ c = 58 \/ c = 46.
Lemma v6_plain c : v6_char c -> plain c /\ c <> 47.
Proof. unfold v6_char, plain, is_hex, is_dec, is_hexl, is_hexu. lia. Qed.
Lemma hexd_char w c : grp_ok [w] -> In c (digits 16 w) -> is_hex c = true.
Proof.
  intros H Hc. inversion H; subst. apply digits_range in Hc as (k & -> & Hk); [|lia|lia].
  unfold digit_char, is_hex, is_dec, is_hexl, is_hexu. destruct (Z.ltb_spec k 10); lia.
Qed.
Lemma groups_chars g c : grp_ok g -> In c (groups g) -> v6_char c.
Proof.
  intros H. unfold groups. induction H as [|w g Hw Hg IH]; cbn [map]; [intros []|]. rewrite join_cons.
  intros Hc. apply in_app_or in Hc as [Hc|Hc].
  - left. apply (hexd_char w); auto. now constructor.
  - destruct g as [|w' g]; [destruct Hc|]. cbn [map] in *. apply in_app_or in Hc as [[<-|[]]|Hc]; [unfold v6_char; auto|auto].
Qed.
Lemma colons_chars g c : grp_ok g -> In c (flat_map (fun w => digits 16 w ++ [58]) g) -> v6_char c.
Proof.
  intros H Hc. apply in_flat_map in Hc as (w & Hw & Hc). apply in_app_or in Hc as [Hc|[<-|[]]]; [|unfold v6_char; auto].
  left. apply (hexd_char w); auto. constructor; [|constructor]. now apply (proj1 (Forall_forall _ _) H).
Qed.
Lemma quad_v6 l c : In c (quad l) -> v6_char c.
Proof. intros H. apply quad_chars in H as [H|H]; [left; unfold is_hex; now rewrite H|unfold v6_char; auto]. Qed.
Lemma pton6_of u l : ipv6_of u l -> pton6 u = Some l /\ (forall c, In c u -> v6_char c).
Proof.
  intros H. destruct H as [g l Hl Hg|a n c l Hn Hl Hg|a n l Hn Hl Hg].
  - rewrite groups16_words in Hg. subst g. destruct (wbytes_words 8 l Hl) as [E1 E2]. pose proof (words_ok l) as Hok.
    rewrite groups_str_eq, pton6_plain, E1 by auto. split; auto. intros c. now apply groups_chars.
  - rewrite groups16_words in Hg. destruct (wbytes_words 8 l Hl) as [E1 E2]. pose proof (words_ok l) as Hok.
    rewrite Hg in Hok, E2. apply grp_ok_app in Hok as [Ha Hok]. apply grp_ok_app in Hok as [_ Hc].
    rewrite !app_length, repeat_length in E2.
    rewrite !groups_str_eq by auto. change ($"::" ++ groups c) with (58 :: 58 :: groups c).
    rewrite (pton6_compress a n c) by (auto; lia). rewrite <- Hg, E1. split; auto.
    intros x Hx. apply in_app_or in Hx as [Hx|[<-|[<-|Hx]]]; [|unfold v6_char; tauto|unfold v6_char; tauto|].
    + now apply (groups_chars a).
    + now apply (groups_chars c).
  - rewrite groups16_words in Hg.
    assert (length (firstn 12 l) = 12%nat) as Hf by (rewrite firstn_length; lia).
    assert (length (skipn 12 l) = 4%nat) as Hs by (rewrite skipn_length; lia).
    destruct (wbytes_words 6 (firstn 12 l) Hf) as [E1 E2]. pose proof (words_ok (firstn 12 l)) as Hok.
    rewrite Hg in Hok, E2, E1. apply grp_ok_app in Hok as [_ Ha]. rewrite app_length, repeat_length in E2.
    rewrite colons_str_eq, <- quad_ipv4 by auto.
    change ($"::" ++ flat_map (fun w => digits 16 w ++ [58]) a ++ quad (skipn 12 l))
      with (58 :: 58 :: flat_map (fun w => digits 16 w ++ [58]) a ++ quad (skipn 12 l)).
    rewrite (pton6_v4 a n) by (auto; lia). split.
    + f_equal. rewrite wbytes_app, wbytes_zeros in E1. rewrite app_assoc, E1. apply firstn_skipn.
    + intros x [<-|[<-|Hx]]; [unfold v6_char; tauto|unfold v6_char; tauto|].
      apply in_app_or in Hx as [Hx|Hx]; [eapply colons_chars; eauto|eapply quad_v6; eauto].
Qed.
Lemma pton6_nonnil u l : pton6 u = Some l -> u <> [].
Proof. destruct u; [discriminate|discriminate]. Qed.
Lemma inet_pton6_of u l : ipv6_of u l ->
  inet_pton6 u = Ok l /\ Forall plain u /\ ~ In 47 u /\ u <> [] /\ length l = 16%nat.
Proof.
  intros H. destruct (pton6_of u l H) as [E Hc].
  assert (length l = 16%nat) by (destruct H; auto).
  unfold inet_pton6. rewrite bad_cstr_false.
  2:{ intros c Hi. apply Hc, v6_plain in Hi. unfold plain in Hi. lia. }
  rewrite E. repeat split; auto.
  - apply Forall_forall. intros c Hi. now apply v6_plain, Hc.
  - intros Hi. apply Hc, v6_plain in Hi. tauto.
  - eapply pton6_nonnil; eauto.
Qed.
Lemma enc_ipv6 f u v mk : 0 <= fnum f < 128 -> writes KIPv6 u v mk ->
  ipv6_str2bin (key_of f) (AText u) = Ok (wire (Tlv f v mk), length u).
Proof.
  intros Hf H. unfold ipv6_str2bin.
  inversion H as [| | | | | | | |? ? Hh|? v0 u' v' Hh Hh'| | | | | | | | | | | | | | | |]; subst.
  - destruct (inet_pton6_of u v Hh) as (E & Hp & Hs & Hn & Hl).
    rewrite get_token_alone, split1_none, E by auto. cbn [bind]. now apply hdr_cat_plain.
  - destruct (inet_pton6_of u0 v Hh) as (E & Hp & Hs & Hn & Hl).
    destruct (inet_pton6_of u' v' Hh') as (E' & Hp' & Hs' & Hn' & Hl').
    rewrite get_token_alone by (auto using plain_slash, slash_nonnil). rewrite slash_text, split1_some by auto.
    unfold ipv6_mask. rewrite E, E'. cbn [bind]. now apply hdr_cat_mask.
Qed.

(** *** SSID *)
Lemma safe_plain c : safe_char c -> plain c /\ c <> 47.
Proof.
  unfold safe_char, plain. intros [H1 H2]. revert H2. chr_red. cbn [In]. intros H2.
  assert (forall k, In k [44; 47; 61; 40; 41; 123; 125; 91; 93; 60; 62] -> c <> k) as K.
  { intros k Hk ->. apply H2. exact Hk. }
  repeat split; try (apply K; cbn; tauto); lia.
Qed.
Lemma a2b_qp_plain v : Forall plain (map byte_val v) -> a2b_qp (map byte_val v) = Ok v.
Proof.
  intros H. apply (proj1 (Forall_map byte_val plain v)) in H. unfold a2b_qp.
  replace (forallb is_ascii (map byte_val v)) with true.
  2:{ symmetry. apply forallb_forall. intros c Hc. apply in_map_iff in Hc as (b & <- & Hb).
      apply (proj1 (Forall_forall _ _) H) in Hb. unfold plain in Hb. unfold is_ascii. lia. }
  f_equal. induction H as [|b v Hb Hv IH]; [reflexivity|]. cbn [map a2b_qp_go].
  unfold plain in Hb. destruct (Z.eqb_spec (byte_val b) 61); [lia|].
  rewrite IH. f_equal. change (byte_val b) with (b2z b). apply z2b_b2z.
Qed.
Lemma a2b_qp_safe v : Forall safe_byte v -> a2b_qp (map byte_val v) = Ok v.
Proof.
  intros H. apply a2b_qp_plain, Forall_map. eapply Forall_impl; [|exact H]. intros b Hb. now apply safe_plain.
Qed.
Lemma safe_text v : Forall safe_byte v -> Forall plain (map byte_val v) /\ ~ In 47 (map byte_val v).
Proof.
  intros H. split.
  - apply Forall_map. eapply Forall_impl; [|exact H]. intros b Hb. now apply safe_plain.
  - intros Hi. apply in_map_iff in Hi as (b & E & Hb). apply (proj1 (Forall_forall _ _) H) in Hb.
    apply safe_plain in Hb. lia.
Qed.
Lemma enc_ssid f u v mk : key_of f = STR "dot11_ssid" -> 0 <= fnum f < 128 -> writes KSsid u v mk ->
  ssid_str2bin (AText u) = Ok (wire (Tlv f v mk), length u).
Proof.
  intros Ek Hf H. unfold ssid_str2bin. rewrite <- Ek.
  inversion H as [| | | | | | | | | | | | |? Hs Hn|v0 u' v' Hs Hh| | | | | | | | | | |]; subst.
  - destruct (safe_text v Hs) as [Hp H47]. rewrite get_token_alone; [|auto|destruct v; [congruence|discriminate]].
    rewrite split_all_none by auto. unfold py_nth. cbn [nth_error bind]. rewrite a2b_qp_safe by auto. cbn [bind].
    now apply hdr_cat_plain.
  - destruct (safe_text v0 Hs) as [Hp H47]. pose proof (hex_of_tidy _ _ Hh) as Ht.
    rewrite get_token_alone; [|apply plain_slash; auto; now apply tidy_plain|apply slash_nonnil].
    rewrite slash_text, split_all_cons, split_all_none by (auto; eapply tidy_no; eauto).
    unfold py_nth. cbn [nth_error bind]. rewrite a2b_qp_safe by auto. cbn [bind]. rewrite (a2b_hex_of _ _ Hh). cbn [bind].
    now apply mask_pad_wire.
Qed.

(** *** channel *)
Lemma opt_literal_tidy u v : opt_literal u v -> Forall tidy u.
Proof. intros [|u' v' H]; [constructor|]. now apply literal_tidy in H. Qed.
Lemma sw_colon r : startswith $":" (58 :: r) = true. Proof. destruct r; reflexivity. Qed.
Lemma sw_colon_literal u v r : literal u v -> startswith $":" (u ++ r) = false.
Proof.
  intros H. apply literal_first in H as (c & s & -> & Hc). cbn. destruct (Z.eqb_spec 58 c); [lia|reflexivity].
Qed.
Lemma enc_chan f u v mk : key_of f = STR "channel" -> 0 <= fnum f < 128 -> writes KChan u v mk ->
  ch_str2bin (AText u) = Ok (wire (Tlv f v mk), length u).
Proof.
  intros Ek Hf H. unfold ch_str2bin. rewrite <- Ek.
  inversion H as [| | | | | | | | | | | | | | | | | | |u0 v0 u1 v1 L0 B0 L1 B1|u0 v0 u1 v1 x a y b L0 B0 L1 B1 Lx Bx Ly By| | | | |]; subst.
  - rewrite colon_text, (literal_app _ v0) by (auto; now right). cbn [bind]. unfold py_nth. rewrite nth_error_len. cbn [bind].
    change (58 =? 58) with true. cbn [assert bind]. rewrite skipn_one, (literal_alone _ v1) by auto. cbn [bind].
    rewrite pack2 by auto. cbn [bind]. cbv zeta.
    assert (length (u0 ++ 58%Z :: u1) = length u0 + 1 + length u1)%nat as El by (rewrite app_length; cbn; lia).
    rewrite <- El, skipn_all. cbn [startswith]. apply hdr_cat_plain; auto.
  - rewrite !colon_text, slash_text, (literal_app _ v0) by (auto; now right). cbn [bind].
    unfold py_nth. rewrite nth_error_len. cbn [bind].
    change (58 =? 58) with true. cbn [assert bind]. rewrite skipn_one, (literal_app _ v1) by (auto; now left). cbn [bind].
    rewrite pack2 by auto. cbn [bind]. cbv zeta.
    set (U := u0 ++ 58 :: u1 ++ 47 :: x ++ 58 :: y).
    assert (U = (u0 ++ 58 :: u1) ++ 47 :: x ++ 58 :: y) as EU by (unfold U; now rewrite <- app_assoc).
    assert (length (u0 ++ 58%Z :: u1) = length u0 + 1 + length u1)%nat as El by (rewrite app_length; cbn; lia).
    rewrite <- El. set (A := u0 ++ 58 :: u1) in *.
    rewrite EU, skipn_len_app, sw_slash, skipn_one.
    assert ((if startswith $":" (x ++ 58 :: y) then Ok (0, 0%nat) else parseInt (x ++ 58 :: y)) = Ok (a, length x)) as Ex.
    { inversion Lx; subst; [reflexivity|]. rewrite (sw_colon_literal _ a) by auto. now apply literal_app; [|right]. }
    rewrite Ex. cbn [bind].
    assert (A ++ 47 :: x ++ 58 :: y = (A ++ 47 :: x) ++ 58 :: y) as EU' by now rewrite <- app_assoc.
    assert (length (A ++ 47%Z :: x) = length A + 1 + length x)%nat as El' by (rewrite app_length; cbn; lia).
    rewrite EU', <- El', skipn_len_app, sw_colon, skipn_one, (literal_alone _ b) by auto. cbn [bind].
    rewrite pack2 by auto. cbn [bind]. rewrite hdr_cat_mask by (auto; rewrite app_length, !be_length; reflexivity).
    do 2 f_equal. rewrite !app_length in *. cbn [length] in *. lia.
Qed.

(** *** component fields *)
Lemma comp_item_of u v : opt_literal u v -> comp_item u = Ok v.
Proof.
  intros [|u' v' H]; [reflexivity|]. unfold comp_item. destruct (literal_tidy _ _ H) as [_ Hn].
  destruct u' as [|c r] eqn:E; [congruence|]. rewrite <- E in *. rewrite (literal_alone _ v') by auto. cbn [bind].
  rewrite Nat.eqb_refl. reflexivity.
Qed.
Lemma in_bytes_range n v : in_bytes n v -> in_range n v = true.
Proof. intros H. now apply in_range_256. Qed.
Definition packs_of (l : list (nat * nstyle)) : list fitem := map (fun p => FL (fst p)) l.
Lemma comp_pack l us b : comp_of l us b -> exists vs, mapM comp_item us = Ok vs /\ pack (packs_of l) vs = Ok b.
Proof.
  intros H. induction H as [|n s l u v us b Hu Hv Hc IH]; [exists []; auto|].
  destruct IH as (vs & E1 & E2). exists (v :: vs). cbn [mapM]. rewrite (comp_item_of _ _ Hu), E1. split; [reflexivity|].
  cbn [packs_of map pack fst]. rewrite in_bytes_range by auto. fold (packs_of l). rewrite E2. cbn [bind].
  now rewrite le_bytes_spec.
Qed.
Lemma comp_tidy l us b : comp_of l us b -> Forall (Forall tidy) us /\ length us = length l /\ length b = comp_size l.
Proof.
  intros H. induction H as [|n s l u v us b Hu Hv Hc (IH1 & IH2 & IH3)]; [repeat split; constructor|].
  split; [constructor; auto; eapply opt_literal_tidy; eauto|].
  split; [cbn [length]; lia|]. rewrite app_length, le_length. unfold comp_size in *. cbn [fold_right fst]. lia.
Qed.
Lemma sepby_chars c (P : Z -> Prop) l : P c -> Forall (Forall P) l -> Forall P (sepby c l).
Proof.
  intros Hc H. induction H as [|a l Ha Hl IH]; [constructor|]. destruct l as [|b l]; [auto|].
  cbn [sepby]. apply Forall_app. split; auto.
Qed.
Definition tame (c : Z) : Prop := plain c /\ c <> 47.
Lemma tidy_tame s : Forall tidy s -> Forall tame s.
Proof. apply Forall_impl. unfold tidy, tame. tauto. Qed.
Lemma tame_plain s : Forall tame s -> Forall plain s.
Proof. apply Forall_impl. unfold tame. tauto. Qed.
Lemma tame_no s : Forall tame s -> ~ In 47 s.
Proof. intros H Hi. apply (proj1 (Forall_forall _ _) H) in Hi. unfold tame in Hi. lia. Qed.
Lemma colon_tame : tame 58. Proof. unfold tame, plain. lia. Qed.
Lemma sepby_tame l : Forall (Forall tidy) l -> Forall tame (sepby 58 l).
Proof.
  intros H. apply sepby_chars; [apply colon_tame|]. eapply Forall_impl; [|exact H]. intros s. apply tidy_tame.
Qed.
Lemma split_sepby l : l <> [] -> Forall (Forall tidy) l -> split_all 58 (sepby 58 l) = l.
Proof.
  intros Hn H. rewrite <- join_sepby. apply split_all_join; auto. eapply Forall_impl; [|exact H].
  intros s Hs. eapply tidy_no; eauto.
Qed.
Lemma sepby_nonnil c (l : list text) : (2 <= length l)%nat -> sepby c l <> [].
Proof. destruct l as [|a [|b l]]; cbn [length]; try lia. intros _. cbn [sepby]. destruct a; discriminate. Qed.
Lemma comp_parse_of l us b : (2 <= length l)%nat -> comp_of l us b ->
  comp_parse (packs_of l) (sepby 58 us) = Ok b /\ Forall tame (sepby 58 us) /\ sepby 58 us <> [].
Proof.
  intros Hl H. destruct (comp_tidy _ _ _ H) as (Ht & Hn & _). destruct (comp_pack _ _ _ H) as (vs & E1 & E2).
  unfold comp_parse. rewrite split_sepby, E1; auto; [|destruct us; [cbn in Hn; lia|discriminate]]. cbn [bind].
  split; [auto|]. split; [now apply sepby_tame|]. apply sepby_nonnil. lia.
Qed.
Lemma packs_size l : calcsize (packs_of l) = comp_size l.
Proof. induction l as [|[n s] l IH]; [reflexivity|]. cbn. f_equal. exact IH. Qed.
Lemma enc_comp f l u v mk : 0 <= fnum f < 128 -> writes (KComp l) u v mk ->
  comp_str2bin (key_of f) (packs_of l) (AText u) = Ok (wire (Tlv f v mk), length u).
Proof.
  intros Hf H. unfold comp_str2bin. rewrite packs_size.
  inversion H as [| | | | | | | | | | | | | | | | | | | | |l0 us v0 Hl Hc|l0 us v0 us' v' Hl Hc Hc'| | |]; subst; chr_red.
  - destruct (comp_parse_of _ _ _ Hl Hc) as (E & Hp & Hn). destruct (comp_tidy _ _ _ Hc) as (_ & _ & Hs).
    rewrite get_token_alone, split1_none, E by (auto using tame_plain, tame_no). cbn [bind]. now apply hdr_cat_plain.
  - destruct (comp_parse_of _ _ _ Hl Hc) as (E & Hp & Hn). destruct (comp_tidy _ _ _ Hc) as (_ & _ & Hs).
    destruct (comp_parse_of _ _ _ Hl Hc') as (E' & Hp' & Hn'). destruct (comp_tidy _ _ _ Hc') as (_ & _ & Hs').
    rewrite get_token_alone by (auto using plain_slash, slash_nonnil, tame_plain).
    rewrite slash_text, split1_some, E, E' by (auto using tame_no). cbn [bind]. now apply hdr_cat_mask.
Qed.

(** *** VHT *)
Lemma vht_item_of i u v ts : opt_literal u v -> i <> 3%nat ->
  vht_items i (u :: ts) = (r <- vht_items (S i) ts ;; Ok (v :: r)).
Proof.
  intros H Hi. cbn [vht_items]. destruct (Nat.eqb_spec i 3); [lia|]. destruct H as [|u v H]; [reflexivity|].
  destruct (literal_tidy _ _ H) as [_ Hn]. destruct u as [|c r] eqn:E; [congruence|]. rewrite <- E in *.
  rewrite (literal_alone _ v) by auto. reflexivity.
Qed.
Lemma vht_item3_of m vm ts : hex_of m vm -> vht_items 3 (m :: ts) = (r <- vht_items 4 ts ;; Ok (map b2z vm ++ r)).
Proof.
  intros Hm. change (vht_items 3 (m :: ts)) with
    (p <- (b <- a2b_hex m ;; Ok (map b2z b)) ;; r <- vht_items 4 ts ;; Ok (p ++ r)).
  now rewrite (a2b_hex_of _ _ Hm).
Qed.
Lemma vht_parse_of u b : vht_of u b -> vht_parse u = Ok b /\ Forall tame u /\ u <> [] /\ length b = 12%nat.
Proof.
  intros H. destruct H as [a va b vb c vc m vm d vd e ve f vf Ha Ra Hb Rb Hc Rc Hm Lm Hd Rd He Re Hf Rf]. chr_red.
  assert (Forall (Forall tidy) [a; b; c; m; d; e; f]) as Ht.
  { repeat (constructor; [first [eapply opt_literal_tidy; eassumption|eapply hex_of_tidy; eassumption]|]). constructor. }
  split; [|split; [now apply sepby_tame|split; [apply sepby_nonnil; cbn; lia|rewrite !app_length, !le_length, Lm; reflexivity]]].
  unfold vht_parse. rewrite split_sepby by (auto; discriminate).
  rewrite (vht_item_of 0 a va), (vht_item_of 1 b vb), (vht_item_of 2 c vc) by (auto; lia).
  assert (vht_items 3 [m; d; e; f] = Ok (map b2z vm ++ [vd; ve; vf])) as E.
  { rewrite (vht_item3_of m vm) by auto.
    rewrite (vht_item_of 4 d vd), (vht_item_of 5 e ve), (vht_item_of 6 f vf) by (auto; lia). reflexivity. }
  rewrite E. cbn [bind].
  destruct vm as [|m1 [|m2 [|m3 [|m4 [|]]]]]; try discriminate. cbn [map app]. unfold vht_packs. cbn [pack].
  rewrite !in_bytes_range by (try assumption; unfold in_bytes; change (256 ^ Z.of_nat 1) with 256; apply b2z_range).
  cbn [bind]. rewrite !le_bytes_spec, ?app_nil_r.
  assert (forall x, le 1 (b2z x) = [x]) as E1 by (intros x; cbn [le]; change (byte_of (b2z x)) with (z2b (b2z x)); now rewrite z2b_b2z).
  rewrite !E1. reflexivity.
Qed.
Lemma enc_vht f u v mk : key_of f = STR "vht" -> 0 <= fnum f < 128 -> writes KVht u v mk ->
  vht_str2bin (AText u) = Ok (wire (Tlv f v mk), length u).
Proof.
  intros Ek Hf H. unfold vht_str2bin. rewrite <- Ek. change (calcsize vht_packs) with 12%nat.
  inversion H as [| | | | | | | | | | | | | | | | | | | | | | |u0 v0 Hv|u0 v0 u' v' Hv Hv'|]; subst.
  - destruct (vht_parse_of _ _ Hv) as (E & Hp & Hn & Hl).
    rewrite get_token_alone, split1_none, E by (auto using tame_plain, tame_no). cbn [bind]. now apply hdr_cat_plain.
  - destruct (vht_parse_of _ _ Hv) as (E & Hp & Hn & Hl). destruct (vht_parse_of _ _ Hv') as (E' & Hp' & Hn' & Hl').
    rewrite get_token_alone by (auto using plain_slash, slash_nonnil, tame_plain).
    rewrite slash_text, split1_some, E, E' by (auto using tame_no). cbn [bind]. now apply hdr_cat_mask.
Qed.

(** *** rate *)
Lemma parseFloat_int n c r : 0 <= n -> is_dec c = false -> c <> 46 ->
  parseFloat (dec n ++ c :: r) = Ok (PInt n, length (dec n)).
Proof.
  intros Hn Hc Hd. destruct (dec_digits n Hn) as [Hca Hv]. pose proof (canon_numeral 10 _ ltac:(lia) Hca) as [Hnn Hds].
  unfold parseFloat.
  assert (startswith $"-" (dec n ++ c :: r) = false) as E.
  { destruct (dec n) as [|k s]; [congruence|]. inversion Hds; subst. apply is_dec_iff in H1. unfold is_dec in H1.
    cbn. destruct (Z.eqb_spec 45 k); [lia|reflexivity]. }
  rewrite E. rewrite (longest_numeral 10 is_dec (dec n)); auto using is_dec_iff.
  2:{ intros Hs. apply is_dec_iff in Hs. congruence. }
  rewrite firstn_len_app, int_digits_numeral by (try lia; split; auto). cbn [bind]. rewrite skipn_len_app, Hv.
  cbn. destruct (Z.eqb_spec 46 c); [congruence|reflexivity].
Qed.
Definition rate_ok (r : Z) : bool :=
  match rate_str2bin (AText (rate_str r)) with
  | Ok (b, n) => bytes_eqb b ([xff; xff; x24; x05; xff; x00; xe0; x4d] ++ be 1 r) && Nat.eqb n (length (rate_str r))
  | _ => false
  end.
Lemma int_500_small z : z / 500 < 256 -> int_500 z = Ok (z / 500).
Proof.
  intros H. unfold int_500. assert (256 <= float_limit) as L by (vm_compute; discriminate). assert (z < 128000) as Hz.
  { pose proof (Z.div_mod z 500 ltac:(lia)). pose proof (Z.mod_pos_bound z 500 ltac:(lia)). lia. }
  generalize dependent float_limit. intros f L. destruct (Z.leb_spec (500 * f) z); [lia|reflexivity].
Qed.
Lemma int_500_val z v : int_500 z = Ok v -> v = z / 500.
Proof. unfold int_500. destruct (500 * float_limit <=? z); [discriminate|]. now intros [= <-]. Qed.
Lemma rate_all : forallb rate_ok (map Z.of_nat (seq 0 256)) = true.
Proof. vm_compute. reflexivity. Qed.
Lemma in_below n z : 0 <= z < Z.of_nat n -> In z (map Z.of_nat (seq 0 n)).
Proof. intros H. apply in_map_iff. exists (Z.to_nat z). split; [lia|]. apply in_seq. lia. Qed.
Lemma enc_rate f u v mk : fclass f = Stratos -> fnum f = 18 -> writes KRate u v mk ->
  rate_str2bin (AText u) = Ok (wire (Tlv f v mk), length u).
Proof.
  intros Ec Ek H.
  assert (key_of f = STR "rate") as Hk by (unfold key_of; rewrite Ec, Ek; reflexivity).
  assert (0 <= fnum f < 128) as Hf by (rewrite Ek; lia).
  inversion H as [| | | | | | | | | | | | | | | |r Hr|n Hn|n Hn| | | | | | |]; subst.
  - pose proof (proj1 (forallb_forall _ _) rate_all r (in_below 256 r ltac:(lia))) as E. unfold rate_ok in E.
    destruct (rate_str2bin (AText (rate_str r))) as [[b n]| |] eqn:Er; try discriminate.
    apply andb_true_iff in E as [E1 E2]. apply bytes_eqb_eq in E1. apply Nat.eqb_eq in E2. subst. do 2 f_equal.
    unfold wire. cbn [tfield tval tmask has_mask mask_bytes]. rewrite app_nil_r, be_length. unfold hdr. rewrite Ec, Ek. reflexivity.
  - unfold rate_str2bin. change $"M" with [77].
    rewrite parseFloat_int by (reflexivity || lia). cbn [bind]. unfold py_nth. rewrite nth_error_len. cbn [bind]. change (77 =? 75) with false. change (77 =? 77) with true.
    cbn [rate_m bind]. rewrite pack1 by (unfold in_bytes; change (256 ^ Z.of_nat 1) with 256; lia). cbn [bind].
    rewrite <- Hk, hdr_cat_plain by auto. do 2 f_equal; [|rewrite app_length; reflexivity]. do 3 f_equal. lia.
  - unfold rate_str2bin. change $"K" with [75].
    rewrite parseFloat_int by (reflexivity || lia). cbn [bind]. unfold py_nth. rewrite nth_error_len. cbn [bind]. change (75 =? 75) with true.
    cbn [rate_k]. rewrite int_500_small by (apply Z.div_lt_upper_bound; lia). cbn [bind]. rewrite pack1 by (unfold in_bytes; change (256 ^ Z.of_nat 1) with 256; lia). cbn [bind].
    rewrite <- Hk, hdr_cat_plain by auto. do 2 f_equal. rewrite app_length. reflexivity.
Qed.
