(** Lemmas on the runtime models of PyLib.v: hex, quoted-printable, IPv4 and IPv6
    notation read back what they print. *)
From Coq Require Import Strings.Ascii.
From Verif Require Import Base PyNum Util PyLib Spec BaseFacts UtilFacts NumFacts.

(** ** bytes as two hex digits *)
Definition hex2 (b : byte) : text := zpad 2 (hex_digits (byte_val b)).
Lemma fmt_02x_hex2 b : fmt_02x (b2z b) = hex2 b.
Proof. rewrite fmt_02x_eq by apply b2z_range. reflexivity. Qed.
Lemma hex2_shape b : exists x y, hex2 b = [x; y] /\ is_hex x = true /\ is_hex y = true
  /\ z2b (digit_val x * 16 + digit_val y) = b.
Proof. destruct b; (eexists _, _; split; [vm_compute; reflexivity|]); repeat split. Qed.
Lemma b2a_hex_eq l : b2a_hex l = flat_map hex2 l.
Proof. unfold b2a_hex. apply flat_map_ext. intros b. apply fmt_02x_hex2. Qed.
Lemma a2b_hex_app l s : a2b_hex (flat_map hex2 l ++ s) = (r <- a2b_hex s ;; Ok (l ++ r)).
Proof.
  induction l as [|b l IH]; cbn [flat_map app].
  - destruct (a2b_hex s); reflexivity.
  - destruct (hex2_shape b) as (x & y & E & Hx & Hy & Hv). rewrite E. cbn [app].
    cbn [a2b_hex]. rewrite Hx, Hy. cbn [andb]. rewrite IH, Hv. destruct (a2b_hex s); reflexivity.
Qed.
Lemma a2b_hex_hex2 l : a2b_hex (flat_map hex2 l) = Ok l.
Proof. rewrite <- (app_nil_r (flat_map hex2 l)), a2b_hex_app. cbn. now rewrite app_nil_r. Qed.
Lemma flat_hex2_length l : length (flat_map hex2 l) = (2 * length l)%nat.
Proof.
  induction l as [|b l IH]; [auto|]. cbn [flat_map length]. rewrite app_length, IH.
  destruct (hex2_shape b) as (x & y & -> & _). cbn. lia.
Qed.
Lemma flat_hex2_is_hex l c : In c (flat_map hex2 l) -> is_hex c = true.
Proof.
  rewrite in_flat_map. intros [b [_ H]]. destruct (hex2_shape b) as (x & y & E & Hx & Hy & _).
  rewrite E in H. destruct H as [<-|[<-|[]]]; auto.
Qed.

(** ** IPv4 *)
Definition quad (l : bytes) : text := join [chr "."] (map (fun b => dec (byte_val b)) l).
Lemma ntoa_quad l : ntoa l = quad l.
Proof. unfold ntoa, quad. f_equal. apply map_ext. intros b. apply fmt_d_dec. Qed.
Lemma dec_byte b : exists c s, dec (byte_val b) = c :: s /\ is_dec c = true /\ forallb is_dec s = true
  /\ (c = 48 -> s = []) /\ digits_val 10 (c :: s) = b2z b.
Proof. destruct b; (eexists _, _; split; [vm_compute; reflexivity|]); repeat split; intros H; discriminate H. Qed.
Lemma strtoul0_dec b r : match r with [] => True | c :: _ => c = 46 end ->
  strtoul0 (dec (byte_val b) ++ r) = (b2z b, r).
Proof.
  intros Hr. destruct (dec_byte b) as (c & s & -> & Hc & Hs & Hz & Hv).
  assert (match r with [] => True | c :: _ => is_dec c = false end) as Hrd.
  { destruct r; [auto|]. subst. reflexivity. }
  assert (match r with [] => True | c :: _ => is_oct c = false end) as Hro.
  { destruct r; [auto|]. subst. reflexivity. }
  destruct (Z.eq_dec c 48) as [->|Hn].
  - rewrite (Hz eq_refl) in *. cbn [app].
    assert (strtoul0 (48 :: r) = (digits_val 8 (take_while is_oct (48 :: r)), drop_while is_oct (48 :: r))) as ->.
    { destruct r as [|x [|h r]]; [reflexivity|reflexivity|]. subst x. reflexivity. }
    change (48 :: r) with ([48] ++ r). rewrite take_while_app, drop_while_app by auto.
    rewrite <- Hv. reflexivity.
  - assert (forall u, strtoul0 (c :: u) = (digits_val 10 (take_while is_dec (c :: u)), drop_while is_dec (c :: u))) as E.
    { intros u. unfold strtoul0. destruct c as [|p|p]; auto.
      repeat (destruct p as [p|p|]; auto). congruence. }
    cbn [app]. rewrite E. change (c :: s ++ r) with ((c :: s) ++ r).
    rewrite take_while_app, drop_while_app; auto; try (cbn; rewrite Hc; auto). now rewrite Hv.
Qed.
Lemma dec_byte_nil b r : exists c s, dec (byte_val b) ++ r = c :: s /\ is_dec c = true.
Proof. destruct (dec_byte b) as (c & s & -> & Hc & _). exists c, (s ++ r). auto. Qed.
Lemma aton_go_quad l : forall acc, l <> [] ->
  aton_go (length l - 1) acc (quad l) = Some (acc ++ l).
Proof.
  assert (forall k acc s, (exists c s', s = c :: s' /\ is_dec c = true) -> aton_go k acc s =
        (let '(v, rest) := strtoul0 s in
        if 0xffffffff <? v then None
        else
          let fin := if v <? 2 ^ (8 * Z.of_nat (S k))
                     then Some (acc ++ be_bytes (S k) v) else None in
          match rest with
          | [] => fin
          | d :: rest' =>
              if d =? 46 then
                match k with
                | O => None
                | S l' => if 255 <? v then None else aton_go l' (acc ++ [z2b v]) rest'
                end
              else if c_isspace d then fin else None
          end)) as U.
  { intros k acc s (c & s' & -> & Hc). destruct k; cbn [aton_go]; rewrite Hc; reflexivity. }
  induction l as [|b l IH]; intros acc Hn; [congruence|]. clear Hn.
  unfold quad. cbn [map]. rewrite join_cons. pose proof (b2z_range b) as Hb.
  destruct l as [|b' l].
  - cbn [map]. rewrite app_nil_r. cbn [length Nat.sub]. rewrite U.
    2:{ destruct (dec_byte_nil b []) as (c & s & E & H). rewrite app_nil_r in E. eauto. }
    rewrite <- (app_nil_r (dec (byte_val b))). rewrite strtoul0_dec by auto. cbn match zeta.
    destruct (Z.ltb_spec 0xffffffff (b2z b)); [lia|].
    destruct (Z.ltb_spec (b2z b) (2 ^ (8 * Z.of_nat 1))) as [_|H']; [|change (2 ^ (8 * Z.of_nat 1)) with 256 in H'; lia].
    do 2 f_equal. rewrite be_bytes_spec. cbn. f_equal.
    apply b2z_inj. change (byte_of (b2z b)) with (z2b (b2z b)). now rewrite z2b_b2z.
  - cbn [map] in *.
    replace (length (b :: b' :: l) - 1)%nat with (S (length l)) by (cbn; lia).
    rewrite U by apply dec_byte_nil. rewrite strtoul0_dec by reflexivity. cbn match zeta.
    destruct (Z.ltb_spec 0xffffffff (b2z b)); [lia|]. 
    destruct (Z.ltb_spec 255 (b2z b)); [lia|].
    specialize (IH (acc ++ [z2b (b2z b)]) ltac:(discriminate)).
    replace (length (b' :: l) - 1)%nat with (length l) in IH by (cbn; lia).
    transitivity (aton_go (length l) (acc ++ [z2b (b2z b)]) (quad (b' :: l))); [reflexivity|].
    rewrite IH, <- app_assoc, z2b_b2z. reflexivity.
Qed.
(** characters of printed numbers *)
Lemma dec_byte_chars b c : In c (dec (byte_val b)) -> is_dec c = true.
Proof.
  destruct (dec_byte b) as (x & s & -> & Hx & Hs & _). intros [<-|H]; auto.
  rewrite forallb_forall in Hs. auto.
Qed.
Lemma quad_chars l c : In c (quad l) -> is_dec c = true \/ c = 46.
Proof.
  unfold quad. induction l as [|b l IH]; cbn [map]; [intros []|].
  rewrite join_cons, in_app_iff. intros [H|H]; [left; eapply dec_byte_chars; eauto|].
  destruct (map (fun b0 => dec (byte_val b0)) l) eqn:E; [destruct H|].
  cbn in H. destruct H as [<-|H]; auto.
Qed.
Lemma bad_cstr_false s : (forall c, In c s -> 0 < c < 128) -> bad_cstr s = false.
Proof.
  intros H. unfold bad_cstr. destruct (existsb _ s) eqn:E; [|auto].
  apply existsb_exists in E as [c [Hc E]]. apply H in Hc. lia.
Qed.
Lemma inet_aton_quad l : length l = 4%nat -> inet_aton (quad l) = Ok l.
Proof.
  intros Hl. unfold inet_aton. rewrite bad_cstr_false.
  - change 3%nat with (4 - 1)%nat. rewrite <- Hl. rewrite aton_go_quad by (intros ->; discriminate).
    reflexivity.
  - intros c Hc. apply quad_chars in Hc as [Hc|Hc]; [unfold is_dec in Hc; lia|lia].
Qed.
Lemma inet_ntoa_quad l : length l = 4%nat -> inet_ntoa l = Ok (quad l).
Proof. intros Hl. unfold inet_ntoa. now rewrite Hl, ntoa_quad. Qed.

(** ** IPv6 *)
Lemma pton4_digits acc r s : forall v, forallb is_dec s = true -> (s <> [] -> 0 < v) -> 0 <= v ->
  v * 10 ^ Z.of_nat (length s) + digits_val 10 s <= 255 ->
  pton4_go acc (Some v) (s ++ r) = pton4_go acc (Some (v * 10 ^ Z.of_nat (length s) + digits_val 10 s)) r.
Proof.
  induction s as [|c s IH]; intros v Hs Hv0 Hv Hle.
  - cbn [app length]. do 2 f_equal. unfold digits_val. cbn. lia.
  - cbn [forallb] in Hs. apply andb_prop in Hs as [Hc Hs]. specialize (Hv0 ltac:(discriminate)).
    cbn [app pton4_go]. rewrite Hc. destruct (Z.eqb_spec v 0); [lia|].
    assert (digit_val c = c - 48) as Hd by (unfold digit_val; now rewrite Hc).
    assert (v * 10 ^ Z.of_nat (length (c :: s)) + digits_val 10 (c :: s)
            = (v * 10 + (c - 48)) * 10 ^ Z.of_nat (length s) + digits_val 10 s) as E.
    { unfold digits_val at 1. cbn [fold_left length]. rewrite digits_val_app, Hd, Nat2Z.inj_succ, Z.pow_succ_r by lia.
      ring. }
    rewrite E in *. assert (0 <= c - 48) by (unfold is_dec in Hc; lia).
    assert (0 <= digits_val 10 s).
    { rewrite digits_val_value.
      - clear -Hs. induction s as [|d s IH]; cbn [value]; [lia|]. cbn in Hs. apply andb_prop in Hs as [Hd Hs].
        specialize (IH Hs). unfold digit. chr_red. unfold is_dec in Hd. rewrite Hd.
        pose proof (Z.pow_nonneg 10 (Z.of_nat (length s))). nia.
      - apply Forall_forall. intros x Hx. rewrite forallb_forall in Hs. apply Hs in Hx.
        apply is_hex_iff. unfold is_hex. now rewrite Hx. }
    assert (1 <= 10 ^ Z.of_nat (length s)) by (apply Z.lt_pred_le, Z.pow_pos_nonneg; lia).
    destruct (Z.ltb_spec 255 (v * 10 + (c - 48))); [nia|].
    apply IH; auto; lia.
Qed.
Lemma pton4_dec b acc r : (length acc <= 3)%nat ->
  pton4_go acc None (dec (byte_val b) ++ r) = pton4_go acc (Some (b2z b)) r.
Proof.
  intros H. destruct (dec_byte b) as (c & s & -> & Hc & Hs & Hz & Hv).
  cbn [app pton4_go]. rewrite Hc.
  destruct (Nat.ltb_spec 3 (length acc)); [lia|].
  assert (digit_val c = c - 48) as Hd by (unfold digit_val; now rewrite Hc).
  assert (b2z b = (c - 48) * 10 ^ Z.of_nat (length s) + digits_val 10 s) as E.
  { rewrite <- Hv. unfold digits_val at 1. cbn [fold_left]. rewrite digits_val_app, Hd. ring. }
  rewrite pton4_digits; auto; rewrite <- ?E; auto.
  - intros Hn. unfold is_dec in Hc. destruct (Z.eq_dec c 48) as [->|]; [|lia]. now destruct (Hn (Hz eq_refl)).
  - unfold is_dec in Hc. lia.
  - pose proof (b2z_range b). lia.
Qed.
Lemma pton4_quad l : length l = 4%nat -> pton4_go [] None (quad l) = Some l.
Proof.
  destruct l as [|a [|b [|c [|d [|]]]]]; try discriminate. intros _. unfold quad. cbn [map join].
  chr_red. rewrite pton4_dec by (cbn; lia). cbn [app pton4_go]. change (is_dec 46) with false. cbn match.
  change (46 =? 46) with true. cbn [app length Nat.eqb].
  rewrite pton4_dec by (cbn; lia). cbn [app pton4_go]. change (is_dec 46) with false. cbn match.
  change (46 =? 46) with true. cbn [app length Nat.eqb].
  rewrite pton4_dec by (cbn; lia). cbn [app pton4_go]. change (is_dec 46) with false. cbn match.
  change (46 =? 46) with true. cbn [app length Nat.eqb].
  rewrite <- (app_nil_r (dec (byte_val d))), pton4_dec by (cbn; lia).
  cbn [pton4_go length Nat.eqb app]. now rewrite !z2b_b2z.
Qed.

(** a group of at most four hex digits *)
Lemma hexgroup w : 0 <= w < 65536 -> (length (digits 16 w) <= 4)%nat /\ (1 <= length (digits 16 w))%nat.
Proof.
  intros Hw. rewrite <- hex_digits_eq by lia. pose proof (hex_digits_canon w) as Hc.
  pose proof (hex_digits_value w ltac:(lia)) as Hv.
  destruct (hex_digits w) as [|c s] eqn:E; [destruct Hc as [_ []]|]. split; [|cbn; lia].
  destruct s as [|c1 s]; [cbn; lia|].
  assert (c <> 48). { intros ->. destruct Hc as [_ Hc]. specialize (Hc eq_refl). discriminate. }
  destruct Hc as [Hf _]. apply Forall_cons_iff in Hf as [[d [-> Hd]] Hf'].
  assert (1 <= d). { destruct (Z.eq_dec d 0) as [->|]; [|lia]. now destruct H. }
  change (digit_char d :: c1 :: s) with ([digit_char d] ++ c1 :: s) in Hv. rewrite value_app in Hv.
  replace (value 16 [digit_char d]) with d in Hv.
  2:{ cbn [value length]. rewrite digit_digit_char by lia. change (16 ^ Z.of_nat 0) with 1. lia. }
  pose proof (value_nonneg 16 (c1 :: s) ltac:(lia) Hf').
  destruct (Nat.le_gt_cases (length (digit_char d :: c1 :: s)) 4) as [|Hgt]; [auto|exfalso].
  assert (16 ^ 4 <= 16 ^ Z.of_nat (length (c1 :: s))).
  { apply Z.pow_le_mono_r; [lia|]. cbn in Hgt |- *. lia. }
  change (16 ^ 4) with 65536 in *. nia.
Qed.
Lemma pton6_digits ct tp cp s : forall xd val r, forallb is_hex s = true -> (xd + length s <= 4)%nat ->
  pton6_go ct tp cp xd val (s ++ r) =
  pton6_go ct tp cp (xd + length s) (val * 16 ^ Z.of_nat (length s) + digits_val 16 s) r.
Proof.
  induction s as [|c s IH]; intros xd val r Hs Hx.
  - cbn [app length]. rewrite Nat.add_0_r. f_equal. unfold digits_val. cbn. lia.
  - cbn [forallb] in Hs. apply andb_prop in Hs as [Hc Hs]. cbn [app pton6_go length] in *. rewrite Hc.
    destruct (Nat.eqb_spec xd 4); [lia|]. rewrite IH by (auto; lia). f_equal; [lia|].
    unfold digits_val at 2. cbn [fold_left]. rewrite digits_val_app, Nat2Z.inj_succ, Z.pow_succ_r by lia. ring.
Qed.
Lemma pton6_group ct tp cp w r : 0 <= w < 65536 ->
  pton6_go ct tp cp 0 0 (digits 16 w ++ r) = pton6_go ct tp cp (length (digits 16 w)) w r.
Proof.
  intros Hw. rewrite pton6_digits.
  - rewrite <- hex_digits_eq by lia. rewrite digits_val_value, hex_digits_value by lia || (
      destruct (hex_digits_canon w) as [Hf _]; eapply Forall_impl; [|exact Hf];
      intros c [d [-> Hd]]; exists d; rewrite digit_digit_char by lia; split; auto; lia).
    f_equal; lia.
  - apply forallb_forall. intros c Hc. apply digits_range in Hc as [k [-> Hk]]; [|lia|lia].
    apply is_hex_iff. exists k. rewrite digit_digit_char by lia. split; auto; lia.
  - apply hexgroup in Hw. lia.
Qed.
(** groups separated by colons *)
Definition groups (ws : list Z) : text := join [58] (map (digits 16) ws).
Definition wbytes (ws : list Z) : bytes := flat_map (be 2) ws.
Lemma wbytes_length ws : length (wbytes ws) = (2 * length ws)%nat.
Proof. induction ws as [|w ws IH]; [auto|]. cbn [wbytes flat_map]. rewrite app_length, be_length. fold (wbytes ws). cbn [length]. lia. Qed.
Lemma group_nonnil w : 0 <= w < 65536 -> exists c s, digits 16 w = c :: s.
Proof. intros H. apply hexgroup in H. destruct (digits 16 w); [cbn in H; lia|eauto]. Qed.
(** groups, each followed by ":" *)
Lemma pton6_groups_colon cp ws : forall ct tp r, Forall (fun w => 0 <= w < 65536) ws -> r <> [] ->
  (length tp + 2 * length ws <= 16)%nat ->
  exists ct', pton6_go ct tp cp 0 0 (flat_map (fun w => digits 16 w ++ [58]) ws ++ r) =
    pton6_go ct' (tp ++ wbytes ws) cp 0 0 r /\ (ws <> [] -> ct' = r) /\ (ws = [] -> ct' = ct).
Proof.
  induction ws as [|w ws IH]; intros ct tp r Hw Hr Hl.
  - exists ct. cbn. rewrite app_nil_r. repeat split; congruence.
  - inversion Hw; subst. cbn [flat_map]. rewrite <- !app_assoc. rewrite pton6_group by auto.
    pose proof (hexgroup w H1). cbn [app pton6_go]. change (is_hex 58) with false. cbn match.
    change (58 =? 58) with true. cbn match. destruct (Nat.eqb_spec (length (digits 16 w)) 0); [lia|].
    set (rest := flat_map (fun w0 => digits 16 w0 ++ [58]) ws ++ r).
    destruct rest as [|c rest'] eqn:E.
    { unfold rest in E. apply app_eq_nil in E as [_ E]. congruence. }
    rewrite <- E. cbn [length] in Hl. destruct (Nat.ltb_spec 16 (length tp + 2)); [lia|].
    destruct (IH rest (tp ++ be_bytes 2 w) r H2 Hr) as (ct' & E1 & E2 & E3).
    { rewrite app_length, be_bytes_length. lia. }
    exists ct'. unfold rest at 2. rewrite E1. repeat split; [|intros _|discriminate].
    + rewrite be_bytes_spec, <- app_assoc. reflexivity.
    + destruct ws as [|w' ws]; [|apply E2; discriminate]. rewrite E3 by auto. reflexivity.
Qed.
Lemma groups_snoc ws w : groups (ws ++ [w]) = flat_map (fun w => digits 16 w ++ [58]) ws ++ digits 16 w.
Proof.
  unfold groups. induction ws as [|x ws IH]; [reflexivity|]. cbn [app map flat_map]. rewrite join_cons.
  replace (match map (digits 16) (ws ++ [w]) with [] => [] | _ => [58] ++ join [58] (map (digits 16) (ws ++ [w])) end)
    with ([58] ++ join [58] (map (digits 16) (ws ++ [w]))) by (destruct ws; reflexivity).
  rewrite IH. now rewrite <- !app_assoc.
Qed.
(** the last groups of the text *)
Lemma pton6_groups_end cp ws ct tp : Forall (fun w => 0 <= w < 65536) ws ->
  (length tp + 2 * length ws <= 16)%nat ->
  pton6_go ct tp cp 0 0 (groups ws) = Some (tp ++ wbytes ws, cp).
Proof.
  intros Hw Hl. destruct ws as [|x ws] using rev_ind.
  - cbn. now rewrite app_nil_r.
  - clear IHws. apply Forall_app in Hw as [Hw Hx]. inversion Hx; subst. rewrite groups_snoc.
    rewrite app_length in Hl. cbn [length] in Hl.
    destruct (pton6_groups_colon cp ws ct tp (digits 16 x) Hw) as (ct' & -> & _); [|lia|].
    { destruct (group_nonnil x) as (c & s & ->); [auto|discriminate]. }
    rewrite <- (app_nil_r (digits 16 x)), pton6_group by auto. cbn [pton6_go].
    pose proof (hexgroup x H1). destruct (Nat.ltb_spec 0 (length (digits 16 x))); [|lia].
    rewrite app_length, wbytes_length. destruct (Nat.ltb_spec 16 (length tp + 2 * length ws + 2)); [lia|].
    unfold wbytes. rewrite flat_map_app, <- app_assoc, be_bytes_spec. cbn [flat_map]. now rewrite app_nil_r.
Qed.
(** [groups a ++ "::" ++ groups c] *)
Lemma groups_colon a r : a <> [] -> groups a ++ 58 :: r = flat_map (fun w => digits 16 w ++ [58]) a ++ r.
Proof.
  destruct a as [|x a] using rev_ind; [congruence|]. intros _. rewrite groups_snoc, flat_map_app. cbn [flat_map].
  now rewrite app_nil_r, <- !app_assoc.
Qed.
Lemma wbytes_app a b : wbytes (a ++ b) = wbytes a ++ wbytes b.
Proof. apply flat_map_app. Qed.
Lemma wbytes_zeros n : wbytes (repeat 0 n) = zeros (2 * n).
Proof.
  induction n as [|n IH]; [reflexivity|]. cbn [repeat wbytes flat_map]. fold (wbytes (repeat 0 n)). rewrite IH.
  replace (2 * S n)%nat with (S (S (2 * n))) by lia. reflexivity.
Qed.
Definition grp_ok (ws : list Z) : Prop := Forall (fun w => 0 <= w < 65536) ws.
(** what pton6 does with the result of the loop *)
Definition finish6 (o : option (bytes * option nat)) : option bytes :=
  match o with
  | None => None
  | Some (tp, colonp) =>
      match match colonp with
            | Some k => if Nat.eqb (length tp) 16 then None
                        else Some (firstn k tp ++ zeros (16 - length tp) ++ skipn k tp)
            | None => Some tp
            end with
      | Some b => if Nat.eqb (length b) 16 then Some b else None
      | None => None
      end
  end.
Lemma pton6_colon s : pton6 (58 :: 58 :: s) = finish6 (pton6_go (58 :: s) [] None 0 0 (58 :: s)).
Proof. reflexivity. Qed.
Lemma pton6_start c s : c <> 58 -> pton6 (c :: s) = finish6 (pton6_go (c :: s) [] None 0 0 (c :: s)).
Proof.
  intros H. unfold pton6. destruct c as [|p|p]; auto. repeat (destruct p as [p|p|]; auto). congruence.
Qed.
Lemma finish6_colon tp c : (length tp + length c < 16)%nat ->
  finish6 (Some (tp ++ c, Some (length tp))) = Some (tp ++ zeros (16 - length tp - length c) ++ c).
Proof.
  intros H. unfold finish6. rewrite app_length. destruct (Nat.eqb_spec (length tp + length c) 16); [lia|].
  rewrite firstn_len_app, skipn_len_app, !app_length, zeros_length.
  replace (length tp + (16 - (length tp + length c) + length c))%nat with 16%nat by lia.
  change (Nat.eqb 16 16) with true. cbn match. do 4 f_equal. lia.
Qed.
Lemma groups_first x a r : 0 <= x < 65536 -> exists k s, groups (x :: a) ++ r = k :: s /\ k <> 58.
Proof.
  intros Hx. unfold groups. cbn [map]. rewrite join_cons. destruct (group_nonnil x Hx) as (k & s & E). rewrite E.
  cbn [app]. eexists _, _. split; [reflexivity|]. intros ->.
  assert (In 58 (digits 16 x)) as Hin by (rewrite E; now left).
  apply digits_range in Hin as [d [Hd1 Hd2]]; [|lia|lia]. unfold digit_char in Hd1.
  destruct (d <? 10) eqn:Ed; lia.
Qed.
(** the first groups, then "::" *)
Lemma pton6_head a r : grp_ok a -> (length a < 8)%nat ->
  exists ct, pton6 (groups a ++ 58 :: 58 :: r) = finish6 (pton6_go r (wbytes a) (Some (length (wbytes a))) 0 0 r)
    /\ ct = r.
Proof.
  intros Ha Hl. exists r. split; [|auto]. destruct a as [|x a].
  - cbn [groups map join app]. rewrite pton6_colon. reflexivity.
  - inversion Ha as [|? ? Hx Ha']; subst.
    destruct (groups_first x a (58 :: 58 :: r) Hx) as (k & s & E & Hk).
    rewrite E, pton6_start, <- E by auto. rewrite groups_colon by discriminate.
    destruct (pton6_groups_colon None (x :: a) (flat_map (fun w => digits 16 w ++ [58]) (x :: a) ++ 58 :: r)
                [] (58 :: r) Ha) as (ct' & -> & _); [discriminate|cbn in *; lia|].
    reflexivity.
Qed.
Lemma pton6_compress a n c : grp_ok a -> grp_ok c -> (length a + n + length c = 8)%nat -> (1 <= n)%nat ->
  pton6 (groups a ++ 58 :: 58 :: groups c) = Some (wbytes (a ++ repeat 0 n ++ c)).
Proof.
  intros Ha Hc Hl Hn. destruct (pton6_head a (groups c) Ha) as (_ & -> & _); [lia|].
  rewrite pton6_groups_end; [|auto|rewrite wbytes_length; lia].
  rewrite finish6_colon by (rewrite !wbytes_length; lia).
  rewrite !wbytes_app, wbytes_zeros, !wbytes_length. do 4 f_equal. lia.
Qed.
Lemma pton6_plain ws : grp_ok ws -> length ws = 8%nat -> pton6 (groups ws) = Some (wbytes ws).
Proof.
  intros Hw Hl. destruct ws as [|x ws]; [discriminate|]. inversion Hw; subst.
  destruct (groups_first x ws [] H1) as (k & s & E & Hk). rewrite app_nil_r in E.
  rewrite E, pton6_start, <- E by auto. rewrite pton6_groups_end by (auto; cbn in *; lia).
  unfold finish6. cbn [app]. rewrite wbytes_length, Hl. reflexivity.
Qed.
Lemma quad_digits6 l ct tp cp : length l = 4%nat -> ct = quad l -> (length tp <= 12)%nat ->
  pton6_go ct tp cp 0 0 (quad l) = Some (tp ++ l, cp).
Proof.
  intros Hl -> Ht. pose proof (pton4_quad l Hl) as H4.
  destruct l as [|a l]; [discriminate|]. destruct l as [|b l]; [discriminate|].
  assert (exists r, quad (a :: b :: l) = dec (byte_val a) ++ 46 :: r) as [r E].
  { unfold quad. cbn [map]. rewrite join_cons. eexists. reflexivity. }
  rewrite E at 2. destruct (dec_byte a) as (c & s & Ed & Hc & Hs & Hz & Hv).
  assert (length (dec (byte_val a)) <= 3)%nat as H3 by (destruct a; vm_compute; lia).
  rewrite pton6_digits.
  - cbn [pton6_go]. change (is_hex 46) with false. cbn match. change (46 =? 58) with false. cbn match.
    change (46 =? 46) with true. destruct (Nat.leb_spec (length tp + 4) 16); [|lia]. cbn [andb].
    now rewrite H4.
  - apply forallb_forall. intros x Hx. unfold is_hex. now rewrite (dec_byte_chars a x Hx).
  - lia.
Qed.
Lemma pton6_v4 a n l : grp_ok a -> length l = 4%nat -> (length a + n = 6)%nat -> (1 <= n)%nat ->
  pton6 (58 :: 58 :: flat_map (fun w => digits 16 w ++ [58]) a ++ quad l) = Some (zeros (2 * n) ++ wbytes a ++ l).
Proof.
  intros Ha Hl Hn H1.
  destruct (pton6_head [] (flat_map (fun w => digits 16 w ++ [58]) a ++ quad l)) as (_ & E & _); [constructor|cbn; lia|].
  cbn [groups map join app] in E. rewrite E. clear E. cbn [wbytes flat_map length].
  assert (quad l <> []) as Hq.
  { destruct l as [|b [|b' l]]; try discriminate. unfold quad. cbn [map]. rewrite join_cons.
    destruct (dec_byte b) as (c & s & -> & _). discriminate. }
  destruct (pton6_groups_colon (Some 0%nat) a (flat_map (fun w => digits 16 w ++ [58]) a ++ quad l) [] (quad l) Ha Hq)
    as (ct & -> & E1 & E2); [cbn; lia|].
  assert (ct = quad l) as Hct.
  { destruct a; [rewrite E2 by auto; reflexivity|apply E1; discriminate]. }
  rewrite quad_digits6; auto; [|cbn; rewrite wbytes_length; lia].
  cbn [app]. change (Some (wbytes a ++ l, Some 0%nat)) with (Some ([] ++ (wbytes a ++ l), Some (length (@nil byte)))).
  rewrite finish6_colon by (rewrite !app_length, wbytes_length; cbn; lia).
  cbn [app length]. rewrite app_length, wbytes_length. do 3 f_equal. lia.
Qed.

(** *** the printer *)
Lemma words_ok l : grp_ok (words l).
Proof.
  assert (forall n l, (length l <= n)%nat -> grp_ok (words l)) as K.
  { induction n as [|n IH]; intros [|a [|b m]] Hn; try (constructor; fail); cbn in Hn; try lia.
    constructor; [|apply IH; lia]. pose proof (b2z_range a). pose proof (b2z_range b). lia. }
  eapply K; eauto.
Qed.
Lemma be2_words a b : be 2 (b2z a * 256 + b2z b) = [a; b].
Proof.
  pose proof (b2z_range a). pose proof (b2z_range b). cbn [be app].
  rewrite Z.div_add_l, (Z.div_small (b2z b)), Z.add_0_r by lia.
  change (byte_of (b2z a)) with (z2b (b2z a)). rewrite z2b_b2z. do 2 f_equal.
  change (z2b (b2z a * 256 + b2z b) = b). rewrite <- z2b_mod, Z.add_comm, Z.mod_add by lia.
  rewrite z2b_mod. apply z2b_b2z.
Qed.
Lemma wbytes_words n : forall l, length l = (2 * n)%nat -> wbytes (words l) = l /\ length (words l) = n.
Proof.
  induction n as [|n IH]; intros l Hl.
  - destruct l; [split; reflexivity|discriminate].
  - destruct l as [|a [|b l]]; try (cbn in Hl; lia). destruct (IH l) as [E1 E2]; [cbn in Hl; lia|].
    cbn [words wbytes flat_map length]. fold (wbytes (words l)). rewrite be2_words, E1, E2. auto.
Qed.
(** a run of zero words *)
Definition is_run (ws : list Z) (r : nat * nat) : Prop :=
  exists a c, ws = a ++ repeat 0 (snd r) ++ c /\ length a = fst r.
Definition opt_run (ws : list Z) (o : option (nat * nat)) : Prop :=
  match o with None => True | Some r => is_run ws r end.
Lemma is_run_app ws r s : is_run ws r -> is_run (ws ++ s) r.
Proof. intros (a & c & -> & H). exists a, (c ++ s). now rewrite <- !app_assoc. Qed.
Lemma best_upd_run ws b c : opt_run ws b -> opt_run ws c -> opt_run ws (best_upd b c).
Proof.
  destruct c as [[cb cl]|], b as [[bb bl]|]; cbn [best_upd]; auto. destruct (bl <? cl)%nat; auto.
Qed.
Lemma zero_runs_sound ws : forall pre cur best,
  match cur with None => True | Some (b, l) => exists a, pre = a ++ repeat 0 l /\ length a = b end ->
  opt_run pre best -> opt_run (pre ++ ws) (zero_runs ws (length pre) cur best).
Proof.
  induction ws as [|w ws IH]; intros pre cur best Hc Hb; cbn [zero_runs].
  - rewrite app_nil_r. apply best_upd_run; auto. destruct cur as [[b l]|]; [|exact I].
    destruct Hc as (a & -> & Ha). exists a, []. now rewrite app_nil_r.
  - replace (pre ++ w :: ws) with ((pre ++ [w]) ++ ws) by now rewrite <- app_assoc.
    replace (S (length pre)) with (length (pre ++ [w])) by (rewrite app_length; cbn; lia).
    assert (forall o, opt_run pre o -> opt_run (pre ++ [w]) o) as Hm.
    { intros [r|]; [apply is_run_app|auto]. }
    destruct (Z.eqb_spec w 0) as [->|].
    + apply IH; auto. destruct cur as [[b l]|].
      * destruct Hc as (a & -> & Ha). exists a. split; auto. rewrite <- app_assoc.
        f_equal. rewrite <- repeat_cons. reflexivity.
      * exists pre. auto.
    + apply IH; auto. apply Hm, best_upd_run; auto. destruct cur as [[b l]|]; [|exact I].
      destruct Hc as (a & -> & Ha). exists a, []. now rewrite app_nil_r.
Qed.
Lemma best_run_sound ws b l : best_run ws = Some (b, l) ->
  (2 <= l)%nat /\ exists a c, ws = a ++ repeat 0 l ++ c /\ length a = b.
Proof.
  unfold best_run. pose proof (zero_runs_sound ws [] None None I I) as H. cbn [app length] in H.
  destruct (zero_runs ws 0 None None) as [[b' l']|]; [|discriminate].
  destruct (Nat.ltb_spec l' 2); [discriminate|]. intros [= <- <-]. split; [auto|exact H].
Qed.
(** groups, each preceded by ":" *)
Definition colons (ws : list Z) : text := flat_map (fun w => 58 :: digits 16 w) ws.
Lemma groups_cons w ws : groups (w :: ws) = digits 16 w ++ colons ws.
Proof.
  revert w. induction ws as [|v ws IH]; intros w; unfold groups; cbn [map]; rewrite join_cons; [reflexivity|].
  fold (groups (v :: ws)). cbn [map]. change (join [58] (digits 16 v :: map (digits 16) ws)) with (groups (v :: ws)).
  rewrite IH. cbn. reflexivity.
Qed.
Lemma groups_head ws : ws <> [] -> colons ws = 58 :: groups ws.
Proof. destruct ws as [|w ws]; [congruence|]. intros _. rewrite groups_cons. reflexivity. Qed.
Lemma ntop6_go_none w5 v4 ws : forall i, ntop6_go None w5 v4 i ws = if Nat.eqb i 0 then groups ws else colons ws.
Proof.
  induction ws as [|w ws IH]; intros i; cbn [ntop6_go]; [destruct (Nat.eqb i 0); reflexivity|].
  rewrite andb_false_r, IH. change (Nat.eqb (S i) 0) with false. cbn match. rewrite groups_cons.
  destruct (Nat.eqb i 0); reflexivity.
Qed.
Definition v4_form (b l : nat) (w5 : Z) : bool := Nat.eqb b 0 && (Nat.eqb l 6 || Nat.eqb l 5 && (w5 =? 65535)).
Lemma ntop6_go_tail b l w5 v4 c : v4_form b l w5 = false -> forall i, (b + l <= i)%nat -> (0 < i)%nat ->
  ntop6_go (Some (b, l)) w5 v4 i c = colons c ++ (if Nat.eqb (b + l) 8 then [58] else []).
Proof.
  intros Hv. induction c as [|w c IH]; intros i H1 H2; cbn [ntop6_go]; [reflexivity|].
  replace ((b <=? i)%nat && (i <? b + l)%nat) with false by lia. cbn match.
  destruct (Nat.eqb_spec i 0); [lia|]. unfold v4_form in Hv. rewrite Hv, andb_false_r, IH by lia.
  cbn [colons flat_map app]. fold (colons c). now rewrite <- !app_assoc.
Qed.
Lemma ntop6_go_skip b l w5 v4 c : forall k i, (b < i)%nat -> (i + k = b + l)%nat ->
  ntop6_go (Some (b, l)) w5 v4 i (repeat 0 k ++ c) = ntop6_go (Some (b, l)) w5 v4 (b + l) c.
Proof.
  induction k as [|k IH]; intros i H1 H2.
  - cbn [repeat app]. do 2 f_equal; lia.
  - cbn [repeat app ntop6_go]. replace ((b <=? i)%nat && (i <? b + l)%nat) with true by lia. cbn match.
    destruct (Nat.eqb_spec i b); [lia|]. cbn [app]. apply IH; lia.
Qed.
Lemma ntop6_go_run b l w5 v4 c : (1 <= l)%nat ->
  ntop6_go (Some (b, l)) w5 v4 b (repeat 0 l ++ c) = 58 :: ntop6_go (Some (b, l)) w5 v4 (b + l) c.
Proof.
  intros Hl. destruct l as [|l]; [lia|]. cbn [repeat app ntop6_go].
  replace ((b <=? b)%nat && (b <? b + S l)%nat) with true by lia. cbn match. rewrite Nat.eqb_refl. cbn [app].
  f_equal. apply ntop6_go_skip; lia.
Qed.
Lemma ntop6_go_head b l w5 v4 r : forall a i, (i + length a = b)%nat ->
  ntop6_go (Some (b, l)) w5 v4 i (a ++ r) =
  (if Nat.eqb i 0 then groups a else colons a) ++ ntop6_go (Some (b, l)) w5 v4 b r.
Proof.
  induction a as [|w a IH]; intros i Hi.
  - cbn [length] in Hi. replace i with b by lia. destruct (Nat.eqb b 0); reflexivity.
  - cbn [length] in Hi. cbn [app ntop6_go]. replace ((b <=? i)%nat && (i <? b + l)%nat) with false by lia. cbn match.
    destruct (Nat.eqb_spec b 0); [lia|]. cbn [andb]. rewrite andb_false_r, IH by lia.
    change (Nat.eqb (S i) 0) with false. cbn match. rewrite groups_cons.
    destruct (Nat.eqb i 0); cbn [colons flat_map app]; fold (colons a); now rewrite <- ?app_assoc.
Qed.
Lemma words_app2 n : forall l m, length l = (2 * n)%nat -> words (l ++ m) = words l ++ words m.
Proof.
  induction n as [|n IH]; intros l m Hl.
  - destruct l; [reflexivity|discriminate].
  - destruct l as [|a [|b l]]; try (cbn in Hl; lia). cbn [app words]. rewrite IH by (cbn in Hl; lia). reflexivity.
Qed.
Lemma grp_ok_app a b : grp_ok (a ++ b) -> grp_ok a /\ grp_ok b.
Proof. apply Forall_app. Qed.
(** reading back a printed IPv6 address *)
Lemma pton6_ntop6 b : length b = 16%nat -> pton6 (ntop6 b) = Some b.
Proof.
  intros Hb. unfold ntop6. destruct (wbytes_words 8 b Hb) as [Ew El]. pose proof (words_ok b) as Hok.
  destruct (best_run (words b)) as [[bb l]|] eqn:Eb.
  - apply best_run_sound in Eb as (Hl & a & c & Es & Ha).
    remember (words b) as ws. assert (length a + l + length c = 8)%nat as H8.
    { rewrite <- El, Es, !app_length, repeat_length. lia. }
    destruct (v4_form bb l (nth 5 ws 0)) eqn:Ev.
    + unfold v4_form in Ev. apply andb_true_iff in Ev as [E0 Ev]. apply Nat.eqb_eq in E0.
      destruct a; [|cbn in Ha; lia]. cbn [app length] in *. subst bb.
      rewrite ntoa_quad.
      assert (length (skipn 12 b) = 4%nat) as H4 by (rewrite skipn_length; lia).
      assert (wbytes ws = firstn 12 b ++ skipn 12 b) as Eb by now rewrite firstn_skipn.
      destruct (wbytes_words 2 (skipn 12 b) H4) as [Ec1 Ec2].
      assert (ws = words (firstn 12 b) ++ words (skipn 12 b)) as Ew2.
      { rewrite <- (words_app2 6), firstn_skipn; [auto|]. rewrite firstn_length; lia. }
      assert (length (words (firstn 12 b)) = 6%nat) as Ef.
      { apply (wbytes_words 6). rewrite firstn_length; lia. }
      apply orb_true_iff in Ev as [Ev|Ev].
      * apply Nat.eqb_eq in Ev. subst l. cbn [length] in H8.
        assert (c = words (skipn 12 b)) as ->.
        { apply (f_equal (skipn 6)) in Ew2. rewrite skipn_app, Ef, (skipn_all2 (words (firstn 12 b))), Nat.sub_diag in Ew2 by lia.
          rewrite skipn_O in Ew2. cbn [app] in Ew2. rewrite <- Ew2, Es. reflexivity. }
        rewrite Es at 2. rewrite ntop6_go_run by lia. cbn [Nat.add].
        destruct (words (skipn 12 b)) as [|x [|y [|]]] eqn:Ex; try discriminate.
        change (ntop6_go (Some (0%nat, 6%nat)) (nth 5 ws 0) (quad (skipn 12 b)) 6 [x; y]) with (58 :: quad (skipn 12 b)).
        pose proof (pton6_v4 [] 6 (skipn 12 b) ltac:(constructor) H4 eq_refl ltac:(lia)) as E. cbn [flat_map app] in E.
        rewrite E. f_equal. rewrite <- Ew, Es, wbytes_app, wbytes_zeros, Ec1. reflexivity.
      * apply andb_true_iff in Ev as [Ev E5]. apply Nat.eqb_eq in Ev. apply Z.eqb_eq in E5. subst l.
        cbn [length] in H8. destruct c as [|c0 c]; [cbn in H8; lia|].
        assert (c0 = 65535) as -> by (rewrite Es in E5; exact E5).
        assert (c = words (skipn 12 b)) as ->.
        { apply (f_equal (skipn 6)) in Ew2. rewrite skipn_app, Ef, (skipn_all2 (words (firstn 12 b))), Nat.sub_diag in Ew2 by lia.
          rewrite skipn_O in Ew2. cbn [app] in Ew2. rewrite <- Ew2, Es. reflexivity. }
        rewrite Es at 2. rewrite ntop6_go_run by lia. cbn [Nat.add]. rewrite E5.
        destruct (words (skipn 12 b)) as [|x [|y [|]]] eqn:Ex; try discriminate.
        change (ntop6_go (Some (0%nat, 5%nat)) 65535 (quad (skipn 12 b)) 5 [65535; x; y])
          with (58 :: digits 16 65535 ++ 58 :: quad (skipn 12 b)).
        pose proof (pton6_v4 [65535] 5 (skipn 12 b) ltac:(constructor; [cbv beta; split; [discriminate|reflexivity]|constructor]) H4 eq_refl ltac:(lia)) as E.
        cbn [flat_map] in E. rewrite app_nil_r, <- app_assoc in E. cbn [app] in E |- *.
        rewrite E. f_equal. rewrite <- Ew, Es, wbytes_app, wbytes_zeros. cbn [wbytes flat_map] in Ec1 |- *.
        rewrite Ec1. reflexivity.
    + rewrite Es at 2. rewrite ntop6_go_head by lia. change (Nat.eqb 0 0) with true. cbn match.
      rewrite ntop6_go_run by lia. rewrite ntop6_go_tail by (auto; lia).
      replace (58 :: colons c ++ (if Nat.eqb (bb + l) 8 then [58] else [])) with (58 :: 58 :: groups c).
      2:{ destruct c as [|x c]; cbn [length] in H8.
          - replace (Nat.eqb (bb + l) 8) with true by (symmetry; apply Nat.eqb_eq; lia). reflexivity.
          - replace (Nat.eqb (bb + l) 8) with false by (symmetry; apply Nat.eqb_neq; lia).
            now rewrite groups_head, app_nil_r. }
      rewrite Es in Hok. apply grp_ok_app in Hok as [Hoa Hok]. apply grp_ok_app in Hok as [_ Hoc].
      rewrite (pton6_compress a l c) by (auto; lia). now rewrite <- Es, Ew.
  - rewrite ntop6_go_none. cbn [Nat.eqb]. rewrite pton6_plain by auto. now rewrite Ew.
Qed.
