(** Whatever a match field parser accepts is a TLV of a registered field, of the right
    size; names and wire identities. *)
From Verif Require Import Base PyNum Util PyLib OxmCodec OxmTables Oxm Spec SpecOxm.
From Verif Require Import BaseFacts UtilFacts NumFacts PyLibFacts OxmRead OxmPrint OxmFacts.
From Coq Require Import Strings.Ascii.

(** ** sizes of what the library functions return *)
Lemma pack_length fs : forall vs b, pack fs vs = Ok b -> length b = calcsize fs.
Proof.
  induction fs as [|f fs IH]; intros vs b H; [destruct vs; [now injection H as <-|discriminate]|].
  change (calcsize (f :: fs)) with (fwidth f + calcsize fs)%nat. destruct f as [n|n| |n]; cbn [fwidth].
  1-3: destruct vs as [|v vs]; [discriminate|]; cbn [pack] in H;
    match type of H with (if ?c then _ else _) = _ => destruct c; [|discriminate] end; mon H; injection H as <-; apply IH in Ea;
    rewrite ?app_length, ?be_bytes_spec, ?le_bytes_spec, ?be_length, ?le_length; cbn [length]; lia.
  assert (exists b', pack fs vs = Ok b' /\ b = zeros n ++ b') as (b' & E & ->).
  { cbn [pack] in H. destruct vs; mon H; injection H as <-; eauto. }
  apply IH in E. unfold zeros. rewrite app_length, repeat_length. lia.
Qed.
Lemma aton_length n : forall acc s b, aton_go n acc s = Some b -> (length b = length acc + S n)%nat.
Proof.
  assert (forall (v : Z) n acc b, (if v <? 2 ^ (8 * Z.of_nat (S n)) then Some (acc ++ be_bytes (S n) v) else None) = Some b ->
    (length b = length acc + S n)%nat) as F.
  { intros v n' acc b H. destruct (v <? _); [|discriminate]. injection H as <-. now rewrite app_length, be_bytes_spec, be_length. }
  induction n as [|n IH]; intros acc [|c s] b H; cbn [aton_go] in H; try discriminate;
    destruct (is_dec c); try discriminate; destruct (strtoul0 (c :: s)) as [v rest]; destruct (0xffffffff <? v); try discriminate;
    (destruct rest as [|d rest]; [eapply F; exact H|]); destruct (d =? 46); try discriminate;
    try (destruct (c_isspace d); [eapply F; exact H|discriminate]).
  destruct (255 <? v); [discriminate|]. apply IH in H. rewrite app_length in H. cbn [length] in H. lia.
Qed.
Lemma inet_aton_length s b : inet_aton s = Ok b -> length b = 4%nat.
Proof.
  unfold inet_aton. destruct (bad_cstr s); [discriminate|]. destruct (aton_go 3 [] s) eqn:E; [|discriminate]. intros [= <-].
  now apply aton_length in E.
Qed.
Lemma inet_pton6_length s b : inet_pton6 s = Ok b -> length b = 16%nat.
Proof.
  unfold inet_pton6. destruct (bad_cstr s); [discriminate|]. unfold pton6.
  match goal with |- match match ?x with Some _ => _ | None => _ end with _ => _ end = _ -> _ => destruct x as [s1|]; [|discriminate] end.
  destruct (pton6_go s1 [] None 0 0 s1) as [[tp cp]|]; [|discriminate].
  match goal with |- match match ?x with Some _ => _ | None => _ end with _ => _ end = _ -> _ => destruct x as [b'|]; [|discriminate] end.
  destruct (Nat.eqb_spec (length b') 16); [|discriminate]. now intros [= <-].
Qed.
Lemma a2b_length s : forall b, a2b_hex s = Ok b -> (length s = 2 * length b)%nat.
Proof.
  assert (forall n s b, (length s <= n)%nat -> a2b_hex s = Ok b -> (length s = 2 * length b)%nat) as K; [|intros b; eapply K; eauto].
  clear s. induction n as [|n IH]; intros [|c [|d s]] b Hl H; cbn in Hl; try lia; try discriminate; cbn [a2b_hex] in H.
  - now injection H as <-.
  - now injection H as <-.
  - destruct (is_hex c && is_hex d); [|discriminate]. mon H. injection H as <-. apply IH in Ea; [|lia]. cbn [length]. lia.
Qed.
Lemma mac_scan_length u v n : mac_scan u = Ok (v, n) -> length v = 12%nat.
Proof.
  assert (forall r u m, rx_match r u = Some m -> length m = length (filter fst r)) as R.
  { induction r as [|[cap f] r IH]; intros [|c s] m H; cbn [rx_match] in H; try discriminate; try (now injection H as <-).
    destruct (f c); [|discriminate]. destruct (rx_match r s) eqn:E; [|discriminate]. injection H as <-. apply IH in E.
    cbn [filter fst]. destruct cap; cbn [length]; lia. }
  assert (forall l, Forall (fun rn => length (filter fst (fst rn)) = 12%nat) l -> mac_scan_go l u = Ok (v, n) -> length v = 12%nat) as S.
  { intros l Hl. induction Hl as [|[r k] l Hr Hl IH]; cbn [mac_scan_go]; [discriminate|].
    destruct (rx_match r u) eqn:E; [|auto]. intros [= <- <-]. now rewrite (R _ _ _ E). }
  apply S. repeat constructor.
Qed.

(** ** one lemma per codec *)
Definition framed_by (f : field) (b : bytes) : Prop := exists v m, b = wire (Tlv f v m) /\ sized (Tlv f v m).
Lemma hdr_plain f n v rlen b k : 0 <= fnum f < 128 -> length v = n ->
  match width (fkind f) with Some w => w = n | None => True end ->
  hdr_cat (key_of f) n false v rlen = Ok (b, k) -> framed_by f b.
Proof.
  intros Hf Hv Hw H. rewrite hdr_cat_plain in H by auto. injection H as <- _. exists v, None. split; auto.
  split; cbn [tfield tval tmask]; [destruct (width _); auto; congruence|auto].
Qed.
Lemma hdr_masked f n v m rlen b k : 0 <= fnum f < 128 -> length v = n -> length m = n -> maskable (fkind f) ->
  match width (fkind f) with Some w => w = n | None => True end ->
  hdr_cat (key_of f) n true (v ++ m) rlen = Ok (b, k) -> framed_by f b.
Proof.
  intros Hf Hv Hm Hk Hw H. rewrite hdr_cat_mask in H by auto. injection H as <- _. exists v, (Some m). split; auto.
  split; cbn [tfield tval tmask]; [destruct (width _); auto; congruence|split; auto; congruence].
Qed.
Lemma framed_int f n s ms u b k : 0 <= fnum f < 128 -> fkind f = KInt n s ms ->
  uint_str2bin (key_of f) n (AText u) = Ok (b, k) -> framed_by f b.
Proof.
  intros Hf Ek H. unfold uint_str2bin in H. mon H. destruct a as [num rlen]. destruct (startswith _ _).
  - mon H. destruct a as [num2 e]. refine (hdr_masked f _ _ _ _ _ _ Hf _ _ _ _ H); auto; rewrite ?Ek; cbn; auto; now rewrite be_bytes_spec, be_length.
  - refine (hdr_plain f _ _ _ _ _ Hf _ _ H); auto; rewrite ?Ek; cbn; auto. now rewrite be_bytes_spec, be_length.
Qed.
Lemma framed_le f n s ms u b k : 0 <= fnum f < 128 -> fkind f = KLe n s ms -> n <> 0%nat ->
  le_str2bin (key_of f) n (AText u) = Ok (b, k) -> framed_by f b.
Proof.
  intros Hf Ek Hn H. unfold le_str2bin in H. mon H. destruct a as [num rlen]. destruct (startswith _ _).
  - mon H. destruct a as [num2 e]. destruct n; [congruence|discriminate].
  - refine (hdr_plain f _ _ _ _ _ Hf _ _ H); auto; rewrite ?Ek; cbn; auto. now rewrite le_bytes_spec, le_length.
Qed.
Lemma framed_port f n u b k : 0 <= fnum f < 128 -> fkind f = KPort n ->
  port_str2bin (key_of f) n (AText u) = Ok (b, k) -> framed_by f b.
Proof.
  intros Hf Ek H. unfold port_str2bin in H. mon H. destruct a as [num rlen]. mon H. apply pack_length in Ea0. cbn in Ea0.
  refine (hdr_plain f _ _ _ _ _ Hf _ _ H); auto; rewrite ?Ek; cbn; auto. lia.
Qed.
Lemma framed_mac f u b k : 0 <= fnum f < 128 -> fkind f = KMac ->
  mac_str2bin (key_of f) (AText u) = Ok (b, k) -> framed_by f b.
Proof.
  intros Hf Ek H. unfold mac_str2bin in H. mon H. destruct a as [value rlen]. apply mac_scan_length in Ea. destruct (startswith _ _).
  - mon H. destruct a as [mask l]. apply mac_scan_length in Ea0. mon H. apply a2b_length in Ea1. rewrite app_length, Ea, Ea0 in Ea1.
    rewrite <- (firstn_skipn 6 a) in H.
    refine (hdr_masked f _ _ _ _ _ _ Hf _ _ _ _ H); auto; rewrite ?Ek; cbn [width maskable]; auto; rewrite ?firstn_length, ?skipn_length; lia.
  - mon H. apply a2b_length in Ea0. rewrite Ea in Ea0. refine (hdr_plain f _ _ _ _ _ Hf _ _ H); auto; rewrite ?Ek; cbn [width]; auto. lia.
Qed.
Lemma framed_ipv4 f u b k : 0 <= fnum f < 128 -> fkind f = KIPv4 ->
  ipv4_str2bin (key_of f) (AText u) = Ok (b, k) -> framed_by f b.
Proof.
  intros Hf Ek H. unfold ipv4_str2bin in H. destruct (get_token u) as [[h t] r]. destruct (split1 47 t) as [v [m|]].
  - mon H. apply inet_aton_length in Ea. mon H. refine (hdr_masked f _ _ _ _ _ _ Hf _ _ _ _ H); auto; rewrite ?Ek; cbn; auto.
    unfold ipv4_mask in Ea0. destruct (inet_aton m) eqn:E; [injection Ea0 as <-; now apply inet_aton_length in E| |discriminate].
    destruct e; try discriminate. mon Ea0. mon Ea0. now apply pack_length in Ea0.
  - mon H. apply inet_aton_length in Ea. refine (hdr_plain f _ _ _ _ _ Hf _ _ H); auto; rewrite ?Ek; cbn; auto.
Qed.
Lemma framed_ipv6 f u b k : 0 <= fnum f < 128 -> fkind f = KIPv6 ->
  ipv6_str2bin (key_of f) (AText u) = Ok (b, k) -> framed_by f b.
Proof.
  intros Hf Ek H. unfold ipv6_str2bin in H. destruct (get_token u) as [[h t] r]. destruct (split1 47 t) as [v [m|]].
  - mon H. apply inet_pton6_length in Ea. mon H. refine (hdr_masked f _ _ _ _ _ _ Hf _ _ _ _ H); auto; rewrite ?Ek; cbn [width maskable]; auto.
    unfold ipv6_mask in Ea0. destruct (inet_pton6 m) eqn:E; [injection Ea0 as <-; now apply inet_pton6_length in E| |];
      (mon Ea0; mon Ea0; now apply pack_length in Ea0).
  - mon H. apply inet_pton6_length in Ea. refine (hdr_plain f _ _ _ _ _ Hf _ _ H); auto; rewrite ?Ek; cbn [width]; auto.
Qed.
Lemma framed_pkt f u b k : 0 <= fnum f < 128 -> key_of f = OFB "packet_type" -> fkind f = KPkt ->
  pkt_str2bin (AText u) = Ok (b, k) -> framed_by f b.
Proof.
  intros Hf Hk Ek H. unfold pkt_str2bin in H. rewrite <- Hk in H. mon H. destruct a as [ns l]. mon H. mon H. mon H. destruct a0 as [nt l2]. mon H.
  apply pack_length in Ea2. refine (hdr_plain f _ _ _ _ _ Hf _ _ H); auto; rewrite ?Ek; cbn; auto.
Qed.
Lemma framed_pad f v m rlen b k : 0 <= fnum f < 128 -> width (fkind f) = None -> maskable (fkind f) ->
  (let '(len, p) := pad_mask v m in hdr_cat (key_of f) len true p rlen) = Ok (b, k) -> framed_by f b.
Proof.
  intros Hf Hw Hm H. rewrite mask_pad_wire in H by auto. injection H as <- _. eexists _, _. split; [reflexivity|].
  unfold mask_pad. split; cbn [tfield tval tmask fst snd]; [now rewrite Hw|]. split; auto. unfold pad. rewrite !app_length, !repeat_length. lia.
Qed.
Lemma framed_hex f u b k : 0 <= fnum f < 128 -> fkind f = KHex ->
  hex_str2bin (key_of f) (AText u) = Ok (b, k) -> framed_by f b.
Proof.
  intros Hf Ek H. unfold hex_str2bin in H. destruct (get_token u) as [[h t] r]. destruct (split1 47 t) as [v [m|]]; mon H.
  - mon H. refine (framed_pad f _ _ _ _ _ Hf _ _ H); auto; rewrite ?Ek; cbn; auto.
  - refine (hdr_plain f _ _ _ _ _ Hf _ _ H); auto; rewrite ?Ek; cbn; auto.
Qed.
Lemma framed_ssid f u b k : 0 <= fnum f < 128 -> key_of f = STR "dot11_ssid" -> fkind f = KSsid ->
  ssid_str2bin (AText u) = Ok (b, k) -> framed_by f b.
Proof.
  intros Hf Hk Ek H. unfold ssid_str2bin in H. rewrite <- Hk in H. destruct (get_token u) as [[h t] r]. mon H. mon H.
  destruct (nth_error (split_all 47 t) 1) as [m|].
  - mon H. refine (framed_pad f _ _ _ _ _ Hf _ _ H); auto; rewrite ?Ek; cbn; auto.
  - refine (hdr_plain f _ _ _ _ _ Hf _ _ H); auto; rewrite ?Ek; cbn; auto.
Qed.
Lemma framed_rate f u b k : 0 <= fnum f < 128 -> key_of f = STR "rate" -> fkind f = KRate ->
  rate_str2bin (AText u) = Ok (b, k) -> framed_by f b.
Proof.
  intros Hf Hk Ek H. unfold rate_str2bin in H. rewrite <- Hk in H. mon H. destruct a as [num rlen]. mon H. mon H. mon H.
  apply pack_length in Ea2. refine (hdr_plain f _ _ _ _ _ Hf _ _ H); auto; rewrite ?Ek; cbn; auto.
Qed.
Lemma framed_chan f u b k : 0 <= fnum f < 128 -> key_of f = STR "channel" -> fkind f = KChan ->
  ch_str2bin (AText u) = Ok (b, k) -> framed_by f b.
Proof.
  intros Hf Hk Ek H. unfold ch_str2bin in H. rewrite <- Hk in H. mon H. destruct a as [v1 l]. mon H. mon H. mon H. destruct a0 as [v2 l2]. mon H.
  apply pack_length in Ea2. destruct (startswith _ _) in H.
  - mon H. destruct a1 as [m1 l3]. mon H. destruct a1 as [m2 rlen2]. mon H. apply pack_length in Ea5.
    refine (hdr_masked f _ _ _ _ _ _ Hf _ _ _ _ H); auto; rewrite ?Ek; cbn; auto.
  - refine (hdr_plain f _ _ _ _ _ Hf _ _ H); auto; rewrite ?Ek; cbn; auto.
Qed.
Lemma framed_comp f l u b k : 0 <= fnum f < 128 -> fkind f = KComp l ->
  comp_str2bin (key_of f) (packs_of l) (AText u) = Ok (b, k) -> framed_by f b.
Proof.
  intros Hf Ek H. unfold comp_str2bin in H. rewrite packs_size in H. destruct (get_token u) as [[h t] r].
  assert (forall t b, comp_parse (packs_of l) t = Ok b -> length b = comp_size l) as P.
  { intros t' b' Hp. unfold comp_parse in Hp. mon Hp. apply pack_length in Hp. now rewrite packs_size in Hp. }
  destruct (split1 47 t) as [v [m|]]; mon H; apply P in Ea.
  - mon H. apply P in Ea0. refine (hdr_masked f _ _ _ _ _ _ Hf _ _ _ _ H); auto; rewrite ?Ek; cbn; auto.
  - refine (hdr_plain f _ _ _ _ _ Hf _ _ H); auto; rewrite ?Ek; cbn; auto.
Qed.
Lemma framed_vht f u b k : 0 <= fnum f < 128 -> key_of f = STR "vht" -> fkind f = KVht ->
  vht_str2bin (AText u) = Ok (b, k) -> framed_by f b.
Proof.
  intros Hf Hk Ek H. unfold vht_str2bin in H. rewrite <- Hk in H. change (calcsize vht_packs) with 12%nat in H. destruct (get_token u) as [[h t] r].
  assert (forall t b, vht_parse t = Ok b -> length b = 12%nat) as P.
  { intros t' b' Hp. unfold vht_parse in Hp. mon Hp. now apply pack_length in Hp. }
  destruct (split1 47 t) as [v [m|]]; mon H; apply P in Ea.
  - mon H. apply P in Ea0. refine (hdr_masked f _ _ _ _ _ _ Hf _ _ _ _ H); auto; rewrite ?Ek; cbn; auto.
  - refine (hdr_plain f _ _ _ _ _ Hf _ _ H); auto; rewrite ?Ek; cbn; auto.
Qed.
Lemma framed_s8 f u b k : 0 <= fnum f < 128 -> fkind f = KS8 ->
  s8_str2bin (key_of f) (AText u) = Ok (b, k) -> framed_by f b.
Proof.
  intros Hf Ek H. unfold s8_str2bin in H. mon H. destruct a as [num rlen]. mon H. apply pack_length in Ea0.
  refine (hdr_plain f _ _ _ _ _ Hf _ _ H); auto; rewrite ?Ek; cbn; auto.
Qed.
Lemma le_widths : forallb (fun f => match fkind f with KLe O _ _ => false | _ => true end) accepted_fields = true.
Proof. vm_compute. reflexivity. Qed.
Lemma framed_field f u b k : In f accepted_fields -> run_s2b (s2b_of f) (AText u) = Ok (b, k) -> framed_by f b.
Proof.
  intros Hf H. pose proof (fnum_reg f Hf) as Hn. pose proof (own_key_reg f Hf) as Hk. unfold s2b_of in H.
  pose proof (proj1 (forallb_forall _ _) le_widths f Hf) as Hle. cbv beta in Hle.
  destruct (fkind f) eqn:Ek; cbn [run_s2b own_key] in *; symmetry in Hk.
  - eapply framed_int; eassumption.
  - eapply framed_port; eassumption.
  - eapply framed_mac; eassumption.
  - eapply framed_ipv4; eassumption.
  - eapply framed_ipv6; eassumption.
  - eapply framed_pkt; eassumption.
  - eapply framed_hex; eassumption.
  - eapply framed_ssid; eassumption.
  - eapply framed_le; try eassumption. destruct n; [discriminate|auto].
  - eapply framed_rate; eassumption.
  - eapply framed_chan; eassumption.
  - eapply framed_comp; eassumption.
  - eapply framed_vht; eassumption.
  - eapply framed_s8; eassumption.
Qed.

(** ** names *)
Lemma table_names : forallb (fun p => existsb (fun f => eqb_of text_dec (fname f) (fst p)) accepted_fields) str2bin_tbl = true.
Proof. vm_compute. reflexivity. Qed.
Lemma assoc_t_in {A} n (l : list (text * A)) c : assoc_t n l = Some c -> In n (map fst l).
Proof.
  induction l as [|[k v] l IH]; cbn [assoc_t map fst]; [discriminate|].
  destruct (text_eqb n k) eqn:E; [|right; auto]. intros _. left. apply text_eqb_eq in E. now subst.
Qed.
Lemma str2bin_field n c : assoc_t n str2bin_tbl = Some c -> exists f, In f accepted_fields /\ fname f = n /\ c = s2b_of f.
Proof.
  intros H. pose proof (assoc_t_in _ _ _ H) as Hin. apply in_map_iff in Hin as ([k v] & Ek & Hin). cbn [fst] in Ek. subst k.
  pose proof (proj1 (forallb_forall _ _) table_names _ Hin) as E. cbv beta in E. apply existsb_exists in E as (f & Hf & E).
  apply eqb_of_eq in E. cbn [fst] in E. exists f. repeat split; auto. subst n. rewrite str2bin_reg in H by auto. now injection H.
Qed.
Lemma str2bin_unknown n : ~ In n (map fname accepted_fields) -> assoc_t n str2bin_tbl = None.
Proof.
  intros H. destruct (assoc_t n str2bin_tbl) eqn:E; [|auto]. apply str2bin_field in E as (f & Hf & En & _). exfalso. apply H. subst n. now apply in_map.
Qed.

(** ** lists *)
Definition tlv_ok (t : tlv) : Prop := In (tfield t) accepted_fields /\ sized t.
Lemma str2oxm_go_framed fuel : forall loop u b r, str2oxm_go fuel loop u = Ok (b, r) ->
  exists ts, Forall tlv_ok ts /\ b = flat_map wire ts.
Proof.
  induction fuel as [|fuel IH]; intros loop [|c u] b r H; cbn [str2oxm_go] in H; try discriminate;
    try (injection H as <- _; exists []; split; [constructor|reflexivity]).
  destruct (get_token (c :: u)) as [[h nm] u1]. destruct (get_token u1) as [[op pl] u2]. mon H. mon H. mon H. destruct a0 as [bin len].
  unfold str2bin in Ea. destruct (assoc_t nm str2bin_tbl) as [c'|] eqn:Ec; [|discriminate]. injection Ea as <-.
  apply str2bin_field in Ec as (f & Hf & <- & ->). apply framed_field in Ea0 as (v & m & -> & Hs); [|auto].
  destruct (Nat.eqb len 0); [injection H as <- _; exists []; split; [constructor|reflexivity]|]. mon H. destruct loop.
  - mon H. destruct a as [b' u3]. injection H as <- _. apply IH in Ea as (ts & Hts & ->).
    exists (Tlv f v m :: ts). split; [|reflexivity]. constructor; [split; auto|auto].
  - injection H as <- _. exists [Tlv f v m]. cbn [flat_map]. rewrite app_nil_r. split; [|reflexivity]. constructor; [split; auto|constructor].
Qed.
Lemma str2oxm_framed u loop b n : str2oxm u loop = Ok (b, n) -> exists ts, Forall tlv_ok ts /\ b = flat_map wire ts.
Proof. unfold str2oxm. intros H. mon H. destruct a as [msg rest]. injection H as <- _. now apply str2oxm_go_framed in Ea. Qed.
(** without the loop there is at most one TLV *)
Lemma str2oxm_one_framed u b n : str2oxm u false = Ok (b, n) -> b = [] \/ exists t, tlv_ok t /\ b = wire t.
Proof.
  unfold str2oxm. intros H. mon H. destruct a as [msg rest]. injection H as <- _. destruct u as [|c u]; cbn [length str2oxm_go] in Ea; [left; congruence|].
  destruct (get_token (c :: u)) as [[h nm] u1]. destruct (get_token u1) as [[op pl] u2]. mon Ea. mon Ea. mon Ea. destruct a0 as [bin len].
  unfold str2bin in Ea0. destruct (assoc_t nm str2bin_tbl) as [c'|] eqn:Ec; [|discriminate]. injection Ea0 as <-.
  apply str2bin_field in Ec as (f & Hf & <- & ->). apply framed_field in Ea1 as (v & m & -> & Hs); [|auto].
  destruct (Nat.eqb len 0); [left; congruence|]. mon Ea. injection Ea as <- _. right. exists (Tlv f v m). split; [split; auto|reflexivity].
Qed.
Lemma str2oxm_consumed u loop b n : str2oxm u loop = Ok (b, n) -> (n <= length u)%nat.
Proof. unfold str2oxm. intros H. mon H. destruct a as [msg rest]. injection H as _ <-. lia. Qed.
