(** Match lists: the dictionaries of oxm.py against SpecOxm.registry; reading and
    printing lists of TLVs; termination; framing of whatever is accepted. *)
From Verif Require Import Base PyNum Util PyLib OxmCodec OxmTables Oxm Spec SpecOxm.
From Verif Require Import BaseFacts UtilFacts NumFacts PyLibFacts OxmRead OxmPrint.
From Coq Require Import Strings.Ascii.

(** ** the dictionaries *)
Definition s2b_of (f : field) : s2b :=
  match fkind f with
  | KInt n _ _ => Suint (key_of f) n
  | KPort n => Sport (key_of f) n
  | KMac => Smac (key_of f)
  | KIPv4 => Sipv4 (key_of f)
  | KIPv6 => Sipv6 (key_of f)
  | KPkt => Spkt
  | KHex => Shex (key_of f)
  | KSsid => Sssid
  | KLe n _ _ => Sle (key_of f) n
  | KRate => Srate
  | KChan => Sch
  | KComp l => Scomp (key_of f) (packs_of l)
  | KVht => Svht
  | KS8 => Ss8 (key_of f)
  end.
(** the key the codecs without a key argument use *)
Definition own_key (k : kind) (key0 : key) : key :=
  match k with
  | KPkt => OFB "packet_type"
  | KSsid => STR "dot11_ssid"
  | KRate => STR "rate"
  | KChan => STR "channel"
  | KVht => STR "vht"
  | _ => key0
  end.
(** ct_label as the code encodes it: 4 bytes *)
Definition ct_label4 : field := Field $"nxm_ct_label" Nxm1 108 (KInt 4 (Hex 0) (Some (Hex 0))).
Definition accepted_fields : list field := ct_label4 :: registry.

Lemma str2bin_names : map (fun f => assoc_t (fname f) str2bin_tbl) accepted_fields = map (fun f => Some (s2b_of f)) accepted_fields.
Proof. vm_compute. reflexivity. Qed.
Lemma str2bin_reg f : In f accepted_fields -> assoc_t (fname f) str2bin_tbl = Some (s2b_of f).
Proof. intros H. exact (ext_in_map str2bin_names f H). Qed.
Lemma own_keys : map (fun f => own_key (fkind f) (key_of f)) accepted_fields = map key_of accepted_fields.
Proof. vm_compute. reflexivity. Qed.
Lemma own_key_reg f : In f accepted_fields -> own_key (fkind f) (key_of f) = key_of f.
Proof. intros H. exact (ext_in_map own_keys f H). Qed.
Lemma fnums : forallb (fun f => (0 <=? fnum f) && (fnum f <? 128)) accepted_fields = true.
Proof. vm_compute. reflexivity. Qed.
Lemma fnum_reg f : In f accepted_fields -> 0 <= fnum f < 128.
Proof. intros H. pose proof (proj1 (forallb_forall _ _) fnums f H). lia. Qed.
Lemma wides : forallb (fun f => match fkind f with KComp l => (2 <=? length l)%nat | _ => true end) accepted_fields = true.
Proof. vm_compute. reflexivity. Qed.
Lemma wide_reg f : In f accepted_fields -> wide_kind (fkind f).
Proof.
  intros H. pose proof (proj1 (forallb_forall _ _) wides f H) as E. cbn in E. destruct (fkind f); cbn; auto. now apply Nat.leb_le.
Qed.
Definition plainb (c : Z) : bool :=
  (33 <=? c) && (c <=? 126) && negb (existsb (Z.eqb c) [44; 61; 40; 41; 123; 125; 91; 93; 60; 62]).
Lemma plainb_plain c : plainb c = true -> plain c.
Proof. unfold plainb, plain. cbn [existsb]. lia. Qed.
Lemma names_plain : forallb (fun f => forallb plainb (fname f) && negb (text_eqb (fname f) [])) accepted_fields = true.
Proof. vm_compute. reflexivity. Qed.
Lemma name_reg f : In f accepted_fields -> Forall plain (fname f) /\ fname f <> [].
Proof.
  intros H. pose proof (proj1 (forallb_forall _ _) names_plain f H) as E. cbn in E. apply andb_prop in E as [E1 E2]. split.
  - apply Forall_forall. intros c Hc. apply plainb_plain. now apply (proj1 (forallb_forall _ _) E1).
  - intros E. rewrite E in E2. discriminate.
Qed.
Lemma reg_accepted f : In f registry -> In f accepted_fields.
Proof. intros H. right. exact H. Qed.

Definition seg_dec (a b : seg) : {a = b} + {a <> b}.
Proof. decide equality; try apply Z.eq_dec. decide equality. apply Nat.eq_dec. Defined.
Definition holeb (s : nstyle) (h : hole) : bool :=
  match s, h with Dec, HD => true | Hex w, HX w' => Nat.eqb (w' - 2) w | _, _ => false end.
Lemma holeb_of s h : holeb s h = true -> hole_of s h.
Proof. destruct s, h; cbn; try discriminate; auto. apply Nat.eqb_eq. Qed.
Definition eqb_of {A} (d : forall a b : A, {a = b} + {a <> b}) a b : bool := if d a b then true else false.
Lemma eqb_of_eq {A} (d : forall a b : A, {a = b} + {a <> b}) a b : eqb_of d a b = true -> a = b.
Proof. unfold eqb_of. destruct (d a b); [auto|discriminate]. Qed.
Definition segs_eqb := eqb_of (list_eq_dec seg_dec).
Definition int_fmtb (f : field) (s : nstyle) (m : option nstyle) (fmt : text) : bool :=
  let pre := map SLit (fname f ++ $"=") in
  match last (fmt_segs (fmt_nomask fmt)) (SLit 0) with
  | SHole h =>
      holeb s h && segs_eqb (fmt_segs (fmt_nomask fmt)) (pre ++ [SHole h])
      && match m with
         | None => true
         | Some ms => match last (fmt_segs fmt) (SLit 0) with
                      | SHole h' => holeb ms h' && segs_eqb (fmt_segs fmt) (pre ++ [SHole h; SLit 47; SHole h'])
                      | SLit _ => false
                      end
         end
  | SLit _ => false
  end.
Lemma int_fmtb_fmt f s m fmt : int_fmtb f s m fmt = true -> int_fmt f s m fmt.
Proof.
  unfold int_fmtb, int_fmt. destruct (last (fmt_segs (fmt_nomask fmt)) (SLit 0)) as [|h]; [discriminate|]. intros H.
  apply andb_prop in H as [H Hm]. apply andb_prop in H as [Hh H]. exists h.
  split; [now apply holeb_of|]. split; [now apply (eqb_of_eq (list_eq_dec seg_dec))|]. destruct m as [ms|]; [|auto].
  destruct (last (fmt_segs fmt) (SLit 0)) as [|h']; [discriminate|]. apply andb_prop in Hm as [Hm1 Hm2]. exists h'.
  split; [now apply holeb_of|now apply (eqb_of_eq (list_eq_dec seg_dec))].
Qed.
Fixpoint comp_fmtsb (l : list (nat * nstyle)) (fmts : list text) : bool :=
  match l, fmts with
  | [], [] => true
  | (_, s) :: l', fmt :: fmts' =>
      match fmt_segs fmt with [SHole h] => holeb s h | _ => false end && comp_fmtsb l' fmts'
  | _, _ => false
  end.
Lemma comp_fmtsb_fmts l : forall fmts, comp_fmtsb l fmts = true ->
  Forall2 (fun p fmt => exists h, fmt_segs fmt = [SHole h] /\ hole_of (snd p) h) l fmts.
Proof.
  induction l as [|[n s] l IH]; intros [|fmt fmts] H; try discriminate; constructor.
  - cbn in H. apply andb_prop in H as [H _]. destruct (fmt_segs fmt) as [|[|h] [|]]; try discriminate. exists h. split; auto. now apply holeb_of.
  - apply IH. cbn in H. now apply andb_prop in H as [_ H].
Qed.
Definition fitem_dec (a b : fitem) : {a = b} + {a <> b}.
Proof. decide equality; apply Nat.eq_dec. Defined.
Definition text_dec := list_eq_dec Z.eq_dec.
Definition b2sb (f : field) (c : b2s) : bool :=
  match fkind f, c with
  | KInt _ s m, Buint fmt | KLe _ s m, Ble fmt => int_fmtb f s m fmt
  | KPort n, Bport nm n' => eqb_of text_dec nm (fname f) && Nat.eqb n n'
  | KMac, Bmac nm | KIPv4, Bipv4 nm | KIPv6, Bipv6 nm | KHex, Bhex nm | KS8, Bs8 nm => eqb_of text_dec nm (fname f)
  | KPkt, Bpkt => eqb_of text_dec (fname f) $"packet_type"
  | KSsid, Bssid => eqb_of text_dec (fname f) $"dot11_ssid"
  | KRate, Brate => eqb_of text_dec (fname f) $"radiotap_rate"
  | KChan, Bch => eqb_of text_dec (fname f) $"radiotap_channel"
  | KVht, Bvht => eqb_of text_dec (fname f) $"radiotap_vht"
  | KComp l, Bcomp nm packs fmts =>
      eqb_of text_dec nm (fname f) && eqb_of (list_eq_dec fitem_dec) packs (packs_of l) && comp_fmtsb l fmts
  | _, _ => false
  end.
Lemma b2sb_for f c : b2sb f c = true -> b2s_for f c.
Proof.
  unfold b2sb, b2s_for. destruct (fkind f), c; try discriminate; intros H;
    repeat match goal with
    | H : _ && _ = true |- _ => apply andb_prop in H as [? ?]
    | H : eqb_of _ _ _ = true |- _ => apply eqb_of_eq in H
    | H : Nat.eqb _ _ = true |- _ => apply Nat.eqb_eq in H
    | H : int_fmtb _ _ _ _ = true |- _ => apply int_fmtb_fmt in H
    | H : comp_fmtsb _ _ = true |- _ => apply comp_fmtsb_fmts in H
    end; subst; eauto.
Qed.
Definition misprintedb (f : field) : bool := existsb (fun n => eqb_of text_dec n (fname f)) misprinted.
Lemma bin2str_all : forallb (fun f => misprintedb f || match assoc_k (key_of f) bin2str_tbl with Some c => b2sb f c | None => false end) registry = true.
Proof. vm_compute. reflexivity. Qed.
Lemma bin2str_reg f : In f registry -> ~ In (fname f) misprinted ->
  exists c, assoc_k (key_of f) bin2str_tbl = Some c /\ b2s_for f c.
Proof.
  intros H Hm. pose proof (proj1 (forallb_forall _ _) bin2str_all f H) as E. cbv beta in E. apply orb_prop in E as [E|E].
  - exfalso. apply Hm. unfold misprintedb in E. apply existsb_exists in E as (n & Hn & E). apply eqb_of_eq in E. now subst.
  - destruct (assoc_k (key_of f) bin2str_tbl) as [c|]; [|discriminate]. exists c. split; auto. now apply b2sb_for.
Qed.

(** ** reading one item *)
Lemma enc_field f u v m : In f accepted_fields -> writes (fkind f) u v m ->
  run_s2b (s2b_of f) (AText u) = Ok (wire (Tlv f v m), length u).
Proof.
  intros Hf H. pose proof (fnum_reg f Hf) as Hn. pose proof (own_key_reg f Hf) as Hk. unfold s2b_of.
  destruct (fkind f) eqn:Ek; cbn [run_s2b own_key] in *;
    eauto using enc_int, enc_port, enc_mac, enc_ipv4, enc_ipv6, enc_hex, enc_le, enc_comp, enc_s8.
  - eapply enc_pkt; eauto.
  - eapply enc_ssid; eauto.
  - eapply enc_rate; eauto.
    + assert (fclass f = Stratos) as E by (unfold key_of in Hk; destruct (fclass f); try discriminate; auto). exact E.
    + unfold key_of in Hk. injection Hk as _ E. rewrite <- E. reflexivity.
  - eapply enc_chan; eauto.
  - eapply enc_vht; eauto.
Qed.
Lemma literal_plain u v : literal u v -> Forall plain u /\ u <> [].
Proof. intros H. apply literal_tidy in H as [H1 H2]. split; auto. now apply tidy_plain. Qed.
Lemma colon_plain (u u' : text) : Forall plain u -> Forall plain u' -> Forall plain (u ++ $":" ++ u').
Proof. intros H1 H2. apply Forall_app. split; auto. rewrite colon_text. constructor; auto. unfold plain. lia. Qed.
Lemma colon_nonnil (u u' : text) : u ++ $":" ++ u' <> []. Proof. destruct u; discriminate. Qed.
Lemma dec_plain_str n : Forall plain (dec n).
Proof. now apply (literal_plain (dec n) n), dec_literal. Qed.
Lemma rate_plain r : Forall plain (rate_str r) /\ rate_str r <> [].
Proof.
  assert (Forall plain $".0K" /\ Forall plain $".5M" /\ Forall plain $".0M") as (H1 & H2 & H3)
    by (repeat split; repeat constructor; unfold plain; cbn; lia).
  unfold rate_str. split.
  - destruct (r <? 2); [|destruct (r mod 2 =? 1)]; apply Forall_app; auto using dec_plain_str.
  - intros E. destruct (r <? 2); [|destruct (r mod 2 =? 1)]; apply app_eq_nil in E as [_ E]; discriminate.
Qed.
Lemma unit_plain n s : Forall plain s -> s <> [] -> Forall plain (dec n ++ s) /\ dec n ++ s <> [].
Proof.
  intros H Hn. split; [apply Forall_app; auto using dec_plain_str|]. intros E. now apply app_eq_nil in E as [_ E].
Qed.
Lemma writes_plain k u v m : writes k u v m -> Forall plain u /\ u <> [].
Proof.
  intros H. destruct H;
    repeat match goal with
    | H : literal _ _ |- _ => apply literal_plain in H as [? ?]
    | H : opt_literal _ _ |- _ => apply opt_literal_tidy in H; apply tidy_plain in H
    | H : mac_of _ _ |- _ => destruct (mac_scan_of _ _ [] H) as (? & ? & _ & _ & _ & _ & ? & _ & ?); clear H
    | H : ipv6_of _ _ |- _ => apply inet_pton6_of in H as (_ & ? & _ & ? & _)
    | H : vht_of _ _ |- _ => apply vht_parse_of in H as (_ & ?%tame_plain & ? & _)
    | Hl : (2 <= length ?l)%nat, H : comp_of ?l _ _ |- _ => apply (comp_parse_of _ _ _ Hl) in H as (_ & ?%tame_plain & ?)
    end; chr_red;
    try (split; [apply plain_slash; auto|apply slash_nonnil]);
    try (split; [apply colon_plain; auto|apply colon_nonnil]); auto.
  - unfold reserved in H. assert (forall p lo up, In (p, (lo, up)) reserved ->
      (forallb plainb lo && forallb plainb up && negb (text_eqb lo []) && negb (text_eqb up [])) = true) as K.
    { intros q a b Hq. pose proof (forallb_forall (fun x => forallb plainb (fst (snd x)) && forallb plainb (snd (snd x))
        && negb (text_eqb (fst (snd x)) []) && negb (text_eqb (snd (snd x)) [])) reserved) as [K _].
      exact (K eq_refl _ Hq). }
    apply K in H. repeat (apply andb_prop in H as [H ?]). split.
    + apply Forall_forall. intros c Hc. apply plainb_plain.
      destruct H0; subst u; [apply (proj1 (forallb_forall _ _) H)|apply (proj1 (forallb_forall _ _) H3)]; auto.
    + intros E. destruct H0; subst u; rewrite E in *; discriminate.
  - destruct H as [Hl ->]. split; [apply ipv4_chars|now apply ipv4_nonnil].
  - destruct H as [_ ->]. apply ipv4_chars.
  - destruct H0 as [_ ->]. apply ipv4_chars.
  - split; [apply tidy_plain; eapply hex_of_tidy; eauto|]. intros E. apply H0. apply hex_of_length in H. subst u. destruct v; [auto|cbn in H; lia].
  - apply tidy_plain; eapply hex_of_tidy; eauto.
  - apply tidy_plain; eapply hex_of_tidy; eauto.
  - split; [now apply safe_text|]. destruct v; [congruence|discriminate].
  - now apply safe_text.
  - apply tidy_plain; eapply hex_of_tidy; eauto.
  - apply rate_plain.
  - apply unit_plain; [repeat constructor; unfold plain; cbn; lia|discriminate].
  - apply unit_plain; [repeat constructor; unfold plain; cbn; lia|discriminate].
  - apply plain_slash; auto. apply colon_plain; auto.
Qed.

(** ** reading lists *)
Definition follow (r : text) : Prop := match r with [] => True | c :: _ => sep_char c end.
Lemma follow_ends r : follow r -> ends r.
Proof. destruct r as [|c r]; cbn; auto. Qed.
Lemma gap_follow g r : gap g -> follow (g ++ r).
Proof. intros (c & s & -> & Hc & _). exact Hc. Qed.
Lemma filler_lead h : Forall filler h -> lead h.
Proof. intros H. left. exact H. Qed.
Lemma sep_filler c : sep_char c -> filler c.
Proof. unfold sep_char, filler, blank. intros [H|[H|H]]; auto; left; lia. Qed.
Lemma gap_filler g : gap g -> Forall filler g.
Proof. intros (c & s & -> & Hc & Hs). constructor; auto. now apply sep_filler. Qed.
Lemma gap_eq_blank a : gap_eq a -> Forall blank a.
Proof.
  intros [->|(c & r & -> & Hc & Hn & Hr)]; [constructor|]. constructor; auto. unfold blank, sep_char in *. lia.
Qed.
Lemma gap_eq_ends a r : gap_eq a -> ends (a ++ 61 :: r).
Proof. intros [->|(c & s & -> & Hc & Hn & Hr)]; cbn; auto. right. reflexivity. Qed.
Lemma filler_no_eq h : Forall filler h -> has_char 61 h = false.
Proof.
  intros H. apply has_char_false. intros Hi. apply (proj1 (Forall_forall _ _) H) in Hi. unfold filler, blank in Hi. revert Hi. chr_red. lia.
Qed.
Lemma item_tokens f u v m a b h r : In f accepted_fields -> writes (fkind f) u v m -> gap_eq a -> Forall blank b ->
  Forall filler h -> follow r ->
  get_token (h ++ (fname f ++ a ++ $"=" ++ b ++ u) ++ r) = (h, fname f, a ++ 61 :: b ++ u ++ r) /\
  get_token (a ++ 61 :: b ++ u ++ r) = (a ++ 61 :: b, u, r).
Proof.
  intros Hf Hw Ha Hb Hh Hr. destruct (writes_plain _ _ _ _ Hw) as [Hu Hn]. destruct (name_reg f Hf) as [Hp Hpn]. split.
  - replace (h ++ (fname f ++ a ++ $"=" ++ b ++ u) ++ r) with (h ++ fname f ++ (a ++ 61 :: b ++ u ++ r))
      by (change $"=" with [61]; rewrite <- !app_assoc; reflexivity).
    apply get_token_complete; auto using filler_lead, plain_token, plain_solid, gap_eq_ends.
  - replace (a ++ 61 :: b ++ u ++ r) with ((a ++ 61 :: b) ++ u ++ r) by (rewrite <- app_assoc; reflexivity).
    apply get_token_complete; auto using plain_token, plain_solid, follow_ends.
    right. exists a, b. auto using gap_eq_blank.
Qed.
Lemma str2oxm_step f u v m a b h r fuel loop : In f accepted_fields -> writes (fkind f) u v m -> gap_eq a -> Forall blank b ->
  Forall filler h -> follow r ->
  str2oxm_go (S fuel) loop (h ++ (fname f ++ a ++ $"=" ++ b ++ u) ++ r) =
  if loop then ('(x, u3) <- str2oxm_go fuel loop r ;; Ok (wire (Tlv f v m) ++ x, u3)) else Ok (wire (Tlv f v m), r).
Proof.
  intros Hf Hw Ha Hb Hh Hr. destruct (item_tokens f u v m a b h r Hf Hw Ha Hb Hh Hr) as [E1 E2].
  assert (h ++ (fname f ++ a ++ $"=" ++ b ++ u) ++ r <> []) as Hne.
  { destruct (name_reg f Hf) as [_ Hn]. intros E. apply app_eq_nil in E as [_ E]. apply app_eq_nil in E as [E _]. now apply app_eq_nil in E as [E _]. }
  destruct (h ++ (fname f ++ a ++ $"=" ++ b ++ u) ++ r) as [|c0 s0] eqn:Es; [congruence|].
  cbn [str2oxm_go]. rewrite E1, E2, filler_no_eq by auto.
  assert (has_char 61 (a ++ 61 :: b) = true) as -> by (apply has_char_true, in_or_app; right; left; reflexivity).
  cbn [negb andb assert bind]. unfold str2bin. rewrite str2bin_reg by auto. cbn [bind]. rewrite (enc_field f u v m) by auto. cbn [bind].
  destruct (writes_plain _ _ _ _ Hw) as [_ Hun]. destruct (Nat.eqb_spec (length u) 0) as [E|E]; [destruct u; [congruence|discriminate]|].
  rewrite Nat.eqb_refl. cbn [assert bind]. reflexivity.
Qed.
Lemma more_follow ts r : more ts r -> follow r.
Proof. intros [|t ts' g u r' Hg Hu Hr]; [exact I|]. now apply gap_follow. Qed.
Lemma item_nonnil t u : item t u -> u <> [].
Proof.
  intros [f w v m a b Hf _ _ _] E. apply app_eq_nil in E as [E _]. now apply (name_reg f (reg_accepted f Hf)).
Qed.
Lemma item_step t u h r fuel loop : item t u -> Forall filler h -> follow r ->
  str2oxm_go (S fuel) loop (h ++ u ++ r) =
  if loop then ('(x, u3) <- str2oxm_go fuel loop r ;; Ok (wire t ++ x, u3)) else Ok (wire t, r).
Proof. intros [f w v m a b Hf Hw Ha Hb] Hh Hr. apply str2oxm_step; auto using reg_accepted. Qed.
Lemma more_reads ts r : more ts r -> forall fuel, (length r <= fuel)%nat ->
  str2oxm_go fuel true r = Ok (flat_map wire ts, []).
Proof.
  intros H. induction H as [|t ts g u r Hg Hu Hr IH]; intros fuel Hl; [destruct fuel; reflexivity|].
  pose proof (item_nonnil _ _ Hu) as Hn. rewrite !app_length in Hl.
  destruct fuel as [|fuel]; [destruct u; [congruence|cbn in Hl; lia]|].
  rewrite (item_step t) by (auto using gap_filler; now apply (more_follow ts)).
  rewrite IH by (destruct u; [congruence|cbn in Hl; lia]). reflexivity.
Qed.
Lemma written_reads ts u : written ts u -> str2oxm u true = Ok (flat_map wire ts, length u).
Proof.
  intros [|t ts' h w r Hh Hw Hr]; [reflexivity|]. unfold str2oxm.
  pose proof (item_nonnil _ _ Hw) as Hn.
  destruct (length (h ++ w ++ r)) as [|fuel] eqn:El; [rewrite !app_length in El; destruct w; [congruence|cbn in El; lia]|].
  rewrite (item_step t) by (auto; now apply (more_follow ts')).
  rewrite (more_reads ts' r Hr) by (rewrite !app_length in El; destruct w; [congruence|cbn in El; lia]).
  cbn [bind flat_map length]. now rewrite Nat.sub_0_r.
Qed.
(** one item only (loop = false): stops after it *)
Lemma item_reads t h u r : item t u -> Forall filler h -> follow r ->
  str2oxm (h ++ u ++ r) false = Ok (wire t, (length h + length u)%nat).
Proof.
  intros Hu Hh Hr. pose proof (item_nonnil _ _ Hu) as Hn. unfold str2oxm.
  destruct (length (h ++ u ++ r)) as [|fuel] eqn:El; [rewrite !app_length in El; destruct u; [congruence|cbn in El; lia]|].
  rewrite (item_step t) by auto. cbn [bind]. rewrite !app_length in El. do 2 f_equal. lia.
Qed.

(** ** the canonical text *)
Lemma text_item t : good t -> item t (text_of t).
Proof.
  destruct t as [f v m]. intros (Hf & Hv & Hm & _). cbn [tfield tval tmask] in *.
  pose proof (good_writes (Tlv f v m) Hv Hm (wide_reg f (reg_accepted f Hf))) as W. cbn [tfield tval tmask] in W.
  unfold text_of. cbn [tfield]. apply (item_eq f _ v m [] []); [exact Hf|exact W|now left|constructor].
Qed.
Lemma comma_gap : gap $",".
Proof. exists 44, []. repeat split; [now left|constructor]. Qed.
Lemma texts_more ts : Forall good ts -> more ts (flat_map (fun t => $"," ++ text_of t) ts).
Proof.
  intros H. induction H as [|t ts Ht Hts IH]; [constructor|]. cbn [flat_map].
  rewrite <- app_assoc. constructor; auto using comma_gap, text_item.
Qed.
Lemma sepby_flat c t ts : sepby c (map text_of (t :: ts)) = text_of t ++ flat_map (fun t => c :: text_of t) ts.
Proof.
  revert t. induction ts as [|t' ts IH]; intros t; [cbn; now rewrite app_nil_r|].
  change (sepby c (map text_of (t :: t' :: ts))) with (text_of t ++ c :: sepby c (map text_of (t' :: ts))).
  now rewrite IH.
Qed.
Lemma texts_written ts : Forall good ts -> written ts (texts ts).
Proof.
  intros H. destruct H as [|t ts Ht Hts]; [constructor|]. unfold texts. rewrite sepby_flat.
  apply (written_cons t ts [] (text_of t)); [constructor|now apply text_item|now apply texts_more].
Qed.

(** ** printing lists *)
Lemma num_be_app a b : num_be (a ++ b) = num_be a * 256 ^ Z.of_nat (length b) + num_be b.
Proof.
  induction a as [|x a IH]; cbn [app num_be]; [lia|]. rewrite IH, app_length, Nat2Z.inj_add, Z.pow_add_r by lia. ring.
Qed.
Lemma byte_of_val v : 0 <= v < 256 -> byte_val (byte_of v) = v.
Proof. intros H. change byte_val with b2z. change (byte_of v) with (z2b v). rewrite b2z_z2b. apply Z.mod_small. lia. Qed.
Definition flag (hm : bool) : Z := if hm then 1 else 0.
Lemma hdr_head f hm len r : 0 <= fnum f < 128 -> 0 <= len ->
  unpack_from [sH; sB; sB] (hdr f hm len ++ r) 0 =
  Ok [class_id (fclass f); 2 * fnum f + flag hm; Z.min 255 (Z.of_nat (length (exp_id (fclass f))) + len)].
Proof.
  intros Hf Hl. unfold hdr. set (l := Z.min 255 (Z.of_nat (length (exp_id (fclass f))) + len)).
  assert (exists a b, be 2 (class_id (fclass f)) = [a; b]) as (a & b & E) by (eexists _, _; reflexivity).
  assert (num_be [a; b] = class_id (fclass f)) as En.
  { rewrite <- E. rewrite num_be_be. destruct (fclass f); reflexivity. }
  rewrite E. cbn [app]. unfold unpack_from. cbn [length calcsize fold_right fwidth Nat.add Nat.leb skipn unpack_raw firstn].
  rewrite !be_val_spec, En. cbn [num_be length]. fold l. unfold flag.
  rewrite !byte_of_val by (unfold l; destruct hm; lia). do 3 f_equal; [|f_equal]; lia.
Qed.
Lemma flag_shift n hm : Z.shiftr (2 * n + flag hm) 1 = n.
Proof. rewrite Z.shiftr_div_pow2 by lia. unfold flag. destruct hm; change (2 ^ 1) with 2; lia. Qed.
Lemma flag_bit n hm : (Z.land (2 * n + flag hm) 1 =? 1) = hm.
Proof.
  change 1 with (Z.ones 1) at 1. rewrite Z.land_ones by lia. change (2 ^ 1) with 2. unfold flag. destruct hm.
  - replace (2 * n + 1) with (1 + n * 2) by ring. rewrite Z_mod_plus_full. reflexivity.
  - replace (2 * n + 0) with (0 + n * 2) by ring. rewrite Z_mod_plus_full. reflexivity.
Qed.
Lemma hdr_length f hm len : length (hdr f hm len) = (4 + length (exp_id (fclass f)))%nat.
Proof. unfold hdr. rewrite !app_length, be_length. cbn [length]. lia. Qed.
Lemma dispatch_hdr f hm len r c : 0 <= fnum f < 128 -> assoc_k (key_of f) bin2str_tbl = Some c ->
  oxm_dispatch (hdr f hm len ++ r) (class_id (fclass f)) (2 * fnum f + flag hm) =
  Ok (Some (c, (4 + length (exp_id (fclass f)))%nat)).
Proof.
  intros Hf Hc. unfold oxm_dispatch. rewrite flag_shift. unfold bin2str, key_of in *.
  destruct (fclass f) eqn:Ef; cbn [class_id cls_of] in *.
  - change (0x8000 =? OFPXMC_EXPERIMENTER) with false. change (0x8000 =? OFPXMC_OPENFLOW_BASIC) with true. now rewrite Hc.
  - change (0 =? OFPXMC_EXPERIMENTER) with false. change (0 =? OFPXMC_OPENFLOW_BASIC) with false. change (0 =? OFPXMC_NXM_0) with true.
    now rewrite Hc.
  - change (1 =? OFPXMC_EXPERIMENTER) with false. change (1 =? OFPXMC_OPENFLOW_BASIC) with false.
    change (1 =? OFPXMC_NXM_0) with false. change (1 =? OFPXMC_NXM_1) with true. now rewrite Hc.
  - change (0xffff =? OFPXMC_EXPERIMENTER) with true. unfold hdr. rewrite Ef. cbn [exp_id class_id].
    assert (be 2 0xffff = [xff; xff]) as -> by reflexivity. assert (be 4 0xff00e04d = [xff; x00; xe0; x4d]) as -> by reflexivity.
    cbn [app]. unfold unpack_from. cbn [length calcsize fold_right fwidth Nat.add Nat.leb skipn unpack_raw firstn bind].
    change (be_val [xff; x00; xe0; x4d] =? STRATOS_EXPERIMENTER_ID) with true. now rewrite Hc.
Qed.
Lemma one_token f v m r c : 0 <= fnum f < 128 -> assoc_k (key_of f) bin2str_tbl = Some c -> fits (Tlv f v m) ->
  oxm2str_one (wire (Tlv f v m) ++ r) = (tok <- run_b2s c (v ++ mask_bytes m) (has_mask m) ;; Ok (tok, r)).
Proof.
  intros Hf Hc Hfit. unfold fits, wire in *. cbn [tfield tval tmask] in *. rewrite <- app_assoc. unfold oxm2str_one.
  set (p := v ++ mask_bytes m) in *. rewrite hdr_head by lia. cbn [bind]. rewrite (dispatch_hdr f _ _ _ c) by auto. cbn [bind].
  rewrite flag_bit. rewrite Z.min_r by lia. rewrite <- Nat2Z.inj_add, Nat2Z.id.
  replace (slice (4 + length (exp_id (fclass f))) (4 + (length (exp_id (fclass f)) + length p))
             (hdr f (has_mask m) (Z.of_nat (length p)) ++ p ++ r)) with p.
  2:{ unfold slice. rewrite skipn_app_exact by apply hdr_length. rewrite firstn_app_exact by lia. reflexivity. }
  replace (skipn (4 + (length (exp_id (fclass f)) + length p)) (hdr f (has_mask m) (Z.of_nat (length p)) ++ p ++ r)) with r; [reflexivity|].
  rewrite app_assoc, skipn_app_exact; [reflexivity|]. rewrite app_length, hdr_length. lia.
Qed.
Lemma one_prints t r : good t -> printable t -> oxm2str_one (wire t ++ r) = Ok (text_of t, r).
Proof.
  intros Hg Hp. pose proof Hg as (Hf & _ & _ & Hfit). destruct (bin2str_reg _ Hf Hp) as (c & Ec & Hc).
  pose proof (prints_good t c Hg Hc) as P. unfold prints in P. destruct t as [f v m]. cbn [tfield tval tmask] in *.
  rewrite (one_token f v m r c) by (auto using fnum_reg, reg_accepted). now rewrite P.
Qed.
Lemma wire_length t : (4 <= length (wire t))%nat.
Proof. unfold wire. rewrite app_length, hdr_length. lia. Qed.
Lemma go_prints ts : Forall good ts -> Forall printable ts -> forall fuel, (length (flat_map wire ts) <= fuel)%nat ->
  oxm2str_go fuel true (flat_map wire ts) = Ok (map text_of ts).
Proof.
  intros Hg Hp. induction Hg as [|t ts Ht Hts IH]; intros fuel Hl; [destruct fuel; reflexivity|].
  inversion Hp; subst. cbn [flat_map] in *. pose proof (wire_length t) as Hw. rewrite app_length in Hl.
  destruct fuel as [|fuel]; [lia|]. cbn [oxm2str_go].
  replace (length (wire t ++ flat_map wire ts) <? 4)%nat with false by (symmetry; apply Nat.ltb_ge; rewrite app_length; lia).
  rewrite one_prints by auto. cbn [bind]. rewrite IH by (auto; lia). reflexivity.
Qed.
Lemma oxm2str_prints ts : Forall good ts -> Forall printable ts -> oxm2str (flat_map wire ts) true = Ok (texts ts).
Proof.
  intros Hg Hp. unfold oxm2str. rewrite go_prints by auto. cbn [bind]. f_equal. exact (join_sepby 44 _).
Qed.
Lemma oxm2str_prints1 t r : good t -> printable t -> oxm2str (wire t ++ r) false = Ok (text_of t).
Proof.
  intros Hg Hp. unfold oxm2str. pose proof (wire_length t) as Hw.
  destruct (length (wire t ++ r)) as [|fuel] eqn:El; [rewrite app_length in El; lia|].
  cbn [oxm2str_go]. rewrite El. replace (S fuel <? 4)%nat with false by (symmetry; apply Nat.ltb_ge; rewrite <- El, app_length; lia).
  rewrite one_prints by auto. reflexivity.
Qed.
