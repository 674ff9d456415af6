(** Every accepted action text stands for an action: the values in the message are those
    of some action of the grammar, in range. *)
From Coq Require Import Strings.Ascii.
From Verif Require Import Base PyNum Util PyLib OxmCodec OxmTables Oxm Nx Ofp4 Spec SpecOxm SpecOfp.
From Verif Require Import BaseFacts UtilFacts NumFacts OxmRead OxmPrint OxmFacts OxmFrame OxmMore ActBase ActRead ActReadNx ActReadReg ActReadLearn ActPrint ActText ActFrame.

Ltac unpack_inv E :=
  repeat first [apply pack_u_inv in E as (? & ? & E & ->) | apply pack_x_inv in E as (? & E & ->) | apply pack_nil_inv in E as ->].
Lemma std_act_intro t p : be 2 t ++ be 2 (4 + Z.of_nat (length p)) ++ p = std_act t p.
Proof. unfold std_act. do 3 f_equal. lia. Qed.

(** ** Standard actions *)
Lemma den_generic k u ra b n : generic_str2act (noarg_type k) u ra = Ok (b, n) -> exists a, b = act_wire a /\ act_ok a /\ act_tlvs a = [].
Proof.
  unfold generic_str2act. intros H. mons H. injection H as <- <-. unpack_inv Ea. exists (Noarg k). split; [reflexivity|]. split; [|reflexivity].
  split; [exact I|]. cbn. lia.
Qed.
Lemma den_uint t fs u ra b n : uint_str2act t fs u ra = Ok (b, n) -> exists v p, pack fs [v] = Ok p /\ b = std_act t p.
Proof.
  unfold uint_str2act. destruct (get_token u) as [[h x] r]. intros H. mons H. injection H as <- <-.
  unpack_inv Ea1. exists z, a. split; [assumption|]. rewrite app_nil_r, <- app_assoc. apply std_act_intro.
Qed.
Lemma den_ttl u ra b n : uint_str2act 15 [sB; sx 3] u ra = Ok (b, n) -> exists a, b = act_wire a /\ act_ok a /\ act_tlvs a = [].
Proof.
  intros (v & p & E & ->)%den_uint. unpack_inv E. exists (SetMplsTtl v). split; [reflexivity|]. split; [|reflexivity]. split; [assumption|]. cbn. lia.
Qed.
Lemma den_nw_ttl u ra b n : uint_str2act 23 [sB] u ra = Ok (b, n) -> exists a, b = act_wire a /\ act_ok a /\ act_tlvs a = [].
Proof.
  intros (v & p & E & ->)%den_uint. unpack_inv E. exists (SetNwTtl v). split; [reflexivity|]. split; [|reflexivity]. split; [assumption|]. cbn. lia.
Qed.
Lemma den_queue u ra b n : uint_str2act 21 [sI] u ra = Ok (b, n) -> exists a, b = act_wire a /\ act_ok a /\ act_tlvs a = [].
Proof.
  intros (v & p & E & ->)%den_uint. unpack_inv E. exists (SetQueue v). split; [reflexivity|]. split; [|reflexivity]. split; [assumption|]. cbn. lia.
Qed.
Lemma den_group u ra b n : uint_str2act 22 [sI] u ra = Ok (b, n) -> exists a, b = act_wire a /\ act_ok a /\ act_tlvs a = [].
Proof.
  intros (v & p & E & ->)%den_uint. unpack_inv E. exists (GroupAct v). split; [reflexivity|]. split; [|reflexivity]. split; [assumption|]. cbn. lia.
Qed.
Lemma den_output u ra b n : output_str2act u ra = Ok (b, n) -> exists a, b = act_wire a /\ act_ok a /\ act_tlvs a = [].
Proof.
  unfold output_str2act. destruct (get_token u) as [[h x] r]. intros H. mons H. injection H as <- <-.
  match goal with H : pack _ _ = Ok ?v |- _ => rename H into E end. unpack_inv E.
  match goal with |- context [be 4 ?p ++ be 2 ?m ++ pad 6 ++ _] => exists (Output p m) end.
  split; [reflexivity|]. split; [|reflexivity]. split; [auto|]. cbn. lia.
Qed.
Lemma den_push k u ra b n : push_str2act (ether_type k) u ra = Ok (b, n) -> exists a, b = act_wire a /\ act_ok a /\ act_tlvs a = [].
Proof.
  unfold push_str2act. destruct (get_token u) as [[h x] r]. intros H. mons H. injection H as <- <-.
  match goal with H : pack _ _ = Ok ?v |- _ => rename H into E end. unpack_inv E.
  match goal with |- context [be 2 ?m ++ pad 2 ++ _] => exists (Ether k m) end. split; [reflexivity|]. split; [|reflexivity]. split; [auto|]. cbn. lia.
Qed.

(** ** Nicira actions *)
Lemma nx_done sub p b : fix_act_len (pad8 (nx_head sub ++ p)) = Ok b -> b = nx_act sub p /\ Z.of_nat (length b) <= 65535.
Proof.
  intros H. assert (Hl : Z.of_nat (length (nx_act sub p)) <= 65535).
  { rewrite nx_act_length. pose proof H as Ef. unfold fix_act_len in Ef. mons Ef. apply pack_u_inv in Ea as (Hl & _). unfold in_bytes in Hl. unfold pad8 in Hl.
    rewrite !app_length, nx_head_length, zeros_length in Hl. pose proof (align8_ge (10 + length p)). lia. }
  pose proof (nx_finish sub p 0 Hl) as E. unfold nxast_str2act in E. cbn [bind] in E. rewrite H in E. cbn [bind] in E. injection E as ->. auto.
Qed.
Ltac hdr_inv := lazymatch goal with H : nxast_hdr _ = Ok _ |- _ => apply nxast_hdr_inv in H as [_ ->] end.
Lemma pack_all_inv n : forall l b, pack (repeat (FU n) (length l)) l = Ok b -> Forall (in_bytes n) l /\ b = all_be n l.
Proof.
  induction l as [|v l IH]; cbn [length repeat]; intros b H; [apply pack_nil_inv in H as ->; auto|].
  apply pack_u_inv in H as (Hv & b' & H & ->). apply IH in H as [Hl ->]. auto.
Qed.
Lemma den_ids u ra b n : cnt_ids_str2act u ra = Ok (b, n) -> exists a, b = act_wire a /\ act_ok a /\ act_tlvs a = [].
Proof.
  intros H. destruct (nxast_inv _ _ _ H) as (m & Er & Ef). mons Er. injection Er as <- <-. hdr_inv.
  unpack_inv Ea2. apply pack_all_inv in Ea2 as [Hi ->]. apply nx_done in Ef as [-> L].
  match goal with |- context [all_be 2 ?l] => exists (CntIds l) end. split; [reflexivity|]. split; [|reflexivity]. split; [exact Hi|exact L].
Qed.
Lemma den_load2 u ra b n : reg_load_str2act 33 u ra = Ok (b, n) -> exists t, b = act_wire (RegLoad2 t) /\ Z.of_nat (length b) <= 65535 /\ tlv_ok t.
Proof.
  intros H. destruct (nxast_inv _ _ _ H) as (m & Er & Ef). destruct ra; [discriminate|]. mons Er.
  destruct (Nat.eqb n0 0); [discriminate|]. mons Er. cbv zeta in Er. cbn [Z.eqb Pos.eqb] in Er. mons Er. injection Er as <- <-. hdr_inv.
  apply nx_done in Ef as [-> L]. apply str2oxm_one_framed in Ea as [->|(t & Ht & ->)]; [discriminate|].
  exists t. auto.
Qed.
Lemma den_resubmit sub u ra b n : sub = 1 \/ sub = 14 -> resubmit_str2act sub u ra = Ok (b, n) -> exists a, b = act_wire a /\ act_ok a /\ act_tlvs a = [].
Proof.
  intros Hs H. unfold resubmit_str2act in H. destruct (get_token u) as [[h p] u1]. destruct (nxast_inv _ _ _ H) as (m & Er & Ef). mons Er. injection Er as <- <-. hdr_inv.
  match goal with H : pack _ _ = Ok _ |- _ => rename H into E end. unpack_inv E. apply nx_done in Ef as [-> L].
  assert (Hp : nx_port a).
  { destruct (text_eqb (upper p) $"IN_PORT"); [injection Ea as <-; right; reflexivity|]. mons Ea. injection Ea as <-.
    left. unfold in_bytes in *. apply Z.ltb_lt in Eb0. lia. }
  destruct Hs as [-> | ->].
  - assert (t = []) as -> by (cbn [Z.eqb Pos.eqb andb] in Ea0; destruct ra; mons Ea0; congruence).
    cbn [length Nat.eqb orb] in Ea1. injection Ea1 as <-. rewrite app_nil_r in *. exists (Resubmit a). split; [reflexivity|]. split; [|reflexivity]. split; [exact Hp|exact L].
  - rewrite app_nil_r in *. exists (ResubmitTable a a0). split; [reflexivity|]. split; [|reflexivity]. split; [auto|exact L].
Qed.
Lemma den_tunnel u ra b n : set_tunnel_str2act 2 u ra = Ok (b, n) -> exists a, b = act_wire a /\ act_ok a /\ act_tlvs a = [].
Proof.
  intros H. unfold set_tunnel_str2act in H. destruct (get_token u) as [[h p] u1]. destruct (nxast_inv _ _ _ H) as (m & Er & Ef). mons Er. cbv zeta in Er. mons Er. injection Er as <- <-.
  match goal with H : pack _ _ = Ok _ |- _ => rename H into E end.
  destruct (0xffffffff <? z); hdr_inv; unpack_inv E; apply nx_done in Ef as [-> L]; rewrite app_nil_r in *; [exists (SetTunnel64 z)|exists (SetTunnel z)];
    (split; [reflexivity|split; [split; [assumption|exact L]|reflexivity]]).
Qed.
Lemma den_null sub a u ra b n : null_str2act sub u ra = Ok (b, n) -> act_wire a = nx_act sub [] -> (Z.of_nat (length (act_wire a)) <= 65535 -> act_ok a) -> act_tlvs a = [] ->
  exists a, b = act_wire a /\ act_ok a /\ act_tlvs a = [].
Proof.
  intros H Ea Hok Ht. destruct (nxast_inv _ _ _ H) as (m & Er & Ef). mons Er. injection Er as <- <-. hdr_inv.
  rewrite <- (app_nil_r (nx_head sub)) in Ef. apply nx_done in Ef as [-> L]. exists a. split; [auto|]. split; [|exact Ht]. apply Hok. now rewrite Ea.
Qed.

(** *** Bit ranges *)
Lemma token_split u h b r : get_token u = (h, b, r) -> token_head u = h /\ skipn (length h) u = b ++ r.
Proof.
  intros E. pose proof (get_token_concat _ _ _ _ E) as Hc. unfold get_token in E. split; [congruence|]. rewrite <- Hc. apply skipn_len_app.
Qed.
Lemma after_head u : match skipn (length (token_head u)) u with [] => True | c :: _ => ~ blank c end
  /\ (has_char 61 (token_head u) = false -> match skipn (length (token_head u)) u with [] => True | c :: _ => ~ filler c end).
Proof.
  rewrite token_head_eq. destruct (drop_while is_space u) as [|c x] eqn:Ed; [|destruct (Z.eqb_spec c 61) as [->|]].
  - pose proof (skipn_take_while (fun c => is_space c || (c =? 44)) u) as Hs. pose proof (drop_while_head (fun c => is_space c || (c =? 44)) u) as Hd.
    rewrite Hs. destruct (drop_while (fun c => is_space c || (c =? 44)) u) as [|c x]; [auto|]. apply orb_false_elim in Hd as [H1 H2]. apply is_space_false in H1. apply Z.eqb_neq in H2.
    split; [auto|]. intros _ [Hb|Hb]; auto.
  - assert (E : skipn (length (take_while is_space u ++ 61 :: take_while is_space (tl (61 :: x)))) u = drop_while is_space x).
    { cbn [tl]. rewrite app_length. cbn [length]. rewrite <- (take_drop is_space u) at 2. rewrite Ed.
      rewrite skipn_app_ge by lia. replace (_ - _)%nat with (S (length (take_while is_space x))) by lia. cbn [skipn]. apply skipn_take_while. }
    rewrite E. pose proof (drop_while_head is_space x) as Hd. split.
    + destruct (drop_while is_space x); [auto|]. now apply is_space_false.
    + intros Hn. rewrite (proj2 (has_char_true _ _)) in Hn; [discriminate|]. apply in_or_app. right. left. reflexivity.
  - pose proof (skipn_take_while (fun c => is_space c || (c =? 44)) u) as Hs. pose proof (drop_while_head (fun c => is_space c || (c =? 44)) u) as Hd.
    rewrite Hs. destruct (drop_while (fun c => is_space c || (c =? 44)) u) as [|c' x']; [auto|]. apply orb_false_elim in Hd as [H1 H2]. apply is_space_false in H1. apply Z.eqb_neq in H2.
    split; [auto|]. intros _ [Hb|Hb]; auto.
Qed.
Lemma name_solid u h b r : get_token u = (h, b, r) -> b <> [] -> solid b.
Proof.
  intros E Hb. apply token_split in E as [Eh Es]. destruct (after_head u) as [Ha _]. rewrite Eh, Es in Ha. destruct b; [contradiction|]. exact Ha.
Qed.
(** the name before a bracket *)
Lemma closed_chars P a b : closed P (a ++ b) -> Forall (fun c => ~ opener c) a -> Forall P a.
Proof.
  intros H Ha. revert b H. induction Ha as [|c a Hc Ha IH]; intros b H; [constructor|]. cbn [app] in H.
  inversion H; subst; [eauto|]. exfalso. apply Hc. eexists. eassumption.
Qed.
Lemma unclosed_chars P a b : unclosed P (a ++ b) -> Forall (fun c => ~ opener c) a -> Forall P a.
Proof.
  intros H Ha. inversion H as [P' p o e g Hp Hb Hg EP E|P' p o e g Hp Hb Hg EP E]; subst;
    destruct (before_opener a p o g b Ha (ex_intro _ e Hb) E) as [z ->]; eapply closed_chars; eauto.
Qed.
Lemma name_token u h F r name arg : get_token u = (h, F, r) -> parse_func F = Ok (name, arg) -> name <> [] -> get_token name = ([], name, []).
Proof.
  intros Et Ef Hn. pose proof (parse_func_inv _ _ _ Ef) as [Ho Hm].
  assert (Hz : exists z, F = name ++ z) by (destruct arg; [destruct Hm as (o & e & _ & [->| ->]); eauto|exists []; now rewrite app_nil_r]).
  destruct Hz as [z ->].
  assert (Hc : Forall token_char name) by (apply get_token_sound in Et as [_ [[Ht _]|[Ht _]]]; [eapply closed_chars|eapply unclosed_chars]; eauto).
  assert (Hs : solid name).
  { pose proof (name_solid _ _ _ _ Et) as K. destruct name; [contradiction|]. apply K. discriminate. }
  rewrite <- (app_nil_r name) at 1. apply (get_token_complete [] name []); auto; [left; constructor| |exact I].
  clear -Hc Ho. unfold token. induction Hc; [constructor|]. inversion Ho; subst. constructor; auto.
Qed.
Lemma id_inv u h F r name arg b : get_token u = (h, F, r) -> parse_func F = Ok (name, arg) -> str2oxmid name false = Ok b ->
  b = [] \/ exists f, In f accepted_fields /\ b = id_wire false f.
Proof.
  intros Et Ef H. destruct name as [|c name]; [injection H as <-; auto|]. pose proof H as H0.
  pose proof (name_token _ _ _ _ _ _ Et Ef) as En. set (nm := c :: name) in *.
  unfold str2oxmid in H. cbn [length nm str2oxmid_go] in H. fold nm in H. rewrite En in H by discriminate. mons H.
  assert (a0 = []) as -> by (destruct (length name); injection Ea0 as <-; reflexivity).
  rewrite app_nil_r in H. destruct (text_eqb nm $"_"); [left; congruence|].
  destruct (assoc_t nm str2bin_tbl) as [c2|] eqn:Ec; [|left; congruence].
  apply str2bin_field in Ec as (f & Hf & Hnm & _). right. exists f. split; auto.
  pose proof (ids_read false [f]) as K. cbn [map sepby flat_map] in K. rewrite app_nil_r in K. specialize (K ltac:(auto)).
  rewrite Hnm in K. congruence.
Qed.
Lemma get_bits_inv u x lo n r : get_bits u = Ok (x, lo, n, r) -> exists f, In f accepted_fields /\ x = id_wire false f.
Proof.
  unfold get_bits. destruct (get_token u) as [[h F] rest] eqn:Et. intros H. mons H.
  assert (E : x = a).
  { destruct o as [[|c o]|]; [congruence| |congruence]. destruct (split1 58 (c :: o)) as [y1 [y2|]]; [|discriminate]. mons H. congruence. }
  subst x. destruct (id_inv _ _ _ _ _ _ _ Et Ea Ea0) as [->|Hf]; [discriminate|exact Hf].
Qed.
Lemma den_move u ra b n : reg_move_str2act u ra = Ok (b, n) ->
  exists s slo d dlo k, In s accepted_fields /\ In d accepted_fields /\ in_bytes 2 slo /\ in_bytes 2 dlo /\ in_bytes 2 k
    /\ b = act_wire (RegMove s slo d dlo k) /\ Z.of_nat (length b) <= 65535.
Proof.
  unfold reg_move_str2act. intros H. destruct (nxast_inv _ _ _ H) as (m & Er & Ef). destruct ra; [discriminate|]. mons Er. injection Er as <- <-. hdr_inv.
  apply get_bits_inv in Ea as (d & Hd & ->). apply get_bits_inv in Ea0 as (s & Hs & ->). unpack_inv Ea2. apply nx_done in Ef as [-> L].
  match goal with |- context [be 2 ?k ++ be 2 ?slo ++ be 2 ?dlo ++ []] => exists s, slo, d, dlo, k end.
  repeat (split; [assumption|]). split; [|exact L]. cbn [act_wire]. rewrite app_nil_r, <- !app_assoc. reflexivity.
Qed.
Lemma hash_inv n i : index_of n nx_hash_names = Ok i -> exists h, i = hash_id h.
Proof.
  unfold nx_hash_names. cbn [index_of]. destruct (text_eqb n _); [intros [= <-]; now exists EthSrc|].
  destruct (text_eqb n _); [intros [= <-]; now exists SymmetricL4|discriminate].
Qed.
Lemma mpalg_inv n i : index_of n nx_mp_alg_names = Ok i -> exists h, i = mpalg_id h.
Proof.
  unfold nx_mp_alg_names. cbn [index_of]. destruct (text_eqb n _); [intros [= <-]; now exists ModuloN|].
  destruct (text_eqb n _); [intros [= <-]; now exists HashThreshold|].
  destruct (text_eqb n _); [intros [= <-]; now exists MpHrw|].
  destruct (text_eqb n _); [intros [= <-]; now exists IterHash|discriminate].
Qed.
Lemma ofs_inv v : in_bytes 2 v -> exists lo n, 0 <= lo < 1024 /\ 1 <= n <= 64 /\ v = ofs_nbits lo n.
Proof.
  unfold in_bytes. cbn. intros Hv. exists (v / 64), (v mod 64 + 1). pose proof (Z.mod_pos_bound v 64 ltac:(lia)).
  pose proof (Z.div_mod v 64 ltac:(lia)). unfold ofs_nbits. split; [|lia]. split; [apply Z.div_pos; lia|]. apply Z.div_lt_upper_bound; lia.
Qed.
Lemma den_multipath u ra b n : multipath_str2act u ra = Ok (b, n) ->
  exists h bs a l arg d lo k, In d accepted_fields /\ in_bytes 2 bs /\ in_bytes 2 l /\ in_bytes 4 arg /\ 0 <= lo < 1024 /\ 1 <= k <= 64
    /\ b = act_wire (Multipath h bs a l arg d lo k) /\ Z.of_nat (length b) <= 65535.
Proof.
  unfold multipath_str2act. destruct ra; [discriminate|]. intros H. destruct (nxast_inv _ _ _ H) as (m & Er & Ef). clear H.
  repeat (progress (mons Er; match type of Er with context [get_token ?x] => destruct (get_token x) as [[? ?] ?] eqn:? end)). mons Er. injection Er as <- <-. hdr_inv.
  match goal with H : get_bits _ = _ |- _ => apply get_bits_inv in H as (d & Hd & ->) end.
  match goal with H : pack _ _ = _ |- _ => rename H into E end. unfold multipath_fmt in E. unpack_inv E. apply nx_done in Ef as [-> L].
  match goal with H : index_of _ nx_hash_names = _ |- _ => apply hash_inv in H as [hh ->] end.
  match goal with H : index_of _ nx_mp_alg_names = _ |- _ => apply mpalg_inv in H as [aa ->] end.
  match goal with H : in_bytes 2 (Z.shiftl _ _ + _) |- _ => apply ofs_inv in H as (lo & k & Hlo & Hk & Eo) end. rewrite Eo in *.
  match goal with |- context [be 2 (hash_id hh) ++ be 2 ?bs ++ pad 2 ++ _ ++ be 2 ?l ++ be 4 ?arg ++ _] => exists hh, bs, aa, l, arg, d, lo, k end.
  repeat (split; [assumption|]). split; [|exact L]. cbn [act_wire]. rewrite app_nil_r, <- !app_assoc. reflexivity.
Qed.

(** ** All actions *)
Lemma denote_table name f u ra b n : assoc_t name str2act_tbl = Some f -> f u ra = Ok (b, n) -> denotes name b.
Proof.
  intros Hf H. apply assoc_in in Hf. unfold str2act_tbl, nx_str2act_tbl in Hf. cbn [app In] in Hf.
  assert (D : (exists a, b = act_wire a /\ act_ok a /\ act_tlvs a = []) -> denotes name b)
    by (intros (a & E & Ha & Ht); right; right; exists a; split; [exact E|split; [auto|rewrite Ht; constructor]]).
  repeat (destruct Hf as [Hf|Hf]; [injection Hf as <- <-|]); [..|contradiction].
  - apply D. eapply den_output, H.
  - apply D. eapply (den_generic CopyTtlOut), H.
  - apply D. eapply (den_generic CopyTtlIn), H.
  - apply D. eapply den_ttl, H.
  - apply D. eapply (den_generic DecMplsTtl), H.
  - apply D. eapply (den_push PushVlan), H.
  - apply D. eapply (den_generic PopVlan), H.
  - apply D. eapply (den_push PushMpls), H.
  - apply D. eapply (den_push PopMpls), H.
  - apply D. eapply den_queue, H.
  - apply D. eapply den_group, H.
  - apply D. eapply den_nw_ttl, H.
  - apply D. eapply (den_generic DecNwTtl), H.
  - apply D. eapply (den_push PushPbb), H.
  - apply D. eapply (den_generic PopPbb), H.
  - apply D. eapply den_ids, H.
  - left; cbn; tauto.
  - apply den_load2 in H as (t & -> & L & Ht). right. right. exists (RegLoad2 t). split; [reflexivity|]. split; [left; split; [exact I|exact L]|].
    constructor; [|constructor]. destruct Ht as [[Hf|Hf] Hs]; split; auto.
  - apply den_move in H as (s & slo & d & dlo & k & Hs & Hd & H1 & H2 & H3 & -> & L). right. right. eexists. split; [reflexivity|].
    split; [|constructor]. destruct Hs as [<-|Hs]; [right; left; reflexivity|]. destruct Hd as [<-|Hd]; [right; right; left; reflexivity|]. left. split; [auto|exact L].
  - apply D. eapply (den_resubmit 1), H. auto.
  - apply D. eapply (den_resubmit 14), H. auto.
  - apply D. eapply den_tunnel, H.
  - left; cbn; tauto.
  - apply D. eapply (den_null 5 PopQueue); [exact H|reflexivity|split; auto; exact I|reflexivity].
  - left; cbn; tauto.
  - apply D. eapply (den_null 17 Exit); [exact H|reflexivity|split; auto; exact I|reflexivity].
  - apply den_multipath in H as (h & bs & a & l & arg & d & lo & k & Hd & H1 & H2 & H3 & H4 & H5 & -> & L). right. right. eexists. split; [reflexivity|].
    split; [|constructor]. destruct Hd as [<-|Hd]; [right; left; reflexivity|]. left. split; [auto 10|exact L].
  - left; cbn; tauto.
  - left; cbn; tauto.
  - left; cbn; tauto.
  - left; cbn; tauto.
  - left; cbn; tauto.
Qed.
Lemma denote_set_field name x n s b : str2oxm s false = Ok (x, n) -> set_field x = Ok b -> denotes name b.
Proof.
  intros E H. apply frame_set_field in H as (F & _ & ->). apply str2oxm_one_framed in E as [->|(t & Ht & ->)]; [right; left; reflexivity|].
  right. right. exists (SetField t). split; [reflexivity|]. split; [left; split; [exact I|apply F]|].
  constructor; [|constructor]. destruct Ht as [[Hf|Hf] Hs]; split; auto.
Qed.
