(** binascii.b2a_qp is the quoted-printable text of SpecQp. *)
From Verif Require Import Base PyNum PyLib Spec SpecOxm SpecText SpecShow SpecQp.
From Verif Require Import BaseFacts UtilFacts PyLibFacts ShowLib.
From Coq Require Import Strings.Ascii.

Definition next_of (r : list Z) : option Z := match r with [] => None | n :: _ => Some n end.
Lemma escaped_eq c : 0 <= c < 256 -> escaped c = qp_esc c.
Proof.
  intros H. unfold escaped, qp_esc. assert (forall d, 0 <= d < 16 -> nth (Z.to_nat d) $"0123456789ABCDEF" 0 = hexu_char d) as K.
  { intros d Hd. assert (In d (map Z.of_nat (seq 0 16))) as Hi by (apply in_map_iff; exists (Z.to_nat d); split; [lia|apply in_seq; lia]).
    clear Hd. revert d Hi. apply Forall_forall. vm_compute. repeat constructor. }
  rewrite !K; [reflexivity|apply Z.mod_pos_bound; lia|split; [apply Z.div_pos; lia|apply Z.div_lt_upper_bound; lia]].
Qed.
Lemma hidden_iff col c r : qp_quote col c (next_of r) = true <-> hidden col c r.
Proof.
  unfold qp_quote, hidden, blank_byte. chr_red. rewrite !orb_true_iff, !andb_true_iff, !negb_true_iff, Nat.eqb_eq, !orb_true_iff. destruct r as [|d r]; cbn [next_of].
  - rewrite Z.ltb_lt, !Z.eqb_eq, Z.ltb_lt, !Z.eqb_neq. intuition (auto; lia).
  - split.
    + rewrite !orb_true_iff, !Z.ltb_lt, !Z.eqb_eq, !Z.eqb_neq. intros [[[[H|H]|[[H1 H2] H3]]|[_ H]]|H]; [auto|auto| |discriminate|right; right; left; lia].
      right; right; right; right. repeat split; auto. right. exists d, r. intuition.
    + rewrite !orb_true_iff, !Z.ltb_lt, !Z.eqb_eq, !Z.eqb_neq. intros [H|[H|[H|[[_ H]|(H1 & H2 & [H|(d' & r' & [= <- <-] & H)])]]]]; try discriminate; intuition (auto; lia).
Qed.
Lemma hidden_dec col c r : hidden col c r \/ ~ hidden col c r.
Proof. rewrite <- hidden_iff. destruct (qp_quote _ _ _); auto. Qed.
Lemma line_end_dec r : (exists r', line_end r r') \/ (forall r', ~ line_end r r').
Proof.
  destruct r as [|c r]; [right; intros r' H; inversion H|]. destruct (Z.eq_dec c 10) as [->|N]; [left; eexists; constructor|].
  destruct (Z.eq_dec c 13) as [->|M]; [|right; intros r' H; inversion H; congruence].
  destruct r as [|d r]; [right; intros r' H; inversion H|]. destruct (Z.eq_dec d 10) as [->|K]; [left; eexists; constructor|]. right. intros r' H. inversion H; congruence.
Qed.
Lemma line_end_length r r' : line_end r r' -> (length r' < length r)%nat.
Proof. intros []; cbn; lia. Qed.
Lemma done_dec r : line_done r \/ ~ line_done r.
Proof. unfold line_done. destruct r as [|c r]; [auto|]. destruct (Z.eq_dec c 10) as [->|N]; [left; right; eauto|right]. intros [H|(r' & H)]; congruence. Qed.
Lemma placed_ex nl w col (stay : Prop) : stay \/ ~ stay -> exists soft col', placed nl w col stay soft col'.
Proof.
  intros D. destruct (Nat.lt_ge_cases (col + w) 76); [do 2 eexists; apply placed_here; auto|]. destruct D; [do 2 eexists; apply placed_here; auto|].
  do 2 eexists. now apply placed_next.
Qed.
Lemma qp_from_ex nl : forall n b col, (length b <= n)%nat -> exists t, qp_from nl col b t.
Proof.
  induction n as [|n IH]; intros [|c b] col Hn; cbn [length] in Hn; try lia; try (exists []; constructor).
  destruct (line_end_dec (c :: b)) as [(r & Hr)|Hr].
  { pose proof (line_end_length _ _ Hr). destruct (IH r 0%nat ltac:(cbn in *; lia)) as (t & Ht). eexists. eapply qf_line; eauto. }
  destruct (hidden_dec col c b) as [Hh|Hh].
  { destruct (placed_ex nl 3 col False) as (soft & col' & Hp); [tauto|]. destruct (IH b col' ltac:(lia)) as (t & Ht). eexists. eapply qf_hidden; eauto. }
  destruct (placed_ex nl 1 col (line_done b) (done_dec b)) as (soft & col' & Hp). destruct (IH b col' ltac:(lia)) as (t & Ht).
  assert (blank_byte c \/ ~ blank_byte c) as [Hb|Hb] by (unfold blank_byte; lia).
  - destruct (line_end_dec b) as [(r & Hl)|Hl].
    + pose proof (line_end_length _ _ Hl). destruct (IH r 0%nat ltac:(lia)) as (u & Hu). eexists. eapply qf_blank; eauto.
    + eexists. eapply qf_plain; eauto. intros [_ (r & K)]. now apply (Hl r).
  - eexists. eapply qf_plain; eauto. tauto.
Qed.
Definition black (out : text) : Prop := match out with w :: _ => w <> 32 /\ w <> 9 | [] => True end.
Lemma done_iff r : match next_of r with Some n => negb (n =? 10) | None => false end = false <-> line_done r.
Proof.
  unfold line_done. destruct r as [|d r]; cbn [next_of]; [split; auto|]. split.
  - intros H. right. exists r. f_equal. lia.
  - intros [H|(r' & H)]; [discriminate|]. injection H as -> _. reflexivity.
Qed.
Lemma nl_rev (crlf : bool) : rev (map byte_val (eol crlf)) = if crlf then [10; 13] else [10].
Proof. destruct crlf; reflexivity. Qed.
Lemma nl_black (crlf : bool) out : black ((if crlf then [10; 13] else [10]) ++ out).
Proof. destruct crlf; cbn; lia. Qed.
Lemma esc_black c out : 0 <= c < 256 -> black (rev (qp_esc c) ++ out).
Proof.
  intros H. unfold qp_esc. cbn [rev app black]. pose proof (Z.mod_pos_bound c 16 ltac:(lia)). unfold hexu_char. destruct (c mod 16 <? 10) eqn:E; lia.
Qed.
Section Go.
  Variable crlf : bool.
  Let nl := map byte_val (eol crlf).
  (** one step of the encoder for each kind of byte *)
  Lemma go_line b r col out : line_end b r -> black out ->
    b2a_qp_go crlf col out b = b2a_qp_go crlf 0 ((if crlf then [10; 13] else [10]) ++ out) r.
  Proof.
    intros H Hb. assert (match out with w :: o => if (w =? 32) || (w =? 9) then rev (qp_esc w) ++ o else out | [] => out end = out) as E.
    { destruct out as [|w o]; [reflexivity|]. cbn [black] in Hb. destruct ((w =? 32) || (w =? 9)) eqn:E; [lia|reflexivity]. }
    destruct H as [r|r]; cbn [b2a_qp_go].
    - assert (forall n, qp_quote col 10 n = false) as -> by (intros n; reflexivity). cbn [Z.eqb Pos.eqb orb]. now rewrite E.
    - assert (forall n, qp_quote col 13 n = false) as -> by (intros n; reflexivity). cbn [Z.eqb Pos.eqb orb andb]. now rewrite E.
  Qed.
  Lemma go_line_blank b r w col out : line_end b r -> blank_byte w ->
    b2a_qp_go crlf col (w :: out) b = b2a_qp_go crlf 0 ((if crlf then [10; 13] else [10]) ++ rev (qp_esc w) ++ out) r.
  Proof.
    intros H Hb. assert ((w =? 32) || (w =? 9) = true) as E by (unfold blank_byte in Hb; lia).
    destruct H as [r|r]; cbn [b2a_qp_go].
    - assert (forall n, qp_quote col 10 n = false) as -> by (intros n; reflexivity). cbn [Z.eqb Pos.eqb orb]. now rewrite E.
    - assert (forall n, qp_quote col 13 n = false) as -> by (intros n; reflexivity). cbn [Z.eqb Pos.eqb orb andb]. now rewrite E.
  Qed.
  Lemma go_hidden col c r soft col' out : hidden col c r -> placed nl 3 col False soft col' ->
    b2a_qp_go crlf col out (c :: r) = b2a_qp_go crlf col' (rev (qp_esc c) ++ rev soft ++ out) r.
  Proof.
    intros H P. apply hidden_iff in H. unfold next_of in H. cbn [b2a_qp_go]. rewrite H. destruct P as [[P|[]]|P _].
    - destruct (Nat.leb_spec 76 (col + 3)); [lia|]. reflexivity.
    - destruct (Nat.leb_spec 76 (col + 3)); [|lia]. cbn [rev]. unfold nl. rewrite nl_rev, <- !app_assoc. reflexivity.
  Qed.
  Lemma go_plain col c r soft col' out : ~ hidden col c r -> (forall r', ~ line_end (c :: r) r') -> placed nl 1 col (line_done r) soft col' ->
    b2a_qp_go crlf col out (c :: r) = b2a_qp_go crlf col' (c :: rev soft ++ out) r.
  Proof.
    intros H L P. rewrite <- hidden_iff in H. apply not_true_is_false in H. unfold next_of in H. cbn [b2a_qp_go]. rewrite H.
    assert ((c =? 10) || (c =? 13) && match r with [] => false | n :: _ => n =? 10 end = false) as E.
    { destruct (Z.eqb_spec c 10) as [->|N]; [exfalso; apply (L r); constructor|]. destruct (Z.eqb_spec c 13) as [->|M]; [|reflexivity]. cbn [orb andb].
      destruct r as [|d r]; [reflexivity|]. destruct (Z.eqb_spec d 10) as [->|K]; [exfalso; apply (L r); constructor|reflexivity]. }
    assert (match (match r with [] => None | n :: _ => Some n end) with Some n => n =? 10 | None => false end = match r with [] => false | n :: _ => n =? 10 end) as E2 by now destruct r.
    rewrite E2, E. clear E E2. pose proof (done_iff r) as D. unfold next_of in D. set (d := match match r with [] => None | n :: _ => Some n end with Some n => negb (n =? 10) | None => false end) in *.
    destruct P as [P|P Q].
    - assert (d && (76 <=? col + 1)%nat = false) as ->; [|reflexivity]. destruct d; [|reflexivity]. destruct P as [P|P]; [|apply D in P; discriminate].
      cbn [andb]. apply Nat.leb_gt. lia.
    - destruct d; [|exfalso; apply Q, D; reflexivity]. cbn [andb]. destruct (Nat.leb_spec 76 (col + 1)); [|lia]. cbn [rev]. unfold nl. rewrite nl_rev, <- !app_assoc. reflexivity.
  Qed.
  Lemma go_text col b t : qp_from nl col b t -> Forall (fun c => 0 <= c < 256) b -> forall out, ((exists r, line_end b r) -> black out) ->
    b2a_qp_go crlf col out b = rev out ++ t.
  Proof.
    intros H. induction H as [col|col b r t Hl H IH|col c b r soft col' t Hb Hl Hp H IH|col c r soft col' t Hh Hp H IH|col c r soft col' t Hh Hl Hb Hp H IH]; intros Hr out Ho.
    - cbn. now rewrite app_nil_r.
    - rewrite (go_line b r) by eauto. rewrite IH.
      + rewrite rev_app_distr. fold nl. rewrite <- (nl_rev crlf), rev_involutive, <- app_assoc. reflexivity.
      + destruct Hl; repeat (inversion Hr as [|? ? _ Hr']; subst; clear Hr; rename Hr' into Hr); auto.
      + intros _. apply nl_black.
    - inversion Hr as [|? ? Hc Hr']; subst.
      assert (b <> []) as Nb by (destruct Hl; discriminate).
      rewrite (go_plain col c b soft col'); auto.
      + rewrite (go_line_blank b r) by auto. rewrite IH.
        * rewrite !rev_app_distr, rev_involutive, escaped_eq by auto. rewrite rev_involutive. fold nl. rewrite <- (nl_rev crlf), rev_involutive, <- !app_assoc. reflexivity.
        * destruct Hl; repeat (inversion Hr' as [|? ? _ Hq]; subst; clear Hr'; rename Hq into Hr'); auto.
        * intros _. apply nl_black.
      + unfold hidden, blank_byte in *. chr_red. intros [K|[K|[K|[[_ K]|[K _]]]]]; try lia. contradiction.
      + intros r' K. unfold blank_byte in Hb. inversion K; subst; lia.
    - inversion Hr as [|? ? Hc Hr']; subst. rewrite (go_hidden col c r soft col') by auto. rewrite IH; auto.
      + rewrite !rev_app_distr, !rev_involutive, escaped_eq, <- !app_assoc by auto. reflexivity.
      + intros _. now apply esc_black.
    - inversion Hr as [|? ? Hc Hr']; subst. rewrite (go_plain col c r soft col') by auto. rewrite IH; auto.
      + cbn [rev]. rewrite rev_app_distr, rev_involutive, <- !app_assoc. reflexivity.
      + intros K. unfold black, blank_byte in *. assert (~ (c = 32 \/ c = 9)) by tauto. lia.
  Qed.
End Go.
Lemma bytes_range b : Forall (fun c => 0 <= c < 256) (map byte_val b).
Proof. apply Forall_forall. intros c Hc. apply in_map_iff in Hc as (x & <- & _). apply b2z_range. Qed.
Lemma crlf_is b : qp_crlf 0 (map byte_val b) = true <-> crlf_first b.
Proof. change 0 with (byte_val x00). rewrite crlf_go. split; [intros [[E _]|H]; [discriminate|exact H]|now right]. Qed.
Theorem quotes_iff b t : quotes b t <-> t = b2a_qp b.
Proof.
  assert (forall t, quotes b t -> t = b2a_qp b) as K.
  { clear t. intros t (crlf & Hc & H). assert (crlf = qp_crlf 0 (map byte_val b)) as ->.
    { pose proof (crlf_is b). destruct crlf, (qp_crlf 0 (map byte_val b)); intuition congruence. }
    unfold b2a_qp. change b2z with byte_val. symmetry. apply (go_text _ _ _ _ H (bytes_range b) []). intros _. exact I. }
  split; [apply K|]. intros ->.
  destruct (qp_from_ex (map byte_val (eol (qp_crlf 0 (map byte_val b)))) (length (map byte_val b)) (map byte_val b) 0 (le_n _)) as (t & Ht).
  assert (quotes b t) as Q by (exists (qp_crlf 0 (map byte_val b)); split; [apply crlf_is|exact Ht]). now rewrite <- (K t Q).
Qed.
(** short names *)
Lemma quote_from nl s : Forall (fun c => c <> 10 /\ c <> 13) s -> forall col, (col + 3 * length s < 76)%nat -> (col = 0%nat -> hd_error s <> Some (chr ".")) -> qp_from nl col s (quote s).
Proof.
  induction s as [|c r IH]; intros Hs col Hn Hd; [constructor|]. inversion Hs as [|? ? [N1 N2] Hr]; subst. cbn [length] in Hn. cbn [quote].
  assert (forall r', ~ line_end (c :: r) r') as NL by (intros r' K; inversion K; congruence).
  assert (forall r', ~ line_end r r') as NL2. { intros r' K. destruct K; inversion Hr as [|? ? [A B] C]; congruence. }
  assert (hidden col c r <-> (126 <? c) || (c =? chr "=") || (c <? 32) && negb (c =? 9) || ((c =? 32) || (c =? 9)) && match r with [] => true | _ => false end = true) as Hh.
  { unfold hidden, blank_byte. chr_red. revert Hd. cbn [hd_error]. chr_red. intros Hd. assert (~ (c = 46 /\ col = 0%nat)) as Nd by (intros [-> ->]; now apply Hd).
    destruct r as [|d r]; rewrite ?andb_true_r, ?andb_false_r, ?orb_false_r.
    - split; [intros [K|[K|[K|[[K _]|(K1 & K2 & _)]]]]; lia|]. intros K. assert (126 < c \/ c = 61 \/ (c < 32 /\ c <> 9 /\ c <> 10 /\ c <> 13) \/ (c = 32 \/ c = 9)) as [?|[?|[?|?]]] by lia; auto 6.
    - split; [intros [K|[K|[K|[[_ K]|(K1 & K2 & _)]]]]; try discriminate; lia|]. intros K. assert (126 < c \/ c = 61 \/ (c < 32 /\ c <> 9 /\ c <> 10 /\ c <> 13)) as [?|[?|?]] by lia; auto. }
  unfold quote1. destruct (_ || _ && match r with [] => true | _ => false end) eqn:E.
  - change (escaped c ++ quote r) with ([] ++ escaped c ++ quote r). eapply qf_hidden; [now apply Hh|apply placed_here; left; lia|]. apply IH; auto; lia.
  - change ([c] ++ quote r) with ([] ++ c :: quote r). eapply qf_plain; [rewrite Hh; discriminate|auto|intros [_ (r' & K)]; now apply (NL2 r')|apply placed_here; left; lia|]. apply IH; auto; lia.
Qed.
Theorem quotes_short b : (length b <= 25)%nat -> ~ In x0a b -> ~ In x0d b -> hd_error b <> Some x2e -> quotes b (quote (map byte_val b)).
Proof.
  intros Hl H1 H2 H3. exists false. split.
  - split; [discriminate|]. intros (p & r & -> & _). exfalso. apply H2, in_or_app. right. now left.
  - apply quote_from.
    + apply Forall_forall. intros c Hc. apply in_map_iff in Hc as (x & <- & Hx). split; intros E.
      * apply H1. now replace x0a with x by (rewrite <- (z2b_b2z x); change (b2z x) with (byte_val x); rewrite E; reflexivity).
      * apply H2. now replace x0d with x by (rewrite <- (z2b_b2z x); change (b2z x) with (byte_val x); rewrite E; reflexivity).
    + rewrite map_length. lia.
    + intros _. destruct b as [|x b]; [discriminate|]. cbn. intros [= E]. apply H3. cbn. f_equal. rewrite <- (z2b_b2z x). change (b2z x) with (byte_val x). rewrite E. reflexivity.
Qed.
