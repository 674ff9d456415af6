(** Properties C01-C06: tokens, function syntax, integers (util.py). *)
From Coq Require Import Strings.Ascii.
From Verif Require Import Base PyNum Util Spec BaseFacts UtilFacts NumFacts.

(** ** C01 *)
Theorem C01_lossless : forall u h b r, get_token u = (h, b, r) -> h ++ b ++ r = u.
Proof. exact get_token_concat. Qed.
Theorem C01_progress : forall u h b r, get_token u = (h, b, r) -> u <> [] ->
  h ++ b <> [] /\ (length r < length u)%nat.
Proof.
  intros u h b r H Hu. pose proof (get_token_progress u h b r H Hu) as Hl. split; [|exact Hl].
  intros E. pose proof (get_token_concat u h b r H) as Hc. rewrite app_assoc, E in Hc. cbn in Hc. subst u. lia.
Qed.
Example C01_case : get_token $" , a(1, [2)=" = ($" , ", $"a(1, [2)=", []).
Proof. reflexivity. Qed.

(** ** C02 *)
Theorem C02_boundary : forall u h b r, get_token u = (h, b, r) ->
  lead h /\ ((token b /\ ends r) \/ (unfinished_token b /\ r = [])).
Proof. exact get_token_sound. Qed.
Theorem C02_unfinished : forall h b, lead h -> unfinished_token b -> solid b ->
  get_token (h ++ b) = (h, b, []).
Proof. exact get_token_unfinished. Qed.
(** the two kinds of token exclude each other: an unclosed group is never a token *)
Theorem C02_exclusive : forall b, token b -> unfinished_token b -> False.
Proof. exact token_exclusive. Qed.
Example C02_case : lead $" = " /\ unfinished_token $"f(a, [b]" /\ solid $"f(a, [b]"
  /\ get_token $" = f(a, [b]" = ($" = ", $"f(a, [b]", []).
Proof.
  split; [|split; [|split]]; [| |cbn; unfold blank; lia|reflexivity].
  - right. exists $" ", $" ". cbn. repeat split; (constructor; [unfold blank; lia|constructor]).
  - apply (unclosed_here _ $"f" 40 41 $"a, [b]"); [|constructor|].
    + constructor; [|intros [e He]; inversion He|constructor]. cbn; unfold token_char, sep_char, eq_char; chr_red; lia.
    + constructor; [cbn; lia|intros [e He]; inversion He|].
      constructor; [cbn; lia|intros [e He]; inversion He|].
      constructor; [cbn; lia|intros [e He]; inversion He|].
      apply (closed_grp _ 91 93 $"b" []); [constructor| |constructor].
      constructor; [cbn; lia|intros [e He]; inversion He|constructor].
Qed.

(** ** C03 *)
Theorem C03_atomic : forall h b r, lead h -> token b -> solid b -> ends r ->
  get_token (h ++ b ++ r) = (h, b, r).
Proof. exact get_token_complete. Qed.
Example C03_case : token $"x<,=>y" /\ solid $"x<,=>y" /\ ends $",z"
  /\ get_token $"x<,=>y,z" = ([], $"x<,=>y", $",z").
Proof.
  split; [|split; [|split]]; [|cbn; unfold blank; lia|left; left; reflexivity|reflexivity].
  assert (forall c, c = 120 \/ c = 121 -> token_char c /\ ~ opener c) as K.
  { intros c Hc. split; [cbn; unfold token_char, sep_char, eq_char; chr_red; lia|].
    intros [e He]; inversion He; chr_red; lia. }
  unfold token. constructor; [apply K; auto|apply K; auto|].
  apply (closed_grp _ 60 62 $",=" $"y"); [constructor| |].
  - constructor; [cbn; lia|intros [e He]; inversion He|].
    constructor; [cbn; lia|intros [e He]; inversion He|constructor].
  - constructor; [apply K; auto|apply K; auto|constructor].
Qed.

(** ** C04 *)
Theorem C04_plain : forall s, (forall c, In c s -> ~ opener c) -> parse_func s = Ok (s, None).
Proof. exact parse_func_plain. Qed.
Theorem C04_call : forall name o e args,
  (forall c, In c name -> ~ opener c) -> bracket o e -> closed (fun c => c <> e) args ->
  parse_func (name ++ o :: args ++ [e]) = Ok (name, Some args).
Proof. exact parse_func_group. Qed.
Theorem C04_trailing : forall name o e args x r,
  (forall c, In c name -> ~ opener c) -> bracket o e -> closed (fun c => c <> e) args ->
  parse_func (name ++ o :: args ++ e :: x :: r) = Raise AssertionError.
Proof. exact parse_func_trailing. Qed.
Theorem C04_open : forall name o e args,
  (forall c, In c name -> ~ opener c) -> bracket o e ->
  closed (fun c => c <> e) args \/ unclosed (fun c => c <> e) args ->
  parse_func (name ++ o :: args) = Ok (name, Some args).
Proof. exact parse_func_open. Qed.
(** the four cases above are all there is *)
Theorem C04_cases : forall s,
  (forall c, In c s -> ~ opener c) \/
  exists name o e p, (forall c, In c name -> ~ opener c) /\ bracket o e /\
    ((closed (fun c => c <> e) p /\ s = name ++ o :: p ++ [e])
     \/ ((closed (fun c => c <> e) p \/ unclosed (fun c => c <> e) p) /\ s = name ++ o :: p)
     \/ (closed (fun c => c <> e) p /\ exists x r, s = name ++ o :: p ++ e :: x :: r)).
Proof. exact parse_func_cases. Qed.
Example C04_case : parse_func $"output{a,(b}c)}" = Ok ($"output", Some $"a,(b}c)")
  /\ parse_func $"f(a)b" = Raise AssertionError /\ parse_func $"f(a[b)" = Ok ($"f", Some $"a[b)").
Proof. repeat split. Qed.

(** ** C05 *)
(** [r] does not extend the decimal numeral of [n] *)
Definition ends_dec (n : Z) (r : text) : Prop :=
  match r with
  | [] => True
  | c :: _ => ~ (chr "0" <= c <= chr "9") /\ (n = 0 -> c <> chr "x" /\ c <> chr "X")
  end.
Lemma ends_dec_stops n r : ends_dec n r -> dec_stops n r.
Proof.
  unfold ends_dec, dec_stops. destruct r as [|c r]; [cbn; auto|]. intros [H1 H2]. split; [|exact H2].
  cbn. rewrite <- is_dec_iff. unfold is_dec. chr_red. lia.
Qed.
Theorem C05_decimal : forall n r, ends_dec n r ->
  fmt_d n = dec n /\ parseInt (dec n ++ r) = Ok (n, length (dec n)).
Proof. intros n r H. split; [apply fmt_d_dec|now apply parseInt_dec, ends_dec_stops]. Qed.
Theorem C05_hex : forall w n r, 0 <= n -> stops 16 r ->
  fmt_x w n = hexw (w - 2) n /\ parseInt (hexw (w - 2) n ++ r) = Ok (n, length (hexw (w - 2) n)).
Proof. intros w n r H1 H2. split; [now apply fmt_x_hexw|now apply parseInt_hexw]. Qed.
Example C05_case : dec (-1205) = $"-1205" /\ hexw 4 0xab = $"0x00ab"
  /\ parseInt $"-1205,x" = Ok (-1205, 5%nat) /\ parseInt $"0x00ab/0xff" = Ok (0xab, 6%nat)
  /\ fmt_x 6 0xab = $"0x00ab" /\ ends_dec (-1205) $",x" /\ stops 16 $"/0xff".
Proof.
  repeat match goal with |- _ /\ _ => split end; try reflexivity.
  - vm_compute. split; [intros [H _]; now apply H|discriminate].
  - cbn. rewrite <- is_hex_iff. discriminate.
Qed.

(** ** C06 *)
Theorem C06_exact : forall u v l, parseInt u = Ok (v, l) <-> reads u v l.
Proof. intros u v l. split; [apply parseInt_reads|apply reads_parseInt]. Qed.
Theorem C06_error : forall u, (forall v l, ~ reads u v l) -> parseInt u = Raise ValueError.
Proof.
  intros u H. destruct (parseInt_err u) as [[v [l E]]|E]; [|exact E].
  apply parseInt_reads in E. destruct (H v l E).
Qed.
Example C06_case : parseInt $"017/8" = Ok (15, 3%nat) /\ parseInt $"0b1" = Ok (0, 1%nat)
  /\ parseInt $"-0x1" = Ok (0, 2%nat) /\ parseInt $"0x" = Raise ValueError
  /\ parseInt $"089" = Ok (89, 3%nat).
Proof. repeat split. Qed.

Print Assumptions C01_lossless.
Print Assumptions C01_progress.
Print Assumptions C02_boundary.
Print Assumptions C02_unfinished.
Print Assumptions C02_exclusive.
Print Assumptions C03_atomic.
Print Assumptions C04_plain.
Print Assumptions C04_call.
Print Assumptions C04_trailing.
Print Assumptions C04_open.
Print Assumptions C04_cases.
Print Assumptions C05_decimal.
Print Assumptions C05_hex.
Print Assumptions C06_exact.
Print Assumptions C06_error.
