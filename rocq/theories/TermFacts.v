(** Functions without an unbounded loop always return or raise. *)
From Verif Require Import Base PyNum Util PyLib OxmCodec OxmTables Oxm BaseFacts UtilFacts.

Lemma bind_nd {A B} (r : res A) (k : A -> res B) :
  r <> Diverge -> (forall a, r = Ok a -> k a <> Diverge) -> bind r k <> Diverge.
Proof. destruct r; cbn; auto; discriminate. Qed.
Lemma ok_nd {A} (a : A) : Ok a <> Diverge. Proof. discriminate. Qed.
Lemma raise_nd {A} e : @Raise A e <> Diverge. Proof. discriminate. Qed.
Lemma assert_nd b : assert b <> Diverge. Proof. destruct b; discriminate. Qed.
Global Hint Resolve ok_nd raise_nd assert_nd : nd.

Ltac head t := match t with ?f _ => head f | _ => t end.
(** prove [r <> Diverge]: known functions by hint, the others by unfolding *)
Ltac nd :=
  cbv beta zeta;
  match goal with
  | E : _ = Diverge |- _ => exfalso; revert E; nd
  | |- ?x = Diverge -> False => change (x <> Diverge); nd
  | |- Ok _ <> Diverge => apply ok_nd
  | |- Raise _ <> Diverge => apply raise_nd
  | |- bind _ _ <> Diverge => apply bind_nd; [nd|intros ? ?; nd]
  | |- (if ?x then _ else _) <> Diverge => destruct x eqn:?; nd
  | |- (match ?x with _ => _ end) <> Diverge => destruct x eqn:?; nd
  | |- _ => solve [auto with nd]
  | |- ?x <> Diverge => let h := head x in unfold h; nd
  end.

Lemma mapM_nd {A B} (f : A -> res B) l : (forall a, f a <> Diverge) -> mapM f l <> Diverge.
Proof. intros Hf. induction l; cbn [mapM]; [discriminate|]. apply bind_nd; auto. intros ? _. apply bind_nd; auto. discriminate. Qed.
Lemma index_of_nd n l : index_of n l <> Diverge.
Proof. induction l; cbn [index_of]; [discriminate|]. destruct (text_eqb _ _); [discriminate|]. apply bind_nd; auto. discriminate. Qed.
Global Hint Resolve index_of_nd : nd.
Lemma pack_nd fs : forall vs, pack fs vs <> Diverge.
Proof. induction fs as [|f fs IH]; intros [|v vs]; cbn [pack]; nd. Qed.
Lemma unpack_from_nd fs m off : unpack_from fs m off <> Diverge.
Proof. nd. Qed.
Lemma unpack_nd fs m : unpack fs m <> Diverge.
Proof. nd. Qed.
Lemma fmt_run_nd l : forall args, fmt_run l args <> Diverge.
Proof. induction l as [|[c|h] l IH]; intros args; cbn [fmt_run]; nd. Qed.
Global Hint Resolve pack_nd unpack_from_nd unpack_nd fmt_run_nd : nd.
Lemma parse_func_go_nd s : forall total name, parse_func_go total name s <> Diverge.
Proof. induction s as [|c s IH]; intros total name; cbn [parse_func_go]; nd. Qed.
Global Hint Resolve parse_func_go_nd : nd.
Lemma parse_func_nd s : parse_func s <> Diverge.
Proof. nd. Qed.
Lemma parseInt_nd u : parseInt u <> Diverge.
Proof. nd. Qed.
Global Hint Resolve parse_func_nd parseInt_nd : nd.
Lemma parseFloat_nd u : parseFloat u <> Diverge.
Proof. nd. Qed.
Lemma a2b_hex_nd s : a2b_hex s <> Diverge.
Proof.
  assert (forall n s, (length s <= n)%nat -> a2b_hex s <> Diverge) as K; [|eauto].
  clear s. induction n as [|n IH]; intros [|c [|d s]] H; cbn in H; try lia; try discriminate.
  cbn [a2b_hex]. assert (a2b_hex s <> Diverge) by (apply IH; lia). nd.
Qed.
Global Hint Resolve parseFloat_nd a2b_hex_nd : nd.
Lemma mac_scan_go_nd l u : mac_scan_go l u <> Diverge.
Proof. induction l as [|[r n] l IH]; cbn [mac_scan_go]; nd. Qed.
Lemma strip0_rev_nd l : strip0_rev l <> Diverge.
Proof. induction l as [|b l IH]; cbn [strip0_rev]; nd. Qed.
Lemma comp_items_nd ns : forall fmts, comp_items ns fmts <> Diverge.
Proof. induction ns as [|n ns IH]; intros [|f fmts]; cbn [comp_items]; nd. Qed.
Lemma vht_items_nd ts : forall i, vht_items i ts <> Diverge.
Proof. induction ts as [|t ts IH]; intros i; cbn [vht_items]; nd. Qed.
Lemma comp_item_nd t : comp_item t <> Diverge.
Proof. nd. Qed.
Global Hint Resolve mac_scan_go_nd strip0_rev_nd comp_items_nd vht_items_nd comp_item_nd mapM_nd : nd.
Lemma run_b2s_nd c p hm : run_b2s c p hm <> Diverge.
Proof. destruct c; cbn [run_b2s]; nd. Qed.
Lemma run_s2b_nd c a : run_s2b c a <> Diverge.
Proof. destruct c; cbn [run_s2b]; nd. Qed.
Global Hint Resolve run_b2s_nd run_s2b_nd : nd.
Lemma oxm_dispatch_nd m k f : oxm_dispatch m k f <> Diverge.
Proof. nd. Qed.
Global Hint Resolve oxm_dispatch_nd : nd.
Lemma str2bin_nd n : str2bin n <> Diverge.
Proof. nd. Qed.
Global Hint Resolve str2bin_nd : nd.

(** ** match lists: the fuel of each loop suffices *)
Lemma oxm2str_one_nd msg : oxm2str_one msg <> Diverge.
Proof. nd. Qed.
Lemma oxm2str_one_shorter msg tok rest : oxm2str_one msg = Ok (tok, rest) -> (length msg <> 0 -> length rest < length msg)%nat.
Proof.
  unfold oxm2str_one. intros H. mon H. destruct a as [|kls [|f1 [|l [|]]]]; try discriminate. mon H. mon H. assert (skipn (4 + Z.to_nat l) msg = rest) as <- by congruence.
  rewrite skipn_length. lia.
Qed.
Lemma oxm2str_go_total fuel : forall loop msg, (length msg <= fuel)%nat -> oxm2str_go fuel loop msg <> Diverge.
Proof.
  induction fuel as [|fuel IH]; intros loop msg Hl; cbn [oxm2str_go]; destruct (Nat.ltb_spec (length msg) 4); try discriminate; [lia|].
  apply bind_nd; [apply oxm2str_one_nd|]. intros [tok rest] E. apply oxm2str_one_shorter in E; [|lia].
  destruct loop; [|discriminate]. apply bind_nd; [apply IH; lia|discriminate].
Qed.
Lemma oxm2str_total msg loop : oxm2str msg loop <> Diverge.
Proof. unfold oxm2str. apply bind_nd; [now apply oxm2str_go_total|discriminate]. Qed.
Lemma oxmid2str_one_nd msg : oxmid2str_one msg <> Diverge.
Proof. nd. Qed.
Lemma oxmid2str_one_shorter msg tok rest : oxmid2str_one msg = Ok (tok, rest) -> (length msg <> 0 -> length rest < length msg)%nat.
Proof.
  unfold oxmid2str_one. intros H. mon H. destruct a as [|kls [|f1 [|l [|]]]]; try discriminate. mon H.
  assert (skipn (if kls =? OFPXMC_EXPERIMENTER then 8 else 4) msg = rest) as <- by congruence.
  rewrite skipn_length. destruct (kls =? _); lia.
Qed.
Lemma oxmid2str_go_total fuel : forall loop msg, (length msg <= fuel)%nat -> oxmid2str_go fuel loop msg <> Diverge.
Proof.
  induction fuel as [|fuel IH]; intros loop msg Hl; cbn [oxmid2str_go]; destruct (Nat.ltb_spec (length msg) 4); try discriminate; [lia|].
  apply bind_nd; [apply oxmid2str_one_nd|]. intros [tok rest] E. apply oxmid2str_one_shorter in E; [|lia].
  destruct loop; [|discriminate]. apply bind_nd; [apply IH; lia|discriminate].
Qed.
Lemma oxmid2str_total msg loop : oxmid2str msg loop <> Diverge.
Proof. unfold oxmid2str. apply bind_nd; [now apply oxmid2str_go_total|discriminate]. Qed.
Lemma str2oxm_go_total fuel : forall loop u, (length u <= fuel)%nat -> str2oxm_go fuel loop u <> Diverge.
Proof.
  induction fuel as [|fuel IH]; intros loop u Hl; (destruct u as [|c u]; [discriminate|]); [cbn in Hl; lia|].
  remember (c :: u) as w eqn:Ew. assert (w <> []) as Hw by (subst; discriminate). cbn [str2oxm_go].
  replace (match w with [] => Ok ([], []) | _ :: _ => _ end) with
    (let '(head, name, u1) := get_token w in
     let '(op, payload, u2) := get_token u1 in
     assert! (negb (has_char 61 head) && has_char 61 op) ;;
     c <- str2bin name ;;
     ' p <- run_s2b c (AText payload) ;;
     let '(bin, len) := p in
     if Nat.eqb len 0 then Ok ([], u2)
     else assert! (Nat.eqb len (length payload)) ;;
          if loop then '(r, u3) <- str2oxm_go fuel loop u2 ;; Ok (bin ++ r, u3) else Ok (bin, u2)) by (subst w; reflexivity).
  destruct (get_token w) as [[h nm] u1] eqn:E1. destruct (get_token u1) as [[op pl] u2] eqn:E2.
  apply get_token_progress in E1; [|auto]. apply get_token_le in E2.
  assert (str2oxm_go fuel loop u2 <> Diverge) by (apply IH; lia). nd.
Qed.
Lemma str2oxm_total u loop : str2oxm u loop <> Diverge.
Proof. unfold str2oxm. apply bind_nd; [now apply str2oxm_go_total|]. intros [msg rest] _. discriminate. Qed.
Lemma str2oxmid_go_total fuel : forall hm u, (length u <= fuel)%nat -> str2oxmid_go fuel hm u <> Diverge.
Proof.
  induction fuel as [|fuel IH]; intros hm u Hl; (destruct u as [|c u]; [discriminate|]); [cbn in Hl; lia|].
  change (str2oxmid_go (S fuel) hm (c :: u)) with
    (let '(_, name, u1) := get_token (c :: u) in
     b <- (if text_eqb name $"_" then Ok []
           else match assoc_t name str2bin_tbl with
                | Some c => ' p <- run_s2b c (ABool hm) ;; let '(bin, len) := p in assert! (Nat.eqb len 0) ;; Ok bin
                | None => Ok []
                end) ;;
     r <- str2oxmid_go fuel hm u1 ;; Ok (b ++ r)).
  destruct (get_token (c :: u)) as [[h nm] u1] eqn:E1. apply get_token_progress in E1; [|discriminate].
  assert (str2oxmid_go fuel hm u1 <> Diverge) by (apply IH; lia). nd.
Qed.
Lemma str2oxmid_total u hm : str2oxmid u hm <> Diverge.
Proof. now apply str2oxmid_go_total. Qed.
Global Hint Resolve oxm2str_total oxmid2str_total str2oxm_total str2oxmid_total : nd.
