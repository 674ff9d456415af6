(** Model of /repo/ofpstr/oxm.py:1292-1379: TLV list <-> text. *)
From Verif Require Import Base PyNum Util PyLib OxmCodec OxmTables.

Fixpoint assoc_k {A} (k : key) (l : list (key * A)) : option A :=
  match l with
  | [] => None
  | (k', v) :: l' => if key_eqb k k' then Some v else assoc_k k l'
  end.
(** [_bin2str[k]] *)
Definition bin2str (k : key) : res b2s :=
  match assoc_k k bin2str_tbl with Some c => Ok c | None => Raise KeyError end.
(** [_str2bin[name]] *)
Definition str2bin (n : text) : res s2b :=
  match assoc_t n str2bin_tbl with Some c => Ok c | None => Raise KeyError end.

(** the class dispatch shared by oxm2str and oxmid2str: which codec, which
    offset of the payload, or None for the "?" tokens *)
Definition oxm_dispatch (msg : bytes) (kls f1 : Z) : res (option (b2s * nat)) :=
  let num := Z.shiftr f1 1 in
  if kls =? OFPXMC_EXPERIMENTER then
    vs <- unpack_from [sI] msg 4 ;;
    match vs with
    | [ex] => if ex =? STRATOS_EXPERIMENTER_ID
              then c <- bin2str (CStratos, num) ;; Ok (Some (c, 8%nat))
              else Ok None
    | _ => Raise StructError
    end
  else if kls =? OFPXMC_OPENFLOW_BASIC then c <- bin2str (COfb, num) ;; Ok (Some (c, 4%nat))
  else if kls =? OFPXMC_NXM_0 then c <- bin2str (CNxm0, num) ;; Ok (Some (c, 4%nat))
  else if kls =? OFPXMC_NXM_1 then c <- bin2str (CNxm1, num) ;; Ok (Some (c, 4%nat))
  else Ok None.

(** one iteration of oxm2str, oxm.py:1295-1312: the token and the rest of msg *)
Definition oxm2str_one (msg : bytes) : res (text * bytes) :=
  vs <- unpack_from [sH; sB; sB] msg 0 ;;
  match vs with
  | [kls; f1; l] =>
      d <- oxm_dispatch msg kls f1 ;;
      tok <- match d with
             | Some (c, off) => run_b2s c (slice off (4 + Z.to_nat l) msg) (Z.land f1 1 =? 1)
             | None => Ok $"?"
             end ;;
      Ok (tok, skipn (4 + Z.to_nat l) msg)
  | _ => Raise StructError
  end.
(** the [while len(msg) >= 4] loop; each iteration drops at least 4 bytes, so
    fuel [length msg] is never exhausted (TermFacts.oxm2str_total) *)
Fixpoint oxm2str_go (fuel : nat) (loop : bool) (msg : bytes) : res (list text) :=
  if (length msg <? 4)%nat then Ok []
  else match fuel with
       | O => Diverge
       | S f =>
           '(tok, rest) <- oxm2str_one msg ;;
           if loop then r <- oxm2str_go f loop rest ;; Ok (tok :: r) else Ok [tok]
       end.
(** oxm2str, oxm.py:1292-1316 *)
Definition oxm2str (msg : bytes) (loop : bool) : res text :=
  toks <- oxm2str_go (length msg) loop msg ;; Ok (join $"," toks).

(** oxmid2str, oxm.py:1318-1344 *)
Definition oxmid2str_one (msg : bytes) : res (text * bytes) :=
  vs <- unpack_from [sH; sB; sB] msg 0 ;;
  match vs with
  | [kls; f1; _] =>
      d <- oxm_dispatch msg kls f1 ;;
      Ok (match d with Some (c, _) => b2s_name c | None => $"?" end,
          skipn (if kls =? OFPXMC_EXPERIMENTER then 8 else 4) msg)
  | _ => Raise StructError
  end.
Fixpoint oxmid2str_go (fuel : nat) (loop : bool) (msg : bytes) : res (list text) :=
  if (length msg <? 4)%nat then Ok []
  else match fuel with
       | O => Diverge
       | S f =>
           '(tok, rest) <- oxmid2str_one msg ;;
           if loop then r <- oxmid2str_go f loop rest ;; Ok (tok :: r) else Ok [tok]
       end.
Definition oxmid2str (msg : bytes) (loop : bool) : res text :=
  toks <- oxmid2str_go (length msg) loop msg ;; Ok (join $"," toks).

(** the [while unparsed] loop of str2oxm, oxm.py:1350-1362: bytes produced and
    the unparsed rest *)
Fixpoint str2oxm_go (fuel : nat) (loop : bool) (unparsed : text) : res (bytes * text) :=
  match unparsed with
  | [] => Ok ([], [])
  | _ =>
      match fuel with
      | O => Diverge
      | S f =>
          let '(head, name, u1) := get_token unparsed in
          let '(op, payload, u2) := get_token u1 in
          assert! (negb (has_char 61 head) && has_char 61 op) ;;
          c <- str2bin name ;;
          '(bin, len) <- run_s2b c (AText payload) ;;
          if Nat.eqb len 0 then Ok ([], u2)
          else
            assert! (Nat.eqb len (length payload)) ;;
            if loop then
              '(r, u3) <- str2oxm_go f loop u2 ;; Ok (bin ++ r, u3)
            else Ok (bin, u2)
      end
  end.
(** str2oxm, oxm.py:1347-1364 *)
Definition str2oxm (unparsed : text) (loop : bool) : res (bytes * nat) :=
  '(msg, rest) <- str2oxm_go (length unparsed) loop unparsed ;;
  Ok (msg, (length unparsed - length rest)%nat).

(** str2oxmid, oxm.py:1367-1379 (its [loop] argument is ignored there) *)
Fixpoint str2oxmid_go (fuel : nat) (has_mask : bool) (unparsed : text) : res bytes :=
  match unparsed with
  | [] => Ok []
  | _ =>
      match fuel with
      | O => Diverge
      | S f =>
          let '(_, name, u1) := get_token unparsed in
          b <- (if text_eqb name $"_" then Ok []
                else match assoc_t name str2bin_tbl with
                     | Some c => '(bin, len) <- run_s2b c (ABool has_mask) ;;
                                 assert! (Nat.eqb len 0) ;; Ok bin
                     | None => Ok []
                     end) ;;
          r <- str2oxmid_go f has_mask u1 ;; Ok (b ++ r)
      end
  end.
Definition str2oxmid (unparsed : text) (has_mask : bool) : res bytes :=
  str2oxmid_go (length unparsed) has_mask unparsed.
