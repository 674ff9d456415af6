(** Model of /repo/ofpstr/ofp4.py: OpenFlow 1.3 actions, instructions, flow rules,
    group rules and the three multipart messages. *)
From Verif Require Import Base PyNum Util PyLib OxmCodec OxmTables Oxm Nx.

(** constants, ofp4.py:9-83 *)
Notation OFPT_FLOW_MOD := 14 (only parsing).
Notation OFPT_GROUP_MOD := 15 (only parsing).
Notation OFPT_MULTIPART_REQUEST := 18 (only parsing).
Notation OFPT_MULTIPART_REPLY := 19 (only parsing).
Notation OFPMP_FLOW := 1 (only parsing).
Notation OFPMP_GROUP := 6 (only parsing).
Notation OFPMP_GROUP_DESC := 7 (only parsing).
Notation OFPTT_ALL := 0xff (only parsing).
Notation OFPCML_NO_BUFFER := 0xffff (only parsing).
Notation OFP_NO_BUFFER := 0xffffffff (only parsing).
Notation OFPP_CONTROLLER := 0xfffffffd (only parsing).
Notation OFPP_ANY := 0xffffffff (only parsing).
Notation OFPG_ALL := 0xfffffffc (only parsing).
Notation OFPG_ANY := 0xffffffff (only parsing).
Notation OFPMT_OXM := 1 (only parsing).
Notation OFPGT_ALL := 0 (only parsing).
Notation OFPGT_SELECT := 1 (only parsing).

(** ofpg, ofp4.py:29-33 *)
Definition ofpg : list (Z * text) :=
  [ (0xffffff00, $"max"); (0xfffffffc, $"all"); (0xffffffff, $"any") ].
(** ofpff, ofp4.py:37-42 (insertion order) *)
Definition ofpff : list (text * Z) :=
  [ ($"send_flow_rem", 1); ($"check_overlap", 2); ($"reset_counts", 4);
    ($"no_pkt_counts", 8); ($"no_byt_counts", 16) ].
(** ofpgt, ofp4.py:81 *)
Definition ofpgt : list text := [$"all"; $"select"; $"indirect"; $"ff"].

(** ** Standard actions *)
(** action_generic_*, ofp4.py:85-94 *)
Definition generic_str2act (ofpat : Z) (unparsed : text) (readarg : bool) : res (bytes * nat) :=
  b <- pack [sH; sH; sx 4] [ofpat; 8] ;; Ok (b, 0%nat).
Definition generic_act2str (name : text) (payload : bytes) : res text :=
  assert! (bytes_eqb payload (zeros 4)) ;; Ok name.
(** action_uint_*, ofp4.py:96-109 *)
Definition uint_str2act (ofpat : Z) (fs : list fitem) (unparsed : text) (readarg : bool)
  : res (bytes * nat) :=
  let '(h, b, _) := get_token unparsed in
  '(num, l) <- parseInt b ;;
  assert! (Nat.eqb l (length b)) ;;
  value <- pack fs [num] ;;
  hd <- pack [sH; sH] [ofpat; 4 + Z.of_nat (length value)] ;;
  Ok (hd ++ value, (length h + length b)%nat).
Definition uint_act2str (pre : text) (fs : list fitem) (payload : bytes) : res text :=
  vs <- unpack_from fs payload 0 ;;
  match vs with [v] => Ok (pre ++ fmt_d v) | _ => Raise IndexError end.
(** action_output_*, ofp4.py:111-136 *)
Definition output_str2act (unparsed : text) (readarg : bool) : res (bytes * nat) :=
  let '(h, b, _) := get_token unparsed in
  assert! (negb (has_char 47 b)) ;;
  let ps := split_all 58 b in
  p0 <- py_nth ps 0 ;;
  port <- match ofpp_num p0 with
          | Some n => Ok n
          | None => '(n, l) <- parseInt p0 ;; assert! (Nat.eqb (length p0) l) ;; Ok n
          end ;;
  maxLen <- match nth_error ps 1 with
            | Some p1 => '(m, l) <- parseInt p1 ;; assert! (Nat.eqb (length p1) l) ;; Ok m
            | None => Ok OFPCML_NO_BUFFER
            end ;;
  r <- pack [sH; sH; sI; sH; sx 6] [0; 16; port; maxLen] ;;
  Ok (r, (length h + length b)%nat).
Definition output_act2str (payload : bytes) : res text :=
  vs <- unpack [sI; sH; sx 6] payload ;;
  match vs with
  | [port; maxLen] =>
      let name := match assoc_z port ofpp with Some n => n | None => fmt_d port end in
      if (port =? OFPP_CONTROLLER) && negb (maxLen =? OFPCML_NO_BUFFER)
      then Ok ($"output=" ++ name ++ $":" ++ fmt_x 0 maxLen)
      else Ok ($"output=" ++ name)
  | _ => Raise StructError
  end.
(** action_push_*, ofp4.py:138-149 *)
Definition push_str2act (ofpat : Z) (unparsed : text) (readarg : bool) : res (bytes * nat) :=
  let '(h, b, _) := get_token unparsed in
  '(num, _) <- parseInt b ;;
  r <- pack [sH; sH; sH; sx 2] [ofpat; 8; num] ;;
  Ok (r, (length h + length b)%nat).
Definition push_act2str (name : text) (payload : bytes) : res text :=
  vs <- unpack_from [sH] payload 0 ;;
  match vs with
  | [num] => Ok (name ++ $"=" ++ fmt_x 6 num)
  | _ => Raise StructError
  end.

(** _str2act, ofp4.py:151-202 (register_nxast adds the entries of nx.py) *)
Definition str2act_tbl : list (text * (text -> bool -> res (bytes * nat))) :=
  [ ($"output", output_str2act);
    ($"copy_ttl_out", generic_str2act 11);
    ($"copy_ttl_in", generic_str2act 12);
    ($"set_mpls_ttl", uint_str2act 15 [sB; sx 3]);
    ($"dec_mpls_ttl", generic_str2act 16);
    ($"push_vlan", push_str2act 17);
    ($"pop_vlan", generic_str2act 18);
    ($"push_mpls", push_str2act 19);
    ($"pop_mpls", push_str2act 20);
    ($"set_queue", uint_str2act 21 [sI]);
    ($"group", uint_str2act 22 [sI]);
    ($"set_nw_ttl", uint_str2act 23 [sB]);
    ($"dec_nw_ttl", generic_str2act 24);
    ($"push_pbb", push_str2act 26);
    ($"pop_pbb", generic_str2act 27) ] ++ nx_str2act_tbl.
(** _act2str: plain OpenFlow action types *)
Definition std_act2str_tbl : list (Z * (bytes -> res text)) :=
  [ (0, output_act2str);
    (11, generic_act2str $"copy_ttl_out");
    (12, generic_act2str $"copy_ttl_in");
    (15, uint_act2str $"set_mpls_ttl=" [sB; sx 3]);
    (16, generic_act2str $"dec_mpls_ttl");
    (17, push_act2str $"push_vlan");
    (18, generic_act2str $"pop_vlan");
    (19, push_act2str $"push_mpls");
    (20, push_act2str $"pop_mpls");
    (21, uint_act2str $"set_queue=" [sI]);
    (22, uint_act2str $"group=" [sI]);
    (23, uint_act2str $"set_nw_ttl=" [sB]);
    (24, generic_act2str $"dec_nw_ttl");
    (26, push_act2str $"push_pbb");
    (27, generic_act2str $"pop_pbb") ].
(** [_act2str.get(atype)]: [nx] tells an nxast key from a plain int *)
Definition act2str_get (nx : bool) (t : Z) : option (bytes -> res text) :=
  if nx then assoc_z t nx_act2str_tbl else assoc_z t std_act2str_tbl.

(** the set_field branch of str2act, ofp4.py:224-228 *)
Definition set_field (oxm : bytes) : res bytes :=
  let l := align8 (length oxm + 4) in
  h <- pack [sH; sH] [25; Z.of_nat l] ;;
  Ok (h ++ oxm ++ zeros (l - (4 + length oxm))).

(** str2act, ofp4.py:204-230 *)
Definition str2act (s : text) : res (bytes * nat) :=
  let '(h, name, arg) := get_token s in
  '(fname, farg) <- parse_func name ;;
  let fa := match farg with Some (c :: a) => Some (c :: a) | _ => None end in
  let otherwise :=
    match assoc_t name str2act_tbl with
    | Some f => '(b, p) <- f arg true ;; Ok (b, (length h + length name + p)%nat)
    | None =>
        if startswith $"set_" name then
          '(oxm, consumed) <-
            match fa with
            | Some a =>
                let '(_, payload, _) := get_token a in
                '(oxm, _) <- str2oxm (skipn 4 fname ++ $"=" ++ payload) false ;;
                Ok (oxm, (length h + length name)%nat)
            | None =>
                let '(op, payload, _) := get_token arg in
                '(oxm, p) <- str2oxm (skipn 4 name ++ op ++ payload) false ;;
                Ok (oxm, (length h + 4 + p)%nat)
            end ;;
          b <- set_field oxm ;; Ok (b, consumed)
        else Ok ([], length h)
    end in
  match fa with
  | Some a =>
      match assoc_t fname str2act_tbl with
      | Some f => '(b, _) <- f a false ;; Ok (b, (length h + length name)%nat)
      | None => otherwise
      end
  | None => otherwise
  end.

(** one iteration of act2str, ofp4.py:235-252.  The comparison
    [atype == OFPAT_SET_FIELD] also holds for nxast(25). *)
Definition act2str_one (msg : bytes) : res (text * bytes) :=
  vs <- unpack_from [sH; sH] msg 0 ;;
  match vs with
  | [atype; l] =>
      '(nx, atype, offset) <-
        (if atype =? 0xffff then
           ws <- unpack_from [sI] msg 4 ;;
           match ws with
           | [vendor] =>
               if vendor =? NX_VENDOR_ID then
                 us <- unpack_from [sH] msg 8 ;;
                 match us with
                 | [sub] => Ok (true, sub, 10%nat)
                 | _ => Raise StructError
                 end
               else Ok (false, atype, 4%nat)
           | _ => Raise StructError
           end
         else Ok (false, atype, 4%nat)) ;;
      tok <- (if atype =? 25 then
                t <- oxm2str (skipn 4 msg) false ;; Ok ($"set_" ++ t)
              else match act2str_get nx atype with
                   | Some act => act (slice offset (Z.to_nat l) msg)
                   | None => Ok $"?"
                   end) ;;
      Ok (tok, skipn (Z.to_nat l) msg)
  | _ => Raise StructError
  end.
(** the [while len(msg) > 4] loop.  An action of length 0 leaves [msg] unchanged, so
    that the loop repeats it for ever: fuel [length msg] runs out exactly then
    (OfpLoop.v). *)
Fixpoint act2str_go (fuel : nat) (loop : bool) (msg : bytes) : res (list text) :=
  if (length msg <=? 4)%nat then Ok []
  else match fuel with
       | O => Diverge
       | S f =>
           '(tok, rest) <- act2str_one msg ;;
           if loop then r <- act2str_go f loop rest ;; Ok (tok :: r) else Ok [tok]
       end.
(** act2str, ofp4.py:232-256 *)
Definition act2str (msg : bytes) (loop : bool) : res text :=
  toks <- act2str_go (length msg) loop msg ;; Ok (join $"," toks).

(** ** Instructions *)
(** one iteration of inst2str, ofp4.py:273-308: the tokens appended, the rest *)
Definition inst2str_one (msg : bytes) : res (list text * bytes) :=
  vs <- unpack_from [sH; sH] msg 0 ;;
  match vs with
  | [itype; l] =>
      let ln := Z.to_nat l in
      let acts name :=
        assert! (l mod 8 =? 0) ;;
        arg <- act2str (slice 8 ln msg) true ;;
        Ok (match arg with [] => [name] | _ => [name; arg] end) in
      toks <-
        (if itype =? 1 then
           assert! (l =? 8) ;;
           vs <- unpack_from [sB] msg 4 ;;
           Ok [$"@goto=" ++ fmt_d (nth 0 vs 0)]
         else if itype =? 2 then
           assert! (l =? 24) ;;
           vs <- unpack_from [sQ; sQ] msg 8 ;;
           match vs with
           | [v; m] => Ok [if m =? 0 then $"@metadata=" ++ fmt_x 0 v
                           else $"@metadata=" ++ fmt_x 0 v ++ $"/" ++ fmt_x 0 m]
           | _ => Raise StructError
           end
         else if itype =? 3 then acts $"@write"
         else if itype =? 4 then acts $"@apply"
         else if itype =? 5 then assert! (l =? 8) ;; Ok [$"@clear"]
         else if itype =? 6 then
           assert! (l =? 8) ;;
           vs <- unpack_from [sI] msg 4 ;;
           Ok [$"@meter=" ++ fmt_d (nth 0 vs 0)]
         else Ok [$"?"]) ;;
      Ok (toks, skipn ln msg)
  | _ => Raise StructError
  end.
Fixpoint inst2str_go (fuel : nat) (loop : bool) (msg : bytes) : res (list text) :=
  if (length msg <=? 4)%nat then Ok []
  else match fuel with
       | O => Diverge
       | S f =>
           '(toks, rest) <- inst2str_one msg ;;
           if loop then r <- inst2str_go f loop rest ;; Ok (toks ++ r) else Ok toks
       end.
(** inst2str(msg, loop), ofp4.py:270-310 *)
Definition inst2str (msg : bytes) (loop : bool) : res text :=
  toks <- inst2str_go (length msg) loop msg ;; Ok (join $"," toks).

(** ** str2dict, ofp4.py:316-438 *)
(** the dictionary: absent keys are None; "match" and "inst" are always present *)
Record info := Info {
  i_match : bytes; i_inst : bytes;
  i_table : option Z; i_priority : option Z; i_idle : option Z; i_hard : option Z;
  i_buffer : option Z; i_flags : option Z; i_cookie : option Z; i_cookie_mask : option Z;
  i_out_port : option Z; i_out_group : option Z }.
Definition info0 : info :=
  Info [] [] None None None None None None None None None None.

Definition add_match (i : info) (b : bytes) : info :=
  let '(Info m n t p id h bf fl c cm op og) := i in Info (m ++ b) n t p id h bf fl c cm op og.
Definition add_inst (i : info) (b : bytes) : info :=
  let '(Info m n t p id h bf fl c cm op og) := i in Info m (n ++ b) t p id h bf fl c cm op og.
Definition set_table (i : info) (v : Z) : info :=
  let '(Info m n t p id h bf fl c cm op og) := i in Info m n (Some v) p id h bf fl c cm op og.
Definition set_priority (i : info) (v : Z) : info :=
  let '(Info m n t p id h bf fl c cm op og) := i in Info m n t (Some v) id h bf fl c cm op og.
Definition set_idle (i : info) (v : Z) : info :=
  let '(Info m n t p id h bf fl c cm op og) := i in Info m n t p (Some v) h bf fl c cm op og.
Definition set_hard (i : info) (v : Z) : info :=
  let '(Info m n t p id h bf fl c cm op og) := i in Info m n t p id (Some v) bf fl c cm op og.
Definition set_buffer (i : info) (v : Z) : info :=
  let '(Info m n t p id h bf fl c cm op og) := i in Info m n t p id h (Some v) fl c cm op og.
Definition set_flags (i : info) (v : Z) : info :=
  let '(Info m n t p id h bf fl c cm op og) := i in Info m n t p id h bf (Some v) c cm op og.
Definition set_cookie (i : info) (v : Z) : info :=
  let '(Info m n t p id h bf fl c cm op og) := i in Info m n t p id h bf fl (Some v) cm op og.
Definition set_cookie_mask (i : info) (v : Z) : info :=
  let '(Info m n t p id h bf fl c cm op og) := i in Info m n t p id h bf fl c (Some v) op og.
Definition set_out_port (i : info) (v : Z) : info :=
  let '(Info m n t p id h bf fl c cm op og) := i in Info m n t p id h bf fl c cm (Some v) og.
Definition set_out_group (i : info) (v : Z) : info :=
  let '(Info m n t p id h bf fl c cm op og) := i in Info m n t p id h bf fl c cm op (Some v).

(** [op,payload,s = get_token(s); assert op.find("=")>=0 and payload.find("/")<0;
    num,l = parseInt(payload); assert l == len(payload)]
    (proc, ofp4.py:378-384; also 749-756, 929-933, 1044-1047) *)
Definition int_arg (s : text) : res (Z * text) :=
  let '(op, payload, rest) := get_token s in
  assert! (has_char 61 op && negb (has_char 47 payload)) ;;
  '(num, l) <- parseInt payload ;;
  assert! (Nat.eqb (length payload) l) ;;
  Ok (num, rest).

(** the fields handled by proc *)
Definition proc_fields : list (text * (info -> Z -> info)) :=
  [ ($"table", set_table); ($"priority", set_priority); ($"idle_timeout", set_idle);
    ($"hard_timeout", set_hard); ($"buffer", set_buffer) ].

(** name lookup by value in ofpp/ofpg, else parseInt (ofp4.py:399-420) *)
Definition named_num (l : list (Z * text)) (payload : text) : res Z :=
  match fold_left (fun r (pn : Z * text) => if text_eqb (snd pn) payload then Some (fst pn) else r)
                  l None with
  | Some n => Ok n
  | None => '(n, k) <- parseInt payload ;; assert! (Nat.eqb k (length payload)) ;; Ok n
  end.
Definition named_arg (l : list (Z * text)) (s : text) : res (Z * text) :=
  let '(op, payload, rest) := get_token s in
  assert! (has_char 61 op && negb (has_char 47 payload)) ;;
  n <- named_num l payload ;; Ok (n, rest).

(** [func()], ofp4.py:324-327: append the pending apply/write instruction *)
Definition flush_acts (func : option Z) (actions : bytes) (i : info) : res info :=
  match func with
  | None => Ok i
  | Some atype =>
      h <- pack [sH; sH; sx 4] [atype; 8 + Z.of_nat (length actions)] ;;
      Ok (add_inst i (h ++ actions))
  end.

Inductive phase := PhMatch | PhAction | PhNoarg.

(** loop state: dictionary, pending apply/write instruction type, its actions, phase *)
Record dstate := DState { d_info : info; d_func : option Z; d_acts : bytes; d_phase : phase }.

(** "@..." branch, ofp4.py:334-376, after [func()] was run; [s] follows the name *)
Definition inst_token (i : info) (actions : bytes) (name s : text) : res (dstate * text) :=
  let noarg b rest := Ok (DState (add_inst i b) None actions PhNoarg, rest) in
  if in_names name [$"@goto"; $"@goto_table"] then
    let '(op, payload, rest) := get_token s in
    assert! (has_char 61 op) ;;
    '(num, l) <- parseInt payload ;;
    assert! (Nat.eqb l (length payload)) ;;
    b <- pack [sH; sH; sB; sx 3] [1; 8; num] ;;
    noarg b rest
  else if in_names name [$"@metadata"; $"@write_metadata"] then
    let '(op, payload, rest) := get_token s in
    assert! (has_char 61 op) ;;
    let '(v, m) := split1 47 payload in
    '(num, l) <- parseInt v ;;
    assert! (Nat.eqb l (length v)) ;;
    mask <- match m with
            | Some mt => '(mask, l) <- parseInt mt ;; assert! (Nat.eqb l (length mt)) ;; Ok mask
            | None => Ok 0
            end ;;
    b <- pack [sH; sH; sx 4; sQ; sQ] [2; 24; num; mask] ;;
    noarg b rest
  else if in_names name [$"@apply"; $"@apply_actions"] then
    Ok (DState i (Some 4) [] PhAction, s)
  else if in_names name [$"@write"; $"@write_actions"] then
    Ok (DState i (Some 3) [] PhAction, s)
  else if in_names name [$"@clear"; $"@clear_actions"] then
    b <- pack [sH; sH; sx 4] [5; 8] ;;
    noarg b s
  else if text_eqb name $"@meter" then
    let '(op, payload, rest) := get_token s in
    assert! (has_char 61 op) ;;
    assert! (negb (has_char 47 payload)) ;;
    '(num, l) <- parseInt payload ;;
    assert! (Nat.eqb l (length payload)) ;;
    b <- pack [sH; sH; sI] [6; 8; num] ;;
    noarg b rest
  else Raise ValueError.

(** PHASE_MATCH branch, ofp4.py:377-426 *)
Definition match_token (i : info) (name s : text) : res (info * text) :=
  match assoc_t name proc_fields with
  | Some set => '(n, rest) <- int_arg s ;; Ok (set i n, rest)
  | None =>
  match assoc_t name ofpff with
  | Some fl => Ok (set_flags i (Z.lor (opt_or (i_flags i) 0) fl), s)
  | None =>
  if text_eqb name $"cookie" then
    let '(op, payload, rest) := get_token s in
    assert! (has_char 61 op) ;;
    let '(v, m) := split1 47 payload in
    '(num, l) <- parseInt v ;;
    assert! (Nat.eqb (length v) l) ;;
    match m with
    | Some mt => '(mask, _) <- parseInt mt ;;
                 Ok (set_cookie_mask (set_cookie i num) mask, rest)
    | None => Ok (set_cookie i num, rest)
    end
  else if text_eqb name $"out_port" then
    '(n, rest) <- named_arg ofpp s ;; Ok (set_out_port i n, rest)
  else if text_eqb name $"out_group" then
    '(n, rest) <- named_arg ofpg s ;; Ok (set_out_group i n, rest)
  else
    '(oxm, l) <- str2oxm (name ++ s) false ;;
    if Nat.eqb l 0 then Raise ValueError
    else Ok (add_match i oxm, skipn l (name ++ s))
  end end.

(** one iteration of the [while len(s) > 0] loop *)
Definition dict_step (st : dstate) (s : text) : res (dstate * text) :=
  let '(DState i func actions ph) := st in
  let '(h, name, rest) := get_token s in
  assert! (negb (has_char 61 h)) ;;
  if startswith $"@" name then
    i <- flush_acts func actions i ;; inst_token i actions name rest
  else
    match ph with
    | PhMatch => '(i, rest) <- match_token i name rest ;; Ok (DState i func actions ph, rest)
    | PhAction =>
        '(act, l) <- str2act (name ++ rest) ;;
        if Nat.eqb l 0 then Raise ValueError
        else Ok (DState i func (actions ++ act) ph, skipn l (name ++ rest))
    | PhNoarg => Raise ValueError
    end.
Fixpoint dict_go (fuel : nat) (st : dstate) (s : text) : res dstate :=
  match s with
  | [] => Ok st
  | _ =>
      match fuel with
      | O => Diverge
      | S f => '(st, rest) <- dict_step st s ;; dict_go f st rest
      end
  end.
Definition str2dict (s : text) : res info :=
  '(DState i func actions _) <- dict_go (length s) (DState info0 None [] PhMatch) s ;;
  flush_acts func actions i.

(** ** _fixed, ofp4.py:440-487 *)
(** keyword arguments (absent = None); defaults (absent = None) *)
Record kwargs := Kw {
  k_cookie : option Z; k_cookie_mask : option Z; k_table : option Z; k_priority : option Z;
  k_buffer : option Z; k_out_port : option Z; k_out_group : option Z; k_idle : option Z;
  k_hard : option Z; k_flags : option Z }.
(** emit(name): the argument, if given and different from the default *)
Definition emit (v d : option Z) : option Z :=
  match v with
  | None => None
  | Some x => match d with
              | Some y => if x =? y then None else Some x
              | None => Some x
              end
  end.
Definition emit_d (name : text) (v d : option Z) : list text :=
  match emit v d with Some x => [name ++ $"=" ++ fmt_d x] | None => [] end.
Definition emit_named (name : text) (l : list (Z * text)) (v d : option Z) : list text :=
  match emit v d with
  | Some x => [name ++ $"=" ++ match assoc_z x l with Some n => n | None => fmt_d x end]
  | None => []
  end.
(** every caller that gives cookie_mask also gives cookie *)
Definition fixed (d k : kwargs) : list text :=
  match emit (k_cookie_mask k) (k_cookie_mask d) with
  | Some m => [$"cookie=" ++ fmt_x 0 (opt_or (k_cookie k) 0) ++ $"/" ++ fmt_x 0 m]
  | None => match emit (k_cookie k) (k_cookie d) with
            | Some c => [$"cookie=" ++ fmt_x 0 c]
            | None => []
            end
  end
  ++ emit_d $"table" (k_table k) (k_table d)
  ++ emit_d $"priority" (k_priority k) (k_priority d)
  ++ match emit (k_buffer k) (k_buffer d) with
     | Some b => [$"buffer=" ++ fmt_x 0 b]
     | None => []
     end
  ++ emit_named $"out_port" ofpp (k_out_port k) (k_out_port d)
  ++ emit_named $"out_group" ofpg (k_out_group k) (k_out_group d)
  ++ emit_d $"idle_timeout" (k_idle k) (k_idle d)
  ++ emit_d $"hard_timeout" (k_hard k) (k_hard d)
  ++ match emit (k_flags k) (k_flags d) with
     | Some f => map fst (filter (fun nf => negb (Z.land f (snd nf) =? 0)) ofpff)
     | None => []
     end.

(** ** Buckets *)
(** bucket2str, ofp4.py:489-507 *)
Definition bucket2str (msg : bytes) (group_type : Z) : res text :=
  vs <- unpack_from [sH; sH; sI; sI; sx 4] msg 0 ;;
  match vs with
  | [len; weight; watch_port; watch_group] =>
      a <- act2str (slice 16 (Z.to_nat len) msg) true ;;
      Ok (join $"," (
        (if (group_type =? OFPGT_SELECT) && negb (weight =? 1)
         then [$"weight=" ++ fmt_d weight] else [])
        ++ (if negb (watch_port =? OFPP_ANY) then [$"watch_port=" ++ fmt_d watch_port] else [])
        ++ (if negb (watch_group =? OFPG_ANY) then [$"watch_group=" ++ fmt_d watch_group] else [])
        ++ match a with [] => [] | _ => [a] end))
  | _ => Raise StructError
  end.

Record binfo := BInfo { b_weight : Z; b_watch_port : Z; b_watch_group : Z }.
Definition bucket_fields : list (text * (binfo -> Z -> binfo)) :=
  [ ($"weight", fun i v => BInfo v (b_watch_port i) (b_watch_group i));
    ($"watch_port", fun i v => BInfo (b_weight i) v (b_watch_group i));
    ($"watch_group", fun i v => BInfo (b_weight i) (b_watch_port i) v) ].
(** the loop of str2bucket, ofp4.py:519-536 *)
Fixpoint bucket_go (fuel : nat) (i : binfo) (actions : bytes) (u : text)
  : res (binfo * bytes * text) :=
  match u with
  | [] => Ok (i, actions, u)
  | _ =>
      match fuel with
      | O => Diverge
      | S f =>
          let '(h, name, r) := get_token u in
          assert! (negb (has_char 61 h)) ;;
          if startswith $"@" name then Ok (i, actions, u)
          else match assoc_t name bucket_fields with
               | Some set =>
                   let '(op, payload, rest) := get_token r in
                   assert! (has_char 61 op) ;;
                   '(num, l) <- parseInt payload ;;
                   assert! (Nat.eqb (length payload) l) ;;
                   bucket_go f (set i num) actions rest
               | None =>
                   '(b, l) <- str2act u ;;
                   if (0 <? l)%nat then bucket_go f i (actions ++ b) (skipn l u)
                   else Ok (i, actions, u)
               end
      end
  end.
(** str2bucket, ofp4.py:509-545 *)
Definition str2bucket (s : text) (group_type : Z) : res (bytes * nat) :=
  '(i, actions, rest) <-
    bucket_go (length s) (BInfo (if group_type =? OFPGT_SELECT then 1 else 0) OFPP_ANY OFPG_ANY) [] s ;;
  let consumed := (length s - length rest)%nat in
  if Nat.eqb consumed 0 then Ok ([], 0%nat)
  else
    h <- pack [sH; sH; sI; sI; sx 4]
           [16 + Z.of_nat (length actions); b_weight i; b_watch_port i; b_watch_group i] ;;
    Ok (h ++ actions, consumed).

(** ** OFPT_FLOW_MOD *)
(** ofpfc_del_default and ofpfc_default, ofp4.py:550-574 *)
Definition ofpfc_del_default : kwargs :=
  Kw (Some 0) (Some 0) (Some OFPTT_ALL) (Some 0x8000) (Some 0) (Some OFPP_ANY) (Some OFPG_ANY)
     (Some 0) (Some 0) (Some 0).
Definition ofpfc_default : kwargs :=
  Kw (Some 0) (Some 0) (Some 0) (Some 0x8000) (Some OFP_NO_BUFFER) (Some 0) (Some 0)
     (Some 0) (Some 0) (Some 0).
Definition mod_default (command : Z) : kwargs :=
  if (command =? 3) || (command =? 4) then ofpfc_del_default else ofpfc_default.

(** the match block with its padding, ofp4.py:585-588 and 769-772 *)
Definition match_block (oxm : bytes) : res bytes :=
  let len := (4 + length oxm)%nat in
  h <- pack [sH; sH] [OFPMT_OXM; Z.of_nat len] ;;
  Ok (h ++ oxm ++ zeros (align8 len - len)).

Definition mod_fmt : list fitem :=
  [sB; sB; sH; sI; sQ; sQ; sB; sB; sH; sH; sH; sI; sI; sI; sH; sx 2].
(** str2mod, ofp4.py:576-603 *)
Definition str2mod (s : text) (command xid : Z) : res bytes :=
  let d := mod_default command in
  i <- str2dict s ;;
  let get (v dv : option Z) := opt_or v (opt_or dv 0) in
  mb <- match_block (i_match i) ;;
  h <- pack mod_fmt
         [4; OFPT_FLOW_MOD;
          48 + Z.of_nat (align8 (4 + length (i_match i))) + Z.of_nat (length (i_inst i)); xid;
          get (i_cookie i) (k_cookie d); get (i_cookie_mask i) (k_cookie_mask d);
          get (i_table i) (k_table d); command;
          get (i_idle i) (k_idle d); get (i_hard i) (k_hard d); get (i_priority i) (k_priority d);
          get (i_buffer i) (k_buffer d); get (i_out_port i) (k_out_port d);
          get (i_out_group i) (k_out_group d); get (i_flags i) (k_flags d)] ;;
  Ok (h ++ mb ++ i_inst i).

(** [if len(t): ret.append(t)] *)
Definition opt_tok (t : text) : list text := match t with [] => [] | _ => [t] end.

(** mod2str, ofp4.py:605-648 *)
Definition mod2str (msg : bytes) : res text :=
  vs <- unpack_from (mod_fmt ++ [sH; sH]) msg 0 ;;
  match vs with
  | [_; _; hdr_length; _; cookie; cookie_mask; table; cmd; idle; hard; priority; buffer_id;
     out_port; out_group; flags; match_type; match_length] =>
      let ret := fixed (mod_default cmd)
                   (Kw (Some cookie) (Some cookie_mask) (Some table) (Some priority)
                       (Some buffer_id) (Some out_port) (Some out_group) (Some idle)
                       (Some hard) (Some flags)) in
      let ml := Z.to_nat match_length in
      if match_type =? OFPMT_OXM then
        rstr <- oxm2str (slice 52 (52 + ml - 4) msg) true ;;
        istr <- inst2str (slice (48 + align8 ml) (Z.to_nat hdr_length) msg) true ;;
        Ok (join $"," (ret ++ opt_tok rstr ++ opt_tok istr))
      else Raise ValueError
  | _ => Raise StructError
  end.

(** keyword arguments *)
Definition kwdict := list (text * Z).
(** str2mod with the keyword arguments of its signature, ofp4.py:576 (any other one is a
    TypeError) *)
Definition str2mod_kw (s : text) (kw : kwdict) : res bytes :=
  if forallb (fun k => in_names (fst k) [$"command"; $"xid"]) kw
  then str2mod s (opt_or (assoc_t $"command" kw) 0) (opt_or (assoc_t $"xid" kw) 0)
  else Raise TypeError.
(** mod2extra, ofp4.py:650-658 *)
Definition mod2extra (msg : bytes) : res kwdict :=
  vs <- unpack_from [sB; sB; sH; sI; sQ; sQ; sB; sB] msg 0 ;;
  match vs with
  | [_; _; _; xid; _; _; _; cmd] =>
      Ok ((if cmd =? 0 then [] else [($"command", cmd)]) ++ [($"xid", xid)])
  | _ => Raise StructError
  end.

(** ** OFPT_GROUP_MOD *)
(** first loop of str2group, ofp4.py:668-684 *)
Fixpoint group_head_go (fuel : nat) (gid gtype : Z) (u : text) : res (Z * Z * text) :=
  match u with
  | [] => Ok (gid, gtype, u)
  | _ =>
      match fuel with
      | O => Diverge
      | S f =>
          let '(_, name, r) := get_token u in
          if text_eqb name $"group" then
            let '(_, payload, r) := get_token r in
            gid <- (if text_eqb (lower payload) $"all" then Ok OFPG_ALL
                    else '(num, l) <- parseInt payload ;;
                         assert! (Nat.eqb (length payload) l) ;; Ok num) ;;
            group_head_go f gid gtype r
          else match index_of name ofpgt with
               | Ok t => group_head_go f gid t r
               | _ => Ok (gid, gtype, u)
               end
      end
  end.
(** second loop, ofp4.py:688-698 *)
Fixpoint group_buckets_go (fuel : nat) (gtype : Z) (u : text) : res (bytes * text) :=
  match u with
  | [] => Ok ([], u)
  | _ =>
      match fuel with
      | O => Diverge
      | S f =>
          '(b, l) <- str2bucket u gtype ;;
          if negb (Nat.eqb l 0) then
            '(r, rest) <- group_buckets_go f gtype (skipn l u) ;; Ok (b ++ r, rest)
          else
            let '(_, name, r) := get_token u in
            if Nat.eqb (length name) 0 || text_eqb name $"@bucket"
            then group_buckets_go f gtype r
            else Ok ([], u)
      end
  end.
Definition group_fmt : list fitem := [sB; sB; sH; sI; sH; sB; sx 1; sI].
(** str2group, ofp4.py:663-704 *)
Definition str2group (s : text) (command xid : Z) : res bytes :=
  '(gid, gtype, u) <- group_head_go (length s) OFPG_ANY OFPGT_ALL s ;;
  '(buckets, rest) <- group_buckets_go (length u) gtype u ;;
  assert! (Nat.eqb (length rest) 0) ;;
  h <- pack group_fmt
         [4; OFPT_GROUP_MOD; 16 + Z.of_nat (length buckets); xid; command; gtype; gid] ;;
  Ok (h ++ buckets).

(** the bucket loops of group2str (ofp4.py:720-724, [min = 17]) and of
    mpgroupdesc2text_one (ofp4.py:990-994, [min = 16]) *)
Fixpoint buckets2str_go (min : nat) (fuel : nat) (gtype : Z) (bin : bytes) : res (list text) :=
  if (length bin <? min)%nat then Ok []
  else match fuel with
       | O => Diverge
       | S f =>
           vs <- unpack_from [sH] bin 0 ;;
           let l := Z.to_nat (nth 0 vs 0) in
           b <- bucket2str (firstn l bin) gtype ;;
           r <- buckets2str_go min f gtype (skipn l bin) ;;
           Ok ($"@bucket" :: b :: r)
       end.
(** group2str, ofp4.py:706-726 *)
Definition group2str (msg : bytes) : res text :=
  vs <- unpack_from group_fmt msg 0 ;;
  match vs with
  | [_; _; _; _; _; gtype; gid] =>
      t <- py_nth ofpgt (Z.to_nat gtype) ;;
      bs <- buckets2str_go 17 (length msg) gtype (skipn 16 msg) ;;
      Ok (join $"," ((if gid =? OFPG_ALL then [$"group=all"]
                      else if gid =? OFPG_ANY then []
                      else [$"group=" ++ fmt_d gid]) ++ [t] ++ bs))
  | _ => Raise StructError
  end.
(** str2group with the keyword arguments of its signature, ofp4.py:663 *)
Definition str2group_kw (s : text) (kw : kwdict) : res bytes :=
  if forallb (fun k => in_names (fst k) [$"command"; $"xid"]) kw
  then str2group s (opt_or (assoc_t $"command" kw) 0) (opt_or (assoc_t $"xid" kw) 0)
  else Raise TypeError.
(** group2extra, ofp4.py:728-739 *)
Definition group2extra (msg : bytes) : res kwdict :=
  vs <- unpack_from group_fmt msg 0 ;;
  match vs with
  | [_; ht; _; xid; command; _; gid] =>
      assert! (ht =? OFPT_GROUP_MOD) ;;
      Ok ([($"xid", xid); ($"group_id", gid)] ++ (if command =? 0 then [] else [($"command", command)]))
  | _ => Raise StructError
  end.

(** ** Multipart framing shared by the three text2mp* functions *)
(** "!BBHIHH4x" *)
Definition mp_fmt : list fitem := [sB; sB; sH; sI; sH; sH; sx 4].
Definition mp_hdr (type xid mptype flag : Z) (capture : bytes) : res bytes :=
  pack mp_fmt [4; type; 16 + Z.of_nat (length capture); xid; mptype; flag].
(** the accumulation loop, ofp4.py:766-811 and alike: the names OFPMPF_REPLY_MORE /
    OFPMPF_REQ_MORE are defined nowhere, so that reaching them is a NameError *)
Fixpoint mp_capture (capture : bytes) (bodies : list (res bytes)) : res bytes :=
  match bodies with
  | [] => Ok capture
  | b :: bs =>
      body <- b ;;
      if 0xffff - 16 <? Z.of_nat (length capture) + Z.of_nat (length body)
      then Raise NameError
      else mp_capture (capture ++ body) bs
  end.
Definition mp_message (type xid mptype : Z) (bodies : list (res bytes)) : res bytes :=
  capture <- mp_capture [] bodies ;;
  h <- mp_hdr type xid mptype 0 capture ;; Ok (h ++ capture).
(** the loop [while msgs: ... rows += one(msgs[:hl]); msgs = msgs[hl:]]
    (ofp4.py:903-909, 1001-1007, 1138-1144) *)
Fixpoint mp_rows_go (one : bytes -> res (list text)) (fuel : nat) (msgs : bytes) : res (list text) :=
  match msgs with
  | [] => Ok []
  | _ =>
      match fuel with
      | O => Diverge
      | S f =>
          vs <- unpack_from [sB; sB; sH; sI] msgs 0 ;;
          let hl := Z.to_nat (nth 2 vs 0) in
          r <- one (firstn hl msgs) ;;
          rs <- mp_rows_go one f (skipn hl msgs) ;; Ok (r ++ rs)
      end
  end.
Definition mp_text (one : bytes -> res (list text)) (msgs : bytes) : res text :=
  rows <- mp_rows_go one (length msgs) msgs ;; Ok (join [10] rows).

(** ** OFPMP_FLOW *)
Definition flow_counters : list text :=
  [$"packet_count"; $"byte_count"; $"duration_sec"; $"duration_nsec"].
(** parse, ofp4.py:745-759: leading counters, then a flow rule *)
Fixpoint counters_go (fuel : nat) (names : list text) (acc : list (text * Z)) (s : text)
  : res (list (text * Z) * text) :=
  match s with
  | [] => Ok (acc, s)
  | _ =>
      match fuel with
      | O => Diverge
      | S f =>
          let '(_, name, r) := get_token s in
          if in_names name names then
            '(n, rest) <- int_arg r ;; counters_go f names ((name, n) :: acc) rest
          else Ok (acc, s)
      end
  end.
Definition counter (c : list (text * Z)) (n : text) : Z := opt_or (assoc_t n c) 0.
Definition mpflow_parse (s : text) : res (list (text * Z) * info) :=
  '(c, rest) <- counters_go (length s) flow_counters [] s ;;
  i <- str2dict rest ;; Ok (c, i).
Definition mpflow_req_fmt : list fitem := [sB; sx 3; sI; sI; sx 4; sQ; sQ].
Definition mpflow_fmt : list fitem :=
  [sH; sB; sx 1; sI; sI; sH; sH; sH; sH; sx 4; sQ; sQ; sQ].
(** body of one rule, ofp4.py:769-796 *)
Definition mpflow_body (type : Z) (ci : list (text * Z) * info) : res bytes :=
  let '(c, i) := ci in
  mb <- match_block (i_match i) ;;
  if negb (type =? OFPT_MULTIPART_REPLY) then
    h <- pack mpflow_req_fmt
           [opt_or (i_table i) OFPTT_ALL; opt_or (i_out_port i) OFPP_ANY;
            opt_or (i_out_group i) OFPG_ANY; opt_or (i_cookie i) 0; opt_or (i_cookie_mask i) 0] ;;
    Ok (h ++ mb)
  else
    h <- pack mpflow_fmt
           [48 + Z.of_nat (length mb) + Z.of_nat (length (i_inst i));
            opt_or (i_table i) 0; counter c $"duration_sec"; counter c $"duration_nsec";
            opt_or (i_priority i) 0; opt_or (i_idle i) 0; opt_or (i_hard i) 0;
            opt_or (i_flags i) 0; opt_or (i_cookie i) 0;
            counter c $"packet_count"; counter c $"byte_count"] ;;
    Ok (h ++ mb ++ i_inst i).
(** text2mpflow, ofp4.py:744-813 (txt.split("\n") is never empty, so the branch of
    lines 763-764 is dead) *)
Definition text2mpflow (txt : text) (type xid : Z) : res bytes :=
  rules <- mapM mpflow_parse (split_all 10 txt) ;;
  mp_message type xid OFPMP_FLOW (map (mpflow_body type) rules).

Definition req_default : kwargs :=
  Kw (Some 0) (Some 0) (Some OFPTT_ALL) None None (Some OFPP_ANY) (Some OFPG_ANY) None None None.
Definition reply_default : kwargs :=
  Kw (Some 0) None (Some 0) (Some 0x8000) None None None (Some 0) (Some 0) (Some 0).
(** "{:s}={:d}" for the nonzero ones *)
Definition nonzero (l : list (text * Z)) : list text :=
  flat_map (fun nv => if snd nv =? 0 then [] else [fst nv ++ $"=" ++ fmt_d (snd nv)]) l.
(** the loop of mpflow2text_one, ofp4.py:852-900; an entry of length 0 repeats *)
Fixpoint mpflow_rules_go (fuel : nat) (body : bytes) : res (list text) :=
  if (length body <? 56)%nat then Ok []
  else match fuel with
  | O => Diverge
  | S f =>
      vs <- unpack_from (mpflow_fmt ++ [sH; sH]) body 0 ;;
      match vs with
      | [len; table; dsec; dnsec; priority; idle; hard; flags; cookie; pc; bc; mt; mlen] =>
          let ret := fixed reply_default
                       (Kw (Some cookie) None (Some table) (Some priority) None None None
                           (Some idle) (Some hard) (Some flags)) in
          let ml := Z.to_nat mlen in
          if mt =? OFPMT_OXM then
            rstr <- oxm2str (slice 52 (52 + ml - 4) body) true ;;
            istr <- inst2str (slice (48 + align8 ml) (Z.to_nat len) body) true ;;
            let ret := ret ++ opt_tok rstr ++ opt_tok istr in
            let c := nonzero [($"packet_count", pc); ($"byte_count", bc);
                              ($"duration_sec", dsec); ($"duration_nsec", dnsec)] in
            let row := join $" " (map (join $",")
                         (filter (fun x => negb (Nat.eqb (length x) 0)) [c; ret])) in
            r <- mpflow_rules_go f (skipn (Z.to_nat len) body) ;;
            Ok (row :: r)
          else Raise ValueError
      | _ => Raise StructError
      end
  end.
(** mpflow2text_one, ofp4.py:815-901.  Line 850 calls list.append with a keyword
    argument: TypeError. *)
Definition mpflow2text_one (msg : bytes) : res (list text) :=
  vs <- unpack_from mp_fmt msg 0 ;;
  match vs with
  | [_; ht; hl; _; mp_type; _] =>
      assert! (mp_type =? OFPMP_FLOW) ;;
      let body := slice 16 (Z.to_nat hl) msg in
      if negb (ht =? OFPT_MULTIPART_REPLY) then
        ws <- unpack_from (mpflow_req_fmt ++ [sH; sH]) body 0 ;;
        match ws with
        | [_; _; _; _; _; mt; mlen] =>
            if mt =? OFPMT_OXM then
              _ <- oxm2str (slice 36 (36 + Z.to_nat mlen - 4) body) true ;; Raise TypeError
            else Raise ValueError
        | _ => Raise StructError
        end
      else mpflow_rules_go (length body) body
  | _ => Raise StructError
  end.
(** mpflow2text, ofp4.py:903-909 *)
Definition mpflow2text (msgs : bytes) : res text := mp_text mpflow2text_one msgs.

(** ** OFPMP_GROUP_DESC *)
(** ofp4.py:926-938 *)
Fixpoint gdesc_head_go (fuel : nat) (gid gtype : Z) (s : text) : res (Z * Z * text) :=
  match s with
  | [] => Ok (gid, gtype, s)
  | _ =>
      match fuel with
      | O => Diverge
      | S f =>
          let '(_, name, r) := get_token s in
          if text_eqb name $"group" then
            '(n, rest) <- int_arg r ;; gdesc_head_go f n gtype rest
          else match index_of (lower name) ofpgt with
               | Ok t => gdesc_head_go f gid t r
               | _ => Ok (gid, gtype, s)
               end
      end
  end.
(** ofp4.py:941-952; what is left of [s] at a break is dropped *)
Fixpoint gdesc_buckets_go (fuel : nat) (gtype : Z) (s : text) : res bytes :=
  match s with
  | [] => Ok []
  | _ =>
      match fuel with
      | O => Diverge
      | S f =>
          let '(_, name, r) := get_token s in
          if text_eqb name $"@bucket" then gdesc_buckets_go f gtype r
          else
            '(b, l) <- str2bucket s gtype ;;
            if Nat.eqb l 0 then Ok []
            else bs <- gdesc_buckets_go f gtype (skipn l s) ;; Ok (b ++ bs)
      end
  end.
Definition gdesc_fmt : list fitem := [sH; sB; sx 1; sI].
Definition gdesc_body (s : text) : res bytes :=
  '(gid, gtype, u) <- gdesc_head_go (length s) 0 OFPGT_ALL s ;;
  bs <- gdesc_buckets_go (length u) gtype u ;;
  h <- pack gdesc_fmt [8 + Z.of_nat (length bs); gtype; gid] ;;
  Ok (h ++ bs).
(** text2mpgroupdesc, ofp4.py:914-969 *)
Definition text2mpgroupdesc (txt : text) (type xid : Z) : res bytes :=
  if negb (type =? OFPT_MULTIPART_REPLY) then mp_hdr type xid OFPMP_GROUP_DESC 0 []
  else mp_message type xid OFPMP_GROUP_DESC (map gdesc_body (split_all 10 txt)).

(** ofp4.py:983-997 *)
Fixpoint gdesc_rows_go (fuel : nat) (r : bytes) : res (list text) :=
  if (length r <? 8)%nat then Ok []
  else match fuel with
  | O => Diverge
  | S f =>
      vs <- unpack_from gdesc_fmt r 0 ;;
      match vs with
      | [len; gtype; gid] =>
          assert! (8 <=? len) ;;
          t <- py_nth ofpgt (Z.to_nat gtype) ;;
          let bin := slice 8 (Z.to_nat len) r in
          bs <- buckets2str_go 16 (length bin) gtype bin ;;
          rs <- gdesc_rows_go f (skipn (Z.to_nat len) r) ;;
          Ok (join $"," (($"group=" ++ fmt_d gid) :: t :: bs) :: rs)
      | _ => Raise StructError
      end
  end.
(** mpgroupdesc2text_one, ofp4.py:971-999 *)
Definition mpgroupdesc2text_one (msg : bytes) : res (list text) :=
  vs <- unpack_from mp_fmt msg 0 ;;
  match vs with
  | [_; ht; hl; _; mp_type; _] =>
      assert! (mp_type =? OFPMP_GROUP_DESC) ;;
      if negb (ht =? OFPT_MULTIPART_REPLY) then Ok []
      else let r := slice 16 (Z.to_nat hl) msg in gdesc_rows_go (length r) r
  | _ => Raise StructError
  end.
(** mpgroupdesc2text, ofp4.py:1001-1007 *)
Definition mpgroupdesc2text (msgs : bytes) : res text := mp_text mpgroupdesc2text_one msgs.

(** ** OFPMP_GROUP *)
(** ofp4.py:1019-1029 *)
Fixpoint mpg_head_go (fuel : nat) (gid : Z) (s : text) : res (Z * text) :=
  match s with
  | [] => Ok (gid, s)
  | _ =>
      match fuel with
      | O => Diverge
      | S f =>
          let '(_, name, r) := get_token s in
          if text_eqb name $"group" then '(n, rest) <- int_arg r ;; mpg_head_go f n rest
          else Ok (gid, s)
      end
  end.
Definition group_counters : list text :=
  [$"ref_count"; $"packet_count"; $"byte_count"; $"duration_sec"; $"duration_nsec"].
(** ofp4.py:1035-1057: group counters and the buckets, last bucket first; an unknown
    name stops the loop and drops the rest of the line *)
Fixpoint mpg_stats_go (fuel : nat) (group : list (text * Z)) (buckets : list (list (text * Z)))
    (s : text) : res (list (text * Z) * list (list (text * Z))) :=
  match s with
  | [] => Ok (group, buckets)
  | _ =>
      match fuel with
      | O => Diverge
      | S f =>
          let '(_, name, r) := get_token s in
          if text_eqb name $"@bucket" then mpg_stats_go f group ([] :: buckets) r
          else
            '(num, rest) <- int_arg r ;;
            match buckets with
            | b :: bs =>
                if in_names name [$"packet_count"; $"byte_count"]
                then mpg_stats_go f group (((name, num) :: b) :: bs) rest
                else Ok (group, buckets)
            | [] =>
                if in_names name group_counters
                then mpg_stats_go f ((name, num) :: group) [] rest
                else Ok (group, buckets)
            end
      end
  end.
Definition mpg_fmt : list fitem := [sH; sx 2; sI; sI; sx 4; sQ; sQ; sI; sI].
Definition mpg_bucket (b : list (text * Z)) : res bytes :=
  pack [sQ; sQ] [counter b $"packet_count"; counter b $"byte_count"].
Definition mpg_body (s : text) : res bytes :=
  '(gid, u) <- mpg_head_go (length s) 0 s ;;
  '(group, buckets) <- mpg_stats_go (length u) [] [] u ;;
  bs <- mapM mpg_bucket (rev buckets) ;;
  let bs := concat bs in
  h <- pack mpg_fmt
         [40 + Z.of_nat (length bs); gid; counter group $"ref_count";
          counter group $"packet_count"; counter group $"byte_count";
          counter group $"duration_sec"; counter group $"duration_nsec"] ;;
  Ok (h ++ bs).
(** text2mpgroup, ofp4.py:1013-1082; for a request only the first line counts *)
Definition text2mpgroup (txt : text) (type xid : Z) : res bytes :=
  if negb (type =? OFPT_MULTIPART_REPLY) then
    let s := nth 0 (split_all 10 txt) [] in
    '(gid, _) <- mpg_head_go (length s) 0 s ;;
    capture <- pack [sI; sx 4] [gid] ;;
    h <- mp_hdr type xid OFPMP_GROUP 0 capture ;; Ok (h ++ capture)
  else mp_message type xid OFPMP_GROUP (map mpg_body (split_all 10 txt)).

(** ofp4.py:1117-1124 *)
Fixpoint mpg_buckets_go (fuel : nat) (bs : bytes) : res (list text) :=
  if (length bs <? 16)%nat then Ok []
  else match fuel with
  | O => Diverge
  | S f =>
      vs <- unpack_from [sQ; sQ] bs 0 ;;
      match vs with
      | [pc; bc] =>
          r <- mpg_buckets_go f (skipn 16 bs) ;;
          Ok ($"@bucket" :: nonzero [($"packet_count", pc); ($"byte_count", bc)] ++ r)
      | _ => Raise StructError
      end
  end.
(** ofp4.py:1103-1134 *)
Fixpoint mpg_rows_go (fuel : nat) (r : bytes) : res (list text) :=
  if (length r <? 40)%nat then Ok []
  else match fuel with
  | O => Diverge
  | S f =>
      vs <- unpack_from mpg_fmt r 0 ;;
      match vs with
      | [len; gid; rc; pc; bc; dsec; dnsec] =>
          assert! (40 <=? len) ;;
          let bs := slice 40 (Z.to_nat len) r in
          bt <- mpg_buckets_go (length bs) bs ;;
          let stat := join $"," (nonzero [($"ref_count", rc); ($"packet_count", pc);
                        ($"byte_count", bc); ($"duration_sec", dsec); ($"duration_nsec", dnsec)]
                        ++ bt) in
          rs <- mpg_rows_go f (skipn (Z.to_nat len) r) ;;
          Ok ((if gid =? OFPG_ALL then $"group=all " ++ stat
               else if gid =? OFPG_ANY then stat
               else $"group=" ++ fmt_d gid ++ $" " ++ stat) :: rs)
      | _ => Raise StructError
      end
  end.
(** mpgroup2text_one, ofp4.py:1084-1136 *)
Definition mpgroup2text_one (msg : bytes) : res (list text) :=
  vs <- unpack_from mp_fmt msg 0 ;;
  match vs with
  | [_; ht; hl; _; mp_type; _] =>
      assert! (mp_type =? OFPMP_GROUP) ;;
      if negb (ht =? OFPT_MULTIPART_REPLY) then
        ws <- unpack_from [sI; sx 4] msg 16 ;;
        let gid := nth 0 ws 0 in
        Ok (if gid =? OFPG_ALL then []
            else if gid =? OFPG_ANY then [$"group=any"]
            else [$"group=" ++ fmt_d gid])
      else let r := slice 16 (Z.to_nat hl) msg in mpg_rows_go (length r) r
  | _ => Raise StructError
  end.
(** mpgroup2text, ofp4.py:1138-1144 *)
Definition mpgroup2text (msgs : bytes) : res text := mp_text mpgroup2text_one msgs.
