(** Model of /repo/ofpstr/nx.py: Nicira extension actions. *)
From Verif Require Import Base PyNum Util PyLib OxmCodec OxmTables Oxm.

Notation OFPAT_EXPERIMENTER := 0xffff (only parsing).   (* nx.py:13 *)
Notation NX_VENDOR_ID := 0x2320 (only parsing).         (* nx.py:14 *)

Definition nx_hash_names : list text := [$"eth_src"; $"symmetric_l4"].                        (* nx.py:16 *)
Definition nx_mp_alg_names : list text := [$"modulo_n"; $"hash_threshold"; $"hrw"; $"iter_hash"]. (* nx.py:20 *)
Definition nx_bd_alg_names : list text := [$"active_backup"; $"hrw"].                         (* nx.py:24 *)

(** NXAST_* subtypes with a codec, nx.py:32-59.  nxast is an int subclass that only
    overrides __hash__ (nx.py:28-30): equality is integer equality, dictionary
    lookup tells it apart from plain ints (see Ofp4.act2str_tbl). *)
Notation NXAST_RESUBMIT := 1 (only parsing).
Notation NXAST_SET_TUNNEL := 2 (only parsing).
Notation NXAST_POP_QUEUE := 5 (only parsing).
Notation NXAST_REG_MOVE := 6 (only parsing).
Notation NXAST_REG_LOAD := 7 (only parsing).
Notation NXAST_NOTE := 8 (only parsing).
Notation NXAST_SET_TUNNEL64 := 9 (only parsing).
Notation NXAST_MULTIPATH := 10 (only parsing).
Notation NXAST_BUNDLE := 12 (only parsing).
Notation NXAST_BUNDLE_LOAD := 13 (only parsing).
Notation NXAST_RESUBMIT_TABLE := 14 (only parsing).
Notation NXAST_OUTPUT_REG := 15 (only parsing).
Notation NXAST_LEARN := 16 (only parsing).
Notation NXAST_EXIT := 17 (only parsing).
Notation NXAST_CNT_IDS := 21 (only parsing).
Notation NXAST_OUTPUT_REG2 := 32 (only parsing).
Notation NXAST_REG_LOAD2 := 33 (only parsing).

(** _pad8, nx.py:61-62 *)
Definition pad8 (b : bytes) : bytes := b ++ zeros (align8 (length b) - length b).
(** _nxast_hdr, nx.py:64-65 *)
Definition nxast_hdr (subtype : Z) : res bytes :=
  pack [sH; sH; sI; sH] [OFPAT_EXPERIMENTER; 10; NX_VENDOR_ID; subtype].
(** _fix_act_len, nx.py:67-70: the test of line 68 compares an int with a tuple and
    is never true *)
Definition fix_act_len (b : bytes) : res bytes :=
  l <- pack [sH] [Z.of_nat (length b)] ;; Ok (firstn 2 b ++ l ++ skipn 4 b).
(** _nxast_str2act, nx.py:72-76 *)
Definition nxast_str2act (r : res (bytes * nat)) : res (bytes * nat) :=
  '(bin, rlen) <- r ;; b <- fix_act_len (pad8 bin) ;; Ok (b, rlen).

(** [struct.unpack_from("!HBB", oxmid)] *)
Definition oxm_hdr (m : bytes) (off : nat) : res (Z * Z * Z) :=
  vs <- unpack_from [sH; sB; sB] m off ;;
  match vs with [c; f; l] => Ok (c, f, l) | _ => Raise StructError end.

(** [int(x) if len(x) else None] *)
Definition opt_int (x : text) : res (option Z) :=
  match x with [] => Ok None | _ => v <- py_int x ;; Ok (Some v) end.
Definition opt_or {A} (o : option A) (d : A) : A := match o with Some a => a | None => d end.

(** get_bits, nx.py:78-96 *)
Definition get_bits (unparsed : text) : res (bytes * Z * Z * text) :=
  let '(_, F, rest) := get_token unparsed in
  '(name, arg) <- parse_func F ;;
  oxmid <- str2oxmid name false ;;
  '(oxm_class, _, oxm_length) <- oxm_hdr oxmid 0 ;;
  let size := if oxm_class =? 0xffff then oxm_length - 4 else oxm_length in
  match arg with
  | Some (c :: a) =>
      match split1 58 (c :: a) with
      | (x, Some y) =>
          s <- opt_int x ;; l <- opt_int y ;;
          let shift := opt_or s 0 in
          let limit := opt_or l (size * 8) in
          Ok (oxmid, shift, limit - shift, rest)
      | (_, None) => Raise ValueError        (* not enough values to unpack *)
      end
  | _ => Ok (oxmid, 0, size * 8, rest)
  end.

(** "{:s}[{:d}:{:d}]" *)
Definition bits_text (name : text) (a b : Z) : text :=
  name ++ $"[" ++ fmt_d a ++ $":" ++ fmt_d b ++ $"]".

(** ** cnt_ids, nx.py:98-113 *)
Definition parse_ids (l : list text) : res (list Z) :=
  mapM (fun x => '(v, _) <- parseInt x ;; Ok v) l.
Definition cnt_ids_str2act (unparsed : text) (readarg : bool) : res (bytes * nat) :=
  nxast_str2act (
    '(ids, len) <-
      (if readarg then
         let '(op, value, _) := get_token unparsed in
         assert! (has_char 61 op) ;;
         Ok (split_all 58 value, (length op + length value)%nat)
       else Ok (split unparsed, 0%nat)) ;;
    ids <- parse_ids ids ;;
    h <- nxast_hdr NXAST_CNT_IDS ;;
    p <- pack (sH :: sx 4 :: repeat sH (length ids)) (Z.of_nat (length ids) :: ids) ;;
    Ok (h ++ p, len)).
Definition cnt_ids_act2str (payload : bytes) : res text :=
  vs <- unpack_from [sH] payload 0 ;;
  let num := match vs with [n] => Z.to_nat n | _ => 0%nat end in
  ids <- unpack_from (repeat sH num) payload 6 ;;
  Ok ($"cnt_ids(" ++ join $"," (map (fmt_x 0) ids) ++ $")").

(** ** reg_load / reg_load2, nx.py:115-194 *)
(** the mask scan of lines 130-145: lowest byte first, bits from low to high; the
    [break] of line 145 leaves the inner loop only *)
Fixpoint mask_bits (v : Z) (d : nat) (shift : Z) (nbits : option Z) : Z * option Z :=
  match d with
  | O => (shift, nbits)
  | S d' =>
      if Z.odd v then mask_bits (Z.shiftr v 1) d' shift (Some (opt_or nbits 0 + 1))
      else match nbits with
           | None => mask_bits (Z.shiftr v 1) d' (shift + 1) None
           | Some _ => (shift, nbits)
           end
  end.
Definition mask_scan (mask : bytes) : Z * option Z :=
  fold_left (fun st b => let '(shift, nbits) := st in mask_bits (b2z b) 8 shift nbits)
            (rev mask) (0, None).
Definition reg_load_str2act (subtype : Z) (unparsed : text) (readarg : bool) : res (bytes * nat) :=
  nxast_str2act (
    if readarg then Raise ValueError
    else
      '(oxm, rlen) <- str2oxm unparsed false ;;
      if Nat.eqb rlen 0 then Raise ValueError
      else
        '(oxm_class, oxm_field, _) <- oxm_hdr oxm 0 ;;
        let payload := skipn (if oxm_class =? 0xffff then 6 else 4) oxm in
        if subtype =? NXAST_REG_LOAD then
          let has_mask := Z.odd oxm_field in
          let size := if has_mask then (length payload / 2)%nat else length payload in
          let '(shift, nbits) := if has_mask then mask_scan (skipn size payload)
                                 else (0, Some (Z.of_nat size * 8)) in
          let value := Z.shiftr (be_val (firstn size payload)) shift in
          h <- nxast_hdr NXAST_REG_LOAD ;;
          match nbits with
          | None => Raise TypeError                    (* None - 1 *)
          | Some nb =>
              p <- pack [sH; sH; sB; sB; sQ]
                     [Z.shiftl shift 6 + (nb - 1); oxm_class; Z.land oxm_field 0xfe;
                      Z.of_nat size; value] ;;
              Ok (h ++ p, rlen)
          end
        else if subtype =? NXAST_REG_LOAD2 then
          h <- nxast_hdr NXAST_REG_LOAD2 ;; Ok (h ++ oxm, rlen)
        else Ok ([], 0%nat)).

Definition reg_load_act2str (payload : bytes) : res text :=
  vs <- unpack_from [sH; sH; sB; sB; sQ] payload 0 ;;
  match vs with
  | [ofs_nbits; oxm_class; oxm_field; _; value] =>
      name <- oxmid2str (slice 2 6 payload) true ;;
      oxmid <- str2oxmid name false ;;
      '(_, _, size) <- oxm_hdr oxmid 0 ;;
      let shift := Z.shiftr ofs_nbits 6 in
      let nbits := Z.land ofs_nbits 0x3f + 1 in
      arg <- (if (shift =? 0) && (nbits =? size * 8) then
                oxm2str (oxmid ++ be_bytes (Z.to_nat size) value) true
              else
                let value := Z.shiftl value shift in
                let mask := Z.shiftl (2 ^ nbits - 1) shift in
                h <- pack [sH; sB; sB] [oxm_class; Z.lor oxm_field 1; size * 2] ;;
                oxm2str (h ++ be_bytes (Z.to_nat size) value ++ be_bytes (Z.to_nat size) mask) true) ;;
      Ok ($"reg_load(" ++ arg ++ $")")
  | _ => Raise StructError
  end.
Definition reg_load2_act2str (payload : bytes) : res text :=
  a <- oxm2str payload false ;; Ok ($"reg_load2(" ++ a ++ $")").

(** ** reg_move, nx.py:196-228 *)
Definition reg_move_str2act (unparsed : text) (readarg : bool) : res (bytes * nat) :=
  nxast_str2act (
    if readarg then Raise ValueError
    else
      '(loxm, lshift, lnbits, u1) <- get_bits unparsed ;;
      '(roxm, rshift, rnbits, u2) <- get_bits u1 ;;
      assert! (lnbits =? rnbits) ;;
      h <- nxast_hdr NXAST_REG_MOVE ;;
      p <- pack [sH; sH; sH] [lnbits; rshift; lshift] ;;
      Ok (h ++ p ++ roxm ++ loxm, (length unparsed - length u2)%nat)).
Definition reg_move_act2str (payload : bytes) : res text :=
  vs <- unpack_from [sH; sH; sH] payload 0 ;;
  match vs with
  | [n_bits; src_ofs; dst_ofs] =>
      src <- oxmid2str (skipn 6 payload) false ;;
      '(scls, _, slen) <- oxm_hdr payload 6 ;;
      let arg := if (src_ofs =? 0) && (n_bits =? slen * 8) then src
                 else bits_text src src_ofs (src_ofs + n_bits) in
      let doffset := if scls =? 0xffff then 14%nat else 10%nat in
      dst <- oxmid2str (skipn doffset payload) false ;;
      _ <- oxm_hdr payload doffset ;;
      let arg := if (dst_ofs =? 0) && (n_bits =? slen * 8) then dst ++ $"=" ++ arg
                 else bits_text dst dst_ofs (dst_ofs + n_bits) ++ $"=" ++ arg in
      Ok ($"reg_move(" ++ arg ++ $")")
  | _ => Raise StructError
  end.

(** ** resubmit / resubmit_table, nx.py:230-272 *)
Definition resubmit_str2act (subtype : Z) (unparsed : text) (readarg : bool) : res (bytes * nat) :=
  nxast_str2act (
    let '(h, p, u1) := get_token unparsed in
    port <- (if text_eqb (upper p) $"IN_PORT" then Ok 0xfff8
             else '(port, rlen) <- parseInt p ;;
                  assert! (Nat.eqb (length p) rlen) ;;
                  assert! (port <? 0xff00) ;; Ok port) ;;
    '(tbl, u2) <-
      (if readarg then
         assert! (has_char 61 h) ;;
         if (subtype =? NXAST_RESUBMIT_TABLE) && startswith $":" u1 then
           let '(_, tbl, u2) := get_token (skipn 1 u1) in Ok (tbl, u2)
         else Ok ([], u1)
       else if subtype =? NXAST_RESUBMIT_TABLE then
         let '(_, tbl, u2) := get_token u1 in Ok (tbl, u2)
       else Ok ([], u1)) ;;
    table <- (if Nat.eqb (length tbl) 0 || text_eqb (upper tbl) $"ALL" then Ok 0xff
              else '(table, rlen) <- parseInt tbl ;;
                   assert! (Nat.eqb rlen (length tbl)) ;; Ok table) ;;
    hd <- nxast_hdr subtype ;;
    pl <- pack [sH; sB] [port; table] ;;
    Ok (hd ++ pl, (length unparsed - length u2)%nat)).
Definition resubmit_port (p : Z) : text := if p =? 0xfff8 then $"in_port" else fmt_d p.
Definition resubmit_act2str (payload : bytes) : res text :=
  vs <- unpack_from [sH] payload 0 ;;
  match vs with
  | [p] => Ok ($"resubmit(" ++ resubmit_port p ++ $")")
  | _ => Raise StructError
  end.
Definition resubmit_table_act2str (payload : bytes) : res text :=
  vs <- unpack_from [sH; sB] payload 0 ;;
  match vs with
  | [p; tbl] => Ok ($"resubmit_table(" ++ resubmit_port p ++ $","
                      ++ (if tbl =? 0xff then $"all" else fmt_d tbl) ++ $")")
  | _ => Raise StructError
  end.

(** ** set_tunnel / set_tunnel64, nx.py:274-298 *)
Definition set_tunnel_str2act (subtype : Z) (unparsed : text) (readarg : bool) : res (bytes * nat) :=
  nxast_str2act (
    let '(h, b, _) := get_token unparsed in
    assert! (negb readarg || has_char 61 h) ;;
    '(num, rlen) <- parseInt b ;;
    assert! (Nat.eqb rlen (length b)) ;;
    let big := 0xffffffff <? num in
    hd <- nxast_hdr (if big then NXAST_SET_TUNNEL64 else subtype) ;;
    p <- pack [if big then sQ else sI] [num] ;;
    Ok (hd ++ p, (length h + length b)%nat)).
Definition set_tunnel_act2str (f : fitem) (pre : text) (payload : bytes) : res text :=
  vs <- unpack_from [f] payload 0 ;;
  match vs with
  | [num] => Ok (pre ++ fmt_x 0 num ++ $")")
  | _ => Raise StructError
  end.

(** ** pop_queue / exit, nx.py:300-309 *)
Definition null_str2act (subtype : Z) (unparsed : text) (readarg : bool) : res (bytes * nat) :=
  nxast_str2act (h <- nxast_hdr subtype ;; Ok (h, 0%nat)).
Definition null_act2str (fmt : text) (payload : bytes) : res text := Ok fmt.

(** ** note, nx.py:311-322 (not wrapped by _nxast_str2act: no padding) *)
Definition qp_str2act (subtype : Z) (unparsed : text) (readarg : bool) : res (bytes * nat) :=
  let '(h, b, _) := get_token unparsed in
  assert! (negb readarg || has_char 61 h) ;;
  hd <- nxast_hdr subtype ;;
  q <- a2b_qp b ;;
  r <- fix_act_len (hd ++ q) ;;
  Ok (r, (length h + length b)%nat).
Definition qp_act2str (pre : text) (payload : bytes) : res text :=
  Ok (pre ++ b2a_qp payload ++ $")").

(** ** multipath, nx.py:324-361 *)
Definition multipath_fmt : list fitem := [sH; sH; sx 2; sH; sH; sI; sx 2; sH].
Definition multipath_str2act (unparsed : text) (readarg : bool) : res (bytes * nat) :=
  nxast_str2act (
    if readarg then Raise ValueError
    else
      let '(_, hash_name, u1) := get_token unparsed in
      mhash <- index_of hash_name nx_hash_names ;;
      let '(_, basis_str, u2) := get_token u1 in
      '(basis, rlen) <- parseInt basis_str ;;
      assert! (Nat.eqb rlen (length basis_str)) ;;
      let '(_, mp_alg_name, u3) := get_token u2 in
      malg <- index_of mp_alg_name nx_mp_alg_names ;;
      let '(_, link_str, u4) := get_token u3 in
      '(max_link, rlen) <- parseInt link_str ;;
      assert! (Nat.eqb rlen (length link_str)) ;;
      let '(_, arg_str, u5) := get_token u4 in
      '(arg, _) <- parseInt arg_str ;;
      let '(_, dst, u6) := get_token u5 in
      '(oxm, shift, nbits, junk) <- get_bits dst ;;
      assert! (Nat.eqb (length junk) 0) ;;
      h <- nxast_hdr NXAST_MULTIPATH ;;
      p <- pack multipath_fmt [mhash; basis; malg; max_link; arg; Z.shiftl shift 6 + (nbits - 1)] ;;
      Ok (h ++ p ++ oxm, (length unparsed - length u6)%nat)).
Definition multipath_act2str (payload : bytes) : res text :=
  vs <- unpack_from multipath_fmt payload 0 ;;
  match vs with
  | [mhash; basis; malg; max_link; arg; ofs_nbits] =>
      let shift := Z.shiftr ofs_nbits 6 in
      let nbits := Z.land ofs_nbits 0x3f + 1 in
      dst <- oxmid2str (skipn 18 payload) false ;;
      hn <- py_nth nx_hash_names (Z.to_nat mhash) ;;
      an <- py_nth nx_mp_alg_names (Z.to_nat malg) ;;
      Ok ($"multipath(" ++ hn ++ $"," ++ fmt_d basis ++ $"," ++ an ++ $"," ++ fmt_d max_link
            ++ $"," ++ fmt_x 0 arg ++ $"," ++ bits_text dst shift (shift + nbits) ++ $")")
  | _ => Raise StructError
  end.

(** ** bundle / bundle_load, nx.py:363-500 *)
(** [for num,pname in ofpp.items(): if pname == p: port = num] (the names are distinct) *)
Definition ofpp_num (p : text) : option Z :=
  fold_left (fun r (pn : Z * text) => if text_eqb (snd pn) p then Some (fst pn) else r) ofpp None.
Definition slave_port (p : text) : res Z :=
  match ofpp_num p with
  | Some n => Ok n
  | None => '(v, _) <- parseInt p ;; Ok v
  end.
Definition slave_list (slaves : text) : res (list Z) :=
  '(sname, sargs) <- parse_func slaves ;;
  assert! (text_eqb sname $"slaves") ;;
  match sargs with
  | Some (c :: a) => mapM slave_port (split (c :: a))
  | _ => Ok []
  end.
Definition bundle_str2act (unparsed : text) (readarg : bool) : res (bytes * nat) :=
  nxast_str2act (
    if readarg then Raise ValueError
    else
      let '(_, fields, u1) := get_token unparsed in
      let '(_, basis, u2) := get_token u1 in
      let '(_, algorithm, u3) := get_token u2 in
      let '(_, slave_type, u4) := get_token u3 in
      let '(_, slaves, u5) := get_token u4 in
      fields <- index_of fields nx_hash_names ;;
      '(basis, _) <- parseInt basis ;;
      algorithm <- index_of algorithm nx_bd_alg_names ;;
      oxmid <- str2oxmid slave_type true ;;
      slaves <- slave_list slaves ;;
      h <- nxast_hdr NXAST_BUNDLE ;;
      p1 <- pack [sH; sH; sH] [algorithm; fields; basis] ;;
      p2 <- pack [sH; sH; sI; sx 4] [Z.of_nat (length slaves); 0; 0] ;;
      p3 <- pack (repeat sH (length slaves)) slaves ;;
      Ok (h ++ p1 ++ oxmid ++ p2 ++ p3, (length unparsed - length u5)%nat)).
Definition bundle_fmt : list fitem := [sH; sH; sH; sI; sH; sH; sI; sx 4].
(** lines 405-415: a later match in ofpp overrides *)
Definition slave_name (p : Z) : text :=
  opt_or (fold_left (fun r (pn : Z * text) =>
                       if Z.land (fst pn) 0xffff =? p then Some (snd pn) else r) ofpp None)
         (fmt_d p).
Definition bundle_act2str (payload : bytes) : res text :=
  f <- unpack_from bundle_fmt payload 0 ;;
  match f with
  | [alg; fields; basis; _; n; _; _] =>
      ports <- unpack_from (repeat sH (Z.to_nat n)) payload (calcsize bundle_fmt) ;;
      hn <- py_nth nx_hash_names (Z.to_nat fields) ;;
      an <- py_nth nx_bd_alg_names (Z.to_nat alg) ;;
      st <- oxmid2str (slice 6 10 payload) false ;;
      Ok ($"bundle(" ++ hn ++ $"," ++ fmt_d basis ++ $"," ++ an ++ $"," ++ st ++ $",slaves("
            ++ join $"," (map slave_name ports) ++ $"))")
  | _ => Raise StructError
  end.

(** [list(map(int, arg.split(":", 1)))]: one or two integers *)
Definition int_range (arg : text) : res (Z * option Z) :=
  let '(x, y) := split1 58 arg in
  a <- py_int x ;;
  match y with
  | Some y => b <- py_int y ;; Ok (a, Some b)
  | None => Ok (a, None)
  end.
(** [r[1]] *)
Definition range_end (r : Z * option Z) : res Z :=
  match snd r with Some b => Ok b | None => Raise IndexError end.

Definition bundle_load_str2act (unparsed : text) (readarg : bool) : res (bytes * nat) :=
  nxast_str2act (
    if readarg then Raise ValueError
    else
      let '(_, fields, u1) := get_token unparsed in
      let '(_, basis, u2) := get_token u1 in
      let '(_, algorithm, u3) := get_token u2 in
      let '(_, slave_type, u4) := get_token u3 in
      let '(_, dst, u5) := get_token u4 in
      let '(_, slave, u6) := get_token u5 in
      fields <- index_of fields nx_hash_names ;;
      '(basis, _) <- parseInt basis ;;
      algorithm <- index_of algorithm nx_bd_alg_names ;;
      '(dname, dargs) <- parse_func dst ;;
      doxmid <- str2oxmid dname true ;;
      r <- match dargs with
           | Some (c :: a) => int_range (c :: a)
           | _ => vs <- unpack [sH; sB; sB] doxmid ;;
                  match vs with
                  | [_; _; size] => Ok (0, Some (size * 8))
                  | _ => Raise StructError
                  end
           end ;;
      slaves <- slave_list slave ;;
      h <- nxast_hdr NXAST_BUNDLE_LOAD ;;
      p1 <- pack [sH; sH; sH] [algorithm; fields; basis] ;;
      st <- str2oxmid slave_type true ;;
      r1 <- range_end r ;;
      p2 <- pack [sH; sH] [Z.of_nat (length slaves); Z.shiftl (fst r) 6 + (r1 - 1)] ;;
      p3 <- pack (repeat sH (length slaves)) slaves ;;
      Ok (h ++ p1 ++ st ++ p2 ++ doxmid ++ zeros 4 ++ p3, (length unparsed - length u6)%nat)).
Definition bundle_load_act2str (payload : bytes) : res text :=
  f <- unpack_from bundle_fmt payload 0 ;;
  match f with
  | [alg; fields; basis; _; n; ofs_nbits; _] =>
      let shift := Z.shiftr ofs_nbits 6 in
      let nbits := Z.land ofs_nbits 0x3f + 1 in
      ports <- unpack_from (repeat sH (Z.to_nat n)) payload (calcsize bundle_fmt) ;;
      hn <- py_nth nx_hash_names (Z.to_nat fields) ;;
      an <- py_nth nx_bd_alg_names (Z.to_nat alg) ;;
      st <- oxmid2str (slice 6 10 payload) false ;;
      dt <- oxmid2str (slice 14 18 payload) false ;;
      Ok ($"bundle_load(" ++ hn ++ $"," ++ fmt_d basis ++ $"," ++ an ++ $"," ++ st ++ $","
            ++ bits_text dt shift (shift + nbits) ++ $",slaves("
            ++ join $"," (map slave_name ports) ++ $"))")
  | _ => Raise StructError
  end.

(** ** output_reg / output_reg2, nx.py:502-561 *)
Definition output_reg_str2act (subtype : Z) (unparsed : text) (readarg : bool) : res (bytes * nat) :=
  nxast_str2act (
    let '(_, arg, u1) := get_token unparsed in
    '(name, arg) <- parse_func arg ;;
    oxmid <- str2oxmid name false ;;
    r <- match arg with
         | Some (c :: a) => int_range (c :: a)
         | _ => '(_, _, size) <- oxm_hdr oxmid 0 ;; Ok (0, Some (size * 8))
         end ;;
    let '(_, arg, u2) := get_token u1 in
    max_len <- (if Nat.eqb (length arg) 0 then Ok 0xffff
                else '(v, _) <- parseInt arg ;; Ok v) ;;
    let stype := if (4 <? length oxmid)%nat then NXAST_OUTPUT_REG2 else subtype in
    h <- nxast_hdr stype ;;
    r1 <- range_end r ;;
    let ofs := Z.shiftl (fst r) 6 + (Z.land r1 0x3f - 1) in
    if stype =? NXAST_OUTPUT_REG then
      p1 <- pack [sH] [ofs] ;; p2 <- pack [sH] [max_len] ;;
      Ok (h ++ p1 ++ oxmid ++ p2 ++ zeros 6, (length unparsed - length u2)%nat)
    else
      p1 <- pack [sH; sH] [ofs; max_len] ;;
      Ok (h ++ p1 ++ oxmid, (length unparsed - length u2)%nat)).
Definition reg_text (pre name : text) (ofs_nbits size : Z) : text :=
  let shift := Z.shiftr ofs_nbits 6 in
  let nbits := Z.land ofs_nbits 0x3f + 1 in
  pre ++ (if (shift =? 0) && (nbits =? size * 8) then name
          else bits_text name shift (shift + nbits)) ++ $")".
Definition output_reg_act2str (payload : bytes) : res text :=
  f <- unpack_from [sH; sH; sB; sB; sH; sx 6] payload 0 ;;
  match f with
  | [ofs; _; _; size; _] =>
      name <- oxmid2str (slice 2 6 payload) false ;;
      Ok (reg_text $"output_reg(" name ofs size)
  | _ => Raise StructError
  end.
Definition output_reg2_act2str (payload : bytes) : res text :=
  f <- unpack_from [sH; sH; sH; sB; sB] payload 0 ;;
  match f with
  | [ofs; _; _; _; size] =>
      name <- oxmid2str (skipn 4 payload) false ;;
      Ok (reg_text $"output_reg2(" name ofs size)
  | _ => Raise StructError
  end.

(** ** learn, nx.py:563-753 *)
Definition learn_keys : list text :=
  [$"idle_timeout"; $"hard_timeout"; $"priority"; $"cookie"; $"flags"; $"table";
   $"fin_idle_timeout"; $"fin_hard_timeout"].

Inductive learn_src := LInt (n : Z) | LBytes (b : bytes).
(** [r = list(map(lambda n: int(n) if n else None, arg.split(":", 1)))]; r[1] of a
    one-element list is an IndexError *)
Definition opt_range (arg : text) : res (option Z * res (option Z)) :=
  let '(x, y) := split1 58 arg in
  a <- opt_int x ;;
  match y with
  | Some y => b <- opt_int y ;; Ok (a, Ok b)
  | None => Ok (a, Raise IndexError)
  end.

(** flow_mod_spec, nx.py:580-636; [dst = None] is Python's None, [mode] likewise *)
Definition flow_mod_spec (src : text) (dst : option text) (mode : option text) : res bytes :=
  '(sname, sarg) <- parse_func src ;;
  soxm <- str2oxmid sname false ;;
  '(sobj, nbits, flags) <-
    match soxm with
    | _ :: _ =>
        assert! (Nat.eqb (length soxm) 4) ;;
        '(_, _, size) <- oxm_hdr soxm 0 ;;
        '(sshift, nbits) <-
          match sarg with
          | Some (c :: a) =>
              '(r0, r1) <- opt_range (c :: a) ;;
              let sshift := opt_or r0 0 in
              r1 <- r1 ;;
              Ok (sshift, opt_or r1 (size * 8) - sshift)
          | _ => Ok (0, size * 8)
          end ;;
        p <- pack [sH] [sshift] ;;
        Ok (LBytes (soxm ++ p), Some nbits, 0)
    | [] =>
        '(n, _) <- parseInt sname ;; Ok (LInt n, None, Z.shiftl 1 12)
    end ;;
  if match mode with Some m => text_eqb m $"output" | None => false end then
    let flags := flags + Z.shiftl 2 10 in
    match sobj with
    | LInt n => pack [sH; sH] [flags + 2; n]
    | LBytes b => p <- pack [sH] [flags + opt_or nbits 0] ;; Ok (p ++ b)
    end
  else
    match dst with
    | None => Raise TypeError                              (* parse_func(None) *)
    | Some dst =>
        '(dname, darg) <- parse_func dst ;;
        doxm <- str2oxmid dname false ;;
        assert! (Nat.eqb (length doxm) 4) ;;
        '(_, _, size) <- oxm_hdr doxm 0 ;;
        '(dshift, dnbits) <-
          match darg with
          | Some (c :: a) =>
              '(r0, r1) <- opt_range (c :: a) ;;
              let dshift := opt_or r0 0 in
              r1 <- r1 ;;
              Ok (dshift, match r1 with Some e => e - dshift | None => size * 8 end)
          | _ => Ok (0, size * 8)
          end ;;
        nbits <- (if opt_or nbits 0 =? 0 then Ok dnbits
                  else assert! (opt_or nbits 0 =? dnbits) ;; Ok (opt_or nbits 0)) ;;
        p <- pack [sH] [dshift] ;;
        let dbin := doxm ++ p in
        let sbin := match sobj with
                    | LInt n => be_bytes (Z.to_nat ((nbits + 15) / 16 * 2)) n
                    | LBytes b => b
                    end in
        let flags := if match mode with Some m => text_eqb m $"reg_load" | None => false end
                     then flags + Z.shiftl 1 10 else flags in
        q <- pack [sH] [flags + nbits] ;;
        Ok (q ++ sbin ++ dbin)
    end.

(** single, nx.py:641-647 *)
Definition learn_single (token : text) : res bytes :=
  '(fname, farg) <- parse_func token ;;
  match farg with
  | Some (c :: a) =>
      let '(_, dst, f1) := get_token (c :: a) in
      let '(h, src, _) := get_token f1 in
      assert! (has_char 61 h) ;;
      flow_mod_spec src (Some dst) (Some fname)
  | _ => Raise AssertionError
  end.
(** [if left: specs += single(left)] *)
Definition learn_flush (left : option text) : res bytes :=
  match left with Some (c :: t) => learn_single (c :: t) | _ => Ok [] end.

(** the loop of lines 649-662: fixed values assigned (last first) and specs *)
Fixpoint learn_go (fuel : nat) (info : list (text * Z)) (specs : bytes) (left : option text)
    (unparsed : text) : res (list (text * Z) * bytes) :=
  match unparsed with
  | [] => s <- learn_flush left ;; Ok (info, specs ++ s)
  | _ =>
      match fuel with
      | O => Diverge
      | S f =>
          let '(h, arg, rest) := get_token unparsed in
          if has_char 61 h then
            match left with
            | Some l =>
                if in_names l learn_keys then
                  '(v, _) <- parseInt arg ;; learn_go f ((l, v) :: info) specs None rest
                else
                  s <- flow_mod_spec arg left None ;; learn_go f info (specs ++ s) None rest
            | None =>
                s <- flow_mod_spec arg left None ;; learn_go f info (specs ++ s) None rest
            end
          else
            s <- learn_flush left ;; learn_go f info (specs ++ s) (Some arg) rest
      end
  end.
Definition learn_fmt : list fitem := [sH; sH; sH; sQ; sH; sB; sx 1; sH; sH].
Definition learn_str2act (unparsed : text) (readarg : bool) : res (bytes * nat) :=
  nxast_str2act (
    if readarg then Raise ValueError
    else
      '(info, specs) <- learn_go (length unparsed) [] [] None unparsed ;;
      h <- nxast_hdr NXAST_LEARN ;;
      p <- pack learn_fmt (map (fun k => opt_or (assoc_t k info) 0) learn_keys) ;;
      Ok (h ++ p ++ specs, length unparsed)).

(** object text of lines 716-725 and 731-740 *)
Definition learn_obj (payload : bytes) (nbits : Z) : res text :=
  name <- oxmid2str payload false ;;
  vs <- unpack_from [sH; sB; sB; sH] payload 0 ;;
  match vs with
  | [_; _; size; shift] =>
      Ok (if (shift =? 0) && (size * 8 =? nbits) then name
          else bits_text name shift (shift + nbits))
  | _ => Raise StructError
  end.
(** the loop of lines 698-750.  [spec]: the variable of that name, which keeps its
    previous value (or is unbound) when [dst] is 3. *)
Fixpoint learn_specs (fuel : nat) (spec : option text) (payload : bytes) : res (list text) :=
  if (length payload <=? 2)%nat then Ok []
  else match fuel with
  | O => Diverge
  | S f =>
      let n := be_val (firstn 2 payload) in
      if n =? 0 then Ok []
      else
        let payload := skipn 2 payload in
        let nbits := Z.land n 0x3ff in
        let dst := Z.land (Z.shiftr n 10) 3 in
        let src := Z.land (Z.shiftr n 12) 1 in
        assert! (Z.shiftr n 13 =? 0) ;;
        '(sint, stxt, payload) <-
          (if src =? 1 then
             let rlen := Z.to_nat ((nbits + 15) / 16 * 2) in
             Ok (Some (be_val (firstn rlen payload)), [], skipn rlen payload)
           else
             t <- learn_obj payload nbits ;; Ok (None, t, skipn 6 payload)) ;;
        '(spec, payload) <-
          (if negb (dst =? 2) then
             let sobj := match sint with Some v => fmt_x 0 v | None => stxt end in
             dobj <- learn_obj payload nbits ;;
             Ok (if dst =? 0 then Some (dobj ++ $"=" ++ sobj)
                 else if dst =? 1 then Some ($"reg_load(" ++ dobj ++ $"=" ++ sobj ++ $")")
                 else spec, skipn 6 payload)
           else
             let sobj := match sint with Some v => fmt_d v | None => stxt end in
             Ok (Some ($"output(" ++ sobj ++ $")"), payload)) ;;
        match spec with
        | Some t => r <- learn_specs f spec payload ;; Ok (t :: r)
        | None => Raise NameError                          (* UnboundLocalError *)
        end
  end.
(** lines 679-694 call list.append with two arguments: TypeError *)
Definition learn_act2str (payload : bytes) : res text :=
  f <- unpack_from learn_fmt payload 0 ;;
  if existsb (fun v => negb (v =? 0)) f then Raise TypeError
  else
    specs <- learn_specs (length payload) None (skipn (calcsize learn_fmt) payload) ;;
    Ok ($"learn(" ++ join $"," specs ++ $")").

(** _str2act and _act2str, nx.py:755-821 *)
Definition nx_str2act_tbl : list (text * (text -> bool -> res (bytes * nat))) :=
  [ ($"cnt_ids", cnt_ids_str2act);
    ($"reg_load", reg_load_str2act NXAST_REG_LOAD);
    ($"reg_load2", reg_load_str2act NXAST_REG_LOAD2);
    ($"reg_move", reg_move_str2act);
    ($"resubmit", resubmit_str2act NXAST_RESUBMIT);
    ($"resubmit_table", resubmit_str2act NXAST_RESUBMIT_TABLE);
    ($"set_tunnel", set_tunnel_str2act NXAST_SET_TUNNEL);
    ($"set_tunnel64", set_tunnel_str2act NXAST_SET_TUNNEL64);
    ($"pop_queue", null_str2act NXAST_POP_QUEUE);
    ($"note", qp_str2act NXAST_NOTE);
    ($"exit", null_str2act NXAST_EXIT);
    ($"multipath", multipath_str2act);
    ($"bundle", bundle_str2act);
    ($"bundle_load", bundle_load_str2act);
    ($"output_reg", output_reg_str2act NXAST_OUTPUT_REG);
    ($"output_reg2", output_reg_str2act NXAST_OUTPUT_REG2);
    ($"learn", learn_str2act) ].
Definition nx_act2str_tbl : list (Z * (bytes -> res text)) :=
  [ (NXAST_CNT_IDS, cnt_ids_act2str);
    (NXAST_REG_LOAD, reg_load_act2str);
    (NXAST_REG_LOAD2, reg_load2_act2str);
    (NXAST_REG_MOVE, reg_move_act2str);
    (NXAST_RESUBMIT, resubmit_act2str);
    (NXAST_RESUBMIT_TABLE, resubmit_table_act2str);
    (NXAST_SET_TUNNEL, set_tunnel_act2str sI $"set_tunnel(");
    (NXAST_SET_TUNNEL64, set_tunnel_act2str sQ $"set_tunnel64(");
    (NXAST_POP_QUEUE, null_act2str $"pop_queue");
    (NXAST_NOTE, qp_act2str $"note(");
    (NXAST_EXIT, null_act2str $"exit");
    (NXAST_MULTIPATH, multipath_act2str);
    (NXAST_BUNDLE, bundle_act2str);
    (NXAST_BUNDLE_LOAD, bundle_load_act2str);
    (NXAST_OUTPUT_REG, output_reg_act2str);
    (NXAST_OUTPUT_REG2, output_reg2_act2str);
    (NXAST_LEARN, learn_act2str) ].
