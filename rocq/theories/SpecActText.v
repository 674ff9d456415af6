(** SpecActText: every text the reader of actions takes, and the bytes it stands for, written
    down without the reader's own functions.  SpecOfp's [writes_act] is the part of it that a
    user would write; what the reader takes beyond that is named here case by case. *)
From Verif Require Import Base Spec SpecOxm SpecText SpecOfp.
From Coq Require Import Strings.Ascii.

(** ** Tokens *)
Definition eq_lead (h : text) : Prop := exists a b, Forall blank a /\ Forall blank b /\ h = a ++ chr "=" :: b.
(** no token: the text ends, or a separator stands where the token should begin *)
Definition vacant (h r : text) : Prop :=
  r = [] \/ (eq_lead h /\ exists c r', r = c :: r' /\ (c = chr "," \/ c = chr "="))
  \/ (Forall filler h /\ In (chr ",") h /\ exists r', r = chr "=" :: r').
(** [next u h p r]: [u] is the lead [h], the token [p] and the rest [r] *)
Inductive next : text -> text -> text -> text -> Prop :=
| next_token h p r : lead h -> cut p r -> next (h ++ p ++ r) h p r
| next_none h r : lead h -> vacant h r -> next (h ++ r) h [] r.
(** several tokens, whatever separates them *)
Inductive words : text -> list text -> text -> Prop :=
| words_nil u : words u [] u
| words_cons u h p u' ps r : next u h p u' -> words u' ps r -> words u (p :: ps) r.
(** [p] is NAME, or NAME with arguments in brackets; the closing bracket may be missing *)
Inductive func : text -> text -> option text -> Prop :=
| func_plain p : Forall (fun c => ~ opener c) p -> func p p None
| func_call name o e a : Forall (fun c => ~ opener c) name -> bracket o e -> closed (fun c => c <> e) a ->
    func (name ++ o :: a ++ [e]) name (Some a)
| func_open name o e a : Forall (fun c => ~ opener c) name -> bracket o e -> closed (fun c => c <> e) a \/ unclosed (fun c => c <> e) a ->
    func (name ++ o :: a) name (Some a).
Definition given (a : option text) (x : text) : Prop := a = Some x /\ x <> [].
Definition not_given (a : option text) : Prop := a = None \/ a = Some [].
(** items separated by commas and blanks outside brackets; the first bracket of each
    outermost pair is lost *)
Inductive piece : text -> text -> Prop :=
| piece_nil : piece [] []
| piece_chr c s t : ~ sep_char c -> ~ opener c -> piece s t -> piece (c :: s) (c :: t)
| piece_grp o e g s t : bracket o e -> closed (fun c => c <> e) g -> piece s t -> piece (o :: g ++ e :: s) (g ++ e :: t).
Inductive last_piece : text -> text -> Prop :=
| last_whole s t : piece s t -> last_piece s t
| last_open s t o e g : piece s t -> bracket o e -> closed (fun c => c <> e) g \/ unclosed (fun c => c <> e) g ->
    last_piece (s ++ o :: g) (t ++ g).
Definition keep (t : text) : list text := match t with [] => [] | _ => [t] end.
Inductive split_of : text -> list text -> Prop :=
| split_end s t : last_piece s t -> split_of s (keep t)
| split_sep s t c r l : piece s t -> sep_char c -> split_of r l -> split_of (s ++ c :: r) (keep t ++ l).

(** ** Numbers *)
(** a number; what follows its digits is ignored *)
Definition numberish (u : text) (v : Z) : Prop := exists l, reads u v l.
(** as Python reads integers *)
Definition py_number (u : text) (v : Z) : Prop := exists a s d ds b, u = a ++ s ++ d ++ b /\ Forall int_blank a /\ Forall int_blank b /\
  underscored d ds /\ ((s = [] \/ s = $"+") /\ v = value 10 ds \/ s = $"-" /\ v = - value 10 ds).
Definition py_or (d : Z) (u : text) (v : Z) : Prop := u = [] /\ v = d \/ u <> [] /\ py_number u v.
(** X:Y *)
Definition pair_text (a x y : text) : Prop := a = x ++ $":" ++ y /\ ~ In (chr ":") x.
(** [u] in any case is the upper-case word [w]; the dotless i and the long s count *)
Definition raises (c w : Z) : Prop :=
  c = w /\ ~ (chr "a" <= c <= chr "z") /\ c <> 305 /\ c <> 383
  \/ chr "a" <= c <= chr "z" /\ w = c - 32 \/ c = 305 /\ w = chr "I" \/ c = 383 /\ w = chr "S".
Definition any_case (u w : text) : Prop := Forall2 raises u w.

(** ** Fields *)
(** the header of the field of that name, nothing for any other name *)
Inductive field_id (hm : bool) (name : text) : bytes -> Prop :=
| id_field f : readable f -> name = fname f -> field_id hm name (id_wire hm f)
| id_none : (forall f, readable f -> name <> fname f) -> field_id hm name [].
(** the length byte of a header *)
Definition len_byte (hm : bool) (f : field) : Z := byte_val (nth 3 (id_wire hm f) x00).
Definition whole (f : field) : Z := 8 * (len_byte false f - Z.of_nat (length (exp_id (fclass f)))).
(** FIELD, or FIELD[LO:HI]: the field, its first bit and the number of bits *)
Inductive bit_range (p : text) (f : field) : Z -> Z -> Prop :=
| range_whole a : readable f -> func p (fname f) a -> not_given a -> bit_range p f 0 (whole f)
| range_bits a x y lo hi : readable f -> func p (fname f) (Some a) -> pair_text a x y -> py_or 0 x lo -> py_or (whole f) y hi ->
    bit_range p f lo (hi - lo).
(** one match field, at the beginning of [u]; none if [u] or the value is empty *)
Inductive one_field (N : kind -> text -> bytes -> option bytes -> Prop) : text -> list tlv -> text -> Prop :=
| of_empty : one_field N [] [] []
| of_item f h a b p v m r u : readable f -> Forall filler h -> gap_eq a -> Forall blank b -> cut p r -> N (fkind f) p v m ->
    u = h ++ fname f ++ a ++ $"=" ++ b ++ p ++ r -> one_field N u [Tlv f v m] r
| of_stop f h a b r u : readable f -> Forall filler h -> gap_eq a -> Forall blank b -> cut_off r -> fkind f = KHex \/ fkind f = KSsid ->
    u = h ++ fname f ++ a ++ $"=" ++ b ++ r -> one_field N u [] r.

(** ** Arguments *)
(** resubmit: a port or in_port, a table or all *)
Inductive nx_port_any : text -> Z -> Prop :=
| npa_lit p v : literal p v -> 0 <= v < 0xff00 -> nx_port_any p v
| npa_in p : any_case p $"IN_PORT" -> nx_port_any p 0xfff8.
Inductive table_any : text -> Z -> Prop :=
| ta_none : table_any [] 255
| ta_all p : any_case p $"ALL" -> table_any p 255
| ta_lit p v : literal p v -> in_bytes 1 v -> table_any p v.
(** output: PORT, PORT:MAX, or PORT:MAX:anything *)
Inductive output_any : text -> Z -> Z -> Prop :=
| oa_port x port : port_of x port -> output_any x port 0xffff
| oa_max x port y m t : port_of x port -> literal y m -> t = [] \/ (exists t', t = $":" ++ t') -> output_any (x ++ $":" ++ y ++ t) port m.
(** reg_load: the bits set in a mask.  The run is counted from the lowest bit set; it should
    end at the next bit not set, but every higher byte adds its own lowest bits up to its
    first zero *)
Fixpoint low_zeros (d : nat) (v : Z) : Z := match d with O => 0 | S d' => if Z.even v then 1 + low_zeros d' (v / 2) else 0 end.
Fixpoint low_ones (d : nat) (v : Z) : Z := match d with O => 0 | S d' => if Z.even v then 0 else 1 + low_ones d' (v / 2) end.
Fixpoint mask_run (low_first : bytes) : option (Z * Z) :=
  match low_first with
  | [] => None
  | b :: l =>
      let v := byte_val b in
      if v =? 0 then option_map (fun '(lo, n) => (8 + lo, n)) (mask_run l)
      else let z := low_zeros 8 v in
           Some (z, low_ones 8 (v / 2 ^ z) + fold_right Z.add 0 (map (fun c => low_ones 8 (byte_val c)) l))
  end.
(** ... of the bytes behind the header; for an experimenter field two bytes of the experimenter
    id are taken for data *)
Definition load_data (t : tlv) : bytes :=
  match fclass (tfield t) with Stratos => be 2 0xe04d | _ => [] end ++ tval t ++ mask_bytes (tmask t).
Inductive load_any (t : tlv) : bytes -> Prop :=
| load_whole d : tmask t = None -> d = load_data t -> in_bytes 1 (Z.of_nat (length d)) -> in_bytes 2 (ofs_nbits 0 (8 * Z.of_nat (length d))) -> in_bytes 8 (num_be d) ->
    load_any t (be 2 (ofs_nbits 0 (8 * Z.of_nat (length d))) ++ be 2 (class_id (fclass (tfield t))) ++ be 1 (2 * fnum (tfield t))
                  ++ be 1 (Z.of_nat (length d)) ++ be 8 (num_be d))
| load_masked n lo k v : tmask t <> None -> n = (length (load_data t) / 2)%nat -> mask_run (rev (skipn n (load_data t))) = Some (lo, k) ->
    v = num_be (firstn n (load_data t)) / 2 ^ lo -> in_bytes 1 (Z.of_nat n) -> in_bytes 2 (ofs_nbits lo k) -> in_bytes 8 v ->
    load_any t (be 2 (ofs_nbits lo k) ++ be 2 (class_id (fclass (tfield t))) ++ be 1 (2 * fnum (tfield t)) ++ be 1 (Z.of_nat n) ++ be 8 v).
(** slaves(...) *)
Definition slaves_any (p : text) (ps : list Z) : Prop :=
  exists a, func p $"slaves" a /\
    (not_given a /\ ps = [] \/ exists x us, given a x /\ split_of x us /\ Forall2 numberish us ps /\ Forall (in_bytes 2) ps).
(** the destination of bundle_load: header, first bit and end *)
Inductive load_dst (p : text) : bytes -> Z -> Z -> Prop :=
| ld_whole f a : readable f -> fclass f <> Stratos -> func p (fname f) a -> not_given a -> load_dst p (id_wire true f) 0 (8 * len_byte true f)
| ld_bits name a x y b lo hi : func p name (Some a) -> field_id true name b -> pair_text a x y -> py_number x lo -> py_number y hi ->
    load_dst p b lo hi.
(** the register of output_reg *)
Inductive reg_src (p : text) : bytes -> Z -> Z -> Prop :=
| rs_whole f a : readable f -> func p (fname f) a -> not_given a -> reg_src p (id_wire false f) 0 (8 * len_byte false f)
| rs_bits name a x y b lo hi : func p name (Some a) -> field_id false name b -> pair_text a x y -> py_number x lo -> py_number y hi ->
    reg_src p b lo hi.

(** ** learn *)
(** the source: bits of a field, and how many; or a number *)
Inductive learn_src : text -> lsrc -> option Z -> Prop :=
| lsa_bits p f lo n : fclass f <> Stratos -> bit_range p f lo n -> in_bytes 2 lo -> learn_src p (FromBits f lo) (Some n)
| lsa_value p name a v : func p name a -> (forall f, readable f -> name <> fname f) -> numberish name v -> learn_src p (FromValue v) None.
(** the destination: as [bit_range], but FIELD[LO:] has as many bits as the field *)
Inductive learn_dst (p : text) (f : field) : Z -> Z -> Prop :=
| lda_whole a : readable f -> func p (fname f) a -> not_given a -> learn_dst p f 0 (whole f)
| lda_bits a x y lo hi : readable f -> func p (fname f) (Some a) -> pair_text a x y -> py_or 0 x lo -> py_number y hi -> learn_dst p f lo (hi - lo)
| lda_open a x lo : readable f -> func p (fname f) (Some a) -> pair_text a x [] -> py_or 0 x lo -> learn_dst p f lo (whole f).
(** source and destination have as many bits; a source of no bits has no say *)
Definition agree (n : option Z) (m : Z) : Prop := match n with None => True | Some k => k = 0 \/ k = m end.
(** the first two bytes of a flow spec *)
Definition spec_head (s : lspec) : Z :=
  l_bits s + 1024 * match l_dst s with ToMatch _ _ => 0 | ToLoad _ _ => 1 | ToOutput => 2 end
           + 4096 * match l_src s with FromBits _ _ => 0 | FromValue _ => 1 end.
(** DST=SRC as the argument of MODE: "output" ignores DST *)
Inductive learn_to (mode : option text) (f : field) (lo : Z) : ldst -> Prop :=
| lt_match : mode <> Some $"reg_load" -> mode <> Some $"output" -> learn_to mode f lo (ToMatch f lo)
| lt_load : mode = Some $"reg_load" -> learn_to mode f lo (ToLoad f lo).
Inductive learn_spec (src dst : text) (mode : option text) : lspec -> Prop :=
| lsp_to s k f lo n d : learn_to mode f lo d -> learn_src src s k -> fclass f <> Stratos -> learn_dst dst f lo n -> in_bytes 2 lo -> agree k n ->
    in_bytes 2 (spec_head (LSpec n s d)) -> learn_spec src dst mode (LSpec n s d)
| lsp_output s n : mode = Some $"output" -> learn_src src s (Some n) -> in_bytes 2 (spec_head (LSpec n s ToOutput)) -> learn_spec src dst mode (LSpec n s ToOutput)
| lsp_output_value v : mode = Some $"output" -> learn_src src (FromValue v) None -> in_bytes 2 v -> learn_spec src dst mode (LSpec 2 (FromValue v) ToOutput).
(** the list: KEY=NUMBER, DST=SRC, MODE(DST=SRC) *)
Inductive learn_list : text -> list lentry -> Prop :=
| ll_end t : Forall filler t -> learn_list t []
| ll_set t h k u h' p r v l : next t h (lkey_name k) u -> ~ eq_lead h -> next u h' p r -> eq_lead h' -> numberish p v -> learn_list r l ->
    learn_list t (LSet k v :: l)
| ll_match t h d u h' p r s l : next t h d u -> ~ eq_lead h -> (forall k, d <> lkey_name k) -> next u h' p r -> eq_lead h' -> learn_spec p d None s ->
    learn_list r l -> learn_list t (LAdd s :: l)
| ll_mode t h d u m a h1 x u1 h2 y u2 s l : next t h d u -> ~ eq_lead h -> (forall h' p r, next u h' p r -> ~ eq_lead h') -> func d m (Some a) -> a <> [] ->
    next a h1 x u1 -> next u1 h2 y u2 -> eq_lead h2 -> learn_spec y x (Some m) s -> learn_list u l -> learn_list t (LAdd s :: l).

(** ** Actions *)
(** [says N name eq u b r]: after NAME and before "=" ([eq]), or as its arguments in brackets,
    [u] makes the action [b]; [r] is not used *)
Definition eq_ok (eq : bool) (h : text) : Prop := eq = true -> eq_lead h.
Inductive says (N : kind -> text -> bytes -> option bytes -> Prop) : text -> bool -> text -> bytes -> text -> Prop :=
| s_noarg k eq u : says N (noarg_name k) eq u (act_wire (Noarg k)) u
| s_pop_queue eq u : says N $"pop_queue" eq u (act_wire PopQueue) u
| s_exit eq u : says N $"exit" eq u (act_wire Exit) u
| s_mpls_ttl eq u h p r v : next u h p r -> literal p v -> in_bytes 1 v -> says N $"set_mpls_ttl" eq u (act_wire (SetMplsTtl v)) r
| s_nw_ttl eq u h p r v : next u h p r -> literal p v -> in_bytes 1 v -> says N $"set_nw_ttl" eq u (act_wire (SetNwTtl v)) r
| s_queue eq u h p r v : next u h p r -> literal p v -> in_bytes 4 v -> says N $"set_queue" eq u (act_wire (SetQueue v)) r
| s_group eq u h p r v : next u h p r -> literal p v -> in_bytes 4 v -> says N $"group" eq u (act_wire (GroupAct v)) r
| s_output eq u h p r port m : next u h p r -> ~ In (chr "/") p -> output_any p port m -> in_bytes 4 port -> in_bytes 2 m ->
    says N $"output" eq u (act_wire (Output port m)) r
| s_ether k eq u h p r v : next u h p r -> numberish p v -> in_bytes 2 v -> says N (ether_name k) eq u (act_wire (Ether k v)) r
| s_resubmit eq u h p r port : next u h p r -> eq_ok eq h -> nx_port_any p port -> says N $"resubmit" eq u (act_wire (Resubmit port)) r
| s_resubmit_all u h p r port : next u h p r -> eq_lead h -> nx_port_any p port ->
    says N $"resubmit_table" true u (act_wire (ResubmitTable port 255)) r
| s_resubmit_table u p t r port table : words u [p; t] r -> nx_port_any p port -> table_any t table ->
    says N $"resubmit_table" false u (act_wire (ResubmitTable port table)) r
| s_tunnel eq u h p r v : next u h p r -> eq_ok eq h -> literal p v -> in_bytes 4 v -> says N $"set_tunnel" eq u (act_wire (SetTunnel v)) r
| s_tunnel64 eq u h p r v : next u h p r -> eq_ok eq h -> literal p v -> in_bytes 4 v ->
    says N $"set_tunnel64" eq u (nx_act 9 (be 4 v)) r                                      (* half the bytes *)
| s_tunnel_big name eq u h p r v : name = $"set_tunnel" \/ name = $"set_tunnel64" -> next u h p r -> eq_ok eq h -> literal p v -> 0xffffffff < v -> in_bytes 8 v ->
    says N name eq u (act_wire (SetTunnel64 v)) r
| s_note eq u h p r b : next u h p r -> eq_ok eq h -> qp p b -> says N $"note" eq u (act_wire (Note b)) r
| s_ids_eq u h p r us ids : next u h p r -> eq_lead h -> p = sepby (chr ":") us -> us <> [] -> Forall (fun t => ~ In (chr ":") t) us -> Forall2 numberish us ids ->
    Forall (in_bytes 2) ids -> says N $"cnt_ids" true u (act_wire (CntIds ids)) r
| s_ids u us ids : split_of u us -> Forall2 numberish us ids -> Forall (in_bytes 2) ids -> says N $"cnt_ids" false u (act_wire (CntIds ids)) u
| s_load u t r b : one_field N u [t] r -> load_any t b -> says N $"reg_load" false u (nx_act 7 b) r
| s_load2 u t r : one_field N u [t] r -> says N $"reg_load2" false u (act_wire (RegLoad2 t)) r
| s_move u p q r s slo d dlo n : words u [p; q] r -> bit_range p d dlo n -> bit_range q s slo n -> in_bytes 2 slo -> in_bytes 2 dlo -> in_bytes 2 n ->
    says N $"reg_move" false u (act_wire (RegMove s slo d dlo n)) r
| s_multipath u h pb b a pl l pa arg pd d lo n r : words u [hash_name h; pb; mpalg_name a; pl; pa; pd] r -> literal pb b -> literal pl l -> numberish pa arg ->
    bit_range pd d lo n -> in_bytes 2 b -> in_bytes 2 l -> in_bytes 4 arg -> in_bytes 2 (ofs_nbits lo n) ->
    says N $"multipath" false u (act_wire (Multipath h b a l arg d lo n)) r
| s_bundle u h pb b a pt t ps ports r : words u [hash_name h; pb; bdalg_name a; pt; ps] r -> numberish pb b -> in_bytes 2 b -> field_id true pt t -> slaves_any ps ports ->
    says N $"bundle" false u (nx_act 12 (be 2 (bdalg_id a) ++ be 2 (hash_id h) ++ be 2 b ++ t ++ be 2 (Z.of_nat (length ports)) ++ be 2 0 ++ be 4 0 ++ pad 4 ++ all_be 2 ports)) r
| s_bundle_load u h pb b a pt t pd d lo hi ps ports r : words u [hash_name h; pb; bdalg_name a; pt; pd; ps] r -> numberish pb b -> in_bytes 2 b -> field_id true pt t ->
    load_dst pd d lo hi -> in_bytes 2 (ofs_nbits lo hi) -> slaves_any ps ports ->
    says N $"bundle_load" false u (nx_act 13 (be 2 (bdalg_id a) ++ be 2 (hash_id h) ++ be 2 b ++ t ++ be 2 (Z.of_nat (length ports)) ++ be 2 (ofs_nbits lo hi)
                                                ++ d ++ pad 4 ++ all_be 2 ports)) r
| s_output_reg name wide eq u p pm b lo hi m r : name = $"output_reg" /\ wide = false \/ name = $"output_reg2" /\ wide = true ->
    words u [p; pm] r -> reg_src p b lo hi -> pm = [] /\ m = 0xffff \/ pm <> [] /\ numberish pm m -> in_bytes 2 m -> in_bytes 2 (ofs_nbits lo (hi mod 64)) ->
    says N name eq u (if wide || (4 <? length b)%nat then nx_act 32 (be 2 (ofs_nbits lo (hi mod 64)) ++ be 2 m ++ b)
                      else nx_act 15 (be 2 (ofs_nbits lo (hi mod 64)) ++ b ++ be 2 m ++ pad 6)) r
| s_learn u l : learn_list u l -> (forall k, in_bytes (lkey_size k) (lvalue k 0 l)) -> says N $"learn" false u (act_wire (Learn l)) [].

Definition act_name (name : text) : Prop := In name (map fst named_acts).
Definition set_word (p : text) : Prop := exists x, p = $"set_" ++ x.
(** [action_reads N s b r]: [s] begins with an action that makes [b]; [r] is left.  A text
    without an action at its beginning makes nothing *)
Inductive action_reads (N : kind -> text -> bytes -> option bytes -> Prop) : text -> bytes -> text -> Prop :=
| ar_call s h p r name a b r' : next s h p r -> func p name (Some a) -> a <> [] -> says N name false a b r' -> Z.of_nat (length b) <= 65535 ->
    action_reads N s b r
| ar_eq s h p u b r : next s h p u -> says N p true u b r -> Z.of_nat (length b) <= 65535 -> action_reads N s b r
| ar_set_call s h p r x a h' q u ts r' : next s h p r -> func p ($"set_" ++ x) (Some a) -> a <> [] -> ~ act_name ($"set_" ++ x) ->
    next a h' q u -> one_field N (x ++ $"=" ++ q) ts r' -> Z.of_nat (length (padded_act 25 (flat_map wire ts))) <= 65535 ->
    action_reads N s (padded_act 25 (flat_map wire ts)) r
| ar_set_eq s h x u name a h' q r ts r' : next s h ($"set_" ++ x) u -> func ($"set_" ++ x) name a -> not_given a -> ~ act_name ($"set_" ++ x) ->
    next u h' q r -> one_field N (x ++ h' ++ q) ts r' -> Z.of_nat (length (padded_act 25 (flat_map wire ts))) <= 65535 ->
    action_reads N s (padded_act 25 (flat_map wire ts)) (r' ++ r)
| ar_none s h p u name a : next s h p u -> func p name a -> (forall x, given a x -> ~ act_name name) -> ~ act_name p -> ~ set_word p ->
    action_reads N s [] (p ++ u).
