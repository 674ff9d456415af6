(** SpecOfp: actions, instructions, flow rules, groups and multipart bodies, written
    down independently of the model: abstract syntax, wire format, the text printed
    for each object and the texts that may be written for it. *)
From Verif Require Import Base Spec SpecOxm.
From Coq Require Import Strings.Ascii.

(** ** Length-prefixed entries (actions, instructions) *)
(** the 16-bit length field at offset 2 *)
Definition entry_len (m : bytes) : nat := Z.to_nat (num_be (firstn 2 (skipn 2 m))).
(** entries are read one after the other by their length fields, as long as more than 4
    bytes are left; [one m] is the outcome for the first entry of [m].  The reading
    never ends when an entry that can be read has length 0, or when reading an entry
    does not end *)
Inductive endless (one : bytes -> res text) : bytes -> Prop :=
| endless_here m t : (4 < length m)%nat -> one m = Ok t -> entry_len m = 0%nat -> endless one m
| endless_inner m : (4 < length m)%nat -> one m = Diverge -> endless one m
| endless_next m t : (4 < length m)%nat -> one m = Ok t -> endless one (skipn (entry_len m) m) -> endless one m.

(** ** Actions *)
(** without argument *)
Inductive noarg := CopyTtlOut | CopyTtlIn | DecMplsTtl | PopVlan | DecNwTtl | PopPbb.
Definition noarg_type (k : noarg) : Z :=
  match k with CopyTtlOut => 11 | CopyTtlIn => 12 | DecMplsTtl => 16 | PopVlan => 18 | DecNwTtl => 24 | PopPbb => 27 end.
Definition noarg_name (k : noarg) : text :=
  match k with
  | CopyTtlOut => $"copy_ttl_out" | CopyTtlIn => $"copy_ttl_in" | DecMplsTtl => $"dec_mpls_ttl"
  | PopVlan => $"pop_vlan" | DecNwTtl => $"dec_nw_ttl" | PopPbb => $"pop_pbb"
  end.
(** with an ethertype *)
Inductive ether := PushVlan | PushMpls | PopMpls | PushPbb.
Definition ether_type (k : ether) : Z := match k with PushVlan => 17 | PushMpls => 19 | PopMpls => 20 | PushPbb => 26 end.
Definition ether_name (k : ether) : text :=
  match k with PushVlan => $"push_vlan" | PushMpls => $"push_mpls" | PopMpls => $"pop_mpls" | PushPbb => $"push_pbb" end.
(** hash functions and link selection of multipath and bundle *)
Inductive hash := EthSrc | SymmetricL4.
Definition hash_id (h : hash) : Z := match h with EthSrc => 0 | SymmetricL4 => 1 end.
Definition hash_name (h : hash) : text := match h with EthSrc => $"eth_src" | SymmetricL4 => $"symmetric_l4" end.
Inductive mpalg := ModuloN | HashThreshold | MpHrw | IterHash.
Definition mpalg_id (a : mpalg) : Z := match a with ModuloN => 0 | HashThreshold => 1 | MpHrw => 2 | IterHash => 3 end.
Definition mpalg_name (a : mpalg) : text :=
  match a with ModuloN => $"modulo_n" | HashThreshold => $"hash_threshold" | MpHrw => $"hrw" | IterHash => $"iter_hash" end.
Inductive bdalg := ActiveBackup | BdHrw.
Definition bdalg_id (a : bdalg) : Z := match a with ActiveBackup => 0 | BdHrw => 1 end.
Definition bdalg_name (a : bdalg) : text := match a with ActiveBackup => $"active_backup" | BdHrw => $"hrw" end.

(** learn: fixed values, and flow specs that say what to match or to do *)
Inductive lkey := LIdle | LHard | LPriority | LCookie | LFlags | LTable | LFinIdle | LFinHard.
Definition lkey_name (k : lkey) : text :=
  match k with
  | LIdle => $"idle_timeout" | LHard => $"hard_timeout" | LPriority => $"priority" | LCookie => $"cookie"
  | LFlags => $"flags" | LTable => $"table" | LFinIdle => $"fin_idle_timeout" | LFinHard => $"fin_hard_timeout"
  end.
Definition lkey_size (k : lkey) : nat := match k with LCookie => 8 | LTable => 1 | _ => 2 end%nat.
Definition lkey_eqb (j k : lkey) : bool :=
  match j, k with
  | LIdle, LIdle | LHard, LHard | LPriority, LPriority | LCookie, LCookie
  | LFlags, LFlags | LTable, LTable | LFinIdle, LFinIdle | LFinHard, LFinHard => true
  | _, _ => false
  end.
Inductive lsrc := FromBits (f : field) (lo : Z) | FromValue (v : Z).
Inductive ldst := ToMatch (f : field) (lo : Z) | ToLoad (f : field) (lo : Z) | ToOutput.
Record lspec := LSpec { l_bits : Z; l_src : lsrc; l_dst : ldst }.
Inductive lentry := LSet (k : lkey) (v : Z) | LAdd (s : lspec).

Inductive action :=
| Output (port max_len : Z)
| Noarg (k : noarg)
| SetMplsTtl (ttl : Z)
| SetQueue (queue : Z)
| GroupAct (group : Z)
| Ether (k : ether) (ethertype : Z)
| SetField (t : tlv)
(* Nicira extensions; [lo] and [n]: first bit and number of bits *)
| Resubmit (port : Z)
| ResubmitTable (port table : Z)
| SetTunnel (id : Z)
| SetTunnel64 (id : Z)
| CntIds (ids : list Z)
| RegLoad (f : field) (lo n v : Z)
| RegLoad2 (t : tlv)
| RegMove (src : field) (slo : Z) (dst : field) (dlo : Z) (n : Z)
| Multipath (h : hash) (basis : Z) (a : mpalg) (max_link arg : Z) (dst : field) (lo n : Z)
| Bundle (h : hash) (basis : Z) (a : bdalg) (slave_type : field) (slaves : list Z)
| OutputReg (v2 : bool) (f : field) (n max_len : Z)       (* bits 0 to n *)
| PopQueue
| Exit
| SetNwTtl (ttl : Z)
| Note (b : bytes)
| BundleLoad (h : hash) (basis : Z) (a : bdalg) (slave_type dst : field) (n : Z) (slaves : list Z)   (* bits 0 to n of dst *)
| Learn (l : list lentry).

(** *** Wire format *)
Definition std_act (type : Z) (p : bytes) : bytes := be 2 type ++ be 2 (Z.of_nat (4 + length p)) ++ p.
(** padded to a multiple of 8 bytes, the padding counted in the length *)
Definition padded_act (type : Z) (p : bytes) : bytes :=
  let z := pad_to8 (4 + length p) in std_act type (p ++ z).
Definition nx_act (subtype : Z) (p : bytes) : bytes := padded_act 0xffff (be 4 0x2320 ++ be 2 subtype ++ p).
Definition all_be (n : nat) (l : list Z) : bytes := flat_map (be n) l.
(** offset and number of bits in 16 bits *)
Definition ofs_nbits (lo n : Z) : Z := lo * 64 + (n - 1).

(** the value given last *)
Fixpoint lvalue (k : lkey) (d : Z) (l : list lentry) : Z :=
  match l with
  | [] => d
  | LSet j v :: l' => lvalue k (if lkey_eqb k j then v else d) l'
  | LAdd _ :: l' => lvalue k d l'
  end.
Definition lfixed_wire (l : list lentry) : bytes :=
  let value k := be (lkey_size k) (lvalue k 0 l) in
  value LIdle ++ value LHard ++ value LPriority ++ value LCookie ++ value LFlags ++ value LTable ++ pad 1
    ++ value LFinIdle ++ value LFinHard.
(** bytes of an immediate value of [n] bits *)
Definition imm_size (n : Z) : nat := (2 * Z.to_nat ((n + 15) / 16))%nat.
Definition bits_wire (f : field) (lo : Z) : bytes := id_wire false f ++ be 2 lo.
(** number of bits, kind of destination from bit 10, kind of source from bit 12 *)
Definition lspec_wire (s : lspec) : bytes :=
  let '(sk, sw) := match l_src s with
                   | FromBits f lo => (0, bits_wire f lo)
                   | FromValue v => (1, be (imm_size (l_bits s)) v)
                   end in
  let '(dk, dw) := match l_dst s with
                   | ToMatch f lo => (0, bits_wire f lo)
                   | ToLoad f lo => (1, bits_wire f lo)
                   | ToOutput => (2, [])
                   end in
  be 2 (l_bits s + 1024 * dk + 4096 * sk) ++ sw ++ dw.
Definition lspecs (l : list lentry) : list lspec := flat_map (fun e => match e with LAdd s => [s] | LSet _ _ => [] end) l.

Definition act_wire (a : action) : bytes :=
  match a with
  | Output p m => std_act 0 (be 4 p ++ be 2 m ++ pad 6)
  | Noarg k => std_act (noarg_type k) (pad 4)
  | SetMplsTtl n => std_act 15 (be 1 n ++ pad 3)
  | SetQueue n => std_act 21 (be 4 n)
  | GroupAct n => std_act 22 (be 4 n)
  | Ether k n => std_act (ether_type k) (be 2 n ++ pad 2)
  | SetField t => padded_act 25 (wire t)
  | Resubmit p => nx_act 1 (be 2 p ++ be 1 255)
  | SetTunnel v => nx_act 2 (be 4 v)
  | PopQueue => nx_act 5 []
  | RegMove s slo d dlo n => nx_act 6 (be 2 n ++ be 2 slo ++ be 2 dlo ++ id_wire false s ++ id_wire false d)
  | RegLoad f lo n v => nx_act 7 (be 2 (ofs_nbits lo n) ++ id_wire false f ++ be 8 v)
  | SetTunnel64 v => nx_act 9 (be 8 v)
  | Multipath h b a l arg d lo n =>
      nx_act 10 (be 2 (hash_id h) ++ be 2 b ++ pad 2 ++ be 2 (mpalg_id a) ++ be 2 l ++ be 4 arg ++ pad 2
                   ++ be 2 (ofs_nbits lo n) ++ id_wire false d)
  | Bundle h b a s ps =>
      nx_act 12 (be 2 (bdalg_id a) ++ be 2 (hash_id h) ++ be 2 b ++ id_wire false s
                   ++ be 2 (Z.of_nat (length ps)) ++ be 2 0 ++ be 4 0 ++ pad 4 ++ all_be 2 ps)
  | ResubmitTable p t => nx_act 14 (be 2 p ++ be 1 t)
  | OutputReg false f n m => nx_act 15 (be 2 (ofs_nbits 0 n) ++ id_wire false f ++ be 2 m ++ pad 6)
  | Exit => nx_act 17 []
  | CntIds ids => nx_act 21 (be 2 (Z.of_nat (length ids)) ++ pad 4 ++ all_be 2 ids)
  | OutputReg true f n m => nx_act 32 (be 2 (ofs_nbits 0 n) ++ be 2 m ++ id_wire false f)
  | RegLoad2 t => nx_act 33 (wire t)
  | SetNwTtl n => std_act 23 (be 1 n)                      (* the code does not pad these two *)
  | Note b => std_act 0xffff (be 4 0x2320 ++ be 2 8 ++ b)
  | BundleLoad h b a s d n ps =>
      nx_act 13 (be 2 (bdalg_id a) ++ be 2 (hash_id h) ++ be 2 b ++ id_wire false s
                   ++ be 2 (Z.of_nat (length ps)) ++ be 2 (ofs_nbits 0 n) ++ id_wire true d ++ pad 4 ++ all_be 2 ps)
  | Learn l => nx_act 16 (lfixed_wire l ++ flat_map lspec_wire (lspecs l))
  end.
Definition acts_wire (l : list action) : bytes := flat_map act_wire l.

(** *** Printed text *)
Definition bits (f : field) : option Z := option_map (fun w => 8 * Z.of_nat w) (width (fkind f)).
Definition range_str (f : field) (lo n : Z) : text := fname f ++ $"[" ++ dec lo ++ $":" ++ dec (lo + n) ++ $"]".
(** a whole field is named without range *)
Definition bits_str (f : field) (lo n : Z) : text :=
  match bits f with
  | Some b => if (lo =? 0) && (n =? b) then fname f else range_str f lo n
  | None => range_str f lo n
  end.
(** loading [n] bits at [lo] of a field, as a masked match on the field *)
Definition load_tlv (f : field) (lo n v : Z) : tlv :=
  match width (fkind f) with
  | Some w => if (lo =? 0) && (n =? 8 * Z.of_nat w) then Tlv f (be w v) None
              else Tlv f (be w (v * 2 ^ lo)) (Some (be w ((2 ^ n - 1) * 2 ^ lo)))
  | None => Tlv f [] None
  end.
Definition nx_port_str (p : Z) : text := if p =? 0xfff8 then $"in_port" else dec p.
Definition commas (l : list text) : text := sepby (chr ",") l.
Definition lspec_text (s : lspec) : text :=
  let src := match l_src s with FromBits f lo => bits_str f lo (l_bits s) | FromValue v => hex v end in
  match l_dst s with
  | ToMatch f lo => bits_str f lo (l_bits s) ++ $"=" ++ src
  | ToLoad f lo => $"reg_load(" ++ bits_str f lo (l_bits s) ++ $"=" ++ src ++ $")"
  | ToOutput => $"output(" ++ match l_src s with FromBits _ _ => src | FromValue v => dec v end ++ $")"
  end.

Definition act_text (a : action) : text :=
  match a with
  | Output p m => $"output=" ++ port_text 4 p ++ (if m =? 0xffff then [] else $":" ++ hex m)
  | Noarg k => noarg_name k
  | SetMplsTtl n => $"set_mpls_ttl=" ++ dec n
  | SetQueue n => $"set_queue=" ++ dec n
  | GroupAct n => $"group=" ++ dec n
  | Ether k n => ether_name k ++ $"=" ++ hexw 4 n
  | SetField t => $"set_" ++ text_of t
  | Resubmit p => $"resubmit(" ++ nx_port_str p ++ $")"
  | ResubmitTable p t => $"resubmit_table(" ++ nx_port_str p ++ $"," ++ (if t =? 255 then $"all" else dec t) ++ $")"
  | SetTunnel v => $"set_tunnel(" ++ hex v ++ $")"
  | SetTunnel64 v => $"set_tunnel64(" ++ hex v ++ $")"
  | CntIds ids => $"cnt_ids(" ++ commas (map hex ids) ++ $")"
  | RegLoad f lo n v => $"reg_load(" ++ text_of (load_tlv f lo n v) ++ $")"
  | RegLoad2 t => $"reg_load2(" ++ text_of t ++ $")"
  | RegMove s slo d dlo n => $"reg_move(" ++ bits_str d dlo n ++ $"=" ++ bits_str s slo n ++ $")"
  | Multipath h b a l arg d lo n =>
      $"multipath(" ++ commas [hash_name h; dec b; mpalg_name a; dec l; hex arg; range_str d lo n] ++ $")"
  | Bundle h b a s ps =>
      $"bundle(" ++ commas [hash_name h; dec b; bdalg_name a; fname s; $"slaves(" ++ commas (map dec ps) ++ $")"] ++ $")"
  | OutputReg v2 f n _ => (if v2 then $"output_reg2(" else $"output_reg(") ++ bits_str f 0 n ++ $")"
  | PopQueue => $"pop_queue"
  | Exit => $"exit"
  | SetNwTtl n => $"set_nw_ttl=" ++ dec n
  | Note b => $"note(" ++ map byte_val b ++ $")"
  | BundleLoad h b a s d n ps =>
      $"bundle_load(" ++ commas [hash_name h; dec b; bdalg_name a; fname s; range_str d 0 n; $"slaves(" ++ commas (map dec ps) ++ $")"] ++ $")"
  | Learn l => $"learn(" ++ commas (map lspec_text (lspecs l)) ++ $")"
  end.
Definition acts_text (l : list action) : text := commas (map act_text l).

(** *** Side conditions *)
(** the numbers fit into their fields *)
Definition nx_port (p : Z) : Prop := 0 <= p < 0xff00 \/ p = 0xfff8.
(** a byte of a note: printable ASCII but blank , = and brackets *)
Definition note_byte (b : byte) : Prop :=
  33 <= byte_val b <= 126 /\ ~ In (byte_val b) [chr ","; chr "="; chr "("; chr ")"; chr "{"; chr "}"; chr "["; chr "]"; chr "<"; chr ">"].
Definition lbits_ok (f : field) (lo : Z) : Prop := In f registry /\ fclass f <> Stratos /\ in_bytes 2 lo.
Definition lspec_ok (s : lspec) : Prop :=
  1 <= l_bits s < 1024
  /\ match l_src s with FromBits f lo => lbits_ok f lo | FromValue v => in_bytes (imm_size (l_bits s)) v end
  /\ match l_dst s with
     | ToMatch f lo | ToLoad f lo => lbits_ok f lo
     | ToOutput => match l_src s with FromValue _ => l_bits s = 2 | FromBits _ _ => True end
     end.
Definition lentry_ok (e : lentry) : Prop := match e with LSet k v => in_bytes (lkey_size k) v | LAdd s => lspec_ok s end.
Definition act_ok (a : action) : Prop :=
  match a with
  | Output p m => in_bytes 4 p /\ in_bytes 2 m
  | Noarg _ | SetField _ | RegLoad2 _ | PopQueue | Exit => True
  | SetMplsTtl n => in_bytes 1 n
  | SetQueue n | GroupAct n | SetTunnel n => in_bytes 4 n
  | Ether _ n => in_bytes 2 n
  | Resubmit p => nx_port p
  | ResubmitTable p t => nx_port p /\ in_bytes 1 t
  | SetTunnel64 v => in_bytes 8 v
  | CntIds ids => Forall (in_bytes 2) ids
  | RegLoad f lo n v =>
      In f registry /\ fclass f <> Stratos
      /\ (exists w, width (fkind f) = Some w /\ (w <= 8)%nat /\ lo + n <= 8 * Z.of_nat w)
      /\ 0 <= lo /\ 1 <= n /\ 0 <= v < 2 ^ n
  | RegMove s slo d dlo n => In s registry /\ In d registry /\ in_bytes 2 slo /\ in_bytes 2 dlo /\ in_bytes 2 n
  | Multipath _ b _ l arg d lo n =>
      In d registry /\ in_bytes 2 b /\ in_bytes 2 l /\ in_bytes 4 arg /\ 0 <= lo < 1024 /\ 1 <= n <= 64
  | Bundle _ b _ s ps => In s registry /\ (exists n, fkind s = KPort n) /\ in_bytes 2 b /\ Forall (in_bytes 2) ps
  | OutputReg _ f n m => In f registry /\ fclass f <> Stratos /\ 1 <= n < 64 /\ in_bytes 2 m
  | SetNwTtl n => in_bytes 1 n
  | Note b => Forall note_byte b /\ b <> []
  | BundleLoad _ b _ s d n ps =>
      In s registry /\ (exists n, fkind s = KPort n) /\ In d registry /\ in_bytes 2 b /\ 1 <= n <= 64 /\ Forall (in_bytes 2) ps
  | Learn l => Forall lentry_ok l
  end /\ Z.of_nat (length (act_wire a)) <= 65535.
(** the low 16 bits of no reserved port *)
Definition plain_port (p : Z) : Prop := forall q, In q (map fst reserved) -> q mod 65536 <> p.
Definition lspec_printable (s : lspec) : Prop :=
  match l_src s with FromBits f _ => fname f <> $"nxm_ip_frag" | FromValue _ => True end
  /\ match l_dst s with ToMatch f _ | ToLoad f _ => fname f <> $"nxm_ip_frag" | ToOutput => False end.
(** the printed text tells the whole action *)
Definition act_printable (a : action) : Prop :=
  match a with
  | Output p m => p = 0xfffffffd \/ m = 0xffff
  | SetField t | RegLoad2 t => good t /\ printable t
  | SetTunnel64 v => 0xffffffff < v
  | CntIds ids => ids <> []
  | RegLoad f lo n v => good (load_tlv f lo n v) /\ printable (load_tlv f lo n v)
  | RegMove s _ d dlo n =>
      fclass s <> Stratos /\ fclass d <> Stratos /\ fname s <> $"nxm_ip_frag" /\ fname d <> $"nxm_ip_frag"
      /\ bits s <> None /\ bits d <> None
      /\ (bits s = bits d \/ dlo <> 0 \/ (bits s <> Some n /\ bits d <> Some n))
  | Multipath _ _ _ _ _ d _ _ => fname d <> $"nxm_ip_frag"
  | Bundle _ _ _ _ ps => Forall plain_port ps
  | OutputReg _ f _ m => fname f <> $"nxm_ip_frag" /\ bits f <> None /\ m = 0xffff
  | Note b => (length b <= 76)%nat /\ b <> [x2e]                  (* not a single "." *)
  | BundleLoad _ _ _ _ d _ ps => fclass d <> Stratos /\ fname d <> $"nxm_ip_frag" /\ Forall plain_port ps
  | Learn l => l <> [] /\ Forall (fun e => match e with LAdd s => lspec_printable s | LSet _ _ => False end) l
  | _ => True
  end.
Definition good_act (a : action) : Prop := act_ok a /\ act_printable a.

(** *** Written text *)
Definition call (o e : Z) (name args : text) : text := name ++ o :: args ++ [e].
(** nothing, or white space and commas starting with an ASCII blank or comma *)
Definition tail_gap (t : text) : Prop := t = [] \/ gap t.
(** name=ARG, or name(ARG) with any bracket *)
Inductive one_arg (name u : text) : text -> Prop :=
| arg_eq a b : gap_eq a -> Forall blank b -> one_arg name u (name ++ a ++ $"=" ++ b ++ u)
| arg_call o e h t : bracket o e -> Forall filler h -> tail_gap t -> one_arg name u (call o e name (h ++ u ++ t)).
(** "=" with blanks around *)
Inductive eq_sep : text -> Prop :=
| eq_sep_intro a b : gap_eq a -> Forall blank b -> eq_sep (a ++ $"=" ++ b).
(** arguments separated by gaps *)
Inductive args : list text -> text -> Prop :=
| args_last u t : tail_gap t -> args [u] (u ++ t)
| args_cons u v us g r : gap g -> args (v :: us) r -> args (u :: v :: us) (u ++ g ++ r).
(** arguments separated by ASCII blanks and commas *)
Inductive plain_args : list text -> text -> Prop :=
| plain_args_nil t : Forall sep_char t -> plain_args [] t
| plain_args_cons h u us r : Forall sep_char h -> plain_args us r ->
    (us = [] \/ match r with [] => False | c :: _ => sep_char c end) -> plain_args (u :: us) (h ++ u ++ r).
Inductive port_of : text -> Z -> Prop :=
| port_lit u p : literal u p -> port_of u p
| port_name lo up p : In (p, (lo, up)) reserved -> port_of lo p.
Inductive nx_port_of : text -> Z -> Prop :=
| nx_port_lit u p : literal u p -> p < 0xff00 -> nx_port_of u p
| nx_port_lo : nx_port_of $"in_port" 0xfff8
| nx_port_up : nx_port_of $"IN_PORT" 0xfff8.
Inductive table_of : text -> Z -> Prop :=
| table_lit u t : literal u t -> table_of u t
| table_all : table_of $"all" 255
| table_ALL : table_of $"ALL" 255.
(** FIELD, FIELD[LO:HI], either bound may be left out *)
Inductive bits_of (f : field) : Z -> Z -> text -> Prop :=
| bits_whole b : bits f = Some b -> bits_of f 0 b (fname f)
| bits_range o e lo hi x y : bracket o e -> 0 <= lo -> 0 <= hi -> x = dec lo \/ (x = [] /\ lo = 0) -> y = dec hi \/ (y = [] /\ bits f = Some hi) ->
    bits_of f lo (hi - lo) (call o e (fname f) (x ++ $":" ++ y)).
(** the same with both bounds written *)
Inductive full_bits_of (f : field) : Z -> Z -> text -> Prop :=
| full_whole b : bits f = Some b -> full_bits_of f 0 b (fname f)
| full_range o e lo hi : bracket o e -> 0 <= lo -> 0 <= hi ->
    full_bits_of f lo (hi - lo) (call o e (fname f) (dec lo ++ $":" ++ dec hi)).
(** the same with the upper bound written, or the lower one 0 *)
Inductive dst_bits_of (f : field) : Z -> Z -> text -> Prop :=
| dst_whole b : bits f = Some b -> dst_bits_of f 0 b (fname f)
| dst_range o e lo hi x y : bracket o e -> 0 <= lo -> 0 <= hi -> x = dec lo \/ (x = [] /\ lo = 0) ->
    y = dec hi \/ (y = [] /\ lo = 0 /\ bits f = Some hi) ->
    dst_bits_of f lo (hi - lo) (call o e (fname f) (x ++ $":" ++ y)).
Inductive src_of (n : Z) : lsrc -> text -> Prop :=
| src_bits f lo u : bits_of f lo n u -> src_of n (FromBits f lo) u
| src_value u v : literal u v -> src_of n (FromValue v) u.
(** DST=SRC matches, reg_load(DST=SRC) loads, output(ANY=SRC) outputs *)
Inductive writes_lspec : lspec -> text -> Prop :=
| wl_match n s us d lo ud w : src_of n s us -> dst_bits_of d lo n ud -> eq_sep w ->
    writes_lspec (LSpec n s (ToMatch d lo)) (ud ++ w ++ us)
| wl_load n s us d lo ud w o e h t : src_of n s us -> dst_bits_of d lo n ud -> eq_sep w -> bracket o e -> Forall filler h -> tail_gap t ->
    writes_lspec (LSpec n s (ToLoad d lo)) (call o e $"reg_load" (h ++ ud ++ w ++ us ++ t))
| wl_output n s us ud w o e h t : src_of n s us -> Forall safe_char ud -> ud <> [] -> eq_sep w -> bracket o e -> Forall filler h -> tail_gap t ->
    writes_lspec (LSpec n s ToOutput) (call o e $"output" (h ++ ud ++ w ++ us ++ t)).
Inductive writes_lentry : lentry -> text -> Prop :=
| wle_set k v u w : literal u v -> eq_sep w -> writes_lentry (LSet k v) (lkey_name k ++ w ++ u)
| wle_spec s u : writes_lspec s u -> writes_lentry (LAdd s) u.

Inductive writes_act : action -> text -> Prop :=
| wa_output u p s : port_of u p -> one_arg $"output" u s -> writes_act (Output p 0xffff) s
| wa_output_max u p w m s : port_of u p -> literal w m -> one_arg $"output" (u ++ $":" ++ w) s -> writes_act (Output p m) s
| wa_noarg k : writes_act (Noarg k) (noarg_name k)
| wa_ttl u n s : literal u n -> one_arg $"set_mpls_ttl" u s -> writes_act (SetMplsTtl n) s
| wa_queue u n s : literal u n -> one_arg $"set_queue" u s -> writes_act (SetQueue n) s
| wa_group u n s : literal u n -> one_arg $"group" u s -> writes_act (GroupAct n) s
| wa_ether k u n s : literal u n -> one_arg (ether_name k) u s -> writes_act (Ether k n) s
| wa_field t u : item t u -> writes_act (SetField t) ($"set_" ++ u)
| wa_field_call f u v m o e h t : In f registry -> writes (fkind f) u v m -> bracket o e -> Forall filler h -> tail_gap t ->
    writes_act (SetField (Tlv f v m)) (call o e ($"set_" ++ fname f) (h ++ u ++ t))
| wa_resubmit u p s : nx_port_of u p -> one_arg $"resubmit" u s -> writes_act (Resubmit p) s
| wa_resubmit_all u p s : nx_port_of u p -> one_arg $"resubmit_table" u s -> writes_act (ResubmitTable p 255) s
| wa_resubmit_table u p w n o e h s : nx_port_of u p -> table_of w n -> bracket o e -> Forall filler h -> args [u; w] s ->
    writes_act (ResubmitTable p n) (call o e $"resubmit_table" (h ++ s))
| wa_tunnel u v s : literal u v -> v <= 0xffffffff -> one_arg $"set_tunnel" u s -> writes_act (SetTunnel v) s
| wa_tunnel_big u v s : literal u v -> 0xffffffff < v -> one_arg $"set_tunnel" u s -> writes_act (SetTunnel64 v) s
| wa_tunnel64 u v s : literal u v -> 0xffffffff < v -> one_arg $"set_tunnel64" u s -> writes_act (SetTunnel64 v) s
| wa_ids us ids o e s : Forall2 literal us ids -> us <> [] -> bracket o e -> plain_args us s ->
    writes_act (CntIds ids) (call o e $"cnt_ids" s)
| wa_ids_eq us ids a b : Forall2 literal us ids -> us <> [] -> gap_eq a -> Forall blank b ->
    writes_act (CntIds ids) ($"cnt_ids" ++ a ++ $"=" ++ b ++ sepby (chr ":") us)
| wa_load f lo n v u o e h t : item (load_tlv f lo n v) u -> bracket o e -> Forall filler h -> tail_gap t ->
    writes_act (RegLoad f lo n v) (call o e $"reg_load" (h ++ u ++ t))
| wa_load2 t u o e h t' : item t u -> bracket o e -> Forall filler h -> tail_gap t' ->
    writes_act (RegLoad2 t) (call o e $"reg_load2" (h ++ u ++ t'))
| wa_move s slo d dlo n u w a b o e h t : bits_of s slo n u -> bits_of d dlo n w -> gap_eq a -> Forall blank b ->
    bracket o e -> Forall filler h -> tail_gap t ->
    writes_act (RegMove s slo d dlo n) (call o e $"reg_move" (h ++ w ++ a ++ $"=" ++ b ++ u ++ t))
| wa_multipath h ub b a ul l ua arg d lo n ud o e g s : literal ub b -> literal ul l -> literal ua arg -> bits_of d lo n ud ->
    bracket o e -> Forall filler g -> args [hash_name h; ub; mpalg_name a; ul; ua; ud] s ->
    writes_act (Multipath h b a l arg d lo n) (call o e $"multipath" (g ++ s))
| wa_bundle h ub b a f us ps o e o' e' g s s' : literal ub b -> Forall2 literal us ps ->
    bracket o e -> bracket o' e' -> Forall filler g -> plain_args us s' ->
    args [hash_name h; ub; bdalg_name a; fname f; call o' e' $"slaves" s'] s ->
    writes_act (Bundle h b a f ps) (call o e $"bundle" (g ++ s))
| wa_output_reg (v2 : bool) f n u o e h t : full_bits_of f 0 n u -> bracket o e -> Forall filler h -> tail_gap t ->
    writes_act (OutputReg v2 f n 0xffff) (call o e (if v2 then $"output_reg2" else $"output_reg") (h ++ u ++ t))
| wa_output_reg_max (v2 : bool) f n m u w o e h s : full_bits_of f 0 n u -> literal w m -> bracket o e -> Forall filler h ->
    args [u; w] s ->
    writes_act (OutputReg v2 f n m) (call o e (if v2 then $"output_reg2" else $"output_reg") (h ++ s))
| wa_pop_queue : writes_act PopQueue $"pop_queue"
| wa_exit : writes_act Exit $"exit"
| wa_nw_ttl u n s : literal u n -> one_arg $"set_nw_ttl" u s -> writes_act (SetNwTtl n) s
| wa_note b s : one_arg $"note" (map byte_val b) s -> writes_act (Note b) s
| wa_bundle_load h ub b a f d n us ps o e o' e' o'' e'' g s s' : literal ub b -> Forall2 literal us ps ->
    bracket o e -> bracket o' e' -> bracket o'' e'' -> Forall filler g -> plain_args us s' ->
    args [hash_name h; ub; bdalg_name a; fname f; call o'' e'' (fname d) (dec 0 ++ $":" ++ dec n); call o' e' $"slaves" s'] s ->
    writes_act (BundleLoad h b a f d n ps) (call o e $"bundle_load" (g ++ s))
| wa_learn l us o e h s : Forall2 writes_lentry l us -> bracket o e -> Forall filler h -> args us s ->
    writes_act (Learn l) (call o e $"learn" (h ++ s)).

(** a list of actions, each after a gap *)
Inductive writes_acts : list action -> text -> Prop :=
| was_nil : writes_acts [] []
| was_cons a l g u r : gap g -> writes_act a u -> writes_acts l r -> writes_acts (a :: l) (g ++ u ++ r).

(** *** Accepted action texts *)
(** action type, or subtype of the Nicira extensions *)
Inductive akind := AStd (type : Z) | ANx (subtype : Z).
(** header of an action: type, length, and for the extensions vendor and subtype *)
Definition act_framed (k : akind) (b : bytes) : Prop :=
  Z.of_nat (length b) <= 65535 /\
  match k with
  | AStd t => exists p, b = be 2 t ++ be 2 (Z.of_nat (length b)) ++ p
  | ANx t => exists p, b = be 2 0xffff ++ be 2 (Z.of_nat (length b)) ++ be 4 0x2320 ++ be 2 t ++ p
  end.
(** the actions by name *)
Definition named_acts : list (text * akind) :=
  [ ($"output", AStd 0); ($"copy_ttl_out", AStd 11); ($"copy_ttl_in", AStd 12); ($"set_mpls_ttl", AStd 15);
    ($"dec_mpls_ttl", AStd 16); ($"push_vlan", AStd 17); ($"pop_vlan", AStd 18); ($"push_mpls", AStd 19);
    ($"pop_mpls", AStd 20); ($"set_queue", AStd 21); ($"group", AStd 22); ($"set_nw_ttl", AStd 23);
    ($"dec_nw_ttl", AStd 24); ($"push_pbb", AStd 26); ($"pop_pbb", AStd 27);
    ($"resubmit", ANx 1); ($"set_tunnel", ANx 2); ($"pop_queue", ANx 5); ($"reg_move", ANx 6); ($"reg_load", ANx 7);
    ($"note", ANx 8); ($"set_tunnel64", ANx 9); ($"multipath", ANx 10); ($"bundle", ANx 12); ($"bundle_load", ANx 13);
    ($"resubmit_table", ANx 14); ($"output_reg", ANx 15); ($"learn", ANx 16); ($"exit", ANx 17); ($"cnt_ids", ANx 21);
    ($"output_reg2", ANx 32); ($"reg_load2", ANx 33) ].
(** set_tunnel and output_reg may need the wide variant; set_FIELD is action 25 *)
Definition act_named (name : text) (k : akind) : Prop :=
  In (name, k) named_acts
  \/ (name = $"set_tunnel" /\ k = ANx 9) \/ (name = $"output_reg" /\ k = ANx 32)
  \/ ((exists x, name = $"set_" ++ x) /\ k = AStd 25).
(** the actions whose arguments are not checked closely enough to be sure of the outcome *)
Definition special_names : list text :=
  [$"set_tunnel64"; $"reg_load"; $"note"; $"bundle"; $"bundle_load"; $"output_reg"; $"output_reg2"; $"learn"].
(** fields named by an action *)
Definition act_fields (a : action) : list field :=
  match a with
  | RegMove s _ d _ _ => [s; d]
  | Multipath _ _ _ _ _ d _ _ => [d]
  | _ => []
  end.
(** match fields an action carries *)
Definition act_tlvs (a : action) : list tlv := match a with SetField t | RegLoad2 t => [t] | _ => [] end.
(** every other action text stands for an action whose values are in range; the field of
    set_FIELD may be missing (an empty SSID), and nxm_ct_label may be moved as if it had 4 bytes *)
Definition known_tlv (t : tlv) : Prop := (tfield t = ct_label_short \/ In (tfield t) registry) /\ sized t.
Definition act_known (a : action) : Prop := (act_ok a \/ In ct_label_short (act_fields a)) /\ Forall known_tlv (act_tlvs a).
Definition denotes (name : text) (b : bytes) : Prop :=
  In name special_names \/ b = padded_act 25 [] \/ exists a, b = act_wire a /\ act_known a.
(** bytes of an action by its name *)
Definition act_item (b : bytes) : Prop := exists name k, act_named name k /\ act_framed k b /\ denotes name b.
Definition irregular (b : bytes) : Prop :=
  b = padded_act 25 [] \/ exists name k, In name special_names /\ act_named name k /\ act_framed k b.
Definition contains (m b : bytes) : Prop := exists x y, m = x ++ b ++ y.
(** [name] is the first word of [s] *)
Definition first_word (s name : text) : Prop :=
  exists h r, s = h ++ name ++ r /\ lead h /\ Forall (fun c => ~ opener c) name
  /\ match r with [] => True | c :: _ => sep_char c \/ eq_char c \/ opener c end.

(** NAME is followed by an empty or missing argument list in brackets *)
Definition no_args (s name : text) : Prop :=
  exists h o e r, bracket o e /\ s = h ++ name ++ o :: r /\ (r = [] \/ exists r', r = e :: r').
(** the actions that take one argument *)
Definition arg_names : list text :=
  [$"output"; $"set_mpls_ttl"; $"push_vlan"; $"push_mpls"; $"pop_mpls"; $"set_queue"; $"group"; $"set_nw_ttl"; $"push_pbb";
   $"resubmit"; $"resubmit_table"; $"set_tunnel"; $"set_tunnel64"; $"note"].
(** ** Instructions *)
Inductive instr :=
| Goto (table : Z)
| WriteMetadata (v m : Z)
| WriteActions (l : list action)
| ApplyActions (l : list action)
| ClearActions
| Meter (n : Z).
Definition instr_wire (i : instr) : bytes :=
  match i with
  | Goto t => std_act 1 (be 1 t ++ pad 3)
  | WriteMetadata v m => std_act 2 (pad 4 ++ be 8 v ++ be 8 m)
  | WriteActions l => std_act 3 (pad 4 ++ acts_wire l)
  | ApplyActions l => std_act 4 (pad 4 ++ acts_wire l)
  | ClearActions => std_act 5 (pad 4)
  | Meter n => std_act 6 (be 4 n)
  end.
Definition instrs_wire (l : list instr) : bytes := flat_map instr_wire l.
Definition with_acts (name : text) (l : list action) : text :=
  match l with [] => name | _ => name ++ $"," ++ acts_text l end.
Definition instr_text (i : instr) : text :=
  match i with
  | Goto t => $"@goto=" ++ dec t
  | WriteMetadata v m => $"@metadata=" ++ hex v ++ (if m =? 0 then [] else $"/" ++ hex m)
  | WriteActions l => with_acts $"@write" l
  | ApplyActions l => with_acts $"@apply" l
  | ClearActions => $"@clear"
  | Meter n => $"@meter=" ++ dec n
  end.
Definition instr_ok (i : instr) : Prop :=
  match i with
  | Goto t => in_bytes 1 t
  | WriteMetadata v m => in_bytes 8 v /\ in_bytes 8 m
  | WriteActions l | ApplyActions l => Forall act_ok l
  | ClearActions => True
  | Meter n => in_bytes 4 n
  end /\ Z.of_nat (length (instr_wire i)) <= 65535.
Definition instr_printable (i : instr) : Prop :=
  match i with
  | WriteActions l | ApplyActions l => Forall act_printable l /\ (length (acts_wire l) mod 8 = 0)%nat
  | _ => True
  end.

(** the names, with their long forms *)
Inductive iname := NGoto | NMetadata | NWrite | NApply | NClear.
Definition short_name (n : iname) : text :=
  match n with NGoto => $"@goto" | NMetadata => $"@metadata" | NWrite => $"@write" | NApply => $"@apply" | NClear => $"@clear" end.
Definition long_name (n : iname) : text :=
  match n with
  | NGoto => $"@goto_table" | NMetadata => $"@write_metadata" | NWrite => $"@write_actions"
  | NApply => $"@apply_actions" | NClear => $"@clear_actions"
  end.
Definition spells (n : iname) (u : text) : Prop := u = short_name n \/ u = long_name n.
(** NAME=VALUE with blanks around "=" *)
Inductive assigned (name u : text) : text -> Prop :=
| assigned_intro a b : gap_eq a -> Forall blank b -> assigned name u (name ++ a ++ $"=" ++ b ++ u).
Inductive writes_instr : instr -> text -> Prop :=
| wi_goto nm u n s : spells NGoto nm -> literal u n -> assigned nm u s -> writes_instr (Goto n) s
| wi_metadata nm u v s : spells NMetadata nm -> literal u v -> assigned nm u s -> writes_instr (WriteMetadata v 0) s
| wi_metadata_mask nm u v u' m s : spells NMetadata nm -> literal u v -> literal u' m -> assigned nm (u ++ $"/" ++ u') s ->
    writes_instr (WriteMetadata v m) s
| wi_write nm l r : spells NWrite nm -> writes_acts l r -> writes_instr (WriteActions l) (nm ++ r)
| wi_apply nm l r : spells NApply nm -> writes_acts l r -> writes_instr (ApplyActions l) (nm ++ r)
| wi_clear nm : spells NClear nm -> writes_instr ClearActions nm
| wi_meter u n s : literal u n -> assigned $"@meter" u s -> writes_instr (Meter n) s.

(** ** Flow rules *)
Inductive fflag := SendFlowRem | CheckOverlap | ResetCounts | NoPktCounts | NoBytCounts.
Definition fflags : list fflag := [SendFlowRem; CheckOverlap; ResetCounts; NoPktCounts; NoBytCounts].
Definition fflag_bit (f : fflag) : Z :=
  match f with SendFlowRem => 1 | CheckOverlap => 2 | ResetCounts => 4 | NoPktCounts => 8 | NoBytCounts => 16 end.
Definition fflag_name (f : fflag) : text :=
  match f with
  | SendFlowRem => $"send_flow_rem" | CheckOverlap => $"check_overlap" | ResetCounts => $"reset_counts"
  | NoPktCounts => $"no_pkt_counts" | NoBytCounts => $"no_byt_counts"
  end.
(** reserved group numbers *)
Definition reserved_groups : list (Z * text) := [(0xffffff00, $"max"); (0xfffffffc, $"all"); (0xffffffff, $"any")].
Definition group_str (g : Z) : text :=
  match find (fun r => fst r =? g) reserved_groups with Some (_, n) => n | None => dec g end.

(** the fixed part of a rule *)
Record fixedp := Fixed {
  x_cookie : Z; x_mask : Z; x_table : Z; x_priority : Z; x_idle : Z; x_hard : Z;
  x_buffer : Z; x_port : Z; x_group : Z; x_flags : Z }.
(** what is not given: deleting commands (3, 4) address every table, port and group *)
Definition deleting (cmd : Z) : bool := (cmd =? 3) || (cmd =? 4).
Definition defaults (cmd : Z) : fixedp :=
  if deleting cmd then Fixed 0 0 0xff 0x8000 0 0 0 0xffffffff 0xffffffff 0
  else Fixed 0 0 0 0x8000 0 0 0xffffffff 0 0 0.

Definition match_wire (ts : list tlv) : bytes :=
  let w := flat_map wire ts in
  be 2 1 ++ be 2 (Z.of_nat (4 + length w)) ++ w ++ pad_to8 (4 + length w).
Definition flow_wire (cmd xid : Z) (x : fixedp) (ts : list tlv) (is : list instr) : bytes :=
  let rest := match_wire ts ++ instrs_wire is in
  be 1 4 ++ be 1 14 ++ be 2 (Z.of_nat (48 + length rest)) ++ be 4 xid
    ++ be 8 (x_cookie x) ++ be 8 (x_mask x) ++ be 1 (x_table x) ++ be 1 cmd
    ++ be 2 (x_idle x) ++ be 2 (x_hard x) ++ be 2 (x_priority x)
    ++ be 4 (x_buffer x) ++ be 4 (x_port x) ++ be 4 (x_group x) ++ be 2 (x_flags x) ++ pad 2 ++ rest.

Definition fixed_ok (x : fixedp) : Prop :=
  in_bytes 8 (x_cookie x) /\ in_bytes 8 (x_mask x) /\ in_bytes 1 (x_table x) /\ in_bytes 2 (x_priority x)
  /\ in_bytes 2 (x_idle x) /\ in_bytes 2 (x_hard x) /\ in_bytes 4 (x_buffer x) /\ in_bytes 4 (x_port x)
  /\ in_bytes 4 (x_group x) /\ in_bytes 2 (x_flags x).

(** *** Printed text: what differs from the default, in this order *)
Definition unless (b : bool) (t : text) : list text := if b then [] else [t].
Definition fixed_texts (d x : fixedp) : list text :=
  (if x_mask x =? x_mask d then unless (x_cookie x =? x_cookie d) ($"cookie=" ++ hex (x_cookie x))
   else [$"cookie=" ++ hex (x_cookie x) ++ $"/" ++ hex (x_mask x)])
  ++ unless (x_table x =? x_table d) ($"table=" ++ dec (x_table x))
  ++ unless (x_priority x =? x_priority d) ($"priority=" ++ dec (x_priority x))
  ++ unless (x_buffer x =? x_buffer d) ($"buffer=" ++ hex (x_buffer x))
  ++ unless (x_port x =? x_port d) ($"out_port=" ++ port_text 4 (x_port x))
  ++ unless (x_group x =? x_group d) ($"out_group=" ++ group_str (x_group x))
  ++ unless (x_idle x =? x_idle d) ($"idle_timeout=" ++ dec (x_idle x))
  ++ unless (x_hard x =? x_hard d) ($"hard_timeout=" ++ dec (x_hard x))
  ++ flat_map (fun f => unless (Z.land (x_flags x) (fflag_bit f) =? 0) (fflag_name f)) fflags.
Definition rule_texts (ts : list tlv) (is : list instr) : list text := map text_of ts ++ map instr_text is.
Definition flow_text (cmd : Z) (x : fixedp) (ts : list tlv) (is : list instr) : text :=
  commas (fixed_texts (defaults cmd) x ++ rule_texts ts is).

(** a rule that can be encoded; one whose text tells all of it *)
Definition flow_ok (cmd xid : Z) (x : fixedp) (ts : list tlv) (is : list instr) : Prop :=
  in_bytes 1 cmd /\ in_bytes 4 xid /\ fixed_ok x /\ Forall instr_ok is /\ Z.of_nat (length (flow_wire cmd xid x ts is)) <= 65535.
Definition good_flow (cmd xid : Z) (x : fixedp) (ts : list tlv) (is : list instr) : Prop :=
  flow_ok cmd xid x ts is /\ Forall good ts /\ Forall printable ts /\ Forall instr_printable is.
(** flags that have names *)
Definition named_flags (f : Z) : Prop := 0 <= f < 32.

(** *** Written text *)
Inductive setting :=
| STable (n : Z) | SPriority (n : Z) | SIdle (n : Z) | SHard (n : Z) | SBuffer (n : Z)
| SCookie (c : Z) (m : option Z) | SPort (p : Z) | SGroup (g : Z) | SFlag (f : fflag).
Inductive entry := ESet (s : setting) | EMatch (t : tlv).
Inductive group_of : text -> Z -> Prop :=
| group_lit u g : literal u g -> group_of u g
| group_nm g nm : In (g, nm) reserved_groups -> group_of nm g.
Inductive writes_set : setting -> text -> Prop :=
| ws_table u n s : literal u n -> assigned $"table" u s -> writes_set (STable n) s
| ws_priority u n s : literal u n -> assigned $"priority" u s -> writes_set (SPriority n) s
| ws_idle u n s : literal u n -> assigned $"idle_timeout" u s -> writes_set (SIdle n) s
| ws_hard u n s : literal u n -> assigned $"hard_timeout" u s -> writes_set (SHard n) s
| ws_buffer u n s : literal u n -> assigned $"buffer" u s -> writes_set (SBuffer n) s
| ws_cookie u c s : literal u c -> assigned $"cookie" u s -> writes_set (SCookie c None) s
| ws_cookie_mask u c u' m s : literal u c -> literal u' m -> assigned $"cookie" (u ++ $"/" ++ u') s -> writes_set (SCookie c (Some m)) s
| ws_port u p s : port_of u p -> assigned $"out_port" u s -> writes_set (SPort p) s
| ws_group u g s : group_of u g -> assigned $"out_group" u s -> writes_set (SGroup g) s
| ws_flag f : writes_set (SFlag f) (fflag_name f).
Inductive writes_entry : entry -> text -> Prop :=
| we_set s u : writes_set s u -> writes_entry (ESet s) u
| we_match t u : item t u -> writes_entry (EMatch t) u.
(** entries, then instructions; gaps between them *)
Inductive writes_tail : list entry -> list instr -> text -> Prop :=
| wt_nil : writes_tail [] [] []
| wt_instr i is g u r : gap g -> writes_instr i u -> writes_tail [] is r -> writes_tail [] (i :: is) (g ++ u ++ r)
| wt_entry e es is g u r : gap g -> writes_entry e u -> writes_tail es is r -> writes_tail (e :: es) is (g ++ u ++ r).
(** the first one may stand at the start; nothing follows the last one *)
Inductive writes_flow : list entry -> list instr -> text -> Prop :=
| wf_nil : writes_flow [] [] []
| wf_instr i is h u r : Forall filler h -> writes_instr i u -> writes_tail [] is r -> writes_flow [] (i :: is) (h ++ u ++ r)
| wf_entry e es is h u r : Forall filler h -> writes_entry e u -> writes_tail es is r -> writes_flow (e :: es) is (h ++ u ++ r).

(** meaning of the settings, in order: a later one replaces an earlier one, flags add up,
    a cookie without mask leaves the mask alone *)
Definition apply_set (x : fixedp) (s : setting) : fixedp :=
  let '(Fixed c m t p i h b op og fl) := x in
  match s with
  | STable n => Fixed c m n p i h b op og fl
  | SPriority n => Fixed c m t n i h b op og fl
  | SIdle n => Fixed c m t p n h b op og fl
  | SHard n => Fixed c m t p i n b op og fl
  | SBuffer n => Fixed c m t p i h n op og fl
  | SCookie c' None => Fixed c' m t p i h b op og fl
  | SCookie c' (Some m') => Fixed c' m' t p i h b op og fl
  | SPort n => Fixed c m t p i h b n og fl
  | SGroup n => Fixed c m t p i h b op n fl
  | SFlag f => Fixed c m t p i h b op og (Z.lor fl (fflag_bit f))
  end.
Definition sets_of (es : list entry) : list setting := flat_map (fun e => match e with ESet s => [s] | EMatch _ => [] end) es.
Definition matches_of (es : list entry) : list tlv := flat_map (fun e => match e with EMatch t => [t] | ESet _ => [] end) es.
Definition fixed_of (d : fixedp) (es : list entry) : fixedp := fold_left apply_set (sets_of es) d.

(** the values given to one fixed field, in order *)
Definition values (g : setting -> option Z) (l : list setting) : list Z :=
  flat_map (fun s => match g s with Some n => [n] | None => [] end) l.
Definition getters : list (setting -> option Z) :=
  [ (fun s => match s with STable n => Some n | _ => None end); (fun s => match s with SPriority n => Some n | _ => None end);
    (fun s => match s with SIdle n => Some n | _ => None end); (fun s => match s with SHard n => Some n | _ => None end);
    (fun s => match s with SBuffer n => Some n | _ => None end); (fun s => match s with SPort n => Some n | _ => None end);
    (fun s => match s with SGroup n => Some n | _ => None end); (fun s => match s with SCookie c _ => Some c | _ => None end);
    (fun s => match s with SCookie _ m => m | _ => None end) ].

(** ** Accepted flow texts *)
(** what the parts of an accepted text stand for *)
Inductive part :=
| PSet (name : text)                 (* a fixed field or a flag *)
| PMatch (name : text) (b : bytes)   (* a match field and what it adds to the match *)
| PInstr (i : instr)                 (* an instruction without actions *)
| PActs (t : Z)                      (* start of the instruction of type t with actions *)
| PAct (name : text) (b : bytes)     (* an action and its bytes *)
| PStray.                            (* "=" where an action is expected *)
Definition fixed_names : list text :=
  [$"table"; $"priority"; $"idle_timeout"; $"hard_timeout"; $"buffer"; $"cookie"; $"out_port"; $"out_group"] ++ map fflag_name fflags.
Inductive instr_name : text -> instr -> Prop :=
| in_goto nm n : spells NGoto nm -> instr_name nm (Goto n)
| in_metadata nm v m : spells NMetadata nm -> instr_name nm (WriteMetadata v m)
| in_clear nm : spells NClear nm -> instr_name nm ClearActions
| in_meter n : instr_name $"@meter" (Meter n).
Inductive acts_name : text -> Z -> Prop :=
| an_write nm : spells NWrite nm -> acts_name nm 3
| an_apply nm : spells NApply nm -> acts_name nm 4.
(** separators with a "=" that belongs to nothing *)
Definition stray (h : text) : Prop := exists a b, Forall filler a /\ Forall blank b /\ h = a ++ chr "=" :: b.
(** where an entry, an action or only an instruction is expected *)
Inductive place := AtEntry | AtAction | AtInstr.
(** [accepted w s ps]: [s] is made of the parts [ps], starting at [w]; every part
    starts with separators and one of the known names *)
Inductive accepted : place -> text -> list part -> Prop :=
| acc_end w : accepted w [] []
| acc_set h name x r ps : Forall filler h -> In name fixed_names -> ends (x ++ r) -> accepted AtEntry r ps ->
    accepted AtEntry (h ++ name ++ x ++ r) (PSet name :: ps)
| acc_match h name x r ps b : Forall filler h -> ends (x ++ r) ->
    (exists f, (f = ct_label_short \/ In f registry) /\ fname f = name
       /\ (b = [] \/ exists v m, sized (Tlv f v m) /\ b = wire (Tlv f v m))) ->
    accepted AtEntry r ps -> accepted AtEntry (h ++ name ++ x ++ r) (PMatch name b :: ps)
| acc_instr w h nm x r ps i : Forall filler h -> instr_name nm i -> instr_ok i -> ends (x ++ r) ->
    accepted AtInstr r ps -> accepted w (h ++ nm ++ x ++ r) (PInstr i :: ps)
| acc_acts w h nm t r ps : Forall filler h -> acts_name nm t -> ends r ->
    accepted AtAction r ps -> accepted w (h ++ nm ++ r) (PActs t :: ps)
| acc_act h name x r ps k b : Forall filler h \/ stray h -> act_named name k -> act_framed k b -> denotes name b ->
    match x ++ r with [] => True | c :: _ => sep_char c \/ eq_char c \/ opener c end ->
    accepted AtAction r ps -> accepted AtAction (h ++ name ++ x ++ r) (PAct name b :: ps)
| acc_stray h r ps : stray h -> accepted AtAction r ps -> accepted AtAction (h ++ r) (PStray :: ps).
(** where a text that ends with the instructions [is] is left *)
Definition place_after (i : instr) : place := match i with WriteActions _ | ApplyActions _ => AtAction | _ => AtInstr end.
Definition after (is : list instr) : place := fold_left (fun _ i => place_after i) is AtEntry.
(** [g] may stand between [p] and the next part *)
Definition next_to (p g : text) : Prop := gap g \/ p = [] /\ Forall filler g.
Definition entry_names : list text := fixed_names ++ $"nxm_ct_label" :: map fname registry.
Definition instr_names : list text := $"@meter" :: flat_map (fun n => [short_name n; long_name n]) [NGoto; NMetadata; NWrite; NApply; NClear].
(** [n] is not the name of an action, nor "set_" with the name of a field *)
Definition unknown_act (n : text) : Prop :=
  (forall k, ~ act_named n k)
  \/ exists x, n = $"set_" ++ x /\ token x /\ solid x /\ ~ In n (map fst named_acts) /\ ~ In x ($"nxm_ct_label" :: map fname registry).
Definition match_parts (ps : list part) : bytes := flat_map (fun p => match p with PMatch _ b => b | _ => [] end) ps.
(** the instructions of the parts; [pend]: type and actions of the unfinished one *)
Definition finish (pend : option (Z * bytes)) : bytes :=
  match pend with Some (t, b) => std_act t (pad 4 ++ b) | None => [] end.
Fixpoint instr_parts (pend : option (Z * bytes)) (ps : list part) : bytes :=
  match ps with
  | [] => finish pend
  | PInstr i :: ps => finish pend ++ instr_wire i ++ instr_parts None ps
  | PActs t :: ps => finish pend ++ instr_parts (Some (t, [])) ps
  | PAct _ b :: ps => instr_parts (match pend with Some (t, a) => Some (t, a ++ b) | None => None end) ps
  | _ :: ps => instr_parts pend ps
  end.
Definition names_set (ps : list part) : list text := flat_map (fun p => match p with PSet n => [n] | _ => [] end) ps.
(** the flags among the names *)
Definition flag_of (name : text) : Z :=
  fold_right (fun f v => if list_eq_dec Z.eq_dec name (fflag_name f) then fflag_bit f else v) 0 fflags.
Definition flags_named (names : list text) : Z := fold_right (fun n v => Z.lor (flag_of n) v) 0 names.
(** [x] has the values of [d] in the fields that are not set, and the flags that are *)
Definition defaulted (names : list text) (d x : fixedp) : Prop :=
  (~ In $"table" names -> x_table x = x_table d) /\ (~ In $"priority" names -> x_priority x = x_priority d)
  /\ (~ In $"idle_timeout" names -> x_idle x = x_idle d) /\ (~ In $"hard_timeout" names -> x_hard x = x_hard d)
  /\ (~ In $"buffer" names -> x_buffer x = x_buffer d) /\ (~ In $"cookie" names -> x_cookie x = x_cookie d /\ x_mask x = x_mask d)
  /\ (~ In $"out_port" names -> x_port x = x_port d) /\ (~ In $"out_group" names -> x_group x = x_group d)
  /\ x_flags x = flags_named names.
(** the part of a flow message before the match *)
Definition mod_head (cmd xid len : Z) (x : fixedp) : bytes :=
  be 1 4 ++ be 1 14 ++ be 2 len ++ be 4 xid ++ be 8 (x_cookie x) ++ be 8 (x_mask x) ++ be 1 (x_table x) ++ be 1 cmd
    ++ be 2 (x_idle x) ++ be 2 (x_hard x) ++ be 2 (x_priority x) ++ be 4 (x_buffer x) ++ be 4 (x_port x) ++ be 4 (x_group x) ++ be 2 (x_flags x) ++ pad 2.
(** an instruction of an accepted text *)
Definition instr_framed (b : bytes) : Prop :=
  Z.of_nat (length b) <= 65535 /\ exists t p, 1 <= t <= 6 /\ b = be 2 t ++ be 2 (Z.of_nat (length b)) ++ p
  /\ (t = 3 \/ t = 4 -> exists l, Forall act_item l /\ p = pad 4 ++ concat l).

(** the actions of the parts stand for something *)
Definition regular (ps : list part) : Prop :=
  forall name b, In (PAct name b) ps -> ~ In name special_names /\ b <> padded_act 25 [].
Definition instr_acts (i : instr) : list action := match i with WriteActions l | ApplyActions l => l | _ => [] end.
Definition instr_known (i : instr) : Prop :=
  match i with WriteActions l | ApplyActions l => Forall act_known l | _ => instr_ok i end.
(** no action moves nxm_ct_label *)
Definition no_short (is : list instr) : Prop := forall i a, In i is -> In a (instr_acts i) -> ~ In ct_label_short (act_fields a).

(** ** Groups *)
Inductive gtype := GAll | GSelect | GIndirect | GFF.
Definition gtype_id (t : gtype) : Z := match t with GAll => 0 | GSelect => 1 | GIndirect => 2 | GFF => 3 end.
Definition gtype_name (t : gtype) : text :=
  match t with GAll => $"all" | GSelect => $"select" | GIndirect => $"indirect" | GFF => $"ff" end.
Record bucket := Bucket { bk_weight : Z; bk_port : Z; bk_group : Z; bk_acts : list action }.
Definition bucket_wire (b : bucket) : bytes :=
  be 2 (Z.of_nat (16 + length (acts_wire (bk_acts b)))) ++ be 2 (bk_weight b) ++ be 4 (bk_port b) ++ be 4 (bk_group b)
    ++ pad 4 ++ acts_wire (bk_acts b).
Definition buckets_wire (l : list bucket) : bytes := flat_map bucket_wire l.
(** weight counts for select groups only, where the default is 1 *)
Definition default_weight (t : gtype) : Z := match t with GSelect => 1 | _ => 0 end.
Definition bucket_texts (t : gtype) (b : bucket) : list text :=
  match t with GSelect => unless (bk_weight b =? 1) ($"weight=" ++ dec (bk_weight b)) | _ => [] end
  ++ unless (bk_port b =? 0xffffffff) ($"watch_port=" ++ dec (bk_port b))
  ++ unless (bk_group b =? 0xffffffff) ($"watch_group=" ++ dec (bk_group b))
  ++ map act_text (bk_acts b).
Definition bucket_ok (b : bucket) : Prop :=
  in_bytes 2 (bk_weight b) /\ in_bytes 4 (bk_port b) /\ in_bytes 4 (bk_group b) /\ Forall act_ok (bk_acts b)
  /\ Z.of_nat (length (bucket_wire b)) <= 65535.
Definition bucket_printable (t : gtype) (b : bucket) : Prop :=
  (t <> GSelect -> bk_weight b = 0) /\ Forall act_printable (bk_acts b).
Definition group_wire (cmd xid : Z) (t : gtype) (id : Z) (bs : list bucket) : bytes :=
  be 1 4 ++ be 1 15 ++ be 2 (Z.of_nat (16 + length (buckets_wire bs))) ++ be 4 xid ++ be 2 cmd
    ++ be 1 (gtype_id t) ++ pad 1 ++ be 4 id ++ buckets_wire bs.
Definition group_ok (cmd xid : Z) (t : gtype) (id : Z) (bs : list bucket) : Prop :=
  in_bytes 2 cmd /\ in_bytes 4 xid /\ in_bytes 4 id /\ Forall bucket_ok bs /\ Z.of_nat (length (group_wire cmd xid t id bs)) <= 65535.
(** OFPG_ALL by name, OFPG_ANY not at all *)
Definition group_id_texts (id : Z) : list text :=
  if id =? 0xfffffffc then [$"group=all"] else if id =? 0xffffffff then [] else [$"group=" ++ dec id].
Definition buckets_texts (t : gtype) (bs : list bucket) : list text :=
  flat_map (fun b => $"@bucket" :: bucket_texts t b) bs.
Definition group_text (t : gtype) (id : Z) (bs : list bucket) : text :=
  commas (group_id_texts id ++ [gtype_name t] ++ buckets_texts t bs).
(** every bucket is printed and read back: it says something *)
Definition good_bucket (t : gtype) (b : bucket) : Prop := bucket_ok b /\ bucket_printable t b /\ bucket_texts t b <> [].
Definition good_group (cmd xid : Z) (t : gtype) (id : Z) (bs : list bucket) : Prop :=
  group_ok cmd xid t id bs /\ Forall (good_bucket t) bs.
(** what group2str shows: not a last bucket without actions *)
Fixpoint shown (bs : list bucket) : list bucket :=
  match bs with
  | [] => []
  | [b] => match bk_acts b with [] => [] | _ => [b] end
  | b :: bs => b :: shown bs
  end.
Definition acts_last (bs : list bucket) : Prop := bs = [] \/ exists bs' b, bs = bs' ++ [b] /\ bk_acts b <> [].
(** the text of [bs], an empty text standing for a bucket that says nothing *)
Definition shown_texts (t : gtype) (bs : list bucket) : list text :=
  flat_map (fun b => [$"@bucket"; commas (bucket_texts t b)]) bs.
Definition bucket_framed (b : bytes) : Prop :=
  Z.of_nat (length b) <= 65535 /\ exists w p g l, b = be 2 (Z.of_nat (length b)) ++ be 2 w ++ be 4 p ++ be 4 g ++ pad 4 ++ concat l
  /\ in_bytes 2 w /\ in_bytes 4 p /\ in_bytes 4 g /\ Forall act_item l.
Definition bucket_known (b : bucket) : Prop :=
  in_bytes 2 (bk_weight b) /\ in_bytes 4 (bk_port b) /\ in_bytes 4 (bk_group b) /\ Forall act_known (bk_acts b).
Definition no_short_in (bs : list bucket) : Prop := forall b a, In b bs -> In a (bk_acts b) -> ~ In ct_label_short (act_fields a).

(** *** Written text *)
Inductive bset := BWeight (n : Z) | BPort (p : Z) | BGroup (g : Z).
Inductive bitem := BSet (s : bset) | BAct (a : action).
Definition bitem_ok (i : bitem) : Prop := match i with BAct a => act_ok a | BSet _ => True end.
Inductive writes_bitem : bitem -> text -> Prop :=
| wb_weight u n s : literal u n -> assigned $"weight" u s -> writes_bitem (BSet (BWeight n)) s
| wb_port u n s : literal u n -> assigned $"watch_port" u s -> writes_bitem (BSet (BPort n)) s
| wb_group u n s : literal u n -> assigned $"watch_group" u s -> writes_bitem (BSet (BGroup n)) s
| wb_act a u : writes_act a u -> writes_bitem (BAct a) u.
Definition apply_bset (b : bucket) (s : bset) : bucket :=
  let '(Bucket w p g l) := b in
  match s with BWeight n => Bucket n p g l | BPort n => Bucket w n g l | BGroup n => Bucket w p n l end.
Definition apply_bitem (b : bucket) (i : bitem) : bucket :=
  match i with
  | BSet s => apply_bset b s
  | BAct a => Bucket (bk_weight b) (bk_port b) (bk_group b) (bk_acts b ++ [a])
  end.
Definition empty_bucket (t : gtype) : bucket := Bucket (default_weight t) 0xffffffff 0xffffffff [].
Definition bucket_of (t : gtype) (l : list bitem) : bucket := fold_left apply_bitem l (empty_bucket t).
(** at least one item in every bucket *)
Inductive writes_bitems : list bitem -> text -> Prop :=
| wbi_nil : writes_bitems [] []
| wbi_cons i l g u r : gap g -> writes_bitem i u -> writes_bitems l r -> writes_bitems (i :: l) (g ++ u ++ r).
Inductive writes_buckets : list (list bitem) -> text -> Prop :=
| wbs_nil : writes_buckets [] []
| wbs_cons l ls g u r : gap g -> l <> [] -> writes_bitems l u -> writes_buckets ls r ->
    writes_buckets (l :: ls) (g ++ $"@bucket" ++ u ++ r).
(** group=ID and type, in any order and number; the last one counts *)
Inductive ghead := HGroup (id : Z) | HType (t : gtype).
Inductive writes_ghead : ghead -> text -> Prop :=
| wg_id u n s : literal u n -> assigned $"group" u s -> writes_ghead (HGroup n) s
| wg_all s : assigned $"group" $"all" s -> writes_ghead (HGroup 0xfffffffc) s
| wg_type t : writes_ghead (HType t) (gtype_name t).
Definition apply_ghead (x : Z * gtype) (h : ghead) : Z * gtype :=
  match h with HGroup n => (n, snd x) | HType t => (fst x, t) end.
Inductive writes_gtail : list ghead -> list (list bitem) -> text -> Prop :=
| wgt_buckets ls r : writes_buckets ls r -> writes_gtail [] ls r
| wgt_head h hs ls g u r : gap g -> writes_ghead h u -> writes_gtail hs ls r -> writes_gtail (h :: hs) ls (g ++ u ++ r).
Inductive writes_group : list ghead -> list (list bitem) -> text -> Prop :=
| wgr_nil : writes_group [] [] []
| wgr_head h hs ls g u r : Forall filler g -> writes_ghead h u -> writes_gtail hs ls r -> writes_group (h :: hs) ls (g ++ u ++ r)
| wgr_bucket l ls g u r : Forall filler g -> l <> [] -> writes_bitems l u -> writes_buckets ls r ->
    writes_group [] (l :: ls) (g ++ $"@bucket" ++ u ++ r).
