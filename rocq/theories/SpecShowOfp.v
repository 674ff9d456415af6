(** SpecShowOfp: what is printed for arbitrary bytes of actions, instructions, flows, groups
    and statistics, written down independently of the model.  Nothing is assumed about the
    bytes: types may be unknown, lengths wrong, data cut off or left over. *)
From Verif Require Import Base Spec SpecOxm SpecText SpecShow SpecOfp.
From Coq Require Import Strings.Ascii.

(** the [n]-byte number at offset [o]; [p] reaches to offset [n] *)
Definition word (n o : nat) (p : bytes) : Z := num_be (firstn n (skipn o p)).
Definition reaches (n : nat) (p : bytes) : Prop := (n <= length p)%nat.
(** bytes from offset [a] up to offset [b] *)
Definition part_of (a b : nat) (p : bytes) : bytes := firstn (b - a) (skipn a p).

(** ** Match fields inside actions *)
(** the first entry of a list, if there is one *)
Inductive shown_one (Q : bytes -> text -> Prop) : bytes -> text -> Prop :=
| so_end b : (length b < 4)%nat -> shown_one Q b []
| so_field f hm l b r t : token_of Q f (skipn (length (exp_id (fclass f))) (firstn (Z.to_nat (byte_val l)) b)) hm t ->
    b = exp_id (fclass f) ++ r ->
    shown_one Q (be 2 (class_id (fclass f)) ++ byte_of (2 * fnum f + SpecShow.flag_of hm) :: l :: b) t
| so_class a c x l b : ~ In (num_be [a; c]) [0x8000; 0; 1; 0xffff] -> shown_one Q (a :: c :: x :: l :: b) $"?"
| so_exp x l b : (4 <= length b)%nat -> firstn 4 b <> exp_id Stratos -> shown_one Q (be 2 0xffff ++ x :: l :: b) $"?".
(** the name of the field whose header stands at the start *)
Inductive id_named : bytes -> text -> Prop :=
| nm_end b : (length b < 4)%nat -> id_named b []
| nm_field f hm l b : In f bare \/ shown_field f ->
    id_named (be 2 (class_id (fclass f)) ++ byte_of (2 * fnum f + SpecShow.flag_of hm) :: l :: exp_id (fclass f) ++ b) (fname f)
| nm_class a c x l b : ~ In (num_be [a; c]) [0x8000; 0; 1; 0xffff] -> id_named (a :: c :: x :: l :: b) $"?"
| nm_exp x l b : (4 <= length b)%nat -> firstn 4 b <> exp_id Stratos -> id_named (be 2 0xffff ++ x :: l :: b) $"?".
(** bits of a field; [whole] fields are shown without range *)
Definition bits_shown (name : text) (lo n : Z) : text := name ++ $"[" ++ dec lo ++ $":" ++ dec (lo + n) ++ $"]".
Definition range_shown (name : text) (lo n size : Z) : text := if (lo =? 0) && (n =? 8 * size) then name else bits_shown name lo n.
(** offset and number of bits packed into 16 bits *)
Definition first_bit (w : Z) : Z := w / 64.
Definition bit_count (w : Z) : Z := w mod 64 + 1.
(** [n] 16-bit numbers from offset [o] *)
Definition words (n o : nat) (p : bytes) : list Z := map (fun i => word 2 (o + 2 * i) p) (seq 0 n).

(** ** Actions *)
(** OpenFlow actions, by type and payload *)
Inductive std_shows : Z -> bytes -> text -> Prop :=
| ss_output p : length p = 12%nat ->
    std_shows 0 p ($"output=" ++ port_text 4 (word 4 0 p)
      ++ if (word 4 0 p =? 0xfffffffd) && negb (word 2 4 p =? 0xffff) then $":" ++ hex (word 2 4 p) else [])
| ss_noarg k : std_shows (noarg_type k) (pad 4) (noarg_name k)
| ss_mpls p : reaches 4 p -> std_shows 15 p ($"set_mpls_ttl=" ++ dec (word 1 0 p))
| ss_queue p : reaches 4 p -> std_shows 21 p ($"set_queue=" ++ dec (word 4 0 p))
| ss_group p : reaches 4 p -> std_shows 22 p ($"group=" ++ dec (word 4 0 p))
| ss_ttl p : reaches 1 p -> std_shows 23 p ($"set_nw_ttl=" ++ dec (word 1 0 p))
| ss_ether k p : reaches 2 p -> std_shows (ether_type k) p (ether_name k ++ $"=" ++ hexw 4 (word 2 0 p)).
Definition std_types : list Z := [0; 11; 12; 15; 16; 17; 18; 19; 20; 21; 22; 23; 24; 25; 26; 27].

(** a flow spec of learn: [n] bits of the field whose header stands at the start *)
Definition spec_obj (n : Z) (p : bytes) (t : text) : Prop :=
  reaches 6 p /\ exists name, id_named p name /\ t = range_shown name (word 2 4 p) n (word 1 3 p).
(** the source, as a number or a text, and what follows it *)
Inductive spec_src (n : Z) : bool -> bytes -> Z + text -> bytes -> Prop :=
| sr_value p : spec_src n true p (inl (num_be (firstn (imm_size n) p))) (skipn (imm_size n) p)
| sr_bits p t : spec_obj n p t -> spec_src n false p (inr t) (skipn 6 p).
Definition src_text (num : Z -> text) (s : Z + text) : text := match s with inl v => num v | inr t => t end.
(** the bits of the first word: 10 for the number of bits, 2 for the destination, 1 for the
    source.  Destination 3 means nothing: the spec before it, [last], is shown again *)
Inductive spec_list : option text -> bytes -> list text -> Prop :=
| sp_end last p : (length p <= 2)%nat \/ word 2 0 p = 0 -> spec_list last p []
| sp_output last p n (v : bool) s r ts : (2 < length p)%nat -> 0 <= n < 1024 ->
    word 2 0 p = n + 1024 * 2 + 4096 * Z.b2z v -> spec_src n v (skipn 2 p) s r ->
    spec_list (Some ($"output(" ++ src_text dec s ++ $")")) r ts ->
    spec_list last p (($"output(" ++ src_text dec s ++ $")") :: ts)
| sp_match last p n (v : bool) s r d ts : (2 < length p)%nat -> 0 <= n < 1024 ->
    word 2 0 p = n + 4096 * Z.b2z v -> word 2 0 p <> 0 -> spec_src n v (skipn 2 p) s r -> spec_obj n r d ->
    spec_list (Some (d ++ $"=" ++ src_text hex s)) (skipn 6 r) ts ->
    spec_list last p ((d ++ $"=" ++ src_text hex s) :: ts)
| sp_load last p n (v : bool) s r d ts : (2 < length p)%nat -> 0 <= n < 1024 ->
    word 2 0 p = n + 1024 + 4096 * Z.b2z v -> spec_src n v (skipn 2 p) s r -> spec_obj n r d ->
    spec_list (Some ($"reg_load(" ++ d ++ $"=" ++ src_text hex s ++ $")")) (skipn 6 r) ts ->
    spec_list last p (($"reg_load(" ++ d ++ $"=" ++ src_text hex s ++ $")") :: ts)
| sp_again t p n (v : bool) s r d ts : (2 < length p)%nat -> 0 <= n < 1024 ->
    word 2 0 p = n + 1024 * 3 + 4096 * Z.b2z v -> spec_src n v (skipn 2 p) s r -> spec_obj n r d ->
    spec_list (Some t) (skipn 6 r) ts -> spec_list (Some t) p (t :: ts).

(** what reg_load shows: a match on the field with the name that stands for the header,
    with a mask unless all bits are loaded *)
Definition load_wire (h : bytes) (g : field) (size : nat) (lo n v : Z) : bytes :=
  if (lo =? 0) && (n =? 8 * Z.of_nat size) then id_wire false g ++ be size v
  else firstn 2 h ++ byte_of (Z.lor (word 1 2 h) 1) :: byte_of (2 * Z.of_nat size)
         :: be size (v * 2 ^ lo) ++ be size ((2 ^ n - 1) * 2 ^ lo).

(** Nicira actions, by subtype and payload *)
Inductive nx_shows (Q : bytes -> text -> Prop) : Z -> bytes -> text -> Prop :=
| ns_resubmit p : reaches 2 p -> nx_shows Q 1 p ($"resubmit(" ++ nx_port_str (word 2 0 p) ++ $")")
| ns_tunnel p : reaches 4 p -> nx_shows Q 2 p ($"set_tunnel(" ++ hex (word 4 0 p) ++ $")")
| ns_pop_queue p : nx_shows Q 5 p $"pop_queue"
| ns_move p s d doff : reaches 10 p -> id_named (skipn 6 p) s ->
    doff = (if word 2 6 p =? 0xffff then 14%nat else 10%nat) -> reaches (doff + 4) p -> id_named (skipn doff p) d ->
    nx_shows Q 6 p ($"reg_move(" ++ range_shown d (word 2 4 p) (word 2 0 p) (word 1 9 p)
                      ++ $"=" ++ range_shown s (word 2 2 p) (word 2 0 p) (word 1 9 p) ++ $")")
| ns_load p name g size ts : reaches 14 p -> id_named (part_of 2 6 p) name ->
    g = ct_label_short \/ In g registry -> fname g = name -> width (fkind g) = Some size ->
    shown_list Q (load_wire (part_of 2 6 p) g size (first_bit (word 2 0 p)) (bit_count (word 2 0 p)) (word 8 6 p)) ts ->
    nx_shows Q 7 p ($"reg_load(" ++ commas ts ++ $")")
| ns_note p t : Q p t -> nx_shows Q 8 p ($"note(" ++ t ++ $")")
| ns_tunnel64 p : reaches 8 p -> nx_shows Q 9 p ($"set_tunnel64(" ++ hex (word 8 0 p) ++ $")")
| ns_multipath p h a d : reaches 18 p -> word 2 0 p = hash_id h -> word 2 6 p = mpalg_id a -> id_named (skipn 18 p) d ->
    nx_shows Q 10 p ($"multipath(" ++ commas [hash_name h; dec (word 2 2 p); mpalg_name a; dec (word 2 8 p); hex (word 4 10 p);
                       bits_shown d (first_bit (word 2 16 p)) (bit_count (word 2 16 p))] ++ $")")
| ns_bundle p h a s n : reaches 22 p -> n = Z.to_nat (word 2 10 p) -> reaches (22 + 2 * n) p ->
    word 2 0 p = bdalg_id a -> word 2 2 p = hash_id h -> id_named (part_of 6 10 p) s ->
    nx_shows Q 12 p ($"bundle(" ++ commas [hash_name h; dec (word 2 4 p); bdalg_name a; s;
                       $"slaves(" ++ commas (map (port_text 2) (words n 22 p)) ++ $")"] ++ $")")
| ns_bundle_load p h a s d n : reaches 22 p -> n = Z.to_nat (word 2 10 p) -> reaches (22 + 2 * n) p ->
    word 2 0 p = bdalg_id a -> word 2 2 p = hash_id h -> id_named (part_of 6 10 p) s -> id_named (part_of 14 18 p) d ->
    nx_shows Q 13 p ($"bundle_load(" ++ commas [hash_name h; dec (word 2 4 p); bdalg_name a; s;
                       bits_shown d (first_bit (word 2 12 p)) (bit_count (word 2 12 p));
                       $"slaves(" ++ commas (map (port_text 2) (words n 22 p)) ++ $")"] ++ $")")
| ns_resubmit_table p : reaches 3 p ->
    nx_shows Q 14 p ($"resubmit_table(" ++ nx_port_str (word 2 0 p) ++ $","
                       ++ (if word 1 2 p =? 255 then $"all" else dec (word 1 2 p)) ++ $")")
| ns_output_reg p name : reaches 14 p -> id_named (part_of 2 6 p) name ->
    nx_shows Q 15 p ($"output_reg(" ++ range_shown name (first_bit (word 2 0 p)) (bit_count (word 2 0 p)) (word 1 5 p) ++ $")")
| ns_learn p ts : reaches 22 p -> Forall (fun i => i = 17%nat \/ word 1 i p = 0) (seq 0 22) -> spec_list None (skipn 22 p) ts ->
    nx_shows Q 16 p ($"learn(" ++ commas ts ++ $")")
| ns_exit p : nx_shows Q 17 p $"exit"
| ns_ids p n : reaches 2 p -> n = Z.to_nat (word 2 0 p) -> reaches (6 + 2 * n) p ->
    nx_shows Q 21 p ($"cnt_ids(" ++ commas (map hex (words n 6 p)) ++ $")")
| ns_output_reg2 p name : reaches 8 p -> id_named (skipn 4 p) name ->
    nx_shows Q 32 p ($"output_reg2(" ++ range_shown name (first_bit (word 2 0 p)) (bit_count (word 2 0 p)) (word 1 7 p) ++ $")")
| ns_load2 p t : shown_one Q p t -> nx_shows Q 33 p ($"reg_load2(" ++ t ++ $")").
Definition nx_types : list Z := [1; 2; 5; 6; 7; 8; 9; 10; 12; 13; 14; 15; 16; 17; 21; 32; 33].

(** the action at the start of [m]; its payload goes up to its length.  The field of a
    set_field action is read regardless of the length, also for subtype 25 *)
Inductive act_shown (Q : bytes -> text -> Prop) (m : bytes) : text -> Prop :=
| as_std t : std_shows (word 2 0 m) (part_of 4 (entry_len m) m) t -> act_shown Q m t
| as_set t : word 2 0 m = 25 -> shown_one Q (skipn 4 m) t -> act_shown Q m ($"set_" ++ t)
| as_unknown : word 2 0 m <> 0xffff -> ~ In (word 2 0 m) std_types -> act_shown Q m $"?"
| as_vendor : word 2 0 m = 0xffff -> reaches 8 m -> word 4 4 m <> 0x2320 -> act_shown Q m $"?"
| as_nx t : word 2 0 m = 0xffff -> word 4 4 m = 0x2320 -> reaches 10 m ->
    nx_shows Q (word 2 8 m) (part_of 10 (entry_len m) m) t -> act_shown Q m t
| as_nx_unknown : word 2 0 m = 0xffff -> word 4 4 m = 0x2320 -> reaches 10 m ->
    ~ In (word 2 8 m) (25 :: nx_types) -> act_shown Q m $"?"
| as_nx_set t : word 2 0 m = 0xffff -> word 4 4 m = 0x2320 -> reaches 10 m -> word 2 8 m = 25 ->
    shown_one Q (skipn 4 m) t -> act_shown Q m ($"set_" ++ t).
(** one after the other, as long as more than 4 bytes are left *)
Inductive acts_shown (Q : bytes -> text -> Prop) : bytes -> list text -> Prop :=
| al_end m : (length m <= 4)%nat -> acts_shown Q m []
| al_next m t ts : (4 < length m)%nat -> act_shown Q m t -> acts_shown Q (skipn (entry_len m) m) ts -> acts_shown Q m (t :: ts).
(** an action of length 0 that can be shown is met again and again *)
Inductive acts_loop (Q : bytes -> text -> Prop) : bytes -> Prop :=
| lp_here m t : (4 < length m)%nat -> act_shown Q m t -> entry_len m = 0%nat -> acts_loop Q m
| lp_next m t : (4 < length m)%nat -> act_shown Q m t -> acts_loop Q (skipn (entry_len m) m) -> acts_loop Q m.
