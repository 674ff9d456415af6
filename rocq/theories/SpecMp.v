(** Multipart messages as the OpenFlow 1.3 standard defines them (7.3.5), and the text
    the README shows for them: one line per entry. *)
From Verif Require Import Base Spec SpecOxm SpecOfp.

Definition mp_wire (type xid mptype flags : Z) (body : bytes) : bytes :=
  be 1 4 ++ be 1 type ++ be 2 (Z.of_nat (16 + length body)) ++ be 4 xid ++ be 2 mptype ++ be 2 flags ++ pad 4 ++ body.
Definition lines (l : list text) : text := sepby 10 l.
Definition one_line (s : text) : Prop := ~ In 10 s.
(** one message of a reply *)
Definition part_ok (body : bytes) (xid fl : Z) : Prop := in_bytes 4 xid /\ in_bytes 2 fl /\ Z.of_nat (16 + length body) <= 65535.

(** ** Counters *)
Inductive counter := CRef | CPackets | CBytes | CSec | CNsec.
Definition counter_name (c : counter) : text :=
  match c with
  | CRef => $"ref_count" | CPackets => $"packet_count" | CBytes => $"byte_count" | CSec => $"duration_sec" | CNsec => $"duration_nsec"
  end.
(** zero is not printed *)
Definition counter_texts (l : list (counter * Z)) : list text :=
  flat_map (fun cn => unless (snd cn =? 0) (counter_name (fst cn) ++ $"=" ++ dec (snd cn))) l.
Inductive writes_counter : counter * Z -> text -> Prop :=
| wc u c n s : literal u n -> assigned (counter_name c) u s -> writes_counter (c, n) s.
Definition counter_eqb (a b : counter) : bool :=
  match a, b with CRef, CRef | CPackets, CPackets | CBytes, CBytes | CSec, CSec | CNsec, CNsec => true | _, _ => false end.
(** the last one counts; none is zero *)
Definition count (c : counter) (l : list (counter * Z)) : Z :=
  fold_left (fun x cn => if counter_eqb c (fst cn) then snd cn else x) l 0.

(** ** OFPMP_FLOW *)
(** mask, buffer, port and group of the fixed part do not occur in a reply *)
Record fstat := FStat { fs_packets : Z; fs_bytes : Z; fs_sec : Z; fs_nsec : Z; fs_fixed : fixedp; fs_match : list tlv; fs_instrs : list instr }.
Definition fstat_wire (e : fstat) : bytes :=
  let x := fs_fixed e in
  let rest := match_wire (fs_match e) ++ instrs_wire (fs_instrs e) in
  be 2 (Z.of_nat (48 + length rest)) ++ be 1 (x_table x) ++ pad 1 ++ be 4 (fs_sec e) ++ be 4 (fs_nsec e)
    ++ be 2 (x_priority x) ++ be 2 (x_idle x) ++ be 2 (x_hard x) ++ be 2 (x_flags x) ++ pad 4
    ++ be 8 (x_cookie x) ++ be 8 (fs_packets e) ++ be 8 (fs_bytes e) ++ rest.
Definition fstats_wire (l : list fstat) : bytes := flat_map fstat_wire l.
(** what the printer leaves out, and what the reader takes for what is left out *)
Definition print_defaults : fixedp := Fixed 0 0 0 0x8000 0 0 0 0 0 0.
Definition read_defaults : fixedp := Fixed 0 0 0 0 0 0 0 0 0 0.
Definition fstat_counters (e : fstat) : list (counter * Z) :=
  [(CPackets, fs_packets e); (CBytes, fs_bytes e); (CSec, fs_sec e); (CNsec, fs_nsec e)].
Definition two_parts (a b : list text) : text :=
  match a, b with [], _ => commas b | _, [] => commas a | _, _ => commas a ++ $" " ++ commas b end.
Definition fstat_text (e : fstat) : text :=
  two_parts (counter_texts (fstat_counters e)) (fixed_texts print_defaults (fs_fixed e) ++ rule_texts (fs_match e) (fs_instrs e)).
Definition fstat_ok (e : fstat) : Prop :=
  in_bytes 8 (fs_packets e) /\ in_bytes 8 (fs_bytes e) /\ in_bytes 4 (fs_sec e) /\ in_bytes 4 (fs_nsec e)
  /\ fixed_ok (fs_fixed e) /\ Forall instr_ok (fs_instrs e) /\ Z.of_nat (length (fstat_wire e)) <= 65535.
Definition fstat_printable (e : fstat) : Prop :=
  let x := fs_fixed e in x_mask x = 0 /\ x_buffer x = 0 /\ x_port x = 0 /\ x_group x = 0
  /\ Forall good (fs_match e) /\ Forall printable (fs_match e) /\ Forall instr_printable (fs_instrs e).
(** the text tells all of it *)
Definition good_fstat (e : fstat) : Prop :=
  fstat_ok e /\ fstat_printable e /\ x_priority (fs_fixed e) <> 0x8000 /\ named_flags (x_flags (fs_fixed e)).

(** what the printed line is read as: the priority 0x8000 is not printed, and 0 is read *)
Definition reread_fixed (x : fixedp) : fixedp :=
  let '(Fixed c m t p i h b op og fl) := x in Fixed c m t (if p =? 0x8000 then 0 else p) i h b op og fl.
Definition reread (e : fstat) : fstat :=
  FStat (fs_packets e) (fs_bytes e) (fs_sec e) (fs_nsec e) (reread_fixed (fs_fixed e)) (fs_match e) (fs_instrs e).

(** a written line: counters, then a flow rule *)
Inductive writes_rtail : list (counter * Z) -> list entry -> list instr -> text -> Prop :=
| wrt_rule es is r : writes_tail es is r -> writes_rtail [] es is r
| wrt_count c cs es is g u r : fst c <> CRef -> gap g -> writes_counter c u -> writes_rtail cs es is r -> writes_rtail (c :: cs) es is (g ++ u ++ r).
Inductive writes_row : list (counter * Z) -> list entry -> list instr -> text -> Prop :=
| wr_rule es is s : writes_flow es is s -> writes_row [] es is s
| wr_count c cs es is g u r : fst c <> CRef -> Forall filler g -> writes_counter c u -> writes_rtail cs es is r -> writes_row (c :: cs) es is (g ++ u ++ r).
Definition fstat_of (cs : list (counter * Z)) (es : list entry) (is : list instr) : fstat :=
  FStat (count CPackets cs) (count CBytes cs) (count CSec cs) (count CNsec cs) (fixed_of read_defaults es) (matches_of es) is.
Definition writes_fstat (e : fstat) (s : text) : Prop := one_line s /\ exists cs es is, writes_row cs es is s /\ e = fstat_of cs es is.
Definition fshown (e : fstat) : Prop := fstat_ok e /\ fstat_printable e /\ named_flags (x_flags (fs_fixed e)).

(** requests *)
Definition request_defaults : fixedp := Fixed 0 0 0xff 0 0 0 0 0xffffffff 0xffffffff 0.
Definition frequest_wire (x : fixedp) (ts : list tlv) : bytes :=
  be 1 (x_table x) ++ pad 3 ++ be 4 (x_port x) ++ be 4 (x_group x) ++ pad 4 ++ be 8 (x_cookie x) ++ be 8 (x_mask x) ++ match_wire ts.

(** ** OFPMP_GROUP_DESC *)
Record gdesc := GDesc { gd_type : gtype; gd_id : Z; gd_buckets : list bucket }.
Definition gdesc_wire (e : gdesc) : bytes :=
  be 2 (Z.of_nat (8 + length (buckets_wire (gd_buckets e)))) ++ be 1 (gtype_id (gd_type e)) ++ pad 1 ++ be 4 (gd_id e) ++ buckets_wire (gd_buckets e).
Definition gdescs_wire (l : list gdesc) : bytes := flat_map gdesc_wire l.
Definition gdesc_text (e : gdesc) : text :=
  commas ([$"group=" ++ dec (gd_id e); gtype_name (gd_type e)] ++ buckets_texts (gd_type e) (gd_buckets e)).
(** the text of any group: a bucket that says nothing has an empty text *)
Definition gdesc_shown (e : gdesc) : text :=
  commas ([$"group=" ++ dec (gd_id e); gtype_name (gd_type e)] ++ shown_texts (gd_type e) (gd_buckets e)).
Definition gdesc_ok (e : gdesc) : Prop :=
  in_bytes 4 (gd_id e) /\ Forall bucket_ok (gd_buckets e) /\ Z.of_nat (length (gdesc_wire e)) <= 65535.
Definition gdesc_printable (e : gdesc) : Prop := Forall (bucket_printable (gd_type e)) (gd_buckets e).
Definition good_gdesc (e : gdesc) : Prop := gdesc_ok e /\ Forall (good_bucket (gd_type e)) (gd_buckets e).

(** the type in any case *)
Definition letter_case (a b : Z) : Prop := a = b \/ 97 <= b <= 122 /\ a = b - 32.
Inductive writes_dhead : ghead -> text -> Prop :=
| wd_id u n s : literal u n -> assigned $"group" u s -> writes_dhead (HGroup n) s
| wd_type t u : Forall2 letter_case u (gtype_name t) -> writes_dhead (HType t) u.
Inductive writes_dtail : list ghead -> list (list bitem) -> text -> Prop :=
| wdt_buckets ls r : writes_buckets ls r -> writes_dtail [] ls r
| wdt_head h hs ls g u r : gap g -> writes_dhead h u -> writes_dtail hs ls r -> writes_dtail (h :: hs) ls (g ++ u ++ r).
Inductive writes_desc : list ghead -> list (list bitem) -> text -> Prop :=
| wde_nil : writes_desc [] [] []
| wde_head h hs ls g u r : Forall filler g -> writes_dhead h u -> writes_dtail hs ls r -> writes_desc (h :: hs) ls (g ++ u ++ r)
| wde_bucket l ls g u r : Forall filler g -> l <> [] -> writes_bitems l u -> writes_buckets ls r -> writes_desc [] (l :: ls) (g ++ $"@bucket" ++ u ++ r).
Definition desc_of (hs : list ghead) (ls : list (list bitem)) : gdesc :=
  let x := fold_left apply_ghead hs (0, GAll) in GDesc (snd x) (fst x) (map (bucket_of (snd x)) ls).
Definition writes_gdesc (e : gdesc) (s : text) : Prop := one_line s /\ exists hs ls, writes_desc hs ls s /\ Forall (Forall bitem_ok) ls /\ e = desc_of hs ls.

(** ** OFPMP_GROUP *)
Record gstat := GStat { gs_id : Z; gs_ref : Z; gs_packets : Z; gs_bytes : Z; gs_sec : Z; gs_nsec : Z; gs_buckets : list (Z * Z) }.
Definition pair_wire (b : Z * Z) : bytes := be 8 (fst b) ++ be 8 (snd b).
Definition gstat_wire (e : gstat) : bytes :=
  let bs := flat_map pair_wire (gs_buckets e) in
  be 2 (Z.of_nat (40 + length bs)) ++ pad 2 ++ be 4 (gs_id e) ++ be 4 (gs_ref e) ++ pad 4 ++ be 8 (gs_packets e) ++ be 8 (gs_bytes e)
    ++ be 4 (gs_sec e) ++ be 4 (gs_nsec e) ++ bs.
Definition gstats_wire (l : list gstat) : bytes := flat_map gstat_wire l.
Definition pair_counters (b : Z * Z) : list (counter * Z) := [(CPackets, fst b); (CBytes, snd b)].
Definition gstat_counters (e : gstat) : list (counter * Z) :=
  [(CRef, gs_ref e); (CPackets, gs_packets e); (CBytes, gs_bytes e); (CSec, gs_sec e); (CNsec, gs_nsec e)].
Definition stat_texts (e : gstat) : list text :=
  counter_texts (gstat_counters e) ++ flat_map (fun b => $"@bucket" :: counter_texts (pair_counters b)) (gs_buckets e).
Definition gstat_text (e : gstat) : text :=
  (if gs_id e =? 0xfffffffc then $"group=all " else if gs_id e =? 0xffffffff then [] else $"group=" ++ dec (gs_id e) ++ $" ") ++ commas (stat_texts e).
Definition gstat_ok (e : gstat) : Prop :=
  in_bytes 4 (gs_id e) /\ in_bytes 4 (gs_ref e) /\ in_bytes 8 (gs_packets e) /\ in_bytes 8 (gs_bytes e) /\ in_bytes 4 (gs_sec e) /\ in_bytes 4 (gs_nsec e)
  /\ Forall (fun b => in_bytes 8 (fst b) /\ in_bytes 8 (snd b)) (gs_buckets e) /\ Z.of_nat (length (gstat_wire e)) <= 65535.
(** ids with a name are not read back, and neither is a line that ends after the id *)
Definition good_gstat (e : gstat) : Prop :=
  gstat_ok e /\ gs_id e <> 0xfffffffc /\ gs_id e <> 0xffffffff /\ stat_texts e <> [].

(** a written line: group=ID, counters, buckets with their counters *)
Inductive writes_counters : list (counter * Z) -> text -> Prop :=
| wcs_nil : writes_counters [] []
| wcs_cons c cs g u r : gap g -> writes_counter c u -> writes_counters cs r -> writes_counters (c :: cs) (g ++ u ++ r).
Inductive writes_sbuckets : list (list (counter * Z)) -> text -> Prop :=
| wsb_nil : writes_sbuckets [] []
| wsb_cons cs bs g u r : gap g -> Forall (fun c => fst c = CPackets \/ fst c = CBytes) cs -> writes_counters cs u -> writes_sbuckets bs r ->
    writes_sbuckets (cs :: bs) (g ++ $"@bucket" ++ u ++ r).
Inductive writes_gstat : Z -> list (counter * Z) -> list (list (counter * Z)) -> text -> Prop :=
| wgs h u n s cs c bs b : Forall filler h -> literal u n -> assigned $"group" u s -> writes_counters cs c -> writes_sbuckets bs b ->
    writes_gstat n cs bs (h ++ s ++ c ++ b).
Definition pair_of (cs : list (counter * Z)) : Z * Z := (count CPackets cs, count CBytes cs).
Definition gstat_of (id : Z) (cs : list (counter * Z)) (bs : list (list (counter * Z))) : gstat :=
  GStat id (count CRef cs) (count CPackets cs) (count CBytes cs) (count CSec cs) (count CNsec cs) (map pair_of bs).
Definition writes_stat (e : gstat) (s : text) : Prop := one_line s /\ exists id cs bs, writes_gstat id cs bs s /\ e = gstat_of id cs bs.

(** ** Framing of any reply body *)
Definition fentry_framed (b : bytes) : Prop :=
  Z.of_nat (length b) <= 65535 /\ exists pc bc sec nsec x ts bs,
    b = be 2 (Z.of_nat (length b)) ++ be 1 (x_table x) ++ pad 1 ++ be 4 sec ++ be 4 nsec
      ++ be 2 (x_priority x) ++ be 2 (x_idle x) ++ be 2 (x_hard x) ++ be 2 (x_flags x) ++ pad 4
      ++ be 8 (x_cookie x) ++ be 8 pc ++ be 8 bc ++ match_wire ts ++ concat bs
    /\ Forall known_tlv ts /\ Forall instr_framed bs.
Definition frequest_framed (b : bytes) : Prop := exists x ts, b = frequest_wire x ts /\ Forall known_tlv ts.
Definition dentry_framed (b : bytes) : Prop :=
  Z.of_nat (length b) <= 65535 /\ exists t id bs,
    b = be 2 (Z.of_nat (length b)) ++ be 1 (gtype_id t) ++ pad 1 ++ be 4 id ++ concat bs /\ Forall bucket_framed bs /\ in_bytes 4 id.
(** one entry for each line *)
Definition line_count (s : text) : nat := S (count_occ Z.eq_dec s 10).
Definition mp_framed (type xid mt : Z) (body m : bytes) : Prop :=
  m = mp_wire type xid mt 0 body /\ in_bytes 1 type /\ in_bytes 4 xid /\ Z.of_nat (length m) <= 65535.

(** ** What the entries of an accepted reply text are *)
(** in range but for the actions that move nxm_ct_label; the text sets none of the fields that do not occur in a reply *)
Definition fstat_known (e : fstat) : Prop :=
  in_bytes 8 (fs_packets e) /\ in_bytes 8 (fs_bytes e) /\ in_bytes 4 (fs_sec e) /\ in_bytes 4 (fs_nsec e) /\ fixed_ok (fs_fixed e)
  /\ x_mask (fs_fixed e) = 0 /\ x_buffer (fs_fixed e) = 0 /\ x_port (fs_fixed e) = 0 /\ x_group (fs_fixed e) = 0 /\ named_flags (x_flags (fs_fixed e))
  /\ Forall known_tlv (fs_match e) /\ Forall instr_known (fs_instrs e) /\ Z.of_nat (length (fstat_wire e)) <= 65535.
Definition gdesc_known (e : gdesc) : Prop := in_bytes 4 (gd_id e) /\ Forall bucket_known (gd_buckets e) /\ Z.of_nat (length (gdesc_wire e)) <= 65535.
