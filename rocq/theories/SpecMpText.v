(** SpecMpText: every text the readers of multipart messages take, and the message it stands
    for, written down without the readers' own functions.  SpecMp's [writes_fstat],
    [writes_gdesc] and [writes_stat] are the part of it that a user would write. *)
From Verif Require Import Base Spec SpecOxm SpecText SpecOfp SpecActText SpecFlowText SpecMp.
From Coq Require Import Strings.Ascii.

(** one entry per line, all in one message *)
Definition in_lines (txt : text) (ls : list text) : Prop := ls <> [] /\ Forall one_line ls /\ txt = lines ls.
Definition mp_reads (row : text -> bytes -> Prop) (mt : Z) (txt : text) (type xid : Z) (m : bytes) : Prop :=
  exists ls bs, in_lines txt ls /\ Forall2 row ls bs /\ in_bytes 1 type /\ in_bytes 4 xid /\ Z.of_nat (16 + length (concat bs)) <= 65535
  /\ m = mp_wire type xid mt 0 (concat bs).

(** ** Flow entries *)
(** COUNTER=VALUE, as long as there are counters; what separates them is ignored *)
Inductive row_counts (ok : counter -> Prop) : text -> list (counter * Z) -> text -> Prop :=
| ct_count s h c u p r n l t : next s h (counter_name c) u -> ok c -> valued u p r -> literal p n -> row_counts ok r l t -> row_counts ok s ((c, n) :: l) t
| ct_end s h nm u : next s h nm u -> (forall c, ok c -> nm <> counter_name c) -> row_counts ok s [] s.
(** the counters are followed by a flow rule *)
Definition flow_row (N : kind -> text -> bytes -> option bytes -> Prop) (type : Z) (s : text) (b : bytes) : Prop :=
  exists cs u l, row_counts (fun c => c <> CRef) s cs u /\ rule_reads N AtEntry u l /\ Forall (fun i => Z.of_nat (length i) <= 65535) (r_insts None l) /\
  if type =? 19 then
    let x := fold_left apply_set (r_sets l) read_defaults in
    let rest := match_wire (r_match l) ++ concat (r_insts None l) in
    in_bytes 1 (x_table x) /\ in_bytes 4 (count CSec cs) /\ in_bytes 4 (count CNsec cs) /\ in_bytes 2 (x_priority x) /\ in_bytes 2 (x_idle x)
    /\ in_bytes 2 (x_hard x) /\ in_bytes 2 (x_flags x) /\ in_bytes 8 (x_cookie x) /\ in_bytes 8 (count CPackets cs) /\ in_bytes 8 (count CBytes cs)
    /\ b = be 2 (Z.of_nat (48 + length rest)) ++ be 1 (x_table x) ++ pad 1 ++ be 4 (count CSec cs) ++ be 4 (count CNsec cs)
           ++ be 2 (x_priority x) ++ be 2 (x_idle x) ++ be 2 (x_hard x) ++ be 2 (x_flags x) ++ pad 4
           ++ be 8 (x_cookie x) ++ be 8 (count CPackets cs) ++ be 8 (count CBytes cs) ++ rest
  else
    let x := fold_left apply_set (r_sets l) request_defaults in
    in_bytes 1 (x_table x) /\ in_bytes 4 (x_port x) /\ in_bytes 4 (x_group x) /\ in_bytes 8 (x_cookie x) /\ in_bytes 8 (x_mask x)
    /\ b = frequest_wire x (r_match l).
Definition flows_message N txt type xid m : Prop := mp_reads (flow_row N type) 1 txt type xid m.

(** ** Groups *)
(** group = ID and TYPE, the type in any case *)
Inductive dheads : text -> list ghead -> text -> Prop :=
| dh_group s h u p r n l t : next s h $"group" u -> valued u p r -> literal p n -> dheads r l t -> dheads s (HGroup n :: l) t
| dh_type s h nm g r l t : next s h nm r -> Forall2 letter_case nm (gtype_name g) -> dheads r l t -> dheads s (HType g :: l) t
| dh_end s h nm u : next s h nm u -> nm <> $"group" -> (forall g, ~ Forall2 letter_case nm (gtype_name g)) -> dheads s [] s.
(** the buckets; from the first word on that is neither "@bucket" nor part of a bucket, the
    line is dropped *)
Inductive dbuckets (N : kind -> text -> bytes -> option bytes -> Prop) : text -> list (list bpart) -> Prop :=
| db_end : dbuckets N [] []
| db_word s h u ls : next s h $"@bucket" u -> dbuckets N u ls -> dbuckets N s ls
| db_bucket s h nm u l r ls : next s h nm u -> nm <> $"@bucket" -> bucket_text N s l r -> l <> [] -> dbuckets N r ls -> dbuckets N s (l :: ls)
| db_drop s h nm u : next s h nm u -> nm <> $"@bucket" -> bucket_text N s [] s -> dbuckets N s [].
Definition desc_row (N : kind -> text -> bytes -> option bytes -> Prop) (s : text) (b : bytes) : Prop :=
  exists hs u ls, dheads s hs u /\ dbuckets N u ls /\
  let '(id, t) := fold_left apply_ghead hs (0, GAll) in
  in_bytes 4 id /\ Forall (bucket_fits t) ls /\ Forall (fun l => Z.of_nat (length (bucket_part t l)) <= 65535) ls
  /\ b = be 2 (Z.of_nat (8 + length (flat_map (bucket_part t) ls))) ++ be 1 (gtype_id t) ++ pad 1 ++ be 4 id ++ flat_map (bucket_part t) ls.
(** a request has no text *)
Definition descs_message N txt type xid m : Prop :=
  if type =? 19 then mp_reads (desc_row N) 7 txt type xid m else in_bytes 1 type /\ in_bytes 4 xid /\ m = mp_wire type xid 7 0 [].

(** ** Group counters *)
Inductive ids : text -> list Z -> text -> Prop :=
| id_more s h u p r n l t : next s h $"group" u -> valued u p r -> literal p n -> ids r l t -> ids s (n :: l) t
| id_stop s h nm u : next s h nm u -> nm <> $"group" -> ids s [] s.
Definition last_id (l : list Z) : Z := last l 0.
(** counters of the group, then of each bucket; from the first other NAME=VALUE on, the line
    is dropped *)
Definition countable (bucket : bool) (c : counter) : Prop := if bucket then c = CPackets \/ c = CBytes else True.
Inductive bstats : text -> list (counter * Z) -> list (list (counter * Z)) -> Prop :=
| bs_end : bstats [] [] []
| bs_word s h u cs bs : next s h $"@bucket" u -> bstats u cs bs -> bstats s [] (cs :: bs)
| bs_count s h c u p r n cs bs : next s h (counter_name c) u -> countable true c -> valued u p r -> literal p n -> bstats r cs bs ->
    bstats s ((c, n) :: cs) bs
| bs_drop s h nm u p r n : next s h nm u -> nm <> $"@bucket" -> (forall c, countable true c -> nm <> counter_name c) -> valued u p r -> literal p n ->
    bstats s [] [].
Inductive gstats : text -> list (counter * Z) -> list (list (counter * Z)) -> Prop :=
| gs_end : gstats [] [] []
| gs_word s h u cs bs : next s h $"@bucket" u -> bstats u cs bs -> gstats s [] (cs :: bs)
| gs_count s h c u p r n cs bs : next s h (counter_name c) u -> valued u p r -> literal p n -> gstats r cs bs -> gstats s ((c, n) :: cs) bs
| gs_drop s h nm u p r n : next s h nm u -> nm <> $"@bucket" -> (forall c, nm <> counter_name c) -> valued u p r -> literal p n -> gstats s [] [].
Definition stat_row (s : text) (b : bytes) : Prop :=
  exists l u cs bs, ids s l u /\ gstats u cs bs /\ gstat_ok (gstat_of (last_id l) cs bs) /\ b = gstat_wire (gstat_of (last_id l) cs bs).
(** a request takes the number from its first line and drops the rest *)
Definition stats_message txt type xid m : Prop :=
  if type =? 19 then mp_reads stat_row 6 txt type xid m
  else exists s ls l u, in_lines txt (s :: ls) /\ ids s l u /\ in_bytes 1 type /\ in_bytes 4 xid /\ in_bytes 4 (last_id l)
       /\ m = mp_wire type xid 6 0 (be 4 (last_id l) ++ pad 4).
