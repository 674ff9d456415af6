(** A printed reply as the text of new messages: what a dumped entry is as a flow or group modification. *)
From Verif Require Import Base Spec SpecOxm SpecOfp SpecMp.

(** the part of the line after the counters *)
Definition rule_text (e : fstat) : text := commas (fixed_texts print_defaults (fs_fixed e) ++ rule_texts (fs_match e) (fs_instrs e)).
Definition no_counts (e : fstat) : Prop := fs_packets e = 0 /\ fs_bytes e = 0 /\ fs_sec e = 0 /\ fs_nsec e = 0.
(** The dump tells nothing of table 0; what it does not tell is what the command takes by default. *)
Definition loaded (cmd : Z) (x : fixedp) : fixedp :=
  Fixed (x_cookie x) 0 (if x_table x =? 0 then x_table (defaults cmd) else x_table x) (x_priority x) (x_idle x) (x_hard x)
    (x_buffer (defaults cmd)) (x_port (defaults cmd)) (x_group (defaults cmd)) (x_flags x).
Definition load_wire (cmd xid : Z) (e : fstat) : bytes := flow_wire cmd xid (loaded cmd (fs_fixed e)) (fs_match e) (fs_instrs e).
