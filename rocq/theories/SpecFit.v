(** SpecFit: numbers as arguments of actions, and the bytes they have to fit in. *)
From Verif Require Import Base Spec SpecOxm SpecText SpecOfp SpecActText SpecName.

(** the action NAME takes a number of [n] bytes *)
Inductive number_arg : text -> nat -> Prop :=
| na_mpls_ttl : number_arg $"set_mpls_ttl" 1
| na_nw_ttl : number_arg $"set_nw_ttl" 1
| na_queue : number_arg $"set_queue" 4
| na_group : number_arg $"group" 4
| na_output : number_arg $"output" 4
| na_ether k : number_arg (ether_name k) 2
| na_tunnel : number_arg $"set_tunnel" 8
| na_tunnel64 : number_arg $"set_tunnel64" 8.
(** [s] begins with NAME(ARGS), or with NAME and something behind it *)
Definition action_given (s name args : text) : Prop := (exists r, called s name args r) \/ exists h, next s h name args.
(** the instruction NAME takes a number of [n] bytes *)
Inductive number_instr : text -> nat -> Prop :=
| ni_goto nm : spells NGoto nm -> number_instr nm 1
| ni_metadata nm : spells NMetadata nm -> number_instr nm 8
| ni_meter : number_instr $"@meter" 4.
