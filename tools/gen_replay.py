#!/usr/bin/env python3
"""Transcribe the test vectors of /repo/test/*.py (read as text, not imported) into
rocq/theories/Replay.v: the model is run on every one of them by vm_compute."""
import ast, sys

def tuple_attr(path, name):
    tree = ast.parse(open(path).read())
    for node in ast.walk(tree):
        if isinstance(node, ast.Assign) and any(isinstance(t, ast.Name) and t.id == name for t in node.targets):
            return ast.literal_eval(node.value)
    raise SystemExit(name)

def q(s): return '$"' + s.replace('"', '""') + '"'
def lst(l): return "[ " + ";\n    ".join(l) + " ]"

T = "/repo/test/"
oxm = tuple_attr(T + "test_oxm.py", "rules")
acts = tuple_attr(T + "test_ofp4.py", "actions")
flows = tuple_attr(T + "test_ofp4.py", "flows")
dels = tuple_attr(T + "test_ofp4.py", "del_flows")
alias = tuple_attr(T + "test_ofp4.py", "aliased_flows")
tok = tuple_attr(T + "test_util.py", "rules")
mpflow = tuple_attr(T + "test_ofp4_mp.py", "mpflow")
gdesc = tuple_attr(T + "test_ofp4_mp.py", "mpgroupdesc")
group = tuple_attr(T + "test_ofp4_mp.py", "mpgroup")
print('''(** The repository's own test vectors (/repo/test/*.py), run on the model.
    Generated by tools/gen_replay.py from the test sources as text.  All pass but
    test_mpflow, which fails on the code as well (priority default, see
    [test_mpflow_fails]). *)
From Verif Require Import Base PyNum Util PyLib OxmCodec OxmTables Oxm Nx Ofp4.

Definition ok_eq (r : res text) (t : text) : bool :=
  match r with Ok x => text_eqb x t | _ => false end.

(** /repo/test/test_util.py:5-15 *)
Definition util_rules : list (text * (text * text * text)) :=
  %s.
Example test_util :
  forallb (fun '(i, (a, b, c)) =>
             let '(x, y, z) := get_token i in text_eqb x a && text_eqb y b && text_eqb z c)
          util_rules = true.
Proof. vm_compute. reflexivity. Qed.

(** /repo/test/test_oxm.py:6-63 *)
Definition oxm_rules : list text :=
  %s.
Example test_oxm_all :
  forallb (fun r => match str2oxm r true with
                    | Ok (m, l) => Nat.eqb l (length r) && ok_eq (oxm2str m true) r
                    | _ => false end) oxm_rules = true.
Proof. vm_compute. reflexivity. Qed.
Example test_oxm_id :
  forallb (fun r => let n := fst (split1 61 r) in
                    match str2oxmid n true with
                    | Ok m => (Nat.eqb (length m) 4 || Nat.eqb (length m) 8) && ok_eq (oxmid2str m true) n
                    | _ => false end) oxm_rules = true.
Proof. vm_compute. reflexivity. Qed.

(** /repo/test/test_ofp4.py:5-44 *)
Definition act_rules : list text :=
  %s.
Example test_action :
  forallb (fun r => match str2act r with
                    | Ok (m, l) => Nat.eqb l (length r) && ok_eq (act2str m true) r
                    | _ => false end) act_rules = true.
Proof. vm_compute. reflexivity. Qed.

(** /repo/test/test_ofp4.py:45-67 *)
Definition rt_mod (command : Z) (src dst : text) : bool :=
  match str2mod src command 0 with Ok m => ok_eq (mod2str m) dst | _ => false end.
Definition flow_rules : list text :=
  %s.
Definition del_rules : list text :=
  %s.
Definition alias_rules : list (text * text) :=
  %s.
Example test_mod :
  forallb (fun r => rt_mod 0 r r) flow_rules
  && forallb (fun r => rt_mod 3 r r) del_rules
  && forallb (fun ab => rt_mod 0 (fst ab) (snd ab)) alias_rules = true.
Proof. vm_compute. reflexivity. Qed.

(** /repo/test/test_ofp4_mp.py *)
Definition lines (l : list text) : text := join [10] l.
Definition mpflow_texts : list text :=
  %s.
Definition mpgroupdesc_texts : list text :=
  %s.
Definition mpgroup_texts : list text :=
  %s.
Example test_mpgroupdesc :
  forallb (fun t => match text2mpgroupdesc t 19 0 with
                    | Ok m => ok_eq (mpgroupdesc2text m) t | _ => false end) mpgroupdesc_texts = true.
Proof. vm_compute. reflexivity. Qed.
Example test_mpgroup :
  forallb (fun t => match text2mpgroup t 19 0 with
                    | Ok m => ok_eq (mpgroup2text m) t | _ => false end) mpgroup_texts = true.
Proof. vm_compute. reflexivity. Qed.
(** text2mpflow encodes a missing priority as 0 (ofp4.py:790), mpflow2text suppresses
    0x8000 (ofp4.py:870): the repository's test_mpflow cannot pass. *)
Example test_mpflow_fails :
  map (fun t => match text2mpflow t 19 0 with Ok m => mpflow2text m | _ => Raise ValueError end)
      (firstn 1 mpflow_texts)
  = [Ok (lines [$"priority=0,in_port=1,@apply,output=2"; $"priority=0,in_port=2,@apply,output=1"])].
Proof. vm_compute. reflexivity. Qed.''' % (
 lst(["(%s, (%s, %s, %s))" % (q(i), q(a), q(b), q(c)) for i, (a, b, c) in tok]),
 lst(map(q, oxm)), lst(map(q, acts)), lst(map(q, flows)), lst(map(q, dels)),
 lst(["(%s, %s)" % (q(a), q(b)) for a, b in alias]),
 *[lst(["lines " + lst([q(x) for x in t.split("\n")]) for t in ts]) for ts in (mpflow, gdesc, group)]))
