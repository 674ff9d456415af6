#!/usr/bin/env python3
"""Replay the concrete cases (Example Cnn_...) of the Prop*.v files against the model and the
specification only, without the lemma files.  Used by seed.py: a case that passes on the
model as committed and fails on an edited one is an instance of the property that the edit
makes false, whatever the state of the proofs.

usage: cases.py rocq-dir [out-dir]   prints the names of the cases that pass"""
import os, re, subprocess, sys
MODEL = 'Base PyNum Util PyLib OxmCodec OxmTables Oxm Nx Ofp4 Cli Spec SpecOxm SpecOfp SpecMp SpecCli'.split()
START = re.compile(r'(Example|Theorem|Lemma|Definition|Ltac|Notation|From|Local|Print|Fixpoint|Section|End|Record|Inductive|Corollary|Open)\b')

REPRINTS = '''Ltac witness ::= match goal with |- reprints ?u _ =>
  let b := eval vm_compute in (match str2act u with Ok (b, _) => b | _ => [] end) in exists b end.
'''

def blocks(path):
    cur = []
    for line in open(path):
        if START.match(line) and cur:
            yield ''.join(cur); cur = []
        cur.append(line)
    if cur: yield ''.join(cur)

def script(path):
    out = ['From Coq Require Import Strings.Ascii Permutation List ZArith Lia.\nFrom Verif Require Import %s.\n' % ' '.join(MODEL) + 'Set Default Timeout 20.\nLtac witness := fail.\n']
    needs = re.findall(r'\b(Prop\w+)', ' '.join(l for l in open(path) if l.startswith('From Verif')))
    for b in [x for n in needs for x in blocks(os.path.dirname(path) + '/' + n + '.v') if not x.startswith('Example')] + list(blocks(path)):
        if re.match(r'(Definition|Ltac|Notation|Fixpoint|Local|Open|Inductive|Record)\b', b): out.append(b)
        if b.startswith('Definition reprints'): out.append(REPRINTS)
        m = re.match(r'Example (\w+)', b)
        if m:
            name = m.group(1)
            k = b.index('\nProof.')
            stmt = b[:k]
            if 'reprints_by' in b[k:]: b = stmt + '\nProof.\n'
            # a bare "Proof. t. Qed." cannot leave a proof open after an error: abort, then try again
            out.append(b[k:] and '%s%s\nAbort All.\n%s\nProof. timeout 5 (repeat first [witness | split | vm_compute; reflexivity]). Qed.\nAbort All.\nCheck %s.\n'
                       % (stmt, b[k:], stmt, name))
    return ''.join(out)

def passing(rocq, tmp='/tmp/cases'):
    os.makedirs(tmp, exist_ok=True)
    ok = set()
    for f in sorted(os.listdir(rocq + '/theories')):
        if re.match(r'Prop\w+\.v$', f):
            s = script(rocq + '/theories/' + f)
            open(tmp + '/' + f, 'w').write(s)
            try:
                r = subprocess.run(['coqtop', '-q', '-Q', rocq + '/theories', 'Verif'], input=s, capture_output=True, text=True, timeout=300).stdout
            except subprocess.TimeoutExpired:
                r = ''; print('timeout', f, file=sys.stderr)
            ok |= set(re.findall(r'^(?:\w+ < )*(C\d\d\w*)\s*$', r, re.M)) | set(re.findall(r'^(?:\w+ < )*(C\d\d\w*)\n?\s+: ', r, re.M))
    return ok

if __name__ == '__main__':
    for n in sorted(passing(*sys.argv[1:])): print(n)
