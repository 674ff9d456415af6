#!/usr/bin/env python3
"""Seeded-bug runs: for each edit of a JSON file, change the model in a scratch copy of
rocq/, rebuild, and append what failed to seeded/LOG.jsonl.

usage: seed.py edits.json [scratch-dir]
An edit is {"file", "definition", "old", "new", "edit", "claim"}; old must occur once.
"failed" lists the lemmas that failed (make -k: files that need them are not tried);
"cases" the concrete cases of the properties (cases.py) that the edit makes false."""
import json, os, re, shutil, signal, subprocess, sys
sys.path.insert(0, os.path.dirname(os.path.abspath(__file__)))
import cases
root = os.path.dirname(os.path.dirname(os.path.abspath(__file__)))
scratch = sys.argv[2] if len(sys.argv) > 2 else '/tmp/seed/rocq'
log = root + '/seeded/LOG.jsonl'

def lemma_at(path, line):
    name = None
    for i, l in enumerate(open(path), 1):
        if i > line: break
        m = re.match(r'\s*(?:Lemma|Theorem|Example|Definition|Fixpoint|Fact|Corollary)\s+(\w+)', l)
        if m: name = m.group(1)
    return name

def build():
    cmd = 'ulimit -v 6000000; make -k -j2 2>&1'
    p = subprocess.Popen(cmd, shell=True, cwd=scratch, stdout=subprocess.PIPE, text=True, start_new_session=True)
    try:
        out, _ = p.communicate(timeout=900)
    except subprocess.TimeoutExpired:
        os.killpg(p.pid, signal.SIGKILL)
        out, _ = p.communicate()
        out += '\nTIMEOUT'
    fails = []
    for m in re.finditer(r'File "\./theories/(\w+)\.v", line (\d+).*\n(?:.*\n)??Error', out):
        fails.append('%s.%s' % (m.group(1), lemma_at(scratch + '/theories/%s.v' % m.group(1), int(m.group(2)))))
    for m in re.finditer(r'Error: File "(.*?)"', out): pass
    if not fails and ('Error' in out or 'TIMEOUT' in out):
        fails = ['(build did not finish) ' + out[-200:]]
    return fails, out

def main():
    if not os.path.isdir(scratch):
        shutil.copytree(root + '/rocq', scratch)
    subprocess.run(['rsync', '-a', '--exclude=*.vo*', root + '/rocq/theories/', scratch + '/theories/']) if shutil.which('rsync') else \
        subprocess.run('for f in %s/rocq/theories/*.v; do cmp -s $f %s/theories/$(basename $f) || cp $f %s/theories/; done; cp %s/rocq/_CoqProject %s/' % (root, scratch, scratch, root, scratch), shell=True)
    subprocess.run('cp %s/rocq/_CoqProject %s/ && coq_makefile -f _CoqProject -o Makefile' % (root, scratch), shell=True, cwd=scratch)
    fails, out = build()
    if fails: print('baseline fails', fails, out[-2000:]); sys.exit(1)
    base = cases.passing(scratch)
    for e in json.load(open(sys.argv[1])):
        path = scratch + '/theories/' + e['file']
        src = open(path).read()
        if src.count(e['old']) != 1:
            print('SKIP (occurs %d times):' % src.count(e['old']), e['definition'], e['edit']); continue
        open(path, 'w').write(src.replace(e['old'], e['new']))
        fails, out = build()
        entry = {'definition': e['file'][:-2] + '.' + e['definition'], 'edit': e['edit'], 'claim': e['claim'],
                 'failed': fails, 'cases': sorted(base - cases.passing(scratch)), 'tightened': e.get('tightened', [])}
        print(json.dumps(entry), flush=True)
        with open(log, 'a') as f: f.write(json.dumps(entry) + '\n')
        open(path, 'w').write(src)
    # restore is picked up by the next run
main()
