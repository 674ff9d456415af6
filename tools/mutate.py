#!/usr/bin/env python3
"""Random seeded-bug runs: change one place of one definition of the model at random in a
scratch copy of rocq/, rebuild until the first proof fails, and write one JSON line per edit.

usage: mutate.py scratch-dir out.jsonl seed [file.v ...]
"verdict" is killed (a proof failed; "failed" names it), ill-typed (the model itself is
rejected), timeout, or SURVIVED.  Replay.v (fixed examples) is left out of the build."""
import json, os, random, re, shutil, signal, subprocess, sys
root = os.path.dirname(os.path.dirname(os.path.abspath(__file__)))
scratch, outf, seed = sys.argv[1], sys.argv[2], int(sys.argv[3])
files = sys.argv[4:] or ['Util.v', 'PyNum.v', 'PyLib.v', 'OxmCodec.v', 'Oxm.v', 'Nx.v', 'Ofp4.v', 'Cli.v']
DEF = re.compile(r'^\s*(?:Definition|Fixpoint|with|Inductive|Record)\s+(\w+)')
SWAPS = [('<?', '<=?'), ('<=?', '<?'), ('=?', '<=?'), ('&&', '||'), ('||', '&&'), ('firstn', 'skipn'),
         ('skipn', 'firstn'), ('true', 'false'), ('false', 'true'), ('sB', 'sH'), ('sH', 'sI'), ('sI', 'sH'),
         ('sQ', 'sI'), ('+', '-'), ('-', '+'), ('*', '+'), ('Z.lor', 'Z.land'), ('Z.land', 'Z.lor'),
         ('Z.shiftl', 'Z.shiftr'), ('Z.shiftr', 'Z.shiftl'), ('Some', 'NONE'), ('Raise', 'RAISE'), ('assert!', 'ASSERT')]

def spans(src):
    """character positions outside comments"""
    ok, depth, i = [True] * len(src), 0, 0
    instr = False
    while i < len(src):
        if src.startswith('(*', i) and not instr: depth += 1; ok[i] = ok[i+1] = False; i += 2; continue
        if src.startswith('*)', i) and depth: depth -= 1; ok[i] = ok[i+1] = False; i += 2; continue
        if src[i] == '"' and not depth: instr = not instr
        if depth: ok[i] = False
        i += 1
    return ok

def sites(fn):
    src = open(f'{root}/rocq/theories/{fn}').read()
    ok, out = spans(src), []
    line_of = lambda p: src.count('\n', 0, p) + 1
    lines, cur, at = src.split('\n'), None, {}
    for n, l in enumerate(lines, 1):
        m = DEF.match(l)
        if m: cur = m.group(1)
        elif re.match(r'^(Lemma|Theorem|Proof|Notation|From|Require|Arguments|Open|Local|Ltac|Declare|Infix)', l): cur = None
        at[n] = cur
    def add(p, q, new, kind):
        d = at[line_of(p)]
        if d and all(ok[p:q]): out.append((fn, d, p, q, new, kind, line_of(p)))
    for m in re.finditer(r'(?<![\w"$.])(0x[0-9a-fA-F]+|\d+)(?![\w"])', src):
        v = int(m.group(1), 0)
        add(m.start(), m.end(), str(v + 1), 'number')
        if v > 0: add(m.start(), m.end(), str(v - 1), 'number')
    for m in re.finditer(r'\$"([^"]*)"', src):
        s = m.group(1)
        if s: add(m.start(), m.end(), '$"%s"' % (s[:-1] + ('y' if s[-1] == 'x' else 'x')), 'text')
    for a, b in SWAPS:
        pat = (r'(?<!\w)' + re.escape(a) + r'(?!\w)') if a[0].isalpha() else r'(?<![\w<>=&|+*~-])' + re.escape(a) + r'(?![<>=&|+*~?-])' if a not in ('&&', '||') else re.escape(a)
        for m in re.finditer(pat, src):
            if src[m.start():].startswith('->') or src[m.start()-1:m.start()+1] in ('<-', '++'): continue
            if b in ('NONE', 'ASSERT'): continue
            if b == 'RAISE':
                k = re.match(r'Raise (\w+)', src[m.start():])
                if k and k.group(1) not in ('e',):
                    add(m.start(), m.start() + len(k.group(0)), 'Raise ' + ('KeyError' if k.group(1) != 'KeyError' else 'ValueError'), 'exception')
                continue
            add(m.start(), m.end(), b, 'operator')
    for m in re.finditer(r'assert! ', src):
        e = src.find(';;', m.end())
        add(m.start(), e, 'assert! true ', 'assertion dropped')
    for m in re.finditer(r'(?<!\w)if ', src):
        depth, p, ifs = 0, m.end(), 0
        while p < len(src):
            if src[p] in '([': depth += 1
            if src[p] in ')]': depth -= 1
            if depth == 0 and src.startswith(' then', p): break
            p += 1
        if p - m.end() < 200: add(m.end(), p, 'negb (%s)' % src[m.end():p], 'condition negated')
    return src, out

def lemma_at(path, line):
    name = None
    for i, l in enumerate(open(path), 1):
        if i > line: break
        m = re.match(r'\s*(?:Lemma|Theorem|Example|Definition|Fixpoint|Fact|Corollary|Remark)\s+(\w+)', l)
        if m: name = m.group(1)
    return name

def build(keep=False):
    p = subprocess.Popen('ulimit -v 6000000; make %s -j2 COQC="timeout 700 coqc" 2>&1' % ('-k' if keep else ''),
                         shell=True, cwd=scratch, stdout=subprocess.PIPE, text=True, start_new_session=True)
    try: out, _ = p.communicate(timeout=3000)
    except subprocess.TimeoutExpired:
        os.killpg(p.pid, signal.SIGKILL); out = p.communicate()[0] + '\nTIMEOUT'
    fails = []
    for m in re.finditer(r'File "\./theories/(\w+)\.v", line (\d+).*\n(?:.*\n)??Error', out):
        fails.append((m.group(1), lemma_at(scratch + '/theories/%s.v' % m.group(1), int(m.group(2)))))
    return p.returncode, fails, out

def main():
    if not os.path.isdir(scratch):
        shutil.copytree(root + '/rocq', scratch)
    for f in os.listdir(root + '/rocq/theories'):
        if f.endswith('.v'):
            a, b = root + '/rocq/theories/' + f, scratch + '/theories/' + f
            if not os.path.exists(b) or open(a).read() != open(b).read(): shutil.copy(a, b)
    proj = [l for l in open(root + '/rocq/_CoqProject') if 'Replay' not in l]
    open(scratch + '/_CoqProject', 'w').writelines(proj)
    subprocess.run('coq_makefile -f _CoqProject -o Makefile', shell=True, cwd=scratch)
    rc, fails, out = build()
    if rc: print('baseline fails', fails, out[-1500:]); sys.exit(1)
    allsites, srcs = [], {}
    for fn in files:
        srcs[fn], s = sites(fn); allsites += s
    # one site per definition in turn, so that long definitions do not dominate
    rnd = random.Random(seed); rnd.shuffle(allsites)
    seen, order = {}, []
    for s in allsites:
        k = (s[0], s[1]); seen[k] = seen.get(k, 0) + 1
        order.append((seen[k], len(order), s))
    order.sort()
    print(len(order), 'sites in', len(seen), 'definitions', flush=True)
    done = set()
    if os.path.exists(outf):
        for l in open(outf): d = json.loads(l); done.add((d['definition'], d['line'], d['old'], d['new']))
    for _, _, (fn, d, p, q, new, kind, line) in order:
        src = srcs[fn]; path = scratch + '/theories/' + fn
        key = (fn[:-2] + '.' + d, line, src[p:q], new)
        if key in done: continue
        done.add(key)
        open(path, 'w').write(src[:p] + new + src[q:])
        rc, fails, out = build()
        if rc and not fails:                 # a proof that no longer finishes: look for others that fail
            rc, fails, out = build(keep=True)
        late = sorted(set(re.findall(r'theories/(\w+)\.vo\] Error 124', out)))
        if rc == 0: v = 'SURVIVED'
        elif any(f == fn[:-2] for f, _ in fails) and fails[0][0] == fn[:-2]: v = 'ill-typed'
        elif not fails: v = 'timeout'
        else: v = 'killed'
        ctx = src[src.rfind('\n', 0, p)+1:src.find('\n', q)].strip()
        e = {'definition': key[0], 'line': line, 'kind': kind, 'old': key[2], 'new': new, 'context': ctx[:160],
             'verdict': v, 'failed': ['%s.%s' % f for f in fails], 'late': late}
        with open(outf, 'a') as f: f.write(json.dumps(e) + '\n')
        open(path, 'w').write(src)
main()
