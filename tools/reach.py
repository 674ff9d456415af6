#!/usr/bin/env python3
"""Which claims rest on a lemma: reads the .glob files of a build of rocq/.

usage: reach.py File.lemma ...        (prints the claims, Cnn, whose theorems use it)
       reach.py --log mutate-out.jsonl  (converts killed edits to lines of seeded/LOG.jsonl)"""
import bisect, collections, glob, json, os, re, sys
root = os.path.dirname(os.path.dirname(os.path.abspath(__file__)))
users = collections.defaultdict(set)
for g in glob.glob(root + '/rocq/theories/*.glob'):
    mod, defs, refs = os.path.basename(g)[:-5], [], []
    for l in open(g):
        m = re.match(r'(?:prf|def|thm|ind|rec|fix|lem|ex)\s*(\d+):\d+ \S+ (\S+)', l)
        if m: defs.append((int(m.group(1)), m.group(2)))
        m = re.match(r'R(\d+):\d+ Verif\.(\w+) \S+ (\S+) (?:thm|def|prfax|ind|constr|ax|abbrev|proj|rec)\b', l)
        if m: refs.append((int(m.group(1)), '%s.%s' % (m.group(2), m.group(3))))
    defs.sort(); starts = [d[0] for d in defs]
    for p, t in refs:
        i = bisect.bisect_right(starts, p) - 1
        if i >= 0: users[t].add('%s.%s' % (mod, defs[i][1]))
def claims(*lemmas):
    seen, todo = set(lemmas), list(lemmas)
    while todo:
        for u in users[todo.pop()]:
            if u not in seen: seen.add(u); todo.append(u)
    return sorted({m.group(1) for m in (re.match(r'Prop\w+\.(C\d+)_', s) for s in seen) if m})
if __name__ == '__main__':
    if sys.argv[1] == '--log':
        for l in open(sys.argv[2]):
            x = json.loads(l)
            if x['verdict'] != 'killed': continue
            c = claims(*x['failed'])
            print(json.dumps({'definition': x['definition'], 'edit': 'random edit (%s): %s -> %s in: %s' % (x['kind'], x['old'], x['new'], x['context']),
                'claim': ', '.join(c[:6]) + (' and %d more' % (len(c) - 6) if len(c) > 6 else ''), 'failed': x['failed'], 'cases': [], 'tightened': []}))
    else: print(*claims(*sys.argv[1:]))
