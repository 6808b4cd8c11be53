#!/usr/bin/env python3
"""Turns the raw output of the mutation driver into seeded/LOG.jsonl lines.
usage: mutlog.py RESULTS.jsonl... > LOG.jsonl.  The property theorems listed as failed are those of the claim named by the
mutant whose file needs (transitively) a file in which the build broke, together with the lemma where it broke."""
import sys, json, re, glob, os
root = os.path.dirname(os.path.dirname(os.path.abspath(__file__)))
th = root + '/rocq/theories/'
deps, thms = {}, {}
for f in glob.glob(th + '*.v'):
    n = os.path.basename(f)[:-2]
    s = open(f).read()
    deps[n] = set(w for m in re.findall(r'From Verif Require (?:Import |Export )?([^.]*)\.', s) for w in m.split())
    for t in re.findall(r'^Theorem (C\d+_\w+)', s, re.M): thms[t] = n
def needs(n, seen=None):
    seen = seen if seen is not None else set()
    for d in deps.get(n, ()):
        if d not in seen:
            seen.add(d); needs(d, seen)
    return seen
closure = {n: needs(n) | {n} for n in deps}
for f in sys.argv[1:]:
    for l in open(f):
        r = json.loads(l)
        if r['status'].startswith('BAD') or r['claim'] == 'n/a': continue
        fails = r.get('fails') or []
        broken = {x.split('.')[0] for x in fails}
        ids = re.findall(r'C\d\d+', r['claim'])
        own = [t for t, n in sorted(thms.items()) if t.split('_')[0] in ids and closure[n] & broken]
        ent = {'id': r['id'], 'definition': '%s (%s)' % (r['definition'], r['file']), 'edit': r['edit'],
               'claim_broken': r['claim'], 'result': 'rejected' if r['status'] == 'killed' else 'SURVIVED',
               'theorems_failed': fails + own, 'theorems_tightened': r.get('tightened', [])}
        if r.get('note'): ent['note'] = r['note']
        print(json.dumps(ent))
