#!/usr/bin/env python3
"""Writes seeded/LOG.jsonl from the results of tools/mutate.py (later files override earlier ones).

usage: log_mutants.py RESULTS.jsonl...
"""
import json, os, re, sys
sys.dont_write_bytecode = True
HERE = os.path.dirname(os.path.abspath(__file__))
sys.path.insert(0, os.path.join(HERE, '..', 'seeded'))
import mutants
from tightened import TIGHTENED, EQUIVALENT
HEAD = re.compile(r'^\s*(?:Definition|Fixpoint|Inductive|Record|with)\s+([\w\']+)', re.M)

results = {}
for f in sys.argv[1:]:
    for line in open(f):
        r = json.loads(line)
        if r['id'] not in results or 'failed' in r: results[r['id']] = r
out = open(os.path.join(HERE, '..', 'seeded', 'LOG.jsonl'), 'w')
caught = alive = missing = 0
for id_, file, old, new, claims, what in mutants.MUTANTS:
    r = results.get(id_)
    if r is None or 'failed' not in r:
        missing += 1
        print('no result', id_)
        continue
    text = open(os.path.join(HERE, '..', 'rocq', 'theories', file + '.v')).read()
    pos = text.find(old)
    if pos < 0: print('text gone', id_)
    names = [m.group(1) for m in HEAD.finditer(text, 0, pos + max(1, len(old) - len(old.lstrip())) + 1)]
    failed = sorted(set(r['failed']) | set(r.get('not_compiled', [])))
    d = {'mutant': id_, 'definition': file + '.' + (names[-1] if names else '?'), 'edit': old.strip() + '  ->  ' + new.strip(),
         'what': what, 'claim_broken': claims, 'theorems_failed': failed, 'lemmas_broken': r['broken'],
         'theorems_tightened': TIGHTENED.get(id_, [])}
    if failed: caught += 1
    else:
        alive += 1
        d['note'] = EQUIVALENT.get(id_, '?')
        if d['note'] == '?': print('alive', id_)
    out.write(json.dumps(d) + '\n')
print(caught, 'caught', alive, 'alive', missing, 'missing')
