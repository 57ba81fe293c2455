"""Write MANIFEST.json from the theorem names found in rocq/theories/P_*.v.

Theorems are attached to the property named by their prefix (C01_...).  A property
is "partial" when a theorem for it ends in _partial or _refuted, "proved" otherwise;
the status can be overridden in STATUS, and notes are in NOTES.
"""
import glob, json, os, re

HERE = os.path.dirname(os.path.abspath(__file__))
ROOT = os.path.dirname(HERE)

exec(open(os.path.join(HERE, 'manifest_notes.py')).read())

thms = {}
for f in sorted(glob.glob(os.path.join(ROOT, 'rocq/theories/P_*.v'))):
    for m in re.finditer(r'^Theorem (C\d\d\w*)', open(f).read(), re.M):
        thms.setdefault(m.group(1).split('_')[0], []).append(m.group(1))

claims = []
for line in open(os.path.join(ROOT, 'properties.jsonl')):
    i = json.loads(line)['id']
    if i not in thms:
        continue
    status = STATUS.get(i)
    if status is None:
        bad = any(t.endswith('_partial') or t.endswith('_refuted') for t in thms[i])
        status = 'partial' if bad else 'proved'
    claims.append({'property': i, 'status': status, 'theorems': thms[i], 'note': NOTES.get(i, '')})

with open(os.path.join(ROOT, 'MANIFEST.json'), 'w') as f:
    json.dump({'claims': claims}, f, indent=1)
    f.write('\n')
print(len(claims), 'claims')
