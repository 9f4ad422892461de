#!/usr/bin/env python3
"""Writes MANIFEST.json.  Every theorem listed must exist in rocq/theories (checked here)."""
import json, re, glob, os
root = os.path.join(os.path.dirname(__file__), '..')
src = "\n".join(open(f).read() for f in glob.glob(root + '/rocq/theories/Props_*.v'))
ths = re.findall(r'^\s*Theorem (C\d\d_\w+)', src, re.M)
notes = json.load(open(root + '/tools/notes.json'))
props = [json.loads(l)['id'] for l in open(root + '/properties.jsonl')]
claims = []
for p in props:
    mine = [t for t in ths if t.startswith(p + '_')]
    n = notes.get(p, {})
    for t in n.get('theorems', []):
        assert t in ths, t
    mine += [t for t in n.get('theorems', []) if t not in mine]
    if not mine and not n:
        continue
    status = n.get('status') or ('partial' if any(t.endswith(('_partial', '_refuted')) for t in mine) else 'proved')
    claims.append({'property': p, 'status': status, 'theorems': mine, 'note': n.get('note', '')})
json.dump({'claims': claims}, open(root + '/MANIFEST.json', 'w'), indent=1)
print(len(claims), 'claims', sum(len(c['theorems']) for c in claims), 'theorems', {s: sum(c['status'] == s for c in claims) for s in ('proved', 'partial', 'not_applicable')})
