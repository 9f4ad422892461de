#!/usr/bin/env python3
"""write DESIGN.md: tools/design_head.md + a row per property (tools/design_rows.json, MANIFEST.json, properties.jsonl)"""
import json, os
root = os.path.join(os.path.dirname(os.path.abspath(__file__)), '..')
rows = json.load(open(root + '/tools/design_rows.json'))
man = {c['property']: c for c in json.load(open(root + '/MANIFEST.json'))['claims']}
out = [open(root + '/tools/design_head.md').read().rstrip(), '',
       '## Per-property design', '',
       'Model = the files that model the code; proof = the method; not covered = from MANIFEST.json.', '']
for l in open(root + '/properties.jsonl'):
    p = json.loads(l)
    i = p['id']
    c = man[i]
    m, how = rows[i]
    out.append('* **%s** (%s) %s.' % (i, c['status'], p['title']))
    out.append('  - Model: %s. Proof: %s.' % (m, how))
    out.append('  - Theorems: %s.' % ', '.join('`%s`' % t for t in c['theorems']))
    if c.get('note'):
        out.append('  - Scope: %s' % c['note'])
open(root + '/DESIGN.md', 'w').write('\n'.join(out) + '\n')
print(len(out), 'lines')
