#!/usr/bin/env python3
"""Add a property: add_claim.py file.json with {id, prop: [title, statement, quantifier, why, anchors...], note, row: [model, proof], files: [...]}"""
import json, sys
for d in json.load(open(sys.argv[1])):
    s = open('tools/gen_properties.py').read()
    k = "with open('/verif/properties.jsonl'"
    if d['prop'][0] not in s:
        t = 'p(' + ',\n  '.join(json.dumps(x, ensure_ascii=False) for x in d['prop']) + ')\n'
        s = s.replace(k, t + k)
        open('tools/gen_properties.py', 'w').write(s)
    for f, key in (('tools/notes.json', 'note'), ('tools/design_rows.json', 'row')):
        j = json.load(open(f))
        j[d['id']] = {'note': d['note']} if key == 'note' else d['row']
        json.dump(j, open(f, 'w'), indent=1)
    c = open('rocq/_CoqProject').read()
    for f in d['files']:
        if f'theories/{f}\n' not in c + '\n': c = c.rstrip('\n') + f'\ntheories/{f}\n'
    open('rocq/_CoqProject', 'w').write(c)
