#!/usr/bin/env python3
"""print the statements of the given theorems"""
import sys, re, glob, os
root = os.path.join(os.path.dirname(__file__), '..')
src = "\n".join(open(f).read() for f in glob.glob(root + '/rocq/theories/*.v'))
for t in sys.argv[1:]:
    m = re.search(r'(Theorem|Lemma|Definition|Fixpoint|Inductive) ' + t + r'\b.*?(?=\nProof|\n\n|\n\(\*\*)', src, re.S)
    print(m.group(0) if m else t + ' ?')
