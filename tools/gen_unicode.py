#!/usr/bin/env python3
"""Generates rocq/theories/UniTables.v from CPython's unicodedata (run with Python 3.11).

nd_starts   : first code points of the runs of ten Unicode decimal digits ('\\d' with re.UNICODE,
              accepted by int() and float())
nonprintable: ranges of code points c for which chr(c).isprintable() is False, i.e. those repr()
              escapes
space_ranges: code points c with chr(c).isspace()
"""
import sys, unicodedata
def ranges(pred):
    out=[]; start=None
    for c in range(0x110000):
        if pred(c):
            if start is None: start=c
        elif start is not None:
            out.append((start,c-1)); start=None
    if start is not None: out.append((start,0x10ffff))
    return out
nd=[c for c in range(0x110000) if unicodedata.category(chr(c))=='Nd' and unicodedata.decimal(chr(c))==0]
assert sum(1 for c in range(0x110000) if unicodedata.category(chr(c))=='Nd')==10*len(nd)
for s in nd:
    for k in range(10): assert unicodedata.decimal(chr(s+k))==k
np=ranges(lambda c: not chr(c).isprintable())
sp=ranges(lambda c: chr(c).isspace())
def emit(name,l,doc):
    print('(** %s *)'%doc); print('Definition %s : list (N * N) :='%name); print('  [ '+';\n    '.join('(%d, %d)'%r for r in l)+' ]%N.\n')
print('(** GENERATED by tools/gen_unicode.py from CPython %s, Unicode %s.  Tables only. *)'%(sys.version.split()[0],unicodedata.unidata_version))
print('From Coq Require Import List NArith.\nImport ListNotations.\n')
print('(** Starts of the runs of ten decimal digits (category Nd): what [\\d] matches in lexrules.py:133,138. *)')
print('Definition nd_starts : list N :=\n  [ '+'; '.join(map(str,nd))+' ]%N.\n')
emit('nonprintable',np,'Code points that [repr] escapes (str.isprintable is False).')
emit('space_ranges',sp,'Code points with str.isspace().')
