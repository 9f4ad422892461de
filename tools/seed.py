#!/usr/bin/env python3
"""Seeded-bug harness.  Usage: seed.py mutants.json
Each mutant: {"id","file","definition","old","new","claim","edit"}, optionally "also": further edits, "targets": the
Props files to rebuild (default: all).  The Coq
sources are copied (with their compiled files) to a scratch directory outside
/verif, the edit is applied there, and everything is rebuilt.  A lemma whose
proof breaks is given up (Admitted, in the scratch copy only) so that the
rebuild reaches every later file; at the end Print Assumptions tells which
property theorems rest on a broken proof.  One JSON line per mutant is appended
to /verif/seeded/LOG.jsonl."""
import json, os, re, subprocess, sys, shutil
ROOT = '/verif/rocq'
SC = os.environ.get('SCRATCH', '/tmp/mut')
HEAD = re.compile(r'^\s*(?:Local\s+|Global\s+|#\[[^\]]*\]\s*)*(Lemma|Theorem|Example|Corollary|Remark|Fact|Proposition|Instance)\s+([A-Za-z_0-9\']+)', re.M)

def sh(cmd, timeout=2400):
    try:
        return subprocess.run(cmd, shell=True, capture_output=True, text=True, timeout=timeout)
    except subprocess.TimeoutExpired:
        return None

def enclosing(src, pos):
    best = None
    for m in HEAD.finditer(src):
        if m.start() <= pos: best = m
    if not best: return None
    e = re.compile(r'\b(Qed|Defined|Admitted)\.').search(src, best.end())
    p = re.compile(r'\bProof\b[^.]*\.').search(src, best.end())
    if not e or not p or p.start() > e.start() or e.end() < pos: return None
    return best.group(2), best.start(), p.start(), e.end()

def run(m):
    shutil.rmtree(SC, ignore_errors=True)
    subprocess.run(['cp', '-a', ROOT, SC], check=True)
    f = f'{SC}/theories/{m["file"]}'
    s = open(f).read()
    n = s.count(m['old'])
    if n != 1 and not (m.get('nth') is not None and n > m['nth']):
        return {'id': m.get('id'), 'error': f'old text occurs {n} times'}
    if n == 1: s = s.replace(m['old'], m['new'])
    else:
        parts = s.split(m['old']); k = m['nth'] + 1
        s = m['old'].join(parts[:k]) + m['new'] + m['old'].join(parts[k:])
    open(f, 'w').write(s)
    for fn, a, b in m.get('also', []):   # unfolding lemmas that repeat the definition
        q = f'{SC}/theories/{fn}'; t = open(q).read()
        if t.count(a) != 1: return {'id': m.get('id'), 'error': f'also: {t.count(a)} occurrences in {fn}'}
        open(q, 'w').write(t.replace(a, b))
    sh(f'cd {SC} && coq_makefile -f _CoqProject -o Makefile')
    broken = []; stuck = []
    for rnd in range(60):
        r = sh(f'cd {SC} && (ulimit -v 7000000; nice make -k -j{os.environ.get("J","2")} TIMED= COQC="timeout 900 coqc" {" ".join("theories/%s.vo" % t for t in m.get("targets", []))})')
        out = r.stdout + r.stderr
        if r.returncode == 0: break
        errs = re.findall(r'File "\.?/?(theories/\w+\.v)", line (\d+), characters (\d+)-\d+:\s*\nError', out)
        errs = [(a, int(b), int(c)) for a, b, c in errs]
        if not errs:
            stuck.append('no parsable error: ' + out[-300:]); break
        fixed = False
        for (fn, ln, ch) in errs:
            p = f'{SC}/{fn}'; src = open(p).read()
            lines = src.split('\n'); pos = sum(len(x) + 1 for x in lines[:ln-1]) + ch
            e = enclosing(src, pos)
            if e is None:
                stuck.append(f'{fn}:{ln}'); continue
            name, a, b, c = e
            open(p, 'w').write(src[:b] + 'Admitted.' + src[c:]); broken.append(f'{os.path.basename(fn)[:-2]}.{name}'); fixed = True
        if not fixed: break
    # which property theorems rest on a broken proof
    affected = []; ok = []; unbuilt = []
    for fn in sorted(os.listdir(f'{SC}/theories')):
        if not (fn.startswith('Props_') and fn.endswith('.v')): continue
        if m.get('targets') and fn[:-2] not in m['targets']: continue
        if not os.path.exists(f'{SC}/theories/{fn}o') or (stuck and os.path.getmtime(f'{SC}/theories/{fn}o') < os.path.getmtime(f)):
            unbuilt.append(fn); continue
        src = open(f'{SC}/theories/{fn}').read()
        names = [x[1] for x in HEAD.findall(src) if x[0] == 'Theorem']
        t = f'From Verif Require Import {fn[:-2]}.\n' + ''.join(f'Print Assumptions {x}.\n' for x in names)
        open(f'{SC}/chk.v', 'w').write(t)
        r = sh(f'cd {SC} && coqc -Q theories Verif chk.v')
        blocks = re.split(r'(?=^Closed under the global context|^Axioms:)', r.stdout, flags=re.M)
        blocks = [b for b in blocks if b.strip()]
        if len(blocks) != len(names): unbuilt.append(fn + ' (assumptions: ' + (r.stderr[-200:]) + ')'); continue
        for x, b in zip(names, blocks):
            (ok if b.startswith('Closed') else affected).append(x)
    return {'id': m.get('id'), 'definition': f"{m['file']}: {m['definition']}", 'edit': m['edit'], 'claim': m['claim'],
            'theorems_failed': affected, 'lemmas_broken': broken, 'files_not_rebuilt': unbuilt, 'stuck': stuck,
            'theorems_tightened': m.get('tightened', [])}

if __name__ == '__main__':
    only = set(sys.argv[2:])
    for m in json.load(open(sys.argv[1])):
        if only and m['id'] not in only: continue
        res = run(m)
        print(json.dumps(res), flush=True)
        if 'error' not in res:
            with open('/verif/seeded/LOG.jsonl', 'a') as g: g.write(json.dumps(res) + '\n')
