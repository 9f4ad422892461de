#!/usr/bin/env python3
"""Extracts the field tables of the XmlObject classes shipped with eulxml (read as text with Python's ast
module, nothing is imported) and writes rocq/theories/Shipped.v."""
import ast, os, sys
REPO = '/repo/eulxml/xmlmap/'
FILES = ['mods.py', 'dc.py', 'premis.py', 'teimap.py', 'eadmap.py', 'cerp.py']
rows = []
for fn in FILES:
    src = open(REPO + fn).read()
    tree = ast.parse(src)
    consts = {}
    classes = {}
    def val(e):
        if isinstance(e, ast.Constant): return e.value
        if isinstance(e, ast.Name): return consts.get(e.id, ('?', e.id))
        if isinstance(e, ast.BinOp) and isinstance(e.op, ast.Add): return val(e.left) + val(e.right)
        if isinstance(e, ast.BinOp) and isinstance(e.op, ast.Mod):
            r = val(e.right); return val(e.left) % r
        if isinstance(e, ast.Dict): return {val(k): val(v) for k, v in zip(e.keys, e.values)}
        if isinstance(e, (ast.List, ast.Tuple)): return [val(x) for x in e.elts]
        return ('?', ast.dump(e)[:60])
    for st in tree.body:
        if isinstance(st, ast.Assign) and isinstance(st.targets[0], ast.Name):
            consts[st.targets[0].id] = val(st.value)
        if isinstance(st, ast.ClassDef):
            bases = [b.id if isinstance(b, ast.Name) else b.attr for b in st.bases]
            local = {}
            fields = {}
            for s in st.body:
                if isinstance(s, ast.Assign) and isinstance(s.targets[0], ast.Name):
                    n = s.targets[0].id
                    v = s.value
                    if isinstance(v, ast.Call) and (getattr(v.func, 'attr', None) or getattr(v.func, 'id', '')).endswith('Field') :
                        f = getattr(v.func, 'attr', None) or v.func.id
                        saved = dict(consts); consts.update({k: x for k, x in local.items()})
                        kw = {k.arg: val(k.value) for k in v.keywords}
                        xp = val(v.args[0]) if v.args else kw.get('xpath')
                        if f == 'SimpleBooleanField':
                            for i, k in ((1, 'true'), (2, 'false')):
                                if len(v.args) > i: kw[k] = val(v.args[i])
                        fields[n] = (f, xp, s.lineno, kw)
                        consts.clear(); consts.update(saved)
                    else:
                        saved = dict(consts); consts.update(local)
                        local[n] = val(v)
                        consts.clear(); consts.update(saved)
            ns = None
            for b in bases:
                if b in classes and classes[b]['ns'] is not None: ns = classes[b]['ns']; break
            if 'ROOT_NAMESPACES' in local: ns = local['ROOT_NAMESPACES']
            classes[st.name] = dict(bases=bases, ns=ns, fields=fields)
            for n, (f, xp, ln, kw) in fields.items():
                rows.append((fn, st.name, n, f, xp, ns, ln, kw))

def q(x): return 'u "%s"' % x.replace('"', '""')
def kind(r):
    f, kw = r[3], r[7]
    b = lambda x: 'true' if x else 'false'
    if f in ('StringField', 'SchemaField'): return 'Single (MString %s)' % b(kw.get('normalize'))
    if f == 'IntegerField': return 'Single MInt'
    if f == 'SimpleBooleanField':
        return 'Single (MBool (%s) %s)' % (q(kw['true']), 'None' if kw['false'] is None else '(Some (%s))' % q(kw['false']))
    if f == 'NodeField': return 'Single MNode'
    if f == 'StringListField': return 'Many (MString %s)' % b(kw.get('normalize'))
    if f == 'NodeListField': return 'Many MNode'
    raise ValueError(f)
def nsdef(fn): return 'ns_' + fn[:-3]
def out():
    o = []
    o.append("""(** GENERATED by tools/gen_shipped.py from the source text of eulxml/xmlmap/{mods,dc,premis,teimap,eadmap,cerp}.py:
    one row per xmlmap field declared in a shipped class, in source order.  r_file, r_line: where it is declared;
    r_kind: one node or a list, and the mapper its field class installs (fields.py:504-730: StringField and SchemaField
    a StringMapper, IntegerField an IntegerMapper, SimpleBooleanField a SimpleBooleanMapper, NodeField a NodeMapper);
    r_ns: the ROOT_NAMESPACES the class declares or inherits; r_xpath: the XPath string.  Fields with no XPath
    (ItemField, the property pairs of cerp.py) are not in the table. *)
From Coq Require Import String List ZArith.
From Verif Require Import Mappers.
Import ListNotations.
Local Open Scope string_scope.

Inductive rkind := Single (m : mapper) | Many (m : mapper).
Record row := mkRow { r_file : string; r_line : nat; r_class : string; r_field : string; r_kind : rkind; r_ns : list (str * str); r_xpath : str }.
""")
    seen = {}
    for r in rows:
        if r[0] not in seen:
            seen[r[0]] = r[5]
            o.append('(** ROOT_NAMESPACES of the classes in %s *)\nDefinition %s : list (str * str) := [%s].' % (r[0], nsdef(r[0]), '; '.join('(%s, %s)' % (q(k), q(v)) for k, v in r[5].items())))
        assert seen[r[0]] == r[5], r
    for fn in seen:
        o.append('\n(** the field declarations of eulxml/xmlmap/%s *)\nDefinition rows_%s : list row := [' % (fn, fn[:-3]))
        o.append(';\n'.join('  mkRow "%s" %d "%s" "%s" (%s) %s (%s)' % (fn, r[6], r[1], r[2], kind(r), nsdef(fn), q(r[4])) for r in rows if r[0] == fn))
        o.append('].')
    o.append('\nDefinition shipped : list row := %s.' % ' ++ '.join('rows_' + fn[:-3] for fn in seen))
    return '\n'.join(o) + '\n'
if __name__ == '__main__':
    if len(sys.argv) > 1:
        for r in rows: print(r[0], r[1], r[2], r[3], r[4], list(r[5] or []))
    else:
        for r in rows:
            assert isinstance(r[4], str) and r[5] is not None and all(isinstance(x, str) for x in list(r[5]) + list(r[5].values())), r
        open('/verif/rocq/theories/Shipped.v', 'w').write(out())
