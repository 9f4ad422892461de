# Formal model of eulxml in Rocq (Coq 8.16.1)

Sources: /repo (emory-libraries/eulxml at the pinned commit), read as Python 3 (ply >= 3.8, lxml >= 3.4,
Django < 4).  Model and proofs: `rocq/theories/`, logical name `Verif`.  This file is written by
`tools/gen_design.py`.

## Trusted base

* Coq 8.16.1's kernel, including its `vm_compute` reduction machine (used in proofs for the finite checks on the
  LALR tables, the Unicode tables and the table of shipped fields).
* `Print Assumptions` follows every property theorem in the Props_*.v files.  For every one of them it prints
  "Closed under the global context": no axiom, neither of our own nor of the standard library.
  vcheck also lists seven constants of `Coq.ssr.ssrunder.Under_rel` (`Under_rel`, `Under_rel_from_rel`,
  `Under_relE`, `Over_rel`, `over_rel`, `over_rel_done`, `under_rel_done`): they are fields of a sealed module of
  Coq's own ssreflect library that is loaded along with other files; no theorem here depends on them.
* No Admitted, no admit, no axiom, no functor, no module type, no kernel check switched off, no OCaml plugin.
* The reading of /repo into the model: every definition cites file and lines and says where it simplifies.
* Generated Coq files: `UniTables.v` (tools/gen_unicode.py: character classes of CPython's `re` and `str.isprintable`,
  Unicode 14) and `Shipped.v` (tools/gen_shipped.py: the field declarations of the six vocabulary modules, read with
  Python's `ast` module).  The scripts are trusted to transcribe.
* The modelled behaviour of software outside /repo, stated where it is modelled:
  - PLY: lexer rules in PLY's order with the master regex's first-match choice, LALR(1) table construction with
    precedence and default conflict resolution, driver loop with defaulted states (LALR.v computes the tables inside
    Coq from the grammar; they are not imported);
  - lxml: the element tree (text, tail, attributes in order, `remove` with tail, `clear`, `append`/`insert` moving a
    node, which strings it accepts), `etree.tostring` and XML parsing for documents of elements, attributes, text and comments
    (XmlText.v; elsewhere a function);
  - libxml2's XPath 1.0 evaluation: of the fragment fields.py can create nodes for (XPathEval.v: child and attribute
    steps with name tests, `text()`, `.`, `/`, predicates, `=`, and, or, count(), literals, integers, variables), and of the other
    XPaths that only look down (XPathRead.v: also `//`, `|`, `!=`, filter expressions, the axes self, descendant and
    descendant-or-self, and the functions of C89).  Other expressions give `XUnmodelled` and no theorem speaks about them;
  - libxml2's catalog reading: XML_CATALOG_FILES is split at blanks (C45);
  - CPython: `str`, `repr`, `list`, `dict`, `int`, C3 method resolution order, `strftime`/`strptime` for the
    directives used, glibc's `%Y` below year 1000;
  - Django: which forms a formset has, their cleaned data and the ordering data are inputs of the model.

## What is modelled and what is not, by source file

| file | modelled | not modelled |
|------|----------|--------------|
| xpath/ast.py | all AST classes, serialize, __str__ | `__repr__` of AST classes |
| xpath/lexrules.py, core.py, parserules.py | all token rules, LexerWrapper, all productions and actions, parse and the shared lexer's state | PLY's table cache file, debug output, recursion limit |
| xmlmap/fields.py | all mappers, node finding/creation/setting/removal, SingleNodeManager, NodeListManager and NodeList, NodeField assignment, SchemaField choices, field constructors as data | `get_xpath_xml`-style debugging, deprecation warnings, the text of log messages |
| xmlmap/core.py | XmlObjectType, XmlObject.__init__ (namespaces, keywords), `__eq__`, is_empty, xmlschema/validation, loadSchema cache, XsdSchema choices, serialize/serializeDocument and load_xmlobject_from_string on code points, the input of xsl_transform (C79), `__str__` (C81) | running a stylesheet, loading with DTD or from a file, `__string__` |
| xmlmap/mods.py | is_empty of all classes, all fields (C71-C75) | MODSv34/relatedItem subclass plumbing beyond fields |
| xmlmap/premis.py, teimap.py, eadmap.py, dc.py | all fields (C71-C75), Premis.__init__, TeiLine.indent, UnitTitle.short, hasSeries/hasSubseries | DublinCore's RDF type list (network), constructor of deprecated aliases |
| xmlmap/cerp.py | control-character removal, Message.from_email_message, all fields, parse_mail_date (C82) | email package parsing (parsedate_tz and header splitting are inputs), `__repr__` |
| forms/xmlobject.py | field lists, form class creation, initial data, __init__ and subforms, form class inheritance, update_instance, formsets (both kinds), is_valid, HTML output and labels | widgets, HTML of single forms (Django), max_num/extra/can_delete options |
| catalog.py | download_schema, generate_catalog with crash points | HTTP, argument parsing |
| eulxml/__init__.py | environment registration | version string |
| utils/compat.py | - | Python 2/3 aliases |

## Common modelling decisions

* Text is `str := list N` (Unicode code points).  Exceptions are values; a mutating operation returns the document
  state also when it raises, so that "failed but changed" is visible.
* Python's unbounded ints are `Z`; floats only where an integer passes through one (2^53 limit).
* XML documents are immutable trees; node identity is the address (path of child indices).  Where identity matters
  (node lists, formsets) nodes carry identities (NodeNodes.v).
* Property theorems live in `Props_*.v`, with the concrete cases that meet their hypotheses next to them
  (`Example Cnn_case`).  Specifications that the theorems mention are in small files of their own: XPathSpec, XPathCanon,
  W3CGrammar, LexSpec, FieldSpec, DocSpec, ListSpec, IndepSpec, ForkSpec; or at the head of the Props file.
* Names: `Cnn_...`; a suffix `_partial` marks a theorem that covers only part of its property; `_refuted` marks a
  proof that the property as stated is false of the model (a finding about the code); the other theorems are complete
  for what their statement says.  C59-C70 restate the part of a partial property that holds unconditionally.
* Wrong programs: `tools/seed.py` applies the edits in `seeded/mutants_*.json` to a scratch copy and rebuilds;
  `seeded/LOG.jsonl` records which theorems failed and which were tightened.

Runtime behaviour that no executable model here exhibits: threads inside one lexer call or inside lxml (C80 interleaves
whole tokens, shifts and reductions), network I/O timing, lxml's C-level memory behaviour.
