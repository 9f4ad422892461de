# Formal model of eulxml in Rocq (Coq 8.16.1)

Sources: /repo (emory-libraries/eulxml at the pinned commit), read as Python 3 (ply >= 3.8, lxml >= 3.4,
Django < 4).  Model and proofs: `rocq/theories/`, logical name `Verif`.  This file is written by
`tools/gen_design.py`.

## Trusted base

* Coq 8.16.1's kernel, including its `vm_compute` reduction machine (used in proofs for the finite checks on the
  LALR tables, the Unicode tables and the table of shipped fields).
* `Print Assumptions` follows every property theorem in the Props_*.v files.  For every one of them it prints
  "Closed under the global context": no axiom, neither of our own nor of the standard library.
  vcheck also lists seven constants of `Coq.ssr.ssrunder.Under_rel` (`Under_rel`, `Under_rel_from_rel`,
  `Under_relE`, `Over_rel`, `over_rel`, `over_rel_done`, `under_rel_done`): they are fields of a sealed module of
  Coq's own ssreflect library that is loaded along with other files; no theorem here depends on them.
* No Admitted, no admit, no axiom, no functor, no module type, no kernel check switched off, no OCaml plugin.
* The reading of /repo into the model: every definition cites file and lines and says where it simplifies.
* Generated Coq files: `UniTables.v` (tools/gen_unicode.py: character classes of CPython's `re` and `str.isprintable`,
  Unicode 14) and `Shipped.v` (tools/gen_shipped.py: the field declarations of the six vocabulary modules, read with
  Python's `ast` module).  The scripts are trusted to transcribe.
* The modelled behaviour of software outside /repo, stated where it is modelled:
  - PLY: lexer rules in PLY's order with the master regex's first-match choice, LALR(1) table construction with
    precedence and default conflict resolution, driver loop with defaulted states (LALR.v computes the tables inside
    Coq from the grammar; they are not imported);
  - lxml: the element tree (text, tail, attributes in order, `remove` with tail, `clear`, `append`/`insert` moving a
    node, which strings it accepts), `etree.tostring` and XML parsing for documents of elements, attributes, text and comments
    (XmlText.v; elsewhere a function);
  - libxml2's XPath 1.0 evaluation: of the fragment fields.py can create nodes for (XPathEval.v: child and attribute
    steps with name tests, `text()`, `.`, `/`, predicates, `=`, and, or, count(), literals, integers, variables), and of the other
    XPaths that only look down (XPathRead.v: also `//`, `|`, `!=`, filter expressions, the axes self, descendant and
    descendant-or-self, and the functions of C89).  Other expressions give `XUnmodelled` and no theorem speaks about them;
  - libxml2's catalog reading: XML_CATALOG_FILES is split at blanks (C45);
  - CPython: `str`, `repr`, `list`, `dict`, `int`, C3 method resolution order, `strftime`/`strptime` for the
    directives used, glibc's `%Y` below year 1000;
  - Django: which forms a formset has, their cleaned data and the ordering data are inputs of the model.

## What is modelled and what is not, by source file

| file | modelled | not modelled |
|------|----------|--------------|
| xpath/ast.py | all AST classes, serialize, __str__ | `__repr__` of AST classes |
| xpath/lexrules.py, core.py, parserules.py | all token rules, LexerWrapper, all productions and actions, parse and the shared lexer's state | PLY's table cache file, debug output, recursion limit |
| xmlmap/fields.py | all mappers, node finding/creation/setting/removal, SingleNodeManager, NodeListManager and NodeList, NodeField assignment, SchemaField choices, field constructors as data | `get_xpath_xml`-style debugging, deprecation warnings, the text of log messages |
| xmlmap/core.py | XmlObjectType, XmlObject.__init__ (namespaces, keywords), `__eq__`, is_empty, xmlschema/validation, loadSchema cache, XsdSchema choices, serialize/serializeDocument and load_xmlobject_from_string on code points, the input of xsl_transform (C79), `__str__` (C81) | running a stylesheet, loading with DTD or from a file, `__string__` |
| xmlmap/mods.py | is_empty of all classes, all fields (C71-C75) | MODSv34/relatedItem subclass plumbing beyond fields |
| xmlmap/premis.py, teimap.py, eadmap.py, dc.py | all fields (C71-C75), Premis.__init__, TeiLine.indent, UnitTitle.short, hasSeries/hasSubseries | DublinCore's RDF type list (network), constructor of deprecated aliases |
| xmlmap/cerp.py | control-character removal, Message.from_email_message, all fields, parse_mail_date (C82) | email package parsing (parsedate_tz and header splitting are inputs), `__repr__` |
| forms/xmlobject.py | field lists, form class creation, initial data, __init__ and subforms, form class inheritance, update_instance, formsets (both kinds), is_valid, HTML output and labels | widgets, HTML of single forms (Django), max_num/extra/can_delete options |
| catalog.py | download_schema, generate_catalog with crash points | HTTP, argument parsing |
| eulxml/__init__.py | environment registration | version string |
| utils/compat.py | - | Python 2/3 aliases |

## Common modelling decisions

* Text is `str := list N` (Unicode code points).  Exceptions are values; a mutating operation returns the document
  state also when it raises, so that "failed but changed" is visible.
* Python's unbounded ints are `Z`; floats only where an integer passes through one (2^53 limit).
* XML documents are immutable trees; node identity is the address (path of child indices).  Where identity matters
  (node lists, formsets) nodes carry identities (NodeNodes.v).
* Property theorems live in `Props_*.v`, with the concrete cases that meet their hypotheses next to them
  (`Example Cnn_case`).  Specifications that the theorems mention are in small files of their own: XPathSpec, XPathCanon,
  W3CGrammar, LexSpec, FieldSpec, DocSpec, ListSpec, IndepSpec, ForkSpec; or at the head of the Props file.
* Names: `Cnn_...`; a suffix `_partial` marks a theorem that covers only part of its property; `_refuted` marks a
  proof that the property as stated is false of the model (a finding about the code); the other theorems are complete
  for what their statement says.  C59-C70 restate the part of a partial property that holds unconditionally.
* Wrong programs: `tools/seed.py` applies the edits in `seeded/mutants_*.json` to a scratch copy and rebuilds;
  `seeded/LOG.jsonl` records which theorems failed and which were tightened.

Runtime behaviour that no executable model here exhibits: threads inside one lexer call or inside lxml (C80 interleaves
whole tokens, shifts and reductions), network I/O timing, lxml's C-level memory behaviour.

## Per-property design

Model = the files that model the code; proof = the method; not covered = from MANIFEST.json.

* **C01** (partial) Serialising a parsed XPath and parsing it again gives the same expression.
  - Model: XPathAst.v, XPathLex.v, XPathGrammar.v, LALR.v. Proof: token level: serialisation of a canonical AST is the yield of a derivation tree that respects precedence (C02's completeness); character level: lexing the joined fragments gives the tokens back (induction over tokens, safe adjacency).
  - Theorems: `C01_roundtrip_ast_partial`, `C01_roundtrip_text_partial`, `C01_roundtrip_refuted`.
  - Scope: Proved for every AST writable without grouping parentheses whose adjacent tokens stay apart, and for every accepted text in that fragment; false elsewhere (witnesses in C01_roundtrip_refuted: '/', dropped parentheses, 'a - b', processing-instruction literal).
* **C02** (proved) Operators group by XPath precedence and associate to the left.
  - Model: XPathGrammar.v, LALR.v. Proof: completeness by induction over derivation trees; the table facts are finite checks by vm_compute; W3C grammar translated into derivation trees.
  - Theorems: `C02_w3c_expressions_parse`, `C02_derivations_parse`, `C02_derivation_unique`.
  - Scope: Completeness against an independent transcription of the W3C grammar, and against the productions and precedence table of parserules.py, for the PLY driver and its LALR tables.
* **C03** (proved) parse accepts only expressions of the grammar and consumes all input.
  - Model: XPathLex.v, XPathGrammar.v, LALR.v. Proof: invariant of the driver: the symbol stack spells a forest whose yield is the consumed input; W3C soundness by induction over trees.
  - Theorems: `C03_parse_iff`, `C03_parse_w3c`, `C03_rejects`.
  - Scope: Exact characterisation of acceptance, and soundness against the W3C grammar except for a unary minus directly after '|', which the code accepts and the W3C grammar does not.
* **C04** (proved) parse always terminates, with an AST or one of its two exceptions.
  - Model: XPathLex.v, LALR.v. Proof: potential function bounding the reductions between shifts; lexer progress.
  - Theorems: `C04_parse_total`, `C04_linear_steps`.
  - Scope: Python's recursion limit (peek recurses once per consecutive name) is not modelled.
* **C05** (partial) parse depends only on its argument, not on earlier calls.
  - Model: XPathLex.v (lexer.last), LALR.v. Proof: induction over call histories.
  - Theorems: `C05_history_of_successes_partial`, `C05_history_any_partial`, `C05_history_refuted`.
  - Scope: Holds after histories of successful calls and, after any history, for expressions not starting with a name or '*'; refuted otherwise: a failed call leaves lexer.last set.
* **C06** (partial) The XPath 1.0 lexical disambiguation rules are implemented.
  - Model: XPathLex.v. Proof: case analysis on the raw token and its predecessor, against the keyword lists of LexSpec.v.
  - Theorems: `C06_disambiguation_partial`, `C06_disambiguation_refuted`.
  - Scope: Proved for every token not directly after ',', ':' or '$'; refuted after ',' and '$' (missing from OPERATOR_FORCERS).
* **C07** (partial) Every NCName is read as one name.
  - Model: XPathLex.v, UniTables.v. Proof: interval reasoning over the tables; W3C character ranges as the specification.
  - Theorems: `C07_ncname_partial`, `C07_ncname_refuted`.
  - Scope: Proved for names without U+00C0..U+00D6 and not starting with a character of category Nd; refuted for those.
* **C08** (proved) White space between tokens does not matter.
  - Model: XPathLex.v. Proof: induction over the input.
  - Theorems: `C08_insert_whitespace`, `C08_replace_whitespace`, `C08_edges`.
* **C09** (partial) String literals keep their value when serialised.
  - Model: XPathAst.v (repr), XPathLex.v. Proof: induction over strings.
  - Theorems: `C09_literal_iff`, `C09_literal_roundtrip_partial`, `C09_literal_becomes_partial`, `C09_both_quotes_refuted`, `C09_literal_refuted`.
  - Scope: Exact: a literal survives serialising and parsing iff it is printable, without backslash and without both kinds of quote (tokens and parser); any other string without both quotes becomes its spelling by Python's repr (LexSpec.spells); with both quotes the result is never a literal. The full property (every literal survives) is refuted for backslash.
* **C10** (partial) A value written to a field is the value read back.
  - Model: XmlTree.v, XPathEval.v, Fields.v. Proof: induction over the steps of the path (cores of selections) and over tree addresses; refutations by witness.
  - Theorems: `C10_set_then_get_partial`, `C10_assignment_succeeds_missing_partial`, `C10_assignment_succeeds_existing_partial`, `C10_tail_refuted`, `C10_text_attribute_refuted`.
  - Scope: Proved for the supported class (FieldSpec.supported_path) unless the field is text() whose first match is text after a child; also that the assignment does succeed under stated conditions, for a present field iff every character is an XML Char. Refuted for tail text and for attributes named 'text'.
* **C11** (partial) Writing an existing field changes that node only.
  - Model: XmlTree.v, XPathEval.v, Fields.v. Proof: induction over the steps of the path (cores of selections) and over tree addresses; refutations by witness.
  - Theorems: `C11_set_element_frame`, `C11_set_frame_partial`, `C11_text_attribute_refuted`.
  - Scope: For any XPath whose first match is an element, and for all supported fields; refuted for attributes named 'text'.
* **C12** (proved) Creating missing nodes only adds content.
  - Model: XmlTree.v, XPathEval.v, Fields.v. Proof: induction over the steps of the path (cores of selections) and over tree addresses; refutations by witness.
  - Theorems: `C12_creation_only_adds`.
* **C13** (partial) A failing assignment leaves the document unchanged.
  - Model: XmlTree.v, XPathEval.v, Fields.v. Proof: induction over the steps of the path (cores of selections) and over tree addresses; refutations by witness.
  - Theorems: `C13_failed_set_existing`, `C13_failed_set_missing_partial`, `C13_unparsable`, `C13_refuted`.
  - Scope: Proved when the field exists (any XPath) and when it is missing with XML-valid predicate values and value; refuted where the code creates nodes before noticing the error.
* **C14** (partial) Deleting a field removes the node the field reads.
  - Model: XmlTree.v, XPathEval.v, Fields.v. Proof: induction over the steps of the path (cores of selections) and over tree addresses; refutations by witness.
  - Theorems: `C14_delete_element_partial`, `C14_delete_attribute_partial`, `C14_elsewhere_refuted`, `C14_attribute_elsewhere_refuted`, `C14_second_parent_refuted`.
  - Scope: Proved whenever the node read is below the first element that the path without its last step finds (first_parent), for element and attribute fields; that condition is exact: otherwise the document is unchanged (C14_elsewhere_refuted) or KeyError is raised (C14_attribute_elsewhere_refuted). Refuted for text().
* **C15** (partial) Deleting a field loses no other content.
  - Model: XmlTree.v, XPathEval.v, Fields.v; specification LostSpec.v; facts FieldLost.v. Proof: induction over the steps of the path: the names of the elements lost are a sub-multiset of the names the steps (and their predicates) mention; everything lost lies under one place; cores of selections and tree addresses for the sharper partial form; refutations by witness.
  - Theorems: `C15_delete_element_frame_partial`, `C15_delete_attribute_frame_partial`, `C15_text_lost_refuted`, `C15_loses_only_named`, `C15_one_place`, `C15_unnamed_kept`, `C15_at_most_one_per_step`.
  - Scope: C15_loses_only_named, C15_one_place, C15_unnamed_kept and C15_at_most_one_per_step hold for every supported XPath (predicates on child elements and nested paths included), also when several parents match; LostSpec.v is the specification. The two _partial theorems give the sharper form for predicates that start at attributes: the removed ancestors had exactly one child and only predicate attributes. Refuted for text in emptied ancestors and for tails, hence partial.
* **C16** (partial) Assigning None is deleting.
  - Model: XmlTree.v, XPathEval.v, Fields.v, Mappers.v. Proof: both sides unfold to the same removal.
  - Theorems: `C16_none_is_delete_partial`, `C16_unset_is_noop_partial`, `C16_date_none_refuted`.
  - Scope: Refuted for date fields (AttributeError).
* **C17** (partial) Reading a field does not change the document; a missing node reads as None.
  - Model: XmlTree.v, XPathEval.v, Fields.v, Mappers.v. Proof: reading is a function of the document; case analysis of mappers.
  - Theorems: `C17_get_is_readonly`, `C17_none_iff_nothing_partial`, `C17_count_partial`, `C17_zero_refuted`.
  - Scope: Refuted for number 0 (reads None). Integer fields additionally read None for non-numeric content.
* **C18** (proved) Assignments are idempotent and the last one wins.
  - Model: XmlTree.v, XPathEval.v, Fields.v. Proof: induction over the steps of the path (cores of selections) and over tree addresses; refutations by witness.
  - Theorems: `C18_last_wins`, `C18_idempotent`.
  - Scope: Proved for the supported class, text after a child excepted.
* **C19** (partial) create_<field>() makes the node exist and is idempotent.
  - Model: XmlTree.v, XPathEval.v, Fields.v. Proof: induction over the steps of the path (cores of selections) and over tree addresses; refutations by witness.
  - Theorems: `C19_create_partial`, `C19_text_refuted`.
  - Scope: Refuted for text().
* **C20** (partial) Deleting what was just created restores the document.
  - Model: XmlTree.v, XPathEval.v, Fields.v, UndoSpec.v. Proof: FieldChain.v: inductive description of what Construct mode makes (mpath/mstep1/made), found first and removed completely by mutual induction; FieldUndoEq.v: Construct mode makes exactly that, removal of elements never fails, induction over the path; refutations by witness.
  - Theorems: `C20_set_then_delete_values_partial`, `C20_set_then_delete_more_partial`, `C20_key_error_refuted`, `C20_existing_lost_refuted`, `C20_set_then_delete_partial`, `C20_set_then_delete_solid_partial`, `C20_existence_predicate_refuted`.
  - Scope: Proved for every supported element or attribute path all of whose predicates, at every depth, compare a path (child or attribute, any length) with a value (value_preds), when no element on the way exists or the existing ones hold more than their predicates name (holds_more; without an attribute-of-a-child comparison). Refuted: existence predicates, an existing element that holds only what its predicates name, KeyError in the clean-up. Not covered: text() fields.
* **C21** (partial) Assignments outside the supported XPath class are refused, not silently lost.
  - Model: XmlTree.v, XPathEval.v, Fields.v. Proof: case analysis of the terminal step.
  - Theorems: `C21_refused_partial`, `C21_refused_unchanged_partial`, `C21_silently_lost_refuted`.
  - Scope: Proved for XPaths whose last part is not constructible; refuted for positional and boolean predicates, which are accepted but not built.
* **C22** (partial) Integer fields read back the integer written.
  - Model: Mappers.v. Proof: decimal round trip by induction on digits; binary64 integers up to 2^53.
  - Theorems: `C22_integer_roundtrip_partial`, `C22_large_integer_refuted`, `C22_boolean_value_refuted`.
  - Scope: Attributes: every integer. Elements: |n| <= 2^53; refuted beyond. Assigning True/False writes Python's spelling and the field then reads None (C22_boolean_value_refuted).
* **C23** (partial) Boolean fields read back the boolean written.
  - Model: Mappers.v. Proof: case analysis.
  - Theorems: `C23_boolean_roundtrip_partial`, `C23_any_value_partial`, `C23_any_false`, `C23_false_deletes_partial`, `C23_other_content`, `C23_equal_markers_refuted`.
  - Scope: Any value may be assigned (counts_as: Python's truth value). Refuted only for equal markers.
* **C24** (partial) Date and datetime fields read back the value written.
  - Model: Mappers.v. Proof: strftime/strptime on fixed-width fields, arithmetic by lia.
  - Theorems: `C24_datetime_roundtrip`, `C24_offset_ignored`, `C24_no_such_day`, `C24_date_roundtrip_partial`, `C24_custom_format_partial`, `C24_refuted`.
  - Scope: Datetimes: all years, both with and without microseconds; dates and custom formats from year 1000. normalize=True is covered for attribute fields. Refuted for years below 1000 (glibc strftime) and DateTimeField with a date-only format.
* **C25** (partial) Normalised string fields.
  - Model: Mappers.v. Proof: induction over strings.
  - Theorems: `C25_normalize_words`, `C25_normalize_idempotent`, `C25_no_runs`, `C25_field_partial`, `C25_attribute_refuted`.
  - Scope: normalize-space is libxml2's; eulxml applies it to element matches only (refuted for attributes).
* **C26** (proved) A list field reads like the Python list of its values.
  - Model: XmlTree.v, XPathEval.v, Fields.v, NodeList.v. Proof: simulation between the matched elements and a Python list (ListSpec.v), induction over operations.
  - Theorems: `C26_list_reads`, `C26_equality`, `C26_equality_mixed`.
  - Scope: For every list that can be read: len, indexing (also negative, also past the end), membership, count, index, iteration and comparison answer as the Python list of the converted values does.
* **C27** (partial) Updating a list field acts like updating a Python list.
  - Model: XmlTree.v, XPathEval.v, Fields.v, NodeList.v. Proof: simulation between the matched elements and a Python list (ListSpec.v), induction over operations.
  - Theorems: `C27_history_partial`, `C27_storable_values_partial`, `C27_failed_append_refuted`, `C27_attribute_list_refuted`.
  - Scope: For a field whose expression is a single element step (with predicates on attributes), every history of [i]=v, del [i], append, extend, remove, pop on values that survive a write and read agrees, result by result and exception by exception, with the same history on a Python list. Missing: insert is C28; dates are storable only under the mapper's own hypotheses. Refuted: append of a value the mapper refuses leaves an empty element; attribute lists.
* **C28** (partial) insert on a list field acts like list.insert.
  - Model: XmlTree.v, XPathEval.v, Fields.v, NodeList.v. Proof: simulation between the matched elements and a Python list (ListSpec.v), induction over operations.
  - Theorems: `C28_insert_partial`, `C28_out_of_range`, `C28_negative_refuted`.
  - Scope: Proved for every position 0..len on one-step lists; positions outside -len..len raise IndexError and change nothing (list.insert would append or prepend); refuted for negative positions (the value replaces or lands elsewhere).
* **C29** (partial) Assigning a list makes the field equal to that list.
  - Model: XmlTree.v, XPathEval.v, Fields.v, NodeList.v. Proof: simulation between the matched elements and a Python list (ListSpec.v), induction over operations.
  - Theorems: `C29_assign_list_partial`.
  - Scope: One-step lists: after assignment the list reads exactly the assigned values, whatever lengths. The same theorem covers multi-step lists while the leading steps match at most one node; otherwise C32_assign_refuted. C91 and C92 have whole-list assignment through any downward XPath.
* **C30** (partial) Deleting a list field empties it.
  - Model: XmlTree.v, XPathEval.v, Fields.v, NodeList.v. Proof: simulation between the matched elements and a Python list (ListSpec.v), induction over operations.
  - Theorems: `C30_delete_list_partial`, `C30_nan_refuted`.
  - Scope: One-step lists of comparable values: delete empties the list. Refuted for values unequal to themselves (NaN): delete raises ValueError.
* **C31** (partial) List updates leave other siblings alone and append next to the list.
  - Model: XmlTree.v, XPathEval.v, Fields.v, NodeList.v. Proof: simulation between the matched elements and a Python list (ListSpec.v), induction over operations.
  - Theorems: `C31_history_frame_partial`, `C31_assign_frame_partial`, `C31_insert_frame_partial`, `C31_long_history_frame_partial`, `C31_long_assign_frame_partial`, `C31_long_delete_frame_partial`, `C31_set_item`, `C31_del_item`, `C31_append_position_partial`, `C31_tail_lost_refuted`, `C31_none_item_refuted`.
  - Scope: Every node outside the list (and every attribute of the owner) is untouched by histories, whole assignment and insert; append puts the new node after the last one. Refuted: the tail text of a deleted item is lost; None assigned to an item reads '' afterwards instead of removing it. C31_long_*: the same below the one element that the path before the last step reaches (rest_kept).
* **C32** (partial) List fields over longer paths behave like lists too.
  - Model: XmlTree.v, XPathEval.v, Fields.v, NodeList.v. Proof: simulation between the matched elements and a Python list (ListSpec.v), induction over operations.
  - Theorems: `C32_append_one_parent_partial`, `C32_append_refuted`, `C32_assign_refuted`, `C32_insert_refuted`.
  - Scope: append proved when the leading steps match exactly one parent; refuted with several parents for append, whole assignment and insert.
* **C33** (partial) Assigning a list of nodes, also a permutation of the current ones.
  - Model: NodeNodes.v. Proof: permutation reasoning on identities, induction over the assigned list.
  - Theorems: `C33_assign_nodes`, `C33_append_node`, `C33_insert_node`, `C33_replace_node`, `C33_delete_node`, `C33_out_of_range`, `C33_duplicates_refuted`, `C33_duplicates_error_refuted`, `C33_view_refuted`.
  - Scope: For every list of distinct nodes (old, new or mixed, any order) the list becomes exactly those, other children and order of the others kept; also single-node append, insert, replacement and deletion. Identity-level model of one-step node lists. Refuted outside the hypotheses: repeated nodes, and assigning another object's live list.
* **C34** (partial) A class has exactly its own and its inherited fields.
  - Model: Classes.v. Proof: induction over programs of class statements; C3 linearisation.
  - Theorems: `C34_fields_table_partial`, `C34_single_inheritance_partial`, `C34_self_reference`, `C34_other_fields_kept`, `C34_diamond_refuted`, `C34_override_refuted`, `C34_mixin_refuted`, `C34_stale_create_refuted`, `C34_alias_refuted`, `C34_counters`.
  - Scope: For every program of class statements (any depth, any bases, C3 method resolution order proved about): the table equals attribute lookup for names used only for fields and without clashing bases; single inheritance as a special case; self references. Refuted: diamond inheritance, a field overridden by a non-field, fields on plain mixins, stale create_ methods, one self-referential field under two names.
* **C35** (partial) Declared namespace prefixes always resolve.
  - Model: Namespaces.v. Proof: invariants over heaps of shared dictionaries, induction over histories.
  - Theorems: `C35_declared_prefixes_partial`, `C35_document_prefixes_partial`, `C35_caller_dict_kept_partial`, `C35_caller_modified_refuted`, `C35_document_hidden_refuted`, `C35_rebound_refuted`, `C35_default_namespace_refuted`.
  - Scope: Heap model with shared dictionaries, every history of object creations. Declared prefixes resolve for ever unless a sharer redeclares them; document prefixes resolve when the caller gives no namespaces. Refuted: the caller's dictionary is modified, document prefixes are hidden by a context, a shared context rebinds declared prefixes, a default namespace in ROOT_NAMESPACES breaks all XPaths.
* **C36** (partial) Schemas are loaded once and failures are not cached.
  - Model: SchemaCache.v. Proof: induction over histories and over schedules of two-step calls.
  - Theorems: `C36_loaded_once`, `C36_failures_retried`, `C36_threads_sound`, `C36_malformed_refuted`, `C36_threads_refuted`.
  - Scope: Every sequence of calls; threads under every schedule get an object loaded for their URI. Refuted: XMLSyntaxError passes through without the URI; two threads can load twice and get different objects.
* **C37** (partial) XmlObject equality is an equivalence.
  - Model: ObjEq.v. Proof: case analysis for every serialisation function.
  - Theorems: `C37_equivalence_partial`, `C37_text_refuted`.
  - Scope: Proved for element-backed objects, for every serialisation function; refuted for text-node objects, whose comparison raises TypeError.
* **C38** (partial) SchemaField offers the schema's values with exactly one blank first.
  - Model: Classes.v. Proof: induction over the schema's values.
  - Theorems: `C38_choices_partial`, `C38_kept`, `C38_replaced_iff`, `C38_schema_used`, `C38_labels_refuted`, `C38_two_blanks_refuted`, `C38_mixin_refuted`.
  - Scope: Choices proved when the schema has at most one blank value; xpath, required flag and declaration order kept; exact condition for replacement. Refuted: verbose_name and help_text are dropped; with two blank values one remains.
* **C39** (proved) Dotted field lists select exactly the named fields and subfields.
  - Model: FieldLists.v. Proof: induction over lists and depth.
  - Theorems: `C39_levels`, `C39_selected`, `C39_order_exclude`, `C39_order_include`, `C39_firsts_spec`.
  - Scope: Every list and depth; membership and order at each level, for inclusion and exclusion lists.
* **C40** (partial) A form shows the requested fields in the requested order.
  - Model: FormFields.v. Proof: induction over class tables and depth.
  - Theorems: `C40_shown`, `C40_slots`, `C40_order_listed`, `C40_order_default`, `C40_contents`, `C40_declared`, `C40_formsets`, `C40_declared_subforms`, `C40_direct_lists`, `C40_alias_refuted`, `C40_parsed_lists_refuted`, `C40_no_declared_refuted`, `C40_self_reference_refuted`.
  - Scope: Form classes built from any class table: visible fields, dictionary they go to, order, contents, at every depth of generated subforms. Declared subforms are only covered at the top level. Refuted: one field object under two names; already parsed lists; calling without declared_subforms; classes that contain themselves.
* **C41** (proved) Form initial data keys never collide.
  - Model: FormData.v. Proof: prefix-freeness of keys, structural induction.
  - Theorems: `C41_dictionary`, `C41_keys_distinct`, `C41_keys_once`.
  - Scope: Every structure of node fields and node lists; keys are distinct and the dictionary is exactly the values by key.
* **C42** (partial) Saving a form writes exactly the submitted fields.
  - Model: FormUpdate.v. Proof: structural induction over value trees.
  - Theorems: `C42_saved`, `C42_formsets`, `C42_unbound`, `C42_saved_deep`, `C42_dotted_refuted`.
  - Scope: Over value trees (assigning one field changes no other: C11). Field by field and at any depth of subforms. Refuted: forms with dotted field lists raise TypeError when saved.
* **C43** (partial) Saving a list formset stores the submitted values.
  - Model: FormLists.v. Proof: from C29's simulation; induction over submissions.
  - Theorems: `C43_saved_partial`, `C43_history_partial`, `C43_zero_refuted`, `C43_unchanged_refuted`.
  - Scope: At document level, for storable strings and integers other than 0, any history of submissions. Refuted: zeros are dropped; attributes and position of unchanged items are lost.
* **C44** (partial) The generated catalog lists exactly the schemas that were saved.
  - Model: CatalogGen.v. Proof: prefixes of the write trace; induction over the schema list.
  - Theorems: `C44_completes`, `C44_catalog`, `C44_names`, `C44_paths`, `C44_interrupted`, `C44_exception`, `C44_rerun`, `C44_connection_refuted`, `C44_same_name_refuted`, `C44_truncated_schema_refuted`, `C44_truncated_catalog_refuted`.
  - Scope: All item lists, server behaviours, interruptions at any byte, re-runs. XML parsing/serialising are parameters. Hypotheses: distinct last URI parts, none equal to the catalog file. Refuted: a connection error aborts the whole generation; two URIs with the same last part share a file; interruption leaves a truncated schema under the old catalog or a truncated catalog.
* **C45** (partial) Importing eulxml registers its catalog once.
  - Model: Environ.v. Proof: string reasoning, induction over registrations.
  - Theorems: `C45_idempotent`, `C45_registered_partial`, `C45_libxml2_unset_partial`, `C45_libxml2_refuted`, `C45_libxml2_lost_refuted`, `C45_substring_refuted`.
  - Scope: Model: the addition of the generated catalog to XML_CATALOG_FILES (eulxml/__init__.py:50-57), on the environment as a map, any history of registrations. Registering is idempotent and never loses an entry of a colon reader. Refuted: libxml2 splits the variable at blanks, so the colon-joined value is one unusable file name whenever the variable already had a value; the substring test skips registration if another entry merely contains the path. Missing: spawning processes that inherit the environment.
* **C46** (partial) E-mail bodies are made XML-safe without losing text.
  - Model: Cerp.v. Proof: induction over strings.
  - Theorems: `C46_clean`, `C46_unchanged`, `C46_storable_partial`, `C46_stored_partial`, `C46_noncharacter_refuted`.
  - Scope: Model: the control character removal of cerp.py on arbitrary strings of code points; storable = accepted by lxml. Proved: the result has no removed character, everything else is kept in order, text lxml accepts is unchanged, and stored text reads back. Partial because noncharacters (U+FFFE, U+FFFF) and surrogates survive and make lxml raise (refuted theorem).
* **C47** (partial) E-mail headers are stored where they belong.
  - Model: Cerp.v. Proof: the document is computed for symbolic inputs, step by step through the field operations.
  - Theorems: `C47_document`, `C47_lists_partial`, `C47_header_case`, `C47_headers`, `C47_scalars`, `C47_local_id_refuted`, `C47_sender_refuted`, `C47_header_control_refuted`.
  - Scope: Model: Message.from_email_message on the XML tree, whole document built; header names/values, addresses and dates as returned by Python's email package are inputs. Proved: the complete document, its scalar fields, all headers in order and the address lists. Refuted: local_id stores the repr of the builtin id; Sender is filled from From; control characters in a header raise. Missing: email package parsing, multipart bodies. Header names are compared without case (C47_header_case).
* **C48** (partial) MODS emptiness tests do not hide content.
  - Model: Mods.v. Proof: case analysis of what the fields select on arbitrary trees.
  - Theorems: `C48_title_partial`, `C48_detail_partial`, `C48_extent_partial`, `C48_part_partial`, `C48_date_partial`, `C48_origin_partial`, `C48_note`, `C48_object`, `C48_origin_refuted`, `C48_date_refuted`, `C48_second_title_refuted`, `C48_tail_refuted`.
  - Scope: Model: is_empty of the MODS classes and of XmlObject on arbitrary trees, with the field reads of Fields.v. Proved equivalent to "no text (and no type)" for elements that hold only the mapped fields, single-valued ones once at most; the exact condition for notes and plain objects. Refuted: five date lists of OriginInfo ignored; text after a comment; a second title; tail white space.
* **C49** (partial) Loading a PREMIS document keeps its version.
  - Model: Vocab.v. Proof: case analysis.
  - Theorems: `C49_new`, `C49_given`, `C49_given_new`, `C49_load_partial`, `C49_load_refuted`.
  - Scope: Model: Premis.__init__ with an optional node and version keyword on arbitrary elements and namespaces. New objects and given versions are proved; loading keeps everything but the version attribute, which is always overwritten with 2.1 (refuted theorem, for every document).
* **C50** (partial) TEI indentation and EAD short titles.
  - Model: Vocab.v. Proof: string and tree case analysis.
  - Theorems: `C50_indent_number`, `C50_indent_none`, `C50_indent_other`, `C50_indent_refuted`, `C50_indent_value_refuted`, `C50_short_partial`, `C50_short_text_partial`, `C50_short_refuted`.
  - Scope: Model: TeiLine.indent on arbitrary lines (int() on ASCII), UnitTitle.short on arbitrary titles. Refuted: indent raises AttributeError for every line without rend, ValueError for text after 'indent'; short drops the text that follows the unitdate. Proved: everything else, incl. that the original is not modified.
* **C51** (partial) Saving a formset deletes, edits, adds and orders exactly what was submitted.
  - Model: FormSets.v, NodeNodes.v. Proof: induction over forms, NodeNodes simulation.
  - Theorems: `C51_history_partial`, `C51_ordered_partial`, `C51_duplicates_refuted`, `C51_edited_lost_refuted`, `C51_reorder_refuted`, `C51_new_deleted_refuted`.
  - Scope: Any history of validations and updates, with and without ordering, when forms to delete (with ordering: all forms) have XML different from the others. Refuted: deleting one of two equal items deletes both in the usual flow; an item edited to equal a deleted one is lost; exchanging equal items loses one; a filled-in new form ticked for deletion is added.
* **C52** (partial) Displaying a form, or saving it unchanged, leaves the object as it was.
  - Model: FormInit.v, FormUpdate.v. Proof: structural induction over subforms.
  - Theorems: `C52_displayed_partial`, `C52_saved_unchanged`, `C52_display_creates_refuted`, `C52_empty_node_refuted`.
  - Scope: Forms of scalar fields and subforms over the XML model of the fields block. Refuted: displaying a form creates missing subobjects; an empty node bound to a form field is removed by saving.
* **C53** (partial) Assigning to a node field copies the object given.
  - Model: NodeAssign.v. Proof: address arithmetic for a subtree moved between disjoint places.
  - Theorems: `C53_existing_partial`, `C53_existing_succeeds`, `C53_missing_partial`, `C53_missing_succeeds_partial`, `C53_reads_back_partial`, `C53_source_partial`, `C53_same_document_partial`, `C53_from_inside_partial`, `C53_self_refuted`, `C53_source_refuted`, `C53_self_case_refuted`, `C53_tail_refuted`, `C53_failed_refuted`, `C53_failed_inside_refuted`, `C53_predicate_refuted`.
  - Scope: Model: SingleNodeManager.set with NodeMapper, the element case of _set_in_xml (clear, text, children moved, attributes copied), for an object outside the document or at any place inside it that does not contain the target. Refuted: the object assigned loses its children; obj.f = obj.f erases the content; the text after the element is lost; a field with a predicate in its last step does not find what was assigned. Proved: content and frame for any XPath matching an element without following text; creation for supported paths; reading back for supported paths without predicate in the last step; same-document sources. Missing: source containing the target.
* **C54** (partial) Validation reports belong to the object that was validated.
  - Model: Validate.v, SchemaCache.v. Proof: invariant over histories.
  - Theorems: `C54_errors`, `C54_is_valid`, `C54_schema_valid`, `C54_schema_errors_partial`, `C54_schema_errors_refuted`, `C54_threads_refuted`.
  - Scope: Model: xmlschema, schema_valid, schema_validation_errors, validation_errors, is_valid with the schema cache and one error log per schema object, after any history of these calls. The errors lxml finds in a document are a parameter; schema files do not change during the session; whether lxml's validate keeps earlier log entries is a parameter too. Refuted: schema_validation_errors() returns the errors of whatever object was validated last with that schema (none before the first validation), and threads interleaved within validation_errors() get each other's errors. Proved: everything else.
* **C55** (proved) EAD series tests look at the first component.
  - Model: Vocab.v. Proof: equivalence by case analysis on arbitrary trees.
  - Theorems: `C55_subseries`, `C55_series`.
  - Scope: Full equivalence on arbitrary trees. The union XPath 'e:c02|...|e:c12' is modelled as the children with these names in document order.
* **C56** (proved) Fields with different entry points do not disturb one another.
  - Model: XmlTree.v, XPathEval.v, Fields.v, NodeList.v. Proof: a similarity relation that ignores one child name or attribute is kept by every operation; induction over histories.
  - Theorems: `C56_independent`, `C56_value_stays`, `C56_text_interferes`, `C56_same_child_interferes`.
  - Scope: For all supported XPaths, documents and histories (run_fops). The property is scoped to entry by a child name or attribute: C56_text_interferes and C56_same_child_interferes show on concrete documents that text() fields and fields sharing a child do interfere.
* **C57** (proved) A list field over one child step is a Python list, through any history.
  - Model: XmlTree.v, XPathEval.v, Fields.v, NodeList.v. Proof: C27-C31's simulation, all operations mixed.
  - Theorems: `C57_long_paths`, `C57_history`, `C57_values`.
  - Scope: All histories over xop (ListSpec.v); Python's list operations are specified there independently. Hypotheses: list_field, one_step, holds (elements of the list have no child elements). C57_long_paths: the same for list XPaths with several steps that reach at most one parent, without insert, and the rest of the document is kept (rest_kept).
* **C58** (proved) An unset field is a variable.
  - Model: XmlTree.v, XPathEval.v, Fields.v. Proof: C20 and C10 combined; induction over histories.
  - Theorems: `C58_variable`.
  - Scope: All histories over vop; documents restored exactly. variable_path states the class of XPaths.
* **C59** (proved) Assigning to an element that exists changes only its text, or nothing.
  - Model: XmlTree.v, XPathEval.v, Fields.v. Proof: as C11, C13.
  - Theorems: `C11_set_element_frame`, `C13_failed_set_existing`, `C13_unparsable`.
  - Scope: Any XPath and document; scoped part of C11 and C13.
* **C60** (proved) A schema that has loaded is not loaded again; a failure is not remembered.
  - Model: SchemaCache.v. Proof: as C36.
  - Theorems: `C36_loaded_once`, `C36_failures_retried`, `C36_threads_sound`.
  - Scope: Scoped part of C36: sequences of any outcomes and all interleavings of check/load/store steps.
* **C61** (proved) A generated form shows exactly the fields selected.
  - Model: FormFields.v. Proof: as C40.
  - Theorems: `C40_shown`, `C40_slots`, `C40_order_listed`, `C40_order_default`, `C40_contents`, `C40_declared`.
  - Scope: Scoped part of C40; 'plain names and no aliasing' is the hypothesis sane.
* **C62** (proved) Saving a bound form writes exactly the submitted values.
  - Model: FormUpdate.v. Proof: as C42.
  - Theorems: `C42_saved`, `C42_formsets`, `C42_unbound`, `C42_saved_deep`.
  - Scope: Scoped part of C42: field names without dots, subforms and formsets with distinct names.
* **C63** (proved) Catalog generation, with distinct last URI parts.
  - Model: CatalogGen.v. Proof: as C44.
  - Theorems: `C44_completes`, `C44_catalog`, `C44_names`, `C44_interrupted`, `C44_exception`, `C44_rerun`.
  - Scope: Scoped part of C44.
* **C64** (proved) Control-character cleaning removes exactly the control characters.
  - Model: Cerp.v. Proof: as C46.
  - Theorems: `C46_clean`, `C46_unchanged`.
  - Scope: Scoped part of C46; bad_control in Props_Cerp.v.
* **C65** (proved) Validation results depend on the object alone.
  - Model: Validate.v. Proof: as C54.
  - Theorems: `C54_errors`, `C54_is_valid`, `C54_schema_valid`.
  - Scope: Scoped part of C54; the schema's verdict and error log are parameters (lxml).
* **C66** (proved) Node lists of distinct nodes.
  - Model: NodeNodes.v. Proof: as C33.
  - Theorems: `C33_assign_nodes`, `C33_append_node`, `C33_insert_node`, `C33_replace_node`, `C33_delete_node`.
  - Scope: Scoped part of C33; nodes are identities, children_ok states distinctness.
* **C67** (proved) List items over any path.
  - Model: XmlTree.v, XPathEval.v, Fields.v, NodeList.v. Proof: as C31.
  - Theorems: `C31_set_item`, `C31_del_item`.
  - Scope: Scoped part of C31.
* **C68** (proved) White space normalisation.
  - Model: Mappers.v. Proof: as C25.
  - Theorems: `C25_normalize_words`, `C25_normalize_idempotent`, `C25_no_runs`.
  - Scope: Scoped part of C25.
* **C69** (proved) Datetimes in the default format.
  - Model: Mappers.v. Proof: as C24.
  - Theorems: `C24_datetime_roundtrip`, `C24_offset_ignored`.
  - Scope: Scoped part of C24.
* **C70** (proved) SchemaField becomes a StringField with the same XPath.
  - Model: Classes.v. Proof: as C38.
  - Theorems: `C38_kept`, `C38_replaced_iff`.
  - Scope: Scoped part of C38.
* **C71** (partial) The single-valued fields of the shipped maps read back what is assigned.
  - Model: Shipped.v, XmlTree.v, XPathEval.v, Fields.v, Mappers.v. Proof: the class conditions are checked on the table by vm_compute, agreement of contexts (EnvAgree.v), then C10.
  - Theorems: `C71_xpaths_parse`, `C71_set_then_get_partial`, `C71_assignment_succeeds_missing_partial`, `C71_assignment_succeeds_existing_partial`, `C71_first_head`, `C71_process_info_refuted`.
  - Scope: The table Shipped.v is generated from the source text (tools/gen_shipped.py, Python's ast module). 270 of the 275 single fields, NodeFields included in the success theorems through their mapper but read back by C53; TeiDiv.title (tei:head[1]) is shown to act as tei:head, so the same theorem applies to it. Excepted: DublinCoreElement.name (local-name), _EadBase.match_count (count), DescriptiveIdentification.unitdate (.//), IndexEntry.name (|). text() fields: read-back needs an element without text after children (C10_tail_refuted); success is not claimed for them. False with false=None is a deletion (C23). C71_process_info_refuted: ArchivalDescription.process_info has a path that repeats archdesc and never finds the archdesc's processinfo.
* **C72** (partial) The string list fields of the shipped maps behave as Python lists.
  - Model: Shipped.v, XmlTree.v, XPathEval.v, Fields.v, NodeList.v. Proof: same, then C57.
  - Theorems: `C72_string_lists_partial`, `C72_long_lists_partial`, `C72_string_list_mappers`.
  - Scope: Instances of C57 for the 48 string lists of the table with one child step. C72_long_lists_partial: EAD extent and languages (several steps), for histories without insert while their parent is there at most once. language_codes, a list of attributes, is excepted, hence partial.
* **C73** (proved) Fields of one shipped vocabulary that start at different nodes never disturb each other.
  - Model: Shipped.v, XmlTree.v, XPathEval.v, Fields.v, NodeList.v. Proof: same, then C56.
  - Theorems: `C73_fields_independent`.
  - Scope: Instance of C56 over the table; rows sharing the first child (e.g. PREMIS id_type and id) are not covered.
* **C74** (proved) Fields that share leading elements and then part ways do not disturb one another.
  - Model: XmlTree.v, XPathEval.v, Fields.v, NodeList.v. Proof: locality of construction (FieldLocal.v); every operation is composed of four primitive changes (FieldOps.v), each of which keeps what the other path sees (FieldShare.v).
  - Theorems: `C74_independent`, `C74_value_stays`, `C74_shipped_fields_independent`.
  - Scope: Proved for the supported XPath class (supported_path) on both sides; paths that continue one another, or that part by text(), are not covered (C56_same_child_interferes, C56_text_interferes show they do interfere).
* **C75** (partial) An object built from keyword arguments has the given values.
  - Model: Construct.v, XmlTree.v, XPathEval.v, Fields.v, Mappers.v. Proof: induction over the keywords with C10 and C74; shipped classes by a decision procedure for forking proved sound.
  - Theorems: `C75_all_values`, `C75_shipped_values`, `C75_shipped_leaf`, `C75_keywords_read_back_partial`, `C75_order_partial`, `C75_others_empty_partial`, `C75_construction_succeeds_partial`, `C75_root`, `C75_unknown_keyword`, `C75_shipped_classes`, `C75_overlap_order_refuted`.
  - Scope: Partial only in the kinds of keywords: node and list values are not covered. C75_all_values: any table of pairwise forking value fields (string, integer, boolean, date and datetime mappers; None allowed) with keepable values in any order; C75_shipped_values instantiates it for the classes of C84 and C75_shipped_leaf for the 15 leaf classes of C86 (text() and . fields). C75_unknown_keyword is unconditional (names of methods, properties, list fields are outside the table model). C75_root: what the constructed object's root element is.
* **C76** (partial) Form.is_valid answers True exactly for an acceptable submission, has then saved it, and keeps its answer.
  - Model: FormValid.v (with FormUpdate.v). Proof: structural induction over the form tree: saving is idempotent, validating then saving equals saving, hence the iff; spec acceptable is an independent inductive predicate.
  - Theorems: `C76_true_iff_acceptable`, `C76_true_saved`, `C76_same_answer`, `C76_own_errors_write_nothing`, `C76_schema_error_saved`, `C76_false_writes_refuted`.
  - Scope: Over value trees, with Django's verdict and cleaned data, schema validity and what formsets do as inputs (formsets that are steady: a second validation or saving changes nothing; string and integer list formsets are, C43). The model keeps the form as state (detached objects of removed subforms, recorded errors); vupdate_plain ties it to the update_instance of C42. Refuted: False may leave earlier subforms written.
* **C77** (partial) The HTML of a form shows every form in it exactly once, under the right headings.
  - Model: FormHtml.v. Proof: structural induction over the form tree: the page is the concatenation of a token list that, read with a stack of headings, gives the inventory of the tree; erasing section formats gives history independence.
  - Theorems: `C77_complete`, `C77_shown_iff`, `C77_subform`, `C77_history`, `C77_subform_label`, `C77_default_heading`, `C77_no_forms_refuted`, `C77_label_refuted`, `C77_subformfield_label_refuted`, `C77_heading_words`.
  - Scope: Partial because of the refuted label and empty formset cases; everything else is proved for every form tree. The HTML Django makes for the fields of one form and for management forms are inputs; str.capitalize is a parameter (C77_default_heading assumes that capitalised words stay as they are, proved for ASCII); blanks are ASCII blanks.
* **C78** (partial) Form classes inherit declared fields and options from their bases.
  - Model: FormClasses.v, FormFields.v, Classes.v (C3). Proof: invariant over programs (what each class record holds), strong induction on the class index; closest declaration as an inductive relation.
  - Theorems: `C78_declared`, `C78_form`, `C78_empty_subclass`, `C78_subform_lost_refuted`, `C78_last_base_refuted`.
  - Scope: Single inheritance is complete (C78_declared, C78_form, C78_empty_subclass); multiple inheritance and SubformFields are refuted. A declared SubformField is modelled by the form its class makes.
* **C79** (partial) What is saved can be loaded again and is the same document.
  - Model: XmlText.v: writer, reader and name resolution as functions on code points; serialize, serializeDocument, load, the input of xsl_transform. Proof: XmlTextProofs.v: the reader undoes the writer by nested induction over the markup (escapes, attributes, children, comments), then name resolution by lookup in the declarations; indentation is related to the original tree by an inductive relation.
  - Theorems: `C79_reload`, `C79_reload_document`, `C79_exact`, `C79_stable`, `C79_pretty`, `C79_equality`, `C79_transform`, `C79_tail_refuted`, `C79_equality_refuted`, `C79_set_save_load`, `C79_blank_refuted`, `C79_line_ends`, `C79_attribute_text`, `C79_comment_refused`.
  - Scope: Partial because of the three refuted claims; the reload theorems hold for every tree that meets tree_ok. The writer and the reader are transcriptions of libxml2's behaviour, not of code in /repo (see the head of XmlText.v): code points instead of UTF-8, one declaration per prefix and all on the outermost element, comments but no processing instructions or DOCTYPE, no CDATA. Schema validation on loading is C54. C79_line_ends and C79_attribute_text say what the reader makes of carriage returns, line feeds and tabs that are written raw.
* **C80** (partial) Calls of parse from several threads.
  - Model: XPathThreads.v: the shared lexer, a call as begin / token / shift / reduce steps of PLY's driver on its own stack, a scheduler that deals out turns. Proof: no overlap: simulation of the sequential driver step by step, kept as an invariant over the schedule; overlap: the LALR stack invariant of C03/C04 per call, with a potential (remaining text of the lexer and weight of every stack) that every turn of an unfinished call decreases.
  - Theorems: `C80_serial`, `C80_serial_parse`, `C80_calls_end`, `C80_calls_answer`, `C80_overlap_refuted`.
  - Scope: C80_overlap_refuted: the lexer is a module-level object that every call resets, so parse is not safe to call from several threads at once (two valid XPaths, one returns the tree of a text nobody passed). C80_serial and C80_serial_parse cover every schedule without overlap; C80_calls_end and C80_calls_answer cover every schedule. lexer.input and lexer.token are taken as single steps.
* **C81** (partial) str(obj) shows the text of the object.
  - Model: Display.v (str_methods: the table of __str__ methods), Mappers.v (normalize_space, field_get), XmlText.v (save and load).. Proof: mutual induction over the pieces of text of a tree; C25 for the words; C79 for saving and loading; the fields that the methods read are checked against the table of declarations (C81_declared)..
  - Theorems: `C81_words`, `C81_text_alone`, `C81_text_node`, `C81_saved`, `C81_saved_pretty`, `C81_assigned`, `C81_declared`, `C81_date`, `C81_heading`, `C81_container`, `C81_pair`, `C81_hash`, `C81_others`, `C81_reference_refuted`, `C81_name_refuted`, `C81_pretty_refuted`, `C81_parameter_refuted`.
  - Scope: Partial because of the refuted cases: str() of an EAD Reference always raises TypeError (its value is a NodeField), a MODS Name runs its parts together (its __unicode__ is not used in Python 3), pretty printing can separate words, two different CERP parameters can read the same, and MODS dates and CERP hashes without text raise TypeError (C81_date, C81_hash state this exactly). __repr__ is not modelled.
* **C82** (partial) Mail dates are stored as the instant they name.
  - Model: MailDate.v: calendar arithmetic transcribed from CPython's datetime and calendar modules, parse_mail_date, from_email_message; Cerp.v for the rest of the conversion.. Proof: ordinals count next_day steps (induction), are injective on real days, and ord2ymd inverts them (400/100/4/1-year cycles by linear arithmetic, the month by checking all 366 days); ISO text is injective by the reading proof of C24; C47 for the message..
  - Theorems: `C82_instant`, `C82_succeeds`, `C82_same_instant`, `C82_distinct_partial`, `C82_unparsed`, `C82_zone_refuted`, `C82_clocks_back_refuted`, `C82_no_such_day_refuted`, `C82_year_refuted`, `C82_message`, `C82_bad_date`.
  - Scope: Model: parse_mail_date with calendar.timegm, mktime_tz and datetime.fromtimestamp; email.utils.parsedate_tz and the machine's time zone are parameters. The calendar is specified by counting days one by one (next_day, day_number). C82_distinct_partial needs a zone whose offset does not change. Refuted: the text does not name its zone, so equal texts from two machines can be hours apart (C82_zone_refuted); the hour in which clocks go back is stored twice alike; 31 February becomes 2 March; years outside 1..9999 raise ValueError.
* **C83** (partial) Numbers in XPath expressions keep their value.
  - Model: XPathLex.v (t_FLOAT, t_INTEGER), XPathAst.v (float_of_digits, repr_float), NumberSpec.v (decimal value by Horner, numerals, same_number, tidy). Proof: stripping zeros as splitting off repeat 0; values of sequences by positional weights; sig/e10 related to the value by bounds on powers of 10.
  - Theorems: `C83_integer`, `C83_integer_back`, `C83_decimal_partial`, `C83_exponent_refuted`.
  - Scope: Integers: proved for all digit sequences and all values, both directions. Decimals: proved exactly for at most 15 significant digits in the positional range; beyond 15 digits binary64 rounding is not modelled. Refuted outside the range: 10000000000000000.0 serialises to 1e+16, which the parser refuses.
* **C84** (proved) An object is a record of its fields.
  - Model: Record.v (descriptor get/set/delete over a class table), on top of Fields.v/Mappers.v; RecordSpec.v (settled documents, the record as a function from names to values). Proof: invariant: every field settled and reading as its variable; a write or deletion keeps its own path settled (FieldSingle.v), forking paths keep their matches (C74) and, through the shared leading part, stay settled (FieldRecord.v); induction over the program.
  - Theorems: `C84_record`, `C84_new_object`, `C84_shipped_classes`.
  - Scope: Proved as quantified (element and attribute fields of the supported class whose predicates the field can write, no predicate comparing an attribute further down the path). The conditions are needed (examples C84_nested_differs, C84_repeated_differs): paths of which one continues the other (deleting x takes x/@k with it), repeated elements (after deleting the first x the second shows). Not covered: text() fields, node and list fields inside the record.
* **C85** (proved) An object with lists is a plain Python object.
  - Model: Object.v (one statement on a single or list field over two class tables); ObjectSpec.v (plain variables and Python lists, py_xop of ListSpec.v). Proof: the invariant of C84 plus C57's holds for every list; each statement keeps its own part by C84/C57 and the others by C74 (fork_one); induction over the program.
  - Theorems: `C85_object`, `C85_new_object`, `C85_shipped_classes`.
  - Scope: Proved as quantified. Insertion is compared with a list that raises IndexError past the end, which is what eulxml does (list.insert would append, C28). Not covered: text() fields, node and node list fields, lists of several steps, attribute lists; DublinCore, whose single and list fields share XPaths.
* **C86** (proved) An object for a leaf element is a record of its attributes and one text.
  - Model: LeafSpec.v (the Python side: attribute variables and one text), Record.v (the program). Proof: Attribute steps see and change the attributes only (C84's step does the rest); text() and . are computed on a leaf; induction on the program.
  - Theorems: `C86_leaf`, `C86_new_object`, `C86_shipped_classes`.
  - Scope: C86_leaf is the general statement, from any leaf element and matching variables; C86_new_object starts from a new object; C86_shipped_classes instantiates it for the 15 leaf classes of the shipped maps, with values allowed per field. Strings or None for the text fields; keepable values (C84) for the attributes. C86_delete_case shows what a user may not expect of del.
* **C87** (partial) Which forms and inputs a page has, and which object each belongs to.
  - Model: FormPages.v: make, make_set (forms, subforms, formsets for an object, bound or not), Django's counts and add_fields, Meta options, factory. Proof: C87_names_distinct by induction over places (components of names, as C41); C87_resubmitted by induction over class trees; C87_submission links to the hypotheses of C51.
  - Theorems: `C87_bound_to`, `C87_input_name`, `C87_names_distinct`, `C87_displayed`, `C87_values_displayed`, `C87_complete`, `C87_resubmitted`, `C87_long_list_refuted`, `C87_options`, `C87_factory`, `C87_factory_refuted`, `C87_subformfield_refuted`, `C87_boxes`, `C87_submission`, `C87_list_grew_refuted`, `C87_list_shrank_refuted`.
  - Scope: Partial because of the refuted claims: a page submitted after the list grew overwrites the added item, after it shrank what was typed is saved nowhere; more than max_num + 1000 forms cannot be submitted; can_delete and can_order given to SubformField, or inherited by xmlobjectform_factory, have no effect. Everything else is proved for every class tree. Django's BaseFormSet is transcribed (Django 1.8 to 3.2); submissions have a management form for every formset; extra >= 0 (a negative number hides items, C87_extra_case); a field called DELETE or ORDER in a formset form is replaced by Django's box (C87_delete_case).
* **C88** (partial) What a typed field reads, for every text.
  - Model: Mappers.v: to_python with Python's int() and float(), strptime as lists of successes in the order tried; XPathEval.v: libxml2's number(). Proof: ReadSpec.v gives grammars and values; ReadNum.v and ReadDate.v prove the readers sound and complete for them (induction over texts; separators make backtracking deterministic, the last directive takes the longest match).
  - Theorems: `C88_string`, `C88_integer_string`, `C88_integer_unique`, `C88_integer_element_partial`, `C88_float_string_partial`, `C88_float_element`, `C88_boolean`, `C88_date`, `C88_datetime`, `C88_nothing`, `C88_attribute_or_element_refuted`, `C88_overflow_refuted`, `C88_errors_refuted`.
  - Scope: Partial: integers in elements are exact up to 2^53; float infinities are not values of the model, and floats are exact decimals instead of binary64. Digits and white space of int(), float() and strptime are ASCII. Refuted as stated for users: the same text reads differently in an attribute and in an element; infinite element numbers raise OverflowError where other unreadable texts read None; short texts raise IndexError and empty DateField elements TypeError instead of ValueError.
* **C89** (proved) An XPath selects exactly the nodes XPath 1.0 says, once each and in document order.
  - Model: the evaluators [ev] (XPathEval.v) and [fev] (XPathRead.v, nodes with their places; both transcriptions of XPath 1.0 as in libxml2) against an independent set-based semantics (EvalSpec.v); field_get and list_data on top. Proof: induction on expressions: every node-set value is a sorted list of places that represents the set of the specification (EvalMain, EvalValues, EvalFuns); agreement of the two evaluators by induction, nothing has to be sorted in the smaller fragment (EvalAgree); typing is the same in every environment that binds the prefixes.
  - Theorems: `C89_xpath`, `C89_agree`, `C89_nodes`, `C89_order_unique`, `C89_field`, `C89_typed`, `C89_string`, `C89_list`, `C89_count`, `C89_no_list`, `C89_nth_child`, `C89_anywhere`, `C89_shipped`.
  - Scope: EvalSpec.v gives XPath meanings as sets of nodes and propositions (no lists, no evaluation). C89_xpath: what the model's evaluators answer has that meaning, for every readable expression; C89_agree: the fragment eulxml can create nodes for (XPathEval.v) is part of it and the two evaluators agree there; C89_nodes: every node once in document order; C89_order_unique: there is only one such list; C89_field, C89_typed, C89_string, C89_list: what fields of all kinds and string lists read; C89_nth_child: positions; C89_anywhere: './/name'; C89_count: count() (None for 0); C89_no_list: TypeError; C89_shipped: all 398 fields of the shipped classes. Documents are those lxml can hold (no two attributes of an element with one name). Absolute paths, '..' and the other upward or sideways axes, node(), comment(), arithmetic, < and >, id() and the other functions are not evaluated by the model (XUnmodelled); nor are numbers turned into strings.
* **C90** (proved) Writing or deleting through any downward XPath ('.//x', 'a|b', '(a|b)[1]', other axes) touches only the first node read, or nothing.
  - Model: the single node manager of Fields.v on every readable XPath (C89). Proof: C89's theorems give the first node; a simulation between documents that differ only in texts (EvalBlind.v) gives that blind XPaths find the same places.
  - Theorems: `C90_element`, `C90_attribute`, `C90_text`, `C90_set_get`, `C90_set_get_attribute`, `C90_missing`, `C90_create_in_first`, `C90_delete_ignored`, `C90_delete_child`, `C90_delete_attribute`, `C90_shipped_delete`, `C90_looks_at_text`, `C90_shipped_attributes`, `C90_create_attribute`, `C90_create_delete_attribute`, `C90_create_text`.
  - Scope: What is found is stated with C89's independent meaning of XPaths (EvalSpec.v). C90_element, C90_attribute, C90_text: what an assignment changes; C90_set_get, C90_set_get_attribute: read back for XPaths that are [blind] (syntactically never ask for the string value of an element, resp. of an attribute of the name written), with C90_looks_at_text showing why; C90_missing, C90_create_in_first: nothing found; C90_delete_ignored, C90_delete_child, C90_delete_attribute: del. C90_shipped_delete: [del] on DescriptiveIdentification.unitdate and IndexEntry.name (EAD) never removes anything. Not stated: reading back after C90_create_in_first; predicates on the last step when creating; pruning of emptied parents when [l] itself could have been created (C14, C15 have that for the creatable fragment). Props_CreateAttr.v: a missing attribute 'l/@name' is set on the first element l finds (C90_create_attribute), read back, and deleting it restores the document (C90_create_delete_attribute); read-back and restore are stated for l without predicates ([bare]). C90_shipped_attributes instantiates it for the 5 shipped fields of that shape. Props_CreateText.v: 'l/text()' that finds nothing writes the text of the first element l finds (refused if it has children).
* **C91** (proved) List fields with any downward XPath: an item is written or deleted where it stands, and what cannot be done is refused.
  - Model: the node list of NodeList.v on every readable XPath (C89). Proof: C89's theorems give the items in order; the simulation of EvalBlind.v keeps their places under a text change.
  - Theorems: `C91_append_attribute`, `C91_append_first_attribute`, `C91_set_get_attribute`, `C91_assign_attributes`, `C91_assign_fewer_attributes`, `C91_setitem`, `C91_setitem_range`, `C91_set_get`, `C91_setitem_attribute`, `C91_delitem`, `C91_no_append`, `C91_no_insert`, `C91_assign`, `C91_assign_longer`.
  - Scope: The items are stated with C89's independent meaning of XPaths: [listing E e d l] says l is, in document order and without repetition, what e picks. C91_assign_longer is the observable non-atomicity of whole-list assignment on a list that cannot grow. Read-back is stated for lists of leaf elements and XPaths that never ask for the string value of an element ([blind]); C92 has the full Python-list reading. Props_AttrList.v does the same for lists of attributes: C91_set_get_attribute, C91_assign_attributes (same length), C91_assign_fewer_attributes (TypeError after the prefix is written, no attribute lost); those need the XPath not to test the attribute written ([blind E (Some q)]). C91_append_attribute and C91_append_first_attribute: a list of attributes takes a new item only when it is empty.
* **C92** (proved) List fields with any downward XPath behave as Python lists that cannot grow.
  - Model: the node list and its manager (NodeList.v) on every readable XPath (C89). Proof: a simulation between the document before and after taking an element out (EvalRemove.v), then induction on the history.
  - Theorems: `C92_delitem_nodes`, `C92_delitem`, `C92_take_out`, `C92_operation`, `C92_growth`, `C92_history`, `C92_assign`, `C92_delete`, `C92_shipped`, `C92_positions`, `C92_nested`.
  - Scope: C92_delitem_nodes, C92_delitem, C92_take_out: taking out; C92_operation, C92_growth, C92_history: every operation and every history against py_op, Python's own list; C92_assign, C92_delete: the manager; C92_shipped: 122 of the 123 list fields of the shipped classes (the other one lists attributes); C92_positions, C92_nested: what the two hypotheses are for.
* **C93** (proved) Fields 'l/name' grow under the first node found by any downward l, and their lists are Python lists.
  - Model: Fields.v's creation and NodeList.v on every readable XPath (C89). Proof: EvalRemove.v's simulation used backwards: the document before is the one after with the new element taken out.
  - Theorems: `C93_create_delete`, `C93_append`, `C93_operation`, `C93_history`, `C93_insert_end`, `C93_assign`, `C93_delete`, `C93_append_where`, `C93_create`, `C93_shipped`, `C93_elsewhere`, `C93_predicate`.
  - Scope: [growing] is the syntactic condition on the XPath, [grows a vs d] the state: the list reads vs and its items are childless children of the first node (at a) l finds. C93_append, C93_append_where, C93_operation, C93_history, C93_insert_end, C93_assign, C93_delete, C93_create (single fields, read back); C93_shipped: 5 list fields and 43 single fields of the shipped classes are of this form; C93_elsewhere, C93_predicate: what the hypotheses are for. insert elsewhere than at the end is refuted by C32_insert_refuted; predicates on the last step are not covered here (C10, C27 have them for child steps). C93_create_delete (Props_GrowBack.v): an element created through 'l/name' with l ending in '//' (or '.') is removed again by deleting the field or assigning None, and the document is exactly as before.
