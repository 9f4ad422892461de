{
 "C01": {
  "note": "Proved for every AST writable without grouping parentheses whose adjacent tokens stay apart, and for every accepted text in that fragment; false elsewhere (witnesses in C01_roundtrip_refuted: '/', dropped parentheses, 'a - b', processing-instruction literal)."
 },
 "C02": {
  "note": "Completeness against an independent transcription of the W3C grammar, and against the productions and precedence table of parserules.py, for the PLY driver and its LALR tables."
 },
 "C03": {
  "note": "Exact characterisation of acceptance, and soundness against the W3C grammar except for a unary minus directly after '|', which the code accepts and the W3C grammar does not."
 },
 "C04": {
  "note": "Python's recursion limit (peek recurses once per consecutive name) is not modelled."
 },
 "C05": {
  "note": "Holds after histories of successful calls and, after any history, for expressions not starting with a name or '*'; refuted otherwise: a failed call leaves lexer.last set."
 },
 "C06": {
  "note": "Proved for every token not directly after ',', ':' or '$'; refuted after ',' and '$' (missing from OPERATOR_FORCERS)."
 },
 "C07": {
  "note": "Proved for names without U+00C0..U+00D6 and not starting with a character of category Nd; refuted for those."
 },
 "C08": {
  "note": ""
 },
 "C09": {
  "note": "Exact: a literal survives serialising and parsing iff it is printable, without backslash and without both kinds of quote (tokens and parser); any other string without both quotes becomes its spelling by Python's repr (LexSpec.spells); with both quotes the result is never a literal. The full property (every literal survives) is refuted for backslash."
 },
 "C10": {
  "note": "Proved for the supported class (FieldSpec.supported_path) unless the field is text() whose first match is text after a child; also that the assignment does succeed under stated conditions, for a present field iff every character is an XML Char. Refuted for tail text and for attributes named 'text'."
 },
 "C11": {
  "note": "For any XPath whose first match is an element, and for all supported fields; refuted for attributes named 'text'."
 },
 "C12": {
  "note": ""
 },
 "C13": {
  "note": "Proved when the field exists (any XPath) and when it is missing with XML-valid predicate values and value; refuted where the code creates nodes before noticing the error."
 },
 "C14": {
  "note": "Proved whenever the node read is below the first element that the path without its last step finds (first_parent), for element and attribute fields; that condition is exact: otherwise the document is unchanged (C14_elsewhere_refuted) or KeyError is raised (C14_attribute_elsewhere_refuted). Refuted for text()."
 },
 "C15": {
  "note": "C15_loses_only_named, C15_one_place, C15_unnamed_kept and C15_at_most_one_per_step hold for every supported XPath (predicates on child elements and nested paths included), also when several parents match; LostSpec.v is the specification. The two _partial theorems give the sharper form for predicates that start at attributes: the removed ancestors had exactly one child and only predicate attributes. Refuted for text in emptied ancestors and for tails, hence partial."
 },
 "C16": {
  "note": "Refuted for date fields (AttributeError)."
 },
 "C17": {
  "note": "Refuted for number 0 (reads None). Integer fields additionally read None for non-numeric content."
 },
 "C18": {
  "note": "Proved for the supported class, text after a child excepted."
 },
 "C19": {
  "note": "Refuted for text()."
 },
 "C20": {
  "note": "Proved for every supported element or attribute path all of whose predicates, at every depth, compare a path (child or attribute, any length) with a value (value_preds), when no element on the way exists or the existing ones hold more than their predicates name (holds_more; without an attribute-of-a-child comparison). Refuted: existence predicates, an existing element that holds only what its predicates name, KeyError in the clean-up. Not covered: text() fields."
 },
 "C21": {
  "note": "Proved for XPaths whose last part is not constructible; refuted for positional and boolean predicates, which are accepted but not built."
 },
 "C22": {
  "note": "Attributes: every integer. Elements: |n| <= 2^53; refuted beyond. Assigning True/False writes Python's spelling and the field then reads None (C22_boolean_value_refuted)."
 },
 "C23": {
  "note": "Any value may be assigned (counts_as: Python's truth value). Refuted only for equal markers."
 },
 "C24": {
  "note": "Datetimes: all years, both with and without microseconds; dates and custom formats from year 1000. normalize=True is covered for attribute fields. Refuted for years below 1000 (glibc strftime) and DateTimeField with a date-only format."
 },
 "C25": {
  "note": "normalize-space is libxml2's; eulxml applies it to element matches only (refuted for attributes)."
 },
 "C26": {
  "note": "For every list that can be read: len, indexing (also negative, also past the end), membership, count, index, iteration and comparison answer as the Python list of the converted values does."
 },
 "C27": {
  "note": "For a field whose expression is a single element step (with predicates on attributes), every history of [i]=v, del [i], append, extend, remove, pop on values that survive a write and read agrees, result by result and exception by exception, with the same history on a Python list. Missing: insert is C28; dates are storable only under the mapper's own hypotheses. Refuted: append of a value the mapper refuses leaves an empty element; attribute lists."
 },
 "C28": {
  "note": "Proved for every position 0..len on one-step lists; positions outside -len..len raise IndexError and change nothing (list.insert would append or prepend); refuted for negative positions (the value replaces or lands elsewhere)."
 },
 "C29": {
  "note": "One-step lists: after assignment the list reads exactly the assigned values, whatever lengths. The same theorem covers multi-step lists while the leading steps match at most one node; otherwise C32_assign_refuted. C91 and C92 have whole-list assignment through any downward XPath."
 },
 "C30": {
  "note": "One-step lists of comparable values: delete empties the list. Refuted for values unequal to themselves (NaN): delete raises ValueError."
 },
 "C31": {
  "note": "Every node outside the list (and every attribute of the owner) is untouched by histories, whole assignment and insert; append puts the new node after the last one. Refuted: the tail text of a deleted item is lost; None assigned to an item reads '' afterwards instead of removing it. C31_long_*: the same below the one element that the path before the last step reaches (rest_kept)."
 },
 "C32": {
  "note": "append proved when the leading steps match exactly one parent; refuted with several parents for append, whole assignment and insert."
 },
 "C33": {
  "note": "For every list of distinct nodes (old, new or mixed, any order) the list becomes exactly those, other children and order of the others kept; also single-node append, insert, replacement and deletion. Identity-level model of one-step node lists. Refuted outside the hypotheses: repeated nodes, and assigning another object's live list."
 },
 "C34": {
  "note": "For every program of class statements (any depth, any bases, C3 method resolution order proved about): the table equals attribute lookup for names used only for fields and without clashing bases; single inheritance as a special case; self references. Refuted: diamond inheritance, a field overridden by a non-field, fields on plain mixins, stale create_ methods, one self-referential field under two names."
 },
 "C35": {
  "note": "Heap model with shared dictionaries, every history of object creations. Declared prefixes resolve for ever unless a sharer redeclares them; document prefixes resolve when the caller gives no namespaces. Refuted: the caller's dictionary is modified, document prefixes are hidden by a context, a shared context rebinds declared prefixes, a default namespace in ROOT_NAMESPACES breaks all XPaths."
 },
 "C36": {
  "note": "Every sequence of calls; threads under every schedule get an object loaded for their URI. Refuted: XMLSyntaxError passes through without the URI; two threads can load twice and get different objects.",
  "status": "partial"
 },
 "C37": {
  "note": "Proved for element-backed objects, for every serialisation function; refuted for text-node objects, whose comparison raises TypeError."
 },
 "C38": {
  "note": "Choices proved when the schema has at most one blank value; xpath, required flag and declaration order kept; exact condition for replacement. Refuted: verbose_name and help_text are dropped; with two blank values one remains."
 },
 "C39": {
  "note": "Every list and depth; membership and order at each level, for inclusion and exclusion lists."
 },
 "C40": {
  "note": "Form classes built from any class table: visible fields, dictionary they go to, order, contents, at every depth of generated subforms. Declared subforms are only covered at the top level. Refuted: one field object under two names; already parsed lists; calling without declared_subforms; classes that contain themselves."
 },
 "C41": {
  "note": "Every structure of node fields and node lists; keys are distinct and the dictionary is exactly the values by key."
 },
 "C42": {
  "note": "Over value trees (assigning one field changes no other: C11). Field by field and at any depth of subforms. Refuted: forms with dotted field lists raise TypeError when saved."
 },
 "C43": {
  "note": "At document level, for storable strings and integers other than 0, any history of submissions. Refuted: zeros are dropped; attributes and position of unchanged items are lost."
 },
 "C44": {
  "note": "All item lists, server behaviours, interruptions at any byte, re-runs. XML parsing/serialising are parameters. Hypotheses: distinct last URI parts, none equal to the catalog file. Refuted: a connection error aborts the whole generation; two URIs with the same last part share a file; interruption leaves a truncated schema under the old catalog or a truncated catalog."
 },
 "C51": {
  "note": "Any history of validations and updates, with and without ordering, when forms to delete (with ordering: all forms) have XML different from the others. Refuted: deleting one of two equal items deletes both in the usual flow; an item edited to equal a deleted one is lost; exchanging equal items loses one; a filled-in new form ticked for deletion is added."
 },
 "C52": {
  "note": "Forms of scalar fields and subforms over the XML model of the fields block. Refuted: displaying a form creates missing subobjects; an empty node bound to a form field is removed by saving."
 },
 "C45": {
  "note": "Model: the addition of the generated catalog to XML_CATALOG_FILES (eulxml/__init__.py:50-57), on the environment as a map, any history of registrations. Registering is idempotent and never loses an entry of a colon reader. Refuted: libxml2 splits the variable at blanks, so the colon-joined value is one unusable file name whenever the variable already had a value; the substring test skips registration if another entry merely contains the path. Missing: spawning processes that inherit the environment."
 },
 "C46": {
  "note": "Model: the control character removal of cerp.py on arbitrary strings of code points; storable = accepted by lxml. Proved: the result has no removed character, everything else is kept in order, text lxml accepts is unchanged, and stored text reads back. Partial because noncharacters (U+FFFE, U+FFFF) and surrogates survive and make lxml raise (refuted theorem)."
 },
 "C47": {
  "note": "Model: Message.from_email_message on the XML tree, whole document built; header names/values, addresses and dates as returned by Python's email package are inputs. Proved: the complete document, its scalar fields, all headers in order and the address lists. Refuted: local_id stores the repr of the builtin id; Sender is filled from From; control characters in a header raise. Missing: email package parsing, multipart bodies. Header names are compared without case (C47_header_case)."
 },
 "C48": {
  "note": "Model: is_empty of the MODS classes and of XmlObject on arbitrary trees, with the field reads of Fields.v. Proved equivalent to \"no text (and no type)\" for elements that hold only the mapped fields, single-valued ones once at most; the exact condition for notes and plain objects. Refuted: five date lists of OriginInfo ignored; text after a comment; a second title; tail white space."
 },
 "C49": {
  "note": "Model: Premis.__init__ with an optional node and version keyword on arbitrary elements and namespaces. New objects and given versions are proved; loading keeps everything but the version attribute, which is always overwritten with 2.1 (refuted theorem, for every document)."
 },
 "C50": {
  "note": "Model: TeiLine.indent on arbitrary lines (int() on ASCII), UnitTitle.short on arbitrary titles. Refuted: indent raises AttributeError for every line without rend, ValueError for text after 'indent'; short drops the text that follows the unitdate. Proved: everything else, incl. that the original is not modified."
 },
 "C55": {
  "note": "Full equivalence on arbitrary trees. The union XPath 'e:c02|...|e:c12' is modelled as the children with these names in document order."
 },
 "C54": {
  "note": "Model: xmlschema, schema_valid, schema_validation_errors, validation_errors, is_valid with the schema cache and one error log per schema object, after any history of these calls. The errors lxml finds in a document are a parameter; schema files do not change during the session; whether lxml's validate keeps earlier log entries is a parameter too. Refuted: schema_validation_errors() returns the errors of whatever object was validated last with that schema (none before the first validation), and threads interleaved within validation_errors() get each other's errors. Proved: everything else."
 },
 "C53": {
  "note": "Model: SingleNodeManager.set with NodeMapper, the element case of _set_in_xml (clear, text, children moved, attributes copied), for an object outside the document or at any place inside it that does not contain the target. Refuted: the object assigned loses its children; obj.f = obj.f erases the content; the text after the element is lost; a field with a predicate in its last step does not find what was assigned. Proved: content and frame for any XPath matching an element without following text; creation for supported paths; reading back for supported paths without predicate in the last step; same-document sources. Missing: source containing the target."
 },
 "C56": {
  "status": "proved",
  "note": "For all supported XPaths, documents and histories (run_fops). The property is scoped to entry by a child name or attribute: C56_text_interferes and C56_same_child_interferes show on concrete documents that text() fields and fields sharing a child do interfere."
 },
 "C57": {
  "status": "proved",
  "note": "All histories over xop (ListSpec.v); Python's list operations are specified there independently. Hypotheses: list_field, one_step, holds (elements of the list have no child elements). C57_long_paths: the same for list XPaths with several steps that reach at most one parent, without insert, and the rest of the document is kept (rest_kept)."
 },
 "C58": {
  "status": "proved",
  "note": "All histories over vop; documents restored exactly. variable_path states the class of XPaths."
 },
 "C59": {
  "status": "proved",
  "theorems": [
   "C11_set_element_frame",
   "C13_failed_set_existing",
   "C13_unparsable"
  ],
  "note": "Any XPath and document; scoped part of C11 and C13."
 },
 "C60": {
  "status": "proved",
  "theorems": [
   "C36_loaded_once",
   "C36_failures_retried",
   "C36_threads_sound"
  ],
  "note": "Scoped part of C36: sequences of any outcomes and all interleavings of check/load/store steps."
 },
 "C61": {
  "status": "proved",
  "theorems": [
   "C40_shown",
   "C40_slots",
   "C40_order_listed",
   "C40_order_default",
   "C40_contents",
   "C40_declared"
  ],
  "note": "Scoped part of C40; 'plain names and no aliasing' is the hypothesis sane."
 },
 "C62": {
  "status": "proved",
  "theorems": [
   "C42_saved",
   "C42_formsets",
   "C42_unbound",
   "C42_saved_deep"
  ],
  "note": "Scoped part of C42: field names without dots, subforms and formsets with distinct names."
 },
 "C63": {
  "status": "proved",
  "theorems": [
   "C44_completes",
   "C44_catalog",
   "C44_names",
   "C44_interrupted",
   "C44_exception",
   "C44_rerun"
  ],
  "note": "Scoped part of C44."
 },
 "C64": {
  "status": "proved",
  "theorems": [
   "C46_clean",
   "C46_unchanged"
  ],
  "note": "Scoped part of C46; bad_control in Props_Cerp.v."
 },
 "C65": {
  "status": "proved",
  "theorems": [
   "C54_errors",
   "C54_is_valid",
   "C54_schema_valid"
  ],
  "note": "Scoped part of C54; the schema's verdict and error log are parameters (lxml)."
 },
 "C66": {
  "status": "proved",
  "theorems": [
   "C33_assign_nodes",
   "C33_append_node",
   "C33_insert_node",
   "C33_replace_node",
   "C33_delete_node"
  ],
  "note": "Scoped part of C33; nodes are identities, children_ok states distinctness."
 },
 "C67": {
  "status": "proved",
  "theorems": [
   "C31_set_item",
   "C31_del_item"
  ],
  "note": "Scoped part of C31."
 },
 "C68": {
  "status": "proved",
  "theorems": [
   "C25_normalize_words",
   "C25_normalize_idempotent",
   "C25_no_runs"
  ],
  "note": "Scoped part of C25."
 },
 "C69": {
  "status": "proved",
  "theorems": [
   "C24_datetime_roundtrip",
   "C24_offset_ignored"
  ],
  "note": "Scoped part of C24."
 },
 "C70": {
  "status": "proved",
  "theorems": [
   "C38_kept",
   "C38_replaced_iff"
  ],
  "note": "Scoped part of C38."
 },
 "C71": {
  "note": "The table Shipped.v is generated from the source text (tools/gen_shipped.py, Python's ast module). 270 of the 275 single fields, NodeFields included in the success theorems through their mapper but read back by C53; TeiDiv.title (tei:head[1]) is shown to act as tei:head, so the same theorem applies to it. Excepted: DublinCoreElement.name (local-name), _EadBase.match_count (count), DescriptiveIdentification.unitdate (.//), IndexEntry.name (|). text() fields: read-back needs an element without text after children (C10_tail_refuted); success is not claimed for them. False with false=None is a deletion (C23). C71_process_info_refuted: ArchivalDescription.process_info has a path that repeats archdesc and never finds the archdesc's processinfo."
 },
 "C72": {
  "note": "Instances of C57 for the 48 string lists of the table with one child step. C72_long_lists_partial: EAD extent and languages (several steps), for histories without insert while their parent is there at most once. language_codes, a list of attributes, is excepted, hence partial."
 },
 "C73": {
  "note": "Instance of C56 over the table; rows sharing the first child (e.g. PREMIS id_type and id) are not covered."
 },
 "C74": {
  "note": "Proved for the supported XPath class (supported_path) on both sides; paths that continue one another, or that part by text(), are not covered (C56_same_child_interferes, C56_text_interferes show they do interfere)."
 },
 "C75": {
  "note": "Partial only in the kinds of keywords: node and list values are not covered. C75_all_values: any table of pairwise forking value fields (string, integer, boolean, date and datetime mappers; None allowed) with keepable values in any order; C75_shipped_values instantiates it for the classes of C84 and C75_shipped_leaf for the 15 leaf classes of C86 (text() and . fields). C75_unknown_keyword is unconditional (names of methods, properties, list fields are outside the table model). C75_root: what the constructed object's root element is."
 },
 "C76": {
  "note": "Over value trees, with Django's verdict and cleaned data, schema validity and what formsets do as inputs (formsets that are steady: a second validation or saving changes nothing; string and integer list formsets are, C43). The model keeps the form as state (detached objects of removed subforms, recorded errors); vupdate_plain ties it to the update_instance of C42. Refuted: False may leave earlier subforms written."
 },
 "C77": {
  "note": "Partial because of the refuted label and empty formset cases; everything else is proved for every form tree. The HTML Django makes for the fields of one form and for management forms are inputs; str.capitalize is a parameter (C77_default_heading assumes that capitalised words stay as they are, proved for ASCII); blanks are ASCII blanks."
 },
 "C78": {
  "note": "Single inheritance is complete (C78_declared, C78_form, C78_empty_subclass); multiple inheritance and SubformFields are refuted. A declared SubformField is modelled by the form its class makes."
 },
 "C79": {
  "note": "Partial because of the three refuted claims; the reload theorems hold for every tree that meets tree_ok. The writer and the reader are transcriptions of libxml2's behaviour, not of code in /repo (see the head of XmlText.v): code points instead of UTF-8, one declaration per prefix and all on the outermost element, comments but no processing instructions or DOCTYPE, no CDATA. Schema validation on loading is C54. C79_line_ends and C79_attribute_text say what the reader makes of carriage returns, line feeds and tabs that are written raw."
 },
 "C80": {
  "note": "C80_overlap_refuted: the lexer is a module-level object that every call resets, so parse is not safe to call from several threads at once (two valid XPaths, one returns the tree of a text nobody passed). C80_serial and C80_serial_parse cover every schedule without overlap; C80_calls_end and C80_calls_answer cover every schedule. lexer.input and lexer.token are taken as single steps."
 },
 "C81": {
  "note": "Partial because of the refuted cases: str() of an EAD Reference always raises TypeError (its value is a NodeField), a MODS Name runs its parts together (its __unicode__ is not used in Python 3), pretty printing can separate words, two different CERP parameters can read the same, and MODS dates and CERP hashes without text raise TypeError (C81_date, C81_hash state this exactly). __repr__ is not modelled."
 },
 "C82": {
  "note": "Model: parse_mail_date with calendar.timegm, mktime_tz and datetime.fromtimestamp; email.utils.parsedate_tz and the machine's time zone are parameters. The calendar is specified by counting days one by one (next_day, day_number). C82_distinct_partial needs a zone whose offset does not change. Refuted: the text does not name its zone, so equal texts from two machines can be hours apart (C82_zone_refuted); the hour in which clocks go back is stored twice alike; 31 February becomes 2 March; years outside 1..9999 raise ValueError."
 },
 "C83": {
  "note": "Integers: proved for all digit sequences and all values, both directions. Decimals: proved exactly for at most 15 significant digits in the positional range; beyond 15 digits binary64 rounding is not modelled. Refuted outside the range: 10000000000000000.0 serialises to 1e+16, which the parser refuses."
 },
 "C84": {
  "note": "Proved as quantified (element and attribute fields of the supported class whose predicates the field can write, no predicate comparing an attribute further down the path). The conditions are needed (examples C84_nested_differs, C84_repeated_differs): paths of which one continues the other (deleting x takes x/@k with it), repeated elements (after deleting the first x the second shows). Not covered: text() fields, node and list fields inside the record.",
  "status": "proved"
 },
 "C85": {
  "note": "Proved as quantified. Insertion is compared with a list that raises IndexError past the end, which is what eulxml does (list.insert would append, C28). Not covered: text() fields, node and node list fields, lists of several steps, attribute lists; DublinCore, whose single and list fields share XPaths.",
  "status": "proved"
 },
 "C86": {
  "note": "C86_leaf is the general statement, from any leaf element and matching variables; C86_new_object starts from a new object; C86_shipped_classes instantiates it for the 15 leaf classes of the shipped maps, with values allowed per field. Strings or None for the text fields; keepable values (C84) for the attributes. C86_delete_case shows what a user may not expect of del."
 },
 "C87": {
  "note": "Partial because of the refuted claims: a page submitted after the list grew overwrites the added item, after it shrank what was typed is saved nowhere; more than max_num + 1000 forms cannot be submitted; can_delete and can_order given to SubformField, or inherited by xmlobjectform_factory, have no effect. Everything else is proved for every class tree. Django's BaseFormSet is transcribed (Django 1.8 to 3.2); submissions have a management form for every formset; extra >= 0 (a negative number hides items, C87_extra_case); a field called DELETE or ORDER in a formset form is replaced by Django's box (C87_delete_case)."
 },
 "C88": {
  "note": "Partial: integers in elements are exact up to 2^53; float infinities are not values of the model, and floats are exact decimals instead of binary64. Digits and white space of int(), float() and strptime are ASCII. Refuted as stated for users: the same text reads differently in an attribute and in an element; infinite element numbers raise OverflowError where other unreadable texts read None; short texts raise IndexError and empty DateField elements TypeError instead of ValueError."
 },
 "C89": {
  "note": "EvalSpec.v gives XPath meanings as sets of nodes and propositions (no lists, no evaluation). C89_xpath: what the model's evaluators answer has that meaning, for every readable expression; C89_agree: the fragment eulxml can create nodes for (XPathEval.v) is part of it and the two evaluators agree there; C89_nodes: every node once in document order; C89_order_unique: there is only one such list; C89_field, C89_typed, C89_string, C89_list: what fields of all kinds and string lists read; C89_nth_child: positions; C89_anywhere: './/name'; C89_count: count() (None for 0); C89_no_list: TypeError; C89_shipped: all 398 fields of the shipped classes. Documents are those lxml can hold (no two attributes of an element with one name). Absolute paths, '..' and the other upward or sideways axes, node(), comment(), arithmetic, < and >, id() and the other functions are not evaluated by the model (XUnmodelled); nor are numbers turned into strings."
 },
 "C90": {
  "note": "What is found is stated with C89's independent meaning of XPaths (EvalSpec.v). C90_element, C90_attribute, C90_text: what an assignment changes; C90_set_get, C90_set_get_attribute: read back for XPaths that are [blind] (syntactically never ask for the string value of an element, resp. of an attribute of the name written), with C90_looks_at_text showing why; C90_missing, C90_create_in_first: nothing found; C90_delete_ignored, C90_delete_child, C90_delete_attribute: del. C90_shipped_delete: [del] on DescriptiveIdentification.unitdate and IndexEntry.name (EAD) never removes anything. Not stated: reading back after C90_create_in_first; predicates on the last step when creating; pruning of emptied parents when [l] itself could have been created (C14, C15 have that for the creatable fragment). Props_CreateAttr.v: a missing attribute 'l/@name' is set on the first element l finds (C90_create_attribute), read back, and deleting it restores the document (C90_create_delete_attribute); read-back and restore are stated for l without predicates ([bare]). C90_shipped_attributes instantiates it for the 5 shipped fields of that shape. Props_CreateText.v: 'l/text()' that finds nothing writes the text of the first element l finds (refused if it has children)."
 },
 "C91": {
  "note": "The items are stated with C89's independent meaning of XPaths: [listing E e d l] says l is, in document order and without repetition, what e picks. C91_assign_longer is the observable non-atomicity of whole-list assignment on a list that cannot grow. Read-back is stated for lists of leaf elements and XPaths that never ask for the string value of an element ([blind]); C92 has the full Python-list reading. Props_AttrList.v does the same for lists of attributes: C91_set_get_attribute, C91_assign_attributes (same length), C91_assign_fewer_attributes (TypeError after the prefix is written, no attribute lost); those need the XPath not to test the attribute written ([blind E (Some q)]). C91_append_attribute and C91_append_first_attribute: a list of attributes takes a new item only when it is empty."
 },
 "C92": {
  "note": "C92_delitem_nodes, C92_delitem, C92_take_out: taking out; C92_operation, C92_growth, C92_history: every operation and every history against py_op, Python's own list; C92_assign, C92_delete: the manager; C92_shipped: 122 of the 123 list fields of the shipped classes (the other one lists attributes); C92_positions, C92_nested: what the two hypotheses are for."
 },
 "C93": {
  "note": "[growing] is the syntactic condition on the XPath, [grows a vs d] the state: the list reads vs and its items are childless children of the first node (at a) l finds. C93_append, C93_append_where, C93_operation, C93_history, C93_insert_end, C93_assign, C93_delete, C93_create (single fields, read back); C93_shipped: 5 list fields and 43 single fields of the shipped classes are of this form; C93_elsewhere, C93_predicate: what the hypotheses are for. insert elsewhere than at the end is refuted by C32_insert_refuted; predicates on the last step are not covered here (C10, C27 have them for child steps). C93_create_delete (Props_GrowBack.v): an element created through 'l/name' with l ending in '//' (or '.') is removed again by deleting the field or assigning None, and the document is exactly as before."
 }
}