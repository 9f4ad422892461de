import json
P=[]
def p(title, statement, quantifier, why, *anchors):
    P.append(dict(id="C%02d"%(len(P)+1), title=title, statement=statement, quantifier=quantifier, why_tests_cant=why, anchors=list(anchors)))

# ---------------- XPath
p("Serialising a parsed XPath and parsing it again gives the same expression",
  "For every string s that eulxml.xpath.parse accepts, parse(serialize(parse(s))) succeeds and equals parse(s); more generally parse(serialize(a)) == a for every AST a of eulxml.xpath.ast that stands for an expression of the grammar.",
  "every XPath string / every AST of unbounded depth and width",
  "ASTs nest without bound and the failure depends on combinations (operator next to a name, brackets inside an operand, quotes inside a literal); the unit tests round-trip eleven literals.",
  "eulxml/xpath/ast.py: serialize, *._serialize", "eulxml/xpath/core.py: parse", "eulxml/xpath/parserules.py")
p("Operators group by XPath precedence and associate to the left",
  "Whenever a token sequence has a derivation in the published grammar whose operator nodes respect the declared precedence (or < and < = != < relational < + - < * div mod < unary minus < |) and left associativity, parse returns exactly the AST of that derivation.",
  "every token sequence, operator chains of any length and nesting",
  "operator chains are unbounded; a single wrong entry among thousands in the generated table changes the grouping of some longer chain only.",
  "eulxml/xpath/parserules.py: precedence, p_expr_boolean, p_expr_unary")
p("parse accepts only expressions of the grammar and consumes all input",
  "If parse(s) returns an AST then the whole token sequence of s is derived from Expr by the grammar, and the AST is the one the productions' actions build for that derivation.",
  "every string and every derivation",
  "a spurious acceptance or a dropped token can occur only in some table state reached by a long prefix.",
  "eulxml/xpath/parserules.py: all p_* rules", "eulxml/xpath/core.py: parse")
p("parse always terminates, with an AST or one of its two exceptions",
  "For every string, parse halts after a number of steps linear in the length of the token sequence and either returns an AST, raises TypeError (unknown text) or raises RuntimeError (syntax error).",
  "every string, valid or not",
  "non-termination or an internal error would show only on some malformed input; malformed inputs cannot be enumerated.",
  "eulxml/xpath/core.py: parse, LexerWrapper", "eulxml/xpath/lexrules.py: t_error", "eulxml/xpath/parserules.py: p_error")
p("parse depends only on its argument, not on earlier calls",
  "For every history of earlier parse calls (successful or failing), parse(s) has the same result as in a fresh process.",
  "every finite history of parse calls, every string",
  "the module-level lexer is shared state; only particular histories (a failing call followed by particular first tokens) expose it.",
  "eulxml/xpath/core.py: lexer, LexerWrapper.token, parse")
p("The XPath 1.0 lexical disambiguation rules are implemented",
  "A '*' is a multiplication sign, and the names and/or/div/mod are operators, exactly when there is a preceding token that is not one of @ :: ( [ , or an operator; otherwise a name followed by '(' is a node type or function name and a name followed by '::' is an axis name.",
  "every token sequence: every preceding token, every name, every following token",
  "the rule ranges over all pairs of neighbouring tokens in all contexts; the tests try six.",
  "eulxml/xpath/core.py: OPERATOR_FORCERS, NODE_TYPES, LexerWrapper.token/peek")
p("Every NCName is read as one name",
  "Every string matching the NCName production of Namespaces in XML is lexed as exactly one NCNAME token carrying that string.",
  "every Unicode string of any length matching NCName",
  "about 10^6 code points may occur at each position; tests use ASCII names.",
  "eulxml/xpath/lexrules.py: NameStartChar, NameChar_extras, NCNAME_REGEX, t_NCNAME")
p("White space between tokens does not matter",
  "For every expression, inserting any amount of space, tab, CR or LF between two tokens (where the tokens are already separated as tokens) does not change what parse returns.",
  "every token sequence, every amount of white space at every boundary",
  "boundaries and token pairs are unboundedly many.",
  "eulxml/xpath/lexrules.py: t_ignore", "eulxml/xpath/core.py: LexerWrapper")
p("String literals keep their value when serialised",
  "For every string value v that can occur in a parsed literal, the serialised literal is lexed back as one LITERAL token whose value is v.",
  "every string that contains at most one kind of quote",
  "values range over all strings; quoting interacts with quotes, backslashes and unprintable characters.",
  "eulxml/xpath/ast.py: _serialize (repr)", "eulxml/xpath/lexrules.py: t_LITERAL")
# ---------------- single fields
p("A value written to a field is the value read back",
  "For every document, every field whose XPath is made of child/attribute steps with constructible predicates, and every string v: if `obj.f = v` returns without an exception then `obj.f` evaluates to v, whether the node existed or had to be created (with any missing ancestors and predicates).",
  "every document tree, every context node, every such XPath of any length, every value",
  "the interaction of existing partial paths, predicates, repeated siblings and namespaces is unbounded.",
  "eulxml/xmlmap/fields.py: SingleNodeManager.set/get, _create_xml_node, _construct_predicate, _set_in_xml, _find_xml_node")
p("Writing an existing field changes that node only",
  "If the field's XPath already matches, `obj.f = v` changes the text (or attribute value) of the first match and nothing else in the document: no element, attribute, text or order elsewhere changes.",
  "every document, XPath and value",
  "frame conditions quantify over everything else in an arbitrary document.",
  "eulxml/xmlmap/fields.py: SingleNodeManager.set, _set_in_xml")
p("Creating missing nodes only adds content",
  "When the field does not match, `obj.f = v` keeps every existing element, attribute, text and tail in place and order; new elements are added after the existing children.",
  "every document and constructible XPath",
  "same: a frame condition over arbitrary documents.",
  "eulxml/xmlmap/fields.py: _create_xml_node, _create_child_node, _create_attribute_node, _construct_predicate")
p("A failing assignment leaves the document unchanged",
  "If `obj.f = v` raises an exception, the document is exactly what it was before.",
  "every document, field and value for which the assignment raises",
  "the exception can be raised half way through creating an arbitrarily long path.",
  "eulxml/xmlmap/fields.py: _create_xml_node, _set_in_xml, SingleNodeManager.set")
p("Deleting a field removes the node the field reads",
  "If `obj.f` has a value, then after `del obj.f` (or `obj.f = None`) the node that provided the value is no longer in the document; if it was the only match, `obj.f` is None.",
  "every document, every multi-step XPath, every number of matches",
  "documents with several parents of which only some contain the leaf are not sampled by the tests.",
  "eulxml/xmlmap/fields.py: _remove_xml, _remove_child_node, _remove_attribute_node, SingleNodeManager.delete")
p("Deleting a field loses no other content",
  "`del obj.f` removes the matched node (with its subtree) and ancestors on the XPath that are left without any content except what the XPath's predicates describe; every other element, attribute and text of the document is kept.",
  "every document and XPath",
  "loss shows only for particular surroundings (text in the parent, text after the node).",
  "eulxml/xmlmap/fields.py: _remove_xml, _empty_except_predicates, _remove_predicates, _remove_child_node")
p("Assigning None is deleting",
  "For string, integer, float, node and date fields `obj.f = None` has the same effect on the document as `del obj.f` and never raises when the field is unset.",
  "every document, XPath and field type",
  "ranges over field types x documents.",
  "eulxml/xmlmap/fields.py: SingleNodeManager.set/delete, Mapper.to_xml, DateTimeMapper.to_xml")
p("Reading a field does not change the document; a missing node reads as None",
  "Getting any single-node field (without instantiate_on_get) leaves the document unchanged and yields None exactly when the XPath selects nothing; a number-valued XPath yields its number, including 0.",
  "every document and XPath",
  "frame condition over all documents; falsy results are a corner of the value space.",
  "eulxml/xmlmap/fields.py: SingleNodeManager.get, _find_xml_node, IntegerMapper", "eulxml/xmlmap/eadmap.py: match_count")
p("Assignments are idempotent and the last one wins",
  "Writing v1 and then v2 to a field leaves the same document as writing v2 only (when the field exists or v1's creation is accounted for); writing v twice equals writing it once.",
  "every document, XPath, pair of values",
  "history property over arbitrary documents.",
  "eulxml/xmlmap/fields.py: SingleNodeManager.set")
p("create_<field>() makes the node exist and is idempotent",
  "After obj.create_f() the field's XPath matches; if it matched before, the call changes nothing; calling it twice equals calling it once.",
  "every document and constructible XPath",
  "same as above.",
  "eulxml/xmlmap/fields.py: SingleNodeManager.create, NodeField.create_for_node", "eulxml/xmlmap/core.py: XmlObjectType._make_create_field")
p("Deleting what was just created restores the document",
  "If a field did not exist in the document, `obj.f = v; del obj.f` leaves a document equal to the original, including intermediate elements and predicate content created by the assignment.",
  "every document and constructible XPath whose first step is missing",
  "unbounded paths and predicates; tests try five.",
  "eulxml/xmlmap/fields.py: _create_xml_node, _remove_xml, _empty_except_predicates, _remove_predicates")
p("Assignments outside the supported XPath class are refused, not silently lost",
  "If the field's XPath cannot be constructed (e.g. positional predicates beyond the end, comparisons other than '=', functions), an assignment to a missing node raises an exception; it never returns normally with the value not readable through the field.",
  "every XPath outside the constructible class, every document",
  "the predicate language is infinite.",
  "eulxml/xmlmap/fields.py: _predicate_is_constructible, _create_xml_node, _construct_predicate")
# ---------------- mappers
p("Integer fields read back the integer written",
  "For every Python int n, after `obj.f = n` an IntegerField yields n.",
  "every integer of any size, element- and attribute-valued fields",
  "the value space is infinite and the loss appears only above 2^53.",
  "eulxml/xmlmap/fields.py: IntegerMapper, Mapper.to_xml")
p("Boolean fields read back the boolean written",
  "For every pair of configured true/false markers, after `obj.f = b` a SimpleBooleanField yields b; any other content raises.",
  "every pair of markers (including false=None), every stored string",
  "ranges over all marker pairs and strings.",
  "eulxml/xmlmap/fields.py: SimpleBooleanMapper")
p("Date and datetime fields read back the value written",
  "For every naive datetime (years 1-9999, with or without microseconds) and every date, writing and reading with the default format returns the same value; a trailing Z or a +hh:mm / -hh:mm offset is ignored on reading.",
  "every date and time; every offset suffix",
  "3*10^17 datetimes; suffix stripping inspects a fixed position in the string.",
  "eulxml/xmlmap/fields.py: DateTimeMapper, DateMapper")
p("Normalised string fields",
  "With normalize=True a StringField yields the string with leading/trailing white space removed and inner runs collapsed to one space: the result has no such runs, contains the same words in the same order, and normalising again changes nothing.",
  "every string", "unbounded strings.",
  "eulxml/xmlmap/fields.py: StringMapper, DateTimeMapper.__init__")
# ---------------- lists
p("A list field reads like the Python list of its values",
  "len, indexing (positive and negative), iteration, `in`, count, index, == and != on a list field give what the Python list of the mapped matches gives, raising IndexError/ValueError in the same cases.",
  "every document, every list length, every index",
  "lists are unbounded; index corner cases.",
  "eulxml/xmlmap/fields.py: NodeList.__len__/__getitem__/__contains__/__eq__/count/index")
p("Updating a list field acts like updating a Python list",
  "For every sequence of item assignment, append, extend, del, pop and remove on a list field over a single child step, the values read afterwards and the results/exceptions are those of the same operations on a Python list (assignment at index len appends; beyond it IndexError).",
  "every finite history of list operations on every document",
  "histories are unbounded; each operation re-evaluates the XPath on the mutated tree.",
  "eulxml/xmlmap/fields.py: NodeList.__setitem__/__delitem__/append/extend/pop/remove")
p("insert on a list field acts like list.insert",
  "For every index i, `obj.f.insert(i, x)` produces the list that Python's list.insert(i, x) would (or raises without changing anything).",
  "every list, every integer index including negative ones",
  "negative and out-of-range indices on arbitrary lists.",
  "eulxml/xmlmap/fields.py: NodeList.insert")
p("Assigning a list makes the field equal to that list",
  "After `obj.f = values` the list field equals values, whatever its previous length.",
  "every document, every previous and new list",
  "unbounded lists in both directions; multi-step XPaths.",
  "eulxml/xmlmap/fields.py: NodeListManager.set")
p("Deleting a list field empties it",
  "After `del obj.f` a list field has length 0 and everything that did not match it is unchanged.",
  "every document, any duplicates in the list",
  "the code removes by value while iterating.",
  "eulxml/xmlmap/fields.py: NodeListManager.delete, NodeList.__iter__/remove")
p("List updates leave other siblings alone and append next to the list",
  "Updating a list field never reorders, changes or removes sibling elements or text that the field does not select; an appended element is placed immediately after the last element of the list.",
  "every document and operation",
  "frame condition.",
  "eulxml/xmlmap/fields.py: NodeList.__setitem__/__delitem__/insert")
p("List fields over longer paths behave like lists too",
  "For list fields whose XPath has several steps (parent/child), append puts the new value last and insert puts it at the given index.",
  "every document with any number of parents",
  "needs several parents with several children.",
  "eulxml/xmlmap/fields.py: NodeList.__setitem__/insert, _create_xml_node (insert_index)")
p("Assigning a list of nodes, also a permutation of the current ones",
  "`obj.nodes = [x1..xn]` with pairwise distinct XmlObjects, taken from anywhere including the current list in any order, makes the list exactly x1..xn; nothing is duplicated or lost.",
  "every permutation and mixture of old and new nodes",
  "n! permutations for every n; nodes move while being assigned.",
  "eulxml/xmlmap/fields.py: NodeListManager.set, NodeList.__setitem__ (replace)")
# ---------------- core
p("A class has exactly its own and its inherited fields",
  "For every class hierarchy, the _fields table of a class maps each name to the field that attribute access on an instance actually uses.",
  "every class hierarchy (any depth, any bases)",
  "hierarchies are unbounded; diamond and multiple inheritance.",
  "eulxml/xmlmap/core.py: XmlObjectType.__new__, _FieldDescriptor")
p("Declared namespace prefixes always resolve",
  "For every XmlObject subclass, document and caller-supplied context, every prefix in ROOT_NAMESPACES resolves to its declared URI in XPath evaluation, every other non-empty prefix in scope on the node resolves as in the document, and the caller's context is not modified.",
  "every namespace map, context and class",
  "dictionary merges over arbitrary maps, aliasing.",
  "eulxml/xmlmap/core.py: XmlObject.__init__")
p("Schemas are loaded once and failures are not cached",
  "For every sequence of loadSchema calls, a URI is successfully loaded at most once, every later call returns the same object, a failing load raises (IOError or XMLSchemaParseError naming the URI) and is retried by the next call.",
  "every history of calls and load outcomes",
  "histories of the external outcome are unbounded.",
  "eulxml/xmlmap/core.py: loadSchema, _loaded_schemas")
p("XmlObject equality is an equivalence",
  "== on XmlObjects is reflexive, symmetric and transitive, agrees with equality of serialisation, and != is its negation.",
  "all triples of objects",
  "relations over all documents.",
  "eulxml/xmlmap/core.py: XmlObject.__eq__/__ne__")
p("SchemaField offers the schema's values with exactly one blank first",
  "For every schema enumeration, the replaced field's choices are '' followed by the enumerated non-blank values in schema order, and the field keeps xpath, required flag, labels and declaration order.",
  "every enumeration list",
  "unbounded lists with or without blanks.",
  "eulxml/xmlmap/fields.py: SchemaField.get_field", "eulxml/xmlmap/core.py: XsdType.base_type")
# ---------------- forms
p("Dotted field lists select exactly the named fields and subfields",
  "For every list of dotted names, a name is selected at a level iff it is listed there (or, for inclusion lists, is the parent of a listed name), at every depth, in the order listed.",
  "every list of dotted names, every depth",
  "unbounded depth and repetition.",
  "eulxml/forms/xmlobject.py: _parse_field_list, _collect_fields, ParsedFieldList")
p("A form shows the requested fields in the requested order",
  "formfields_for_xmlobject returns a form field for exactly the model fields that are included and not excluded (exclusion wins); in the order of `fields` if given, else in declaration order.",
  "every model, fields list and exclude list",
  "set/sequence property over arbitrary lists.",
  "eulxml/forms/xmlobject.py: formfields_for_xmlobject")
p("Form initial data keys never collide",
  "In the dictionary built from an instance, values of different (sub)fields have different keys, for every nesting of node fields and node lists.",
  "every object structure of any depth",
  "unbounded nesting; keys are built by string concatenation.",
  "eulxml/forms/xmlobject.py: xmlobject_to_dict")
p("Saving a form writes exactly the submitted fields",
  "update_instance assigns each included, non-excluded cleaned value to its field ('' as None), leaves all other fields alone, and works for forms with dotted subform fields.",
  "every form, cleaned data and instance",
  "arbitrary subsets and orders of fields.",
  "eulxml/forms/xmlobject.py: XmlObjectForm.update_instance")
p("Saving a list formset stores the submitted values",
  "After BaseXmlObjectListFieldFormSet.update_instance the list field equals the sequence of values entered (blank inputs dropped).",
  "every list and every submission, for string and integer lists",
  "unbounded lists; falsy values.",
  "eulxml/forms/xmlobject.py: BaseXmlObjectListFieldFormSet.update_instance")
# ---------------- other
p("The generated catalog lists exactly the schemas that were saved",
  "For every list of schema URIs and every pattern of download failures, the catalog has one entry per successful download in order, each entry's file holds that schema, the catalog file is written only if there is an entry, and an interruption at any point before the final write leaves the old catalog file in place.",
  "every URI list, failure pattern and crash point",
  "crash points and failure patterns are combinatorial.",
  "eulxml/catalog.py: generate_catalog, download_schema")
p("Importing eulxml registers its catalog once",
  "For every prior value of XML_CATALOG_FILES, after import the list contains eulxml's catalog file as an entry, keeps all existing entries, and importing again changes nothing.",
  "every environment value",
  "arbitrary strings.",
  "eulxml/__init__.py")
p("E-mail bodies are made XML-safe without losing text",
  "The payload stored for a message contains no control character below U+0020 other than tab, LF and CR, every other character is kept in order, and cleaning twice changes nothing.",
  "every payload string", "unbounded strings.",
  "eulxml/xmlmap/cerp.py: Message.from_email_message")
p("E-mail headers are stored where they belong",
  "from_email_message stores the given local_id in LocalId, and From/Sender/To/Cc/... headers in the lists of the same name, in order.",
  "every message and id", "every header multiset.",
  "eulxml/xmlmap/cerp.py: Message.from_email_message")
p("MODS emptiness tests do not hide content",
  "is_empty() of a MODS object (and hence removal of that element when a form is saved) is True only if the element carries no value in any of its mapped content fields.",
  "every element content", "every combination of present fields.",
  "eulxml/xmlmap/mods.py: Date/OriginInfo/TitleInfo/Part/PartDetail/PartExtent/TypedNote.is_empty", "eulxml/forms/xmlobject.py: _update_subinstance")
p("Loading a PREMIS document keeps its version",
  "Wrapping an existing PREMIS element does not change its version attribute; a new one gets 2.1 unless specified.",
  "every document and argument combination", "every prior version value.",
  "eulxml/xmlmap/premis.py: Premis.__init__")
p("TEI indentation and EAD short titles",
  "TeiLine.indent() returns the number after 'indent' (0 if none) and never fails for lines without @rend; UnitTitle.short keeps all content except the first unitdate and does not modify the original.",
  "every rend value and unittitle content", "unbounded strings and mixed content.",
  "eulxml/xmlmap/teimap.py: TeiLine.indent", "eulxml/xmlmap/eadmap.py: UnitTitle.short, Component.hasSubseries")
p("Saving a formset deletes, edits, adds and orders exactly what was submitted",
  "After any sequence of is_valid() and update_instance() calls with at least one update, the node list field holds the items that were not ticked for deletion (edited ones with their new content), then the filled-in new ones; in the requested order for formsets that can be ordered; all other children are as before.",
  "every list, every submission, every sequence of validations and updates",
  "arbitrary lists with equal items, repeated calls; is_valid itself saves, so the usual code saves twice.",
  "eulxml/forms/xmlobject.py: BaseXmlObjectFormSet.update_instance, XmlObjectForm.is_valid", "eulxml/xmlmap/fields.py: NodeList.remove, append")
p("Displaying a form, or saving it unchanged, leaves the object as it was",
  "Constructing an XmlObjectForm for an instance, without saving, does not change the instance; saving it with the values it displayed leaves every field as it was.",
  "every form with subforms at any depth, every instance",
  "unbounded nesting of subforms and arbitrary instances.",
  "eulxml/forms/xmlobject.py: XmlObjectForm.__init__, _init_subforms, _update_subinstance")
p("Assigning to a node field copies the object given",
  "obj.f = x (x an XmlObject, f a NodeField) gives obj.f the attributes, text and children of x, changes nothing else in the document, and leaves x itself as it was; in particular obj.f = obj.f changes nothing.",
  "every document, every object assigned, also one from the same document",
  "arbitrary trees, and every way the assigned object may overlap the document.",
  "eulxml/xmlmap/fields.py: SingleNodeManager.set, _set_in_xml, NodeMapper.to_xml")
p("Validation reports belong to the object that was validated",
  "validation_errors() and is_valid() of an object depend on that object alone, whatever was validated before with the same schema; schema_validation_errors() returns the errors of the object it is called on.",
  "every history of validations of objects sharing schemas",
  "schema objects and their error logs are shared by all instances of a class through a global cache, so that every interleaving of calls matters.",
  "eulxml/xmlmap/core.py: XmlObject.validation_errors, schema_valid, schema_validation_errors, is_valid, loadSchema")
p("EAD series tests look at the first component",
  "hasSubseries() and hasSeries() are True exactly if the first component below is a series (or, for hasSubseries, a subseries) or has components itself.",
  "every component tree", "unbounded trees of mixed content.",
  "eulxml/xmlmap/eadmap.py: Component.hasSubseries, SubordinateComponents.hasSeries")
p("Fields with different entry points do not disturb one another",
  "If the XPath of a field (in the class documented as supported for setting) enters its object's element by one child name or attribute, then no history of operations on other fields that enter by other child names or attributes - assigning, creating, deleting, and every list operation, succeeding or raising - changes what the field reads; so a value assigned is read back until the field itself is touched.",
  "every document, every pair of such XPaths, every history of operations on the other fields",
  "histories are unbounded and a stray write depends on which ancestors and predicates an operation creates or prunes.",
  "eulxml/xmlmap/fields.py: SingleNodeManager, NodeList, NodeListManager, _create_xml_node, _remove_xml, _set_in_xml")
p("A list field over one child step is a Python list, through any history",
  "For a list field whose XPath is one child step (with predicates the code can satisfy) and whose elements have no children: after any sequence of l[k]=v, append, extend, del l[k], pop, remove, insert at a non-negative index, assignment of a whole list and deletion of the list, the field reads as the Python list after the same sequence, every operation has returned or raised what Python does (insert past the end raises IndexError and changes nothing), and the object's other children, each with the text after it, and the object's attributes and leading text are as before (text directly after an element of the list belongs to that element). Values range over those the field's type writes and reads back: strings of XML characters, integers up to 2^53, booleans, datetimes, dates from the year 1000.",
  "every document, every such XPath, every history mixing all the operations, every storable value",
  "histories are unbounded and each operation translates list positions to positions among all the children of the element.",
  "eulxml/xmlmap/fields.py: NodeList, NodeListManager, _create_xml_node, _get_xpath")
p("An unset field is a variable",
  "For a supported XPath ending in an element or attribute, with attribute comparisons as predicates, that matches nothing yet (existing elements on the way hold something besides what the predicates of their step name): after any sequence of obj.f = v, obj.f = None, del obj.f and reads, every operation has succeeded, the field reads the value last assigned or None, and whenever it is None the document is exactly the original one.",
  "every document, every such XPath, every history of assignments, deletions and reads, every string of XML characters",
  "histories are unbounded; what is created and pruned again depends on all the steps and predicates and on what exists already.",
  "eulxml/xmlmap/fields.py: SingleNodeManager, _create_xml_node, _remove_xml, _remove_predicates, _set_in_xml")
p("Assigning to an element that exists changes only its text, or nothing",
  "For any XPath whose first match is an element, obj.f = v either succeeds and then changed only the text of that element, or raises and then changed nothing; a field whose XPath does not parse changes nothing.",
  "every XPath, document and value",
  "arbitrary trees and arbitrary XPaths, also unsupported ones.",
  "eulxml/xmlmap/fields.py: SingleNodeManager.set, _set_in_xml")
p("A schema that has loaded is not loaded again; a failure is not remembered",
  "In any sequence of schema loads, the first successful load of a URI answers all later ones without loading, and until then every call tries to load and reports its own failure with the URI; with threads, in every interleaving, an object returned for a URI is one that was loaded for that URI.",
  "every sequence of calls, every outcome of each load, every thread interleaving",
  "unbounded histories and interleavings over a global cache.",
  "eulxml/xmlmap/core.py: loadSchema, load_xslt")
p("A generated form shows exactly the fields selected",
  "For every class whose fields have plain names and no aliasing: the form, and every subform at every depth, shows exactly the fields of its class that fields and exclude select (at every level of dotted names), each in the place its kind demands, in the listed order or the order of declaration, with the label, help text, requirement and choices of the model field; fields declared on the form class take precedence.",
  "every class table, every fields and exclude list, every depth of subforms",
  "class tables and dotted lists are unbounded, recursion through subforms is driven by the lists.",
  "eulxml/forms/xmlobject.py: formfields_for_xmlobject, xmlobjectform_factory, XmlObjectFormType, _parse_field_list")
p("Saving a bound form writes exactly the submitted values",
  "When update_instance() completes: every field of the object that has submitted data and is not skipped by fields/exclude holds that value (None for blank ones), every other plain field is as before, every subform's node holds what the subform saved (removed if empty), formset fields hold what the formset saved; so at every depth of subforms. An unbound form changes nothing.",
  "every form tree, submission and object", "subforms nest without bound.",
  "eulxml/forms/xmlobject.py: XmlObjectForm.update_instance, _update_subinstance")
p("Catalog generation, with distinct last URI parts",
  "If the schema URIs end in distinct parts, none naming the catalog file: a completed run gives a catalog that maps exactly the good URIs to their files, which hold what was downloaded and nothing else was written; interrupted at any byte, the catalog is the old one or a prefix of the new one with all schemas complete; an exception leaves the catalog as it was; a later complete run repairs everything.",
  "every list of URIs, every server behaviour, every byte of interruption, re-runs with other lists",
  "crash points and server behaviours cannot be enumerated.",
  "eulxml/catalog.py: download_schema, generate_catalog")
p("Control-character cleaning removes exactly the control characters",
  "The cleaned text is the given text without its characters below 32 other than tab, line feed and carriage return, order kept; text without such characters is unchanged, and cleaning twice is cleaning once.",
  "every string", "unbounded strings over all code points.",
  "eulxml/xmlmap/cerp.py: Message.from_email_message, lines 298-303")
p("Validation results depend on the object alone",
  "After any history of validations of any objects with any schemas, validation_errors(), is_valid() and schema_valid() answer for the object they are called on.",
  "every history of validations of objects sharing schemas", "unbounded histories over shared schema objects and their logs.",
  "eulxml/xmlmap/core.py: XmlObject.validation_errors, schema_valid, is_valid")
p("Node lists of distinct nodes",
  "For a NodeListField over one child step: assigning any list of distinct nodes (children already, or new), appending or inserting or replacing by a new node, and deleting by index give exactly the Python list of nodes, and leave the other children as they were in the same order.",
  "every document, every permutation or mixture of old and new nodes, every index",
  "permutations of lists of any length; lxml moves a node that is inserted a second time.",
  "eulxml/xmlmap/fields.py: NodeList.__setitem__, insert, append, __delitem__, NodeListManager.set")
p("List items over any path",
  "For a list field with a supported path of any length: l[k] = v, when it succeeds, changes only the text of the k-th matching element; del l[k] removes exactly that element, with the text directly after it (which lxml counts as part of it), and nothing else.",
  "every supported path, document and index, also negative", "matches may lie below different parents at any depth.",
  "eulxml/xmlmap/fields.py: NodeList.__setitem__, __delitem__")
p("White space normalisation",
  "normalize=True reads the words of the text joined by single spaces: no leading, trailing or repeated white space, the same words in the same order, and doing it twice is doing it once.",
  "every string", "unbounded strings.",
  "eulxml/xmlmap/fields.py: StringMapper")
p("Datetimes in the default format",
  "obj.f = dt followed by obj.f gives dt, for a DateTimeField without format over a supported XPath (not the text after a child) and every valid naive datetime with or without microseconds; text with Z or a numeric offset reads as the same datetime without it.",
  "every valid datetime (years 1-9999, leap years), every supported XPath and document",
  "the printed form differs with and without microseconds; offsets are cut off by position.",
  "eulxml/xmlmap/fields.py: DateTimeMapper")
p("SchemaField becomes a StringField with the same XPath",
  "A class with a SchemaField gets a plain string field with the XPath, requirement and position of the SchemaField, exactly if the schema has one type of that name restricting xs:string; otherwise the class definition raises.",
  "every schema and field", "arbitrary schema contents.",
  "eulxml/xmlmap/fields.py: SchemaField.get_field", "eulxml/xmlmap/core.py: XmlObjectType.__new__")
p("The single-valued fields of the shipped maps read back what is assigned",
  "For every single-valued field of the MODS, Dublin Core, PREMIS, TEI, EAD and CERP classes (string, schema, integer and boolean fields), on every document and with every additional namespace binding the document brings: the XPath parses and uses only prefixes the class declares; assigning a value succeeds when the field is missing, or present without child elements; and after a successful assignment the field reads the value (normalized where the field says so). The fields whose XPath is a function call, '//' or '|' are excepted.",
  "every field declared in the six shipped modules, every document, every namespace context that contains the class's prefixes, every value", "398 field declarations times unbounded documents and values; tests touch a few of each.",
  "eulxml/xmlmap/mods.py", "eulxml/xmlmap/dc.py", "eulxml/xmlmap/premis.py", "eulxml/xmlmap/teimap.py", "eulxml/xmlmap/eadmap.py", "eulxml/xmlmap/cerp.py", "eulxml/xmlmap/fields.py: SingleNodeManager")
p("The string list fields of the shipped maps behave as Python lists",
  "Every StringListField of the shipped classes whose XPath is one child step (all but three EAD ones) acts as a Python list through any history of append, extend, insert, item assignment, deletion, pop, remove and whole-list assignment, with Python's results and errors, and leaves the rest of the object's element as it was.",
  "every such field, document, and finite sequence of list operations with XML strings", "unbounded histories over unbounded documents.",
  "eulxml/xmlmap/dc.py: DublinCore", "eulxml/xmlmap/cerp.py", "eulxml/xmlmap/fields.py: NodeListManager, NodeList")
p("Fields of one shipped vocabulary that start at different nodes never disturb each other",
  "For any two fields of one shipped vocabulary whose XPaths start with different child names or attributes, no history of operations on the one (assignment, deletion, creation, list operations, succeeding or failing) changes what the other reads, in any document.",
  "every pair of such fields, every document, every finite history", "all histories of operations, interleaved over any number of fields.",
  "eulxml/xmlmap/mods.py", "eulxml/xmlmap/dc.py", "eulxml/xmlmap/premis.py", "eulxml/xmlmap/teimap.py", "eulxml/xmlmap/eadmap.py", "eulxml/xmlmap/cerp.py")
p("Fields that share leading elements and then part ways do not disturb one another",
  "If the XPaths of two fields of one object have the same leading steps and then continue with different child names or attributes (premis id_type and id, both inside p:eventIdentifier), then no sequence of operations on the one (assign, delete, create_, list append/insert/pop/remove/assign/delete, succeeding or raising) changes what the other reads, as a single value or as a list; so an assigned value stays until the field itself is touched.",
  "every pair of supported XPaths that fork, every document, every history of operations on forking fields, every mapper; and every pair of forking fields in the shipped maps",
  "The shared elements are created, cleaned up and removed by both fields: whether that ever disturbs the other depends on every earlier operation.",
  "eulxml/xmlmap/fields.py:_create_xml_node", "eulxml/xmlmap/fields.py:_remove_xml", "eulxml/xmlmap/fields.py:_remove_predicates", "eulxml/xmlmap/fields.py:SingleNodeManager", "eulxml/xmlmap/fields.py:NodeList")
p("An object built from keyword arguments has the given values",
  "X(f1=v1, ..., fn=vn) creates an empty root element and assigns the keywords one by one: when the fields' XPaths fork pairwise it succeeds for XML-valid values, every given field reads back its value, fields not given are empty, and the order of the keywords does not matter. A keyword that is no field is silently ignored by the XML. For 54 of the 81 shipped classes all single fields fork pairwise. Refuted where paths overlap (n and n[@t='1']): the order of the keywords decides the result.",
  "every class with any number of fields, every choice and order of keywords, every value",
  "The number of keyword subsets and orders is exponential, and each assignment works on what the earlier ones built.",
  "eulxml/xmlmap/core.py:XmlObject.__init__", "eulxml/xmlmap/core.py:XmlObject._build_root_element", "eulxml/xmlmap/fields.py:SingleNodeManager.set")

p("Form.is_valid answers True exactly for an acceptable submission, has then saved it, and keeps its answer",
  "form.is_valid() is True exactly if, at every level of subforms, Django's validation finds no errors, the formsets are valid and the object as update_instance leaves it is schema valid; the object is then exactly what update_instance would have made of it, and saving it again changes nothing. Asking again gives the same answer and changes nothing. A form with errors in its own inputs writes nothing. If only the schema is against it the answer is False although the object has been updated. Refuted: an invalid submission is not all or nothing (valid subforms before the invalid one have been written).",
  "every form with any nesting of subforms and formsets, every submission, every instance, every number of calls",
  "is_valid saves as it goes (each subform saves when it is asked, the parent saves all of them again), so that its answer and its effect depend on the order and nesting of the forms.",
  "eulxml/forms/xmlobject.py: XmlObjectForm.is_valid, update_instance, _update_subinstance")
p("The HTML of a form shows every form in it exactly once, under the right headings",
  "as_table(), as_p() and as_ul() show the fields of the form, of every subform and of every form of every formset, at any depth, and every formset's management form, each exactly once and in order, properly nested in sections headed by the labels of the subforms and formsets around them, and nothing else; what is shown for a subform is the subform's own output. Showing works exactly if every subform has a label and every formset at least one form, changes nothing, and does not depend on earlier calls in any format. Subforms always have a label. Refuted: a formset without forms makes the whole page raise IndexError; a label given by hand is recapitalised ('IDs' becomes 'Ids') and not escaped; the label of a SubformField is ignored when its form class has a label or the field is a list.",
  "every form tree (any nesting of subforms and formsets), every output format, every history of earlier output calls",
  "Nesting is unbounded and the section format is passed down through state kept in the forms.",
  "eulxml/forms/xmlobject.py: XmlObjectForm._html_output, _html_subform_output, as_table, as_p, as_ul, fieldname_to_label, _init_subforms")
p("Form classes inherit declared fields and options from their bases",
  "In any program of form class statements with single inheritance, of any depth: the declared fields of a class are, for every name, the closest declaration in its line of bases, its Meta is the closest one, and its form shows the declared field for every such name and otherwise what the model gives; an empty subclass of a class that declares no subforms in its body makes the same form. Refuted: SubformFields are not inherited (the subclass gets the generated subform back); with several bases the last base wins, although Python's attribute lookup takes the first.",
  "every program of form class statements, every class and field name in it",
  "unbounded hierarchies; every class statement depends on all earlier ones.",
  "eulxml/forms/xmlobject.py: XmlObjectFormType.__new__",
  "eulxml/forms/xmlobject.py: formfields_for_xmlobject")
p("What is saved can be loaded again and is the same document",
  "For every document or object whose names, text and namespaces lxml accepts: loading the text of serializeDocument() gives the same tree (every name, attribute, character, comment, in order) and the same namespace declarations, an empty text node becoming no text node; without empty text nodes the loaded document is identical, saves to the same text again, and every field reads the same, in particular the value assigned before saving. The same holds for serialize() of an object exactly if nothing but blanks follows its element. pretty=True only puts blanks into elements that held no text. Two objects compare equal exactly if their content and the text after them are the same. The input of xsl_transform is the object's element. Refuted: serialize() says it serialises the current node only, but for an element within running text the following text comes along: the result is no XML document, xsl_transform of it fails, and objects with equal content compare unequal; '' assigned to a text() field reads None after loading.",
  "every tree, every characters in text and attribute values that XML allows, every set of namespace declarations, every object in the tree",
  "Escaping and nesting are unbounded; a test covers a few documents.",
  "eulxml/xmlmap/core.py: XmlObject.serialize, serializeDocument, _serialize, xsl_transform, __eq__, load_xmlobject_from_string")
p("Calls of parse from several threads",
  "Calls of eulxml.xpath.parse made from several threads share one lexer. If no two of them overlap, every call returns what it would return had the earlier ones been made one after the other, which for valid XPaths is its own parse. However the steps of any number of calls are interleaved, a call that is scheduled often enough ends, and it ends with a tree, a TypeError or a RuntimeError. Refuted: overlapping calls do not return the parse of their own text; a call for a/b can return the tree of a/c.",
  "every number of calls, every text, every interleaving of their steps (begin, one token, one shift, one reduction)",
  "The number of schedules is unbounded; a test sees a few.",
  "eulxml/xpath/core.py: lexer, parser, parse, LexerWrapper.token")
p("str(obj) shows the text of the object",
  "str() of an object on an element is the words of all text inside it, in document order, with one blank between them; names, attributes and comments do not matter; str() of an object on text is that text; after a text is assigned to an element without children, str() shows that text; saving and loading does not change it (pretty printing can only add blanks). The shipped classes with a __str__ of their own show: MODS dates their first text, EAD headings their words, containers and dates their whole text, CERP parameters and headers 'name=value' and 'name: value', hashes their value.",
  "every element tree, every set of namespace declarations, every assigned text, every shipped class",
  "The text of an element is spread over arbitrarily many nested elements and pieces; tests look at a few small documents and at no reload.",
  "eulxml/xmlmap/core.py: XmlObject.__str__",
  "eulxml/xmlmap/mods.py: Date.__str__, Name.__unicode__",
  "eulxml/xmlmap/eadmap.py: Heading.__str__, Container.__str__, DateField.__str__, Reference.__str__",
  "eulxml/xmlmap/cerp.py: Parameter.__str__, Header.__str__, Hash.__str__")
p("Mail dates are stored as the instant they name",
  "For every Date header that is a date, the CERP message stores the date and time (ISO 8601) of the instant the header names, in the zone of the machine that converts it; headers for the same instant are stored alike and headers for different instants differently; a header that is not a date is stored as it is; converting a message reads back these texts, one for each Date header, in order.",
  "every date of the Gregorian calendar with a year from 1 to 9999, every time of day and offset, every time zone of the machine (any function from instants to offsets), every message",
  "The calendar has a 400-year cycle with exceptions, offsets carry over days, months and years, and the zone of the machine that runs the tests is fixed.",
  "eulxml/xmlmap/cerp.py: parse_mail_date, Message.from_email_message")
p("Numbers in XPath expressions keep their value",
  "Parsing a sequence of digits gives the integer it denotes, whatever its length and leading zeros; serialising an integer writes its value without leading zeros and parses back. Parsing digits with a decimal point gives a number which serialises to a text denoting the same decimal number without superfluous zeros, and that text parses to the same AST.",
  "all digit sequences; all decimals with at most 15 significant digits in the range that Python writes without an exponent (0 or 0.0001 <= x < 10^16)",
  "tests try a handful of numerals; boundaries (leading and trailing zeros, exponents) depend on every digit pattern",
  "eulxml/xpath/lexrules.py: t_FLOAT, t_INTEGER",
  "eulxml/xpath/parserules.py: p_number",
  "eulxml/xpath/ast.py: serialize, _serialize")
p("An object is a record of its fields",
  "A program that assigns, deletes and reads single fields of one object, in any order and as often as it likes, sees exactly what it would see on a record with one variable per field: no statement raises, every read gives the value last assigned to that field (normalized for a normalizing field), or the unset value after a deletion or an assignment of None, whatever was done to the other fields in between; at the end every field holds its variable's value.",
  "all tables of element and attribute fields with XPaths of the supported class (C21) whose predicates the field itself can write (C10), that pairwise part ways (share leading steps, then select different children or attributes), all documents in which no part of the paths is repeated, all programs (any length) of assignments, deletions and reads, all strings of XML characters, integers up to 2^53, booleans, dates and datetimes; also every new object of 61 of the 81 shipped classes",
  "histories have unbounded length and interleave all fields; a deletion cleans up elements that other fields share",
  "eulxml/xmlmap/core.py: _FieldDescriptor.__get__, __set__, __delete__",
  "eulxml/xmlmap/fields.py: SingleNodeManager, _create_xml_node, _remove_xml, _set_in_xml",
  "eulxml/xmlmap/mods.py, dc.py, premis.py, cerp.py, eadmap.py, teimap.py: field declarations")
p("An object with lists is a plain Python object",
  "A program that works on single fields (assign, delete, read) and on list fields (item assignment, append, extend, insert, del, pop, remove, whole assignment, deletion of the list, reading) of one object, in any order, gets from every statement the result, or the IndexError or ValueError, that the same program gets from an object with plain variables and Python lists.",
  "all tables of element and attribute fields and of one-step list fields with XPaths of the supported class whose predicates the field can write, that pairwise part ways; all documents in which no part of the single fields' paths is repeated; all programs of any length; values as in C84 and C57, insertion at positions 0 <= i (past the end: IndexError, as eulxml documents); also every new object of 60 of the 81 shipped classes",
  "histories have unbounded length and interleave all fields; list operations and clean-up of shared elements act on the same children",
  "eulxml/xmlmap/core.py: _FieldDescriptor",
  "eulxml/xmlmap/fields.py: SingleNodeManager, NodeList, NodeListManager",
  "eulxml/xmlmap/mods.py, premis.py, cerp.py, eadmap.py, teimap.py: field declarations")
p("An object for a leaf element is a record of its attributes and one text",
  "Take a class whose fields are attributes of its own element ('@name') and fields for the element's text ('text()' or '.'), and an object whose element has no child nodes. Every program of assignments, deletions and reads of these fields runs without an exception and sees one variable per attribute field and one variable for the text, shared by the text fields: no statement on one shows in another, a 'text()' field without text reads None, deleting it (or assigning None) leaves the empty string, a '.' field reads the text or the empty string, and deleting it (or assigning None) changes nothing; the element keeps its name and gets no child nodes.",
  "All classes of that shape (15 of the shipped maps are listed, among them the MODS Note, Identifier and Date and the EAD Unitid and EadId), leaf elements, programs of any length, and values XML can hold",
  "A property of every program; the text fields are written through different code paths depending on whether the element has text",
  "eulxml/xmlmap/fields.py: SingleNodeManager, _set_in_xml, _remove_xml, _is_text_nodetest",
  "eulxml/xmlmap/mods.py",
  "eulxml/xmlmap/eadmap.py")
p("Which forms and inputs a page has, and which object each belongs to",
  "A form for an object has a subform for each node field, a formset form for every item of each node list and an input for every value of each value list, in order, followed by 'extra' empty ones but no more than max_num in all; no item is left out. The form at a place (subobject names and item numbers) edits the object at that place. Inputs are named after their place (prefix-sub-list-2-field), and no two inputs of a page, however deep, have the same name. Submitting the page for an unchanged object makes the very same forms for the same objects, which is what saving relies on (C51). Formset options come from the nearest Meta of the form class; xmlobjectform_factory and SubformField take them as arguments. Submitting a page after the list changed loses nobody's input.",
  "Every form class tree whose names are identifiers, every object, prefix, options, and every submission's management numbers; every inheritance chain of Meta classes",
  "Names clash or items vanish only for particular nestings and sizes; tests use a handful of items at one or two levels",
  "eulxml/forms/xmlobject.py: XmlObjectForm.__init__, _init_subforms, _init_formsets, BaseXmlObjectFormSet, BaseXmlObjectListFieldFormSet, SubformField, xmlobjectform_factory, SubformAwareModelFormOptions")
p("What a typed field reads, for every text",
  "Reading a typed field never depends on how the text got there. An IntegerField on an attribute reads exactly the texts of Python's int() and None for every other text; on an element it reads libxml2's number() (fractions, exponents, a lone minus sign), truncated, and None for what is no number. A FloatField reads the value of the numeral. A SimpleBooleanField reads True exactly for its true text, False exactly for its false text and raises for everything else. A DateField reads exactly the texts that name a day of the calendar, a DateTimeField exactly the texts that name a day and a time, in any zone, which is ignored; everything else raises. A field that selects nothing reads None.",
  "Every XPath the model evaluates, every document and every text of the selected node",
  "The accepted languages are infinite, with corner cases (underscores, signs, exponents, one-digit months, zones) no test list exhausts",
  "eulxml/xmlmap/fields.py: IntegerMapper.to_python, FloatMapper.to_python, SimpleBooleanMapper.to_python, DateTimeMapper.to_python, DateMapper.to_python, Field._find_xml_node")
p("An XPath selects exactly the nodes XPath 1.0 says, once each and in document order",
  "For every XPath that only looks down from the object's node (steps on the axes child, attribute, self, descendant and descendant-or-self with name tests and text(), '.', '/', '//', '|', predicates, filter expressions, '=', '!=', 'and', 'or', literals, integers, variables, and the functions count, not, boolean, true, false, position, last, string, string-length, normalize-space, local-name, contains, starts-with; the XPaths of all 398 fields of the shipped classes are such), and for every document: the nodes a field sees are exactly those XPath 1.0 defines (name tests by namespace, predicates in turn, a number as a position counted from 1 among the nodes left, '=' by the types of its sides, string values as all text inside, numbers as libxml2 reads them); each node comes once and in document order; a StringField reads the string value of the first one and None exactly when there is none; a StringListField has one item per node in that order; name[k] reads the k-th child of that name; IntegerField('count(path)') reads how many nodes there are, but None instead of 0; list fields over an XPath that gives a number or a boolean raise TypeError. './/name' selects the elements of that name at any depth inside; fields of every kind read that same first node; a StringField over an XPath that gives a string reads it, None if it is empty.",
  "every XPath of the fragment, every namespace map and variable binding, every document",
  "Nested predicates, positions and comparisons combine without bound; a test can only try some XPaths on some documents.",
  "eulxml/xmlmap/fields.py:NodeManager",
  "eulxml/xmlmap/fields.py:SingleNodeManager",
  "eulxml/xmlmap/fields.py:NodeListManager",
  "eulxml/xmlmap/fields.py:_find_xml_node",
  "eulxml/xmlmap/core.py:XmlObject.xpath_context")
p("Writing or deleting through any downward XPath ('.//x', 'a|b', '(a|b)[1]', other axes) touches only the first node read, or nothing",
  "For every StringField whose XPath only looks down and every document: assigning a value when the XPath finds something changes exactly one thing, the text of the first element found, the attribute found (by its last step), or the text of the text node's lxml parent; it is refused with the document unchanged if that element has children, the value is not XML, or an attribute is found through a union or filter; if the XPath does not look at element text (or at the attribute written) the field then reads the value back. When nothing is found, XPaths ending in '//', '|', a filter or another axis are refused with the document unchanged, and 'l/name' adds a last child to the first node l finds, while 'l/@name' adds the attribute to it and 'l/text()' writes its text (refused if it has children) and nothing else changes; for l without predicates the field then reads the value, and, when l ends in '//x', deleting the field again restores the document exactly. del and assigning None do nothing at all through XPaths ending in '//', '|', a filter or another axis; through 'l/name' they remove that child of the first node l finds (nothing if it has none), and through 'l/@name' its attribute (KeyError if it has none although the field reads another's).",
  "every such XPath, namespace map, variable binding, document and value",
  "The XPath, the document and the place of the first match are unbounded; the silent failures only show for documents with several matches.",
  "eulxml/xmlmap/fields.py:_find_terminal_step",
  "eulxml/xmlmap/fields.py:_create_xml_node",
  "eulxml/xmlmap/fields.py:_set_in_xml",
  "eulxml/xmlmap/fields.py:_remove_xml",
  "eulxml/xmlmap/fields.py:SingleNodeManager")
p("List fields with any downward XPath: an item is written or deleted where it stands, and what cannot be done is refused",
  "For every list field whose XPath only looks down ('.//x', 'a|b', '(a|b)[1]', other axes) and every document: field[k] = v with k (negative allowed) in range changes exactly one thing, the text of the k-th element found in document order, or the attribute found; it raises and changes nothing if that element has children or the value is not XML; out of range (except at the end) it raises IndexError and changes nothing. If all items are leaf elements and the XPath does not look at element text, the list then reads as Python's list after the same assignment, with the items at the same places. del field[k] removes exactly the k-th element, refuses attributes and texts (TypeError) and positions outside the list (IndexError). append and insert raise and change nothing when the XPath ends in '//', '|', a filter or another axis. Assigning a list of the same length makes the field read that list; assigning a longer one to a field that cannot grow raises after having written the first values. A list of attributes reads back what is assigned item by item or as a list of the same length; a shorter list raises TypeError after its values are written and no attribute is lost; a value can be appended only while the list is empty.",
  "every such XPath, namespace map, variable binding, document, index and value",
  "The XPath, the document, the number and the places of the items and the index are unbounded.",
  "eulxml/xmlmap/fields.py:NodeList",
  "eulxml/xmlmap/fields.py:NodeListManager",
  "eulxml/xmlmap/fields.py:_set_in_xml")
p("List fields with any downward XPath behave as Python lists that cannot grow",
  "For every list field whose XPath only looks down, has no positions and asks only for the elements' own names and attributes (or other elements' attributes on the way down), and every document in which no item is inside another: del field[k], pop and remove do what Python does to the list of values (same result or exception, same list afterwards), and if the items are leaf elements below the root so does item assignment, and so do histories of all operations, with the operations that would make the list longer raising and changing nothing; assigning a list not longer than the present one makes the field read it, and deleting the field empties the list. This covers all list fields of the shipped classes but one (which lists attributes). With a position in the XPath, or an item inside another, taking one item out may let another one in, or take several.",
  "every such XPath, namespace map, variable binding, document, operation and history of operations",
  "Histories, documents and XPaths are unbounded, and every operation evaluates the XPath again in the changed document.",
  "eulxml/xmlmap/fields.py:NodeList",
  "eulxml/xmlmap/fields.py:NodeListManager")
p("Fields 'l/name' grow under the first node found by any downward l, and their lists are Python lists",
  "For every field whose XPath is l/name, l being any XPath that only looks down, without positions and with predicates on own attributes only ('.//person[@id = \"7\"]/phone', 'a//b/c'), and every document: assigning to a single field that finds nothing adds the element as last child of the first node l finds, changes nothing else, and the field then reads the value (deleting it again restores the document exactly if l ends in '//x'). A list field whose items are childless children of that first node behaves as Python's list under every history of item assignment, append, extend, del, pop and remove (same results, same exceptions, same list), appends go to the end of that node and leave everything else alone, assigning a list of any length makes the field read it, and deleting the field empties it. If the items are under a later node, or l asks about children, appending may do something else.",
  "every such XPath, namespace map, variable binding, document, value and history of operations",
  "Histories, documents and XPaths are unbounded; every operation evaluates both XPaths again in the changed document.",
  "eulxml/xmlmap/fields.py:_create_xml_node",
  "eulxml/xmlmap/fields.py:NodeList",
  "eulxml/xmlmap/fields.py:NodeListManager",
  "eulxml/xmlmap/fields.py:SingleNodeManager")
with open('/verif/properties.jsonl','w') as f:
    for x in P: f.write(json.dumps(x)+"\n")
print(len(P))
