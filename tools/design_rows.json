{
 "C01": [
  "XPathAst.v, XPathLex.v, XPathGrammar.v, LALR.v",
  "token level: serialisation of a canonical AST is the yield of a derivation tree that respects precedence (C02's completeness); character level: lexing the joined fragments gives the tokens back (induction over tokens, safe adjacency)"
 ],
 "C02": [
  "XPathGrammar.v, LALR.v",
  "completeness by induction over derivation trees; the table facts are finite checks by vm_compute; W3C grammar translated into derivation trees"
 ],
 "C03": [
  "XPathLex.v, XPathGrammar.v, LALR.v",
  "invariant of the driver: the symbol stack spells a forest whose yield is the consumed input; W3C soundness by induction over trees"
 ],
 "C04": [
  "XPathLex.v, LALR.v",
  "potential function bounding the reductions between shifts; lexer progress"
 ],
 "C05": [
  "XPathLex.v (lexer.last), LALR.v",
  "induction over call histories"
 ],
 "C06": [
  "XPathLex.v",
  "case analysis on the raw token and its predecessor, against the keyword lists of LexSpec.v"
 ],
 "C07": [
  "XPathLex.v, UniTables.v",
  "interval reasoning over the tables; W3C character ranges as the specification"
 ],
 "C08": [
  "XPathLex.v",
  "induction over the input"
 ],
 "C09": [
  "XPathAst.v (repr), XPathLex.v",
  "induction over strings"
 ],
 "C10": [
  "XmlTree.v, XPathEval.v, Fields.v",
  "induction over the steps of the path (cores of selections) and over tree addresses; refutations by witness"
 ],
 "C11": [
  "XmlTree.v, XPathEval.v, Fields.v",
  "induction over the steps of the path (cores of selections) and over tree addresses; refutations by witness"
 ],
 "C12": [
  "XmlTree.v, XPathEval.v, Fields.v",
  "induction over the steps of the path (cores of selections) and over tree addresses; refutations by witness"
 ],
 "C13": [
  "XmlTree.v, XPathEval.v, Fields.v",
  "induction over the steps of the path (cores of selections) and over tree addresses; refutations by witness"
 ],
 "C14": [
  "XmlTree.v, XPathEval.v, Fields.v",
  "induction over the steps of the path (cores of selections) and over tree addresses; refutations by witness"
 ],
 "C15": [
  "XmlTree.v, XPathEval.v, Fields.v; specification LostSpec.v; facts FieldLost.v",
  "induction over the steps of the path: the names of the elements lost are a sub-multiset of the names the steps (and their predicates) mention; everything lost lies under one place; cores of selections and tree addresses for the sharper partial form; refutations by witness"
 ],
 "C16": [
  "XmlTree.v, XPathEval.v, Fields.v, Mappers.v",
  "both sides unfold to the same removal"
 ],
 "C17": [
  "XmlTree.v, XPathEval.v, Fields.v, Mappers.v",
  "reading is a function of the document; case analysis of mappers"
 ],
 "C18": [
  "XmlTree.v, XPathEval.v, Fields.v",
  "induction over the steps of the path (cores of selections) and over tree addresses; refutations by witness"
 ],
 "C19": [
  "XmlTree.v, XPathEval.v, Fields.v",
  "induction over the steps of the path (cores of selections) and over tree addresses; refutations by witness"
 ],
 "C20": [
  "XmlTree.v, XPathEval.v, Fields.v, UndoSpec.v",
  "FieldChain.v: inductive description of what Construct mode makes (mpath/mstep1/made), found first and removed completely by mutual induction; FieldUndoEq.v: Construct mode makes exactly that, removal of elements never fails, induction over the path; refutations by witness"
 ],
 "C21": [
  "XmlTree.v, XPathEval.v, Fields.v",
  "case analysis of the terminal step"
 ],
 "C22": [
  "Mappers.v",
  "decimal round trip by induction on digits; binary64 integers up to 2^53"
 ],
 "C23": [
  "Mappers.v",
  "case analysis"
 ],
 "C24": [
  "Mappers.v",
  "strftime/strptime on fixed-width fields, arithmetic by lia"
 ],
 "C25": [
  "Mappers.v",
  "induction over strings"
 ],
 "C26": [
  "XmlTree.v, XPathEval.v, Fields.v, NodeList.v",
  "simulation between the matched elements and a Python list (ListSpec.v), induction over operations"
 ],
 "C27": [
  "XmlTree.v, XPathEval.v, Fields.v, NodeList.v",
  "simulation between the matched elements and a Python list (ListSpec.v), induction over operations"
 ],
 "C28": [
  "XmlTree.v, XPathEval.v, Fields.v, NodeList.v",
  "simulation between the matched elements and a Python list (ListSpec.v), induction over operations"
 ],
 "C29": [
  "XmlTree.v, XPathEval.v, Fields.v, NodeList.v",
  "simulation between the matched elements and a Python list (ListSpec.v), induction over operations"
 ],
 "C30": [
  "XmlTree.v, XPathEval.v, Fields.v, NodeList.v",
  "simulation between the matched elements and a Python list (ListSpec.v), induction over operations"
 ],
 "C31": [
  "XmlTree.v, XPathEval.v, Fields.v, NodeList.v",
  "simulation between the matched elements and a Python list (ListSpec.v), induction over operations"
 ],
 "C32": [
  "XmlTree.v, XPathEval.v, Fields.v, NodeList.v",
  "simulation between the matched elements and a Python list (ListSpec.v), induction over operations"
 ],
 "C33": [
  "NodeNodes.v",
  "permutation reasoning on identities, induction over the assigned list"
 ],
 "C34": [
  "Classes.v",
  "induction over programs of class statements; C3 linearisation"
 ],
 "C35": [
  "Namespaces.v",
  "invariants over heaps of shared dictionaries, induction over histories"
 ],
 "C36": [
  "SchemaCache.v",
  "induction over histories and over schedules of two-step calls"
 ],
 "C37": [
  "ObjEq.v",
  "case analysis for every serialisation function"
 ],
 "C38": [
  "Classes.v",
  "induction over the schema's values"
 ],
 "C39": [
  "FieldLists.v",
  "induction over lists and depth"
 ],
 "C40": [
  "FormFields.v",
  "induction over class tables and depth"
 ],
 "C41": [
  "FormData.v",
  "prefix-freeness of keys, structural induction"
 ],
 "C42": [
  "FormUpdate.v",
  "structural induction over value trees"
 ],
 "C43": [
  "FormLists.v",
  "from C29's simulation; induction over submissions"
 ],
 "C44": [
  "CatalogGen.v",
  "prefixes of the write trace; induction over the schema list"
 ],
 "C45": [
  "Environ.v",
  "string reasoning, induction over registrations"
 ],
 "C46": [
  "Cerp.v",
  "induction over strings"
 ],
 "C47": [
  "Cerp.v",
  "the document is computed for symbolic inputs, step by step through the field operations"
 ],
 "C48": [
  "Mods.v",
  "case analysis of what the fields select on arbitrary trees"
 ],
 "C49": [
  "Vocab.v",
  "case analysis"
 ],
 "C50": [
  "Vocab.v",
  "string and tree case analysis"
 ],
 "C51": [
  "FormSets.v, NodeNodes.v",
  "induction over forms, NodeNodes simulation"
 ],
 "C52": [
  "FormInit.v, FormUpdate.v",
  "structural induction over subforms"
 ],
 "C53": [
  "NodeAssign.v",
  "address arithmetic for a subtree moved between disjoint places"
 ],
 "C54": [
  "Validate.v, SchemaCache.v",
  "invariant over histories"
 ],
 "C55": [
  "Vocab.v",
  "equivalence by case analysis on arbitrary trees"
 ],
 "C56": [
  "XmlTree.v, XPathEval.v, Fields.v, NodeList.v",
  "a similarity relation that ignores one child name or attribute is kept by every operation; induction over histories"
 ],
 "C57": [
  "XmlTree.v, XPathEval.v, Fields.v, NodeList.v",
  "C27-C31's simulation, all operations mixed"
 ],
 "C58": [
  "XmlTree.v, XPathEval.v, Fields.v",
  "C20 and C10 combined; induction over histories"
 ],
 "C59": [
  "XmlTree.v, XPathEval.v, Fields.v",
  "as C11, C13"
 ],
 "C60": [
  "SchemaCache.v",
  "as C36"
 ],
 "C61": [
  "FormFields.v",
  "as C40"
 ],
 "C62": [
  "FormUpdate.v",
  "as C42"
 ],
 "C63": [
  "CatalogGen.v",
  "as C44"
 ],
 "C64": [
  "Cerp.v",
  "as C46"
 ],
 "C65": [
  "Validate.v",
  "as C54"
 ],
 "C66": [
  "NodeNodes.v",
  "as C33"
 ],
 "C67": [
  "XmlTree.v, XPathEval.v, Fields.v, NodeList.v",
  "as C31"
 ],
 "C68": [
  "Mappers.v",
  "as C25"
 ],
 "C69": [
  "Mappers.v",
  "as C24"
 ],
 "C70": [
  "Classes.v",
  "as C38"
 ],
 "C71": [
  "Shipped.v, XmlTree.v, XPathEval.v, Fields.v, Mappers.v",
  "the class conditions are checked on the table by vm_compute, agreement of contexts (EnvAgree.v), then C10"
 ],
 "C72": [
  "Shipped.v, XmlTree.v, XPathEval.v, Fields.v, NodeList.v",
  "same, then C57"
 ],
 "C73": [
  "Shipped.v, XmlTree.v, XPathEval.v, Fields.v, NodeList.v",
  "same, then C56"
 ],
 "C74": [
  "XmlTree.v, XPathEval.v, Fields.v, NodeList.v",
  "locality of construction (FieldLocal.v); every operation is composed of four primitive changes (FieldOps.v), each of which keeps what the other path sees (FieldShare.v)"
 ],
 "C75": [
  "Construct.v, XmlTree.v, XPathEval.v, Fields.v, Mappers.v",
  "induction over the keywords with C10 and C74; shipped classes by a decision procedure for forking proved sound"
 ],
 "C76": [
  "FormValid.v (with FormUpdate.v)",
  "structural induction over the form tree: saving is idempotent, validating then saving equals saving, hence the iff; spec acceptable is an independent inductive predicate"
 ],
 "C77": [
  "FormHtml.v",
  "structural induction over the form tree: the page is the concatenation of a token list that, read with a stack of headings, gives the inventory of the tree; erasing section formats gives history independence"
 ],
 "C78": [
  "FormClasses.v, FormFields.v, Classes.v (C3)",
  "invariant over programs (what each class record holds), strong induction on the class index; closest declaration as an inductive relation"
 ],
 "C79": [
  "XmlText.v: writer, reader and name resolution as functions on code points; serialize, serializeDocument, load, the input of xsl_transform",
  "XmlTextProofs.v: the reader undoes the writer by nested induction over the markup (escapes, attributes, children, comments), then name resolution by lookup in the declarations; indentation is related to the original tree by an inductive relation"
 ],
 "C80": [
  "XPathThreads.v: the shared lexer, a call as begin / token / shift / reduce steps of PLY's driver on its own stack, a scheduler that deals out turns",
  "no overlap: simulation of the sequential driver step by step, kept as an invariant over the schedule; overlap: the LALR stack invariant of C03/C04 per call, with a potential (remaining text of the lexer and weight of every stack) that every turn of an unfinished call decreases"
 ],
 "C81": [
  "Display.v (str_methods: the table of __str__ methods), Mappers.v (normalize_space, field_get), XmlText.v (save and load).",
  "mutual induction over the pieces of text of a tree; C25 for the words; C79 for saving and loading; the fields that the methods read are checked against the table of declarations (C81_declared)."
 ],
 "C82": [
  "MailDate.v: calendar arithmetic transcribed from CPython's datetime and calendar modules, parse_mail_date, from_email_message; Cerp.v for the rest of the conversion.",
  "ordinals count next_day steps (induction), are injective on real days, and ord2ymd inverts them (400/100/4/1-year cycles by linear arithmetic, the month by checking all 366 days); ISO text is injective by the reading proof of C24; C47 for the message."
 ],
 "C83": [
  "XPathLex.v (t_FLOAT, t_INTEGER), XPathAst.v (float_of_digits, repr_float), NumberSpec.v (decimal value by Horner, numerals, same_number, tidy)",
  "stripping zeros as splitting off repeat 0; values of sequences by positional weights; sig/e10 related to the value by bounds on powers of 10"
 ],
 "C84": [
  "Record.v (descriptor get/set/delete over a class table), on top of Fields.v/Mappers.v; RecordSpec.v (settled documents, the record as a function from names to values)",
  "invariant: every field settled and reading as its variable; a write or deletion keeps its own path settled (FieldSingle.v), forking paths keep their matches (C74) and, through the shared leading part, stay settled (FieldRecord.v); induction over the program"
 ],
 "C85": [
  "Object.v (one statement on a single or list field over two class tables); ObjectSpec.v (plain variables and Python lists, py_xop of ListSpec.v)",
  "the invariant of C84 plus C57's holds for every list; each statement keeps its own part by C84/C57 and the others by C74 (fork_one); induction over the program"
 ],
 "C86": [
  "LeafSpec.v (the Python side: attribute variables and one text), Record.v (the program)",
  "Attribute steps see and change the attributes only (C84's step does the rest); text() and . are computed on a leaf; induction on the program"
 ],
 "C87": [
  "FormPages.v: make, make_set (forms, subforms, formsets for an object, bound or not), Django's counts and add_fields, Meta options, factory",
  "C87_names_distinct by induction over places (components of names, as C41); C87_resubmitted by induction over class trees; C87_submission links to the hypotheses of C51"
 ],
 "C88": [
  "Mappers.v: to_python with Python's int() and float(), strptime as lists of successes in the order tried; XPathEval.v: libxml2's number()",
  "ReadSpec.v gives grammars and values; ReadNum.v and ReadDate.v prove the readers sound and complete for them (induction over texts; separators make backtracking deterministic, the last directive takes the longest match)"
 ],
 "C89": [
  "the evaluators [ev] (XPathEval.v) and [fev] (XPathRead.v, nodes with their places; both transcriptions of XPath 1.0 as in libxml2) against an independent set-based semantics (EvalSpec.v); field_get and list_data on top",
  "induction on expressions: every node-set value is a sorted list of places that represents the set of the specification (EvalMain, EvalValues, EvalFuns); agreement of the two evaluators by induction, nothing has to be sorted in the smaller fragment (EvalAgree); typing is the same in every environment that binds the prefixes"
 ],
 "C90": [
  "the single node manager of Fields.v on every readable XPath (C89)",
  "C89's theorems give the first node; a simulation between documents that differ only in texts (EvalBlind.v) gives that blind XPaths find the same places"
 ],
 "C91": [
  "the node list of NodeList.v on every readable XPath (C89)",
  "C89's theorems give the items in order; the simulation of EvalBlind.v keeps their places under a text change"
 ],
 "C92": [
  "the node list and its manager (NodeList.v) on every readable XPath (C89)",
  "a simulation between the document before and after taking an element out (EvalRemove.v), then induction on the history"
 ],
 "C93": [
  "Fields.v's creation and NodeList.v on every readable XPath (C89)",
  "EvalRemove.v's simulation used backwards: the document before is the one after with the new element taken out"
 ]
}