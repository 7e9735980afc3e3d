{"id": "C01", "title": "Tree edits keep parent and children consistent", "statement": "After any history of node constructions and append / prepend / remove / remove_self / clear / replace_self calls that each respect the documented usage (the added node has no parent, has an allowed class for its new parent and is not an ancestor of the receiver), x is in p.children exactly when x.parent is p, no node is listed twice, and no node is its own ancestor.", "quantifier": "every finite history of edits, starting from no nodes at all", "why_tests_cant": "the statement is about every history of calls on every tree; a test runs one fixed history on one fixed tree", "anchors": ["rsm/nodes.py:NodeWithChildren.append", "rsm/nodes.py:NodeWithChildren.prepend", "rsm/nodes.py:NodeWithChildren.remove", "rsm/nodes.py:NodeWithChildren.clear", "rsm/nodes.py:Node.replace_self", "rsm/nodes.py:Node.remove_self", "rsm/nodes.py:Node.parent"]}
{"id": "C02", "title": "append puts the new children last, in order, and touches nothing else", "statement": "A successful p.append(c) or p.append([c1..ck]) makes p.children equal the old children followed by the new ones in the given order, sets the parent of each new child to p, and changes no other node and no other attribute. If a child already has a parent, append raises RSMNodeError.", "quantifier": "every heap, receiver and list of children", "why_tests_cant": "the statement is about every history of calls on every tree; a test runs one fixed history on one fixed tree", "anchors": ["rsm/nodes.py:NodeWithChildren.append"]}
{"id": "C03", "title": "prepend puts the new children first, in order, and touches nothing else", "statement": "A successful p.prepend([c1..ck]) of detached nodes makes p.children equal c1..ck followed by the old children, sets their parent, and changes nothing else; a child owned by another parent is refused with RSMNodeError.", "quantifier": "every heap, receiver and list of children", "why_tests_cant": "the statement is about every history of calls on every tree; a test runs one fixed history on one fixed tree", "anchors": ["rsm/nodes.py:NodeWithChildren.prepend"]}
{"id": "C04", "title": "A refused edit leaves the tree as it was", "statement": "When append, prepend or replace_self raises RSMNodeError the tree is unchanged.", "quantifier": "every heap and every refused call", "why_tests_cant": "a test checks that the exception is raised, not that every reachable state is untouched by it", "anchors": ["rsm/nodes.py:NodeWithChildren.append", "rsm/nodes.py:NodeWithChildren.prepend", "rsm/nodes.py:Node.replace_self", "rsm/nodes.py:Node.parent"]}
{"id": "C05", "title": "A node has at most one place in the tree", "statement": "No successful public edit can make one node appear twice in children lists (twice in one parent, or under two parents), or make a node its own ancestor.", "quantifier": "every heap and every successful call", "why_tests_cant": "the statement is about every history of calls on every tree; a test runs one fixed history on one fixed tree", "anchors": ["rsm/nodes.py:NodeWithChildren.prepend", "rsm/nodes.py:NodeWithChildren.append", "rsm/nodes.py:Node.replace_self"]}
{"id": "C06", "title": "replace_self substitutes in place", "statement": "x.replace_self([r1..rk]) makes r1..rk occupy, in order, the position x had among its siblings; the siblings before and after x keep their order; x.parent becomes None; on a parentless x it raises RSMNodeError and changes nothing.", "quantifier": "every heap, node and list of replacements", "why_tests_cant": "the statement is about every history of calls on every tree; a test runs one fixed history on one fixed tree", "anchors": ["rsm/nodes.py:Node.replace_self"]}
{"id": "C07", "title": "remove, remove_self and clear detach exactly what they name", "statement": "p.remove(x) deletes x from p.children keeping the order of the rest, sets x.parent to None and changes nothing else; clear detaches every child; removing a non-child raises ValueError and changes nothing; remove right after append restores the original tree.", "quantifier": "every heap, receiver and child", "why_tests_cant": "the statement is about every history of calls on every tree; a test runs one fixed history on one fixed tree", "anchors": ["rsm/nodes.py:NodeWithChildren.remove", "rsm/nodes.py:Node.remove_self", "rsm/nodes.py:NodeWithChildren.clear"]}
{"id": "C08", "title": "traverse visits every node of the subtree once, parents first, in document order", "statement": "n.traverse() yields exactly the nodes of the subtree rooted at n, each once, in depth-first pre-order; with a condition or a nodeclass it yields the same sequence filtered by the condition (by isinstance).", "quantifier": "every tree and every condition", "why_tests_cant": "the statement is about every manuscript tree, of any size and depth; a test renders a handful of literal documents", "anchors": ["rsm/nodes.py:Node.traverse"]}
{"id": "C09", "title": "first_of_type and last_of_type find the extreme matching child", "statement": "first_of_type(C) (last_of_type(C)) returns the first (last) direct child that is an instance of one of the given classes, with its index, and None when no child matches.", "quantifier": "every node, child list and class tuple", "why_tests_cant": "the statement is about every manuscript tree, of any size and depth; a test renders a handful of literal documents", "anchors": ["rsm/nodes.py:NodeWithChildren.first_of_type", "rsm/nodes.py:NodeWithChildren.last_of_type"]}
{"id": "C10", "title": "prev_sibling and next_sibling are inverse and respect the class filter", "statement": "Without a class, y = x.next_sibling() iff x = y.prev_sibling(), and they are adjacent in the parent's children; with a class they return the nearest earlier (later) sibling that is an instance of it, or None.", "quantifier": "every consistent tree and every node in it", "why_tests_cant": "the statement is about every manuscript tree, of any size and depth; a test renders a handful of literal documents", "anchors": ["rsm/nodes.py:Node.prev_sibling", "rsm/nodes.py:Node.next_sibling"]}
{"id": "C11", "title": "first_ancestor_of_type returns the closest ancestor of that exact class", "statement": "x.first_ancestor_of_type(C) is the closest proper ancestor whose class is exactly one of C, and None when there is none; it terminates on every tree.", "quantifier": "every tree, node and class tuple", "why_tests_cant": "the statement is about every manuscript tree, of any size and depth; a test renders a handful of literal documents", "anchors": ["rsm/nodes.py:Node.first_ancestor_of_type"]}
{"id": "C12", "title": "sexp() is a faithful picture of the tree", "statement": "The string n.sexp() determines the class and child structure of the whole subtree: two trees with the same sexp have the same classes in the same places.", "quantifier": "every pair of trees", "why_tests_cant": "injectivity quantifies over all pairs of trees; a test compares single strings", "anchors": ["rsm/nodes.py:Node.sexp"]}
{"id": "C13", "title": "Nodes with restricted parents only ever sit under permitted ones", "statement": "In every tree reached by successful edits, a node whose class declares possible_parents has no parent or a parent whose class is one of them (e.g. Item in Itemize/Enumerate, Step in Proof/Subproof/Step).", "quantifier": "every history of successful edits", "why_tests_cant": "the statement is about every history of calls on every tree; a test runs one fixed history on one fixed tree", "anchors": ["rsm/nodes.py:Node.parent", "rsm/nodes.py:Node.possible_parents"]}
{"id": "C14", "title": "Node equality is an equivalence", "statement": "== on nodes is reflexive, symmetric and separates nodes of different structure.", "quantifier": "every pair of nodes", "why_tests_cant": "symmetry ranges over all pairs of nodes of all classes", "anchors": ["rsm/nodes.py:Node.__eq__", "rsm/nodes.py:NodeWithChildren._attrs_for_repr_and_eq"]}
{"id": "C15", "title": "Metadata keys are inherited", "statement": "Every class accepts every meta key its base class accepts, and every class accepts label, types, nonum and reftext.", "quantifier": "every node class", "why_tests_cant": "the test checks a few classes", "anchors": ["rsm/nodes.py:Node.metakeys", "rsm/nodes.py:Node.newmetakeys"]}
{"id": "C16", "title": "ingest_dict_as_meta sets exactly the given keys", "statement": "Ingesting a meta dictionary sets exactly the named attributes (reftext goes to the reftext template), leaves every other attribute and the tree unchanged.", "quantifier": "every node and dictionary", "why_tests_cant": "quantifies over all dictionaries and the untouched rest of the tree", "anchors": ["rsm/nodes.py:Node.ingest_dict_as_meta"]}
{"id": "C17", "title": "After transform, labels are unique and the first occurrence wins", "statement": "After transform by a fresh Transformer no two nodes that were in the tree carry the same non-empty label; the first node in document order with a given label keeps it and later ones lose it.", "quantifier": "every manuscript tree", "why_tests_cant": "the statement is about every manuscript tree, of any size and depth; a test renders a handful of literal documents", "anchors": ["rsm/transformer.py:Transformer.collect_labels"]}
{"id": "C18", "title": "No pending reference survives transform", "statement": "If transform returns, the tree contains no PendingReference, PendingCite or PendingPrev node.", "quantifier": "every manuscript tree", "why_tests_cant": "the statement is about every manuscript tree, of any size and depth; a test renders a handful of literal documents", "anchors": ["rsm/transformer.py:Transformer.resolve_pending_references"]}
{"id": "C19", "title": "A reference points at the first node with its label", "statement": "Each :ref: to a label is replaced in the same position by a Reference whose target is the first node in document order carrying that label and which keeps the overriding text; a :ref: to a label nobody carries is replaced, in the same position, by an Error node naming the label, and a warning is logged.", "quantifier": "every manuscript tree and every reference in it", "why_tests_cant": "the statement is about every manuscript tree, of any size and depth; a test renders a handful of literal documents", "anchors": ["rsm/transformer.py:Transformer.resolve_pending_references", "rsm/transformer.py:Transformer._label_to_node"]}
{"id": "C20", "title": "Citations and backlinks match", "statement": "Each :cite: is replaced in place by a Cite with one target per listed key, in order; citations get the labels cite-0, cite-1, ... in document order; the backlinks of a bibitem are exactly the labels of the citations that name it, once per mention, in document order.", "quantifier": "every manuscript tree", "why_tests_cant": "the statement is about every manuscript tree, of any size and depth; a test renders a handful of literal documents", "anchors": ["rsm/transformer.py:Transformer.resolve_pending_references", "rsm/nodes.py:Cite", "rsm/nodes.py:Bibitem"]}
{"id": "C21", "title": "A citation of something that is not a bibitem is reported, not a crash", "statement": "transform raises only RSMTransformerError on documents the parser accepts (no AttributeError, StopIteration, AssertionError, ...).", "quantifier": "every manuscript tree", "why_tests_cant": "the statement is about every manuscript tree, of any size and depth; a test renders a handful of literal documents", "anchors": ["rsm/transformer.py:Transformer.resolve_pending_references", "rsm/transformer.py:Transformer.autonumber_nodes", "rsm/transformer.py:Transformer.add_necessary_subproofs"]}
{"id": "C22", "title": ":prev: refers to the k-th previous step", "statement": ":prev:k inside a step becomes a Reference to the step that precedes the closest enclosing step by exactly k steps among its step siblings; if there are fewer, or there is no enclosing step, transform raises RSMTransformerError.", "quantifier": "every manuscript tree, every :prev: and every k", "why_tests_cant": "the statement is about every manuscript tree, of any size and depth; a test renders a handful of literal documents", "anchors": ["rsm/transformer.py:Transformer.resolve_pending_references"]}
{"id": "C23", "title": "Steps are a statement followed by at most one subproof", "statement": "After transform every non-empty Step has children [Statement] or [Statement, Subproof]; the statement holds, in order, what came before the first sub-step or subproof and the subproof holds the rest.", "quantifier": "every manuscript tree", "why_tests_cant": "the statement is about every manuscript tree, of any size and depth; a test renders a handful of literal documents", "anchors": ["rsm/transformer.py:Transformer.add_necessary_subproofs"]}
{"id": "C24", "title": "Restructuring proofs loses and reorders nothing", "statement": "Adding subproofs keeps every node of the document, in the same document order; only Statement and Subproof wrappers are added.", "quantifier": "every manuscript tree", "why_tests_cant": "the statement is about every manuscript tree, of any size and depth; a test renders a handful of literal documents", "anchors": ["rsm/transformer.py:Transformer.add_necessary_subproofs"]}
{"id": "C25", "title": "Automatic numbers count 1, 2, 3, ... within their scope", "statement": "The number given to an autonumbered node is one more than the count of earlier numbered nodes that share its counter since the last node opening its scope; nodes marked nonum neither receive nor consume a number.", "quantifier": "every manuscript tree", "why_tests_cant": "the statement is about every manuscript tree, of any size and depth; a test renders a handful of literal documents", "anchors": ["rsm/transformer.py:Transformer.autonumber_nodes", "rsm/nodes.py:Node.number_within", "rsm/nodes.py:Node.number_as"]}
{"id": "C26", "title": "Steps of a proof are numbered 1..k", "statement": "In every Proof and Subproof the direct Step children get the numbers 1..k in order, whatever else is in between.", "quantifier": "every manuscript tree", "why_tests_cant": "the statement is about every manuscript tree, of any size and depth; a test renders a handful of literal documents", "anchors": ["rsm/transformer.py:Transformer._autonumber_steps"]}
{"id": "C27", "title": "Displayed numbers identify the node", "statement": "Two different numbered nodes of the same kind never display the same full number.", "quantifier": "every manuscript tree", "why_tests_cant": "the statement is about every manuscript tree, of any size and depth; a test renders a handful of literal documents", "anchors": ["rsm/nodes.py:Node.full_number", "rsm/transformer.py:Transformer.autonumber_nodes"]}
{"id": "C28", "title": "Appendix sections are lettered A, B, C, ...", "statement": "After an appendix marker the sections get the letters A, B, C, ... in order and are called Appendix in references, however many there are.", "quantifier": "every manuscript tree", "why_tests_cant": "the statement is about every manuscript tree, of any size and depth; a test renders a handful of literal documents", "anchors": ["rsm/transformer.py:Transformer.autonumber_nodes"]}
{"id": "C29", "title": "full_number is the dotted path of numbers", "statement": "full_number of a node is its own number preceded by the numbers of the chain of closest enclosing number_within nodes, joined with dots, empty for unnumbered nodes; it always terminates.", "quantifier": "every tree and node", "why_tests_cant": "the statement is about every manuscript tree, of any size and depth; a test renders a handful of literal documents", "anchors": ["rsm/nodes.py:Node.full_number"]}
{"id": "C30", "title": "Reference text shows the number of the target", "statement": "reftext of a node substitutes the class name and full number in its template; an unnumbered node never shows the word None.", "quantifier": "every node", "why_tests_cant": "the statement is about every manuscript tree, of any size and depth; a test renders a handful of literal documents", "anchors": ["rsm/nodes.py:Node.reftext"]}
{"id": "C31", "title": "The table of contents lists every section once, in order, properly nested", "statement": "In a document with a contents marker and properly nested sections, the TOC has exactly one entry per section, in document order, linked to the section and nested like the sections; with several markers only the first is kept.", "quantifier": "every manuscript tree with well nested sections", "why_tests_cant": "the statement is about every manuscript tree, of any size and depth; a test renders a handful of literal documents", "anchors": ["rsm/transformer.py:Transformer.make_toc"]}
{"id": "C32", "title": "Constructs are typed by their kind", "statement": "After transform every Construct has its kind among its types, and 'assumption' exactly when it is not a then/suffices/claim/claimblock/qed/prove construct; nothing else changes.", "quantifier": "every manuscript tree", "why_tests_cant": "the statement is about every manuscript tree, of any size and depth; a test renders a handful of literal documents", "anchors": ["rsm/transformer.py:Transformer.add_keywords_to_constructs"]}
{"id": "C33", "title": "handrail_depth counts enclosing handrails", "statement": "After transform handrail_depth of a node is the number of its proper ancestors that have a handrail.", "quantifier": "every manuscript tree", "why_tests_cant": "the statement is about every manuscript tree, of any size and depth; a test renders a handful of literal documents", "anchors": ["rsm/transformer.py:Transformer.add_handrail_depth", "rsm/nodes.py:Node.handrail_depth"]}
{"id": "C34", "title": "Node ids number the document", "statement": "After transform the k-th node in document order has nodeid k, and get_child_by_id(k) on the root finds it.", "quantifier": "every manuscript tree", "why_tests_cant": "the statement is about every manuscript tree, of any size and depth; a test renders a handful of literal documents", "anchors": ["rsm/transformer.py:Transformer.assign_node_ids", "rsm/nodes.py:Manuscript.get_child_by_id"]}
{"id": "C35", "title": "A Transformer can be used for several manuscripts", "statement": "The result of transform does not depend on what the Transformer object has transformed before.", "quantifier": "every pair of manuscripts", "why_tests_cant": "state kept between calls is invisible to tests that build a new object each time", "anchors": ["rsm/transformer.py:Transformer.transform", "rsm/transformer.py:Transformer.collect_labels"]}
{"id": "C36", "title": "transform never edits the author's text", "statement": "Text nodes that were in the manuscript are all still there after transform, in the same order, with the same text.", "quantifier": "every manuscript tree", "why_tests_cant": "the statement is about every manuscript tree, of any size and depth; a test renders a handful of literal documents", "anchors": ["rsm/transformer.py:Transformer.transform"]}
{"id": "C37", "title": "Visit and leave actions pair up during translation", "statement": "translate ends with no deferred action left, whatever the tree: every deferred closing is executed exactly once, by its own node, after all of the node's descendants.", "quantifier": "every tree", "why_tests_cant": "the statement is about every manuscript tree, of any size and depth; a test renders a handful of literal documents", "anchors": ["rsm/translator.py:Translator.translate", "rsm/translator.py:Translator.leave_node", "rsm/translator.py:AppendTextAndDefer"]}
{"id": "C38", "title": "The translated HTML is well nested", "statement": "The HTML output of translate closes every element it opens, in the right order.", "quantifier": "every transformed manuscript tree", "why_tests_cant": "the statement is about every manuscript tree, of any size and depth; a test renders a handful of literal documents", "anchors": ["rsm/translator.py:Translator.translate", "rsm/translator.py:Translator.visit_paragraph", "rsm/translator.py:Translator.visit_mathblock"]}
{"id": "C39", "title": "The handrails HTML is well nested", "statement": "The HTML output of the handrails translator closes every element it opens, in the right order.", "quantifier": "every transformed manuscript tree", "why_tests_cant": "the statement is about every manuscript tree, of any size and depth; a test renders a handful of literal documents", "anchors": ["rsm/translator.py:HandrailsTranslator"]}
{"id": "C40", "title": "All text is rendered once, in document order", "statement": "The text of the document's Text nodes appears in the HTML exactly once each and in document order.", "quantifier": "every tree", "why_tests_cant": "the statement is about every manuscript tree, of any size and depth; a test renders a handful of literal documents", "anchors": ["rsm/translator.py:Translator.visit_text", "rsm/translator.py:Translator.translate"]}
{"id": "C41", "title": "Every element id in the HTML comes from a label and ids are unique", "statement": "If labels are unique, no element id occurs twice in the HTML.", "quantifier": "every transformed tree", "why_tests_cant": "the statement is about every manuscript tree, of any size and depth; a test renders a handful of literal documents", "anchors": ["rsm/translator.py:Translator.visit_figure", "rsm/translator.py:_make_tag"]}
{"id": "C42", "title": "Every internal link has a destination", "statement": "For each Reference to a labelled node in the tree the HTML contains an element whose id is the link's fragment.", "quantifier": "every transformed tree", "why_tests_cant": "the statement is about every manuscript tree, of any size and depth; a test renders a handful of literal documents", "anchors": ["rsm/translator.py:Translator.visit_reference", "rsm/translator.py:_make_tag"]}
{"id": "C43", "title": "Generated tags never repeat a class and escape nothing else", "statement": "The class attribute of a generated tag lists each class once, keeping first-occurrence order.", "quantifier": "every list of classes", "why_tests_cant": "ranges over all class lists", "anchors": ["rsm/translator.py:_make_tag"]}
{"id": "C44", "title": "Translation leaves the manuscript structure alone and is repeatable", "statement": "translate changes no parent, child list, label or number, and translating the same manuscript twice gives the same HTML.", "quantifier": "every tree", "why_tests_cant": "the statement is about every manuscript tree, of any size and depth; a test renders a handful of literal documents", "anchors": ["rsm/translator.py:Translator.translate", "rsm/translator.py:HandrailsTranslator.visit_math"]}
{"id": "C45", "title": "Dispatch picks the method of the nearest base class", "statement": "The visit/leave action of a node is the one defined for the nearest class in its chain of first base classes.", "quantifier": "every node class and translator", "why_tests_cant": "ranges over all classes", "anchors": ["rsm/translator.py:Translator.get_action_method"]}
{"id": "C46", "title": "User text is shown as text", "statement": "Characters of a text node are displayed as they are, i.e. <, > and & are escaped in the HTML.", "quantifier": "every text", "why_tests_cant": "ranges over all strings", "anchors": ["rsm/translator.py:Translator.visit_text"]}
{"id": "C47", "title": "The parser's tree mirrors the concrete syntax tree", "statement": "Abstractification yields one node per syntax node in source order with comments dropped, the children of nodes that cannot have children dropped, and the parent/children relation consistent.", "quantifier": "every concrete syntax tree", "why_tests_cant": "ranges over all syntax trees", "anchors": ["rsm/tsparser.py:TSParser.abstractify"]}
{"id": "C48", "title": "Normalisation merges adjacent text and keeps everything else", "statement": "After normalisation no two adjacent siblings are both Text; the non-text nodes are the same in the same order, and the text in each run is the concatenation of the merged texts up to whitespace.", "quantifier": "every tree", "why_tests_cant": "the statement is about every manuscript tree, of any size and depth; a test renders a handful of literal documents", "anchors": ["rsm/tsparser.py:TSParser.normalize"]}
{"id": "C49", "title": "Parse errors are reported", "statement": "When the source has a syntax error the manuscript shows it as an error and the user's text is not swallowed by it.", "quantifier": "every concrete syntax tree with an ERROR node", "why_tests_cant": "ranges over all syntax trees", "anchors": ["rsm/tsparser.py:TSParser.abstractify", "rsm/tsparser.py:TSParser.normalize", "rsm/tsparser.py:TSParser.parse"]}
{"id": "C50", "title": "Whitespace is squeezed, never invented or lost", "statement": "Stripping during parsing replaces leading and trailing whitespace runs of a text by a single space, keeps the words and their separation, and is idempotent.", "quantifier": "every string", "why_tests_cant": "ranges over all strings", "anchors": ["rsm/tsparser.py:TSParser.normalize_text"]}
{"id": "C51", "title": "EscapedString.escape removes exactly the escaping backslashes", "statement": "escape() drops each backslash that precedes an escapable character and nothing else; the result does not depend on the iteration order of the set of escapable characters.", "quantifier": "every string and every set of escapable characters", "why_tests_cant": "set iteration order varies between runs (hash randomisation) and strings are unbounded", "anchors": ["rsm/util.py:EscapedString.escape"]}
{"id": "C52", "title": "EscapedString.find returns the first unescaped occurrence", "statement": "For an escapable character, find returns the least index not preceded by a backslash at which it occurs within the bounds, and -1 when there is none.", "quantifier": "every string, character and bounds", "why_tests_cant": "ranges over all strings", "anchors": ["rsm/util.py:EscapedString.find"]}
{"id": "C53", "title": "EscapedString.index returns the first unescaped occurrence or raises", "statement": "index returns the same index as find when there is one, and raises ValueError otherwise; it always terminates.", "quantifier": "every string and character", "why_tests_cant": "ranges over all strings", "anchors": ["rsm/util.py:EscapedString.index"]}
{"id": "C54", "title": "EscapedString.split cuts at unescaped separators", "statement": "Splitting at an escapable separator loses no character: joining the parts with the separator gives the original string.", "quantifier": "every string and separator", "why_tests_cant": "ranges over all strings", "anchors": ["rsm/util.py:EscapedString.split"]}
{"id": "C55", "title": "Applications require exactly one source", "statement": "An application is created exactly when one of path and plain source is given, otherwise RSMApplicationError is raised before anything runs.", "quantifier": "every path and source", "why_tests_cant": "ranges over all arguments", "anchors": ["rsm/app.py:ParserApp._validate_srcpath_and_plain"]}
{"id": "C56", "title": "A pipeline feeds each task's result to the next", "statement": "run(x) applies the tasks in the order they were added, unpacking dict results as keyword arguments and list/tuple results as positional arguments and calling with nothing for None; pop_task after add_task restores the pipeline.", "quantifier": "every list of tasks and initial value", "why_tests_cant": "ranges over all task lists", "anchors": ["rsm/app.py:Pipeline.run", "rsm/app.py:Pipeline.add_task", "rsm/app.py:Pipeline.pop_task"]}
{"id": "C57", "title": "A parser error yields an empty result and an error log; other errors are not hidden", "statement": "If a task raises RSMParserError run returns the empty string, logs one error and runs no later task; any other exception propagates unchanged.", "quantifier": "every list of tasks", "why_tests_cant": "ranges over all task lists and failure points", "anchors": ["rsm/app.py:RSMApp.run"]}
{"id": "C58", "title": "make honours its handrails and lint options", "statement": "make(handrails=h, lint=l) produces handrails exactly when h and runs the linter exactly when l.", "quantifier": "every combination of options", "why_tests_cant": "no test of the combinations exists", "anchors": ["rsm/app.py:FullBuildApp.__init__", "rsm/app.py:make"]}
{"id": "C59", "title": "Log records are shown according to the level", "statement": "A record is shown exactly when its level is at least the configured one, and with the linter on lint messages are shown.", "quantifier": "every level and record", "why_tests_cant": "ranges over all levels", "anchors": ["rsm/rsmlogger.py:config_rsm_logger", "rsm/linter.py:Linter.__init__"]}
{"id": "C60", "title": "GatherHandler loses and reorders no record", "statement": "Records of the gathered levels are delivered once each in the order they were emitted, when the handler is flushed or closed; without a target they are kept.", "quantifier": "every history of emit / setTarget / flush / close", "why_tests_cant": "the statement is about every history of calls on every tree; a test runs one fixed history on one fixed tree", "anchors": ["rsm/rsmlogger.py:GatherHandler"]}
{"id": "C61", "title": "The linter reports each violation once and does not modify the manuscript", "statement": "lint logs exactly one message per offending node and rule, rule by rule and in document order, and leaves the tree untouched.", "quantifier": "every tree", "why_tests_cant": "the statement is about every manuscript tree, of any size and depth; a test renders a handful of literal documents", "anchors": ["rsm/linter.py:Linter.lint"]}
{"id": "C62", "title": "The builder produces a complete page", "statement": "The built page contains the translated body once, the title of the document in its head, and every local asset mentioned by a src attribute is copied.", "quantifier": "every body and asset list", "why_tests_cant": "ranges over all bodies", "anchors": ["rsm/builder.py:BaseBuilder", "rsm/builder.py:FullBuilder"]}
{"id": "C63", "title": "The command line options select the behaviour they document", "statement": "The command line passes the source as a string exactly with -c, lowers the log level by ten per -v, prints the output exactly when it is non-empty and not silenced, and returns 0.", "quantifier": "every combination of options", "why_tests_cant": "ranges over all option combinations", "anchors": ["rsm/cli.py:main"]}
{"id": "C64", "title": "Writing the page touches only its own files", "statement": "After rsm-make, every file of the working directory other than index.html and those in static/ has the contents it had before.", "quantifier": "every working directory and body", "why_tests_cant": "ranges over all working directories", "anchors": ["rsm/writer.py:Writer.write", "rsm/builder.py:FullBuilder"]}
{"id": "C65", "title": "A malformed source is reported as a parse error", "statement": "Whatever the syntax tree, parsing either returns a manuscript or raises RSMParserError.", "quantifier": "every concrete syntax tree", "why_tests_cant": "ranges over all syntax trees", "anchors": ["rsm/tsparser.py:TSParser.parse"]}
{"id": "C66", "title": "Formulas and listings keep their text as written", "statement": "The text of a formula, algorithm or listing is in the manuscript exactly as it is in the source.", "quantifier": "every formula, algorithm and listing", "why_tests_cant": "ranges over all strings", "anchors": ["rsm/tsparser.py:normalize_text", "rsm/tsparser.py:TSParser.abstractify"]}
{"id": "C67", "title": "Rendering gives well nested HTML", "statement": "Whatever the source, as long as it parses without errors and displayed formulas are in paragraphs, the HTML returned by render, with or without handrails, has every start tag matched by its end tag.", "quantifier": "every source, every option, every process", "why_tests_cant": "ranges over all sources", "anchors": ["rsm/app.py:render", "rsm/translator.py:Translator.translate", "rsm/tsparser.py:TSParser.parse", "rsm/transformer.py:Transformer.transform"]}
{"id": "C68", "title": "Rendering shows the text of the source", "statement": "The texts in the HTML returned by render are those of the source, each once and in the same order, and a note for each reference to a label that nothing carries.", "quantifier": "every source that parses without errors", "why_tests_cant": "ranges over all sources", "anchors": ["rsm/app.py:render", "rsm/translator.py:Translator.visit_text", "rsm/tsparser.py:TSParser.parse", "rsm/transformer.py:Transformer.transform"]}
{"id": "C69", "title": "References in the source become links that work", "statement": "A reference in the source to a label that is carried by something becomes a link in the HTML, and what carries the label first has an element with that id.", "quantifier": "every source that parses without errors, every reference in it", "why_tests_cant": "ranges over all sources and all labels", "anchors": ["rsm/app.py:render", "rsm/translator.py:Translator.visit_reference", "rsm/transformer.py:Transformer.resolve_pending_references"]}
{"id": "C70", "title": "Calls do not influence each other", "statement": "Whatever was rendered, linted or made before in the same process, and whether or not it raised, a call of render, lint or make returns the same, raises the same, logs the same and writes the same files as in a new process in the same directory, and does not change manuscripts made earlier.", "quantifier": "every history of calls and every call", "why_tests_cant": "the statement is about every history of calls on every tree; a test runs one fixed history on one fixed tree", "anchors": ["rsm/app.py:render", "rsm/app.py:lint", "rsm/app.py:make", "rsm/app.py:RSMApp", "rsm/rsmlogger.py:config_rsm_logger", "rsm/transformer.py:Transformer"]}
{"id": "C71", "title": "Only make writes files, and all or nothing", "statement": "render and lint leave all files alone. make either returns None and has written the complete page of the source, touching only index.html and static/, or leaves all files alone; options have the documented effect.", "quantifier": "every source, every working directory, every outcome", "why_tests_cant": "ranges over all sources, directories and failures", "anchors": ["rsm/app.py:make", "rsm/app.py:render", "rsm/app.py:lint", "rsm/writer.py:Writer.write"]}
{"id": "C72", "title": "A document without mistakes can be transformed", "statement": "Transforming a manuscript raises no exception, whatever its size and shape, unless it has one of these mistakes: a node of the wrong type or in a place where it is not allowed; a key of a citation that labels something that is not a bibliography item; a reference to previous steps outside of a step or beyond the first step; a step whose subproof is not last; more than 26 appendices; with a table of contents, a subsection that is not in a section; a construct without a kind.", "quantifier": "every manuscript", "why_tests_cant": "ranges over all documents", "anchors": ["rsm/transformer.py:Transformer.transform"]}
{"id": "C73", "title": "A transformed document without mistakes can be translated", "statement": "Translating a transformed manuscript, with or without handrails, raises no exception and finishes, whatever its size and shape, unless it has one of these mistakes: a displayed formula outside of a paragraph, a reference without a target, a link without an address, a bibliography entry whose author, year or venue is missing or not a text, a reference text with other fields than the class and the number; and with handrails, an author of whom nothing is said, or a table of contents that lists something else than sections.", "quantifier": "every transformed manuscript", "why_tests_cant": "ranges over all documents", "anchors": ["rsm/translator.py:Translator.translate", "rsm/translator.py:HandrailsTranslator"]}
{"id": "C74", "title": "A document without mistakes is shown", "statement": "If the manuscript made by the parser has none of the listed mistakes, then transforming and then translating it, with or without handrails, raises no exception: the transformer itself introduces none of the mistakes that the translators mind.", "quantifier": "every manuscript", "why_tests_cant": "ranges over all documents", "anchors": ["rsm/transformer.py:Transformer.transform", "rsm/translator.py:Translator.translate", "rsm/translator.py:HandrailsTranslator"]}
{"id": "C75", "title": "A source without mistakes is rendered", "statement": "render, given a source (or the path of a file) without syntax errors that the parser reads, in which the author has made none of the listed mistakes, returns HTML instead of raising an exception, in any process, whatever was rendered before.", "quantifier": "every such source, every history of the process", "why_tests_cant": "ranges over all sources and histories", "anchors": ["rsm/app.py:render", "rsm/app.py:ProcessorApp"]}
{"id": "C76", "title": "The parser reads every syntax tree of the expected shape", "statement": "Parsing raises no exception and finishes, for every syntax tree of any size in which every construct has the parts that the grammar gives it and every node is below one that admits it, whatever was parsed before; with no syntax errors and none of the author's mistakes, render returns HTML for it.", "quantifier": "every syntax tree of the described shape, every history of the process", "why_tests_cant": "ranges over all syntax trees", "anchors": ["rsm/tsparser.py:TSParser.parse", "rsm/tsparser.py:abstractify", "rsm/tsparser.py:normalize_text", "rsm/app.py:render"]}
{"id": "C77", "title": "A source without mistakes is linted and made", "statement": "lint, given a source without mistakes, returns its manuscript and reports exactly the violations of the linter's rules, each once, with their positions; make returns None and has written the page of the HTML that render returns, provided that the files mentioned in it exist. Neither raises, in any process.", "quantifier": "every such source, every history of the process, every working directory", "why_tests_cant": "ranges over all sources, histories and directories", "anchors": ["rsm/app.py:lint", "rsm/app.py:make", "rsm/linter.py:Linter.lint", "rsm/builder.py:FullBuilder"]}
{"id": "C78", "title": "The page is the document, node by node", "statement": "The HTML of a document consists, in document order and nested as in the document, of the elements of its nodes: each class of node has its own element, with the heading, label, number, title, link text, caption, keywords, list of links and mark that it should have, and with every text of the document in its place and nothing else.", "quantifier": "every transformed manuscript", "why_tests_cant": "ranges over all documents", "anchors": ["rsm/translator.py:Translator.translate", "rsm/translator.py:Translator.visit_section", "rsm/translator.py:Translator.visit_theorem", "rsm/translator.py:Translator.visit_bibitem"]}
{"id": "C79", "title": "A browser reads from the HTML what the translator has written", "statement": "If no text of the document contains a < that makes a tag, and no label, title, path or other value a < or a double quote, then reading the HTML character by character gives back exactly the tags, attributes and texts the translator has written: no text becomes markup or the other way round. So the elements, ids, links and texts promised for the fragments are those a browser sees in the file.", "quantifier": "every document without markup characters", "why_tests_cant": "ranges over all documents", "anchors": ["rsm/translator.py:Translator.translate", "rsm/translator.py:HandrailsTranslator", "rsm/translator.py:make_tag"]}
{"id": "C80", "title": "A source without markup gives a page that reads as it was written", "statement": "If in the source every < stands before something that makes no tag of it, and labels, targets, keys and titles have no < (and, where they are written in attributes, no double quote), then reading what render returns character by character gives back the tags and texts the translator has written: well nested, with the texts of the source in their order, and with a link for each reference that leads to an element with that id.", "quantifier": "every source without markup characters, every option, every history of the process", "why_tests_cant": "ranges over all sources and histories; the condition is on the source alone and must survive parsing, normalisation and transforming", "anchors": ["rsm/app.py:render", "rsm/tsparser.py:TSParser.parse", "rsm/translator.py:Translator.translate", "rsm/transformer.py:Transformer.transform"]}
{"id": "C81", "title": "Making a page again changes no file", "statement": "After make has succeeded, calling it again on the same source, in the same process or another, succeeds and leaves the content of every file in the directory as it was, whatever the verbosity and log format. (The source must not itself be index.html, nor show index.html as a figure.)", "quantifier": "every source, directory, option and history of the processes", "why_tests_cant": "ranges over all sources, directories and histories; the second run reads files the first one wrote", "anchors": ["rsm/app.py:make", "rsm/builder.py:FullBuilder", "rsm/builder.py:FullBuilder.mount_required_assets", "rsm/writer.py:Writer.write"]}
{"id": "C82", "title": "The page has the title of the manuscript", "statement": "The title element of the page that make writes is the title of the manuscript, when it has one on a single line and the source has no markup.", "quantifier": "every such source, directory and history of the process", "why_tests_cant": "ranges over all sources; the title is found again in the HTML with a regular expression", "anchors": ["rsm/app.py:make", "rsm/builder.py:SingleFileBuilder._extract_title", "rsm/translator.py:Translator.visit_manuscript"]}
{"id": "C83", "title": "A mistake is an exception of a known kind in translation, never a page with a hole", "statement": "For a transformed document, translation either returns HTML or raises the exception of the first mistake in the order of the document: AssertionError for a displayed formula outside of a paragraph, AttributeError for a reference to nothing or an entry of the bibliography whose author is missing or whose author, year or venue is not a text (the default year is not one), and the translator's error for a link without an address. Exactly the documents without mistakes are translated. Transform neither makes nor mends these mistakes: the first one in the source decides what render raises, unless transform has found one of its own; render does nothing else than return HTML or raise for such a mistake. Make raises for the same mistakes and then changes no file, and lint raises for those of transform only. With handrails an author of whom nothing is said is a mistake too.", "quantifier": "every document of the shape that the parser makes or transform leaves, with mistakes anywhere and in any number", "why_tests_cant": "ranges over all documents and all combinations of mistakes", "anchors": ["rsm/translator.py:Translator.translate", "rsm/translator.py:Translator.visit_mathblock", "rsm/translator.py:Translator.visit_reference", "rsm/translator.py:Translator.visit_url", "rsm/translator.py:Translator.visit_bibitem", "rsm/translator.py:HandrailsTranslator.visit_author", "rsm/app.py:render", "rsm/app.py:make", "rsm/app.py:lint"]}
