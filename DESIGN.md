# Formal model of leotrs/rsm in Rocq (Coq 8.16.1)

This directory contains an executable Gallina model of the Python package `rsm`
(source in `/repo/rsm`, read as text) and machine-checked proofs of the properties
listed in `properties.jsonl`. `MANIFEST.json` maps each property to the theorems
that settle it.

## 1. How the code is modelled

* **Strings** are lists of Unicode code points (`list N`), as Python strings are.
  `lit "..."` decodes a UTF-8 Coq literal. The `str` methods that the code uses
  (`strip`, `split`, `replace`, `find`, `startswith`, `join`, `format`, `int`) are
  written out as Gallina functions; the white-space set is CPython's.
* **Node classes** are an inductive type with one constructor per class of
  `rsm/nodes.py`. Class attributes are "own attribute" tables plus a lookup through
  `__bases__[0]` (every class has single inheritance), so `isinstance`, exact type
  tests and attribute inheritance behave as in Python.
* **Object graph.** Nodes live in a heap `gmap nat node`. A node has a class, a
  `_parent`, a `_children` list and a finite map of instance attributes holding
  Python-like values. Sharing, cycles, a child listed twice, a child listed by two
  parents can all be represented: well-formedness is proved, never assumed.
* **Effects.** A method is a function `st -> st * res A`: it returns a new state
  (heap, allocation counter, log records) and a value or an exception. The state
  persists when an exception is raised, so "what has already happened when it fails"
  is part of the model.
* **Loops over generators** (`for node in tree.traverse(): <mutate the tree>`) are
  modelled by the generator's own explicit stack, with the body run between the pop
  and the push of the children, as Python does. Loops that Python does not bound
  take fuel; running out of fuel is the exception value `OutOfFuel`, which no theorem
  counts as success. Termination is proved where it is claimed, by exhibiting
  sufficient fuel.
* **HTML** is produced as a list of tokens (open tag with attributes, close tag,
  self-closed tag, raw text) together with a `render` function giving the exact
  string. Balance is stated on tokens, whose texts are opaque. What a browser makes of
  the string, including markup characters in user text, is the subject of C79 and C80,
  which read the string character by character.
* **The whole way** from the source to the HTML and the files is in `Render.v`: the
  applications run their tasks in one `world` (nodes in memory, logger, labels of the
  transformer, files of the working directory), which persists between calls. The
  grammar and the highlighter are parameters there.

Modelled: `nodes.py`, `transformer.py`, `translator.py`, `tsparser.py` (from the concrete
syntax tree on), `util.py`, `linter.py`, `builder.py`, `writer.py`, `rsmlogger.py`, `app.py`,
`cli.py` and the reader's use of a path or a string.

Not modelled: tree-sitter and the RSM grammar (`/repo/tree-sitter-rsm` is empty, so
the concrete syntax tree is an *input* of the model), pygments (`highlight_code` is a
parameter of the translator), the `logging` package beyond levels/handlers/buffering,
the `fs` library, `livereload`, `argparse` itself, `icecream`, the JavaScript and CSS
in `rsm/static`, Python's recursion limit and memory.

Each definition of the model carries a comment with the file and lines it models and,
where it simplifies, what it leaves out.

## 2. Specifications

Specifications do not use the model's helpers. The central one is the inductive tree
`T i cs` with `tree_at h p t`, "heap `h` holds tree `t` below parent `p`", and its
pre-order list of identifiers. Properties of transform and translate are stated about
`tree_at` trees of arbitrary shape. HTML is compared with an inductive definition of well nested token lists.

The specification files, by subject:

* `Spec`, `SpecNodes`, `SpecTransform`, `SpecResult`, `SpecFinish`: trees in memory, and what
  a transformed document is.
* `SpecParse`, `SpecNorm`, `SpecSource`, `SpecShape`: the manuscript that a syntax
  tree stands for, as a recursion without memory, and the syntax trees the parser
  must accept.
* `SpecHtml`, `SpecTranslate`, `SpecPage`: well nested HTML, ids, links, texts, and
  the page of a document as a recursion on its tree.
* `SpecRead`, `SpecInput`: an automaton that reads HTML, and the documents and
  sources for which it must find what was written.
* `SpecRender`, `SpecCalls`, `SpecReuse`: what render, lint and make return, and
  what a call must not remember from earlier ones.
* `SpecMistakes`, `SpecStuck`: the mistakes of an author that raise an exception in transform and in translate, and which.

The main proof techniques are Hoare logics over the monad (`keeps`, `quiet`, `pl`, `sf`,
`td`), one lemma per function of the model; simulations between runs from different
memories (`Shift*.v`) and between two runs on one document (`Again*.v`); and
recursion on trees against the generators' stacks (`Traverse`, `TrPage`).

## 3. Trusted base

* the Coq 8.16.1 kernel (and `vm_compute` for the witnesses of `_refuted` theorems
  and for examples),
* std++ for `gmap` and list lemmas (no axioms),
* the reading of the Python source that produced the model.

`Print Assumptions` under each theorem in the `Properties_*.v` files reports
`Closed under the global context`: no axioms, neither ours nor the standard library's.
`coqchk -o` lists seven constants without a body in the whole context: `Over_rel`,
`over_rel`, `over_rel_done`, `Under_rel`, `Under_rel_from_rel`, `Under_relE` and
`under_rel_done` of `Coq.ssr.ssrunder.Under_rel`. They belong to the `under` tactic of
Coq's own ssreflect library, which std++ loads. No theorem here depends on them.

## 4. Plan per property

* **C01** Tree edits keep parent and children consistent. Heap model of all edits as an operation language; invariant (child/parent agreement, no duplicates, a rank function for acyclicity) proved by induction over operation lists.
* **C02** append puts the new children last, in order, and touches nothing else. Exact post-state of `append` for one child and lists; frame: heap equality outside the touched fields.
* **C03** prepend puts the new children first, in order, and touches nothing else. Same for `prepend`.
* **C04** A refused edit leaves the tree as it was. Proved for refusals because of an existing parent; refuted for refusals because of the class (the child is already listed when the setter raises).
* **C05** A node has at most one place in the tree. Refuted: `prepend` of an own child, `replace_self` with an attached node, `append` of the root to its descendant.
* **C06** replace_self substitutes in place. Exact post-state of `replace_self`.
* **C07** remove, remove_self and clear detach exactly what they name. Exact post-states; append-then-remove round trip.
* **C08** traverse visits every node of the subtree once, parents first, in document order. Generator stack loop related to the pre-order of the specification tree, with sufficient fuel.
* **C09** first_of_type and last_of_type find the extreme matching child. Characterisation by first/last index.
* **C10** prev_sibling and next_sibling are inverse and respect the class filter. Characterisation by position in the parent's child list.
* **C11** first_ancestor_of_type returns the closest ancestor of that exact class. Characterisation by the ancestor chain; termination from acyclicity.
* **C12** sexp() is a faithful picture of the tree. Printer loop equal to a recursive printer, and a reader that inverts it.
* **C13** Nodes with restricted parents only ever sit under permitted ones. Invariant over successful edits.
* **C14** Node equality is an equivalence. Reflexivity proved, symmetry refuted by witness.
* **C15** Metadata keys are inherited. Finite domain (classes), by computation over the complete list of classes.
* **C16** ingest_dict_as_meta sets exactly the given keys. Exact post-state.
* **C17** After transform, labels are unique and the first occurrence wins. Invariant of the labelling loop; stated with pre-order positions.
* **C18** No pending reference survives transform. From the code's final check plus stability of the later passes.
* **C19** A reference points at the first node with its label. Invariant of the resolving loop.
* **C20** Citations and backlinks match. Invariant of the resolving loop with a ghost list of citations.
* **C21** A citation of something that is not a bibitem is reported, not a crash. Refuted by witnesses (cite of a section, 27 appendix sections, subproof not last). The exception is determined by the first reference with a mistake (SpecMistakes.v): the loop is run up to it with the invariant of C18-C22, and its visit fails in the transferred heap (Mistakes.v). Each later pass returns or raises its one exception; a pass that returns has found no mistake, and mistakes are carried over between the heaps of the passes (Late.v).
* **C22** :prev: refers to the k-th previous step. Characterisation of the sibling walk.
* **C23** Steps are a statement followed by at most one subproof. Structural induction on the specification tree.
* **C24** Restructuring proofs loses and reorders nothing. Same induction: pre-order of the result with the new wrappers deleted.
* **C25** Automatic numbers count 1, 2, 3, ... within their scope. Counter state as a function of the pre-order prefix.
* **C26** Steps of a proof are numbered 1..k. Direct.
* **C27** Displayed numbers identify the node. Refuted by witness; proved for counters that share scope.
* **C28** Appendix sections are lettered A, B, C, .... Letters proved for the first 26; refuted for the 27th.
* **C29** full_number is the dotted path of numbers. Recursion over ancestors, against a specification on the ancestor chain.
* **C30** Reference text shows the number of the target. Direct, `None` refuted by witness.
* **C31** The table of contents lists every section once, in order, properly nested. Invariant for well nested section trees.
* **C32** Constructs are typed by their kind. Exact post-state.
* **C33** handrail_depth counts enclosing handrails. Loop invariant: depth = sum over ancestors of the number of handrail classes they are instances of; refuted as stated (theorem-like nodes count twice).
* **C34** Node ids number the document. Loop invariant.
* **C35** A Transformer can be used for several manuscripts. Refuted by witness. Proved when the second document uses none of the labels of the first, by relating the two runs stage by stage (Reuse.v).
* **C36** transform never edits the author's text. Frame: no pass writes `text`, and passes preserve the text nodes of the pre-order.
* **C37** Visit and leave actions pair up during translation. Induction on the tree over the translator's stack machine.
* **C38** The translated HTML is well nested. Induction on the tree with the tag stack as state; hypotheses on the position of math blocks, refuted without them.
* **C39** The handrails HTML is well nested. Same for the handrails translator.
* **C40** All text is rendered once, in document order. Same induction collecting text payloads.
* **C41** Every element id in the HTML comes from a label and ids are unique. Same induction collecting ids; refuted for labelled figures.
* **C42** Every internal link has a destination. Same induction.
* **C43** Generated tags never repeat a class and escape nothing else. Direct.
* **C44** Translation leaves the manuscript structure alone and is repeatable. Frame over the loop; repeatability of the base translator by a simulation between the first and the second run (Again.v: equal up to the identities of new nodes, repeated types and the private flag of paragraphs); refuted for handrails.
* **C45** Dispatch picks the method of the nearest base class. Finite domain (classes) by computation.
* **C46** User text is shown as text. Refuted by witness.
* **C47** The parser's tree mirrors the concrete syntax tree. CST as input; simulation of the stack loop by a recursion on the CST, and of the normalising traversal by a recursion on the manuscript; termination by a measure.
* **C48** Normalisation merges adjacent text and keeps everything else. Induction over child lists.
* **C49** Parse errors are reported. Refuted by witnesses; warnings by induction on the way to the error.
* **C50** Whitespace is squeezed, never invented or lost. String functions.
* **C51** EscapedString.escape removes exactly the escaping backslashes. Permutation independence and equality with a single pass; refuted if the backslash itself is escapable.
* **C52** EscapedString.find returns the first unescaped occurrence. Characterisation by least index.
* **C53** EscapedString.index returns the first unescaped occurrence or raises. Refuted by witnesses (returns -1; cycles for ever).
* **C54** EscapedString.split cuts at unescaped separators. Refuted by witness.
* **C55** Applications require exactly one source. Direct.
* **C56** A pipeline feeds each task's result to the next. Induction on the task list with tasks as functions on dynamic values.
* **C57** A parser error yields an empty result and an error log; other errors are not hidden. Same.
* **C58** make honours its handrails and lint options. Refuted; the actual behaviour is proved.
* **C59** Log records are shown according to the level. Effective threshold proved; lint messages under the linter refuted.
* **C60** GatherHandler loses and reorders no record. Refinement of any operation history to an append-only log.
* **C61** The linter reports each violation once and does not modify the manuscript. Loop characterisation.
* **C62** The builder produces a complete page. String functions for the two regular expressions; basename collision refuted.
* **C63** The command line options select the behaviour they document. Direct.
* **C64** Writing the page touches only its own files. Frame over the file system of the working directory.
* **C65** A malformed source is reported as a parse error. Refuted by witness. A rule for each node operation and step of the parser bounds the exceptions raised while every node at hand is in the heap (ParseErr.v); one witness per exception.
* **C66** Formulas and listings keep their text as written. Refuted by witness; string functions for what is kept.
* **C67** Rendering gives well nested HTML. Composition of C47, the results of the transformer (C17-C36) and C38, on the stages of the application (Render.v).
* **C68** Rendering shows the text of the source. Composition as in C67, with a specification by recursion on the manuscript of the source (SpecRender.v).
* **C69** References in the source become links that work. Composition as in C67.
* **C70** Calls do not influence each other. Simulation: every function of the model does the same in a memory with other nodes, up to a shift of identities (Shift*.v); then induction on the calls.
* **C71** Only make writes files, and all or nothing. Frame over the files, stage by stage; C62 and C64 for what is written.
* **C72** A document without mistakes can be transformed. The list of mistakes is the record transformable (SpecTotal.v). Every loop of the transformer is followed with the invariants of C19-C36; large enough fuel exists for each stage (Fuel.v), and more fuel does not change the result.
* **C73** A transformed document without mistakes can be translated. The list of mistakes is in SpecFinish.v. Every visit and leave method is shown to return under an invariant of the translator's stack and deferred commands (TrTotal*.v).
* **C74** A document without mistakes is shown. The list of mistakes is in SpecSource.v. The description of the result of transform (C36, Result*.v) gives each condition of C73.
* **C75** A source without mistakes is rendered. well_written (SpecSource.v) lists the mistakes left to the author; the parser gives the rest (ParseShape.v). Composition of the stages by fuel monotonicity, and of processes by C70.
* **C76** The parser reads every syntax tree of the expected shape. The shape is a boolean recursion on the syntax tree (SpecShape.v). Every step of the abstracting loop is shown to return on its places (ParseTotal.v), with the mirror of the tree (C47) as invariant; every step of the normalising traversal returns on such a mirror (NormTotal.v, NormReady.v).
* **C77** A source without mistakes is linted and made. Composition of C76 with C61 for the linter and C62 for the builder; attributes of the right types (SpecTyped.v) include the positions that the linter prints.
* **C78** The page is the document, node by node. The page is a recursion on the tree (SpecPage.v), one case per class. The translator runs commands from a stack, so the proof follows what is still to be written: an invariant relates the fragments and the deferred commands to the rest of the page (TrPage.v).
* **C79** A browser reads from the HTML what the translator has written. An automaton reads the text one character at a time (SpecRead.v). Every fragment with clean names and values is read back (ReadBack.v, one induction per part of a tag); a Hoare logic shows that all methods of both translators write clean fragments when the heap has no markup characters (TrPlain.v).
* **C80** A source without markup gives a page that reads as it was written. The condition is on the syntax tree (SpecInput.v). A Hoare logic with an invariant on all attributes in memory (Tidy.v) is proved for every function of the parser and of the transformer (TidyParse.v, Tidy.v); the text functions - strip, squeeze, merge, unescape - keep it (Mild.v). With C79 and C67-C69 this gives the statements about what render returns.
* **C81** Making a page again changes no file. Building is a function of the text and of the files it names. Copying the named files again from a directory in which the first copies lie gives the same files (MakeTwice.v, induction over the list of names with the last copy of each name as invariant); paths are split and joined back to show that a named file inside static/ is the copy itself.
* **C82** The page has the title of the manuscript. The first h1 in the HTML is that of the manuscript: the tokens before it are known, and none of their characters spells h1 because labels and types have no markup (invariant of C80, TitlePage.v). With the linter the handrails translator is used and the escaped source comes before the manuscript (TitleRails.v). The regular expression of the builder then finds the title.
* **C83** A mistake is an exception of a known kind in translation, never a page with a hole. SpecStuck.v lists the mistakes. The translator is run as in C73 up to the first node with a mistake; its visit raises, and the exception leaves every loop above it (Stuck*.v). A first mistake exists or there is none, which gives the equivalence. The description of the result of transform (C36) carries the mistakes over in both directions, with their order (Stuck4.v, Stuck5.v), and the application hands the exception on (Stuck6.v); with the outcomes of transform (C21) this gives all outcomes of render (Stuck7.v), make (Stuck8.v) and lint (Stuck9.v).
