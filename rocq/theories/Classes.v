(** The node classes of rsm/nodes.py and their class attributes. *)
From stdpp Require Import countable.

From Verif Require Import Str.

(** One constructor per class statement of rsm/nodes.py, in source order. *)
Inductive cls :=
| CNode               (* nodes.py:43 *)
| CNodeWithChildren   (* nodes.py:853 *)
| CText | CError | CSpan | CHeading | CManuscript | CAuthor | CAbstract
| CSection | CSubsection | CSubsubsection
| CBaseParagraph | CParagraph | CNote | CEnumerate | CItemize | CKeyword
| CConstruct | CClaimBlock | CMath | CMathBlock | CSourceCode | CCode | CCodeBlock
| CAlgorithm | CAppendix
| CBaseReference | CPendingReference | CReference | CPendingPrev | CURL
| CPendingCite | CCite | CStatement | CProof | CSubproof | CSketch | CStep
| CTheorem | CLemma | CCorollary | CExample | CExercise | CProposition | CProblem
| CPorism | CRemark | CDefinition
| CBibliography | CBibitem | CUnknownBibitem
| CFigure | CDraft | CTable | CTableHead | CTableBody | CTableRow | CTableDatum
| CCaption | CContents | CItem.

(** rsm/nodes.py:1618-1623 [all_node_subtypes]: [globals()] in definition order. *)
Definition all_cls : list cls :=
  [CNode; CNodeWithChildren; CText; CError; CSpan; CHeading; CManuscript; CAuthor; CAbstract;
   CSection; CSubsection; CSubsubsection; CBaseParagraph; CParagraph; CNote; CEnumerate;
   CItemize; CKeyword; CConstruct; CClaimBlock; CMath; CMathBlock; CSourceCode; CCode;
   CCodeBlock; CAlgorithm; CAppendix; CBaseReference; CPendingReference; CReference;
   CPendingPrev; CURL; CPendingCite; CCite; CStatement; CProof; CSubproof; CSketch; CStep;
   CTheorem; CLemma; CCorollary; CExample; CExercise; CProposition; CProblem; CPorism;
   CRemark; CDefinition; CBibliography; CBibitem; CUnknownBibitem; CFigure; CDraft; CTable;
   CTableHead; CTableBody; CTableRow; CTableDatum; CCaption; CContents; CItem].

Definition cls_idx (c : cls) : nat :=
  match c with
  | CNode => 0 | CNodeWithChildren => 1 | CText => 2 | CError => 3 | CSpan => 4
  | CHeading => 5 | CManuscript => 6 | CAuthor => 7 | CAbstract => 8 | CSection => 9
  | CSubsection => 10 | CSubsubsection => 11 | CBaseParagraph => 12 | CParagraph => 13
  | CNote => 14 | CEnumerate => 15 | CItemize => 16 | CKeyword => 17 | CConstruct => 18
  | CClaimBlock => 19 | CMath => 20 | CMathBlock => 21 | CSourceCode => 22 | CCode => 23
  | CCodeBlock => 24 | CAlgorithm => 25 | CAppendix => 26 | CBaseReference => 27
  | CPendingReference => 28 | CReference => 29 | CPendingPrev => 30 | CURL => 31
  | CPendingCite => 32 | CCite => 33 | CStatement => 34 | CProof => 35 | CSubproof => 36
  | CSketch => 37 | CStep => 38 | CTheorem => 39 | CLemma => 40 | CCorollary => 41
  | CExample => 42 | CExercise => 43 | CProposition => 44 | CProblem => 45 | CPorism => 46
  | CRemark => 47 | CDefinition => 48 | CBibliography => 49 | CBibitem => 50
  | CUnknownBibitem => 51 | CFigure => 52 | CDraft => 53 | CTable => 54 | CTableHead => 55
  | CTableBody => 56 | CTableRow => 57 | CTableDatum => 58 | CCaption => 59
  | CContents => 60 | CItem => 61
  end.

Lemma all_cls_idx c : nth_error all_cls (cls_idx c) = Some c.
Proof. destruct c; reflexivity. Qed.
Lemma all_cls_complete c : In c all_cls.
Proof. eapply nth_error_In, all_cls_idx. Qed.
Lemma cls_idx_inj a b : cls_idx a = cls_idx b -> a = b.
Proof.
  intros H. pose proof (all_cls_idx a) as Ha. pose proof (all_cls_idx b) as Hb.
  rewrite H in Ha. congruence.
Qed.
Definition cls_eqb (a b : cls) : bool := Nat.eqb (cls_idx a) (cls_idx b).
Lemma cls_eqb_spec a b : reflect (a = b) (cls_eqb a b).
Proof.
  unfold cls_eqb. destruct (Nat.eqb_spec (cls_idx a) (cls_idx b)) as [H|H]; constructor.
  - apply cls_idx_inj, H.
  - congruence.
Qed.
Global Instance cls_eq_dec : EqDecision cls.
Proof. intros a b. destruct (cls_eqb_spec a b); [left|right]; auto. Defined.

(** [cls.__bases__[0]] ([None] stands for [object]); every class of
    rsm/nodes.py has exactly one base. *)
Definition base (c : cls) : option cls :=
  match c with
  | CNode => None                                             (* :43 *)
  | CNodeWithChildren => Some CNode                           (* :853 *)
  | CText => Some CNode                                       (* :979 *)
  | CError => Some CText                                      (* :991 *)
  | CSpan => Some CNodeWithChildren                           (* :1003 *)
  | CHeading => Some CNodeWithChildren                        (* :1030 *)
  | CManuscript => Some CHeading                              (* :1038 *)
  | CAuthor => Some CNode                                     (* :1054 *)
  | CAbstract => Some CNodeWithChildren                       (* :1091 *)
  | CSection => Some CHeading                                 (* :1132 *)
  | CSubsection => Some CSection                              (* :1137 *)
  | CSubsubsection => Some CSection                           (* :1143 *)
  | CBaseParagraph => Some CHeading                           (* :1149 *)
  | CParagraph => Some CBaseParagraph                         (* :1153 *)
  | CNote => Some CBaseParagraph                              (* :1157 *)
  | CEnumerate => Some CNodeWithChildren                      (* :1161 *)
  | CItemize => Some CNodeWithChildren                        (* :1165 *)
  | CKeyword => Some CSpan                                    (* :1169 *)
  | CConstruct => Some CNodeWithChildren                      (* :1173 *)
  | CClaimBlock => Some CConstruct                            (* :1200 *)
  | CMath => Some CNodeWithChildren                           (* :1205 *)
  | CMathBlock => Some CNodeWithChildren                      (* :1209 *)
  | CSourceCode => Some CText                                 (* :1224 *)
  | CCode => Some CNodeWithChildren                           (* :1234 *)
  | CCodeBlock => Some CNodeWithChildren                      (* :1243 *)
  | CAlgorithm => Some CNodeWithChildren                      (* :1253 *)
  | CAppendix => Some CNode                                   (* :1308 *)
  | CBaseReference => Some CNode                              (* :1382 *)
  | CPendingReference => Some CBaseReference                  (* :1397 *)
  | CReference => Some CBaseReference                         (* :1402 *)
  | CPendingPrev => Some CBaseReference                       (* :1407 *)
  | CURL => Some CBaseReference                               (* :1412 *)
  | CPendingCite => Some CNode                                (* :1417 *)
  | CCite => Some CNode                                       (* :1423 *)
  | CStatement => Some CNodeWithChildren                      (* :1429 *)
  | CProof => Some CNodeWithChildren                          (* :1433 *)
  | CSubproof => Some CNodeWithChildren                       (* :1437 *)
  | CSketch => Some CNodeWithChildren                         (* :1441 *)
  | CStep => Some CParagraph                                  (* :1445 *)
  | CTheorem => Some CHeading                                 (* :1456 *)
  | CLemma | CCorollary | CExample | CExercise | CProposition | CProblem
  | CPorism | CRemark | CDefinition => Some CTheorem         (* :1478-1511 *)
  | CBibliography => Some CNodeWithChildren                   (* :1514 *)
  | CBibitem => Some CNode                                    (* :1518 *)
  | CUnknownBibitem => Some CBibitem                          (* :1559 *)
  | CFigure => Some CNodeWithChildren                         (* :1565 *)
  | CDraft => Some CNodeWithChildren
  | CTable => Some CNodeWithChildren
  | CTableHead => Some CNodeWithChildren
  | CTableBody => Some CNodeWithChildren
  | CTableRow => Some CNodeWithChildren
  | CTableDatum => Some CNodeWithChildren                    (* :1578-1599 *)
  | CCaption => Some CParagraph                               (* :1602 *)
  | CContents => Some CItemize                                (* :1606 *)
  | CItem => Some CBaseParagraph                              (* :1610 *)
  end.

(** The chain [c; base c; base (base c); ...].  The class hierarchy has depth
    at most 7, so fuel 8 covers it ([chain_complete] below). *)
Fixpoint chain_fuel (n : nat) (c : cls) : list cls :=
  match n with
  | 0 => [c]
  | S n => c :: match base c with Some b => chain_fuel n b | None => [] end
  end.
Definition chain (c : cls) : list cls := chain_fuel 8 c.
Lemma chain_complete c : chain_fuel 9 c = chain_fuel 8 c.
Proof. destruct c; reflexivity. Qed.

(** [issubclass(c, d)]; [isinstance(x, d)] is [subclass (type x) d]. *)
Definition subclass (c d : cls) : bool := existsb (cls_eqb d) (chain c).
(** [isinstance(x, (d1, ..., dk))] *)
Definition subclass_any (c : cls) (ds : list cls) : bool := existsb (subclass c) ds.
(** [type(x) in (d1, ..., dk)] *)
Definition cls_mem (c : cls) (ds : list cls) : bool := existsb (cls_eqb c) ds.

(** Attribute inheritance: the value set by the nearest class in the chain. *)
Definition inherit {A} (own : cls -> option A) (dflt : A) (c : cls) : A :=
  match list_find (fun d => is_Some (own d)) (chain c) with
  | Some (_, d) => match own d with Some a => a | None => dflt end
  | None => dflt
  end.

(** [cls.__name__] *)
Definition cls_name (c : cls) : str :=
  match c with
  | CNode => lit "Node" | CNodeWithChildren => lit "NodeWithChildren" | CText => lit "Text"
  | CError => lit "Error" | CSpan => lit "Span" | CHeading => lit "Heading"
  | CManuscript => lit "Manuscript" | CAuthor => lit "Author" | CAbstract => lit "Abstract"
  | CSection => lit "Section" | CSubsection => lit "Subsection"
  | CSubsubsection => lit "Subsubsection" | CBaseParagraph => lit "BaseParagraph"
  | CParagraph => lit "Paragraph" | CNote => lit "Note" | CEnumerate => lit "Enumerate"
  | CItemize => lit "Itemize" | CKeyword => lit "Keyword" | CConstruct => lit "Construct"
  | CClaimBlock => lit "ClaimBlock" | CMath => lit "Math" | CMathBlock => lit "MathBlock"
  | CSourceCode => lit "SourceCode" | CCode => lit "Code" | CCodeBlock => lit "CodeBlock"
  | CAlgorithm => lit "Algorithm" | CAppendix => lit "Appendix"
  | CBaseReference => lit "BaseReference" | CPendingReference => lit "PendingReference"
  | CReference => lit "Reference" | CPendingPrev => lit "PendingPrev" | CURL => lit "URL"
  | CPendingCite => lit "PendingCite" | CCite => lit "Cite" | CStatement => lit "Statement"
  | CProof => lit "Proof" | CSubproof => lit "Subproof" | CSketch => lit "Sketch"
  | CStep => lit "Step" | CTheorem => lit "Theorem" | CLemma => lit "Lemma"
  | CCorollary => lit "Corollary" | CExample => lit "Example" | CExercise => lit "Exercise"
  | CProposition => lit "Proposition" | CProblem => lit "Problem" | CPorism => lit "Porism"
  | CRemark => lit "Remark" | CDefinition => lit "Definition"
  | CBibliography => lit "Bibliography" | CBibitem => lit "Bibitem"
  | CUnknownBibitem => lit "UnknownBibitem" | CFigure => lit "Figure" | CDraft => lit "Draft"
  | CTable => lit "Table" | CTableHead => lit "TableHead" | CTableBody => lit "TableBody"
  | CTableRow => lit "TableRow" | CTableDatum => lit "TableDatum" | CCaption => lit "Caption"
  | CContents => lit "Contents" | CItem => lit "Item"
  end.

(** [classreftext]: nodes.py:75, 1140, 1146, 1212, 1244, 1447, 1520. *)
Definition own_classreftext (c : cls) : option str :=
  match c with
  | CNode => Some (lit "{nodeclass} {number}")
  | CSubsection | CSubsubsection => Some (lit "Section {number}")
  | CMathBlock => Some (lit "({number})")
  | CCodeBlock => Some (lit "Code Listing {number}")
  | CStep => Some (lit "Step ⟨{number}⟩")
  | CBibitem => Some (lit "{number}")
  | _ => None
  end.
Definition classreftext (c : cls) : str := inherit own_classreftext [] c.

(** [possible_parents]: nodes.py:77, 1448, 1452, 1603, 1611.  The empty set means "any". *)
Definition own_possible_parents (c : cls) : option (list cls) :=
  match c with
  | CNode => Some []
  | CStep => Some [CProof; CSubproof; CStep]
  | CCaption => Some [CFigure; CTable]
  | CItem => Some [CItemize; CEnumerate; CContents]
  | _ => None
  end.
Definition possible_parents (c : cls) : list cls := inherit own_possible_parents [] c.

(** [autonumber]: nodes.py:111, 1133, 1210, 1305, 1446, 1457, 1519, 1566, 1583. *)
Definition own_autonumber (c : cls) : option bool :=
  match c with
  | CNode => Some false
  | CSection | CMathBlock | CAlgorithm | CStep | CTheorem | CBibitem | CFigure | CTable => Some true
  | _ => None
  end.
Definition autonumber (c : cls) : bool := inherit own_autonumber false c.

(** [_number_within]: nodes.py:126, 1138, 1144, 1211, 1453, 1459, 1567.
    The list is the tuple of classes; [[]] is None. *)
Definition own_number_within (c : cls) : option (list cls) :=
  match c with
  | CNode => Some []
  | CSubsection => Some [CSection]
  | CSubsubsection => Some [CSubsection]
  | CMathBlock | CTheorem | CFigure => Some [CSection]
  | CStep => Some [CProof; CStep]
  | _ => None
  end.
(** nodes.py:410 property [number_within]: [_number_within or Manuscript]. *)
Definition number_within (c : cls) : list cls :=
  match inherit own_number_within [] c with [] => [CManuscript] | l => l end.

(** [_number_as]: nodes.py:129, 1479, 1483, 1487, 1491, 1495, 1499, 1503, 1507, 1511; property number_as nodes.py:414. *)
Definition own_number_as (c : cls) : option (option cls) :=
  match c with
  | CNode => Some None
  | CLemma | CCorollary | CExample | CExercise | CProposition | CProblem
  | CPorism | CRemark | CDefinition => Some (Some CTheorem)
  | _ => None
  end.
Definition number_as (c : cls) : cls :=
  match inherit own_number_as None c with Some d => d | None => c end.

(** [has_handrail]: nodes.py:163, 1434, 1442, 1449, 1461. *)
Definition own_has_handrail (c : cls) : option bool :=
  match c with
  | CNode => Some false
  | CProof | CSketch | CStep | CTheorem => Some true
  | _ => None
  end.
Definition has_handrail (c : cls) : bool := inherit own_has_handrail false c.

(** [level]: nodes.py:1134, 1139, 1145; [None]: the class has no such attribute. *)
Definition own_level (c : cls) : option (option nat) :=
  match c with
  | CSection => Some (Some 2) | CSubsection => Some (Some 3) | CSubsubsection => Some (Some 4)
  | _ => None
  end.
Definition level (c : cls) : option nat := inherit own_level None c.

(** [newmetakeys]: nodes.py:132, 1004, 1031, 1039, 1077, 1117, 1213, 1235, 1245, 1460, 1521, 1568. *)
Definition newmetakeys (c : cls) : list str :=
  inherit (fun c => match c with
    | CNode => Some [lit "label"; lit "types"; lit "nonum"; lit "reftext"]
    | CSpan => Some [lit "strong"; lit "emphas"; lit "little"; lit "insert"; lit "delete"]
    | CHeading => Some [lit "title"]
    | CManuscript => Some [lit "date"]
    | CAuthor => Some [lit "name"; lit "affiliation"; lit "email"]
    | CAbstract => Some [lit "keywords"; lit "msc"]
    | CMathBlock => Some [lit "isclaim"]
    | CCode | CCodeBlock => Some [lit "lang"]
    | CTheorem => Some [lit "title"; lit "goals"; lit "stars"; lit "clocks"]
    | CBibitem => Some [lit "kind"; lit "author"; lit "title"; lit "year"; lit "journal";
                        lit "volume"; lit "number"; lit "publisher"; lit "doi"]
    | CFigure => Some [lit "path"; lit "scale"]
    | _ => None end) [] c.
(** nodes.py:363 [metakeys]: own [newmetakeys] united with those of the bases. *)
Definition metakeys (c : cls) : list str := flat_map newmetakeys (chain c).

(** Instances of [NodeWithChildren] have a [_children] list. *)
Definition has_children (c : cls) : bool := subclass c CNodeWithChildren.
