(** Concrete syntax trees for the examples beside the theorems on the parser. *)
From Verif Require Export ParseReady.
Local Open Scope string_scope.
Local Open Scope list_scope.

(** ** Sources *)

(** A node of type [ty] in row [r], starting in column [k], with the text [tx]. *)
Definition nd (ty : string) (r k : Z) (tx : string) (cs : list cst) : cst := Cst (lit ty) None true (lit tx) (r, k) (r, k + 1)%Z cs.
Definition fd (f : string) (c : cst) : cst := match c with Cst t _ n x sp ep cs => Cst t (Some (lit f)) n x sp ep cs end.
Definition leaf (ty : string) (r k : Z) (tx : string) : cst := nd ty r k tx [].
Definition pair_ (r : Z) (key : string) (v : string) : cst :=
  nd "metapair" r 0 "" [nd "metakey_text" r 1 "" [leaf key r 2 key]; leaf "metaval" r 5 v].

(** A title, a paragraph with a comment, two spans and a reference, a section with a theorem, a
    formula marked as a claim, a bibliography and its entries. *)
Definition demo : cst :=
  nd "source_file" 0 0 "the source"
    [fd "title" (leaf "text" 0 2 "A \* title");
     nd "paragraph" 2 0 ""
       [leaf "text" 2 0 "One  "; leaf "comment" 2 9 "hidden"; leaf "text" 3 0 "   two\: ";
        nd "inline" 3 9 "" [fd "tag" (leaf "span" 3 10 "span"); leaf "text" 3 14 "three"];
        nd "inline" 3 20 "" [fd "tag" (leaf "spanemphas" 3 21 "*"); leaf "text" 3 24 " four "];
        nd "specialinline" 3 30 "" [nd "ref" 3 31 "" []; leaf "text" 3 34 "thm"]];
     nd "section" 5 0 ""
       [fd "title" (leaf "text" 5 2 "Next");
        fd "meta" (nd "blockmeta" 6 0 "" [pair_ 6 "label" " sec "]);
        nd "block" 7 0 "" [fd "tag" (leaf "theorem" 7 1 "theorem"); fd "meta" (nd "blockmeta" 8 0 "" [pair_ 8 "label" "thm"]);
                           nd "paragraph" 9 0 "" [leaf "text" 9 0 "Small."]];
        nd "mathblock" 11 0 "" [fd "meta" (nd "blockmeta" 11 2 "" [nd "metapair" 11 2 "" [nd "metakey_bool" 11 2 "" [leaf "isclaim" 11 2 "isclaim"]]]);
                                leaf "asis_text" 12 0 "x \: y"]];
     nd "specialblock" 14 0 "" [leaf "bibliography" 14 1 "references"];
     nd "bibtex" 15 0 "" [nd "bibitem" 15 0 "" [fd "kind" (leaf "word" 15 1 "book"); fd "label" (leaf "word" 15 6 "key");
                            nd "bibitempair" 16 0 "" [leaf "word" 16 0 "title"; leaf "word" 16 5 "On sums"]]]].
(** A syntax error in the middle of a paragraph. *)
Definition demo_error : cst :=
  nd "source_file" 0 0 "the source"
    [nd "paragraph" 1 0 "" [leaf "text" 1 0 "before"; nd "ERROR" 1 8 "" []; leaf "text" 1 12 "after"]].
(** A paragraph which starts with a syntax error. *)
Definition demo_error_first : cst :=
  nd "source_file" 0 0 "the source" [nd "paragraph" 1 0 "" [nd "ERROR" 1 0 "" []; leaf "text" 1 12 "after"]].
(** A syntax error among the meta data of a section. *)
Definition demo_error_meta : cst :=
  nd "source_file" 0 0 "the source"
    [nd "section" 1 0 "" [fd "title" (leaf "text" 1 2 "Next"); fd "meta" (nd "blockmeta" 2 0 "" [nd "ERROR" 2 0 "" []; pair_ 2 "label" "sec"])]].
(** An item outside of a list. *)
Definition demo_stray_item : cst :=
  nd "source_file" 0 0 "the source" [nd "paragraph" 1 0 "" [nd "item" 1 0 "" [leaf "text" 1 2 "stray"]]].
(** A listing. *)
Definition demo_code : cst :=
  nd "source_file" 0 0 "the source" [nd "block" 1 0 "" [fd "tag" (leaf "codeblock" 1 1 "codeblock"); leaf "asis_text" 2 0 "    x = 1"]].

(** ** What a manuscript shows *)

Inductive shape := Sh (c : cls) (text : str) (label : str) (l : list shape).
Definition shown (a : attr) (m : gmap attr val) : str := match m !! a with Some (VStr s) => s | _ => [] end.
Fixpoint shape_of (t : atree) : shape :=
  match t with A c m ts => Sh c (shown (if subclass c CSection || subclass c CManuscript || subclass c CBibitem then a_title else a_text) m) (shown a_label m) (map shape_of ts) end.
(** The same, read from the heap. *)
Fixpoint shape_in (fuel : nat) (h : gmap id node) (i : id) : shape :=
  match fuel, h !! i with
  | S fuel, Some n => Sh (n_cls n) (shown (if subclass (n_cls n) CSection || subclass (n_cls n) CManuscript || subclass (n_cls n) CBibitem then a_title else a_text) (n_attrs n))
                         (shown a_label (n_attrs n)) (map (shape_in fuel h) (kids n))
  | _, _ => Sh CNode [] [] []
  end.
Fixpoint shape_eqb (a b : shape) : bool :=
  match a, b with
  | Sh c x l us, Sh d y k vs =>
      cls_eqb c d && str_eqb x y && str_eqb l k &&
      (fix go us vs := match us, vs with [], [] => true | u :: us, v :: vs => shape_eqb u v && go us vs | _, _ => false end) us vs
  end.
Definition sh (c : cls) (l : list shape) : shape := Sh c [] [] l.
Definition tx (s : string) : shape := Sh CText (lit s) [] [].
Definition demo_shape : shape :=
  Sh CManuscript (lit "A * title") []
    [sh CParagraph [tx "One two: "; sh CSpan [tx "three"]; tx " "; sh CSpan [tx "four"]; sh CPendingReference []];
     Sh CSection (lit "Next") (lit "sec")
       [Sh CTheorem [] (lit "thm") [sh CParagraph [tx "Small."]];
        sh CClaimBlock [sh CKeyword [tx "⊢"]; sh CMathBlock [tx "x \: y"]]];
     sh CBibliography [Sh CBibitem (lit "On sums") (lit "key") []]].
Definition parses_to (c : cst) (want : shape) : bool :=
  match parse 200 c empty_st with
  | (s, Ok r) => shape_eqb (shape_in 20 (st_heap s) r) want
  | _ => false
  end.
Definition warnings_of (c : cst) : nat := match parse 200 c empty_st with (s, _) => length (st_logs s) - 2 end.
Example demo_parses : parses_to demo demo_shape = true. Proof. vm_compute. reflexivity. Qed.
Example demo_source : source demo /\ forallb (fun d => negb (is_type "ERROR" d)) (c_preorder demo) = true.
Proof. vm_compute. repeat split. Qed.
