(** What the linter should report. *)
From Verif Require Export SpecTransform Linter.
Local Open Scope string_scope.
Local Open Scope list_scope.

(** A node of the class [c], or of one derived from it. *)
Definition isb (h : gmap id node) (c : cls) (x : id) : bool :=
  match h !! x with Some n => subclass (n_cls n) c | None => false end.
(** The attribute is set to something that is not empty. *)
Definition setb (h : gmap id node) (a : attr) (x : id) : bool :=
  match value h x a with Some v => truthy v | None => false end.
Definition parent_class (h : gmap id node) (x : id) : option cls :=
  match h !! x with
  | Some n => match n_parent n with Some p => match h !! p with Some m => Some (n_cls m) | None => None end | None => None end
  | None => None
  end.
Definition in_paragraph (h : gmap id node) (x : id) : bool :=
  match parent_class h x with Some c => subclass c CParagraph | None => false end.

(** The offending nodes and what is said about them: the title, then the sections, then the
    blocks of math, in document order. *)
Definition no_title (h : gmap id node) (t : tree) : list (id * str) :=
  if setb h a_title (root t) then [] else [(root t, lit "Manuscript with no title")].
Definition no_label (h : gmap id node) (t : tree) : list (id * str) :=
  map (fun x => (x, lit "Section with no label"))
    (List.filter (fun x => isb h CSection x && negb (setb h a_label x)) (doc_order t)).
Definition lone_block (h : gmap id node) (t : tree) : list (id * str) :=
  map (fun x => (x, lit "MathBlock must be direct child of Paragraph, not " ++ fmt_parent (parent_class h x)))
    (List.filter (fun x => isb h CMathBlock x && negb (in_paragraph h x)) (doc_order t)).
Definition offences (h : gmap id node) (t : tree) : list (id * str) := no_title h t ++ no_label h t ++ lone_block h t.
(** The record about an offence: rows and columns count from one. *)
Definition lint_record (h : gmap id node) (o : id * str) : logrec :=
  MkLog (lit "RSM") LINT (snd o)
    (match value h (fst o) a_start_point with Some (VPoint r c) => Some (r + 1, c + 1)%Z | _ => None end).
(** Nodes have the attributes that constructors set: titles, labels and positions. *)
Definition lintable (h : gmap id node) (t : tree) : Prop :=
  is_Some (value h (root t) a_title) /\
  forall x, x ∈ doc_order t -> is_Some (value h x a_label) /\ exists r c, value h x a_start_point = Some (VPoint r c).
