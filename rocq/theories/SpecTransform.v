(** Specifications used by the properties of the transform step. *)
From Verif Require Export Spec SpecNodes.

(** The value of an attribute, and the label as a string (empty: no label). *)
Definition value (h : gmap id node) (i : id) (a : attr) : option val :=
  match h !! i with Some n => n_attrs n !! a | None => None end.
Definition label_of (h : gmap id node) (i : id) : str :=
  match value h i a_label with Some (VStr l) => l | _ => [] end.

(** A manuscript ready to be transformed: the tree [t] of a consistent heap. *)
Record manuscript (s : st) (t : tree) : Prop := {
  ms_fresh : fresh_ok s;
  ms_consistent : consistent (st_heap s);
  ms_document : document (st_heap s) t
}.

(** [x] comes before [y] in [l]. *)
Definition precedes (l : list id) (x y : id) : Prop :=
  exists l1 l2 l3, l = l1 ++ x :: l2 ++ y :: l3.

(** The first node of [l] that carries the label [lbl]. *)
Definition first_labelled (h : gmap id node) (l : list id) (lbl : str) (x : id) : Prop :=
  lbl <> [] /\ label_of h x = lbl /\
  exists l1 l2, l = l1 ++ x :: l2 /\ forall y, y ∈ l1 -> label_of h y <> lbl.
Definition unlabelled (h : gmap id node) (l : list id) (lbl : str) : Prop :=
  forall y, y ∈ l -> label_of h y <> lbl.

(** Renaming the nodes of a tree keeps its shape: [tmap f t] has the node
    [f x] wherever [t] has the node [x]. *)
Fixpoint tmap (f : id -> id) (t : tree) : tree :=
  match t with T i cs => T (f i) (map (tmap f) cs) end.

(** The backlinks of a bibliography item. *)
Definition backlinks_of (h : gmap id node) (i : id) : list str :=
  match value h i a_backlinks with Some (VStrs l) => l | _ => [] end.
(** How often [x] occurs in [l]. *)
Definition occurrences (x : id) (l : list id) : nat := count_occ Nat.eq_dec l x.

(** The steps among the siblings before [x], nearest first. *)
Definition is_step (h : gmap id node) (x : id) : bool :=
  match h !! x with Some n => cls_eqb (n_cls n) CStep | None => false end.
Definition steps_before (h : gmap id node) (x : id) (l : list id) : Prop :=
  (exists b a, siblings h x b a /\ l = rev (List.filter (is_step h) b)) \/
  ((forall q, ~ parent_is h x q) /\ l = []).
(** [y] precedes [x] by exactly [k] steps among its step siblings. *)
Definition kth_previous (h : gmap id node) (x : id) (k : nat) (y : id) : Prop :=
  exists l, steps_before h x l /\ nth_error (x :: l) k = Some y.

(** ** Proof steps *)

Definition class_of (h : gmap id node) (x : id) (c : cls) : Prop := exists n, h !! x = Some n /\ n_cls n = c.
Definition step_or_sub (h : gmap id node) (x : id) : Prop := class_of h x CStep \/ class_of h x CSubproof.

(** [restructured h h' t t']: [t'] is [t] with the children of every step
    gathered into a new Statement, which takes what comes before the first
    sub-step or subproof, and a Subproof, which takes the rest.  [h] is the heap
    before and [h'] the heap after. *)
Inductive restructured (h h' : gmap id node) : tree -> tree -> Prop :=
| rs_other i ts ts' :
    ~ class_of h i CStep -> Forall2 (restructured h h') ts ts' -> restructured h h' (T i ts) (T i ts')
| rs_leaf i :
    class_of h i CStep -> restructured h h' (T i []) (T i [])
| rs_statement i ts w ts' :
    class_of h i CStep -> ts <> [] -> (forall t, t ∈ ts -> ~ step_or_sub h (root t)) ->
    h !! w = None -> class_of h' w CStatement ->
    Forall2 (restructured h h') ts ts' ->
    restructured h h' (T i ts) (T i [T w ts'])
| rs_steps i pre c post w v pre' post' :
    class_of h i CStep -> (forall t, t ∈ pre -> ~ step_or_sub h (root t)) -> class_of h (root c) CStep ->
    h !! w = None -> class_of h' w CStatement -> h !! v = None -> class_of h' v CSubproof ->
    Forall2 (restructured h h') pre pre' -> Forall2 (restructured h h') (c :: post) post' ->
    restructured h h' (T i (pre ++ c :: post)) (T i [T w pre'; T v post'])
| rs_subproof i pre c w pre' c' :
    class_of h i CStep -> (forall t, t ∈ pre -> ~ step_or_sub h (root t)) -> class_of h (root c) CSubproof ->
    h !! w = None -> class_of h' w CStatement ->
    Forall2 (restructured h h') pre pre' -> restructured h h' c c' ->
    restructured h h' (T i (pre ++ [c])) (T i [T w pre'; c']).

(** ** Numbers *)

(** The marker that starts the appendix. *)
Definition is_appendix (h : gmap id node) (x : id) : bool :=
  match h !! x with Some n => cls_eqb (n_cls n) CAppendix | None => false end.
(** [x] takes part in automatic numbering: its class asks for it (steps are
    numbered by their proof instead) and it is not marked [nonum]. *)
Definition is_numbered (h : gmap id node) (x : id) : bool :=
  match h !! x with
  | Some n => autonumber (n_cls n) && negb (cls_eqb (n_cls n) CStep) &&
              match n_attrs n !! a_nonum with Some v => negb (truthy v) | None => false end
  | None => false
  end.
(** The scope of a number and the sequence it belongs to, e.g. Section and
    Theorem for a lemma. *)
Definition scope_of (h : gmap id node) (x : id) : list cls :=
  match h !! x with Some n => number_within (n_cls n) | None => [] end.
Definition sequence_of (h : gmap id node) (x : id) : cls :=
  match h !! x with Some n => number_as (n_cls n) | None => CNode end.
(** [y] starts a new scope [w]. *)
Definition opens (h : gmap id node) (w : list cls) (y : id) : Prop :=
  (w = [CManuscript] /\ is_appendix h y = true) \/
  (is_numbered h y = true /\ exists n, h !! y = Some n /\ w = [n_cls n]).
(** [y] consumes a number of the sequence [a] of the scope [w]. *)
Definition consumes (h : gmap id node) (w : list cls) (a : cls) (y : id) : Prop :=
  is_numbered h y = true /\ scope_of h y = w /\ sequence_of h y = a.
(** [sc] is the part of [l] since the scope [w] was last opened. *)
Definition current_scope (h : gmap id node) (w : list cls) (l sc : list id) : Prop :=
  (forall y, y ∈ sc -> ~ opens h w y) /\
  (l = sc \/ exists l0 y, l = l0 ++ y :: sc /\ opens h w y).
(** [l] contains exactly [k] elements satisfying [P]. *)
Inductive exactly (P : id -> Prop) : nat -> list id -> Prop :=
| ex_nil : exactly P 0 []
| ex_yes k x l : P x -> exactly P k l -> exactly P (S k) (x :: l)
| ex_no k x l : ~ P x -> exactly P k l -> exactly P k (x :: l).
(** The letter with index [k]: A, B, ..., Z. *)
Definition letter (k : nat) : option val :=
  if Nat.ltb k 26 then Some (VStr [N.add 65 (N.of_nat k)]) else None.
(** The proof environments that number their steps. *)
Definition holds_steps (h : gmap id node) (p : id) : Prop := class_of h p CProof \/ class_of h p CSubproof.

(** ** Handrails *)

(** [l] lists the proper ancestors of [x], the parent first. *)
Inductive ancestors (h : gmap id node) : id -> list id -> Prop :=
| ancs_root x n : h !! x = Some n -> n_parent n = None -> ancestors h x []
| ancs_up x n p l : h !! x = Some n -> n_parent n = Some p -> ancestors h p l -> ancestors h x (p :: l).
(** How many classes with a handrail the class of [x] is or derives from. *)
Definition handrails_of (h : gmap id node) (x : id) : nat :=
  match h !! x with
  | Some n => length (List.filter (fun d => has_handrail d && subclass (n_cls n) d) all_cls)
  | None => 0
  end.

(** ** Full numbers *)

(** The node in whose scope [x] is numbered: the closest ancestor of the class
    [x] is numbered within, else the closest enclosing manuscript. *)
Definition scope_node (h : gmap id node) (x : id) (r : option id) : Prop :=
  (exists a, r = Some a /\ closest_ancestor h (scope_of h x) x (Some a)) \/
  (closest_ancestor h (scope_of h x) x None /\ closest_ancestor h [CManuscript] x r).
Definition unnumbered (h : gmap id node) (x : id) : Prop :=
  exists v, value h x a_nonum = Some v /\ truthy v = true.
(** The text of a number given by the automatic numbering. *)
Inductive number_text : val -> str -> Prop :=
| nt_int z : z <> 0%Z -> number_text (VInt z) (str_of_Z z)
| nt_str c s : number_text (VStr (c :: s)) (c :: s).
(** [numbers_to h x l]: the numbers met going from the manuscript down to [x]. *)
Inductive numbers_to (h : gmap id node) : id -> list str -> Prop :=
| nums_manuscript x : class_of h x CManuscript -> numbers_to h x []
| nums_outermost x v w t :
    ~ class_of h x CManuscript -> value h x a_nonum = Some w -> truthy w = false ->
    value h x a_number = Some v -> number_text v t ->
    (scope_node h x None \/ exists a, scope_node h x (Some a) /\ ~ class_of h a CManuscript /\ unnumbered h a) ->
    numbers_to h x [t]
| nums_within x v w t a l :
    ~ class_of h x CManuscript -> value h x a_nonum = Some w -> truthy w = false ->
    value h x a_number = Some v -> number_text v t ->
    scope_node h x (Some a) -> numbers_to h a l -> numbers_to h x (l ++ [t]).

(** ** Table of contents *)

Definition is_contents (h : gmap id node) (x : id) : bool :=
  match h !! x with Some n => subclass (n_cls n) CContents | None => false end.
(** The tree without the subtrees rooted at the nodes [xs]. *)
Fixpoint prune (xs : list id) (t : tree) : tree :=
  match t with
  | T i cs => T i (flat_map (fun c => if decide (root c ∈ xs) then [] else [prune xs c]) cs)
  end.
Definition is_section (h : gmap id node) (x : id) : bool :=
  match h !! x with Some n => subclass (n_cls n) CSection | None => false end.
(** The sections of a document as an outline: each section with the sections
    nested in it, in document order. *)
Inductive outline := O (x : id) (subs : list outline).
Fixpoint outlines (h : gmap id node) (t : tree) : list outline :=
  match t with
  | T i cs => if is_section h i then [O i (flat_map (outlines h) cs)] else flat_map (outlines h) cs
  end.
Fixpoint outline_sections (o : outline) : list id :=
  match o with O x os => x :: flat_map outline_sections os end.
(** Subsections are directly in sections, subsubsections directly in subsections,
    and sections are not below other sections. *)
Definition well_nested (h : gmap id node) (t : tree) : Prop :=
  forall x, x ∈ doc_order t ->
    (class_of h x CSection -> forall a, ancestor h x a -> is_section h a = false) /\
    (class_of h x CSubsection -> exists p, parent_is h x p /\ class_of h p CSection) /\
    (class_of h x CSubsubsection -> exists p, parent_is h x p /\ class_of h p CSubsection).
Definition kids_are (h : gmap id node) (x : id) (l : list id) : Prop := exists n, h !! x = Some n /\ kids n = l.
(** The text shown for the section [x]. *)
Definition shown_as (h : gmap id node) (x : id) (text : str) : Prop :=
  forall title, value h x a_title = Some (VStr title) ->
    (unnumbered h x -> text = title) /\
    (forall l, numbers_to h x l -> text = join (lit ".") l ++ lit ". " ++ title).
(** [r] is a link to the section [x]. *)
Definition section_link (h : gmap id node) (r x : id) : Prop :=
  class_of h r CReference /\ value h r a_target = Some (VNode x) /\
  exists text, value h r a_overwrite_reftext = Some (VStr text) /\ shown_as h x text.
(** [toc_entry h o i]: [i] is an item that links to the section of [o], followed
    by a list of entries for the sections nested in it, if any. *)
Inductive toc_entry (h : gmap id node) : outline -> id -> Prop :=
| te_leaf x i r :
    class_of h i CItem -> kids_are h i [r] -> section_link h r x -> toc_entry h (O x []) i
| te_nested x os i r it items :
    class_of h i CItem -> kids_are h i [r; it] -> section_link h r x ->
    os <> [] -> class_of h it CItemize -> kids_are h it items -> Forall2 (toc_entry h) os items ->
    toc_entry h (O x os) i.
