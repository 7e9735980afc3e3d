(** What the HTML of a document is compared with. *)
From Verif Require Export SpecHtml SpecTransform Translator.

(** The manuscript [t], whose references and citations hold nodes that exist and whose
    labels and languages are strings. *)
Record translatable (s : st) (t : tree) : Prop := {
  tb_manuscript : manuscript s t;
  tb_ref : forall x y, class_of (st_heap s) x CReference -> value (st_heap s) x a_target = Some (VNode y) -> is_Some (st_heap s !! y);
  tb_cite : forall x ys y, class_of (st_heap s) x CCite -> value (st_heap s) x a_targets = Some (VNodes ys) -> y ∈ ys -> is_Some (st_heap s !! y);
  tb_label : forall x n, st_heap s !! x = Some n -> exists l, n_attrs n !! a_label = Some (VStr l);
  tb_lang : forall x v, class_of (st_heap s) x CSourceCode -> value (st_heap s) x a_lang = Some v -> v = VNone \/ exists l, v = VStr l
}.

(** The text that a node shows: that of Text and Error nodes, and that of source code, the
    latter after highlighting when its language is known. *)
Definition text_at (h : gmap id node) (x : id) : str := match value h x a_text with Some (VStr s) => s | _ => [] end.
Definition lang_at (h : gmap id node) (x : id) : str := match value h x a_lang with Some (VStr s) => s | _ => [] end.
Definition own_text (hl : str -> str -> str) (h : gmap id node) (x : id) : list (id * str) :=
  match h !! x with
  | None => []
  | Some n =>
      match n_cls n with
      | CText | CError => [(x, text_at h x)]
      | CSourceCode => [(x, match lang_at h x with [] => text_at h x | l => hl (text_at h x) l end)]
      | _ => []
      end
  end.
(** The texts shown for nodes of [t] (titles of theorems and proofs are further texts). *)
Definition shown_of (t : tree) (h : list tok) : list (id * str) :=
  List.filter (fun p => bool_decide (p.1 ∈ doc_order t)) (shown h).

(** Classes whose nodes have no element of their own in the HTML, or one without id. *)
Definition bare : list cls :=
  [CText; CSourceCode; CReference; CURL; CAppendix; CCaption;
   CNode; CNodeWithChildren; CHeading; CBaseParagraph; CBaseReference; CPendingReference; CPendingPrev; CPendingCite].
(** Ids made from a label: of the link of a bibliography item, and of the links of a citation. *)
Definition doi_id (l : str) : str := l ++ lit "-doi".
Definition cite_id (l : str) (k : nat) : str := l ++ lit "-" ++ str_of_nat k.
(** [id_of h x v]: [v] is an id that node [x] gives to one of its elements. *)
Definition id_of (h : gmap id node) (x : id) (v : str) : Prop :=
  (exists c, class_of h x c /\ c ∉ bare /\ v = label_of h x) \/
  ((class_of h x CBibitem \/ class_of h x CUnknownBibitem) /\ v = doi_id (label_of h x)) \/
  (exists ys k, class_of h x CCite /\ value h x a_targets = Some (VNodes ys) /\ k < length ys /\ v = cite_id (label_of h x) k).

(** Labels are unique in the document, figures have none, citations have one, and no label is
    another one followed by "-doi" or by a dash and a number. *)
Record labels_apart (h : gmap id node) (t : tree) : Prop := {
  la_unique : forall x y, x ∈ doc_order t -> y ∈ doc_order t -> label_of h x <> [] -> label_of h x = label_of h y -> x = y;
  la_figure : forall x, x ∈ doc_order t -> class_of h x CFigure -> label_of h x = [];
  la_cite : forall x, x ∈ doc_order t -> class_of h x CCite -> label_of h x <> [];
  la_doi : forall x, x ∈ doc_order t -> class_of h x CBibitem \/ class_of h x CUnknownBibitem -> label_of h x <> [];
  la_apart : forall x y, x ∈ doc_order t -> y ∈ doc_order t ->
    label_of h x <> doi_id (label_of h y) /\ forall k, label_of h x <> cite_id (label_of h y) k
}.

(** [firsts l l']: [l'] has the elements of [l], each once, in the order of their first occurrences. *)
Inductive firsts : list str -> list str -> Prop :=
| firsts_nil : firsts [] []
| firsts_new l l' x : firsts l l' -> x ∉ l -> firsts (l ++ [x]) (l' ++ [x])
| firsts_again l l' x : firsts l l' -> x ∈ l -> firsts (l ++ [x]) l'.

(** Math blocks where the translators expect them: they are children of paragraphs, and the last
    child of a paragraph is a math block only if no other child is.  No node has been translated
    before. *)
Record math_placed (s : st) (t : tree) : Prop := {
  mp_fresh : forall x, x ∈ doc_order t ->
    value (st_heap s) x a_must_close_p_tag = None /\ value (st_heap s) x a_followed_by_dot = None;
  mp_parent : forall x, x ∈ doc_order t -> class_of (st_heap s) x CMathBlock ->
    exists p, parent_is (st_heap s) x p /\ class_of (st_heap s) p CParagraph;
  mp_last : forall p n l x y, p ∈ doc_order t -> st_heap s !! p = Some n -> kids n = l ++ [x] ->
    class_of (st_heap s) x CMathBlock -> y ∈ l -> ~ class_of (st_heap s) y CMathBlock
}.

(** The nearest class, going from a class to its first base class, among [ds]. *)
Inductive nearest (ds : list cls) : cls -> cls -> Prop :=
| near_here c : In c ds -> nearest ds c c
| near_up c b d : ~ In c ds -> base c = Some b -> nearest ds b d -> nearest ds c d.

(** The text of the HTML that stands for [s] when it is shown as text (HTML standard, "Escaping
    a string"). *)
Fixpoint html_escape (s : str) : str :=
  match s with
  | [] => []
  | c :: r => (if N.eqb c 38 then lit "&amp;" else if N.eqb c 60 then lit "&lt;"
               else if N.eqb c 62 then lit "&gt;" else [c]) ++ html_escape r
  end.
Definition occurs (x s : str) : Prop := exists a b, s = a ++ x ++ b.

(** Nodes keep their class, parent, children and all attributes but those of [A]. *)
Definition unchanged (A : list attr) (s s' : st) : Prop :=
  forall i n, st_heap s !! i = Some n -> exists n', st_heap s' !! i = Some n' /\ n_cls n' = n_cls n /\ n_parent n' = n_parent n /\
      n_children n' = n_children n /\ forall a, a ∉ A -> n_attrs n' !! a = n_attrs n !! a.
