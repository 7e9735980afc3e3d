(** What the result of transform is compared with. *)
From Verif Require Export SpecTransform Transformer.

(** Placeholders written by the parser for references. *)
Definition is_pending (h : gmap id node) (x : id) : Prop :=
  class_of h x CPendingReference \/ class_of h x CPendingCite \/ class_of h x CPendingPrev.
(** The contents markers after the first one. *)
Definition later_contents (h : gmap id node) (t : tree) : list id :=
  tail (List.filter (is_contents h) (doc_order t)).
(** The tree with the nodes not in [keep] taken out, their children moving up. *)
Fixpoint forget (keep : id -> bool) (t : tree) : list tree :=
  match t with
  | T i cs => if keep i then [T i (flat_map (forget keep) cs)] else flat_map (forget keep) cs
  end.
(** Attributes that transform may set. *)
Definition transform_attr (a : attr) : Prop :=
  a = a_label \/ a = a_backlinks \/ a = a_number \/ a = a_reftext_template \/
  a = a_types \/ a = a_handrail_depth \/ a = a_nodeid.

(** [transformed s t s' t' f]: [t'] is the document [t] after transform.  [f]
    sends each node of [t] to the node in its place: a new node for a
    placeholder, itself otherwise.  Taking out the nodes that transform added
    gives back [t], up to [f] and without the subtrees at the contents markers
    after the first one. *)
Record transformed (s : st) (t : tree) (s' : st) (t' : tree) (f : id -> id) : Prop := {
  tf_manuscript : manuscript s' t';
  tf_root : root t' = root t;
  tf_same : forall x, x ∈ doc_order t -> ~ is_pending (st_heap s) x -> f x = x;
  tf_new : forall x, x ∈ doc_order t -> is_pending (st_heap s) x -> st_heap s !! f x = None;
  tf_inj : forall x y, x ∈ doc_order t -> y ∈ doc_order t -> f x = f y -> x = y;
  tf_tree : forget (fun y => bool_decide (y ∈ map f (doc_order t))) t' =
            [tmap f (prune (later_contents (st_heap s) t) t)];
  tf_added : forall y, y ∈ doc_order t' -> y ∉ map f (doc_order t) ->
    st_heap s !! y = None /\ exists c, class_of (st_heap s') y c /\
      c ∈ [CStatement; CSubproof; CItem; CItemize; CReference];
  tf_node : forall x, x ∈ doc_order t -> ~ is_pending (st_heap s) x ->
    exists n n', st_heap s !! x = Some n /\ st_heap s' !! x = Some n' /\ n_cls n' = n_cls n /\
      forall a, ~ transform_attr a -> n_attrs n' !! a = n_attrs n !! a;
}.

(** Error nodes (parse errors) carry no label. *)
Definition errors_unlabelled (h : gmap id node) (t : tree) : Prop :=
  forall x, x ∈ doc_order t -> class_of h x CError -> label_of h x = [].
(** Every node has the attributes that the constructors set and [==] reads. *)
Definition all_built (s : st) : Prop := forall i n, st_heap s !! i = Some n -> comparable n.

(** ** References *)

(** The warning [m] is in the log of the transformer. *)
Definition logged_warning (s : st) (m : str) : Prop := In (MkLog logger_tform WARNING m None) (st_logs s).
Definition unknown_label_text (lbl : str) : str := lit "[unknown label """ ++ lbl ++ lit """]".
Definition nobody_carries (h : gmap id node) (l : list id) (lbl : str) : Prop :=
  forall x, ~ first_labelled h l lbl x.
(** What a :ref: at [j] became. *)
Definition ref_resolved (s : st) (t : tree) (s' : st) (f : id -> id) (j : id) : Prop :=
  exists lbl, value (st_heap s) j a_target = Some (VStr lbl) /\
  ((exists x, first_labelled (st_heap s) (doc_order t) lbl x /\
      class_of (st_heap s') (f j) CReference /\
      value (st_heap s') (f j) a_target = Some (VNode x) /\
      value (st_heap s') (f j) a_overwrite_reftext = value (st_heap s) j a_overwrite_reftext) \/
   (nobody_carries (st_heap s) (doc_order t) lbl /\
      class_of (st_heap s') (f j) CError /\
      value (st_heap s') (f j) a_text = Some (VStr (unknown_label_text lbl)) /\
      logged_warning s' (lit "Reference to nonexistent label """ ++ lbl ++ lit """"))).

Definition is_cite (h : gmap id node) (x : id) : bool :=
  match h !! x with Some n => cls_eqb (n_cls n) CPendingCite | None => false end.
Definition cite_name (k : nat) : str := lit "cite-" ++ str_of_nat k.
(** The target of a citation for the key [lbl]. *)
Definition cited (s : st) (t : tree) (s' : st) (lbl : str) (x : id) : Prop :=
  first_labelled (st_heap s) (doc_order t) lbl x \/
  (nobody_carries (st_heap s) (doc_order t) lbl /\ st_heap s !! x = None /\
   class_of (st_heap s') x CUnknownBibitem).
(** The citations that name [x], from the [k]-th on: [cites] are their targets. *)
Fixpoint mentions (x : id) (k : nat) (cites : list (list id)) : list str :=
  match cites with
  | [] => []
  | ts :: rest => repeat (cite_name k) (occurrences x ts) ++ mentions x (S k) rest
  end.
(** What a :cite: at [j], the [k]-th of the document, became: [ts] are its targets. *)
Definition cite_resolved (s : st) (t : tree) (s' : st) (f : id -> id) (k : nat) (j : id) (ts : list id) : Prop :=
  class_of (st_heap s') (f j) CCite /\
  value (st_heap s') (f j) a_label = Some (VStr (cite_name k)) /\
  value (st_heap s') (f j) a_targets = Some (VNodes ts) /\
  exists keys, value (st_heap s) j a_targetlabels = Some (VStrs keys) /\ Forall2 (cited s t s') keys ts.

(** What a :prev: at [j] became. *)
Definition prev_resolved (s s' : st) (f : id -> id) (j : id) : Prop :=
  exists step v k y,
    closest_ancestor (st_heap s) [CStep] j (Some step) /\
    value (st_heap s) j a_target = Some v /\ py_int (fmt_val v) = Some k /\
    kth_previous (st_heap s) step (Z.to_nat k) y /\
    class_of (st_heap s') (f j) CReference /\
    value (st_heap s') (f j) a_target = Some (VNode y) /\
    value (st_heap s') (f j) a_overwrite_reftext = value (st_heap s) j a_overwrite_reftext.

(** ** Proof steps *)

(** [x] had the children [l] in [h]: in [h'] what comes before the first
    sub-step or subproof is in a new Statement, the rest in a Subproof.  [g] is
    applied to the children that are moved. *)
Inductive split_step (h h' : gmap id node) (g : list id -> list id) (x : id) (l : list id) : Prop :=
| ss_empty : l = [] -> kids_are h' x [] -> split_step h h' g x l
| ss_statement w :
    l <> [] -> (forall c, c ∈ l -> ~ step_or_sub h c) ->
    h !! w = None -> class_of h' w CStatement -> kids_are h' x [w] -> kids_are h' w (g l) ->
    split_step h h' g x l
| ss_steps pre c post w v :
    l = pre ++ c :: post -> (forall c, c ∈ pre -> ~ step_or_sub h c) -> class_of h c CStep ->
    h !! w = None -> class_of h' w CStatement -> h !! v = None -> class_of h' v CSubproof ->
    kids_are h' x [w; v] -> kids_are h' w (g pre) -> kids_are h' v (g (c :: post)) ->
    split_step h h' g x l
| ss_subproof pre c w :
    l = pre ++ [c] -> (forall c, c ∈ pre -> ~ step_or_sub h c) -> class_of h c CSubproof ->
    h !! w = None -> class_of h' w CStatement ->
    kids_are h' x [w; c] -> kids_are h' w (g pre) ->
    split_step h h' g x l.
Definition without (xs l : list id) : list id := base.filter (fun c => c ∉ xs) l.

(** ** Text, constructs, node ids *)

Definition is_text (h : gmap id node) (x : id) : bool :=
  match h !! x with Some n => cls_eqb (n_cls n) CText | None => false end.
Definition is_construct (h : gmap id node) (x : id) : bool :=
  match h !! x with Some n => subclass (n_cls n) CConstruct | None => false end.
(** The kinds of construct that are not assumptions. *)
Definition conclusion_kind (kind : str) : Prop :=
  kind = lit "then" \/ kind = lit "suffices" \/ kind = lit "claim" \/ kind = lit "claimblock" \/
  kind = lit "qed" \/ kind = lit "prove".
(** The handrails above a node: those of all its proper ancestors. *)
Definition handrails_above (h : gmap id node) (x : id) (k : nat) : Prop :=
  exists l, ancestors h x l /\ k = list_sum (map (handrails_of h) l).

(** ** Reference text *)

(** [fills c n tmpl out]: [out] is the template with [{nodeclass}] replaced by
    [c], [{number}] by [n], doubled braces by single ones, and the rest as it is. *)
Inductive fills (c n : str) : str -> str -> Prop :=
| fl_nil : fills c n [] []
| fl_char x t o : x <> 123%N -> x <> 125%N -> fills c n t o -> fills c n (x :: t) (x :: o)
| fl_open t o : fills c n t o -> fills c n (lit "{{" ++ t) (lit "{" ++ o)
| fl_close t o : fills c n t o -> fills c n (lit "}}" ++ t) (lit "}" ++ o)
| fl_class t o : fills c n t o -> fills c n (lit "{nodeclass}" ++ t) (c ++ o)
| fl_number t o : fills c n t o -> fills c n (lit "{number}" ++ t) (n ++ o).
(** [r] is [o] without the white space around it. *)
Definition trimmed (o r : str) : Prop :=
  exists a b, o = a ++ r ++ b /\ Forall (fun x => is_space x = true) a /\ Forall (fun x => is_space x = true) b /\
    (forall x y, r = x :: y -> is_space x = false) /\ (forall x y, r = y ++ [x] -> is_space x = false).

(** ** Running transform with a new Transformer *)

(** A document that transform accepts as input: a tree of a consistent heap whose
    nodes were made by the constructors; parse errors carry no label. *)
Definition ready (s : st) (t : tree) : Prop :=
  manuscript s t /\ all_built s /\ errors_unlabelled (st_heap s) t.
Definition transforms_to (s : st) (t : tree) (s' : st) : Prop :=
  exists fuel d, transform fuel [] (root t) s = (s', Ok d).
