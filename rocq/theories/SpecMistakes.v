(** What the properties say about documents with mistakes: the exceptions of transform. *)
From Verif Require Export SpecTotal.
Local Open Scope string_scope.
Local Open Scope list_scope.

(** [transform] of a new Transformer raises [e], whatever bound on its loops the model uses, if
    it is large enough. *)
Definition transform_raises (s : st) (t : tree) (e : exn) : Prop :=
  exists fuel, forall fuel', fuel <= fuel' -> exists s', transform fuel' [] (root t) s = (s', Err e).

(** The mistake that the reference [x] of the document [t] makes, and its exception. *)
Inductive mistake (h : gmap id node) (t : tree) (x : id) : exn -> Prop :=
(* a :prev: that is not in a step *)
| mistake_outside : class_of h x CPendingPrev -> closest_ancestor h [CStep] x None ->
    mistake h t x (ETransformer (lit "Found :prev: tag outside proof step"))
(* a :prev: whose argument is not a number *)
| mistake_number step v : class_of h x CPendingPrev -> closest_ancestor h [CStep] x (Some step) ->
    value h x a_target = Some v -> py_int (fmt_val v) = None -> mistake h t x EValue
(* a :prev: with fewer steps before it *)
| mistake_far step v k : class_of h x CPendingPrev -> closest_ancestor h [CStep] x (Some step) ->
    value h x a_target = Some v -> py_int (fmt_val v) = Some k ->
    (forall y, ~ kth_previous h step (Z.to_nat k) y) ->
    mistake h t x (ETransformer (lit "Did not find previous " ++ fmt_val v ++ lit " step(s)"))
(* a :cite: of something that has no list of back links: only bibliography items have one *)
| mistake_cite keys k y : class_of h x CPendingCite -> value h x a_targetlabels = Some (VStrs keys) -> k ∈ keys ->
    first_labelled h (doc_order t) k y -> value h y a_backlinks = None -> mistake h t x EAttribute.

(** A document as the constructors make it; its :ref:, :prev: and :cite: have arguments, and only
    its bibliography items have back links. *)
Record plausible (s : st) (t : tree) : Prop := {
  pl_ready : SpecResult.ready s t;
  pl_typed : typed s;
  pl_complete : complete s;
  pl_root : class_of (st_heap s) (root t) CManuscript;
  pl_refs : forall x, x ∈ doc_order t -> class_of (st_heap s) x CPendingReference ->
    exists l, value (st_heap s) x a_target = Some (VStr l);
  pl_backlinks : forall x v, x ∈ doc_order t -> value (st_heap s) x a_backlinks = Some v -> class_of (st_heap s) x CBibitem
}.
(** [x] is the first reference of the document with a mistake. *)
Definition first_mistake (s : st) (t : tree) (x : id) (e : exn) : Prop :=
  mistake (st_heap s) t x e /\
  exists p q, doc_order t = p ++ x :: q /\ forall y e', y ∈ p -> ~ mistake (st_heap s) t y e'.
(** A document without the mistakes that later passes of transform do not accept (SpecTotal.v). *)
Record fine_otherwise (s : st) (t : tree) : Prop := {
  fo_plausible : plausible s t;
  fo_placed : parents_permitted (st_heap s);
  fo_subproofs : forall x pre c post, x ∈ doc_order t -> class_of (st_heap s) x CStep ->
    kids_are (st_heap s) x (pre ++ c :: post) -> (forall y, y ∈ pre -> ~ step_or_sub (st_heap s) y) ->
    class_of (st_heap s) c CSubproof -> post = [];
  fo_letters : forall p x q sc k, doc_order t = p ++ x :: q ->
    is_numbered (st_heap s) x = true -> scope_of (st_heap s) x = [CManuscript] ->
    (exists a, a ∈ p /\ is_appendix (st_heap s) a = true) ->
    current_scope (st_heap s) [CManuscript] p sc ->
    exactly (consumes (st_heap s) [CManuscript] (sequence_of (st_heap s) x)) k sc -> k < 26;
  fo_nested : (exists x, x ∈ doc_order t /\ is_contents (st_heap s) x = true) -> well_nested (st_heap s) t;
  fo_kinds : forall x, x ∈ doc_order t -> is_construct (st_heap s) x = true ->
    exists kind, value (st_heap s) x a_kind = Some (VStr kind) /\ kind <> []
}.

(** Mistakes that later passes do not accept.  A step whose first step or subproof is a subproof with something
    after it. *)
Definition misplaced_subproof (h : gmap id node) (x : id) : Prop :=
  class_of h x CStep /\ exists pre c post, kids_are h x (pre ++ c :: post) /\ (forall y, y ∈ pre -> ~ step_or_sub h y) /\
    class_of h c CSubproof /\ post <> [].
(** An appendix after the 26th. *)
Definition no_letter (h : gmap id node) (t : tree) (x : id) : Prop :=
  exists p q sc k, doc_order t = p ++ x :: q /\ is_numbered h x = true /\ scope_of h x = [CManuscript] /\
    (exists a, a ∈ p /\ is_appendix h a = true) /\ current_scope h [CManuscript] p sc /\
    exactly (consumes h [CManuscript] (sequence_of h x)) k sc /\ 26 <= k.
(** A construct without a kind. *)
Definition no_kind (h : gmap id node) (x : id) : Prop :=
  is_construct h x = true /\ forall kind, value h x a_kind = Some (VStr kind) -> kind = [].
