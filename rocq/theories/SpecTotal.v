(** Documents that transform accepts. *)
From Verif Require Export SpecTyped.
Local Open Scope list_scope.

(** A document is transformable when it has none of the mistakes for which transform raises an
    exception. *)
Record transformable (s : st) (t : tree) : Prop := {
  (* a tree of nodes made by the constructors, with attributes of the right types *)
  ta_ready : SpecResult.ready s t;
  ta_typed : typed s;
  ta_complete : complete s;
  ta_root : class_of (st_heap s) (root t) CManuscript;
  ta_placed : parents_permitted (st_heap s);
  (* a :ref: names its target *)
  ta_refs : forall x, x ∈ doc_order t -> class_of (st_heap s) x CPendingReference ->
    exists l, value (st_heap s) x a_target = Some (VStr l);
  (* a key of a :cite: that labels something labels a bibliography item *)
  ta_cites : forall x keys k y, x ∈ doc_order t -> class_of (st_heap s) x CPendingCite ->
    value (st_heap s) x a_targetlabels = Some (VStrs keys) -> k ∈ keys ->
    first_labelled (st_heap s) (doc_order t) k y -> class_of (st_heap s) y CBibitem;
  (* a :prev: is in a step with enough steps before it *)
  ta_prevs : forall x, x ∈ doc_order t -> class_of (st_heap s) x CPendingPrev ->
    exists step v k y, closest_ancestor (st_heap s) [CStep] x (Some step) /\
      value (st_heap s) x a_target = Some v /\ py_int (fmt_val v) = Some k /\
      kth_previous (st_heap s) step (Z.to_nat k) y;
  (* if the first of the steps and subproofs in a step is a subproof, it comes last *)
  ta_subproofs : forall x pre c post, x ∈ doc_order t -> class_of (st_heap s) x CStep ->
    kids_are (st_heap s) x (pre ++ c :: post) -> (forall y, y ∈ pre -> ~ step_or_sub (st_heap s) y) ->
    class_of (st_heap s) c CSubproof -> post = [];
  (* not more than 26 appendices *)
  ta_letters : forall p x q sc k, doc_order t = p ++ x :: q ->
    is_numbered (st_heap s) x = true -> scope_of (st_heap s) x = [CManuscript] ->
    (exists a, a ∈ p /\ is_appendix (st_heap s) a = true) ->
    current_scope (st_heap s) [CManuscript] p sc ->
    exactly (consumes (st_heap s) [CManuscript] (sequence_of (st_heap s) x)) k sc -> k < 26;
  (* sections are nested as their levels say, if there is a table of contents *)
  ta_nested : (exists x, x ∈ doc_order t /\ is_contents (st_heap s) x = true) -> well_nested (st_heap s) t;
  (* constructs have a kind *)
  ta_kinds : forall x, x ∈ doc_order t -> is_construct (st_heap s) x = true ->
    exists kind, value (st_heap s) x a_kind = Some (VStr kind) /\ kind <> [];
}.
