(** Property C21: the exceptions of transform (rsm/transformer.py). *)
From Verif Require Import MistakesDemo LateDemo.
Local Open Scope string_scope.
Local Open Scope list_scope.

(** ** C21 *)

(** False as stated, see C21_only_transformer_errors_refuted.  Proved: the first reference with a
    mistake decides the exception, whatever else is in the document. *)
Theorem C21_first_mistake_partial : forall s t x e, plausible s t -> first_mistake s t x e -> transform_raises s t e.
Proof. exact mistake_raises. Qed.
Print Assumptions C21_first_mistake_partial.

(** A document without the mistakes that later passes do not accept is transformed, or there is
    such a reference; only a :prev: without a number and a :cite: of something that is not a
    bibliography item are not reported with RSMTransformerError. *)
Theorem C21_outcomes_partial : forall s t, fine_otherwise s t ->
  (exists s', transforms_to s t s') \/ exists x e, first_mistake s t x e /\ transform_raises s t e.
Proof. exact outcomes. Qed.
Print Assumptions C21_outcomes_partial.
Theorem C21_reported_partial : forall s t, fine_otherwise s t ->
  (forall x step v, x ∈ doc_order t -> class_of (st_heap s) x CPendingPrev -> closest_ancestor (st_heap s) [CStep] x (Some step) ->
     value (st_heap s) x a_target = Some v -> py_int (fmt_val v) <> None) ->
  (forall x keys k y, x ∈ doc_order t -> class_of (st_heap s) x CPendingCite -> value (st_heap s) x a_targetlabels = Some (VStrs keys) ->
     k ∈ keys -> first_labelled (st_heap s) (doc_order t) k y -> class_of (st_heap s) y CBibitem) ->
  (exists s', transforms_to s t s') \/ exists m, transform_raises s t (ETransformer m).
Proof. exact only_reported. Qed.
Print Assumptions C21_reported_partial.
(** Whatever the document, nothing but the exceptions listed in [transform_errs] leaves transform; the exceptions
    of nodes are among them. *)
Theorem C21_exceptions_partial : forall fuel s t s' e, manuscript s t -> transform fuel [] (root t) s = (s', Err e) -> transform_errs e.
Proof. exact errors_bounded. Qed.
Print Assumptions C21_exceptions_partial.
Theorem C21_node_error_refuted : exists m, fails_with toc_in_section (ENode m).
Proof. exact toc_in_section_fails. Qed.
Print Assumptions C21_node_error_refuted.
Example C21_nonvacuous :
  flawed prev_far (ETransformer (lit "Did not find previous 2 step(s)")) /\
  flawed prev_outside_doc (ETransformer (lit "Found :prev: tag outside proof step")) /\
  flawed cites_section EAttribute /\ flawed prev_letter EValue.
Proof. exact (conj prev_far_flawed (conj prev_outside_flawed (conj cites_section_flawed prev_letter_flawed))). Qed.
(** The mistakes of later passes, in the order of the passes: a subproof that is not the last child of its step gives
    AssertionError, an appendix after the 26th StopIteration.  Only sections that are not nested as a table of
    contents needs them are not covered. *)
Theorem C21_subproof_partial : forall s t x, plausible s t -> parents_permitted (st_heap s) ->
  (forall y e, y ∈ doc_order t -> ~ mistake (st_heap s) t y e) ->
  x ∈ doc_order t -> misplaced_subproof (st_heap s) x -> transform_raises s t EAssert.
Proof. exact late_subproof. Qed.
Print Assumptions C21_subproof_partial.
Theorem C21_letter_partial : forall s t x, plausible s t -> parents_permitted (st_heap s) ->
  (forall y e, y ∈ doc_order t -> ~ mistake (st_heap s) t y e) ->
  (forall y, y ∈ doc_order t -> ~ misplaced_subproof (st_heap s) y) ->
  no_letter (st_heap s) t x -> transform_raises s t EStopIteration.
Proof. exact late_letter. Qed.
Print Assumptions C21_letter_partial.
(** All that may happen. *)
Theorem C21_all_outcomes_partial : forall s t, plausible s t -> parents_permitted (st_heap s) ->
  ((exists x, x ∈ doc_order t /\ is_contents (st_heap s) x = true) -> well_nested (st_heap s) t) ->
  (exists s', transforms_to s t s') \/ (exists x e, first_mistake s t x e /\ transform_raises s t e) \/
  ((exists x, x ∈ doc_order t /\ misplaced_subproof (st_heap s) x) /\ transform_raises s t EAssert) \/
  ((exists x, x ∈ doc_order t /\ no_letter (st_heap s) t x) /\ transform_raises s t EStopIteration) \/
  ((exists x, x ∈ doc_order t /\ no_kind (st_heap s) x) /\ transform_raises s t EAssert).
Proof. exact all_outcomes. Qed.
Print Assumptions C21_all_outcomes_partial.
(** A construct without a kind, unless it is below a table of contents that is dropped. *)
Theorem C21_kind_partial : forall s t x, plausible s t -> parents_permitted (st_heap s) ->
  ((exists x, x ∈ doc_order t /\ is_contents (st_heap s) x = true) -> well_nested (st_heap s) t) ->
  (forall y e, y ∈ doc_order t -> ~ mistake (st_heap s) t y e) -> (forall y, y ∈ doc_order t -> ~ misplaced_subproof (st_heap s) y) ->
  (forall y, y ∈ doc_order t -> ~ no_letter (st_heap s) t y) ->
  x ∈ doc_order (prune (later_contents (st_heap s) t) t) -> no_kind (st_heap s) x -> transform_raises s t EAssert.
Proof. exact late_kind. Qed.
Print Assumptions C21_kind_partial.
(** Of the documents with at most one table of contents exactly those without mistakes are transformed. *)
Theorem C21_transformed_iff_partial : forall s t, plausible s t -> parents_permitted (st_heap s) ->
  ((exists x, x ∈ doc_order t /\ is_contents (st_heap s) x = true) -> well_nested (st_heap s) t) -> later_contents (st_heap s) t = [] ->
  (exists s', transforms_to s t s') <->
  (forall x e, x ∈ doc_order t -> ~ mistake (st_heap s) t x e) /\
  (forall x, x ∈ doc_order t -> ~ misplaced_subproof (st_heap s) x /\ ~ no_letter (st_heap s) t x /\ ~ no_kind (st_heap s) x).
Proof. exact returns_iff. Qed.
Print Assumptions C21_transformed_iff_partial.
Example C21_late_nonvacuous :
  (sound_before (built subproof_first) (wtree subproof_first) /\
   exists x, x ∈ doc_order (wtree subproof_first) /\ misplaced_subproof (st_heap (built subproof_first)) x) /\
  (sound_before (built (appendices 27)) (wtree (appendices 27)) /\
   (forall x, x ∈ doc_order (wtree (appendices 27)) -> ~ misplaced_subproof (st_heap (built (appendices 27))) x) /\
   exists x, no_letter (st_heap (built (appendices 27))) (wtree (appendices 27)) x) /\
  (sound_before (built kindless) (wtree kindless) /\
   (exists x, x ∈ doc_order (wtree kindless) /\ no_kind (st_heap (built kindless)) x) /\ later_contents (st_heap (built kindless)) (wtree kindless) = [] /\
   snd (transform 300 [] (root (wtree kindless)) (built kindless)) = Err EAssert).
Proof.
  exact (conj (conj subproof_first_sound subproof_first_bad) (conj (conj appendices_sound (conj appendices_good_steps appendices_bad))
    (conj kindless_sound (conj kindless_bad (conj kindless_one kindless_raises))))).
Qed.
