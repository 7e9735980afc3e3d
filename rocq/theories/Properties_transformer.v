(** Properties C17-C36: the transform step (rsm/transformer.py). *)
From Verif Require Import TransformDemo ResultKids ReuseDemo.
From Verif Require Import NodeOps Monad.
Local Open Scope string_scope.
Local Open Scope list_scope.

(** Every document written with the constructors and append is ready, whatever it is. *)
Theorem C17_documents_are_ready : forall b i,
  snd (run (build b)) = Ok i -> errors_unlabelledb (fst (run (build b))) = true ->
  exists t, root t = i /\ ready (fst (run (build b))) t.
Proof. exact built_ready. Qed.
Print Assumptions C17_documents_are_ready.

(** ** C17 *)

Theorem C17_labels_unique_first_wins : forall s t s', ready s t -> transforms_to s t s' ->
  exists t' f, transformed s t s' t' f /\
    (forall x y, x ∈ doc_order t -> y ∈ doc_order t ->
       label_of (st_heap s') x = label_of (st_heap s') y -> label_of (st_heap s') x <> [] -> x = y) /\
    (forall lbl x, first_labelled (st_heap s) (doc_order t) lbl x -> label_of (st_heap s') x = lbl) /\
    (forall lbl x y, first_labelled (st_heap s) (doc_order t) lbl x -> y ∈ doc_order t -> y <> x ->
       label_of (st_heap s) y = lbl -> value (st_heap s') y a_label = Some (VStr [])) /\
    (forall x, x ∈ doc_order t -> label_of (st_heap s) x = [] ->
       value (st_heap s') x a_label = value (st_heap s) x a_label).
Proof. exact fin_labels. Qed.
Print Assumptions C17_labels_unique_first_wins.
Example C17_nonvacuous : ready tdemo_st tdemo_tree /\ transforms_to tdemo_st tdemo_tree tdemo_end /\
  label_of (st_heap tdemo_st) 2 = lit "a" /\ label_of (st_heap tdemo_st) 8 = lit "a" /\
  label_of (st_heap tdemo_end) 2 = lit "a" /\ label_of (st_heap tdemo_end) 8 = [].
Proof. split; [exact tdemo_ready|]. split; [exact tdemo_runs|]. repeat split; vm_compute; reflexivity. Qed.

(** ** C18 *)

Theorem C18_no_pending_left : forall s t s', ready s t -> transforms_to s t s' ->
  exists t' f, transformed s t s' t' f /\
    forall y, y ∈ doc_order t' -> ~ is_pending (st_heap s') y.
Proof. exact fin_pending. Qed.
Print Assumptions C18_no_pending_left.
Example C18_nonvacuous : ready tdemo_st tdemo_tree /\ transforms_to tdemo_st tdemo_tree tdemo_end /\
  is_pending (st_heap tdemo_st) 5 /\ is_pending (st_heap tdemo_st) 7 /\ is_pending (st_heap tdemo_st) 23.
Proof.
  split; [exact tdemo_ready|]. split; [exact tdemo_runs|].
  split; [left|split; [right; left|right; right]]; eexists; split; vm_compute; reflexivity.
Qed.

(** ** C19 *)

Theorem C19_references_resolved : forall s t s', ready s t -> transforms_to s t s' ->
  exists t' f, transformed s t s' t' f /\
    forall j, j ∈ doc_order t -> class_of (st_heap s) j CPendingReference -> ref_resolved s t s' f j.
Proof. exact fin_refs. Qed.
Print Assumptions C19_references_resolved.
(** 5 is a :ref: to a label that two nodes carry, 6 one to an unknown label. *)
Example C19_nonvacuous : ready tdemo_st tdemo_tree /\ transforms_to tdemo_st tdemo_tree tdemo_end /\
  kids_of tdemo_st 3 = [4; 5; 6; 7] /\ kids_of tdemo_end 3 = [4; 38; 39; 41] /\
  value (st_heap tdemo_end) 38 a_target = Some (VNode 2) /\
  value (st_heap tdemo_end) 38 a_overwrite_reftext = Some (VStr (lit "here")) /\
  value (st_heap tdemo_end) 39 a_text = Some (VStr (lit "[unknown label ""zz""]")).
Proof. split; [exact tdemo_ready|]. split; [exact tdemo_runs|]. repeat split; vm_compute; reflexivity. Qed.

(** ** C20 *)

Theorem C20_citations_and_backlinks : forall s t s', ready s t -> transforms_to s t s' ->
  exists t' f cites, transformed s t s' t' f /\
    length cites = length (List.filter (is_cite (st_heap s)) (doc_order t)) /\
    (forall k j ts, nth_error (List.filter (is_cite (st_heap s)) (doc_order t)) k = Some j -> nth_error cites k = Some ts ->
       cite_resolved s t s' f k j ts) /\
    (forall x, is_Some (st_heap s !! x) ->
       backlinks_of (st_heap s') x = backlinks_of (st_heap s) x ++ mentions x 0 cites).
Proof. exact fin_cites. Qed.
Print Assumptions C20_citations_and_backlinks.
(** 7 cites k1 twice and the unknown k2 once. *)
Example C20_nonvacuous : ready tdemo_st tdemo_tree /\ transforms_to tdemo_st tdemo_tree tdemo_end /\
  value (st_heap tdemo_end) 41 a_targets = Some (VNodes [33; 40; 33]) /\
  backlinks_of (st_heap tdemo_end) 33 = [lit "cite-0"; lit "cite-0"] /\ backlinks_of (st_heap tdemo_end) 34 = [].
Proof. split; [exact tdemo_ready|]. split; [exact tdemo_runs|]. repeat split; vm_compute; reflexivity. Qed.

(** ** C21 *)
(** False as stated.  transform fails with another exception than RSMTransformerError: AttributeError for a citation of a section, AssertionError for a step whose subproof is not the last child, StopIteration for the 27th appendix section, ValueError for a :prev: whose argument is not a number. *)

Theorem C21_only_transformer_errors_refuted :
  fails_with cites_section EAttribute /\ fails_with subproof_first EAssert /\
  fails_with (appendices 27) EStopIteration /\ fails_with prev_letter EValue.
Proof. repeat split; apply fails_if; vm_compute; reflexivity. Qed.
Print Assumptions C21_only_transformer_errors_refuted.

(** ** C22 *)
(** A number that is not positive refers to the enclosing step itself. *)

Theorem C22_previous_steps : forall s t s', ready s t -> transforms_to s t s' ->
  exists t' f, transformed s t s' t' f /\
    forall j, j ∈ doc_order t -> class_of (st_heap s) j CPendingPrev -> prev_resolved s s' f j.
Proof. exact fin_prevs. Qed.
Print Assumptions C22_previous_steps.
Example C22_nonvacuous : ready tdemo_st tdemo_tree /\ transforms_to tdemo_st tdemo_tree tdemo_end /\
  class_of (st_heap tdemo_st) 23 CPendingPrev /\ value (st_heap tdemo_end) 42 a_target = Some (VNode 17).
Proof.
  split; [exact tdemo_ready|]. split; [exact tdemo_runs|]. split; [eexists; split; vm_compute; reflexivity|vm_compute; reflexivity].
Qed.

(** The failures, for the code that resolves one :prev:. *)
Theorem C22_outside_a_step : forall fuel i s n,
  fresh_ok s -> consistent (st_heap s) -> st_heap s !! i = Some n -> size (st_heap s) <= fuel ->
  closest_ancestor (st_heap s) [CStep] i None ->
  resolve_prev fuel i s = (s, Err (ETransformer (lit "Found :prev: tag outside proof step"))).
Proof. exact (fun fuel i s n Hf Hc => resolve_prev_no_step fuel i s n (conj Hf Hc)). Qed.
Print Assumptions C22_outside_a_step.
Theorem C22_too_few_steps : forall fuel i s n step v k l,
  fresh_ok s -> consistent (st_heap s) -> st_heap s !! i = Some n -> size (st_heap s) <= fuel ->
  closest_ancestor (st_heap s) [CStep] i (Some step) ->
  value (st_heap s) i a_target = Some v -> py_int (fmt_val v) = Some k ->
  steps_before (st_heap s) step l -> (Z.of_nat (length l) < k)%Z ->
  resolve_prev fuel i s = (s, Err (ETransformer (lit "Did not find previous " ++ fmt_val v ++ lit " step(s)"))).
Proof. exact (fun fuel i s n step v k l Hf Hc => resolve_prev_too_few fuel i s n step v k l (conj Hf Hc)). Qed.
Print Assumptions C22_too_few_steps.
Example C22_failures_nonvacuous :
  snd (run (let! d := build (BT CManuscript [] [BT CPendingPrev [(a_target, VStr (lit "1"))] []]) in resolve_prev 10 1))
    = Err (ETransformer (lit "Found :prev: tag outside proof step")) /\
  snd (run (let! d := build (BT CProof [] [BT CStep [] [BT CPendingPrev [(a_target, VStr (lit "1"))] []]]) in resolve_prev 10 2))
    = Err (ETransformer (lit "Did not find previous 1 step(s)")).
Proof. split; vm_compute; reflexivity. Qed.

(** ** C23 *)
(** In the children that are moved, placeholders are the nodes they became and later contents markers are gone. *)

Theorem C23_steps_split : forall s t s', ready s t -> transforms_to s t s' ->
  exists t' f, transformed s t s' t' f /\
    forall x l, x ∈ doc_order t -> class_of (st_heap s) x CStep -> kids_are (st_heap s) x l ->
      split_step (st_heap s) (st_heap s') (fun cs => map f (without (later_contents (st_heap s) t) cs)) x l.
Proof. exact fin_steps. Qed.
Print Assumptions C23_steps_split.
Example C23_nonvacuous : ready tdemo_st tdemo_tree /\ transforms_to tdemo_st tdemo_tree tdemo_end /\
  kids_of tdemo_st 21 = [22; 23; 24; 26] /\ kids_of tdemo_end 21 = [44; 45] /\
  kids_of tdemo_end 44 = [22; 42] /\ kids_of tdemo_end 45 = [24; 26] /\ kids_of tdemo_end 26 = [].
Proof. split; [exact tdemo_ready|]. split; [exact tdemo_runs|]. repeat split; vm_compute; reflexivity. Qed.

(** ** C24 *)

Theorem C24_restructuring : forall fuel s t s',
  manuscript s t -> add_necessary_subproofs fuel (root t) s = (s', Ok tt) ->
  exists t', manuscript s' t' /\ restructured (st_heap s) (st_heap s') t t' /\
    List.filter (fun x => bool_decide (is_Some (st_heap s !! x))) (doc_order t') = doc_order t /\
    (forall x n, st_heap s !! x = Some n -> exists n', st_heap s' !! x = Some n' /\ n_cls n' = n_cls n /\ n_attrs n' = n_attrs n).
Proof. exact restructuring_keeps. Qed.
Print Assumptions C24_restructuring.

Theorem C24_whole_transform : forall s t s', ready s t -> transforms_to s t s' ->
  exists t' f, transformed s t s' t' f.
Proof. exact fin_whole. Qed.
Print Assumptions C24_whole_transform.
Example C24_nonvacuous : exists s', add_necessary_subproofs 300 0 tdemo_st = (s', Ok tt) /\ kids_of s' 21 = [39; 40].
Proof.
  exists (fst (add_necessary_subproofs 300 0 tdemo_st)). split; [|vm_compute; reflexivity].
  assert (H : snd (add_necessary_subproofs 300 0 tdemo_st) = Ok tt) by (vm_compute; reflexivity).
  rewrite <- H. apply surjective_pairing.
Qed.

Theorem C24_other_children_kept : forall s t s', ready s t -> transforms_to s t s' ->
  exists t' f, transformed s t s' t' f /\
    forall x c l, x ∈ doc_order t -> ~ is_pending (st_heap s) x -> class_of (st_heap s) x c ->
      c <> CStep -> c <> CItemize -> c <> CEnumerate -> c <> CContents -> kids_are (st_heap s) x l ->
      kids_are (st_heap s') x (map f (without (later_contents (st_heap s) t) l)).
Proof. exact fin_kids. Qed.
Print Assumptions C24_other_children_kept.
Example C24_children_nonvacuous : ready tdemo_st tdemo_tree /\ transforms_to tdemo_st tdemo_tree tdemo_end /\
  kids_of tdemo_st 0 = [1; 2; 30; 31; 32; 35; 36; 37] /\ kids_of tdemo_end 0 = [1; 2; 31; 32; 35; 36; 37] /\
  kids_of tdemo_st 3 = [4; 5; 6; 7] /\ kids_of tdemo_end 3 = [4; 38; 39; 41].
Proof. split; [exact tdemo_ready|]. split; [exact tdemo_runs|]. repeat split; vm_compute; reflexivity. Qed.

(** ** C25 *)
(** Steps are numbered by their proof (C26) whether or not they are marked nonum; letters are in C28. *)

Theorem C25_numbers_count : forall s t s', ready s t -> transforms_to s t s' ->
  exists t' f, transformed s t s' t' f /\
    (forall p x q sc k, doc_order t = p ++ x :: q -> is_numbered (st_heap s) x = true ->
       current_scope (st_heap s) (scope_of (st_heap s) x) p sc ->
       exactly (consumes (st_heap s) (scope_of (st_heap s) x) (sequence_of (st_heap s) x)) k sc ->
       scope_of (st_heap s) x <> [CManuscript] \/ (forall y, y ∈ p -> is_appendix (st_heap s) y = false) ->
       value (st_heap s') x a_number = Some (VInt (Z.of_nat (S k)))) /\
    (forall x, x ∈ doc_order t -> ~ is_pending (st_heap s) x -> is_numbered (st_heap s) x = false ->
       ~ class_of (st_heap s) x CStep -> value (st_heap s') x a_number = value (st_heap s) x a_number).
Proof. exact fin_numbers. Qed.
Print Assumptions C25_numbers_count.
(** Scope and count always exist. *)
Theorem C25_scopes_exist : forall h w a l,
  exists sc k, current_scope h w l sc /\ exactly (consumes h w a) k sc.
Proof. exact scope_and_count. Qed.
Print Assumptions C25_scopes_exist.
(** 8 is a theorem, 14 a lemma without number and 15 the next lemma. *)
Example C25_nonvacuous : ready tdemo_st tdemo_tree /\ transforms_to tdemo_st tdemo_tree tdemo_end /\
  is_numbered (st_heap tdemo_st) 15 = true /\ is_numbered (st_heap tdemo_st) 14 = false /\
  value (st_heap tdemo_end) 8 a_number = Some (VInt 1) /\ value (st_heap tdemo_end) 14 a_number = Some VNone /\
  value (st_heap tdemo_end) 15 a_number = Some (VInt 2).
Proof. split; [exact tdemo_ready|]. split; [exact tdemo_runs|]. repeat split; vm_compute; reflexivity. Qed.

(** ** C26 *)

Theorem C26_steps_numbered : forall s t s', ready s t -> transforms_to s t s' ->
  exists t' f, transformed s t s' t' f /\
    forall p l pre x post j, p ∈ doc_order t' -> holds_steps (st_heap s') p -> kids_are (st_heap s') p l ->
      l = pre ++ x :: post -> class_of (st_heap s') x CStep ->
      exactly (fun c => class_of (st_heap s') c CStep) j pre ->
      value (st_heap s') x a_number = Some (VInt (Z.of_nat (S j))).
Proof. exact fin_stepnums. Qed.
Print Assumptions C26_steps_numbered.
Example C26_nonvacuous : ready tdemo_st tdemo_tree /\ transforms_to tdemo_st tdemo_tree tdemo_end /\
  kids_of tdemo_end 16 = [17; 19; 21] /\ value (st_heap tdemo_end) 21 a_number = Some (VInt 2) /\
  value (st_heap tdemo_end) 26 a_number = Some (VInt 2).
Proof. split; [exact tdemo_ready|]. split; [exact tdemo_runs|]. repeat split; vm_compute; reflexivity. Qed.

(** ** C27 *)
(** False as stated: a theorem before the first section and one after a section, both outside of sections, are both shown as 1. *)

Theorem C27_full_numbers_identify_refuted :
  transforms two_theorems /\
  class_of (st_heap (after two_theorems)) 1 CTheorem /\ class_of (st_heap (after two_theorems)) 3 CTheorem /\
  snd (full_number 100 1 (after two_theorems)) = Ok (Some (lit "1")) /\
  snd (full_number 100 3 (after two_theorems)) = Ok (Some (lit "1")).
Proof.
  split; [apply transforms_if; vm_compute; reflexivity|].
  split; [apply class_if; vm_compute; reflexivity|]. split; [apply class_if; vm_compute; reflexivity|]. split; vm_compute; reflexivity.
Qed.
Print Assumptions C27_full_numbers_identify_refuted.
(** Within one scope numbers are different. *)

Theorem C27_numbers_differ_in_scope_partial : forall s t s', ready s t -> transforms_to s t s' ->
  exists t' f, transformed s t s' t' f /\
    forall p x q y r w a, doc_order t = p ++ x :: q ++ y :: r ->
      consumes (st_heap s) w a x -> consumes (st_heap s) w a y -> (forall z, z ∈ q -> ~ opens (st_heap s) w z) ->
      value (st_heap s') x a_number <> value (st_heap s') y a_number.
Proof. exact fin_different. Qed.
Print Assumptions C27_numbers_differ_in_scope_partial.
Example C27_nonvacuous : ready tdemo_st tdemo_tree /\ transforms_to tdemo_st tdemo_tree tdemo_end /\
  consumes (st_heap tdemo_st) [CSection] CTheorem 8 /\ consumes (st_heap tdemo_st) [CSection] CTheorem 15.
Proof. split; [exact tdemo_ready|]. split; [exact tdemo_runs|]. repeat split; vm_compute; reflexivity. Qed.

(** ** C28 *)
(** False as stated for the 27th section after the marker, see also C21.  Proved: a transform that ends gives the letters A, B, C, ... in order, so that there are at most 26, and calls the sections Appendix. *)

Theorem C28_any_number_of_appendices_refuted : fails_with (appendices 27) EStopIteration.
Proof. apply fails_if; vm_compute; reflexivity. Qed.
Print Assumptions C28_any_number_of_appendices_refuted.

Theorem C28_appendix_letters_partial : forall s t s', ready s t -> transforms_to s t s' ->
  exists t' f, transformed s t s' t' f /\
    (forall p x q sc k, doc_order t = p ++ x :: q -> is_numbered (st_heap s) x = true ->
       scope_of (st_heap s) x = [CManuscript] -> (exists y, y ∈ p /\ is_appendix (st_heap s) y = true) ->
       current_scope (st_heap s) [CManuscript] p sc -> exactly (consumes (st_heap s) [CManuscript] (sequence_of (st_heap s) x)) k sc ->
       k < 26 /\ value (st_heap s') x a_number = letter k) /\
    (forall p x q, doc_order t = p ++ x :: q -> is_numbered (st_heap s) x = true -> is_section (st_heap s) x = true ->
       (exists y, y ∈ p /\ is_appendix (st_heap s) y = true) ->
       value (st_heap s) x a_reftext_template = Some (VStr (lit "{nodeclass} {number}")) ->
       value (st_heap s') x a_reftext_template = Some (VStr (lit "Appendix {number}"))).
Proof. exact fin_letters. Qed.
Print Assumptions C28_appendix_letters_partial.
Example C28_nonvacuous : ready tdemo_st tdemo_tree /\ transforms_to tdemo_st tdemo_tree tdemo_end /\
  scope_of (st_heap tdemo_st) 37 = [CManuscript] /\ is_numbered (st_heap tdemo_st) 37 = true /\
  value (st_heap tdemo_st) 37 a_reftext_template = Some (VStr (lit "{nodeclass} {number}")) /\
  value (st_heap tdemo_end) 36 a_number = Some (VStr (lit "A")) /\ value (st_heap tdemo_end) 37 a_number = Some (VStr (lit "B")) /\
  snd (reftext 300 37 tdemo_end) = Ok (lit "Appendix B").
Proof. split; [exact tdemo_ready|]. split; [exact tdemo_runs|]. repeat split; vm_compute; reflexivity. Qed.

(** ** C29 *)

Theorem C29_full_number_is_path : forall fuel x s s' r l,
  consistent (st_heap s) -> full_number fuel x s = (s', Ok r) -> numbers_to (st_heap s) x l ->
  r = Some (join (lit ".") l).
Proof. exact full_number_path. Qed.
Print Assumptions C29_full_number_is_path.
Theorem C29_unnumbered : forall fuel x s s' r,
  consistent (st_heap s) -> full_number fuel x s = (s', Ok r) -> ~ class_of (st_heap s) x CManuscript ->
  unnumbered (st_heap s) x -> r = None.
Proof. exact full_number_nonum. Qed.
Print Assumptions C29_unnumbered.
Theorem C29_terminates : forall fuel x s,
  consistent (st_heap s) -> all_built s -> is_Some (st_heap s !! x) -> 2 * size (st_heap s) < fuel ->
  exists s' r, full_number fuel x s = (s', Ok r).
Proof. exact full_number_ends. Qed.
Print Assumptions C29_terminates.
Example C29_nonvacuous : consistent (st_heap tdemo_end) /\ numbers_to (st_heap tdemo_end) 15 [lit "1"; lit "2"] /\
  snd (full_number 300 15 tdemo_end) = Ok (Some (lit "1.2")) /\
  snd (full_number 300 28 tdemo_end) = Ok (Some (lit "1.1")) /\ snd (full_number 300 14 tdemo_end) = Ok None.
Proof. split; [exact tdemo_consistent|]. split; [exact tdemo_numbers|]. repeat split; vm_compute; reflexivity. Qed.

(** ** C30 *)
(** False as stated: the text for a node without a number is built with the word None. *)

Theorem C30_never_shows_None_refuted :
  transforms nonum_section /\ unnumbered (st_heap (after nonum_section)) 1 /\
  snd (reftext 100 1 (after nonum_section)) = Ok (lit "Section None").
Proof.
  split; [apply transforms_if; vm_compute; reflexivity|].
  split; [exists (VBool true); split; vm_compute; reflexivity|vm_compute; reflexivity].
Qed.
Print Assumptions C30_never_shows_None_refuted.
(** The rest of the property: the template is filled with the class name and the full number. *)
Theorem C30_reference_text_partial : forall fuel x s s' r,
  consistent (st_heap s) -> reftext fuel x s = (s', Ok r) ->
  exists n tmpl num o, st_heap s !! x = Some n /\ value (st_heap s) x a_reftext_template = Some (VStr tmpl) /\
    fills (cls_name (n_cls n)) num tmpl o /\ trimmed o r /\
    (forall l, numbers_to (st_heap s) x l -> num = join (lit ".") l) /\
    (~ class_of (st_heap s) x CManuscript -> unnumbered (st_heap s) x -> num = lit "None").
Proof. exact reftext_ok. Qed.
Print Assumptions C30_reference_text_partial.
Theorem C30_reference_text_exists : forall fuel x s n tmpl l o r,
  consistent (st_heap s) -> all_built s ->
  st_heap s !! x = Some n -> value (st_heap s) x a_reftext_template = Some (VStr tmpl) -> numbers_to (st_heap s) x l ->
  fills (cls_name (n_cls n)) (join (lit ".") l) tmpl o -> trimmed o r -> 2 * size (st_heap s) < fuel ->
  exists s', reftext fuel x s = (s', Ok r).
Proof. exact reftext_ends. Qed.
Print Assumptions C30_reference_text_exists.
Example C30_nonvacuous : consistent (st_heap tdemo_end) /\ numbers_to (st_heap tdemo_end) 15 [lit "1"; lit "2"] /\
  snd (reftext 300 15 tdemo_end) = Ok (lit "Lemma 1.2") /\ snd (reftext 300 37 tdemo_end) = Ok (lit "Appendix B").
Proof. split; [exact tdemo_consistent|]. split; [exact tdemo_numbers|]. split; vm_compute; reflexivity. Qed.

(** ** C31 *)

Theorem C31_table_of_contents : forall s t s', ready s t -> transforms_to s t s' ->
  exists t' f, transformed s t s' t' f /\
    forall toc l, well_nested (st_heap s) t ->
      head (List.filter (is_contents (st_heap s)) (doc_order t)) = Some toc -> kids_are (st_heap s) toc l ->
      List.filter (is_contents (st_heap s')) (doc_order t') = [toc] /\
      exists items, kids_are (st_heap s') toc (map f (without (later_contents (st_heap s) t) l) ++ items) /\
        Forall2 (toc_entry (st_heap s')) (outlines (st_heap s) (prune (later_contents (st_heap s) t) t)) items /\
        flat_map outline_sections (outlines (st_heap s) (prune (later_contents (st_heap s) t) t)) =
          List.filter (is_section (st_heap s)) (doc_order (prune (later_contents (st_heap s) t) t)).
Proof. exact fin_toc. Qed.
Print Assumptions C31_table_of_contents.
Example C31_nonvacuous : ready tdemo_st tdemo_tree /\ transforms_to tdemo_st tdemo_tree tdemo_end /\
  head (List.filter (is_contents (st_heap tdemo_st)) (doc_order tdemo_tree)) = Some 1 /\
  well_nested (st_heap tdemo_st) tdemo_tree /\
  outlines (st_heap tdemo_st) (prune (later_contents (st_heap tdemo_st) tdemo_tree) tdemo_tree) =
    [O 2 [O 27 []]; O 31 []; O 36 []; O 37 []] /\
  length (kids_of tdemo_end 1) = 4.
Proof.
  split; [exact tdemo_ready|]. split; [exact tdemo_runs|]. split; [vm_compute; reflexivity|].
  split; [apply well_nestedb_sound; vm_compute; reflexivity|].
  split; vm_compute; reflexivity.
Qed.

(** ** C32 *)

Theorem C32_constructs_typed : forall s t s', ready s t -> transforms_to s t s' ->
  exists t' f, transformed s t s' t' f /\
    (forall x, x ∈ doc_order t' -> is_construct (st_heap s') x = true ->
       exists kind ts, x ∈ doc_order t /\ kind <> [] /\
         value (st_heap s) x a_kind = Some (VStr kind) /\ value (st_heap s) x a_types = Some (VStrs ts) /\
         (conclusion_kind kind -> value (st_heap s') x a_types = Some (VStrs (ts ++ [kind]))) /\
         (~ conclusion_kind kind -> value (st_heap s') x a_types = Some (VStrs (ts ++ [kind; lit "assumption"])))) /\
    (forall x, x ∈ doc_order t -> ~ is_pending (st_heap s) x -> is_construct (st_heap s) x = false ->
       value (st_heap s') x a_types = value (st_heap s) x a_types).
Proof. exact fin_constructs. Qed.
Print Assumptions C32_constructs_typed.
Example C32_nonvacuous : ready tdemo_st tdemo_tree /\ transforms_to tdemo_st tdemo_tree tdemo_end /\
  is_construct (st_heap tdemo_end) 10 = true /\ is_construct (st_heap tdemo_end) 12 = true /\
  value (st_heap tdemo_end) 10 a_types = Some (VStrs [lit "let"; lit "assumption"]) /\
  value (st_heap tdemo_end) 12 a_types = Some (VStrs [lit "then"]).
Proof. split; [exact tdemo_ready|]. split; [exact tdemo_runs|]. repeat split; vm_compute; reflexivity. Qed.

(** ** C33 *)
(** False as stated: a paragraph in a lemma has depth 2, because Lemma and Theorem are both counted.  Proved: the depth is the number of classes with a handrail that the ancestors are or derive from. *)

Theorem C33_depth_counts_ancestors_refuted :
  transforms lemma_text /\ ancestors (st_heap (after lemma_text)) 2 [1; 0] /\
  has_rail (st_heap (after lemma_text)) 1 = true /\ has_rail (st_heap (after lemma_text)) 0 = false /\
  value (st_heap (after lemma_text)) 2 a_handrail_depth = Some (VInt 2).
Proof.
  split; [apply transforms_if; vm_compute; reflexivity|].
  split; [apply ancestors_if; vm_compute; reflexivity|]. repeat split; vm_compute; reflexivity.
Qed.
Print Assumptions C33_depth_counts_ancestors_refuted.

Theorem C33_depth_partial : forall s t s', ready s t -> transforms_to s t s' ->
  exists t' f, transformed s t s' t' f /\
    forall x k v, x ∈ doc_order t -> x ∈ doc_order t' -> handrails_above (st_heap s') x k ->
      value (st_heap s) x a_handrail_depth = Some (VInt v) ->
      value (st_heap s') x a_handrail_depth = Some (VInt (v + Z.of_nat k)).
Proof. exact fin_depth. Qed.
Print Assumptions C33_depth_partial.

(** The property as stated, below ancestors of which none has two handrails. *)

Theorem C33_depth_single_rails_partial : forall s t s', ready s t -> transforms_to s t s' ->
  exists t' f, transformed s t s' t' f /\
    forall x l, x ∈ doc_order t -> x ∈ doc_order t' -> ancestors (st_heap s') x l ->
      (forall a, a ∈ l -> handrails_of (st_heap s') a <= 1) -> value (st_heap s) x a_handrail_depth = Some (VInt 0) ->
      value (st_heap s') x a_handrail_depth = Some (VInt (Z.of_nat (length (List.filter (has_rail (st_heap s')) l)))).
Proof. exact fin_depth_simple. Qed.
Print Assumptions C33_depth_single_rails_partial.
Example C33_nonvacuous : ready tdemo_st tdemo_tree /\ transforms_to tdemo_st tdemo_tree tdemo_end /\
  ancestors (st_heap tdemo_end) 24 [45; 21; 16; 2; 0] /\ value (st_heap tdemo_st) 24 a_handrail_depth = Some (VInt 0) /\
  map (handrails_of (st_heap tdemo_end)) [45; 21; 16; 2; 0] = [0; 1; 1; 0; 0] /\
  value (st_heap tdemo_end) 24 a_handrail_depth = Some (VInt 2).
Proof.
  split; [exact tdemo_ready|]. split; [exact tdemo_runs|]. split; [apply ancestors_if; vm_compute; reflexivity|].
  repeat split; vm_compute; reflexivity.
Qed.

(** ** C34 *)

Theorem C34_node_ids : forall s t s', ready s t -> transforms_to s t s' ->
  exists t' f, transformed s t s' t' f /\
    forall k x, doc_order t' !! k = Some x -> value (st_heap s') x a_nodeid = Some (VInt (Z.of_nat k)) /\
      forall fuel, length (doc_order t') <= fuel -> get_child_by_id fuel (root t') (Z.of_nat k) s' = (s', Ok (Some x)).
Proof. exact fin_ids. Qed.
Print Assumptions C34_node_ids.
Example C34_nonvacuous : ready tdemo_st tdemo_tree /\ transforms_to tdemo_st tdemo_tree tdemo_end /\
  doc_order (read_tree 50 (st_heap tdemo_end) 0) !! 20 = Some 9 /\
  value (st_heap tdemo_end) 9 a_nodeid = Some (VInt 20) /\ snd (get_child_by_id 300 0 20 tdemo_end) = Ok (Some 9).
Proof. split; [exact tdemo_ready|]. split; [exact tdemo_runs|]. repeat split; vm_compute; reflexivity. Qed.

(** ** C35 *)
(** False as stated: labels are kept from one document to the next, and a label used in both counts as a repetition.  Below, transforming the document 0 first makes the reference in the document 4 point into document 0, and section 5 loses its label. *)

Theorem C35_transformer_reusable_refuted :
  let s := fst (run two_docs) in
  exists s1 d s2 d2 s3 d3,
    transform 100 [] 0 s = (s1, Ok d) /\ transform 100 d 4 s1 = (s2, Ok d2) /\ transform 100 [] 4 s1 = (s3, Ok d3) /\
    kids_of s2 6 = [8] /\ kids_of s3 6 = [8] /\
    value (st_heap s2) 8 a_target = Some (VNode 1) /\ value (st_heap s3) 8 a_target = Some (VNode 5) /\
    label_of (st_heap s2) 5 = [] /\ label_of (st_heap s3) 5 = lit "a".
Proof. exact two_docs_differ. Qed.
Print Assumptions C35_transformer_reusable_refuted.

(** It holds when the labels are different.  Labels that the manuscript does not use make no difference to transform; and a Transformer that has been used for one manuscript treats another, which uses none of the labels in the first, as a new Transformer does. *)

Theorem C35_other_labels_partial : forall fuel d t s, ready s t -> not_used d (st_heap s) t ->
  same_outcome d (transform fuel d (root t) s) (transform fuel [] (root t) s).
Proof. exact transformer_other. Qed.
Print Assumptions C35_other_labels_partial.
Example C35_other_labels_nonvacuous : ready tdemo_st tdemo_tree /\ not_used [(lit "elsewhere", 0)] (st_heap tdemo_st) tdemo_tree.
Proof. exact (conj tdemo_ready tdemo_elsewhere). Qed.

Theorem C35_second_document_partial : forall f0 fuel t0 t s s1 d0,
  ready s t0 -> transform f0 [] (root t0) s = (s1, Ok d0) -> ready s1 t ->
  (forall x y l, x ∈ doc_order t -> uses (st_heap s1) x l -> y ∈ doc_order t0 -> label_of (st_heap s) y <> l) ->
  same_outcome d0 (transform fuel d0 (root t) s1) (transform fuel [] (root t) s1).
Proof. exact transformer_second. Qed.
Print Assumptions C35_second_document_partial.
Example C35_second_document_nonvacuous : ready others_st others_tree0 /\
  transform 100 [] (root others_tree0) others_st = (others_after, Ok [(lit "a", 1)]) /\ ready others_after others_tree /\
  (forall x y l, x ∈ doc_order others_tree -> uses (st_heap others_after) x l -> y ∈ doc_order others_tree0 -> label_of (st_heap others_st) y <> l) /\
  exists s2, transform 100 [(lit "a", 1)] (root others_tree) others_after = (s2, Ok [(lit "a", 1); (lit "b", 5)]) /\
    value (st_heap s2) 9 a_target = Some (VNode 5).
Proof. exact (conj others_ready0 (conj others_transform (conj others_ready (conj others_apart others_again)))). Qed.

(** ** C36 *)
(** Text below a contents marker that is dropped (C31) is dropped with it; markers written by the parser have no children. *)

Theorem C36_text_kept : forall s t s', ready s t -> transforms_to s t s' ->
  exists t' f, transformed s t s' t' f /\
    List.filter (is_text (st_heap s')) (doc_order t') =
      List.filter (is_text (st_heap s)) (doc_order (prune (later_contents (st_heap s) t) t)) /\
    ((forall c, c ∈ later_contents (st_heap s) t -> kids_are (st_heap s) c []) ->
      List.filter (is_text (st_heap s')) (doc_order t') = List.filter (is_text (st_heap s)) (doc_order t)) /\
    (forall x, x ∈ doc_order t -> is_text (st_heap s) x = true -> value (st_heap s') x a_text = value (st_heap s) x a_text).
Proof. exact fin_texts. Qed.
Print Assumptions C36_text_kept.
Example C36_nonvacuous : ready tdemo_st tdemo_tree /\ transforms_to tdemo_st tdemo_tree tdemo_end /\
  List.filter (is_text (st_heap tdemo_st)) (doc_order tdemo_tree) = [4; 11; 13; 18; 20; 22; 25; 29] /\
  later_contents (st_heap tdemo_st) tdemo_tree = [30] /\ kids_of tdemo_st 30 = [].
Proof. split; [exact tdemo_ready|]. split; [exact tdemo_runs|]. repeat split; vm_compute; reflexivity. Qed.
