(** Properties of the HTML text as a browser reads it (C79, and the positive part of C46). *)
From Verif Require Import SpecRead ReadDemo.
From Verif Require Import NodeOps Monad.
Local Open Scope string_scope.
Local Open Scope list_scope.

(** ** C79 *)

(** Read character by character, the HTML gives back the tags, attributes and characters of text
    that the translator has written. *)
Theorem C79_read_back : forall hl f i s s' h, plain_heap hl false (st_heap s) ->
  translate hl f i s = (s', Ok h) -> read_html (render h) = letters h.
Proof. exact translate_read. Qed.
Print Assumptions C79_read_back.
Theorem C79_read_back_handrails : forall hl src f i s s' h, plain_heap hl src (st_heap s) ->
  translate_handrails hl src f i s = (s', Ok h) -> read_html (render h) = letters h.
Proof. exact handrails_read. Qed.
Print Assumptions C79_read_back_handrails.
Example C79_nonvacuous : (forall src, plain_heap nohl src (st_heap (built readdoc))) /\
  (exists s', translate nohl 100 (root (wtree readdoc)) (built readdoc) = (s', Ok readdoc_html)) /\
  (exists s', translate_handrails nohl true 100 (root (wtree readdoc)) (built readdoc) = (s', Ok readdoc_hand)) /\
  length (render readdoc_html) = 1330 /\ length (read_html (render readdoc_html)) = 301.
Proof. split; [exact readdoc_plain|]. split; [exact (proj2 readdoc_ok)|]. split; [exact readdoc_handrails|]. vm_compute. auto. Qed.

(** The properties of C38, C39, C40, C41 and C42, for what is read from the text. *)
Theorem C79_nested : forall hl f s t s' h, plain_heap hl false (st_heap s) -> manuscript s t -> math_placed s t ->
  translate hl f (root t) s = (s', Ok h) -> nested (read_html (render h)).
Proof. exact nested_read. Qed.
Print Assumptions C79_nested.
Theorem C79_nested_handrails : forall hl src f s t s' h, plain_heap hl src (st_heap s) -> manuscript s t -> math_placed s t ->
  translate_handrails hl src f (root t) s = (s', Ok h) -> nested (read_html (render h)).
Proof. exact nested_read_hand. Qed.
Print Assumptions C79_nested_handrails.
Theorem C79_ids_unique : forall hl f s t s' h, plain_heap hl false (st_heap s) -> translatable s t -> labels_apart (st_heap s) t ->
  translate hl f (root t) s = (s', Ok h) -> NoDup (SpecHtml.ids (read_html (render h))).
Proof. exact ids_read. Qed.
Print Assumptions C79_ids_unique.
Theorem C79_references : forall hl f s t s' h, plain_heap hl false (st_heap s) -> translatable s t -> translate hl f (root t) s = (s', Ok h) ->
  forall x y c, x ∈ doc_order t -> class_of (st_heap s) x CReference -> value (st_heap s) x a_target = Some (VNode y) ->
    y ∈ doc_order t -> label_of (st_heap s) y <> [] -> class_of (st_heap s) y c -> c ∉ bare -> c <> CCite ->
    lit "#" ++ label_of (st_heap s) y ∈ SpecHtml.hrefs (read_html (render h)) /\ label_of (st_heap s) y ∈ SpecHtml.ids (read_html (render h)).
Proof. exact refs_read. Qed.
Print Assumptions C79_references.
Example C79_document_nonvacuous : translatable (built readdoc) (wtree readdoc) /\ math_placed (built readdoc) (wtree readdoc) /\
  labels_apart (st_heap (built readdoc)) (wtree readdoc) /\
  SpecHtml.ids (read_html (render readdoc_html)) = [lit "s"; lit "eq"; lit "thm"; lit "cite-0"; lit "cite-0-0"; lit "cite-0-1"; lit "k1"; lit "k1-doi"; lit "k2"] /\
  firstn 1 (SpecHtml.hrefs (read_html (render readdoc_html))) = [lit "#s"].
Proof. split; [exact (proj1 readdoc_ok)|]. split; [exact readdoc_math|]. split; [exact readdoc_labels|]. vm_compute. auto. Qed.
(** With markup in a text the HTML is not even well nested. *)
Theorem C79_markup_refuted : exists hl f s t s' h, translatable s t /\ math_placed s t /\ translate hl f (root t) s = (s', Ok h) /\ nested h /\
  read_html (render h) <> letters h /\ ~ nested (read_html (render h)).
Proof. exact mark_read. Qed.
Print Assumptions C79_markup_refuted.

(** ** C46 *)

(** Without markup in the document, the characters outside of tags contain the texts of the nodes in
    document order. *)
Theorem C46_text_shown_partial : forall hl f s t s' h, plain_heap hl false (st_heap s) -> translatable s t ->
  translate hl f (root t) s = (s', Ok h) ->
  in_order (map snd (flat_map (own_text hl (st_heap s)) (doc_order t))) (text_shown (read_html (render h))).
Proof. exact texts_read. Qed.
Print Assumptions C46_text_shown_partial.
Example C46_text_shown_nonvacuous : plain_heap nohl false (st_heap (built readdoc)) /\ translatable (built readdoc) (wtree readdoc) /\
  map snd (flat_map (own_text nohl (st_heap (built readdoc))) (doc_order (wtree readdoc))) =
    [lit "see "; lit "x"; lit ". 1 < 2"; lit "a"; lit "y"; lit "b"; lit "claim"; lit "step"].
Proof. split; [exact (readdoc_plain false)|]. split; [exact (proj1 readdoc_ok)|]. vm_compute. reflexivity. Qed.
