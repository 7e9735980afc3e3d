(** Properties C37-C46: the translators (rsm/translator.py). *)
From Verif Require Import AgainTwice TrDemo.
From Verif Require Import NodeOps Monad.
Local Open Scope string_scope.
Local Open Scope list_scope.

(** ** C37 *)

(** Whatever the node and the state, the translators never fail because of a deferred closing
    that is missing or left over. *)
Theorem C37_no_deferred_left : forall hl f i s s' e, translate hl f i s = (s', Err e) ->
  e <> ETranslator (lit "Something went wrong") /\
  e <> ETranslator (lit "Cannot finish translation; did you forget to write a visit_* or leave_* method?") /\
  e <> ETranslator (lit "Why are we here?").
Proof. exact no_deferred_base. Qed.
Print Assumptions C37_no_deferred_left.
Theorem C37_no_deferred_left_handrails : forall hl src f i s s' e, translate_handrails hl src f i s = (s', Err e) ->
  e <> ETranslator (lit "Something went wrong") /\
  e <> ETranslator (lit "Cannot finish translation; did you forget to write a visit_* or leave_* method?") /\
  e <> ETranslator (lit "Why are we here?").
Proof. exact no_deferred_hand. Qed.
Print Assumptions C37_no_deferred_left_handrails.
(** [renders]: the output is that of the visit of the root, of its children one after the other,
    and of its own deferred closing. *)
Theorem C37_visit_children_leave : forall hl f s t s' h, manuscript s t -> translate hl f (root t) s = (s', Ok h) ->
  exists s0, st_heap s0 = st_heap s /\ renders (base_tc hl) (translate_ext hl f f) f s0 t h s'.
Proof. exact pairs_base. Qed.
Print Assumptions C37_visit_children_leave.
Theorem C37_visit_children_leave_handrails : forall hl src f s t s' h, manuscript s t ->
  translate_handrails hl src f (root t) s = (s', Ok h) ->
  exists s0, st_heap s0 = st_heap s /\ renders (hr_tc hl src (root t)) (translate_ext hl f f) f s0 t h s'.
Proof. exact pairs_hand. Qed.
Print Assumptions C37_visit_children_leave_handrails.
Example C37_nonvacuous : manuscript trdoc_st trdoc_tree /\ length (doc_order trdoc_tree) = 31 /\
  (exists s', translate nohl 100 (root trdoc_tree) trdoc_st = (s', Ok trdoc_html)) /\ length trdoc_html > 100 /\
  (exists s', translate_handrails nohl false 100 (root trdoc_tree) trdoc_st = (s', Ok trdoc_hand)) /\ length trdoc_hand > 1000 /\
  match html_of wmath2 with Err e => True | Ok _ => False end.
Proof.
  split; [exact trdoc_manuscript|]. split; [reflexivity|]. split; [exact trdoc_translates|].
  split; [apply Nat.ltb_lt; vm_compute; reflexivity|]. split; [exact trdoc_handrails|].
  split; [apply Nat.ltb_lt; vm_compute; reflexivity|]. vm_compute. exact I.
Qed.

(** ** C38, C39 *)

Theorem C38_well_nested_partial : forall hl f s t s' h, manuscript s t -> math_placed s t ->
  translate hl f (root t) s = (s', Ok h) -> nested h.
Proof. exact (fun hl f s t s' h => nested_base hl f s t s' h). Qed.
Print Assumptions C38_well_nested_partial.
Example C38_nonvacuous : manuscript trdoc_st trdoc_tree /\ math_placed trdoc_st trdoc_tree /\
  (exists s', translate nohl 100 (root trdoc_tree) trdoc_st = (s', Ok trdoc_html)) /\
  mathb trdoc_st 10 = true /\ mathb trdoc_st 13 = true /\ mathb trdoc_st 17 = true.
Proof. split; [exact trdoc_manuscript|]. split; [exact trdoc_math|]. split; [exact trdoc_translates|]. vm_compute. auto. Qed.
(** Without [math_placed] it does not hold: a paragraph with two math blocks, one at its end. *)
Theorem C38_well_nested_refuted : exists hl f s t s' h, translatable s t /\
  translate hl f (root t) s = (s', Ok h) /\ ~ nested h.
Proof. exact not_nested_base. Qed.
Print Assumptions C38_well_nested_refuted.

Theorem C39_handrails_well_nested_partial : forall hl src f s t s' h, manuscript s t -> math_placed s t ->
  translate_handrails hl src f (root t) s = (s', Ok h) -> nested h.
Proof. exact (fun hl src f s t s' h => nested_hand hl src f s t s' h). Qed.
Print Assumptions C39_handrails_well_nested_partial.
Example C39_nonvacuous : manuscript trdoc_st trdoc_tree /\ math_placed trdoc_st trdoc_tree /\
  (exists s', translate_handrails nohl false 100 (root trdoc_tree) trdoc_st = (s', Ok trdoc_hand)).
Proof. split; [exact trdoc_manuscript|]. split; [exact trdoc_math|]. exact trdoc_handrails. Qed.
(** A math block outside of a paragraph. *)
Theorem C39_handrails_well_nested_refuted : exists hl src f s t s' h, translatable s t /\
  translate_handrails hl src f (root t) s = (s', Ok h) /\ ~ nested h.
Proof. exact not_nested_hand. Qed.
Print Assumptions C39_handrails_well_nested_refuted.

(** ** C40 *)

Theorem C40_text_once_in_order : forall hl f s s' t h, translatable s t -> translate hl f (root t) s = (s', Ok h) ->
  shown_of t h = flat_map (own_text hl (st_heap s)) (doc_order t).
Proof. exact out_texts. Qed.
Print Assumptions C40_text_once_in_order.
Example C40_nonvacuous : translatable trdoc_st trdoc_tree /\
  (exists s', translate nohl 100 (root trdoc_tree) trdoc_st = (s', Ok trdoc_html)) /\
  map snd (shown_of trdoc_tree trdoc_html) =
    [lit "see "; lit "x"; lit ". Done"; lit "a"; lit "y"; lit "b"; lit "z"; lit "c"; lit "w"; lit "claim"; lit "1+1"; lit "step"].
Proof. split; [exact trdoc_translatable|]. split; [exact trdoc_translates|]. vm_compute. reflexivity. Qed.

(** ** C41 *)

Theorem C41_ids_come_from_labels : forall hl f s s' t h, translatable s t -> translate hl f (root t) s = (s', Ok h) ->
  forall v, v ∈ SpecHtml.ids h -> exists x, x ∈ doc_order t /\ id_of (st_heap s) x v.
Proof. exact ids_come. Qed.
Print Assumptions C41_ids_come_from_labels.
Theorem C41_ids_unique_partial : forall hl f s s' t h, translatable s t -> translate hl f (root t) s = (s', Ok h) ->
  labels_apart (st_heap s) t -> NoDup (SpecHtml.ids h).
Proof. exact ids_unique. Qed.
Print Assumptions C41_ids_unique_partial.
Example C41_nonvacuous : translatable trdoc_st trdoc_tree /\ labels_apart (st_heap trdoc_st) trdoc_tree /\
  (exists s', translate nohl 100 (root trdoc_tree) trdoc_st = (s', Ok trdoc_html)) /\
  SpecHtml.ids trdoc_html = [lit "s"; lit "eq"; lit "thm"; lit "cite-0"; lit "cite-0-0"; lit "cite-0-1"; lit "k1"; lit "k1-doi"; lit "k2"].
Proof.
  split; [exact trdoc_translatable|]. split; [exact trdoc_labels|]. split; [exact trdoc_translates|]. vm_compute. reflexivity.
Qed.
(** Unique labels are not enough: a labelled figure has its id twice. *)
Theorem C41_ids_unique_refuted : exists hl f s t s' h, translatable s t /\
  (forall x y, x ∈ doc_order t -> y ∈ doc_order t -> label_of (st_heap s) x <> [] ->
     label_of (st_heap s) x = label_of (st_heap s) y -> x = y) /\
  translate hl f (root t) s = (s', Ok h) /\ ~ NoDup (SpecHtml.ids h).
Proof. exact ids_twice. Qed.
Print Assumptions C41_ids_unique_refuted.

(** ** C42 *)

Theorem C42_reference_links_partial : forall hl f s s' t h, translatable s t -> translate hl f (root t) s = (s', Ok h) ->
  forall x y c, x ∈ doc_order t -> class_of (st_heap s) x CReference -> value (st_heap s) x a_target = Some (VNode y) ->
    y ∈ doc_order t -> label_of (st_heap s) y <> [] ->
    class_of (st_heap s) y c -> c ∉ bare -> c <> CCite ->
    lit "#" ++ label_of (st_heap s) y ∈ SpecHtml.hrefs h /\ label_of (st_heap s) y ∈ SpecHtml.ids h.
Proof. exact ref_links. Qed.
Print Assumptions C42_reference_links_partial.
Theorem C42_citation_links : forall hl f s s' t h, translatable s t -> translate hl f (root t) s = (s', Ok h) ->
  forall x ys y c, x ∈ doc_order t -> class_of (st_heap s) x CCite -> value (st_heap s) x a_targets = Some (VNodes ys) -> y ∈ ys ->
    y ∈ doc_order t -> label_of (st_heap s) y <> [] ->
    class_of (st_heap s) y c -> c = CBibitem \/ c = CUnknownBibitem ->
    lit "#" ++ label_of (st_heap s) y ∈ SpecHtml.hrefs h /\ label_of (st_heap s) y ∈ SpecHtml.ids h.
Proof. exact cite_links_ok. Qed.
Print Assumptions C42_citation_links.
(** 4 is a reference to the section 1, 22 a citation of the items 29 and 30. *)
Example C42_nonvacuous : translatable trdoc_st trdoc_tree /\
  (exists s', translate nohl 100 (root trdoc_tree) trdoc_st = (s', Ok trdoc_html)) /\
  is_class trdoc_st 4 CReference = true /\ value (st_heap trdoc_st) 4 a_target = Some (VNode 1) /\
  is_class trdoc_st 1 CSection = true /\ label_of (st_heap trdoc_st) 1 = lit "s" /\
  is_class trdoc_st 22 CCite = true /\ value (st_heap trdoc_st) 22 a_targets = Some (VNodes [29; 30]) /\
  is_class trdoc_st 30 CBibitem = true /\ label_of (st_heap trdoc_st) 30 = lit "k2".
Proof. split; [exact trdoc_translatable|]. split; [exact trdoc_translates|]. repeat split; vm_compute; reflexivity. Qed.
(** A reference to a caption leads nowhere. *)
Theorem C42_reference_links_refuted : exists hl f s t s' h x y, translatable s t /\
  translate hl f (root t) s = (s', Ok h) /\
  x ∈ doc_order t /\ class_of (st_heap s) x CReference /\ value (st_heap s) x a_target = Some (VNode y) /\
  y ∈ doc_order t /\ label_of (st_heap s) y <> [] /\ ~ label_of (st_heap s) y ∈ SpecHtml.ids h.
Proof. exact dead_link. Qed.
Print Assumptions C42_reference_links_refuted.

(** ** C43 *)

Theorem C43_classes_once : forall l, firsts l (dedup l).
Proof. exact dedup_firsts. Qed.
Print Assumptions C43_classes_once.
(** The tag written for a node lists its class name, its types and the extra classes in this way. *)
Theorem C43_node_tags : forall i tag add a b c s s' k, node_tag_full i tag add a b c s = (s', Ok k) ->
  exists g n l, k = KOpen g /\ st_heap s !! i = Some n /\ n_attrs n !! a_types = Some (VStrs l) /\
    firsts (name_lower (n_cls n) :: l ++ add) (tg_classes g).
Proof. exact node_tag_classes. Qed.
Print Assumptions C43_node_tags.
Example C43_nonvacuous : dedup [lit "a"; lit "b"; lit "a"; lit "c"; lit "b"] = [lit "a"; lit "b"; lit "c"] /\
  is_ok (snd (node_tag_full 1 "div" [lit "x"; lit "section"] false false false trdoc_st)) = true.
Proof. split; vm_compute; reflexivity. Qed.
(** The links of references repeat the types of the reference. *)
Theorem C43_links_refuted : exists hl f s t s' h, translatable s t /\ translate hl f (root t) s = (s', Ok h) /\
  occurs (lit "class=""reference x x""") (render h).
Proof. exact link_classes. Qed.
Print Assumptions C43_links_refuted.

(** ** C44 *)

(** Only the types of the nodes and a private flag of paragraphs change. *)
Theorem C44_structure_kept_partial : forall hl f s t s' h, manuscript s t -> translate hl f (root t) s = (s', Ok h) ->
  tree_at (st_heap s') None t /\ unchanged [a_types; a_must_close_p_tag] s s'.
Proof. exact keeps_base. Qed.
Print Assumptions C44_structure_kept_partial.
(** The handrails translator also changes the text of the node after a formula. *)
Theorem C44_structure_kept_handrails_partial : forall hl src f s t s' h, manuscript s t ->
  translate_handrails hl src f (root t) s = (s', Ok h) ->
  tree_at (st_heap s') None t /\ unchanged [a_types; a_must_close_p_tag; a_text; a_followed_by_dot] s s'.
Proof. exact keeps_hand. Qed.
Print Assumptions C44_structure_kept_handrails_partial.
Example C44_nonvacuous : manuscript trdoc_st trdoc_tree /\
  (exists s', translate nohl 100 (root trdoc_tree) trdoc_st = (s', Ok trdoc_html)) /\
  (exists s', translate_handrails nohl false 100 (root trdoc_tree) trdoc_st = (s', Ok trdoc_hand)).
Proof. split; [exact trdoc_manuscript|]. split; [exact trdoc_translates|]. exact trdoc_handrails. Qed.
(** The second translation by the base translator gives the same HTML.  Missing: the same for the
    handrails translator, which is false. *)
Theorem C44_base_repeatable_partial : forall hl f s t s' h, manuscript s t ->
  (forall j m a v y, st_heap s !! j = Some m -> n_attrs m !! a = Some v -> y ∈ nodes_in v -> is_Some (st_heap s !! y)) ->
  translate hl f (root t) s = (s', Ok h) ->
  exists s'' h', translate hl f (root t) s' = (s'', Ok h') /\ render h' = render h.
Proof. exact base_repeatable. Qed.
Print Assumptions C44_base_repeatable_partial.
Example C44_base_repeatable_nonvacuous : manuscript trdoc_st trdoc_tree /\
  (forall j m a v y, st_heap trdoc_st !! j = Some m -> n_attrs m !! a = Some v -> y ∈ nodes_in v -> is_Some (st_heap trdoc_st !! y)) /\
  (exists s', translate nohl 100 (root trdoc_tree) trdoc_st = (s', Ok trdoc_html)).
Proof. split; [exact trdoc_manuscript|]. split; [exact trdoc_linked|exact trdoc_translates]. Qed.
(** The second translation with handrails of "let $x$. Then" gives another HTML. *)
Theorem C44_handrails_repeatable_refuted : exists hl src f s t s' s'' h h', translatable s t /\
  translate_handrails hl src f (root t) s = (s', Ok h) /\ translate_handrails hl src f (root t) s' = (s'', Ok h') /\
  render h <> render h'.
Proof. exact not_repeatable. Qed.
Print Assumptions C44_handrails_repeatable_refuted.

(** ** C45 *)

Theorem C45_dispatch_nearest : forall hl f i s n ts, st_heap s !! i = Some n ->
  (exists m, nearest visit_defined (n_cls n) m /\ base_visit hl f i s = visit_method hl f m i s) /\
  (exists m, nearest leave_defined (n_cls n) m /\ base_leave f i ts s = leave_method m i ts s).
Proof. exact dispatch_base. Qed.
Print Assumptions C45_dispatch_nearest.
Theorem C45_dispatch_nearest_handrails : forall hl src root f i s n ts, st_heap s !! i = Some n ->
  (exists m, nearest visit_defined (n_cls n) m /\ hr_visit hl src root f i s = hvisit_method hl src root f m i s) /\
  (exists m, nearest hleave_defined (n_cls n) m /\ hr_leave f i ts s = hleave_method f m i ts s).
Proof. exact dispatch_hr. Qed.
Print Assumptions C45_dispatch_nearest_handrails.
Example C45_nonvacuous : dispatch visit_defined CLemma = Some CTheorem /\ dispatch visit_defined CSubsection = Some CSection /\
  dispatch visit_defined CStep = Some CStep /\ dispatch leave_defined CTheorem = Some CNode /\ is_class trdoc_st 19 CTheorem = true.
Proof. repeat split; vm_compute; reflexivity. Qed.

(** ** C46 *)

(** The text of a node is not escaped: a text with markup is written as it is, and not in the form
    that shows its characters. *)
Theorem C46_text_escaped_refuted : exists hl f s t s' h x, translatable s t /\ translate hl f (root t) s = (s', Ok h) /\
  x ∈ doc_order t /\ class_of (st_heap s) x CText /\ text_at (st_heap s) x = lit "<script>" /\
  occurs (lit "<script>") (render h) /\ ~ occurs (html_escape (lit "<script>")) (render h).
Proof. exact not_escaped. Qed.
Print Assumptions C46_text_escaped_refuted.
