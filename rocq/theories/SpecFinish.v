(** When a transformed document can be translated. *)
From Verif Require Export SpecTyped SpecTranslate SpecTransform.
Local Open Scope list_scope.

(** A template for reference texts that can be filled, whatever the class and the number. *)
Definition fillable (tmpl : str) : Prop := forall c k, exists o, fills c k tmpl o.

(** An entry of the bibliography whose texts are strings: the author, the year if there is one, and
    the venue, if there is one, for the kinds of entry that have one. *)
Record proper_entry (h : gmap id node) (x : id) : Prop := {
  pe_author : exists a, value h x a_author = Some (VStr a);
  pe_year : forall v, value h x a_year = Some v -> truthy v = true -> exists y, v = VStr y;
  pe_journal : forall v, value h x a_kind = Some (VStr (lit "article")) -> value h x a_journal = Some v -> truthy v = true -> exists y, v = VStr y;
  pe_publisher : forall v, value h x a_kind = Some (VStr (lit "book")) -> value h x a_publisher = Some v -> truthy v = true -> exists y, v = VStr y
}.

(** None of the mistakes for which translate raises an exception. *)
Record translatable_doc (s : st) (t : tree) : Prop := {
  td_manuscript : manuscript s t;
  td_root : class_of (st_heap s) (root t) CManuscript;
  td_typed : typed s;
  td_complete : complete s;
  (* displayed formulas are children of paragraphs *)
  td_math : forall x, x ∈ doc_order t -> class_of (st_heap s) x CMathBlock -> exists p, parent_is (st_heap s) x p /\ class_of (st_heap s) p CParagraph;
  (* references have been resolved *)
  td_refs : forall x, x ∈ doc_order t -> class_of (st_heap s) x CReference -> exists y, value (st_heap s) x a_target = Some (VNode y);
  td_resolved : forall x c y, x ∈ doc_order t -> class_of (st_heap s) x c -> In c [CBaseReference; CPendingReference; CPendingPrev] ->
    value (st_heap s) x a_target <> Some (VNode y);
  (* links to the web have an address *)
  td_urls : forall x, x ∈ doc_order t -> class_of (st_heap s) x CURL -> exists u, value (st_heap s) x a_target = Some (VStr u) /\ u <> [];
  td_entries : forall x c, x ∈ doc_order t -> class_of (st_heap s) x c -> subclass c CBibitem = true -> proper_entry (st_heap s) x;
  td_templates : forall x tmpl, value (st_heap s) x a_reftext_template = Some (VStr tmpl) -> fillable tmpl
}.

(** Further mistakes for which the translator with handrails raises an exception: an author without
    name, affiliation and email, and a table of contents that refers to something else than a section
    of one of the three levels. *)
Record handrails_doc (s : st) (t : tree) : Prop := {
  hd_doc : translatable_doc s t;
  hd_authors : forall x, x ∈ doc_order t -> class_of (st_heap s) x CAuthor ->
    exists a v, In a [a_name; a_affiliation; a_email] /\ value (st_heap s) x a = Some v /\ truthy v = true;
  hd_contents : forall c x y, c ∈ doc_order t -> class_of (st_heap s) c CContents -> ancestor (st_heap s) x c ->
    class_of (st_heap s) x CReference -> value (st_heap s) x a_target = Some (VNode y) ->
    exists k, In k [CSection; CSubsection; CSubsubsection] /\ class_of (st_heap s) y k
}.
