(** When a document can be shown: transformed and translated. *)
From Verif Require Export SpecTotal SpecFinish.
Local Open Scope list_scope.

(** A template for reference texts made of text without braces and of the two fields. *)
Inductive simple_template : str -> Prop :=
| st_nil : simple_template []
| st_char x t : x <> 123%N -> x <> 125%N -> simple_template t -> simple_template (x :: t)
| st_class t : simple_template t -> simple_template (lit "{nodeclass}" ++ t)
| st_number t : simple_template t -> simple_template (lit "{number}" ++ t).

(** A document, as parsed, with none of the mistakes for which transform or translate raises an
    exception. *)
Record presentable (s : st) (t : tree) : Prop := {
  ps_transformable : transformable s t;
  (* displayed formulas are children of paragraphs *)
  ps_math : forall x, x ∈ doc_order t -> class_of (st_heap s) x CMathBlock -> exists p, parent_is (st_heap s) x p /\ class_of (st_heap s) p CParagraph;
  (* references are still to be resolved *)
  ps_refs : forall x, x ∈ doc_order t -> ~ class_of (st_heap s) x CReference;
  ps_base : forall x, x ∈ doc_order t -> ~ class_of (st_heap s) x CBaseReference;
  (* links to the web have an address *)
  ps_urls : forall x, x ∈ doc_order t -> class_of (st_heap s) x CURL -> exists u, value (st_heap s) x a_target = Some (VStr u) /\ u <> [];
  (* the entries of the bibliography are filled in *)
  ps_entries : forall x c, x ∈ doc_order t -> class_of (st_heap s) x c -> subclass c CBibitem = true -> proper_entry (st_heap s) x;
  ps_templates : forall x tmpl, value (st_heap s) x a_reftext_template = Some (VStr tmpl) -> simple_template tmpl
}.
(** ... and by the translator with handrails. *)
Record presentable_handrails (s : st) (t : tree) : Prop := {
  ph_doc : presentable s t;
  ph_authors : forall x, x ∈ doc_order t -> class_of (st_heap s) x CAuthor ->
    exists a v, In a [a_name; a_affiliation; a_email] /\ value (st_heap s) x a = Some v /\ truthy v = true;
  (* the place of the table of contents is empty *)
  ph_contents : forall x, x ∈ doc_order t -> class_of (st_heap s) x CContents -> kids_are (st_heap s) x []
}.

(** The mistakes that are left to the author of a source without syntax errors: what the parser
    makes of any such source has everything else that [presentable] asks for. *)
Record well_written (s : st) (t : tree) : Prop := {
  (* a :ref: names its target *)
  ww_refs : forall x, x ∈ doc_order t -> class_of (st_heap s) x CPendingReference ->
    exists l, value (st_heap s) x a_target = Some (VStr l);
  (* a key of a :cite: that labels something labels a bibliography item *)
  ww_cites : forall x keys k y, x ∈ doc_order t -> class_of (st_heap s) x CPendingCite ->
    value (st_heap s) x a_targetlabels = Some (VStrs keys) -> k ∈ keys ->
    first_labelled (st_heap s) (doc_order t) k y -> class_of (st_heap s) y CBibitem;
  (* a :prev: is in a step with enough steps before it *)
  ww_prevs : forall x, x ∈ doc_order t -> class_of (st_heap s) x CPendingPrev ->
    exists step v k y, closest_ancestor (st_heap s) [CStep] x (Some step) /\
      value (st_heap s) x a_target = Some v /\ py_int (fmt_val v) = Some k /\
      kth_previous (st_heap s) step (Z.to_nat k) y;
  (* if the first of the steps and subproofs in a step is a subproof, it comes last *)
  ww_subproofs : forall x pre c post, x ∈ doc_order t -> class_of (st_heap s) x CStep ->
    kids_are (st_heap s) x (pre ++ c :: post) -> (forall y, y ∈ pre -> ~ step_or_sub (st_heap s) y) ->
    class_of (st_heap s) c CSubproof -> post = [];
  (* not more than 26 appendices *)
  ww_letters : forall p x q sc k, doc_order t = p ++ x :: q ->
    is_numbered (st_heap s) x = true -> scope_of (st_heap s) x = [CManuscript] ->
    (exists a, a ∈ p /\ is_appendix (st_heap s) a = true) ->
    current_scope (st_heap s) [CManuscript] p sc ->
    exactly (consumes (st_heap s) [CManuscript] (sequence_of (st_heap s) x)) k sc -> k < 26;
  (* sections are nested as their levels say, if there is a table of contents *)
  ww_nested : (exists x, x ∈ doc_order t /\ is_contents (st_heap s) x = true) -> well_nested (st_heap s) t;
  (* constructs have a kind *)
  ww_kinds : forall x, x ∈ doc_order t -> is_construct (st_heap s) x = true ->
    exists kind, value (st_heap s) x a_kind = Some (VStr kind) /\ kind <> [];
  (* displayed formulas are children of paragraphs *)
  ww_math : forall x, x ∈ doc_order t -> class_of (st_heap s) x CMathBlock -> exists p, parent_is (st_heap s) x p /\ class_of (st_heap s) p CParagraph;
  (* links to the web have an address *)
  ww_urls : forall x, x ∈ doc_order t -> class_of (st_heap s) x CURL -> exists u, value (st_heap s) x a_target = Some (VStr u) /\ u <> [];
  (* the entries of the bibliography are filled in *)
  ww_entries : forall x c, x ∈ doc_order t -> class_of (st_heap s) x c -> subclass c CBibitem = true -> proper_entry (st_heap s) x;
  ww_templates : forall x tmpl, value (st_heap s) x a_reftext_template = Some (VStr tmpl) -> simple_template tmpl
}.
Record well_written_handrails (s : st) (t : tree) : Prop := {
  wh_doc : well_written s t;
  wh_authors : forall x, x ∈ doc_order t -> class_of (st_heap s) x CAuthor ->
    exists a v, In a [a_name; a_affiliation; a_email] /\ value (st_heap s) x a = Some v /\ truthy v = true;
  wh_contents : forall x, x ∈ doc_order t -> class_of (st_heap s) x CContents -> kids_are (st_heap s) x []
}.
