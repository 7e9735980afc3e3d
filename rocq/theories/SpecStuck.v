(** The mistakes that translate minds, and the exceptions they give. *)
From Verif Require Export SpecSource SpecMistakes SpecFinish Handrails.
Local Open Scope list_scope.

(** Translation raises this exception, whatever the number of steps that the model allows it, if it is large enough. *)
Definition translate_raises (hl : str -> str -> str) (s : st) (t : tree) (e : exn) : Prop :=
  exists fuel, forall fuel', fuel <= fuel' -> exists s', translate hl fuel' (root t) s = (s', Err e).

(** The mistake at the node [x], and its exception. *)
Inductive minded (h : gmap id node) (x : id) : exn -> Prop :=
(* a displayed formula outside of a paragraph *)
| minded_formula : class_of h x CMathBlock -> (forall p, parent_is h x p -> ~ class_of h p CParagraph) -> minded h x EAssert
(* a reference that refers to nothing *)
| minded_reference : class_of h x CReference -> (forall y, value h x a_target <> Some (VNode y)) -> minded h x EAttribute
(* a link without an address *)
| minded_link : class_of h x CURL -> (value h x a_target = Some VNone \/ value h x a_target = Some (VStr [])) ->
    minded h x (ETranslator (lit "Found a node without a target"))
(* an entry of the bibliography whose author is missing, or whose author, year or venue is not a text *)
| minded_entry c : class_of h x c -> subclass c CBibitem = true -> ~ proper_entry h x -> minded h x EAttribute.

(** [x] is the first node of the document with a mistake. *)
Definition first_minded (s : st) (t : tree) (x : id) (e : exn) : Prop :=
  minded (st_heap s) x e /\
  exists p q, doc_order t = p ++ x :: q /\ forall y e', y ∈ p -> ~ minded (st_heap s) y e'.

(** What transform leaves (Properties_total.v), and nothing else that is of no use. *)
Record presented (s : st) (t : tree) : Prop := {
  pr_manuscript : manuscript s t;
  pr_root : class_of (st_heap s) (root t) CManuscript;
  pr_typed : typed s;
  pr_complete : complete s;
  (* pending references have been resolved *)
  pr_resolved : forall x c y, x ∈ doc_order t -> class_of (st_heap s) x c -> In c [CBaseReference; CPendingReference; CPendingPrev] ->
    value (st_heap s) x a_target <> Some (VNode y);
  (* an address is a text, if there is one *)
  pr_addresses : forall x v, x ∈ doc_order t -> class_of (st_heap s) x CURL -> value (st_heap s) x a_target = Some v -> v = VNone \/ exists u, v = VStr u;
  (* no formula directly in a step (a statement is between them) or in a caption *)
  pr_formulas : forall x p, x ∈ doc_order t -> class_of (st_heap s) x CMathBlock -> parent_is (st_heap s) x p ->
    ~ class_of (st_heap s) p CStep /\ ~ class_of (st_heap s) p CCaption;
  pr_templates : forall x tmpl, value (st_heap s) x a_reftext_template = Some (VStr tmpl) -> fillable tmpl
}.

(** What the parser makes of a source, before transform: pending references are still to be resolved,
    addresses are texts, and formulas are in nodes that keep their children (lists and steps get items
    and statements in between). There may be mistakes. *)
Record printable (s : st) (t : tree) : Prop := {
  pt_ready : SpecResult.ready s t;
  pt_typed : typed s;
  pt_complete : complete s;
  pt_root : class_of (st_heap s) (root t) CManuscript;
  pt_refs : forall x, x ∈ doc_order t -> ~ class_of (st_heap s) x CReference;
  pt_base : forall x, x ∈ doc_order t -> ~ class_of (st_heap s) x CBaseReference;
  pt_addresses : forall x v, x ∈ doc_order t -> class_of (st_heap s) x CURL -> value (st_heap s) x a_target = Some v -> v = VNone \/ exists u, v = VStr u;
  pt_formulas : forall x p c, x ∈ doc_order t -> class_of (st_heap s) x CMathBlock -> parent_is (st_heap s) x p -> class_of (st_heap s) p c ->
    ~ In c [CStep; CItemize; CEnumerate; CContents; CCaption; CPendingReference; CPendingCite; CPendingPrev];
  pt_templates : forall x tmpl, value (st_heap s) x a_reftext_template = Some (VStr tmpl) -> simple_template tmpl
}.

(** ** With handrails *)

Definition handrails_raises (hl : str -> str -> str) (src : bool) (s : st) (t : tree) (e : exn) : Prop :=
  exists fuel, forall fuel', fuel <= fuel' -> exists s', translate_handrails hl src fuel' (root t) s = (s', Err e).
Inductive minded_rails (h : gmap id node) (x : id) : exn -> Prop :=
| minded_same e : minded h x e -> minded_rails h x e
(* an author of whom nothing is said *)
| minded_author : class_of h x CAuthor ->
    (forall a v, In a [a_name; a_affiliation; a_email] -> value h x a = Some v -> truthy v = false) -> minded_rails h x EAttribute.
Definition first_minded_rails (s : st) (t : tree) (x : id) (e : exn) : Prop :=
  minded_rails (st_heap s) x e /\
  exists p q, doc_order t = p ++ x :: q /\ forall y e', y ∈ p -> ~ minded_rails (st_heap s) y e'.
(** Formulas are in paragraphs, and the table of contents lists sections. *)
Record presented_rails (s : st) (t : tree) : Prop := {
  prr_doc : presented s t;
  prr_formulas : forall x, x ∈ doc_order t -> class_of (st_heap s) x CMathBlock -> exists p, parent_is (st_heap s) x p /\ class_of (st_heap s) p CParagraph;
  prr_contents : forall c x, c ∈ doc_order t -> class_of (st_heap s) c CContents -> ancestor (st_heap s) x c -> class_of (st_heap s) x CReference ->
    exists y k, value (st_heap s) x a_target = Some (VNode y) /\ In k [CSection; CSubsection; CSubsubsection] /\ class_of (st_heap s) y k
}.
(** Before transform: formulas are in paragraphs, and the places of the tables of contents are empty. *)
Record printable_rails (s : st) (t : tree) : Prop := {
  ptr_doc : printable s t;
  ptr_formulas : forall x, x ∈ doc_order t -> class_of (st_heap s) x CMathBlock -> exists p, parent_is (st_heap s) x p /\ class_of (st_heap s) p CParagraph;
  ptr_contents : forall x, x ∈ doc_order t -> class_of (st_heap s) x CContents -> kids_are (st_heap s) x []
}.

(** ** Sources *)

(** What is asked of the manuscript that the parser makes of a source without syntax errors; it has
    everything else that [printable] asks for. *)
Record put_down (s : st) (t : tree) : Prop := {
  pd_addresses : forall x v, x ∈ doc_order t -> class_of (st_heap s) x CURL -> value (st_heap s) x a_target = Some v -> v = VNone \/ exists u, v = VStr u;
  pd_formulas : forall x p c, x ∈ doc_order t -> class_of (st_heap s) x CMathBlock -> parent_is (st_heap s) x p -> class_of (st_heap s) p c ->
    ~ In c [CStep; CItemize; CEnumerate; CContents; CCaption; CPendingReference; CPendingCite; CPendingPrev];
  pd_templates : forall x tmpl, value (st_heap s) x a_reftext_template = Some (VStr tmpl) -> simple_template tmpl
}.
Record put_down_rails (s : st) (t : tree) : Prop := {
  pdr_doc : put_down s t;
  pdr_formulas : forall x, x ∈ doc_order t -> class_of (st_heap s) x CMathBlock -> exists p, parent_is (st_heap s) x p /\ class_of (st_heap s) p CParagraph;
  pdr_contents : forall x, x ∈ doc_order t -> class_of (st_heap s) x CContents -> kids_are (st_heap s) x []
}.

(** The mistake of the document [t] that transform or translate raises [e] for. *)
Inductive blamed (handrails : bool) (s : st) (t : tree) : exn -> Prop :=
| blamed_reference x e : first_mistake s t x e -> blamed handrails s t e
| blamed_subproof x : x ∈ doc_order t -> misplaced_subproof (st_heap s) x -> blamed handrails s t EAssert
| blamed_letter x : x ∈ doc_order t -> no_letter (st_heap s) t x -> blamed handrails s t EStopIteration
| blamed_kind x : x ∈ doc_order t -> no_kind (st_heap s) x -> blamed handrails s t EAssert
| blamed_node x e : handrails = false -> first_minded s (prune (later_contents (st_heap s) t) t) x e -> blamed handrails s t e
| blamed_rails x e : handrails = true -> first_minded_rails s (prune (later_contents (st_heap s) t) t) x e -> blamed handrails s t e.
(** What is asked besides: a :ref: names its target, only bibliography items have back links, and sections
    are nested as their levels say, if there is a table of contents. *)
Record arranged (s : st) (t : tree) : Prop := {
  ar_refs : forall x, x ∈ doc_order t -> class_of (st_heap s) x CPendingReference -> exists l, value (st_heap s) x a_target = Some (VStr l);
  ar_backlinks : forall x v, x ∈ doc_order t -> value (st_heap s) x a_backlinks = Some v -> class_of (st_heap s) x CBibitem;
  ar_nested : (exists x, x ∈ doc_order t /\ is_contents (st_heap s) x = true) -> well_nested (st_heap s) t
}.
