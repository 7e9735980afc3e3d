(** What the whole way from the source to the HTML is compared with: properties of the manuscript
    that the source stands for (SpecParse.v, SpecNorm.v), without nodes in memory. *)
From Verif Require Export Render SpecText SpecTyped SpecTranslate.
Local Open Scope string_scope.
Local Open Scope list_scope.

(** The manuscript of a source. *)
Definition manuscript_of (c : cst) : atree := norm (mirrored c).
(** Sources in which every meta key has a value of its kind, without syntax error. *)
Record clean_source (c : cst) : Prop := {
  cl_source : source c;
  cl_keys : keys_typed c;
  cl_errors : forall d, In d (c_preorder c) -> is_type "ERROR" d = false
}.
(** Displayed formulas are in paragraphs; one that ends a paragraph is the only one in it. *)
Record formulas_placed (a : atree) : Prop := {
  fp_parent : forall x k, In x (a_preorder a) -> In k (a_kids x) -> a_class k = CMathBlock -> a_class x = CParagraph;
  fp_contents : forall x k, In x (a_preorder a) -> a_class x = CParagraph -> In k (a_kids x) -> a_class k <> CContents;
  fp_last : forall x l k y, In x (a_preorder a) -> a_kids x = l ++ [k] -> a_class k = CMathBlock -> In y l -> a_class y <> CMathBlock
}.
(** The texts a reader sees, in order: those of the texts, and a note in place of each reference to
    a label that nothing carries. *)
Definition string_at (a : attr) (t : atree) : str := match a_attrs t !! a with Some (VStr s) => s | _ => [] end.
Definition carries (lbl : str) (b : atree) : Prop := lbl <> [] /\ a_attrs b !! a_label = Some (VStr lbl).
(** The first node of the manuscript with the label. *)
Definition first_carrier (a : atree) (lbl : str) (x : atree) : Prop :=
  carries lbl x /\ exists l1 l2, a_preorder a = l1 ++ x :: l2 /\ forall y, In y l1 -> ~ carries lbl y.
Inductive text_shown (hl : str -> str -> str) (a : atree) (b : atree) : list str -> Prop :=
| ts_text : a_class b = CText \/ a_class b = CError -> text_shown hl a b [string_at a_text b]
| ts_plain_code : a_class b = CSourceCode -> string_at a_lang b = [] -> text_shown hl a b [string_at a_text b]
| ts_code : a_class b = CSourceCode -> string_at a_lang b <> [] -> text_shown hl a b [hl (string_at a_text b) (string_at a_lang b)]
| ts_unknown lbl : a_class b = CPendingReference -> a_attrs b !! a_target = Some (VStr lbl) ->
    (forall x, In x (a_preorder a) -> ~ carries lbl x) -> text_shown hl a b [lit "[unknown label """ ++ lbl ++ lit """]"]
| ts_known lbl x : a_class b = CPendingReference -> a_attrs b !! a_target = Some (VStr lbl) ->
    In x (a_preorder a) -> carries lbl x -> text_shown hl a b []
| ts_other : a_class b <> CText -> a_class b <> CError -> a_class b <> CSourceCode -> a_class b <> CPendingReference -> text_shown hl a b [].
Definition texts_shown (hl : str -> str -> str) (a : atree) (l : list str) : Prop :=
  exists ls, Forall2 (text_shown hl a) (a_preorder a) ls /\ l = concat ls.
(** The marker of the table of contents has nothing in it. *)
Definition contents_empty (a : atree) : Prop := forall x, In x (a_preorder a) -> a_class x = CContents -> a_kids x = [].

(** ** Rendering *)

(** The text that [render(source=…)] or [render(path=…)] works on. *)
Definition given (source path : str) (fs : files) (text : str) : Prop :=
  (source <> [] /\ path = [] /\ text = source) \/
  (source = [] /\ path <> [] /\ plain_path path = true /\ fs !! path_str path = Some text).
(** The pieces of HTML that the translator puts out for the source [text], in a process of its own;
    their concatenation is the HTML.  [m] is the memory at the end, and [i] the manuscript. *)
Definition pieces (ts : str -> cst) (hl : str -> str -> str) (fuel : nat) (handrails add_source : bool) (text : str) (h : list tok) (m : st) (i : id) : Prop :=
  exists s1 s2 d, parse fuel (ts text) empty_st = (s1, Ok i) /\ transform fuel [] i s1 = (s2, Ok d) /\
    (if handrails then translate_handrails hl add_source fuel i else translate hl fuel i) s2 = (m, Ok h).
