(** What the page shows, node by node: the elements (without ids, classes, links and paragraph
    tags, which other specifications cover), their order and nesting, and every text in them. *)
From Verif Require Export SpecMarks.
Local Open Scope string_scope.
Local Open Scope list_scope.

(** Line breaks are not compared. *)
Definition no_breaks (s : str) : str := List.filter (fun c => negb (N.eqb c 10)) s.

(** ** Reading a page *)

Definition left_out (a : attrib) : bool :=
  match a with AQ k _ | AU k _ => str_mem k (map lit ["id"; "class"; "href"; "target"; "tabindex"; "data-nodeid"]) end.
Definition written (ats : list attrib) : str := concat (map render_attrib (List.filter (fun a => negb (left_out a)) ats)).
Definition is_p (tag : str) : bool := str_eqb tag (lit "p").
Definition plain_tok (t : tok) : str :=
  match t with
  | TOpen tag ats => if is_p tag then [] else lit "<" ++ tag ++ written ats ++ lit ">"
  | TClose tag => if is_p tag then [] else lit "</" ++ tag ++ lit ">"
  | TSelf tag ats => lit "<" ++ tag ++ written ats ++ lit " />"
  | TRaw s | TText _ s => no_breaks s
  end.
Definition plain_page (ts : list tok) : str := flat_map plain_tok ts.

(** ** Writing it *)

Definition el (tag : str) (content : str) : str := lit "<" ++ tag ++ lit ">" ++ content ++ lit "</" ++ tag ++ lit ">".
(** The title of a block: a label and a description, each one if it is not empty. *)
Definition title_piece (s : str) : str := match s with [] => [] | _ => el (lit "span") (no_breaks s) end.
Definition block_title (label desc : str) : str := el (lit "div") (title_piece label ++ title_piece desc).

Section Page.
Context (f : nat) (hl : str -> str -> str) (s : st).
Notation h := (st_heap s).
Notation "i @ a" := (aval h i a) (at level 9).
Definition when (v : val) (x : str) : str := if truthy v then x else [].
Definition val_text (v : val) : str := no_breaks (fmt_val v).
(** [node.full_number] and [node.reftext] *)
Definition num (x : id) : str := match snd (full_number f x s) with Ok (Some r) => r | _ => lit "None" end.
Definition ref (x : id) : str := match snd (reftext f x s) with Ok r => r | _ => [] end.
(** The text of a link is that given by the author or, failing that, [d]. *)
Definition link_text (i : id) (d : str) : str := if truthy (i @ a_overwrite_reftext) then fmt_val (i @ a_overwrite_reftext) else d.
Definition anchor_el (t : str) : str := el (lit "a") (no_breaks t).

Definition author_page (i : id) (inner : str) : str :=
  el (lit "div") ((if truthy (i @ a_name) || truthy (i @ a_affiliation) || truthy (i @ a_email)
    then el (lit "div") (when (i @ a_name) (val_text (i @ a_name)) ++ when (i @ a_affiliation) (val_text (i @ a_affiliation)) ++
                         when (i @ a_email) (el (lit "a") (val_text (i @ a_email))))
    else []) ++ inner).
Definition abstract_lists (i : id) : str :=
  match i @ a_keywords with VStrs (x :: r) => no_breaks (lit "Keywords: " ++ join (lit ", ") (x :: r)) | _ => [] end ++
  match i @ a_msc with VStrs (x :: r) => no_breaks (lit "MSC: " ++ join (lit ", ") (x :: r)) | _ => [] end.
Definition heading_text (i : id) : str := if truthy (i @ a_nonum) then fmt_val (i @ a_title) else num i ++ lit ". " ++ fmt_val (i @ a_title).
Definition span_page (i : id) (inner : str) : str :=
  let mark a tag x := if truthy (i @ a) then el (lit tag) x else x in
  el (lit "span") (mark a_strong "strong" (mark a_emphas "em" (mark a_little "small" (mark a_insert "ins" (mark a_delete "del" inner))))).
Definition theorem_title (c : cls) (i : id) : str :=
  block_title (capitalize (lower (cls_name c)) ++ (if negb (truthy (i @ a_nonum)) && truthy (i @ a_number) then lit " " ++ num i else [])
               ++ (if truthy (i @ a_title) then lit ": " else lit "."))
              (if truthy (i @ a_title) then fmt_val (i @ a_title) else []).
Definition cite_page (i : id) : str :=
  match i @ a_targets with
  | VNodes [t] => lit "[" ++ anchor_el (link_text i (ref t)) ++ lit "]"
  | VNodes ts => lit "[" ++ el (lit "span") (join (lit ", ") (map (fun t => anchor_el (link_text i (ref t))) ts)) ++ lit "]"
  | _ => []
  end.
(** The entry of a bibliography: its parts without dots at their ends, each followed by a dot. *)
Definition entry_parts (i : id) : list val :=
  (if truthy (i @ a_number) then [VStr (fmt_val (i @ a_number) ++ lit ".")] else []) ++
  [i @ a_author; VStr (lit """" ++ fmt_val (i @ a_title) ++ lit """")] ++
  (if val_eqb (i @ a_kind) (VStr (lit "article")) then (if truthy (i @ a_journal) then [i @ a_journal] else [])
   else if val_eqb (i @ a_kind) (VStr (lit "book")) then (if truthy (i @ a_publisher) then [i @ a_publisher] else []) else []) ++
  (if truthy (i @ a_year) then [i @ a_year] else []).
Fixpoint backlinks_page (n k : nat) : list str :=
  match n with 0 => [] | S n => el (lit "a") (no_breaks (lit "↖" ++ str_of_nat k)) :: backlinks_page n (S k) end.
Definition entry_page (i : id) : str :=
  no_breaks (join (lit ". ") (map (fun v => strip_char 46%N (fmt_val v)) (entry_parts i)) ++ lit ".") ++
  when (i @ a_doi) (lit " " ++ el (lit "a") (lit "[link]")) ++
  match i @ a_backlinks with
  | VStrs (x :: r) => lit "<br />[" ++ join (lit ",") (backlinks_page (length (x :: r)) 1) ++ lit "]"
  | _ => []
  end.
Definition image_page (c : cls) (i : id) : str :=
  let at_ (k : string) v := match v with [] => [] | _ => lit " " ++ lit k ++ lit "=""" ++ v ++ lit """" end in
  lit "<img" ++ at_ "src" (if truthy (i @ a_path) then fmt_val (i @ a_path) else []) ++
  at_ "alt" (cls_name c ++ lit " " ++ num i ++ lit ".") ++
  at_ "onload" (if is_one (i @ a_scale) then [] else lit "this.width*=" ++ fmt_val (i @ a_scale) ++ lit ";") ++ lit ">".
Definition caption_page (n : node) (inner : str) : str :=
  match n_parent n with
  | Some p => match h !! p with
              | Some q => el (if subclass (n_cls q) CFigure then lit "figcaption" else lit "caption")
                            (el (lit "span") (no_breaks (cls_name (n_cls q) ++ lit " " ++ num p ++ lit ". ")) ++ inner)
              | None => []
              end
  | None => []
  end.

(** The part of the page for node [i], [inner] being that for its children. *)
Definition node_page (i : id) (inner : str) : str :=
  match h !! i with
  | None => []
  | Some n =>
    match dispatch visit_defined (n_cls n) with
    | Some CManuscript => el (lit "body") (el (lit "div") (el (lit "div") (el (lit "section") (when (i @ a_title) (el (lit "h1") (val_text (i @ a_title))) ++ inner))))
    | Some CAuthor => author_page i inner
    | Some CAbstract => el (lit "div") (el (lit "h3") (lit "Abstract") ++ inner ++ abstract_lists i)
    | Some CParagraph => el (lit "div") (when (i @ a_title) (el (lit "span") (no_breaks (fmt_val (i @ a_title) ++ lit "."))) ++ inner)
    | Some CSection => match level (n_cls n) with
                       | Some lv => el (lit "section") (el (lit "h" ++ str_of_nat lv) (no_breaks (heading_text i)) ++ inner)
                       | None => []
                       end
    | Some CEnumerate => el (lit "ol") inner
    | Some CItemize => el (lit "ul") inner
    | Some CItem => el (lit "li") inner
    | Some CContents => el (lit "div") (el (lit "h3") (lit "Table of Contents") ++ el (lit "div") (el (lit "ul") inner))
    | Some CNote => el (lit "span") (el (lit "sup") (el (lit "a") (no_breaks (num i))) ++ el (lit "span") inner)
    | Some CMath => el (lit "span") (lit "\(" ++ inner ++ lit "\)")
    | Some CMathBlock => el (lit "div") (lit "$$" ++ inner ++ lit "$$")
    | Some CSourceCode => el (lit "code") (no_breaks (if truthy (i @ a_lang) then hl (text_of h i) (fmt_val (i @ a_lang)) else text_of h i) ++ inner)
    | Some CCodeBlock | Some CAlgorithm => el (lit "div") (el (lit "pre") inner)
    | Some CText => no_breaks (text_of h i) ++ inner
    | Some CError => el (lit "span") (no_breaks (text_of h i) ++ inner)
    | Some CSpan => span_page i inner
    | Some CCode | Some CConstruct => el (lit "span") inner
    | Some CReference => match i @ a_target with VNode t => anchor_el (link_text i (ref t)) | _ => [] end ++ inner
    | Some CURL => match i @ a_target with VStr t => anchor_el (link_text i t) | _ => [] end ++ inner
    | Some CTheorem => el (lit "div") (theorem_title (n_cls n) i ++ inner)
    | Some CSketch => el (lit "div") (block_title (lit "Proof sketch.") [] ++ inner)
    | Some CProof => el (lit "div") (block_title (capitalize (lower (cls_name (n_cls n))) ++ lit ".") [] ++ inner ++ el (lit "div") [])
    | Some CStep | Some CClaimBlock | Some CStatement | Some CSubproof => el (lit "div") inner
    | Some CCite => cite_page i ++ inner
    | Some CBibliography => el (lit "section") (el (lit "h2") (lit "References") ++ el (lit "ol") inner)
    | Some CBibitem => el (lit "li") (entry_page i ++ inner)
    | Some CDraft => el (lit "span") (lit "[ " ++ inner ++ lit " ]")
    | Some CFigure => el (lit "figure") (image_page (n_cls n) i ++ inner)
    | Some CCaption => caption_page n inner
    | Some CAppendix => inner
    | Some CTable => el (lit "table") inner
    | Some CTableHead => el (lit "thead") inner
    | Some CTableBody => el (lit "tbody") inner
    | Some CTableRow => el (lit "tr") inner
    | Some CTableDatum => el (lit "td") inner
    | _ => []
    end
  end.
Fixpoint tree_page (t : tree) : str := match t with T i cs => node_page i (concat (map tree_page cs)) end.
End Page.

(** Documents of which every node has a class that is shown, and whose links have a destination. *)
Record showable (s : st) (t : tree) : Prop := {
  sh_class : forall x n, x ∈ doc_order t -> st_heap s !! x = Some n -> dispatch visit_defined (n_cls n) <> Some CNode;
  sh_ref : forall x y, x ∈ doc_order t -> aval (st_heap s) x a_target = VNode y -> is_Some (st_heap s !! y);
  sh_cite : forall x ys y, x ∈ doc_order t -> aval (st_heap s) x a_targets = VNodes ys -> y ∈ ys -> is_Some (st_heap s !! y)
}.
