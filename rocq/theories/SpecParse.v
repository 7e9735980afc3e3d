(** Specification of the first half of the parser: the manuscript as a function of the concrete
    syntax tree, by recursion on that tree.  There is no stack, no heap and no identity here. *)
From Verif Require Export Spec Parser.
Local Open Scope string_scope.
Local Open Scope list_scope.

(** A manuscript without identities: class, attributes, children. *)
Inductive atree := A (c : cls) (m : gmap attr val) (ts : list atree).
Definition a_class (t : atree) : cls := match t with A c _ _ => c end.
Definition a_attrs (t : atree) : gmap attr val := match t with A _ m _ => m end.
Definition a_kids (t : atree) : list atree := match t with A _ _ ts => ts end.
Fixpoint a_preorder (t : atree) : list atree := t :: match t with A _ _ ts => flat_map a_preorder ts end.

(** The heap holds the manuscript [a], below [p], with the identities of the tree [t]. *)
Inductive holds (h : gmap id node) : option id -> tree -> atree -> Prop :=
| holds_node p i n us ts :
    h !! i = Some n -> n_parent n = p -> kids n = map root us ->
    Forall2 (holds h (Some i)) us ts ->
    holds h p (T i us) (A (n_cls n) (n_attrs n) ts).

(** ** Attributes *)

Definition assign (m : gmap attr val) (kv : str * val) : gmap attr val := <[attr_of_name kv.1 := kv.2]> m.
(** The meta data written in the source, with [reftext] stored as the template. *)
Definition meta_data (c : cst) : list (str * val) :=
  match field_child "meta" c with
  | None => []
  | Some m => match parse_meta (pl_node m) with Ok d => reftext_to_template d | Err _ => [] end
  end.
Definition with_meta (c : cst) (m : gmap attr val) : gmap attr val := fold_left assign (meta_data c) m.
Definition text_at (p : option place) : str := match p with Some q => c_text (pl_node q) | None => [] end.
Definition with_field (f : string) (a : attr) (c : cst) (m : gmap attr val) : gmap attr val :=
  match field_child f c with Some q => <[a := VStr (c_text (pl_node q))]> m | None => m end.

(** A text on a line of its own is set off by a space. *)
Definition below (a b : cst) : bool := ((c_end a).1 <? (c_start b).1)%Z.
Definition padded (x : place) (s : str) : str :=
  match pl_prev x with Some q => if below q (pl_node x) then lit " " else [] | None => [] end ++ s ++
  match pl_next x with Some q => if below (pl_node x) q then lit " " else [] | None => [] end.
Definition on_text (f : str -> str) (m : gmap attr val) : gmap attr val :=
  match m !! a_text with Some (VStr s) => <[a_text := VStr (f s)]> m | _ => m end.

(** What a reference, a citation and a construct take from their parts. *)
Definition with_parts (t : str) (c : cst) (m : gmap attr val) : gmap attr val :=
  let part k := nth_error (named_children c) k in
  if type_in ["ref"; "previous"; "url"] t then
    let m := <[a_target := VStr (text_at (part 1))]> m in
    match part 2 with Some q => <[a_overwrite_reftext := VStr (c_text (pl_node q))]> m | None => m end
  else if type_in ["cite"] t then <[a_targetlabels := VStrs (map strip (split_on 44 (text_at (part 1))))]> m
  else if type_in ["prev"] t then <[a_target := VInt 1]> m
  else if type_in ["prev2"] t then <[a_target := VInt 2]> m
  else if type_in ["prev3"] t then <[a_target := VInt 3]> m
  else if type_in ["construct"; "specialconstruct"] t then
    match field_child "tag" c with Some q => <[a_kind := VStr (c_type (pl_node q))]> m | None => m end
  else m.

(** The class and attributes of the node for [c], in the place [x], of type [t]. *)
Definition node_class (t : str) : cls := match ast_type t with Some (k, _) => k | None => CError end.
Definition node_attrs (t : str) (x : place) (c : cst) : gmap attr val :=
  let m := match ast_type t with
           | Some (k, kw) => mk_attrs k (kw ++ span_attrs c)
           | None => mk_attrs CError ((a_text, VStr (error_text c)) :: span_attrs c)
           end in
  let m := if subclass (node_class t) CText && negb (str_eqb t (lit "ERROR")) then <[a_text := VStr (c_text c)]> m else m in
  let m := with_parts t c (with_meta c m) in
  if type_in ["text"] t then on_text (padded x) m else m.
(** Math and code keep their source as one text. *)
Definition verbatim (t : str) (m : gmap attr val) (c : cst) : list atree :=
  let text := VStr (text_at (hd_error (rev (named_children c)))) in
  if type_in ["code"; "codeblock"] t then
    [A CSourceCode (mk_attrs CSourceCode [(a_text, text); (a_lang, default VNone (m !! a_lang))]) []]
  else if type_in ["math"; "mathblock"; "algorithm"] t then
    [A CText (mk_attrs CText [(a_text, text); (a_asis, VBool true)]) []]
  else [].
(** The node with the nodes for its parts, [ts]; a math block marked as a claim is put in a box. *)
Definition shaped (t : str) (x : place) (c : cst) (ts : list atree) : atree :=
  let m := node_attrs t x c in
  if type_in ["mathblock"] t && match m !! a_isclaim with Some v => truthy v | None => false end then
    A CClaimBlock (mk_attrs CClaimBlock (span_attrs c)) (A CMathBlock m (verbatim t m c) :: ts)
  else A (node_class t) m (if has_children (node_class t) then verbatim t m c ++ ts else []).
(** Manuscripts and sections. *)
Definition section_attrs (c : cst) : gmap attr val :=
  with_meta c (with_field "title" a_title c
    (match ast_type (c_type c) with Some (k, kw) => mk_attrs k (kw ++ span_attrs c) | None => ∅ end)).
(** Entries of the bibliography. *)
Definition bib_pairs (c : cst) : list (str * val) :=
  map (fun p => (text_at (nth_error (named_children (pl_node p)) 0), VStr (text_at (nth_error (named_children (pl_node p)) 1))))
    (List.filter (fun p => is_type "bibitempair" (pl_node p)) (named_children c)).
Definition bibitem (c : cst) : atree :=
  A CBibitem (fold_left assign (bib_pairs c)
    (<[a_label := VStr (text_at (field_child "label" c))]> (<[a_kind := VStr (text_at (field_child "kind" c))]>
       (mk_attrs CBibitem [])))) [].

(** ** The recursion *)

(** What else a syntax node asks for: a bibliography, its contents, the report of an error. *)
Inductive request := RBib | RTex (c : cst) | RErr (c : cst).
(** What a syntax node becomes: at most one manuscript node, and requests. *)
Definition outcome : Type := list atree * list request.
Definition nodes_of (l : list outcome) : list atree := flat_map fst l.
Definition requests_of (l : list outcome) : list request := flat_map snd l.

Definition skipped_title (c : cst) : list nat := match field_child "title" c with Some q => [pl_pos q] | None => [] end.
Definition skipped_parts (t : str) (c : cst) : list nat :=
  let part k := match nth_error (named_children c) k with Some q => [pl_pos q] | None => [] end in
  if type_in ["ref"; "previous"; "url"] t then part 1 ++ part 2 else if type_in ["cite"] t then part 1 else [].
(** The children a syntax node hands on; [all] lists its children with what they become. *)
Definition handed_on (skip : list nat) (all : list (place * outcome)) : list outcome :=
  map snd (List.filter (fun p => c_named (pl_node p.1) && str_mem (c_type (pl_node p.1)) push_types
                            && negb (existsb (Nat.eqb (pl_pos p.1)) skip)) all).
Definition first_named {B} (all : list (place * B)) : option (place * B) :=
  hd_error (List.filter (fun p => c_named (pl_node p.1)) all).
Definition as_node (t : str) (x : place) (skip : list nat) (all : list (place * outcome)) : outcome :=
  let c := pl_node x in
  let l := handed_on (skip ++ skipped_parts t c) all in
  ([shaped t x c (nodes_of l)], (if str_eqb t (lit "ERROR") then [RErr c] else []) ++ requests_of l).

Fixpoint mirror (prev next : option cst) (c : cst) {struct c} : outcome :=
  let all := (fix go (k : nat) (prev : option cst) (l : list cst) : list (place * outcome) :=
                match l with
                | [] => []
                | d :: r => (MkPlace k prev d (hd_error r), mirror prev (hd_error r) d) :: go (S k) (Some d) r
                end) 0 None (c_children c) in
  let x := MkPlace 0 prev c next in
  let t := c_type c in
  if is_type "comment" c then ([], [])
  else if is_type "specialblock" c && match c_children c with b :: _ => is_type "bibliography" b | [] => false end
  then ([], [RBib])
  else if is_type "bibtex" c then ([], [RTex c])
  else if is_type "bibitem" c then ([bibitem c], [])
  else if is_type "source_file" c || suffixb (lit "section") t then
    let l := handed_on (skipped_title c) all in
    ([A (node_class t) (section_attrs c) (nodes_of l)], requests_of l)
  else if type_in ["specialblock"; "specialinline"] t then
    match first_named all with
    | None => ([], [])
    | Some (f, o) => if is_type "table" (pl_node f) then o else as_node (c_type (pl_node f)) x [] all
    end
  else if is_type "td" c then match first_named all with None => ([], []) | Some (_, o) => o end
  else if is_type "paragraph" c then
    match first_named all with
    | None => ([], [])
    | Some (f, o) => if type_in ["item"; "caption"] (c_type (pl_node f)) then o else as_node t x [] all
    end
  else if type_in ["block"; "inline"] t then
    match field_child "tag" c with
    | None => ([], [])
    | Some g => as_node (c_type (pl_node g)) x [pl_pos g] all
    end
  else as_node t x [] all.

(** Where the bibliography goes: below the manuscript, after what came before it; and each entry,
    below the last bibliography before it. *)
Definition entries (c : cst) : list atree :=
  map (fun p => bibitem (pl_node p)) (List.filter (fun p => is_type "bibitem" (pl_node p)) (named_children c)).
Definition bib_node (es : list atree) : atree := A CBibliography (mk_attrs CBibliography []) es.
(** The entries requested before the next bibliography. *)
Fixpoint entries_here (l : list (atree + request)) : list atree :=
  match l with
  | inr (RTex c) :: r => entries c ++ entries_here r
  | inr RBib :: _ => []
  | _ :: r => entries_here r
  | [] => []
  end.
Fixpoint lay_out (l : list (atree + request)) : list atree :=
  match l with
  | inl t :: r => t :: lay_out r
  | inr RBib :: r => bib_node (entries_here r) :: lay_out r
  | _ :: r => lay_out r
  | [] => []
  end.
Definition places_and_outcomes (c : cst) : list (place * outcome) :=
  map (fun x => (x, mirror (pl_prev x) (pl_next x) (pl_node x))) (places c).
(** The manuscript of a whole source file. *)
Definition mirrored (c : cst) : atree :=
  let l := handed_on (skipped_title c) (places_and_outcomes c) in
  A CManuscript (section_attrs c)
    (lay_out (flat_map (fun o : outcome => map inl (fst o) ++ map inr (snd o)) l)).
(** The warnings, in order. *)
Fixpoint warnings (bib : bool) (l : list request) : list logrec :=
  match l with
  | [] => []
  | RBib :: r => warnings true r
  | RErr c :: r => MkLog logger_parse WARNING (lit "The CST contains errors.") (Some (c_start c)) :: warnings bib r
  | RTex c :: r =>
      (if bib then
         map (fun p => MkLog logger_parse WARNING (lit "Bibitem at " ++ fmt_point (c_start (pl_node p)) ++ lit " has an error") None)
           (List.filter (fun p => is_type "ERROR" (pl_node p)) (named_children c))
       else [MkLog logger_parse WARNING (lit "Found bibtex but no bibliography node") None]) ++ warnings bib r
  end.
