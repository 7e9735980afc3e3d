(** Model of rsm/tsparser.py: from the concrete syntax tree, which tree-sitter makes (not
    modelled), to the manuscript. *)
From Verif Require Export EscString NodeOps.
Local Open Scope string_scope.
Local Open Scope list_scope.

Definition logger_parse : str := lit "RSM.parse".

(** ** Concrete syntax trees *)

(** A node of the tree made by tree-sitter (tree_sitter.Node): type, name of the field it fills in
    its parent, whether it is named, text, start and end points, and all children.  The text is
    that of the source, decoded. *)
Inductive cst := Cst (ty : str) (field : option str) (named : bool) (text : str) (sp ep : Z * Z) (cs : list cst).
Definition c_type (c : cst) : str := match c with Cst t _ _ _ _ _ _ => t end.
Definition c_field (c : cst) : option str := match c with Cst _ f _ _ _ _ _ => f end.
Definition c_named (c : cst) : bool := match c with Cst _ _ n _ _ _ _ => n end.
Definition c_text (c : cst) : str := match c with Cst _ _ _ t _ _ _ => t end.
Definition c_start (c : cst) : Z * Z := match c with Cst _ _ _ _ p _ _ => p end.
Definition c_end (c : cst) : Z * Z := match c with Cst _ _ _ _ _ p _ => p end.
Definition c_children (c : cst) : list cst := match c with Cst _ _ _ _ _ _ cs => cs end.

(** A node in its place: its position among the children of its parent (which stands for
    [node.id], unique in the tree), and the siblings next to it. *)
Record place := MkPlace { pl_pos : nat; pl_prev : option cst; pl_node : cst; pl_next : option cst }.
Fixpoint places_from (k : nat) (prev : option cst) (l : list cst) : list place :=
  match l with
  | [] => []
  | c :: r => MkPlace k prev c (hd_error r) :: places_from (S k) (Some c) r
  end.
Definition places (c : cst) : list place := places_from 0 None (c_children c).
Definition alone (c : cst) : place := MkPlace 0 None c None.
(** [named_children] and [child_by_field_name]. *)
Definition named_children (c : cst) : list place := List.filter (fun p => c_named (pl_node p)) (places c).
Definition field_child (name : string) (c : cst) : option place :=
  find (fun p => match c_field (pl_node p) with Some f => str_eqb f (lit name) | None => false end) (places c).
(** [named_children[k]] *)
Definition nth_named (k : nat) (c : cst) : M place :=
  match nth_error (named_children c) k with Some p => ret p | None => raise EIndex end.

Definition is_type (t : string) (c : cst) : bool := str_eqb (c_type c) (lit t).
Definition type_in (l : list string) (t : str) : bool := str_mem t (map lit l).

(** ** Tables *)

(** rsm/tsparser.py:65 *)
Definition DELIMS : str := lit ":%$`*{#".
(** rsm/tsparser.py:66-92 *)
Definition push_types : list str := map lit
  ["ERROR"; "appendix"; "bibitem"; "bibtex"; "block"; "caption"; "construct"; "inline"; "keyword"; "mathblock";
   "paragraph"; "section"; "subsection"; "subsubsection"; "specialblock"; "specialconstruct"; "specialinline";
   "table"; "tbody"; "td"; "tdcontent"; "text"; "thead"; "tr"; "trshort"].
(** rsm/tsparser.py:253-307: the class, and the keyword arguments of the two lambdas. *)
Definition ast_types : list (string * (cls * list (attr * val))) :=
  [("abstract", (CAbstract, [])); ("appendix", (CAppendix, [])); ("algorithm", (CAlgorithm, []));
   ("author", (CAuthor, [])); ("enumerate", (CEnumerate, [])); ("cite", (CPendingCite, []));
   ("code", (CCode, [])); ("codeblock", (CCodeBlock, [])); ("corollary", (CCorollary, []));
   ("definition", (CDefinition, [])); ("draft", (CDraft, [])); ("example", (CExample, []));
   ("item", (CItem, [])); ("itemize", (CItemize, [])); ("caption", (CCaption, []));
   ("figure", (CFigure, [])); ("construct", (CConstruct, [])); ("specialconstruct", (CConstruct, []));
   ("lemma", (CLemma, [])); ("math", (CMath, [])); ("mathblock", (CMathBlock, [])); ("note", (CNote, []));
   ("paragraph", (CParagraph, [])); ("prev", (CPendingPrev, [])); ("prev2", (CPendingPrev, []));
   ("prev3", (CPendingPrev, [])); ("previous", (CPendingPrev, [])); ("proof", (CProof, []));
   ("proposition", (CProposition, [])); ("ref", (CPendingReference, [])); ("remark", (CRemark, []));
   ("section", (CSection, [])); ("sketch", (CSketch, [])); ("source_file", (CManuscript, []));
   ("spanemphas", (CSpan, [(a_emphas, VBool true)])); ("spanstrong", (CSpan, [(a_strong, VBool true)]));
   ("step", (CStep, [])); ("subproof", (CSubproof, [])); ("subsection", (CSubsection, []));
   ("subsubsection", (CSubsubsection, [])); ("span", (CSpan, [])); ("table", (CTable, []));
   ("tbody", (CTableBody, [])); ("text", (CText, [])); ("thead", (CTableHead, [])); ("theorem", (CTheorem, []));
   ("td", (CTableDatum, [])); ("tdcontent", (CTableDatum, [])); ("toc", (CContents, []));
   ("tr", (CTableRow, [])); ("trshort", (CTableRow, [])); ("url", (CURL, []))].
Definition ast_type (t : str) : option (cls * list (attr * val)) :=
  match find (fun p => str_eqb (lit p.1) t) ast_types with Some p => Some p.2 | None => None end.
(** rsm/nodes.py:1174-1189 *)
Definition kind_to_keyword : list (string * string) :=
  [("let", "LET"); ("define", "DEFINE"); ("write", "WRITE"); ("case", "CASE"); ("then", "THEN"); ("new", "NEW");
   ("assume", "ASSUME"); ("prove", "PROVE"); ("pick", "PICK"); ("suffices", "SUFFICES"); ("claim", "⊢");
   ("claimblock", "⊢"); ("qed", "QED"); ("st", "SUCH THAT")].
(** rsm/nodes.py:1195-1197; a kind that is not a string is no key of the table. *)
Definition keyword_of (kind : val) : option str :=
  match kind with
  | VStr k => match find (fun p => str_eqb (lit p.1) k) kind_to_keyword with Some p => Some (lit p.2) | None => None end
  | _ => None
  end.

(** ** Meta data *)

(** rsm/tsparser.py:310-331.  [None] for the value is Python's None, whose attributes raise
    AttributeError.  [_parse_meta_into_dict] is found by the lookup, too, and does not take two
    arguments. *)
Definition key_name (k : cst) : res str :=
  match named_children k with [] => Err EIndex | p :: _ => Ok (c_type (pl_node p)) end.
Definition parse_pair (k : cst) (v : option cst) : res (str * val) :=
  if str_eqb (c_type k) (lit "metakey_list") then
    match key_name k, v with
    | Err e, _ => Err e
    | Ok _, None => Err EAttribute
    | Ok key, Some v => Ok (key, VStrs (map (fun p => strip (c_text (pl_node p))) (named_children v)))
    end
  else if str_eqb (c_type k) (lit "metakey_text") || str_eqb (c_type k) (lit "metakey_any") then
    match key_name k, v with
    | Err e, _ => Err e
    | Ok _, None => Err EAttribute
    | Ok key, Some v => Ok (key, VStr (strip (c_text v)))
    end
  else if str_eqb (c_type k) (lit "metakey_bool") then
    match key_name k with Err e => Err e | Ok key => Ok (key, VBool true) end
  else if str_eqb (c_type k) (lit "meta_into_dict") then Err EType
  else Err EKey.
(** rsm/tsparser.py:334-343 *)
Definition is_pair (p : place) : bool := suffixb (lit "pair") (c_type (pl_node p)).
Fixpoint parse_pairs (l : list place) (d : list (str * val)) : res (list (str * val)) :=
  match l with
  | [] => Ok d
  | p :: r =>
      match (match named_children (pl_node p) with
             | [k] => parse_pair (pl_node k) None
             | [k; v] => parse_pair (pl_node k) (Some (pl_node v))
             | _ => Err EValue
             end) with
      | Err e => Err e
      | Ok (k, v) => parse_pairs r (dict_set d k v)
      end
  end.
Definition parse_meta (c : cst) : res (list (str * val)) :=
  parse_pairs (List.filter is_pair (named_children c)) [].
Definition lift {A} (r : res A) : M A := match r with Ok a => ret a | Err e => raise e end.
(** rsm/tsparser.py:507-508, 586-589 *)
Definition ingest_meta (i : id) (c : cst) : M unit :=
  match field_child "meta" c with
  | None => ret tt
  | Some m => let! d := lift (parse_meta (pl_node m)) in ingest_dict_as_meta i d
  end.

(** ** One syntax node *)

Definition point (p : Z * Z) : val := VPoint p.1 p.2.
Definition span_attrs (c : cst) : list (attr * val) := [(a_start_point, point (c_start c)); (a_end_point, point (c_end c))].
(** [CST_TYPE_TO_AST_TYPE[t](start_point=..., end_point=...)] *)
Definition make_ast (t : str) (c : cst) : option (M id) :=
  match ast_type t with Some (k, kw) => Some (new_node k (kw ++ span_attrs c)) | None => None end.
(** The children to process: rsm/tsparser.py:513-519, 656-663. *)
Definition pushed (skip : list nat) (c : cst) : list place :=
  List.filter (fun p => str_mem (c_type (pl_node p)) push_types && negb (existsb (Nat.eqb (pl_pos p)) skip)) (named_children c).
(** rsm/tsparser.py:510-511, 652-654 *)
Definition attach (parent : option id) (i : id) : M unit :=
  match parent with
  | None => ret tt
  | Some p => let! c := cls_of p in if has_children c then append p [i] else ret tt
  end.
(** The local variables ast_root_node and bibliography_node. *)
Record pst := MkPst { ps_root : option id; ps_bib : option id }.
(** An entry of the stack, and the result of one iteration: the variables and the new entries, in
    the order in which they will be taken. *)
Notation entry := (option id * place)%type.
Definition step_res : Type := pst * list entry.
Definition under (p : option id) (l : list place) : list entry := map (fun x => (p, x)) l.

(** rsm/tsparser.py:469-479 *)
Definition set_pair (i : id) (c : cst) : M unit :=
  match named_children c with
  | [k; v] => py_setattr i (c_text (pl_node k)) (VStr (c_text (pl_node v)))
  | _ => raise EValue
  end.
Definition field_text (name : string) (c : cst) : M str :=
  match field_child name c with Some p => ret (c_text (pl_node p)) | None => raise EAttribute end.
Definition step_bibitem (v : pst) (parent : option id) (c : cst) : M step_res :=
  let! b := new_node CBibitem [] in
  let! kind := field_text "kind" c in
  do! setattr b a_kind (VStr kind) in
  let! label := field_text "label" c in
  do! setattr b a_label (VStr label) in
  do! iterM (set_pair b) (map pl_node (List.filter (fun p => is_type "bibitempair" (pl_node p)) (named_children c))) in
  match parent with
  | None => raise EAttribute
  | Some p => do! append p [b] in ret (v, [])
  end.
(** rsm/tsparser.py:444-451 *)
Definition step_bibliography (v : pst) : M step_res :=
  let! b := new_node CBibliography [] in
  match ps_root v with
  | None => raise EAttribute
  | Some r => do! append r [b] in ret (MkPst (ps_root v) (Some b), [])
  end.
(** rsm/tsparser.py:452-468 *)
Definition fmt_point (p : Z * Z) : str :=
  lit "Point(row=" ++ str_of_Z p.1 ++ lit ", column=" ++ str_of_Z p.2 ++ lit ")".
Definition step_bibtex (v : pst) (c : cst) : M step_res :=
  match ps_bib v with
  | None => do! warn logger_parse (lit "Found bibtex but no bibliography node") in ret (v, [])
  | Some b =>
      do! iterM (fun e => warn logger_parse (lit "Bibitem at " ++ fmt_point (c_start e) ++ lit " has an error"))
            (map pl_node (List.filter (fun p => is_type "ERROR" (pl_node p)) (named_children c))) in
      ret (v, under (Some b) (List.filter (fun p => is_type "bibitem" (pl_node p)) (named_children c)))
  end.
(** rsm/tsparser.py:488-520 *)
Definition step_section (v : pst) (parent : option id) (c : cst) : M step_res :=
  match ast_type (c_type c) with
  | None => raise EKey
  | Some (k, kw) =>
      let! i := new_node k (kw ++ span_attrs c) in
      do! (match field_child "title" c with
           | Some t => setattr i a_title (VStr (c_text (pl_node t)))
           | None => ret tt
           end) in
      let skip := match field_child "title" c with Some t => [pl_pos t] | None => [] end in
      let v := if subclass k CManuscript then MkPst (Some i) (ps_bib v) else v in
      do! ingest_meta i c in
      do! attach parent i in
      ret (v, under (Some i) (pushed skip c))
  end.

(** rsm/tsparser.py:556-584: the node of type [t] for [c]. *)
Definition error_text (c : cst) : str :=
  lit "[CST error at (" ++ str_of_Z (c_start c).1 ++ lit ", " ++ str_of_Z (c_start c).2 ++ lit ") - ("
  ++ str_of_Z (c_end c).1 ++ lit ", " ++ str_of_Z (c_end c).2 ++ lit ")]".
Definition make_node (t : str) (c : cst) : M id :=
  match ast_type t with
  | Some (k, kw) =>
      let! i := new_node k (kw ++ span_attrs c) in
      do! (if subclass k CText then setattr i a_text (VStr (c_text c)) else ret tt) in
      ret i
  | None =>
      if str_eqb t (lit "ERROR") then
        do! log_rec (MkLog logger_parse WARNING (lit "The CST contains errors.") (Some (c_start c))) in
        new_node CError ((a_text, VStr (error_text c)) :: span_attrs c)
      else raise (EParser (lit "not found " ++ t))
  end.
(** rsm/tsparser.py:591-602 *)
Definition add_asis (t : str) (i : id) (c : cst) : M unit :=
  if type_in ["math"; "code"; "mathblock"; "codeblock"; "algorithm"] t then
    match rev (named_children c) with
    | [] => raise EIndex
    | a :: _ =>
        if is_type "asis_text" (pl_node a) then
          let text := VStr (c_text (pl_node a)) in
          let! child := (if type_in ["code"; "codeblock"] t then
                           let! lang := getattr i a_lang in new_node CSourceCode [(a_text, text); (a_lang, lang)]
                         else new_node CText [(a_text, text); (a_asis, VBool true)]) in
          append i [child]
        else raise EAssert
    end
  else ret tt.
(** rsm/tsparser.py:604-610 *)
Definition wrap_claim (t : str) (i : id) (c : cst) : M id :=
  if type_in ["mathblock"] t then
    let! v := getattr i a_isclaim in
    if truthy v then
      let! b := new_node CClaimBlock (span_attrs c) in do! append b [i] in ret b
    else ret i
  else ret i.
(** rsm/tsparser.py:612-615 *)
Definition set_kind (t : str) (i : id) (c : cst) : M unit :=
  if type_in ["construct"; "specialconstruct"] t then
    match field_child "tag" c with Some p => setattr i a_kind (VStr (c_type (pl_node p))) | None => ret tt end
  else ret tt.
(** rsm/tsparser.py:617-625: the result is the positions to skip. *)
Definition set_target (t : str) (i : id) (c : cst) : M (list nat) :=
  if type_in ["ref"; "previous"; "url"] t then
    let! p := nth_named 1 c in
    do! setattr i a_target (VStr (c_text (pl_node p))) in
    match nth_error (named_children c) 2 with
    | Some q => do! setattr i a_overwrite_reftext (VStr (c_text (pl_node q))) in ret [pl_pos p; pl_pos q]
    | None => ret [pl_pos p]
    end
  else ret [].
(** rsm/tsparser.py:627-632: the types in question are prev, prev2 and prev3. *)
Definition set_prev (t : str) (i : id) : M unit :=
  if str_eqb t (lit "prev") then setattr i a_target (VInt 1)
  else if str_eqb t (lit "prev2") then setattr i a_target (VInt 2)
  else if str_eqb t (lit "prev3") then setattr i a_target (VInt 3)
  else ret tt.
(** rsm/tsparser.py:634-638 *)
Definition set_cite (t : str) (i : id) (c : cst) : M (list nat) :=
  if type_in ["cite"] t then
    let! p := nth_named 1 c in
    do! setattr i a_targetlabels (VStrs (map strip (split_on 44 (c_text (pl_node p))))) in
    ret [pl_pos p]
  else ret [].
(** rsm/tsparser.py:640-650 *)
Definition pad_text (t : str) (i : id) (x : place) (c : cst) : M unit :=
  if type_in ["text"] t then
    do! (match pl_next x with
         | Some n => if ((c_end c).1 <? (c_start n).1)%Z
                     then let! s := get_str i a_text in setattr i a_text (VStr (s ++ lit " ")) else ret tt
         | None => ret tt
         end) in
    match pl_prev x with
    | Some n => if ((c_end n).1 <? (c_start c).1)%Z
                then let! s := get_str i a_text in setattr i a_text (VStr (lit " " ++ s)) else ret tt
    | None => ret tt
    end
  else ret tt.
(** rsm/tsparser.py:556-663: [t] is ast_node_type, [c] the node it was taken from (in the place
    [x], except after the redirection of line 545) and [skip] what to skip. *)
Definition step_node (v : pst) (parent : option id) (t : str) (x : place) (c : cst) (skip : list nat) : M step_res :=
  let! i := make_node t c in
  do! ingest_meta i c in
  do! add_asis t i c in
  let! i := wrap_claim t i c in
  do! set_kind t i c in
  let! s1 := set_target t i c in
  do! set_prev t i in
  let! s2 := set_cite t i c in
  do! pad_text t i x c in
  do! attach parent i in
  ret (v, under (Some i) (pushed (skip ++ s1 ++ s2) c)).

(** One iteration, rsm/tsparser.py:437-663. *)
Definition step (v : pst) (parent : option id) (x : place) : M step_res :=
  let c := pl_node x in
  let t := c_type c in
  if is_type "comment" c then ret (v, [])
  else if is_type "specialblock" c && match c_children c with b :: _ => is_type "bibliography" b | [] => false end
  then step_bibliography v
  else if is_type "bibtex" c then step_bibtex v c
  else if is_type "bibitem" c then step_bibitem v parent c
  else if is_type "source_file" c || suffixb (lit "section") t then step_section v parent c
  else if type_in ["specialblock"; "specialinline"] t then
    let! f := nth_named 0 c in
    if is_type "table" (pl_node f) then ret (v, [(parent, f)])
    else step_node v parent (c_type (pl_node f)) x c []
  else if is_type "td" c then
    let! f := nth_named 0 c in ret (v, [(parent, f)])
  else if is_type "paragraph" c then
    let! f := nth_named 0 c in
    if type_in ["item"; "caption"] (c_type (pl_node f)) then step_node v parent (c_type (pl_node f)) f (pl_node f) []
    else step_node v parent t x c []
  else if type_in ["block"; "inline"] t then
    match field_child "tag" c with
    | None => raise EAttribute
    | Some g => step_node v parent (c_type (pl_node g)) x c [pl_pos g]
    end
  else step_node v parent t x c [].

Fixpoint abs_loop (fuel : nat) (v : pst) (stack : list entry) : M pst :=
  match stack with
  | [] => ret v
  | (p, x) :: rest =>
      match fuel with
      | 0 => raise EOutOfFuel
      | S fuel => let! r := step v p x in abs_loop fuel r.1 (r.2 ++ rest)
      end
  end.

(** ** Normalisation *)

(** [re.sub(r"(.*?)\s+$", r"\1 ", s)] and [re.sub(r"^\s+(.*?)", r" \1", s)]: the run of white
    space at an end becomes one space. *)
Definition squeeze_end (s : str) : str := if str_eqb (rstrip s) s then s else rstrip s ++ lit " ".
Definition squeeze_start (s : str) : str := if str_eqb (lstrip s) s then s else lit " " ++ lstrip s.
Definition squeeze (s : str) : str := squeeze_start (squeeze_end s).

Definition is_text (i : id) : M bool := inst [CText] i.
(** [itertools.groupby(node.children, key=lambda c: isinstance(c, nodes.Text))], the runs of texts
    only; [cur] is the current run, reversed. *)
Definition close_run (cur : list id) (rs : list (list id)) : list (list id) :=
  match cur with [] => rs | _ => rev cur :: rs end.
Fixpoint text_runs (l : list (id * bool)) (cur : list id) : list (list id) :=
  match l with
  | [] => close_run cur []
  | (i, true) :: r => text_runs r (i :: cur)
  | (i, false) :: r => close_run cur (text_runs r [])
  end.
(** rsm/tsparser.py:360-376: two texts, or more. *)
Definition merged_text (first : str) (middle : list str) (last : str) : str :=
  match middle with
  | [] => rstrip first ++ lit " " ++ lstrip last
  | _ => rstrip first ++ lit " " ++ join (lit " ") (map strip middle) ++ lit " " ++ lstrip last
  end.
Definition merge_run (run : list id) : M unit :=
  match run with
  | [] | [_] => ret tt
  | first :: rest =>
      let! f := get_str first a_text in
      let! m := mapM (fun t => get_str t a_text) (removelast rest) in
      let! l := get_str (List.last rest first) a_text in
      do! setattr first a_text (VStr (merged_text f m l)) in
      iterM remove_self rest
  end.
Definition update_text (i : id) (f : str -> str) : M unit :=
  let! t := get_str i a_text in setattr i a_text (VStr (f t)).
Definition when_text (i : id) (f : str -> str) : M unit :=
  let! b := is_text i in if b then update_text i f else ret tt.
(** rsm/tsparser.py:378-382 *)
Definition strip_ends (i : id) : M unit :=
  let! c := cls_of i in
  let! cs := children_of i in
  if subclass c CParagraph then ret tt
  else match cs with
       | [] => ret tt
       | f :: _ =>
           do! when_text f lstrip in
           when_text (List.last cs f) rstrip
       end.
(** rsm/tsparser.py:384-389 *)
Definition strip_paragraph (i : id) : M unit :=
  let! c := cls_of i in
  if subclass c CParagraph then
    let! f := first_of_type i [CText] in
    do! (match f with
         | Some (f, _) =>
             let! p := prev_sibling f SibAny in
             match p with None => update_text f lstrip | Some _ => ret tt end
         | None => ret tt
         end) in
    let! l := last_of_type i [CText] in
    match l with
    | Some (l, _) =>
        let! n := next_sibling l SibAny in
        match n with None => update_text l rstrip | Some _ => ret tt end
    | None => ret tt
    end
  else ret tt.
(** rsm/tsparser.py:391-397 *)
Definition pad_construct (i : id) : M unit :=
  let! c := cls_of i in
  if subclass c CConstruct then
    let! f := first_of_type i [CText] in
    do! (match f with
         | Some (f, _) =>
             let! p := prev_sibling f SibAny in
             match p with None => update_text f (fun t => lit " " ++ t) | Some _ => ret tt end
         | None => ret tt
         end) in
    let! m := first_of_type i [CMath] in
    do! (match m with
         | Some (m, _) =>
             let! p := prev_sibling m SibAny in
             match p with
             | None => let! t := new_node CText [(a_text, VStr (lit " "))] in prepend i [t]
             | Some _ => ret tt
             end
         | None => ret tt
         end) in
    let! k := new_node CKeyword [] in
    let! kind := getattr i a_kind in
    match keyword_of kind with
    | None => raise EKey
    | Some w =>
        let! t := new_node CText [(a_text, VStr w)] in
        do! append k [t] in
        prepend i [k]
    end
  else ret tt.
(** rsm/tsparser.py:408-412 *)
Definition squeeze_children (i : id) : M unit :=
  let! cs := children_of i in
  iterM (fun c => when_text c squeeze) cs.
(** rsm/tsparser.py:417-420 *)
Definition spaced_classes : list cls := [CSpan; CConstruct; CMath].
Definition space_after (i : id) : M unit :=
  let! n := next_sibling i SibAny in
  match n with
  | None => ret tt
  | Some n =>
      let! c := cls_of i in
      let! d := cls_of n in
      if cls_mem c spaced_classes && cls_mem d spaced_classes then
        let! t := new_node CText [(a_text, VStr (lit " "))] in replace_self i [i; t]
      else ret tt
  end.
(** rsm/tsparser.py:422-428 *)
Definition unescape (s : str) : str := escape (new_estr s (Some DELIMS)).
Definition escape_node (i : id) : M unit :=
  let! c := cls_of i in
  do! (if subclass c CText then
         let! a := getattr i a_asis in
         if truthy a then ret tt else update_text i unescape
       else ret tt) in
  do! (if subclass c CSection then
         let! t := getattr i a_title in setattr i a_title (VStr (unescape (fmt_val t)))
       else ret tt) in
  if subclass c CManuscript then
    let! t := getattr i a_title in setattr i a_title (VStr (unescape (fmt_val t)))
  else ret tt.
(** rsm/tsparser.py:349-428, the body of the loop. *)
Definition normalize_body (_ : unit) (i : id) : M unit :=
  let! cs := children_of i in
  let! bs := mapM (fun c => let! b := is_text c in ret (c, b)) cs in
  do! iterM merge_run (text_runs bs []) in
  do! strip_ends i in
  do! strip_paragraph i in
  do! pad_construct i in
  do! squeeze_children i in
  do! space_after i in
  escape_node i.
Definition normalize_text (fuel : nat) (root : option id) : M unit :=
  match root with
  | None => ret tt
  | Some r => for_traverse fuel cond_any normalize_body tt r
  end.

(** ** The parser *)

(** rsm/tsparser.py:433-666 [_abstractify].  [fuel] bounds both loops. *)
Definition abstractify (fuel : nat) (c : cst) : M (option id) :=
  let! v := abs_loop fuel (MkPst None None) [(None, alone c)] in
  do! normalize_text fuel (ps_root v) in
  ret (ps_root v).
(** rsm/tsparser.py:154-212 [TSParser.parse] on the tree of the source, without the records shown
    at level DEBUG.  [text] is the source. *)
Definition parse (fuel : nat) (c : cst) : M id :=
  do! info logger_parse (lit "Parsing...") in
  do! info logger_parse (lit "Abstractifying...") in
  let! r := catch (abstractify fuel c)
              (fun e => match e with EAttribute => Some (raise (EParser (lit "Error abstractifying."))) | _ => None end) in
  match r with
  | None => raise (EParser (lit "The CST contains errors."))
  | Some r => do! setattr r a_src (VStr (c_text c)) in ret r
  end.
