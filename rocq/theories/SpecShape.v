(** The syntax trees that the parser accepts, by recursion on the syntax tree.  The grammar that
    makes these trees is not part of the repository; this says what is asked of them. *)
From Verif Require Export SpecParse.
Local Open Scope string_scope.
Local Open Scope list_scope.

(** A node of class [k] may be put below one of class [p].  What is below a node that has no
    children is dropped. *)
Definition may_be_in (k : cls) (p : option cls) : bool :=
  match p with
  | None => true
  | Some d => negb (has_children d) || match possible_parents k with [] => true | l => cls_mem d l end
  end.
(** Keys that stand for something that cannot be assigned. *)
Definition settable (key : str) : bool :=
  negb (type_in ["children"; "number_within"; "number_as"; "full_number"; "keyword"; "long_reftext"; "parent"] key).
Definition meta_fits (c : cst) : bool :=
  match field_child "meta" c with
  | None => true
  | Some m => match parse_meta (pl_node m) with Ok d => forallb (fun kv => settable kv.1) d | Err _ => false end
  end.
(** What a syntax node read as a node of type [t] must consist of. *)
Definition parts_fit (t : str) (c : cst) : bool :=
  match ast_type t with Some _ => true | None => str_eqb t (lit "ERROR") end &&
  meta_fits c &&
  (if type_in ["math"; "code"; "mathblock"; "codeblock"; "algorithm"] t
   then match rev (named_children c) with a :: _ => is_type "asis_text" (pl_node a) | [] => false end else true) &&
  (if type_in ["ref"; "previous"; "url"; "cite"] t
   then match named_children c with _ :: _ :: _ => true | _ => false end else true) &&
  (if type_in ["construct"; "specialconstruct"] t
   then match field_child "tag" c with
        | Some g => type_in (map fst kind_to_keyword) (c_type (pl_node g))
        | None => false
        end else true).
(** An entry of the bibliography. *)
Definition bibitem_fits (c : cst) : bool :=
  match field_child "kind" c, field_child "label" c with
  | Some _, Some _ =>
      forallb (fun q => match named_children (pl_node q) with
                        | [k; _] => settable (c_text (pl_node k)) && negb (type_in ["reftext"] (c_text (pl_node k)))
                        | _ => false
                        end)
        (List.filter (fun q => is_type "bibitempair" (pl_node q)) (named_children c))
  | _, _ => false
  end.
(** The children handed on, with the check of each. *)
Definition all_fit (p : cls) (skip : list nat) (all : list (place * (option cls -> bool))) : bool :=
  forallb (fun q => q.2 (Some p))
    (List.filter (fun q => c_named (pl_node q.1) && str_mem (c_type (pl_node q.1)) push_types
                      && negb (existsb (Nat.eqb (pl_pos q.1)) skip)) all).
Definition node_fits (t : str) (c : cst) (skip : list nat) (all : list (place * (option cls -> bool))) (p : option cls) : bool :=
  let k := a_class (shaped t (alone c) c []) in
  parts_fit t c && may_be_in k p && all_fit k (skip ++ skipped_parts t c) all.

(** [fits c p]: the syntax tree [c] can be read below a node of class [p]. *)
Fixpoint fits (c : cst) {struct c} : option cls -> bool :=
  let all := (fix go (k : nat) (prev : option cst) (l : list cst) : list (place * (option cls -> bool)) :=
                match l with
                | [] => []
                | d :: r => (MkPlace k prev d (hd_error r), fits d) :: go (S k) (Some d) r
                end) 0 None (c_children c) in
  let t := c_type c in
  fun p =>
  if is_type "comment" c then true
  else if is_type "specialblock" c && match c_children c with b :: _ => is_type "bibliography" b | [] => false end then true
  else if is_type "bibtex" c then
    forallb (fun q => bibitem_fits (pl_node q)) (List.filter (fun q => is_type "bibitem" (pl_node q)) (named_children c))
  else if is_type "bibitem" c then
    bibitem_fits c && match p with Some d => has_children d | None => false end
  else if is_type "source_file" c || suffixb (lit "section") t then
    match ast_type t with
    | Some (k, _) => meta_fits c && may_be_in k p && all_fit k (skipped_title c) all
    | None => false
    end
  else if type_in ["specialblock"; "specialinline"] t then
    match first_named all with
    | None => false
    | Some (f, o) => if is_type "table" (pl_node f) then o p else node_fits (c_type (pl_node f)) c [] all p
    end
  else if is_type "td" c then match first_named all with None => false | Some (_, o) => o p end
  else if is_type "paragraph" c then
    match first_named all with
    | None => false
    | Some (f, o) => if type_in ["item"; "caption"] (c_type (pl_node f)) then o p else node_fits t c [] all p
    end
  else if type_in ["block"; "inline"] t then
    match field_child "tag" c with
    | None => false
    | Some g => node_fits (c_type (pl_node g)) c [pl_pos g] all p
    end
  else node_fits t c [] all p.
(** A whole source file. *)
Definition well_formed (c : cst) : Prop := fits c None = true.
