(** Sources without characters that a browser would take for markup. *)
From Verif Require Export SpecRead Parser ParseOrder.
Local Open Scope string_scope.
Local Open Scope list_scope.

(** Every [<] stands before a character that does not make a tag of it, and something other than
    white space comes after it. *)
Fixpoint mild (s : str) : bool :=
  match s with
  | [] => true
  | c :: r => (if N.eqb c LT then match r with d :: _ => negb (opens_tag d) | [] => false end && existsb (fun d => negb (is_space d)) r
               else true) && mild r
  end.

(** The key of a pair: the text of its first part in BibTeX, its type in meta data. *)
Definition pair_keys (d : cst) : list str :=
  match named_children d with
  | k :: _ => (if is_type "bibitempair" d then [c_text (pl_node k)] else [])
              ++ match named_children (pl_node k) with p :: _ => [c_type (pl_node p)] | [] => [] end
  | [] => []
  end.
(** The keys whose values are only shown, never written in attributes of HTML elements. *)
Definition shown_keys : list str := map lit
  ["title"; "name"; "affiliation"; "keywords"; "msc"; "reftext"; "author"; "journal"; "publisher"; "year"; "date"; "volume"].
(** The node is, or is tagged as, one of the given types. *)
Definition tagged (ts : list string) (d : cst) : bool := existsb (fun e => type_in ts (c_type e)) (d :: c_children d).
Definition links : list string := ["ref"; "previous"; "url"; "cite"].

(** [src]: the source itself is shown as well. *)
Record no_markup (src : bool) (c : cst) : Prop := {
  nm_text : forall d, In d (c_preorder c) -> mild (c_text d) = true;
  nm_pair : forall d e, In d (c_preorder c) -> suffixb (lit "pair") (c_type d) = true -> In e (c_preorder d) ->
    lacks LT (c_text e) = true /\ (incl (pair_keys d) shown_keys \/ lacks QUOTE (c_text e) = true);
  nm_title : forall d t, In d (c_preorder c) -> field_child "title" d = Some t -> lacks LT (c_text (pl_node t)) = true;
  nm_bib : forall d x p, In d (c_preorder c) -> is_type "bibitem" d = true -> field_child x d = Some p ->
    lacks LT (c_text (pl_node p)) = true /\ lacks QUOTE (c_text (pl_node p)) = true;
  nm_link : forall d p q r, In d (c_preorder c) -> tagged links d = true -> named_children d = p :: q :: r ->
    lacks LT (c_text (pl_node q)) = true /\ lacks QUOTE (c_text (pl_node q)) = true /\
    (forall z, hd_error r = Some z -> lacks LT (c_text (pl_node z)) = true);
  nm_tag : forall d p, In d (c_preorder c) -> field_child "tag" d = Some p ->
    lacks LT (c_type (pl_node p)) = true /\ lacks QUOTE (c_type (pl_node p)) = true;
  nm_src : src = true -> lacks LT (c_text c) = true
}.
