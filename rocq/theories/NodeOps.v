(** Methods of [Node] and [NodeWithChildren] (rsm/nodes.py). *)
From Verif Require Export Heap.

(** ** Construction *)

(** Attributes assigned by [__init__] with default arguments, following the
    chain of [super().__init__] calls (nodes.py:166-194 for every node; then the
    line given at each class).  Later entries overwrite earlier ones. *)
Definition base_attrs (c : cls) : list (attr * val) :=
  [(a_nodeid, VNone); (a_label, VStr []); (a_types, VStrs []); (a_handrail_depth, VInt 0);
   (a_number, VNone); (a_nonum, VBool false); (a_reftext_template, VStr (classreftext c));
   (a_start_point, VPoint (-1) (-1)); (a_end_point, VPoint (-1) (-1))].
Definition own_attrs (c : cls) : list (attr * val) :=
  match c with
  | CText => [(a_text, VStr []); (a_asis, VBool false)]                     (* :982-985 *)
  | CSpan => [(a_strong, VBool false); (a_emphas, VBool false); (a_little, VBool false);
              (a_insert, VBool false); (a_delete, VBool false)]              (* :1013-1027 *)
  | CHeading => [(a_title, VStr [])]                                        (* :1033-1035 *)
  | CManuscript => [(a_src, VStr []); (a_date, VNone)]                      (* :1042-1047 *)
  | CAuthor => [(a_name, VStr []); (a_affiliation, VStr []); (a_email, VStr [])] (* :1079-1088 *)
  | CAbstract => [(a_keywords, VStrs []); (a_msc, VStrs [])]                (* :1119-1129 *)
  | CConstruct => [(a_kind, VStr [])]                                       (* :1191-1193 *)
  | CClaimBlock => [(a_kind, VStr (lit "claimblock"))]                      (* :1201-1202 *)
  | CMathBlock => [(a_isclaim, VBool false)]                                (* :1215-1217 *)
  | CSourceCode => [(a_asis, VBool true); (a_lang, VStr [])]                (* :1225-1228 *)
  | CCode | CCodeBlock => [(a_lang, VStr [])]                               (* :1237, 1247 *)
  | CBaseReference => [(a_overwrite_reftext, VStr []); (a_target, VNone)]   (* :1383-1391 *)
  | CPendingReference | CPendingPrev | CURL => [(a_target, VStr [])]        (* :1398-1414 *)
  | CPendingCite => [(a_targetlabels, VStrs [])]                            (* :1418-1420 *)
  | CCite => [(a_targets, VNodes [])]                                       (* :1424-1426 *)
  | CTheorem => [(a_title, VStr []); (a_goals, VStrs []); (a_stars, VInt 0);
                 (a_clocks, VInt 0)]                                        (* :1463-1475 *)
  | CBibitem => [(a_kind, VStr []); (a_author, VStr []); (a_title, VStr []);
                 (a_year, VInt (-1)); (a_journal, VStr []); (a_volume, VInt (-1));
                 (a_number, VInt (-1)); (a_publisher, VStr []); (a_doi, VStr []);
                 (a_backlinks, VStrs [])]                                   (* :1533-1556 *)
  | CUnknownBibitem => [(a_number, VStr (lit "?"))]                         (* :1560-1562 *)
  | CFigure => [(a_path, VStr (lit ".")); (a_scale, VFloat (lit "1.0"))]    (* :1570-1575; str(Path("")) *)
  | _ => []
  end.
Definition default_attrs (c : cls) : list (attr * val) :=
  base_attrs c ++ flat_map own_attrs (rev (chain c)).

(** [Cls(kw...)]: keyword arguments overwrite the defaults.  Arguments given as
    [None]/empty where the code writes [x or default] are not passed. *)
Definition mk_attrs (c : cls) (kw : list (attr * val)) : gmap attr val :=
  fold_left (fun m p => <[p.1 := p.2]> m) (default_attrs c ++ kw) ∅.
Definition mk_node (c : cls) (kw : list (attr * val)) : node :=
  MkNode c None [] (mk_attrs c kw).
Definition new_node (c : cls) (kw : list (attr * val)) : M id := alloc (mk_node c kw).

(** ** Parent and children *)

(** nodes.py:390-402: setter of the [parent] property. *)
Definition set_parent (i : id) (p : option id) : M unit :=
  match p with
  | None => mod_node i (set_n_parent None)
  | Some q =>
      let! c := cls_of i in
      match possible_parents c with
      | [] => mod_node i (set_n_parent (Some q))
      | pp =>
          let! d := cls_of q in
          if cls_mem d pp then mod_node i (set_n_parent (Some q))
          else raise (ENode (lit "Node of type <class 'rsm.nodes." ++ cls_name c
                             ++ lit "'> cannot have parent of type <class 'rsm.nodes."
                             ++ cls_name d ++ lit "'>"))
      end
  end.

(** [self._children] (AttributeError on nodes without children). *)
Definition raw_children (i : id) : M (list id) :=
  let! n := get_node i in
  if has_children (n_cls n) then ret (n_children n) else raise EAttribute.
Definition set_raw_children (i : id) (cs : list id) : M unit := mod_node i (set_n_children cs).

(** nodes.py:882-947 [append], one node (lines 938-942). *)
Definition append1 (self child : id) : M unit :=
  let! cs0 := raw_children self in
  let! p := parent_of child in
  match p with
  | Some _ => raise (ENode (lit "Attempting to append child to a new parent"))
  | None =>
      do! set_raw_children self (cs0 ++ [child]) in
      set_parent child (Some self)
  end.
(** nodes.py:935-937 [append], an iterable of nodes. *)
Definition append (self : id) (cs : list id) : M unit := iterM (append1 self) cs.

(** nodes.py:949-969 [prepend], one node (lines 962-966). *)
Definition prepend1 (self child : id) : M unit :=
  let! cs0 := raw_children self in
  let! p := parent_of child in
  match p with
  | Some q =>
      if Nat.eqb q self then
        do! set_raw_children self (child :: cs0) in
        set_parent child (Some self)
      else raise (ENode (lit "Attempting to prepend child to a different parent"))
  | None =>
      do! set_raw_children self (child :: cs0) in
      set_parent child (Some self)
  end.
(** nodes.py:959-961 [prepend], a list of nodes. *)
Definition prepend (self : id) (cs : list id) : M unit := iterM (prepend1 self) (rev cs).

(** [[id(c) for c in l].index(id(x))] *)
Fixpoint index_of (x : id) (l : list id) : option nat :=
  match l with
  | [] => None
  | y :: r => if Nat.eqb x y then Some 0
              else match index_of x r with Some k => Some (S k) | None => None end
  end.
(** [list.insert(k, x)] *)
Definition insert_at (k : nat) (x : id) (l : list id) : list id := take k l ++ x :: drop k l.
(** [del l[k]] *)
Definition delete_at (k : nat) (l : list id) : list id := take k l ++ drop (S k) l.

(** nodes.py:971-976 [remove]. *)
Definition remove (self child : id) : M unit :=
  let! cs := raw_children self in
  match index_of child cs with
  | None => raise EValue
  | Some k =>
      do! set_raw_children self (delete_at k cs) in
      set_parent child None
  end.

(** nodes.py:823-843 [remove_self]. *)
Definition remove_self (i : id) : M unit :=
  let! p := parent_of i in
  match p with
  | None => ret tt
  | Some q => do! remove q i in set_parent i None
  end.

(** nodes.py:876-880 [clear]. *)
Definition clear (self : id) : M unit :=
  let! cs := raw_children self in
  do! iterM (fun c => set_parent c None) cs in
  set_raw_children self [].

(** nodes.py:814-816: insertion of the replacements one by one. *)
Fixpoint insert_all (parent : id) (k : nat) (reps : list id) : M unit :=
  match reps with
  | [] => ret tt
  | r :: rs =>
      let! cs := raw_children parent in
      do! set_raw_children parent (insert_at k r cs) in
      do! set_parent r (Some parent) in
      insert_all parent (S k) rs
  end.
(** nodes.py:749-821 [replace_self] (a single replacement is a list of one). *)
Definition replace_self (i : id) (reps : list id) : M unit :=
  let! p := parent_of i in
  match p with
  | None => raise (ENode (lit "Can only call replace_self on a node with parent"))
  | Some q =>
      let! cs := children_of q in
      match index_of i cs with
      | None => raise EValue
      | Some k =>
          do! remove q i in
          insert_all q k reps
      end
  end.

(** ** Queries *)

(** [isinstance(child, cls)] on an identity *)
Definition inst (ds : list cls) (i : id) : M bool :=
  let! c := cls_of i in ret (subclass_any c ds).

(** nodes.py:574-577 [first_of_type] with its index. *)
Fixpoint first_of_type_go (ds : list cls) (l : list id) (k : nat) : M (option (id * nat)) :=
  match l with
  | [] => ret None
  | c :: r =>
      let! b := inst ds c in
      if b then ret (Some (c, k)) else first_of_type_go ds r (S k)
  end.
Definition first_of_type (i : id) (ds : list cls) : M (option (id * nat)) :=
  let! cs := children_of i in first_of_type_go ds cs 0.

(** nodes.py:593-596 [last_of_type] with its index [len(children) - idx - 1]. *)
Definition last_of_type (i : id) (ds : list cls) : M (option (id * nat)) :=
  let! cs := children_of i in
  let! r := first_of_type_go ds (rev cs) 0 in
  match r with
  | None => ret None
  | Some (c, k) => ret (Some (c, length cs - k - 1))
  end.

(** The class argument of [prev_sibling]/[next_sibling]. *)
Inductive sibling_arg := SibAny | SibSelf | SibCls (c : cls).

Fixpoint first_inst (d : cls) (l : list id) : M (option id) :=
  match l with
  | [] => ret None
  | c :: r => let! b := inst [d] c in if b then ret (Some c) else first_inst d r
  end.

(** nodes.py:598-658 [prev_sibling].  With [cls=None] and index 0 the loop over
    the (empty) list of previous siblings falls through to [return None]. *)
Definition prev_sibling (i : id) (a : sibling_arg) : M (option id) :=
  let! p := parent_of i in
  match p with
  | None => ret None
  | Some q =>
      let! cs := children_of q in
      match index_of i cs with
      | None => raise EValue
      | Some k =>
          match a with
          | SibAny => ret (match k with 0 => None | S k' => nth_error cs k' end)
          | SibSelf => let! c := cls_of i in first_inst c (rev (take k cs))
          | SibCls c => first_inst c (rev (take k cs))
          end
      end
  end.

(** nodes.py:660-687 [next_sibling]. *)
Definition next_sibling (i : id) (a : sibling_arg) : M (option id) :=
  let! p := parent_of i in
  match p with
  | None => ret None
  | Some q =>
      let! cs := children_of q in
      match index_of i cs with
      | None => raise EValue
      | Some k =>
          match a with
          | SibAny => ret (nth_error cs (S k))
          | SibSelf => let! c := cls_of i in first_inst c (drop (S k) cs)
          | SibCls c => first_inst c (drop (S k) cs)
          end
      end
  end.

(** nodes.py:728-741: the loop of [first_ancestor_of_type]; exact types. *)
Fixpoint anc_loop (fuel : nat) (ds : list cls) (cur : option id) : M (option id) :=
  match cur with
  | None => ret None
  | Some q =>
      match fuel with
      | 0 => raise EOutOfFuel
      | S fuel =>
          let! c := cls_of q in
          if cls_mem c ds then ret (Some q)
          else let! p := parent_of q in anc_loop fuel ds p
      end
  end.
(** nodes.py:689-741 [first_ancestor_of_type]. *)
Definition first_ancestor_of_type (fuel : nat) (i : id) (ds : list cls) : M (option id) :=
  let! p := parent_of i in anc_loop fuel ds p.

(** ** Traversal *)

(** nodes.py:524-530: the generator's loop, interleaved with the body of the
    [for] statement that consumes it: the body runs when the node is yielded,
    after the pop and before [stack += node.children[::-1]].  The head of the
    list is the top of the Python stack.  [acc] is the state of the consumer. *)
Fixpoint trav_loop {A} (fuel : nat) (cond : node -> bool) (body : A -> id -> M A)
    (acc : A) (stack : list id) : M A :=
  match stack with
  | [] => ret acc
  | i :: rest =>
      match fuel with
      | 0 => raise EOutOfFuel
      | S fuel =>
          let! n := get_node i in
          let! acc' := (if cond n then body acc i else ret acc) in
          let! cs := children_of i in
          trav_loop fuel cond body acc' (cs ++ rest)
      end
  end.
(** [for x in root.traverse(condition=cond): body] *)
Definition for_traverse {A} (fuel : nat) (cond : node -> bool) (body : A -> id -> M A)
    (acc : A) (root : id) : M A := trav_loop fuel cond body acc [root].
(** Conditions: [None], [nodeclass=d] (nodes.py:518-522), truth of an attribute. *)
Definition cond_any (n : node) : bool := true.
Definition cond_class (d : cls) (n : node) : bool := subclass (n_cls n) d.
Definition cond_exact (ds : list cls) (n : node) : bool := cls_mem (n_cls n) ds.
Definition cond_attr (a : attr) (n : node) : bool :=
  match n_attrs n !! a with Some v => truthy v | None => false end.

(** [list(root.traverse(condition=cond))] *)
Definition traverse (fuel : nat) (cond : node -> bool) (root : id) : M (list id) :=
  let! r := for_traverse fuel cond (fun acc i => ret (i :: acc)) [] root in ret (rev r).

(** nodes.py:743-747 [get_child_by_id]: the first yielded node, if any. *)
Fixpoint first_loop (fuel : nat) (cond : node -> bool) (stack : list id) : M (option id) :=
  match stack with
  | [] => ret None
  | i :: rest =>
      match fuel with
      | 0 => raise EOutOfFuel
      | S fuel =>
          let! n := get_node i in
          if cond n then ret (Some i)
          else let! cs := children_of i in first_loop fuel cond (cs ++ rest)
      end
  end.
Definition has_nodeid (k : Z) (n : node) : bool :=
  match n_attrs n !! a_nodeid with Some (VInt z) => Z.eqb z k | _ => false end.
Definition get_child_by_id (fuel : nat) (root : id) (k : Z) : M (option id) :=
  first_loop fuel (has_nodeid k) [root].

(** ** Numbers and reference text *)

Definition logger_nodes : str := lit "RSM".

(** [f"{cls}"] of the class or tuple of classes in [number_within]. *)
Definition fmt_cls (c : cls) : str := lit "<class 'rsm.nodes." ++ cls_name c ++ lit "'>".
Definition fmt_within (ds : list cls) : str :=
  match ds with
  | [c] => fmt_cls c
  | _ => lit "(" ++ join (lit ", ") (map fmt_cls ds) ++ lit ")"
  end.

(** nodes.py:417-431 [Node.full_number] and 1049-1051 [Manuscript.full_number].
    [None] is Python's None.  [ancestor.full_number] is evaluated twice when
    non-empty, as in the source (it may log twice). *)
Fixpoint full_number (fuel : nat) (i : id) : M (option str) :=
  match fuel with
  | 0 => raise EOutOfFuel
  | S fuel' =>
      let! c := cls_of i in
      if subclass c CManuscript then ret (Some [])
      else
      let! nonum := getattr i a_nonum in
      if truthy nonum then ret None
      else
        let! anc := first_ancestor_of_type fuel' i (number_within c) in
        let! anc := (match anc with
                     | Some a => ret (Some a)
                     | None =>
                         do! warn logger_nodes
                               (cls_name c ++ lit " numbered within " ++ fmt_within (number_within c)
                                ++ lit " but no such ancestor was found; using root node instead") in
                         first_ancestor_of_type fuel' i [CManuscript]
                     end) in
        let! number := getattr i a_number in
        let plain := ret (Some (if truthy number then fmt_val number else [])) in
        match anc with
        | None => plain
        | Some a =>
            let! f := full_number fuel' a in
            match f with
            | Some (x :: xs) =>
                let! f2 := full_number fuel' a in
                ret (Some (match f2 with Some y => y | None => lit "None" end
                           ++ lit "." ++ fmt_val number))
            | _ => plain
            end
        end
  end.

(** nodes.py:433-437 [reftext]. *)
Definition reftext (fuel : nat) (i : id) : M str :=
  let! tmpl := get_str i a_reftext_template in
  let! c := cls_of i in
  let! f := full_number fuel i in
  match py_format tmpl (cls_name c) (match f with Some y => y | None => lit "None" end) with
  | FmtOk x => ret (strip x)
  | FmtKeyError => raise EKey
  | FmtIndexError => raise EIndex
  | FmtValueError => raise EValue
  | FmtUnsupported => raise EUnsupported
  end.

(** ** Meta data *)

(** nodes.py:845-850 [ingest_dict_as_meta].  The dictionary is a list of pairs
    with distinct keys; [setattr] on a read-only property raises
    AttributeError; assigning [parent] from meta data is outside the model. *)
Definition readonly_props : list str :=
  [lit "children"; lit "number_within"; lit "number_as"; lit "full_number"; lit "reftext";
   lit "keyword"; lit "long_reftext"].
Definition py_setattr (i : id) (key : str) (v : val) : M unit :=
  if str_mem key readonly_props then raise EAttribute
  else if str_eqb key (lit "parent") then raise EUnsupported
  else setattr i (attr_of_name key) v.
Definition dict_get (d : list (str * val)) (k : str) : option val :=
  match find (fun p => str_eqb p.1 k) d with Some p => Some p.2 | None => None end.
Definition dict_del (d : list (str * val)) (k : str) : list (str * val) :=
  List.filter (fun p => negb (str_eqb p.1 k)) d.
(** [d[k] = v]: in place when the key exists, else at the end. *)
Definition dict_set (d : list (str * val)) (k : str) (v : val) : list (str * val) :=
  if existsb (fun p => str_eqb p.1 k) d
  then map (fun p => if str_eqb p.1 k then (p.1, v) else p) d
  else d ++ [(k, v)].
Definition reftext_to_template (meta : list (str * val)) : list (str * val) :=
  match dict_get meta (lit "reftext") with
  | Some v => dict_del (dict_set meta (lit "reftext_template") v) (lit "reftext")
  | None => meta
  end.
Definition ingest_dict_as_meta (i : id) (meta : list (str * val)) : M unit :=
  iterM (fun p => py_setattr i p.1 p.2) (reftext_to_template meta).

(** ** Equality *)

(** [a == b] on attribute values that are not nodes ([True == 1] in Python). *)
Definition as_num (v : val) : option Z :=
  match v with VInt z => Some z | VBool b => Some (if b then 1 else 0)%Z | _ => None end.
Fixpoint strs_eqb (a b : list str) : bool :=
  match a, b with
  | [], [] => true
  | x :: a', y :: b' => str_eqb x y && strs_eqb a' b'
  | _, _ => false
  end.
Definition val_eqb (a b : val) : bool :=
  match as_num a, as_num b with
  | Some x, Some y => Z.eqb x y
  | _, _ =>
      match a, b with
      | VNone, VNone => true
      | VStr x, VStr y => str_eqb x y
      | VFloat x, VFloat y => str_eqb x y
      | VStrs x, VStrs y => strs_eqb x y
      | VNode x, VNode y => Nat.eqb x y                   (* "mine is other's" *)
      | VPoint x y, VPoint x' y' => Z.eqb x x' && Z.eqb y y'
      | VNodes x, VNodes y => if decide (x = y) then true else false   (* not compared by the code *)
      | _, _ => false
      end
  end.
Definition attr_eq (a b : node) (k : attr) : bool :=
  match n_attrs a !! k, n_attrs b !! k with
  | Some x, Some y => val_eqb x y
  | _, _ => false                                          (* AttributeError -> False *)
  end.
Definition parent_eq (a b : node) : bool :=
  match n_parent a, n_parent b with
  | None, None => true
  | Some p, Some q => Nat.eqb p q
  | _, _ => false
  end.
(** nodes.py:196-197, 860-861, 1393-1394 [_attrs_for_repr_and_eq] minus
    [parent] and [children], which are compared below. *)
Definition eq_attrs (c : cls) : list attr :=
  [a_label; a_types; a_nonum; a_number]
  ++ (if subclass c CBaseReference then [a_target; a_overwrite_reftext] else []).

(** nodes.py:212-222 [__eq__] with Python's operator dispatch: for [a == b] the
    method of [b] is tried first when [type(b)] is a proper subclass of
    [type(a)].  Both methods are the same function, so only the list of
    compared attributes differs.  Tuples compare element-wise, with a shortcut
    for identical elements. *)
Fixpoint node_eq (fuel : nat) (h : gmap id node) (x y : id) : option bool :=
  match fuel with
  | 0 => None
  | S fuel =>
      match h !! x, h !! y with
      | Some nx, Some ny =>
          let swap := subclass (n_cls ny) (n_cls nx) && negb (cls_eqb (n_cls ny) (n_cls nx)) in
          let a := if swap then ny else nx in
          let b := if swap then nx else ny in
          if forallb (attr_eq a b) (eq_attrs (n_cls a)) && parent_eq a b then
            if has_children (n_cls a) then
              (fix go (l m : list id) : option bool :=
                 match l, m with
                 | [], [] => Some true
                 | u :: l', v :: m' =>
                     if Nat.eqb u v then go l' m'
                     else match node_eq fuel h u v with
                          | Some true => go l' m'
                          | r => r
                          end
                 | _, _ => Some false
                 end) (kids a) (kids b)
            else Some true
          else Some false
      | _, _ => None
      end
  end.

(** ** S-expressions *)

(** nodes.py:224-360 [sexp] with [meta=False] (lines 317-360): the explicit stack
    holds nodes with their indentation, or [None] for a pending ")". *)
Fixpoint sexp_loop (fuel : nat) (tab : nat) (stack : list (option (nat * id))) (exp : str) : M str :=
  match stack with
  | [] => ret exp
  | top :: rest =>
      match fuel with
      | 0 => raise EOutOfFuel
      | S fuel =>
          match top with
          | None => sexp_loop fuel tab rest (exp ++ lit ")")
          | Some (indent, i) =>
              let! c := cls_of i in
              let! cs := children_of i in
              sexp_loop fuel tab
                (map (fun c => Some (indent + tab, c)) cs ++ None :: rest)
                (exp ++ [10%N] ++ repeat 32%N indent ++ lit "(" ++ cls_name c)
          end
      end
  end.
(** [exp[1:]] drops the leading newline. *)
Definition sexp (fuel : nat) (tab : nat) (i : id) : M str :=
  let! e := sexp_loop fuel tab [Some (0, i)] [] in ret (tail e).
