(** rsm/transformer.py: the transform step. *)
From Verif Require Export NodeOps.

Definition logger_tform : str := lit "RSM.tform".

(** [self.labels_to_nodes]: a dictionary, as a list of pairs. *)
Notation labels := (list (str * id)).
Definition lookup_label (d : labels) (l : str) : option id :=
  match find (fun p => str_eqb p.1 l) d with Some p => Some p.2 | None => None end.

(** transformer.py:149-172 [collect_labels].  The dictionary survives between
    calls of [transform]. *)
Definition collect_body (d : labels) (i : id) : M labels :=
  let! l := get_str i a_label in
  match lookup_label d l with
  | Some _ =>
      do! warn logger_tform (lit "Duplicate label " ++ l ++ lit ", using first encountered") in
      do! setattr i a_label (VStr []) in
      ret d
  | None => ret (d ++ [(l, i)])
  end.
Definition collect_labels (fuel : nat) (d : labels) (tree : id) : M labels :=
  for_traverse fuel (cond_attr a_label) collect_body d tree.

(** transformer.py:174-179 [_label_to_node].  [default] is the class of the
    node built for an unknown label: [Error(text)] or [UnknownBibitem(number)]. *)
Inductive label_default := DefError | DefUnknownBibitem.
Definition unknown_label (l : str) : str := lit "[unknown label """ ++ l ++ lit """]".
Definition label_to_node (d : labels) (l : str) (def : label_default) : M id :=
  match lookup_label d l with
  | Some i => ret i
  | None =>
      do! warn logger_tform (lit "Reference to nonexistent label """ ++ l ++ lit """") in
      match def with
      | DefError => new_node CError [(a_text, VStr (unknown_label l))]
      | DefUnknownBibitem => new_node CUnknownBibitem [(a_number, VStr (unknown_label l))]
      end
  end.

(** transformer.py:182-186 *)
Definition pending_classes : list cls := [CPendingReference; CPendingCite; CPendingPrev].

(** transformer.py:190-200 *)
Definition resolve_reference (d : labels) (pending : id) : M unit :=
  let! tl := get_str pending a_target in
  let! target := label_to_node d tl DefError in
  let! tc := cls_of target in
  if subclass tc CError then replace_self pending [target]
  else
    let! o := getattr pending a_overwrite_reftext in
    let! r := new_node CReference [(a_target, VNode target); (a_overwrite_reftext, o)] in
    replace_self pending [r].

(** [tgt.backlinks.append(label)]: AttributeError if the node has no backlinks. *)
Definition add_backlink (label : str) (tgt : id) : M unit :=
  let! b := get_strs tgt a_backlinks in
  setattr tgt a_backlinks (VStrs (b ++ [label])).

(** transformer.py:201-210; [k] is the value of the counter. *)
Definition resolve_cite (d : labels) (k : nat) (pending : id) : M unit :=
  let! ls := get_strs pending a_targetlabels in
  let! targets := mapM (fun l => label_to_node d l DefUnknownBibitem) ls in
  let! cite := new_node CCite [(a_targets, VNodes targets)] in
  let label := lit "cite-" ++ str_of_nat k in
  do! setattr cite a_label (VStr label) in
  do! replace_self pending [cite] in
  iterM (add_backlink label) targets.

(** transformer.py:219-225: walk [n] steps back. *)
Fixpoint walk_prev (n : nat) (shown : str) (target : id) : M id :=
  match n with
  | 0 => ret target
  | S n =>
      let! t := prev_sibling target (SibCls CStep) in
      match t with
      | None => raise (ETransformer (lit "Did not find previous " ++ shown ++ lit " step(s)"))
      | Some t => walk_prev n shown t
      end
  end.

(** transformer.py:211-235.  [first_ancestor_of_type] raises no AttributeError on
    nodes, so the [except] clause is never entered.  The test
    [target.label is None or not target.label.strip()] fails with AttributeError
    if the label is not a string. *)
Definition resolve_prev (fuel : nat) (pending : id) : M unit :=
  let! step := first_ancestor_of_type fuel pending [CStep] in
  match step with
  | None => raise (ETransformer (lit "Found :prev: tag outside proof step"))
  | Some step =>
      let! tv := getattr pending a_target in
      match py_int (fmt_val tv) with
      | None => raise EValue
      | Some n =>
          let! target := walk_prev (Z.to_nat n) (fmt_val tv) step in
          let! l := getattr target a_label in
          let! unlabelled := (match l with
                              | VNone => ret true
                              | VStr l => ret (match strip l with [] => true | _ => false end)
                              | _ => raise EAttribute
                              end) in
          do! (if unlabelled
               then warn logger_tform (lit ":prev: references un-labeled step, link will not work")
               else ret tt) in
          let! o := getattr pending a_overwrite_reftext in
          let! r := new_node CReference [(a_target, VNode target); (a_overwrite_reftext, o)] in
          replace_self pending [r]
      end
  end.

(** transformer.py:189-235: body of the loop; the accumulator is [counter]. *)
Definition resolve_body (fuel : nat) (d : labels) (k : nat) (pending : id) : M nat :=
  let! c := cls_of pending in
  if subclass c CPendingReference then do! resolve_reference d pending in ret k
  else if subclass c CPendingCite then do! resolve_cite d k pending in ret (S k)
  else if subclass c CPendingPrev then do! resolve_prev fuel pending in ret k
  else ret k.

(** transformer.py:181-238 [resolve_pending_references]. *)
Definition resolve_pending_references (fuel : nat) (d : labels) (tree : id) : M unit :=
  do! for_traverse fuel (cond_exact pending_classes) (resolve_body fuel d) 0 tree in
  do! for_traverse fuel (cond_exact pending_classes)
        (fun _ _ => raise (ETransformer (lit "Found unresolved pending reference"))) tt tree in
  ret tt.

(** transformer.py:240-270 [add_necessary_subproofs], body of the loop. *)
Definition subproof_body (_ : unit) (step : id) : M unit :=
  let! cs := children_of step in
  match cs with
  | [] => ret tt
  | _ =>
      let! f := first_of_type step [CStep; CSubproof] in
      let split := match f with Some (_, k) => k | None => length cs end in
      do! clear step in
      let! statement := new_node CStatement [] in
      do! append statement (take split cs) in
      let! hd := get_int statement a_handrail_depth in
      do! setattr statement a_handrail_depth (VInt (hd + 1)) in
      match nth_error cs split with
      | None => append step [statement]
      | Some c =>
          let! isstep := inst [CStep] c in
          let! issub := inst [CSubproof] c in
          let! subproof :=
            (if isstep then
               let! sp := new_node CSubproof [] in
               do! append sp (drop split cs) in ret sp
             else if issub then
               if Nat.eqb split (length cs - 1) then ret c else raise EAssert
             else raise (ETransformer (lit "How did we get here?"))) in
          append step [statement; subproof]
      end
  end.
Definition add_necessary_subproofs (fuel : nat) (tree : id) : M unit :=
  for_traverse fuel (cond_class CStep) subproof_body tt tree.

(** ** Numbers *)

(** A lazily created generator: [count(start=1)] or [iter(ascii_uppercase)],
    represented by how many values have been taken. *)
Inductive counter_kind := KCount | KLetters.
(** [counts[cls]]: a [defaultdict] of generators, by [number_as] class.  The keys
    of the outer dictionary are single classes here; the only tuple,
    [Step._number_within], is never used because steps are skipped. *)
Record counter := MkCounter { ck : counter_kind; taken : list (cls * nat) }.
Definition fresh_count : counter := MkCounter KCount [].
Definition fresh_letters : counter := MkCounter KLetters [].
Definition taken_of (c : counter) (k : cls) : nat :=
  match find (fun p => cls_eqb p.1 k) (taken c) with Some p => p.2 | None => 0 end.

(** [string.ascii_uppercase] *)
Definition ascii_uppercase : str := lit "ABCDEFGHIJKLMNOPQRSTUVWXYZ".

(** [next(counts[w][a])]: the value, or StopIteration after "Z". *)
Definition counter_value (c : counter) (k : cls) : option val :=
  match ck c with
  | KCount => Some (VInt (Z.of_nat (S (taken_of c k))))
  | KLetters => match nth_error ascii_uppercase (taken_of c k) with
                | Some l => Some (VStr [l])
                | None => None
                end
  end.
Definition counter_next (c : counter) (k : cls) : counter :=
  MkCounter (ck c) ((k, S (taken_of c k)) :: taken c).

(** [counts]: outer [defaultdict]. *)
Notation counters := (list (list cls * counter)).
Fixpoint cls_list_eqb (a b : list cls) : bool :=
  match a, b with
  | [], [] => true
  | x :: a', y :: b' => cls_eqb x y && cls_list_eqb a' b'
  | _, _ => false
  end.
Definition counters_get (cs : counters) (k : list cls) : counter :=
  match find (fun p => cls_list_eqb p.1 k) cs with Some p => p.2 | None => fresh_count end.
Definition counters_set (cs : counters) (k : list cls) (c : counter) : counters := (k, c) :: cs.

(** State of the loop: counts, within_appendix. *)
Record num_st := MkNum { counts : counters; within_appendix : bool }.

(** transformer.py:297-300 [_autonumber_steps]. *)
Fixpoint number_steps (l : list id) (k : Z) : M unit :=
  match l with
  | [] => ret tt
  | s :: r =>
      let! b := inst [CStep] s in
      if b then do! setattr s a_number (VInt k) in number_steps r (k + 1)%Z
      else number_steps r k
  end.
Definition autonumber_steps (proof : id) : M unit :=
  let! cs := children_of proof in number_steps cs 1%Z.

(** transformer.py:277-295: body of the loop. *)
Definition autonumber_body (a : num_st) (i : id) : M num_st :=
  let! c := cls_of i in
  if subclass c CAppendix then
    ret (MkNum (counters_set (counts a) [CManuscript] fresh_letters) true)
  else if subclass_any c [CProof; CSubproof] then do! autonumber_steps i in ret a
  else if subclass c CStep then ret a
  else
    let! nonum := getattr i a_nonum in
    if autonumber c && negb (truthy nonum) then
      let cs := counters_set (counts a) [c] fresh_count in
      let within := counters_get cs (number_within c) in
      match counter_value within (number_as c) with
      | None => raise EStopIteration
      | Some num =>
          let cs := counters_set cs (number_within c) (counter_next within (number_as c)) in
          do! setattr i a_number num in
          do! (if within_appendix a && subclass c CSection then
                 let! t := get_str i a_reftext_template in
                 setattr i a_reftext_template (VStr (replace (lit "{nodeclass}") (lit "Appendix") t))
               else ret tt) in
          ret (MkNum cs (within_appendix a))
      end
    else ret a.
(** transformer.py:272-295 [autonumber_nodes]. *)
Definition autonumber_nodes (fuel : nat) (tree : id) : M unit :=
  do! for_traverse fuel cond_any autonumber_body (MkNum [] false) tree in ret tt.

(** ** Table of contents *)

(** transformer.py:303-309: keep the first Contents, remove the others. *)
Definition toc_pick (toc : option id) (i : id) : M (option id) :=
  match toc with
  | None => ret (Some i)
  | Some t =>
      do! warn logger_tform (lit "Multiple Tables of Content found, using only first one") in
      do! remove_self i in
      ret (Some t)
  end.

(** [x.parent.parent] starting from an optional node: AttributeError on None. *)
Definition parent_parent (x : option id) : M (option id) :=
  match x with
  | None => raise EAttribute
  | Some x => let! p := parent_of x in
              match p with None => raise EAttribute | Some p => parent_of p end
  end.
Definition append_opt (x : option id) (c : id) : M unit :=
  match x with None => raise EAttribute | Some x => append x [c] end.
Definition is_last_of (sec : id) (d : cls) : M bool :=
  let! p := parent_of sec in
  match p with
  | None => raise EAttribute
  | Some p => let! l := last_of_type p [d] in
              ret (match l with Some (x, _) => Nat.eqb x sec | None => false end)
  end.

(** transformer.py:315-316: the text of the entry. *)
Definition toc_reftext (fuel : nat) (sec : id) : M str :=
  let! title := getattr sec a_title in
  let! nonum := getattr sec a_nonum in
  if truthy nonum then ret (fmt_val title)
  else let! f := full_number fuel sec in
       ret (match f with Some x => x | None => lit "None" end ++ lit ". " ++ fmt_val title).

(** transformer.py:314-342: body of the loop; accumulator = [current_parent]. *)
Definition toc_body (fuel : nat) (toc : id) (cur : option id) (sec : id) : M (option id) :=
  let! item := new_node CItem [] in
  let! reftext := toc_reftext fuel sec in
  let! r := new_node CReference [(a_target, VNode sec); (a_overwrite_reftext, VStr reftext)] in
  do! append item [r] in
  let! c := cls_of sec in
  if subclass c CSubsubsection then
    do! append_opt cur item in
    let! l := is_last_of sec CSubsubsection in
    if l then parent_parent cur else ret cur
  else if subclass c CSubsection then
    do! append_opt cur item in
    let! f := first_of_type sec [CSubsubsection] in
    match f with
    | Some _ =>
        let! itemize := new_node CItemize [] in
        do! append item [itemize] in ret (Some itemize)
    | None =>
        let! l := is_last_of sec CSubsection in
        if l then parent_parent cur else ret cur
    end
  else if subclass c CSection then
    do! append toc [item] in
    let! f := first_of_type sec [CSubsection] in
    match f with
    | Some _ =>
        let! itemize := new_node CItemize [] in
        do! append item [itemize] in ret (Some itemize)
    | None => ret cur
    end
  else raise (ETransformer (lit "How did we get here?")).

(** transformer.py:302-342 [make_toc]. *)
Definition make_toc (fuel : nat) (tree : id) : M unit :=
  let! toc := for_traverse fuel (cond_class CContents) toc_pick None tree in
  match toc with
  | None => ret tt
  | Some toc =>
      do! for_traverse fuel (cond_class CSection) (toc_body fuel toc) (Some toc) tree in ret tt
  end.

(** ** Remaining passes *)

(** transformer.py:349 *)
Definition not_assumption : list str :=
  [lit "then"; lit "suffices"; lit "claim"; lit "claimblock"; lit "qed"; lit "prove"].
(** transformer.py:344-350 [add_keywords_to_constructs].  A [kind] that is not a
    string cannot come from the parser and is outside the model. *)
Definition construct_body (_ : unit) (i : id) : M unit :=
  let! kv := getattr i a_kind in
  if negb (truthy kv) then raise EAssert
  else match kv with
  | VStr kind =>
      let! ts := get_strs i a_types in
      do! setattr i a_types (VStrs (ts ++ [kind])) in
      if str_mem kind not_assumption then ret tt
      else
        let! ts := get_strs i a_types in
        setattr i a_types (VStrs (ts ++ [lit "assumption"]))
  | _ => raise EUnsupported
  end.
Definition add_keywords_to_constructs (fuel : nat) (tree : id) : M unit :=
  for_traverse fuel (cond_class CConstruct) construct_body tt tree.

(** [desc == node] as a test in the monad. *)
Definition node_eqM (fuel : nat) (x y : id) : M bool := fun s =>
  match node_eq fuel (st_heap s) x y with
  | Some b => (s, Ok b)
  | None => (s, Err EOutOfFuel)
  end.
(** transformer.py:357-362 [_add_handrail_depth_for_class]. *)
Definition depth_inner (fuel : nat) (nd : id) (_ : unit) (desc : id) : M unit :=
  let! e := (node_eqM fuel desc nd) in
  if e then ret tt
  else let! d := get_int desc a_handrail_depth in
       setattr desc a_handrail_depth (VInt (d + 1)).
Definition depth_outer (fuel : nat) (_ : unit) (nd : id) : M unit :=
  for_traverse fuel cond_any (depth_inner fuel nd) tt nd.
Definition add_handrail_depth_for_class (fuel : nat) (tree : id) (nc : cls) : M unit :=
  for_traverse fuel (cond_class nc) (depth_outer fuel) tt tree.
(** transformer.py:352-355 [add_handrail_depth]. *)
Definition add_handrail_depth (fuel : nat) (tree : id) : M unit :=
  iterM (add_handrail_depth_for_class fuel tree) (List.filter has_handrail all_cls).

(** transformer.py:364-368 [assign_node_ids]. *)
Definition nodeid_body (k : Z) (i : id) : M Z :=
  do! setattr i a_nodeid (VInt k) in ret (k + 1)%Z.
Definition assign_node_ids (fuel : nat) (tree : id) : M unit :=
  do! for_traverse fuel cond_any nodeid_body 0%Z tree in ret tt.

(** transformer.py:116-147 [transform], for a Transformer whose dictionary is
    [d]; returns the new dictionary. *)
Definition transform (fuel : nat) (d : labels) (tree : id) : M labels :=
  do! info logger_tform (lit "Transforming...") in
  let! d := collect_labels fuel d tree in
  do! resolve_pending_references fuel d tree in
  do! add_necessary_subproofs fuel tree in
  do! autonumber_nodes fuel tree in
  do! make_toc fuel tree in
  do! add_keywords_to_constructs fuel tree in
  do! add_handrail_depth fuel tree in
  do! assign_node_ids fuel tree in
  ret d.
