(** What a reader sees of the children of a node: characters, gaps and other nodes in one line.
    White space counts only as a gap; two texts side by side are set apart by a gap, and so are two
    spans, constructs or formulas. *)
From Verif Require Export SpecNorm.
Local Open Scope list_scope.

Inductive piece := Chr (c : char) | Gap | Nd (t : atree).
Definition chars (s : str) : list piece := map (fun c => if is_space c then Gap else Chr c) s.
Definition item (t : atree) : list piece := if text_node t then chars (text_of t) else [Nd t].
Definition set_off (t u : atree) : bool :=
  text_node t && text_node u || cls_mem (a_class t) [CSpan; CConstruct; CMath] && cls_mem (a_class u) [CSpan; CConstruct; CMath].
Fixpoint line (ts : list atree) : list piece :=
  match ts with
  | [] => []
  | t :: r => item t ++ match r with u :: _ => if set_off t u then [Gap] else [] | [] => [] end ++ line r
  end.
(** Only one gap at a time, and none at the ends. *)
Definition squash (p : piece) (l : list piece) : list piece :=
  match p, l with Gap, [] => [] | Gap, Gap :: _ => l | _, _ => p :: l end.
Definition tidy (l : list piece) : list piece :=
  match fold_right squash [] l with Gap :: r => r | r => r end.

(** No two texts side by side. *)
Fixpoint texts_apart (ts : list atree) : Prop :=
  match ts with
  | t :: r => match r with u :: _ => ~ (text_node t = true /\ text_node u = true) | [] => True end /\ texts_apart r
  | [] => True
  end.
Definition non_texts (ts : list atree) : list atree := List.filter (fun t => negb (text_node t)) ts.

(** At most one white space character at either end, and that a space. *)
Definition starts_tight (s : str) : Prop :=
  match s with
  | c :: r => is_space c = true -> c = 32%N /\ match r with d :: _ => is_space d = false | [] => True end
  | [] => True
  end.
Definition tight (s : str) : Prop := starts_tight s /\ starts_tight (rev s).
(** [w] as a single space, unless it is empty. *)
Definition one_space (w : str) : str := match w with [] => [] | _ => [32%N] end.
Definition blank (s : str) : Prop := Forall (fun c => is_space c = true) s.
Definition no_space_at_start (s : str) : Prop := match s with c :: _ => is_space c = false | [] => False end.
