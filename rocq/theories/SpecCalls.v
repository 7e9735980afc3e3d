(** Calls of render, lint and make one after the other in a process. *)
From Verif Require Export SpecRender Spec.
Local Open Scope list_scope.

Inductive call :=
| CallRender (source path : str) (handrails add_source : bool) (c : logcfg)
| CallLint (source path : str) (handrails : bool) (c : logcfg)
| CallMake (source path : str) (handrails lint : bool) (c : logcfg).
Section Calls.
Context (ts : str -> cst) (hl : str -> str -> str) (pkg : list (str * str)) (fuel : nat).
Definition do_call (k : call) (w : world) : world * res (pv obj) :=
  match k with
  | CallRender s p h a c => render_rsm ts hl pkg fuel s p h a c w
  | CallLint s p h c => lint_rsm ts hl pkg fuel s p h c w
  | CallMake s p h l c => make_rsm ts hl pkg fuel s p h l c w
  end.
(** The world after some calls, whatever they return or raise. *)
Fixpoint do_calls (l : list call) (w : world) : world :=
  match l with [] => w | k :: l => do_calls l (fst (do_call k w)) end.
End Calls.
(** A process that has just imported the package, in a directory with the files [fs]. *)
Definition new_process (fs : files) : world := MkW empty_st initial_log [] fs.
(** The same answer, if the identities of the nodes are [k] higher: the same exception or the same
    string, or a manuscript at the corresponding node. *)
Definition same_answer (k : nat) (r r0 : res (pv obj)) : Prop :=
  match r0 with Ok (PObj (OTree i)) => r = Ok (PObj (OTree (k + i))) | _ => r = r0 end.
(** The same node, if the identities are [k] higher. *)
Definition moved_val (k : nat) (v : val) : val :=
  match v with VNode i => VNode (k + i) | VNodes l => VNodes (map (Nat.add k) l) | _ => v end.
Definition moved_node (k : nat) (n : node) : node :=
  MkNode (n_cls n) (option_map (Nat.add k) (n_parent n)) (map (Nat.add k) (n_children n)) (moved_val k <$> n_attrs n).
(** The memory after a call is that of the call in a new process, beside what was there already. *)
Definition memory_beside (old new alone : gmap id node) (k : nat) : Prop :=
  (forall i, i < k -> new !! i = old !! i) /\ (forall i, new !! (k + i) = moved_node k <$> alone !! i).
