(** Transform keeps every node below a parent that its class permits. *)
From Verif Require Export TotalResolve.
From Verif Require Import Consistency Built Subproofs NodeOps Monad.
Local Open Scope list_scope.

Lemma pl_setattr i a v : keeps parents_ok (setattr i a v).
Proof.
  intros s H. unfold setattr, mod_node, bind, get_node. destruct (st_heap s !! i) as [n|] eqn:E; [|exact H]. simpl.
  apply (parents_ok_upd _ _ n); auto.
Qed.
Lemma pl_new c kw : keeps parents_ok (new_node c kw).
Proof.
  intros s H. pose proof (edit_parents_ok (Construct c kw) s H) as G. cbn [run_edit] in G. unfold bind in G. destruct (new_node c kw s) as [s' [i|e]]; exact G.
Qed.
Lemma pl_log l m : keeps parents_ok (warn l m). Proof. intros s H. exact H. Qed.
Lemma pl_append p cs : keeps parents_ok (append p cs). Proof. exact (edit_parents_ok (Append p cs)). Qed.
Lemma pl_clear p : keeps parents_ok (clear p). Proof. exact (edit_parents_ok (Clear p)). Qed.
Lemma pl_replace x rs : keeps parents_ok (replace_self x rs). Proof. exact (edit_parents_ok (ReplaceSelf x rs)). Qed.
Lemma pl_remove_self x : keeps parents_ok (remove_self x). Proof. exact (edit_parents_ok (RemoveSelf x)). Qed.
Lemma keeps_mapM {A B} P (f : A -> M B) l : (forall a, keeps P (f a)) -> keeps P (mapM f l).
Proof. intros H. induction l; cbn [mapM]; [apply keeps_ret|]. apply keeps_bind; [apply H|intros]. apply keeps_bind; [assumption|intros; apply keeps_ret]. Qed.
Lemma keeps_traverse {A} P cond (body : A -> id -> M A) : (forall acc i, keeps P (body acc i)) -> forall f acc i, keeps P (for_traverse f cond body acc i).
Proof.
  intros H f acc i. unfold for_traverse. generalize [i]. revert acc. induction f as [|f IH]; intros acc l; (destruct l as [|x l]; [apply keeps_ret|]).
  - cbn [trav_loop]. apply keeps_raise.
  - cbn [trav_loop]. apply keeps_bind; [apply keeps_get_node|intros n]. apply keeps_bind; [destruct (cond n); [apply H|apply keeps_ret]|intros a].
    apply keeps_bind; [apply keeps_children_of|]. intros; apply IH.
Qed.
Lemma keeps_anc_loop P f ds : forall c, keeps P (anc_loop f ds c).
Proof.
  induction f as [|f IH]; intros [q|]; cbn [anc_loop]; try apply keeps_ret; try apply keeps_raise.
  apply keeps_bind; [unfold cls_of; apply keeps_bind; [apply keeps_get_node|intros; apply keeps_ret]|]. intros c. destruct (cls_mem c ds); [apply keeps_ret|].
  apply keeps_bind; [apply keeps_parent_of|apply IH].
Qed.
Lemma keeps_first_go P ds l : forall k, keeps P (first_of_type_go ds l k).
Proof.
  induction l as [|c l IH]; intros k; cbn [first_of_type_go]; [apply keeps_ret|]. apply keeps_bind; [|intros []; [apply keeps_ret|apply IH]].
  unfold inst, cls_of. repeat (apply keeps_bind; [|intros]); try apply keeps_get_node; apply keeps_ret.
Qed.
Lemma keeps_first_inst P c l : keeps P (first_inst c l).
Proof.
  induction l as [|x l IH]; cbn [first_inst]; [apply keeps_ret|]. unfold inst, cls_of. repeat (apply keeps_bind; [|intros]); try apply keeps_get_node; try apply keeps_ret.
  match goal with |- keeps _ (if ?b then _ else _) => destruct b end; [apply keeps_ret|exact IH].
Qed.
Ltac pl := repeat first
  [ apply keeps_ret | apply keeps_raise | apply keeps_get_node | apply keeps_children_of | apply keeps_parent_of | apply keeps_raw_children
  | apply pl_setattr | apply pl_new | apply pl_log | apply pl_append | apply pl_clear | apply pl_replace | apply pl_remove_self | apply keeps_anc_loop
  | apply keeps_first_go | apply keeps_first_inst
  | apply keeps_mapM; intros | apply keeps_iterM; intros | apply keeps_traverse; intros
  | apply keeps_bind; [|intros]
  | match goal with
    | |- keeps _ (if ?b then _ else _) => destruct b
    | |- keeps _ (match ?x with _ => _ end) => destruct x
    | |- keeps _ (getattr _ _) => unfold getattr
    | |- keeps _ (get_str _ _) => unfold get_str
    | |- keeps _ (get_strs _ _) => unfold get_strs
    | |- keeps _ (get_int _ _) => unfold get_int
    | |- keeps _ (cls_of _) => unfold cls_of
    | |- keeps _ (inst _ _) => unfold inst
    | |- keeps _ (first_of_type _ _) => unfold first_of_type
    | |- keeps _ (prev_sibling _ _) => unfold prev_sibling
    | |- keeps _ (first_ancestor_of_type _ _ _) => unfold first_ancestor_of_type
    end ].
Lemma pl_walk shown : forall n t, keeps parents_ok (walk_prev n shown t).
Proof. induction n as [|n IH]; intros t; cbn [walk_prev]; pl. apply IH. Qed.
Lemma pl_collect f d i : keeps parents_ok (collect_labels f d i).
Proof. unfold collect_labels, collect_body. pl. Qed.
Lemma pl_resolve f d i : keeps parents_ok (resolve_pending_references f d i).
Proof. unfold resolve_pending_references, resolve_body, resolve_reference, resolve_cite, resolve_prev, label_to_node, add_backlink. pl. apply pl_walk. Qed.
Lemma pl_sub_body u i : keeps parents_ok (subproof_body u i).
Proof. unfold subproof_body. pl. Qed.
Lemma pl_sub f i : keeps parents_ok (add_necessary_subproofs f i).
Proof. unfold add_necessary_subproofs. apply keeps_traverse. intros. apply pl_sub_body. Qed.
