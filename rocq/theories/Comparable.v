(** Every pass keeps the attributes that [==] compares. *)
From Verif Require Export Built Transformer.
From Verif Require Import Consistency NodeOps Monad.

Notation K := (keeps all_comparable).

Lemma k_log r : K (log_rec r).
Proof. intros s H. exact H. Qed.
Lemma k_alloc c kw : K (new_node c kw).
Proof.
  intros s H. unfold new_node, alloc. simpl. intros j m.
  rewrite (new_lookup s (mk_node c kw)). destruct (decide (st_next s = j)); [|apply H].
  intros [= <-]. apply mk_node_comparable.
Qed.
Lemma k_setattr i a v : K (setattr i a v).
Proof.
  intros s H. unfold setattr, mod_node, bind, get_node. destruct (st_heap s !! i) as [n|] eqn:E; [|exact H].
  cbn [fst put_node]. intros j m. change (st_heap (upd s i (set_n_attr a v n)) !! j = Some m -> comparable m). rewrite (upd_lookup s i _ j). destruct (decide (i = j)) as [<-|]; [|apply H].
  intros [= <-] b Hb. destruct (H _ _ E b Hb) as [w Hw]. unfold set_n_attr. cbn [n_attrs].
  destruct (decide (a = b)) as [<-|]; [rewrite lookup_insert; eauto|rewrite lookup_insert_ne by assumption; eauto].
Qed.
Lemma k_getattr i a : K (getattr i a).
Proof. unfold getattr. apply keeps_bind; [apply keeps_get_node|]. intros n. destruct (_ !! _); [apply keeps_ret|apply keeps_raise]. Qed.
Lemma k_cls_of i : K (cls_of i).
Proof. unfold cls_of. apply keeps_bind; [apply keeps_get_node|intros; apply keeps_ret]. Qed.

Create HintDb keepdb.
Global Hint Resolve k_log k_alloc k_setattr k_getattr k_cls_of keeps_get_node comparable_set_parent comparable_set_children
  comparable_remove comparable_insert_all keeps_raw_children keeps_parent_of keeps_children_of keeps_ret keeps_raise : keepdb.
Ltac kp := repeat first
  [ progress auto with keepdb
  | apply keeps_bind; [|intros]
  | apply keeps_iterM; intros
  | match goal with |- K (match ?x with _ => _ end) => destruct x end
  | match goal with |- K (if ?x then _ else _) => destruct x end ].

Lemma k_get_str i a : K (get_str i a). Proof. unfold get_str. kp. Qed.
Lemma k_get_strs i a : K (get_strs i a). Proof. unfold get_strs. kp. Qed.
Lemma k_get_int i a : K (get_int i a). Proof. unfold get_int. kp. Qed.
Lemma k_warn n m : K (warn n m). Proof. unfold warn. kp. Qed.
Lemma k_info n m : K (info n m). Proof. unfold info. kp. Qed.
Lemma k_inst ds i : K (inst ds i). Proof. unfold inst. kp. Qed.
Global Hint Resolve k_get_str k_get_strs k_get_int k_warn k_info k_inst : keepdb.
Lemma k_mapM {A B} (f : A -> M B) l : (forall a, K (f a)) -> K (mapM f l).
Proof. intros H. induction l; cbn [mapM]; kp. Qed.
Lemma k_append1 p c : K (append1 p c). Proof. unfold append1. kp. Qed.
Global Hint Resolve k_append1 : keepdb.
Lemma k_append p cs : K (append p cs). Proof. unfold append. kp. Qed.
Lemma k_clear p : K (clear p). Proof. unfold clear. kp. Qed.
Lemma k_remove_self p : K (remove_self p). Proof. unfold remove_self. kp. Qed.
Lemma k_replace_self p cs : K (replace_self p cs). Proof. unfold replace_self. kp. Qed.
Lemma k_first_go ds l : forall k, K (first_of_type_go ds l k). Proof. induction l; intros; cbn [first_of_type_go]; kp. Qed.
Global Hint Resolve k_append k_clear k_remove_self k_replace_self k_first_go : keepdb.
Lemma k_first i ds : K (first_of_type i ds). Proof. unfold first_of_type. kp. Qed.
Lemma k_last i ds : K (last_of_type i ds). Proof. unfold last_of_type. kp. Qed.
Lemma k_first_inst d l : K (first_inst d l). Proof. induction l; cbn [first_inst]; kp. Qed.
Global Hint Resolve k_first k_last k_first_inst : keepdb.
Lemma k_prev i a : K (prev_sibling i a). Proof. unfold prev_sibling. kp. Qed.
Lemma k_anc ds fuel : forall c, K (anc_loop fuel ds c).
Proof. induction fuel; intros [c|]; cbn [anc_loop]; kp. Qed.
Global Hint Resolve k_prev k_anc : keepdb.
Lemma k_ancestor fuel i ds : K (first_ancestor_of_type fuel i ds). Proof. unfold first_ancestor_of_type. kp. Qed.
Global Hint Resolve k_ancestor : keepdb.
Lemma k_full fuel : forall i, K (full_number fuel i).
Proof. induction fuel; intros i; cbn [full_number]; kp. Qed.
Global Hint Resolve k_full : keepdb.
Lemma k_loop {A} cond (body : A -> id -> M A) : (forall acc i, K (body acc i)) ->
  forall fuel acc stk, K (trav_loop fuel cond body acc stk).
Proof. intros H. induction fuel; intros acc [|i stk]; cbn [trav_loop]; kp. Qed.
Lemma k_traverse {A} cond (body : A -> id -> M A) fuel acc i : (forall acc i, K (body acc i)) -> K (for_traverse fuel cond body acc i).
Proof. intros H. apply k_loop. assumption. Qed.

Lemma k_collect fuel d i : K (collect_labels fuel d i).
Proof. apply k_traverse. intros. unfold collect_body. kp. Qed.
Lemma k_label d l e : K (label_to_node d l e). Proof. unfold label_to_node. kp. Qed.
Global Hint Resolve k_label : keepdb.
Lemma k_walk shown n : forall i, K (walk_prev n shown i). Proof. induction n; intros; cbn [walk_prev]; kp. Qed.
Global Hint Resolve k_walk : keepdb.
Lemma k_resolve_prev fuel i : K (resolve_prev fuel i). Proof. unfold resolve_prev. kp. Qed.
Lemma k_resolve_ref d i : K (resolve_reference d i). Proof. unfold resolve_reference. kp. Qed.
Lemma k_resolve_cite d k i : K (resolve_cite d k i).
Proof. unfold resolve_cite. apply keeps_bind; [kp|]. intros. apply keeps_bind; [apply k_mapM; kp|]. intros. unfold add_backlink. kp. Qed.
Global Hint Resolve k_resolve_prev k_resolve_ref k_resolve_cite : keepdb.
Lemma k_resolve fuel d i : K (resolve_pending_references fuel d i).
Proof.
  unfold resolve_pending_references. apply keeps_bind; [apply k_traverse; intros; unfold resolve_body; kp|intros].
  apply keeps_bind; [apply k_traverse; kp|kp].
Qed.
Lemma k_subproofs fuel i : K (add_necessary_subproofs fuel i).
Proof. apply k_traverse. intros. unfold subproof_body. kp. Qed.
Lemma k_number_steps l : forall k, K (number_steps l k). Proof. induction l; intros; cbn [number_steps]; kp. Qed.
Global Hint Resolve k_number_steps : keepdb.
Lemma k_autonumber fuel i : K (autonumber_nodes fuel i).
Proof.
  unfold autonumber_nodes. apply keeps_bind; [|kp]. apply k_traverse. intros. unfold autonumber_body, autonumber_steps. kp.
Qed.
Lemma k_toc fuel i : K (make_toc fuel i).
Proof.
  unfold make_toc. apply keeps_bind; [apply k_traverse; intros; unfold toc_pick; kp|]. intros [toc|]; [|kp].
  apply keeps_bind; [|kp]. apply k_traverse. intros. unfold toc_body, toc_reftext, append_opt, is_last_of, parent_parent. kp.
Qed.
Lemma k_constructs fuel i : K (add_keywords_to_constructs fuel i).
Proof. apply k_traverse. intros. unfold construct_body. kp. Qed.
