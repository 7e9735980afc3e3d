(** Transform keeps templates for reference texts simple. *)
From Verif Require Export SpecSource TransformTyped TotalPlaced.
From Verif Require Import Transformer NodeOps Monad.
Local Open Scope list_scope.

(** ** Simple templates *)

Lemma simple_fillable t : simple_template t -> fillable t.
Proof.
  induction 1 as [|x t H1 H2 _ IH|t _ IH|t _ IH]; intros c k; [eexists; constructor|..]; destruct (IH c k) as [o Ho].
  - exists (x :: o). constructor; assumption.
  - exists (c ++ o). apply fl_class, Ho.
  - exists (k ++ o). apply fl_number, Ho.
Qed.
Fixpoint templateb (fuel : nat) (t : str) : bool :=
  match fuel, t with
  | _, [] => true
  | 0, _ => false
  | S fuel, x :: r =>
      if negb (N.eqb x 123) && negb (N.eqb x 125) then templateb fuel r
      else if prefixb (lit "{nodeclass}") t then templateb fuel (skipn (length (lit "{nodeclass}")) t)
      else if prefixb (lit "{number}") t then templateb fuel (skipn (length (lit "{number}")) t) else false
  end.
Lemma prefixb_skipn p t : prefixb p t = true -> t = p ++ skipn (length p) t.
Proof.
  revert t. induction p as [|x p IH]; intros [|y t] H; try discriminate H; [reflexivity..|]. cbn [prefixb] in H. apply andb_true_iff in H as [H1 H2].
  apply N.eqb_eq in H1 as ->. cbn [length skipn app]. f_equal. apply IH, H2.
Qed.
Lemma templateb_ok fuel : forall t, templateb fuel t = true -> simple_template t.
Proof.
  induction fuel as [|fuel IH]; intros [|x r] H; try discriminate H; [constructor..|]. cbn [templateb] in H.
  destruct (negb (N.eqb x 123) && negb (N.eqb x 125)) eqn:E1.
  - apply andb_true_iff in E1 as [E1 E2]. apply negb_true_iff, N.eqb_neq in E1, E2. constructor; auto.
  - destruct (prefixb (lit "{nodeclass}") (x :: r)) eqn:E2; [rewrite (prefixb_skipn _ _ E2); apply st_class, IH, H|].
    destruct (prefixb (lit "{number}") (x :: r)) eqn:E3; [rewrite (prefixb_skipn _ _ E3); apply st_number, IH, H|discriminate H].
Qed.
Lemma prefixb_app p t : prefixb p (p ++ t) = true.
Proof. induction p as [|x p IH]; [reflexivity|]. cbn [app prefixb]. rewrite N.eqb_refl. exact IH. Qed.
Lemma replace_skip old new p : forall t, replace_go old new (p ++ t) (length p) = replace_go old new t 0.
Proof. induction p as [|x p IH]; intros t; [reflexivity|]. cbn [app length replace_go]. apply IH. Qed.
Lemma simple_app p t : Forall (fun x => x <> 123%N /\ x <> 125%N) p -> simple_template t -> simple_template (p ++ t).
Proof. induction 1 as [|x p [H1 H2] _ IH]; intros Ht; [exact Ht|]. cbn [app]. constructor; auto. Qed.
Lemma replace_simple t : simple_template t -> simple_template (replace (lit "{nodeclass}") (lit "Appendix") t).
Proof.
  unfold replace. induction 1 as [|x t H1 H2 _ IH|t _ IH|t _ IH].
  - constructor.
  - cbn [replace_go]. assert (E : prefixb (lit "{nodeclass}") (x :: t) = false).
    { cbn [prefixb]. replace (lit "{nodeclass}") with (123%N :: lit "nodeclass}") by reflexivity. cbn [prefixb].
      destruct (N.eqb 123 x) eqn:E; [apply N.eqb_eq in E; congruence|reflexivity]. }
    rewrite E. constructor; assumption.
  - pose proof (prefixb_app (lit "{nodeclass}") t) as E. pose proof (replace_skip (lit "{nodeclass}") (lit "Appendix") (lit "nodeclass}") t) as G.
    set (old := lit "{nodeclass}") in *. change (old ++ t) with (123%N :: (lit "nodeclass}" ++ t)) in *. cbn [replace_go]. rewrite E.
    apply simple_app; [repeat constructor; discriminate|]. change (length old - 1) with (length (lit "nodeclass}")). rewrite G. exact IH.
  - assert (G : replace_go (lit "{nodeclass}") (lit "Appendix") (lit "{number}" ++ t) 0 = lit "{number}" ++ replace_go (lit "{nodeclass}") (lit "Appendix") t 0).
    { reflexivity. }
    rewrite G. apply st_number, IH.
Qed.

(** ** Heaps *)

Definition templates_ok (s : st) : Prop :=
  forall x n tmpl, st_heap s !! x = Some n -> n_attrs n !! a_reftext_template = Some (VStr tmpl) -> simple_template tmpl.
Lemma tk_sa {A} (m : M A) : SA m -> keeps templates_ok m.
Proof.
  intros H s Hs x n tmpl Hx Ht. pose proof (H s s (fun i => eq_refl) x) as E. rewrite (ca_some _ _ _ Hx) in E.
  symmetry in E. apply ca_inv in E as (n0 & H0 & _ & E). rewrite <- E in Ht. eapply Hs; eassumption.
Qed.
Lemma tk_setattr i a v : a <> a_reftext_template -> keeps templates_ok (setattr i a v).
Proof.
  intros Ha s H. unfold setattr, mod_node, bind, get_node. destruct (st_heap s !! i) as [n|] eqn:E; [|exact H]. simpl.
  intros x m tmpl Hx Ht. change (upd s i (set_n_attr a v n)) with (upd s i (set_n_attr a v n)) in Hx.
  unfold put_node in Hx. cbn [st_heap] in Hx. destruct (decide (i = x)) as [<-|Hn].
  - rewrite lookup_insert in Hx. injection Hx as <-. cbn [n_attrs set_n_attr] in Ht. rewrite lookup_insert_ne in Ht by assumption. eapply H; eassumption.
  - rewrite lookup_insert_ne in Hx by assumption. eapply H; eassumption.
Qed.
Definition entry_simple (p : attr * val) : bool :=
  if decide (p.1 = a_reftext_template) then match p.2 with VStr t => templateb (length t) t | _ => true end else true.
Lemma entry_simple_ok tmpl : entry_simple (a_reftext_template, VStr tmpl) = true -> simple_template tmpl.
Proof. unfold entry_simple. cbn [fst snd]. rewrite decide_True by reflexivity. apply templateb_ok. Qed.
Lemma defaults_entries : forallb (fun c => forallb entry_simple (default_attrs c)) all_cls = true.
Proof. vm_compute. reflexivity. Qed.
Lemma default_template c tmpl : In (a_reftext_template, VStr tmpl) (default_attrs c) -> simple_template tmpl.
Proof.
  pose proof defaults_entries as E. rewrite forallb_forall in E. specialize (E c (all_cls_complete c)). rewrite forallb_forall in E.
  intros H. apply entry_simple_ok. exact (E _ H).
Qed.
Lemma tk_new c kw : Forall (fun p => p.1 <> a_reftext_template) kw -> keeps templates_ok (new_node c kw).
Proof.
  intros Hk s H x n tmpl Hx Ht. unfold new_node, alloc in Hx. cbn [fst] in Hx.
  change (st_heap (new s (mk_node c kw)) !! x = Some n) in Hx. rewrite new_lookup in Hx. destruct (decide _) as [E|E]; [|eapply H; eassumption].
  injection Hx as <-. cbn [n_attrs mk_node] in Ht. apply mk_attrs_in, in_app_iff in Ht as [Ht|Ht]; [eapply default_template, Ht|].
  rewrite List.Forall_forall in Hk. exfalso. exact (Hk _ Ht eq_refl).
Qed.
Ltac tk := repeat (
  match goal with
  | |- keeps _ (bind _ _) => apply keeps_bind; [|intros]
  | |- keeps _ (ret _) => apply keeps_ret
  | |- keeps _ (raise _) => apply keeps_raise
  | |- keeps _ (setattr _ _ _) => apply tk_setattr; discriminate
  | |- keeps _ (new_node _ _) => apply tk_new; repeat constructor; discriminate
  | |- keeps _ (mapM _ _) => apply keeps_mapM; intros
  | |- keeps _ (iterM _ _) => apply keeps_iterM; intros
  | |- keeps _ (for_traverse _ _ _ _ _) => apply keeps_traverse; intros
  | |- keeps _ (if ?b then _ else _) => destruct b
  | |- keeps _ (match ?x with _ => _ end) => destruct x
  | |- keeps _ _ => solve [apply tk_sa; sap]
  end; cbv beta).
Lemma tk_collect f d i : keeps templates_ok (collect_labels f d i).
Proof. unfold collect_labels, collect_body. tk. Qed.
Lemma tk_resolve f d i : keeps templates_ok (resolve_pending_references f d i).
Proof. unfold resolve_pending_references, resolve_body, resolve_reference, resolve_cite, resolve_prev, label_to_node, add_backlink. tk. Qed.
Lemma tk_sub f i : keeps templates_ok (add_necessary_subproofs f i).
Proof. unfold add_necessary_subproofs, subproof_body. tk. Qed.
Lemma tk_steps l : forall k, keeps templates_ok (number_steps l k).
Proof. induction l as [|x l IH]; intros k; cbn [number_steps]; tk; apply IH. Qed.
Lemma tk_appendix i : keeps templates_ok (let! t := get_str i a_reftext_template in setattr i a_reftext_template (VStr (replace (lit "{nodeclass}") (lit "Appendix") t))).
Proof.
  intros s H. destruct (bind _ _ s) as [s' r] eqn:E. cbn [fst]. unfold bind in E. unfold get_str, getattr, bind, get_node in E. destruct (st_heap s !! i) as [n|] eqn:Hi; [|injection E as <- _; exact H].
  destruct (n_attrs n !! a_reftext_template) as [v|] eqn:Hv; [|injection E as <- _; exact H].
  destruct v; cbn in E; try (injection E as <- _; exact H).
  unfold setattr, mod_node, bind, get_node in E. rewrite Hi in E. cbn in E. injection E as <- _.
  intros x m tmpl Hx Ht. unfold put_node in Hx. cbn [st_heap] in Hx. destruct (decide (i = x)) as [<-|Hn].
  - rewrite lookup_insert in Hx. injection Hx as <-. cbn [n_attrs set_n_attr] in Ht. rewrite lookup_insert in Ht. injection Ht as <-. apply replace_simple. eapply H; eassumption.
  - rewrite lookup_insert_ne in Hx by assumption. eapply H; eassumption.
Qed.
Lemma tk_number f i : keeps templates_ok (autonumber_nodes f i).
Proof.
  unfold autonumber_nodes. apply keeps_bind; [|intros; apply keeps_ret]. apply keeps_traverse. intros a j. unfold autonumber_body, autonumber_steps.
  apply keeps_bind; [apply tk_sa; sap|intros c]. destruct (subclass c CAppendix); [apply keeps_ret|]. destruct (subclass_any c _); [tk; apply tk_steps|].
  destruct (subclass c CStep); [apply keeps_ret|]. apply keeps_bind; [apply tk_sa; sap|intros nn]. destruct (_ && _); [|apply keeps_ret].
  destruct (counter_value _ _); [|apply keeps_raise]. apply keeps_bind; [apply tk_setattr; discriminate|intros]. apply keeps_bind; [|intros; apply keeps_ret].
  destruct (_ && _); [apply tk_appendix|apply keeps_ret].
Qed.
Lemma tk_toc f i : keeps templates_ok (make_toc f i).
Proof. unfold make_toc, toc_pick, toc_body, toc_reftext, append_opt, is_last_of, parent_parent. tk. Qed.
Lemma tk_rest f i : keeps templates_ok (add_keywords_to_constructs f i) /\ keeps templates_ok (add_handrail_depth f i) /\ keeps templates_ok (assign_node_ids f i).
Proof.
  split; [|split].
  - unfold add_keywords_to_constructs, construct_body. tk.
  - unfold add_handrail_depth. apply keeps_iterM. intros c. apply keeps_traverse. intros u j. apply keeps_traverse. intros u2 j2. unfold depth_inner.
    apply keeps_bind; [|intros b; tk]. intros s Hs. unfold node_eqM. destruct (node_eq _ _ _ _); exact Hs.
  - unfold assign_node_ids, nodeid_body. tk.
Qed.
Lemma templates_kept f d i : keeps templates_ok (transform f d i).
Proof.
  unfold transform. destruct (tk_rest f i) as (H1 & H2 & H3).
  repeat (apply keeps_bind; [first [apply tk_collect|apply tk_resolve|apply tk_sub|apply tk_number|apply tk_toc|exact H1|exact H2|exact H3|apply tk_sa; sap]|intros]). apply keeps_ret.
Qed.
