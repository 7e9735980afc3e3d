(** A document for C78. *)
From Verif Require Export TrPage.
From Verif Require Import TrDemo.
From Verif Require Import NodeOps Monad.
Local Open Scope string_scope.
Local Open Scope list_scope.

Definition showableb (s : st) : bool := all_nodes s (fun x n => match dispatch visit_defined (n_cls n) with Some CNode => false | _ => true end).
Lemma showable_ok s t : translatableb s = true -> showableb s = true -> showable s t.
Proof.
  intros H1 H2. split.
  - intros x n _ Hn. pose proof (all_nodes_ok _ _ x n H2 Hn) as G. cbv beta in G. intros E. rewrite E in G. discriminate G.
  - intros x y _ Hy. unfold aval in Hy. destruct (st_heap s !! x) as [n|] eqn:E; [|discriminate Hy]. pose proof (all_nodes_ok _ _ x n H1 E) as G. cbv beta in G.
    destruct (n_attrs n !! a_target) as [v|] eqn:Ev; [|discriminate Hy]. subst v. repeat (apply andb_true_iff in G as [G ?]). apply alive_ok. assumption.
  - intros x ys y _ Hy Hin. unfold aval in Hy. destruct (st_heap s !! x) as [n|] eqn:E; [|discriminate Hy]. pose proof (all_nodes_ok _ _ x n H1 E) as G. cbv beta in G.
    destruct (n_attrs n !! a_targets) as [v|] eqn:Ev; [|discriminate Hy]. subst v. repeat (apply andb_true_iff in G as [G ?]). apply alive_ok.
    match goal with F : forallb (alive s) ys = true |- _ => rewrite forallb_forall in F; apply F, elem_of_list_In; assumption end.
Qed.
Definition pagedoc : bt :=
  BT CManuscript [(a_title, VStr (lit "T"))]
    [BT CAbstract [(a_keywords, VStrs [lit "k1"; lit "k2"])] [BT CParagraph [] [txt "short"]];
     BT CSection [(a_title, VStr (lit "One")); (a_number, VInt 2)]
       [BT CParagraph [(a_title, VStr (lit "P"))] [txt "see "; BT CReference [(a_target, VNode 11)] []; BT CSpan [(a_strong, VBool true)] [BT CMath [] [txt "x"]]];
        BT CTheorem [(a_title, VStr (lit "Main")); (a_number, VInt 3)] [BT CParagraph [] [txt "claim"]];
        BT CProof [] [BT CStep [] [txt "step"]]];
     BT CFigure [(a_path, VStr (lit "f.png")); (a_number, VInt 1)] [BT CCaption [] [txt "c"]]].
Definition pagedoc_html : list tok := Eval vm_compute in html_toks pagedoc.
Lemma pagedoc_ok : translatable (built pagedoc) (wtree pagedoc) /\ exists s', translate nohl 100 (root (wtree pagedoc)) (built pagedoc) = (s', Ok pagedoc_html).
Proof. apply (witness pagedoc); vm_compute; reflexivity. Qed.
Lemma pagedoc_showable : showable (built pagedoc) (wtree pagedoc).
Proof. apply showable_ok; vm_compute; reflexivity. Qed.
Lemma pagedoc_manuscript : manuscript (built pagedoc) (wtree pagedoc).
Proof. exact (tb_manuscript _ _ (proj1 pagedoc_ok)). Qed.
