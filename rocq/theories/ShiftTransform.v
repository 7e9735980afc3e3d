(** The transformer and the linter, in a memory which holds other nodes. *)
From Verif Require Export ShiftNodes Transformer Linter.
Local Open Scope list_scope.

Ltac mvt := fail.
Ltac mv ::= repeat (mv_norm; first [mvt | mvx]).

Section Transform.
Context (b : shiftby).
Notation sh := (sh b).
Notation moves := (moves b).
Definition sh_labels (d : labels) : labels := map (fun p => (p.1, sh p.2)) d.
Lemma lookup_sh d l : lookup_label (sh_labels d) l = option_map sh (lookup_label d l).
Proof. unfold lookup_label, sh_labels. induction d as [|[x i] d IH]; [reflexivity|]. cbn [map find fst snd]. destruct (str_eqb x l); [reflexivity|exact IH]. Qed.
Lemma moves_collect_body d i : moves sh_labels (collect_body d i) (collect_body (sh_labels d) (sh i)).
Proof. unfold collect_body. mv. rewrite lookup_sh. mv. apply moves_ret. unfold sh_labels. rewrite map_app. reflexivity. Qed.
Lemma moves_collect fuel d i : moves sh_labels (collect_labels fuel d i) (collect_labels fuel (sh_labels d) (sh i)).
Proof. unfold collect_labels. mv. apply moves_collect_body. Qed.
Lemma moves_label_to_node d l def : moves sh (label_to_node d l def) (label_to_node (sh_labels d) l def).
Proof. unfold label_to_node. rewrite lookup_sh. mv. Qed.
Hint Resolve moves_label_to_node : mv.
Lemma moves_resolve_reference d i : moves same (resolve_reference d i) (resolve_reference (sh_labels d) (sh i)).
Proof. unfold resolve_reference. mv. Qed.
Lemma moves_add_backlink l i : moves same (add_backlink l i) (add_backlink l (sh i)).
Proof. unfold add_backlink. mv. Qed.
Hint Resolve moves_add_backlink : mv.
Lemma moves_resolve_cite d k i : moves same (resolve_cite d k i) (resolve_cite (sh_labels d) k (sh i)).
Proof. unfold resolve_cite. mv1; [mv1|]. eapply moves_bind; [apply moves_mapM'; intro; mv|]. intros ts. mv. Qed.
Lemma moves_walk_prev n x i : moves sh (walk_prev n x i) (walk_prev n x (sh i)).
Proof. revert i. induction n as [|n IH]; intros i; cbn [walk_prev]; mv. Qed.
Hint Resolve moves_walk_prev : mv.
Lemma moves_resolve_prev fuel i : moves same (resolve_prev fuel i) (resolve_prev fuel (sh i)).
Proof. unfold resolve_prev. mv. Qed.
Hint Resolve moves_resolve_prev moves_resolve_cite moves_resolve_reference : mv.
Lemma moves_resolve_body fuel d k i : moves same (resolve_body fuel d k i) (resolve_body fuel (sh_labels d) k (sh i)).
Proof. unfold resolve_body. mv. Qed.
Lemma moves_resolve fuel d i : moves same (resolve_pending_references fuel d i) (resolve_pending_references fuel (sh_labels d) (sh i)).
Proof. unfold resolve_pending_references. eapply (moves_bind b (fun x : nat => x)); [mv; apply moves_resolve_body|intro; mv]. Qed.
Lemma moves_subproof_body u i : moves same (subproof_body u i) (subproof_body u (sh i)).
Proof.
  unfold subproof_body. mv1; [mv1|mv_norm]. destruct a as [|x l]; cbn [map]; [mv|]. change (sh x :: map sh l) with (map sh (x :: l)). generalize (x :: l). clear x l. intros cs.
  eapply moves_bind; [apply moves_first_of_type|]. intros f. cbv zeta.
  assert (E : match option_map (sh_idx b) f with Some (_, k) => k | None => length cs end = match f with Some (_, k) => k | None => length cs end).
  { destruct f as [[y k]|]; [reflexivity|reflexivity]. }
  rewrite E. generalize (match f with Some (_, k) => k | None => length cs end). clear E f. intros k.
  mv1; [mv|]. eapply moves_bind; [mv|]. intros st. mv1; [mv|]. mv1; [mv|]. mv1; [mv|]. destruct (nth_error cs k) as [c|]; cbn [option_map]; [|mv].
  mv1; [mv|]. mv1; [mv|]. eapply (moves_bind b sh); [mv|]. intro. mv.
Qed.
Lemma moves_number_steps l k : moves same (number_steps l k) (number_steps (map sh l) k).
Proof. revert k. induction l as [|x l IH]; intros k; cbn [number_steps map]; mv. Qed.
Hint Resolve moves_number_steps : mv.
Lemma counter_sh c k v : counter_value c k = Some v -> v = sh_val b v.
Proof. unfold counter_value. destruct (ck c); [intros [= <-]; reflexivity|]. destruct (nth_error _ _); [|discriminate]. intros [= <-]. reflexivity. Qed.
Lemma moves_autonumber_body a i : moves same (autonumber_body a i) (autonumber_body a (sh i)).
Proof. unfold autonumber_body, autonumber_steps. mv. all: try (eapply counter_sh; eassumption). Qed.
Lemma moves_autonumber fuel i : moves same (autonumber_nodes fuel i) (autonumber_nodes fuel (sh i)).
Proof. unfold autonumber_nodes. eapply (moves_bind b (fun x : num_st => x)); [mv; apply moves_autonumber_body|intro; mv]. Qed.
Lemma moves_toc_pick o i : moves (option_map sh) (toc_pick o i) (toc_pick (option_map sh o) (sh i)).
Proof. unfold toc_pick. mv. Qed.
Lemma moves_parent_parent o : moves (option_map sh) (parent_parent o) (parent_parent (option_map sh o)).
Proof. unfold parent_parent. mv. Qed.
Lemma moves_append_opt o i : moves same (append_opt o i) (append_opt (option_map sh o) (sh i)).
Proof. unfold append_opt. mv. Qed.
Lemma moves_is_last_of i d : moves same (is_last_of i d) (is_last_of (sh i) d).
Proof. unfold is_last_of. mv. apply moves_ret. match goal with |- context [option_map _ ?z] => destruct z as [[x j]|] end; [|reflexivity]. cbn. apply eqb_sh. Qed.
Lemma moves_toc_reftext fuel i : moves same (toc_reftext fuel i) (toc_reftext fuel (sh i)).
Proof. unfold toc_reftext. mv. Qed.
Hint Resolve moves_parent_parent moves_append_opt moves_is_last_of moves_toc_reftext : mv.
Lemma moves_toc_body fuel t o i : moves (option_map sh) (toc_body fuel t o i) (toc_body fuel (sh t) (option_map sh o) (sh i)).
Proof. unfold toc_body. mv. Qed.
Lemma moves_make_toc fuel i : moves same (make_toc fuel i) (make_toc fuel (sh i)).
Proof.
  unfold make_toc. eapply (moves_bind b (option_map sh)); [mv; apply moves_toc_pick|]. intros [t|]; mv_norm; [|mv].
  eapply (moves_bind b (option_map sh)); [mv; apply moves_toc_body|intro; mv].
Qed.
Lemma moves_construct_body u i : moves same (construct_body u i) (construct_body u (sh i)).
Proof. unfold construct_body. mv. Qed.
Lemma moves_node_eqM fuel x y : moves same (node_eqM fuel x y) (node_eqM fuel (sh x) (sh y)).
Proof. intros s. unfold node_eqM. cbn [sh_st st_heap]. rewrite node_eq_sh. destruct (node_eq fuel (st_heap s) x y); (split; [reflexivity|auto]). Qed.
Hint Resolve moves_node_eqM moves_construct_body : mv.
Lemma moves_depth_inner fuel n u i : moves same (depth_inner fuel n u i) (depth_inner fuel (sh n) u (sh i)).
Proof. unfold depth_inner. mv. Qed.
Lemma moves_depth_outer fuel u i : moves same (depth_outer fuel u i) (depth_outer fuel u (sh i)).
Proof. unfold depth_outer. mv. apply moves_depth_inner. Qed.
Lemma moves_nodeid_body k i : moves same (nodeid_body k i) (nodeid_body k (sh i)).
Proof. unfold nodeid_body. mv. Qed.
Theorem moves_transform fuel d i : moves sh_labels (transform fuel d i) (transform fuel (sh_labels d) (sh i)).
Proof.
  unfold transform. mv1; [mv|]. eapply moves_bind; [apply moves_collect|]. intros d'. mv1; [apply moves_resolve|]. mv1; [unfold add_necessary_subproofs; mv; apply moves_subproof_body|].
  mv1; [apply moves_autonumber|]. mv1; [apply moves_make_toc|]. mv1; [unfold add_keywords_to_constructs; mv|]. mv1; [unfold add_handrail_depth, add_handrail_depth_for_class; mv; apply moves_depth_outer|].
  mv1; [unfold assign_node_ids; eapply (moves_bind b (fun x : Z => x)); [mv; apply moves_nodeid_body|intro; mv]|]. mv.
Qed.
(** ** The linter *)
Lemma moves_lint_extra i : moves same (lint_extra i) (lint_extra (sh i)).
Proof. unfold lint_extra. mv. Qed.
Lemma moves_lint_msg m i : moves same (lint_msg m i) (lint_msg m (sh i)).
Proof. unfold lint_msg. eapply moves_bind; [apply moves_lint_extra|]. intro. mv. Qed.
Hint Resolve moves_lint_msg : mv.
Theorem moves_lint fuel i : moves sh (lint fuel i) (lint fuel (sh i)).
Proof. unfold lint, lint_manuscript_title, lint_section_label, lint_section, lint_mathblock_inside_paragraph, lint_block. mv. Qed.
End Transform.
