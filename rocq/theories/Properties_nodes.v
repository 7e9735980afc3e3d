(** Properties C01-C16: nodes and their trees (rsm/nodes.py). *)
From Verif Require Import Built.
Local Open Scope string_scope.
Local Open Scope list_scope.

(** A small manuscript used by the examples below:
    0 Manuscript > 1 Section > 2 Paragraph > 3 Text, 4 Paragraph > 5 Text;
    0 > 6 Section; and the detached nodes 7 Paragraph, 8 Paragraph, 9 Item. *)
Definition demo : st :=
  (run (do! build (BT CManuscript []
          [BT CSection [(a_title, VStr (lit "One"))]
             [BT CParagraph [] [txt "a"]; BT CParagraph [] [txt "b"]];
           BT CSection [(a_title, VStr (lit "Two"))] []]) in
        do! new_node CParagraph [] in do! new_node CParagraph [] in do! new_node CItem [] in ret tt)).1.
Definition demo_edits : list edit :=
  [Construct CManuscript []; Construct CSection []; Construct CParagraph []; Construct CText [];
   Construct CParagraph []; Append 2 [3]; Append 1 [2]; Append 0 [1]; Prepend 1 [4];
   Remove 1 2; ReplaceSelf 4 [2]; RemoveSelf 2; Clear 2].
(** The example document is consistent (used to show hypotheses are met). *)
Lemma demo_consistent : consistent (st_heap demo).
Proof.
  unfold demo, run. unfold bind at 1.
  destruct (build _ empty_st) as [s [i|e]] eqn:E.
  - apply build_ok in E as (Hf & Hc & _); [|apply fresh_empty|apply consistent_empty].
    destruct (consistent_fresh s (mk_node CParagraph []) Hf Hc eq_refl eq_refl) as [Hc1 Hf1].
    destruct (consistent_fresh _ (mk_node CParagraph []) Hf1 Hc1 eq_refl eq_refl) as [Hc2 Hf2].
    destruct (consistent_fresh _ (mk_node CItem []) Hf2 Hc2 eq_refl eq_refl) as [Hc3 Hf3].
    exact Hc3.
  - apply (f_equal snd) in E. vm_compute in E. discriminate.
Qed.
Definition demo_tree : tree := T 0 [T 1 [T 2 [T 3 []]; T 4 [T 5 []]]; T 6 []].
Example demo_document : document (st_heap demo) demo_tree.
Proof. apply check_document_sound. vm_compute. reflexivity. Qed.

(** ** C01 *)
Theorem C01_edits_keep_tree_consistent : forall edits s,
  disciplined empty_st edits -> history empty_st edits s -> consistent (st_heap s).
Proof.
  exact (fun l s Hd Hh => proj2 (history_consistent l empty_st s fresh_empty consistent_empty Hd Hh)).
Qed.
Print Assumptions C01_edits_keep_tree_consistent.
(** The hypotheses are met by a history using every kind of edit. *)
Example C01_nonvacuous :
  disciplined empty_st demo_edits /\ history empty_st demo_edits (hist_end demo_edits) /\
  kids_of (hist_end demo_edits) 0 = [1].
Proof.
  destruct (disciplinedb_sound demo_edits empty_st) as [H1 H2]; [vm_compute; reflexivity|].
  split; [exact H1|]. split; [exact H2|]. vm_compute. reflexivity.
Qed.

(** ** C02 *)
Theorem C02_append : forall p cs s s',
  append p cs s = (s', Ok tt) ->
  edited (st_heap s) (st_heap s')
    (fun j q => if decide (j ∈ cs) then Some p else q)
    (fun j l => if decide (j = p) then l ++ cs else l) /\
  st_next s' = st_next s /\ st_logs s' = st_logs s.
Proof. exact (fun p cs s s' H => match append_ok p cs s s' tt H with
  | conj (conj Hn Hl) (conj He _) => conj He (conj Hn Hl) end). Qed.
Print Assumptions C02_append.
(** Distinct detached nodes of permitted classes are always accepted. *)
Theorem C02_append_succeeds : forall p (cs : list id) s np,
  st_heap s !! p = Some np -> has_children (n_cls np) = true -> NoDup cs ->
  (forall c, In c cs -> exists nc, st_heap s !! c = Some nc /\ n_parent nc = None /\
     permitted (n_cls nc) (n_cls np)) ->
  exists s', append p cs s = (s', Ok tt).
Proof. exact append_total. Qed.
Print Assumptions C02_append_succeeds.
(** A child that has a parent is refused, and nothing changes. *)
Theorem C02_append_owned_child_refused : forall p c s np nc q,
  st_heap s !! p = Some np -> has_children (n_cls np) = true ->
  st_heap s !! c = Some nc -> n_parent nc = Some q ->
  exists m, append p [c] s = (s, Err (ENode m)).
Proof.
  exact (fun p c s np nc q H1 H2 H3 H4 =>
    match append1_owned p c s np nc q H1 H2 H3 H4 with
    | ex_intro _ m H => ex_intro _ m
       (eq_trans (f_equal (fun r => match r with (s1, Ok a) => ret tt s1 | (s1, Err e) => (s1, Err e) end) H) eq_refl)
    end).
Qed.
Print Assumptions C02_append_owned_child_refused.
Example C02_nonvacuous :
  (append 6 [7; 8] demo).2 = Ok tt /\ kids_of (append 6 [7; 8] demo).1 6 = [7; 8] /\
  kids_of (append 1 [7] demo).1 1 = [2; 4; 7] /\
  (append 6 [2] demo).2 = Err (ENode (lit "Attempting to append child to a new parent")).
Proof. vm_compute. auto. Qed.

(** ** C03 *)
Theorem C03_prepend : forall p cs s s',
  prepend p cs s = (s', Ok tt) ->
  edited (st_heap s) (st_heap s')
    (fun j q => if decide (j ∈ cs) then Some p else q)
    (fun j l => if decide (j = p) then cs ++ l else l) /\
  st_next s' = st_next s /\ st_logs s' = st_logs s.
Proof. exact (fun p cs s s' H => match prepend_ok p cs s s' tt H with
  | conj (conj Hn Hl) (conj He _) => conj He (conj Hn Hl) end). Qed.
Print Assumptions C03_prepend.
Theorem C03_prepend_owned_child_refused : forall p c s np nc q,
  st_heap s !! p = Some np -> has_children (n_cls np) = true ->
  st_heap s !! c = Some nc -> n_parent nc = Some q -> q <> p ->
  exists m, prepend1 p c s = (s, Err (ENode m)).
Proof. exact prepend1_owned. Qed.
Print Assumptions C03_prepend_owned_child_refused.
Example C03_nonvacuous :
  (prepend 1 [7; 8] demo).2 = Ok tt /\ kids_of (prepend 1 [7; 8] demo).1 1 = [7; 8; 2; 4].
Proof. vm_compute. auto. Qed.

(** ** C04 *)
(** False as stated: a call refused by the check on the parent's class has
    already put the child in the list of children. *)
Definition changed_by_refusal (m : M unit) : Prop :=
  exists s' e, m demo = (s', Err (ENode e)) /\ st_heap s' <> st_heap demo /\ ~ one_place (st_heap s').
Theorem C04_refused_edit_leaves_tree_unchanged_refuted :
  consistent (st_heap demo) /\
  changed_by_refusal (append 1 [9]) /\ changed_by_refusal (prepend 1 [9]) /\
  changed_by_refusal (replace_self 2 [9]).
Proof.
  assert (Hgo : forall m, (exists e, (m demo).2 = Err (ENode e)) ->
    9 ∈ kids_of (m demo).1 1 -> parent_in (m demo).1 9 = None -> changed_by_refusal m).
  { intros m [e He] Hk Hp. destruct (m demo) as [s' r] eqn:E. simpl in *. subst r.
    exists s', e. split; [exact E|]. split.
    - intros Heq. assert (E1 : kids_of s' 1 = kids_of demo 1) by (unfold kids_of; rewrite Heq; reflexivity).
      assert (E2 : kids_of demo 1 = [2; 4]) by (vm_compute; reflexivity).
      rewrite E1, E2 in Hk. apply elem_of_list_In in Hk. simpl in Hk. intuition discriminate.
    - intros [H1 _]. unfold kids_of in Hk. destruct (st_heap s' !! 1) as [n|] eqn:En; [|inversion Hk].
      assert (parent_is (st_heap s') 9 1) as (n9 & H9 & E9) by (apply H1; exists n; auto).
      unfold parent_in in Hp. rewrite H9 in Hp. congruence. }
  split; [exact demo_consistent|].
  split; [|split]; apply Hgo;
    try (eexists; vm_compute; reflexivity); try (vm_compute; reflexivity);
    apply elem_of_list_In; vm_compute; auto 8.
Qed.
Print Assumptions C04_refused_edit_leaves_tree_unchanged_refuted.
(** What does hold of [append]: a refusal because the child is owned changes
    nothing (C02); a refusal because of the classes changes exactly the list of
    children of the receiver.  Missing: the claim that nothing changes. *)
Theorem C04_refused_append_partial : forall p c s np nc,
  st_heap s !! p = Some np -> has_children (n_cls np) = true ->
  st_heap s !! c = Some nc -> n_parent nc = None -> ~ permitted (n_cls nc) (n_cls np) ->
  exists s' e, append1 p c s = (s', Err (ENode e)) /\
    edited (st_heap s) (st_heap s') (fun _ q => q)
      (fun j l => if decide (j = p) then l ++ [c] else l).
Proof. exact append1_refused. Qed.
Print Assumptions C04_refused_append_partial.
(** The parent setter itself is atomic. *)
Theorem C04_refused_parent_setter_unchanged : forall i p s s' e,
  set_parent i p s = (s', Err e) -> s' = s.
Proof. exact set_parent_err. Qed.
Print Assumptions C04_refused_parent_setter_unchanged.
Example C04_nonvacuous : (append1 1 9 demo).2 <> Ok tt /\ kids_of (append1 1 9 demo).1 1 = [2; 4; 9].
Proof. split; [vm_compute; discriminate|vm_compute; reflexivity]. Qed.

(** ** C05 *)
(** False as stated: (a) prepending a node already listed by the same parent
    lists it twice; (b) replace_self takes a replacement from another parent
    without removing it there; (c) a root can be appended to its own
    descendant, closing a cycle. *)
Theorem C05_one_place_per_node_refuted :
  consistent (st_heap demo) /\
  (exists s', prepend 1 [2] demo = (s', Ok tt) /\ kids_of s' 1 = [2; 2; 4]) /\
  (exists s', replace_self 6 [2] demo = (s', Ok tt) /\ 2 ∈ kids_of s' 0 /\ 2 ∈ kids_of s' 1) /\
  (exists s', append 6 [0] demo = (s', Ok tt) /\ ancestor (st_heap s') 0 0).
Proof.
  split; [exact demo_consistent|]. split; [|split].
  - exists (prepend 1 [2] demo).1. split; [apply ok_pair|]; vm_compute; reflexivity.
  - exists (replace_self 6 [2] demo).1. split; [apply ok_pair; vm_compute; reflexivity|].
    split; apply elem_of_list_In; vm_compute; auto 8.
  - exists (append 6 [0] demo).1. split; [apply ok_pair; vm_compute; reflexivity|].
    apply (anc_step _ _ 6); [|constructor]; apply parent_in_is; vm_compute; reflexivity.
Qed.
Print Assumptions C05_one_place_per_node_refuted.
(** [append] alone can never list a node twice.  Missing: cycles, prepend and
    replace_self, which are covered by C01 when used as documented. *)
Theorem C05_append_one_place_partial : forall p (cs : list id) s s',
  consistent (st_heap s) -> append p cs s = (s', Ok tt) -> one_place (st_heap s').
Proof. exact (fun p cs s s' => append_one_place p cs s s' tt). Qed.
Print Assumptions C05_append_one_place_partial.
Example C05_nonvacuous : consistent (st_heap demo) /\ (append 6 [0] demo).2 = Ok tt.
Proof. split; [exact demo_consistent|vm_compute; reflexivity]. Qed.

(** ** C06 *)
Theorem C06_replace_self : forall x reps s s',
  replace_self x reps s = (s', Ok tt) -> x ∉ reps ->
  exists p np before after,
    parent_is (st_heap s) x p /\ st_heap s !! p = Some np /\
    n_children np = before ++ x :: after /\ x ∉ before /\
    edited (st_heap s) (st_heap s')
      (fun j q => if decide (j ∈ reps) then Some p else if decide (j = x) then None else q)
      (fun j l => if decide (j = p) then before ++ reps ++ after else l).
Proof. exact replace_self_effect. Qed.
Print Assumptions C06_replace_self.
Theorem C06_replace_self_succeeds : forall x (reps : list id) s nx p np,
  st_heap s !! x = Some nx -> n_parent nx = Some p ->
  st_heap s !! p = Some np -> has_children (n_cls np) = true -> x ∈ n_children np ->
  (forall c, In c reps -> exists nc, st_heap s !! c = Some nc /\ permitted (n_cls nc) (n_cls np)) ->
  exists s', replace_self x reps s = (s', Ok tt).
Proof. exact replace_self_total. Qed.
Print Assumptions C06_replace_self_succeeds.
Theorem C06_replace_self_of_root_refused : forall x reps s n,
  st_heap s !! x = Some n -> n_parent n = None ->
  exists m, replace_self x reps s = (s, Err (ENode m)).
Proof. exact replace_self_root. Qed.
Print Assumptions C06_replace_self_of_root_refused.
Example C06_nonvacuous :
  (replace_self 2 [7; 8] demo).2 = Ok tt /\ kids_of (replace_self 2 [7; 8] demo).1 1 = [7; 8; 4] /\
  parent_in (replace_self 2 [7; 8] demo).1 2 = None.
Proof. vm_compute. auto. Qed.

(** ** C07 *)
Theorem C07_remove : forall p x s s',
  remove p x s = (s', Ok tt) ->
  exists np before after,
    st_heap s !! p = Some np /\ n_children np = before ++ x :: after /\ x ∉ before /\
    edited (st_heap s) (st_heap s')
      (fun j q => if decide (j = x) then None else q)
      (fun j l => if decide (j = p) then before ++ after else l).
Proof. exact remove_effect. Qed.
Print Assumptions C07_remove.
Theorem C07_remove_self : forall x s s',
  remove_self x s = (s', Ok tt) ->
  (exists nx, st_heap s !! x = Some nx /\ n_parent nx = None /\ s' = s) \/
  (exists p np before after,
    parent_is (st_heap s) x p /\ st_heap s !! p = Some np /\
    n_children np = before ++ x :: after /\ x ∉ before /\
    edited (st_heap s) (st_heap s')
      (fun j q => if decide (j = x) then None else q)
      (fun j l => if decide (j = p) then before ++ after else l)).
Proof. exact remove_self_effect. Qed.
Print Assumptions C07_remove_self.
Theorem C07_clear : forall p s s',
  clear p s = (s', Ok tt) ->
  exists np, st_heap s !! p = Some np /\
    edited (st_heap s) (st_heap s')
      (fun j q => if decide (j ∈ n_children np) then None else q)
      (fun j l => if decide (j = p) then [] else l).
Proof. exact clear_effect. Qed.
Print Assumptions C07_clear.
Theorem C07_remove_of_non_child : forall p x s np,
  st_heap s !! p = Some np -> has_children (n_cls np) = true -> x ∉ n_children np ->
  remove p x s = (s, Err EValue).
Proof. exact remove_absent. Qed.
Print Assumptions C07_remove_of_non_child.
Theorem C07_remove_undoes_append : forall p x s s1,
  consistent (st_heap s) -> append1 p x s = (s1, Ok tt) ->
  exists s2, remove p x s1 = (s2, Ok tt) /\ st_heap s2 = st_heap s.
Proof. exact (fun p x s s1 => append_remove p x s s1 tt). Qed.
Print Assumptions C07_remove_undoes_append.
Example C07_nonvacuous :
  (remove 1 2 demo).2 = Ok tt /\ kids_of (remove 1 2 demo).1 1 = [4] /\
  (clear 1 demo).2 = Ok tt /\ kids_of (clear 1 demo).1 1 = [] /\
  (remove 1 5 demo).2 = Err EValue /\
  consistent (st_heap demo) /\ (append1 1 7 demo).2 = Ok tt.
Proof.
  do 5 (split; [vm_compute; reflexivity|]). split; [exact demo_consistent|vm_compute; reflexivity].
Qed.

(** ** C08 *)
(** Document order is the depth-first pre-order [doc_order] of Spec.v; the
    condition is any predicate on nodes, [subclass_any] for a node class. *)
Theorem C08_traverse : forall fuel cond p t s s' r,
  tree_at (st_heap s) p t -> traverse fuel cond (root t) s = (s', Ok r) ->
  s' = s /\
  r = List.filter (fun i => match st_heap s !! i with Some n => cond n | None => false end) (doc_order t).
Proof. exact traverse_ok. Qed.
Print Assumptions C08_traverse.
Theorem C08_traverse_terminates : forall fuel cond p t s,
  tree_at (st_heap s) p t -> length (doc_order t) <= fuel ->
  exists r, traverse fuel cond (root t) s = (s, Ok r).
Proof. exact (fun fuel cond p t s H1 H2 => ex_intro _ _ (traverse_eq fuel cond p t s H1 H2)). Qed.
Print Assumptions C08_traverse_terminates.
(** In a consistent heap every node has such a tree, and no node occurs in it twice. *)
Theorem C08_each_node_once : forall h x n,
  consistent h -> h !! x = Some n ->
  exists t, root t = x /\ tree_at h (n_parent n) t /\ NoDup (doc_order t).
Proof.
  exact (fun h x n Hc Hx => match tree_exists h x n Hc Hx with
    ex_intro _ t (conj Hr Ht) => ex_intro _ t (conj Hr (conj Ht (tree_at_nodup h _ t Hc Ht))) end).
Qed.
Print Assumptions C08_each_node_once.
Example C08_nonvacuous :
  tree_at (st_heap demo) None demo_tree /\
  (traverse 20 (fun _ => true) 0 demo).2 = Ok [0; 1; 2; 3; 4; 5; 6] /\
  (traverse 20 (fun n => subclass_any (n_cls n) [CHeading]) 0 demo).2 = Ok [0; 1; 2; 4; 6].
Proof. split; [apply demo_document|vm_compute; auto]. Qed.

(** ** C09 *)
Theorem C09_first_of_type : forall x ds s s' r,
  first_of_type x ds s = (s', Ok r) ->
  s' = s /\ exists n, st_heap s !! x = Some n /\ first_match (st_heap s) ds (kids n) r.
Proof. exact first_of_type_ok. Qed.
Print Assumptions C09_first_of_type.
Theorem C09_last_of_type : forall x ds s s' r,
  last_of_type x ds s = (s', Ok r) ->
  s' = s /\ exists n, st_heap s !! x = Some n /\ last_match (st_heap s) ds (kids n) r.
Proof. exact last_of_type_ok. Qed.
Print Assumptions C09_last_of_type.
Theorem C09_of_type_succeeds : forall x ds s n,
  consistent (st_heap s) -> st_heap s !! x = Some n ->
  (exists r, first_of_type x ds s = (s, Ok r)) /\ (exists r, last_of_type x ds s = (s, Ok r)).
Proof.
  exact (fun x ds s n Hc Hx => conj (first_of_type_total x ds s n Hc Hx) (last_of_type_total x ds s n Hc Hx)).
Qed.
Print Assumptions C09_of_type_succeeds.
Example C09_nonvacuous :
  (first_of_type 1 [CParagraph] demo).2 = Ok (Some (2, 0)) /\
  (last_of_type 1 [CSection; CParagraph] demo).2 = Ok (Some (4, 1)) /\
  (first_of_type 1 [CSection] demo).2 = Ok None.
Proof. vm_compute. auto. Qed.

(** ** C10 *)
Theorem C10_next_prev_inverse : forall s x y nx ny,
  consistent (st_heap s) -> st_heap s !! x = Some nx -> st_heap s !! y = Some ny ->
  next_sibling x SibAny s = (s, Ok (Some y)) <-> prev_sibling y SibAny s = (s, Ok (Some x)).
Proof. exact next_prev_inverse. Qed.
Print Assumptions C10_next_prev_inverse.
Theorem C10_next_is_adjacent : forall s x before after,
  consistent (st_heap s) -> siblings (st_heap s) x before after ->
  next_sibling x SibAny s = (s, Ok (head after)) /\
  prev_sibling x SibAny s = (s, Ok (list.last before)).
Proof.
  exact (fun s x b a Hc Hs => conj (next_sibling_any s x b a Hc Hs) (prev_sibling_any s x b a Hc Hs)).
Qed.
Print Assumptions C10_next_is_adjacent.
Theorem C10_class_filter : forall s x before after arg d,
  consistent (st_heap s) -> siblings (st_heap s) x before after -> sib_class (st_heap s) x arg d ->
  (exists r, prev_sibling x arg s = (s, Ok r) /\ nearest_before (st_heap s) d before r) /\
  (exists r, next_sibling x arg s = (s, Ok r) /\ nearest_after (st_heap s) d after r).
Proof.
  exact (fun s x b a arg d Hc Hs Hd =>
    conj (prev_sibling_class s x b a arg d Hc Hs Hd) (next_sibling_class s x b a arg d Hc Hs Hd)).
Qed.
Print Assumptions C10_class_filter.
Theorem C10_root_has_no_siblings : forall s x n arg,
  st_heap s !! x = Some n -> n_parent n = None ->
  prev_sibling x arg s = (s, Ok None) /\ next_sibling x arg s = (s, Ok None).
Proof. exact sibling_root. Qed.
Print Assumptions C10_root_has_no_siblings.
Example C10_nonvacuous :
  consistent (st_heap demo) /\ siblings (st_heap demo) 2 [] [4] /\
  (next_sibling 2 SibAny demo).2 = Ok (Some 4) /\ (prev_sibling 6 (SibCls CHeading) demo).2 = Ok (Some 1) /\
  (prev_sibling 6 (SibCls CParagraph) demo).2 = Ok None.
Proof.
  split; [exact demo_consistent|]. split; [|vm_compute; auto].
  apply (siblings_in _ _ 1); vm_compute; reflexivity.
Qed.

(** ** C11 *)
Theorem C11_first_ancestor_of_type : forall fuel x ds s s' r,
  consistent (st_heap s) -> first_ancestor_of_type fuel x ds s = (s', Ok r) ->
  s' = s /\ closest_ancestor (st_heap s) ds x r.
Proof. exact first_ancestor_ok. Qed.
Print Assumptions C11_first_ancestor_of_type.
(** There is only one closest ancestor, so the answer is determined. *)
Theorem C11_closest_ancestor_unique : forall h ds x r r',
  consistent h -> closest_ancestor h ds x r -> closest_ancestor h ds x r' -> r = r'.
Proof. exact closest_unique. Qed.
Print Assumptions C11_closest_ancestor_unique.
(** The loop needs no more turns than there are nodes. *)
Theorem C11_terminates : forall fuel x ds s n,
  consistent (st_heap s) -> st_heap s !! x = Some n -> size (st_heap s) <= fuel ->
  exists r, first_ancestor_of_type fuel x ds s = (s, Ok r).
Proof. exact first_ancestor_total. Qed.
Print Assumptions C11_terminates.
Example C11_nonvacuous :
  consistent (st_heap demo) /\
  (first_ancestor_of_type 10 5 [CSection; CManuscript] demo).2 = Ok (Some 1) /\
  (first_ancestor_of_type 10 5 [CManuscript] demo).2 = Ok (Some 0) /\
  (first_ancestor_of_type 10 5 [CHeading] demo).2 = Ok None.
Proof. split; [exact demo_consistent|vm_compute; auto]. Qed.

(** ** C12 *)
Theorem C12_sexp_determines_tree : forall fuel fuel' tab p p' t t' s1 s1' s2 s2' r,
  tree_at (st_heap s1) p t -> tree_at (st_heap s2) p' t' ->
  sexp fuel tab (root t) s1 = (s1', Ok r) -> sexp fuel' tab (root t') s2 = (s2', Ok r) ->
  shape (st_heap s1) t = shape (st_heap s2) t'.
Proof.
  exact (fun fuel fuel' tab p p' t t' s1 s1' s2 s2' r H H' =>
    sexp_determines fuel fuel' tab t t' s1 s1' s2 s2' r (tree_at_kid _ _ _ H) (tree_at_kid _ _ _ H')).
Qed.
Print Assumptions C12_sexp_determines_tree.
Theorem C12_sexp_succeeds : forall fuel tab p t s,
  tree_at (st_heap s) p t -> 2 * length (doc_order t) <= fuel ->
  exists r, sexp fuel tab (root t) s = (s, Ok r).
Proof. exact (fun fuel tab p t s H => sexp_total fuel tab t s (tree_at_kid _ _ _ H)). Qed.
Print Assumptions C12_sexp_succeeds.
Example C12_nonvacuous :
  tree_at (st_heap demo) None demo_tree /\
  option_map show (match (sexp 20 2 0 demo).2 with Ok r => Some r | _ => None end) = Some
"(Manuscript
  (Section
    (Paragraph
      (Text))
    (Paragraph
      (Text)))
  (Section))".
Proof. split; [apply demo_document|vm_compute; reflexivity]. Qed.

(** ** C13 *)
(** Even when calls are refused half-way. *)
Theorem C13_parents_permitted : forall edits s,
  any_history empty_st edits s -> parents_permitted (st_heap s).
Proof.
  exact (fun l s H => parents_ok_permitted s (any_history_parents_ok l empty_st s parents_ok_empty H)).
Qed.
Print Assumptions C13_parents_permitted.
Example C13_nonvacuous :
  let es := [Construct CProof []; Construct CStep []; Construct CParagraph []; Append 2 [1]; Clear 2;
             Append 0 [1]] in
  exists s, any_history empty_st es s /\ parent_in s 1 = Some 0.
Proof.
  intros es. exists (hist_end es). split; [apply any_history_run|vm_compute; reflexivity].
Qed.

(** ** C14 *)
Theorem C14_equality_reflexive : forall edits s x n fuel,
  any_history empty_st edits s -> st_heap s !! x = Some n ->
  node_eq (S fuel) (st_heap s) x x = Some true.
Proof.
  exact (fun l s x n fuel H Hx =>
    node_eq_refl fuel (st_heap s) x n Hx (any_history_comparable l empty_st s comparable_empty H x n Hx)).
Qed.
Print Assumptions C14_equality_reflexive.
Theorem C14_equality_symmetric_same_shape_partial : forall fuel h p p' t t',
  tree_at h p t -> tree_at h p' t' -> shape h t = shape h t' ->
  node_eq fuel h (root t) (root t') = node_eq fuel h (root t') (root t).
Proof.
  exact (fun fuel h p p' t t' H H' => node_eq_sym fuel h t t' (tree_at_kid _ _ _ H) (tree_at_kid _ _ _ H')).
Qed.
Print Assumptions C14_equality_symmetric_same_shape_partial.
(** Equal nodes agree on parent, label, types, nonum and number. *)
Theorem C14_equal_nodes_agree_partial : forall fuel h x y nx ny,
  h !! x = Some nx -> h !! y = Some ny -> node_eq fuel h x y = Some true ->
  n_parent nx = n_parent ny /\
  forall a, In a [a_label; a_types; a_nonum; a_number] ->
    exists v w, n_attrs nx !! a = Some v /\ n_attrs ny !! a = Some w /\
      (val_eqb v w = true \/ val_eqb w v = true).
Proof. exact node_eq_agree. Qed.
Print Assumptions C14_equal_nodes_agree_partial.
(** Neither symmetric (Text() == Paragraph with a child, but not conversely)
    nor class-separating (Paragraph() == Itemize()). *)
Definition eq_demo : st :=
  (run (do! new_node CText [] in do! new_node CParagraph [] in do! new_node CText [] in
        do! append 1 [2] in do! new_node CItemize [] in do! new_node CParagraph [] in ret tt)).1.
Theorem C14_equality_is_equivalence_refuted :
  node_eq 5 (st_heap eq_demo) 0 1 = Some true /\ node_eq 5 (st_heap eq_demo) 1 0 = Some false /\
  node_eq 5 (st_heap eq_demo) 3 4 = Some true /\
  shape (st_heap eq_demo) (T 3 []) <> shape (st_heap eq_demo) (T 4 []).
Proof. repeat split; try (vm_compute; reflexivity). vm_compute. discriminate. Qed.
Print Assumptions C14_equality_is_equivalence_refuted.
Example C14_nonvacuous :
  node_eq 3 (st_heap demo) 2 2 = Some true /\ node_eq 3 (st_heap demo) 2 4 = Some false /\
  node_eq 3 (st_heap demo) 7 8 = Some true /\
  exists t t', tree_at (st_heap demo) None t /\ tree_at (st_heap demo) None t' /\
     root t = 7 /\ root t' = 8 /\ shape (st_heap demo) t = shape (st_heap demo) t'.
Proof.
  split; [vm_compute; reflexivity|]. split; [vm_compute; reflexivity|]. split; [vm_compute; reflexivity|].
  exists (T 7 []), (T 8 []).
  do 2 (split; [apply check_tree_sound; vm_compute; reflexivity|]).
  do 2 (split; [reflexivity|]). vm_compute. reflexivity.
Qed.

(** ** C15 *)
Theorem C15_metakeys_inherited : forall c b k, base c = Some b -> In k (metakeys b) -> In k (metakeys c).
Proof. exact metakeys_inherited. Qed.
Print Assumptions C15_metakeys_inherited.
Theorem C15_common_metakeys : forall c k,
  In k [lit "label"; lit "types"; lit "nonum"; lit "reftext"] -> In k (metakeys c).
Proof. exact metakeys_common. Qed.
Print Assumptions C15_common_metakeys.
Example C15_nonvacuous : base CLemma = Some CTheorem /\ In (lit "title") (metakeys CTheorem).
Proof. split; [reflexivity|]. vm_compute. auto 10. Qed.

(** ** C16 *)
Theorem C16_ingest_dict_as_meta : forall i d s s',
  List.NoDup (map fst d) -> is_Some (st_heap s !! i) ->
  ingest_dict_as_meta i d s = (s', Ok tt) ->
  exists n n', st_heap s !! i = Some n /\ st_heap s' !! i = Some n' /\
    n_cls n' = n_cls n /\ n_parent n' = n_parent n /\ n_children n' = n_children n /\
    (forall j, j <> i -> st_heap s' !! j = st_heap s !! j) /\
    (forall v, In (lit "reftext", v) d -> n_attrs n' !! attr_of_name (lit "reftext_template") = Some v) /\
    (forall k v, In (k, v) d -> k <> lit "reftext" ->
       (k = lit "reftext_template" -> ~ In (lit "reftext") (map fst d)) ->
       n_attrs n' !! attr_of_name k = Some v) /\
    (forall k, (k = lit "reftext" \/ ~ In k (map fst d)) ->
       (k = lit "reftext_template" -> ~ In (lit "reftext") (map fst d)) ->
       n_attrs n' !! attr_of_name k = n_attrs n !! attr_of_name k).
Proof. exact (fun i d s s' => ingest_ok i d s s' tt). Qed.
Print Assumptions C16_ingest_dict_as_meta.
Theorem C16_ingest_succeeds : forall i d s,
  List.NoDup (map fst d) -> is_Some (st_heap s !! i) ->
  (forall k v, In (k, v) d -> k = lit "reftext" \/ (~ In k readonly_props /\ k <> lit "parent")) ->
  exists s', ingest_dict_as_meta i d s = (s', Ok tt).
Proof. exact ingest_total. Qed.
Print Assumptions C16_ingest_succeeds.
Example C16_nonvacuous :
  let d := [(lit "label", VStr (lit "x")); (lit "reftext", VStr (lit "Sec. {number}"))] in
  (ingest_dict_as_meta 1 d demo).2 = Ok tt /\
  match st_heap (ingest_dict_as_meta 1 d demo).1 !! 1 with
  | Some n => n_attrs n !! a_label = Some (VStr (lit "x")) /\
              n_attrs n !! a_reftext_template = Some (VStr (lit "Sec. {number}")) /\
              n_attrs n !! a_title = Some (VStr (lit "One"))
  | None => False
  end.
Proof. vm_compute. auto. Qed.
