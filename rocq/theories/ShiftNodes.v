(** The methods of nodes, in a memory which holds other nodes. *)
From Verif Require Export Shift.
Local Open Scope list_scope.

Section Nodes.
Context (b : shiftby).
Notation sh := (sh b).
Notation moves := (moves b).
Lemma index_sh x l : index_of (sh x) (map sh l) = index_of x l.
Proof. induction l as [|y l IH]; [reflexivity|]. cbn [map index_of]. rewrite eqb_sh, IH. reflexivity. Qed.
Lemma length_sh (l : list id) : length (map sh l) = length l.
Proof. apply map_length. Qed.
Lemma rev_sh (l : list id) : rev (map sh l) = map sh (rev l).
Proof. symmetry. apply map_rev. Qed.
Lemma take_sh k (l : list id) : take k (map sh l) = map sh (take k l).
Proof. apply firstn_map. Qed.
Lemma drop_sh k (l : list id) : drop k (map sh l) = map sh (drop k l).
Proof. apply skipn_map. Qed.
Lemma app_sh (l m : list id) : map sh l ++ map sh m = map sh (l ++ m).
Proof. symmetry. apply map_app. Qed.
Lemma nth_sh (l : list id) k : nth_error (map sh l) k = option_map sh (nth_error l k).
Proof. revert k; induction l as [|x l IH]; intros [|k]; try reflexivity. apply IH. Qed.
Lemma cons_sh x (l : list id) : sh x :: map sh l = map sh (x :: l).
Proof. reflexivity. Qed.
Lemma hd_nil_sh : @nil id = map sh [].
Proof. reflexivity. Qed.
Lemma last_sh (l : list id) d : List.last (map sh l) (sh d) = sh (List.last l d).
Proof. induction l as [|x [|y l] IH]; try reflexivity. exact IH. Qed.
Lemma removelast_sh (l : list id) : removelast (map sh l) = map sh (removelast l).
Proof. induction l as [|x [|y l] IH]; try reflexivity. cbn [map removelast] in *. f_equal. exact IH. Qed.
End Nodes.
#[export] Hint Rewrite truthy_sh fmt_sh eqb_sh index_sh length_sh rev_sh take_sh drop_sh app_sh nth_sh last_sh removelast_sh : mvr.

Ltac mv_norm ::= cbn beta; cbv zeta; cbn [option_map map sh_val fst snd sh_kw n_cls n_children n_parent n_attrs sh_node]; autorewrite with mvr.
(** Types in which no identity occurs. *)
Ltac plain A := lazymatch A with bool => idtac | unit => idtac | str => idtac | list str => idtac | option str => idtac | Z => idtac | cls => idtac | option cls => idtac | list bool => idtac | list N => idtac | option (list N) => idtac | list (list N) => idtac end.
Ltac mv1 ::=
  lazymatch goal with
  | |- moves ?b ?g (@bind ?A _ ?m _) (bind ?m' _) =>
      tryif plain A then (apply (moves_bind b (fun x : A => x)); [|intro; mv_norm]) else (eapply moves_bind; [|intro; mv_norm])
  | |- moves _ _ (bind _ _) (bind _ _) => eapply moves_bind; [|intro; cbn beta; cbv zeta; mv_norm]
  | |- moves _ _ (ret _) (ret _) => solve [apply moves_ret; reflexivity]
  | |- moves _ _ (raise _) (raise _) => apply moves_raise
  | |- moves _ _ (setattr _ _ _) (setattr _ _ _) => apply moves_setattr; try reflexivity
  | |- moves _ _ (new_node _ _) (new_node _ _) => apply moves_new_node; try reflexivity
  | |- moves _ _ (mod_node _ _) (mod_node _ _) => apply moves_mod_node; try (intros; reflexivity)
  | |- moves _ _ (match ?x with _ => _ end) (match ?x with _ => _ end) => let E := fresh "E" in destruct x eqn:E; mv_norm
  | |- moves _ _ (match ?x with _ => _ end) (match option_map _ ?x with _ => _ end) => destruct x; mv_norm
  | |- moves _ _ (match ?x with _ => _ end) (match map _ ?x with _ => _ end) => destruct x; mv_norm
  | |- moves _ _ (match ?x with _ => _ end) (match sh_val _ ?x with _ => _ end) => destruct x; mv_norm
  | |- _ => solve [eauto 2 with mv]
  end.
Ltac mv := repeat (mv_norm; mv1).

Section Nodes2.
Context (b : shiftby).
Notation sh := (sh b).
Notation moves := (moves b).
Lemma moves_set_parent i p p' : p' = option_map sh p -> moves same (set_parent i p) (set_parent (sh i) p').
Proof. intros ->. unfold set_parent. mv. Qed.
Lemma moves_raw_children i : moves (map sh) (raw_children i) (raw_children (sh i)).
Proof. unfold raw_children. mv. Qed.
Lemma moves_set_raw_children i cs cs' : cs' = map sh cs -> moves same (set_raw_children i cs) (set_raw_children (sh i) cs').
Proof. intros ->. unfold set_raw_children. mv. Qed.
Hint Resolve moves_set_parent moves_raw_children moves_set_raw_children : mv.
Lemma moves_append1 i j : moves same (append1 i j) (append1 (sh i) (sh j)).
Proof. unfold append1. mv. apply moves_set_raw_children; rewrite map_app; reflexivity. Qed.
Hint Resolve moves_append1 : mv.
Lemma moves_append i cs cs' : cs' = map sh cs -> moves same (append i cs) (append (sh i) cs').
Proof. intros ->. apply moves_iterM. intros x. apply moves_append1. Qed.
Lemma moves_prepend1 i j : moves same (prepend1 i j) (prepend1 (sh i) (sh j)).
Proof. unfold prepend1. mv. Qed.
Lemma moves_prepend i cs cs' : cs' = map sh cs -> moves same (prepend i cs) (prepend (sh i) cs').
Proof. intros ->. unfold prepend. rewrite <- map_rev. apply moves_iterM. intros x. apply moves_prepend1. Qed.
Lemma moves_remove i j : moves same (remove i j) (remove (sh i) (sh j)).
Proof. unfold remove. mv. apply moves_set_raw_children; unfold delete_at; mv_norm; reflexivity. Qed.
Hint Resolve moves_remove : mv.
Lemma moves_remove_self i : moves same (remove_self i) (remove_self (sh i)).
Proof. unfold remove_self. mv. Qed.
Lemma moves_clear i : moves same (clear i) (clear (sh i)).
Proof. unfold clear. mv. apply moves_iterM; intros x; mv. Qed.
Lemma moves_insert_all i k l l' : l' = map sh l -> moves same (insert_all i k l) (insert_all (sh i) k l').
Proof.
  intros ->. revert k. induction l as [|x l IH]; intros k; cbn [insert_all map]; mv. apply moves_set_raw_children; unfold insert_at; rewrite map_app; cbn [map]; rewrite <- take_sh, <- drop_sh; reflexivity.
Qed.
Lemma moves_replace_self i l l' : l' = map sh l -> moves same (replace_self i l) (replace_self (sh i) l').
Proof. intros ->. unfold replace_self. mv. apply moves_insert_all. reflexivity. Qed.
Lemma moves_inst ds i : moves same (inst ds i) (inst ds (sh i)).
Proof. unfold inst. mv. Qed.
Hint Resolve moves_inst : mv.
Definition sh_idx (p : id * nat) : id * nat := (sh p.1, p.2).
Lemma moves_first_go ds l k : moves (option_map sh_idx) (first_of_type_go ds l k) (first_of_type_go ds (map sh l) k).
Proof. revert k. induction l as [|x l IH]; intros k; cbn [first_of_type_go map]; mv. Qed.
Lemma moves_first_of_type i ds : moves (option_map sh_idx) (first_of_type i ds) (first_of_type (sh i) ds).
Proof. unfold first_of_type. mv. apply moves_first_go. Qed.
Lemma moves_last_of_type i ds : moves (option_map sh_idx) (last_of_type i ds) (last_of_type (sh i) ds).
Proof. unfold last_of_type. mv; [apply moves_first_go|]. cbv beta. destruct a0 as [[x j]|]; cbn [option_map sh_idx fst snd]; mv. Qed.
Lemma moves_first_inst d l : moves (option_map sh) (first_inst d l) (first_inst d (map sh l)).
Proof. induction l as [|x l IH]; cbn [first_inst map]; mv. Qed.
Hint Resolve moves_first_inst : mv.
Lemma moves_prev_sibling i a : moves (option_map sh) (prev_sibling i a) (prev_sibling (sh i) a).
Proof. unfold prev_sibling. mv. apply moves_ret. destruct n0; mv_norm; reflexivity. Qed.
Lemma moves_next_sibling i a : moves (option_map sh) (next_sibling i a) (next_sibling (sh i) a).
Proof. unfold next_sibling. mv. Qed.
Lemma moves_anc_loop fuel ds o : moves (option_map sh) (anc_loop fuel ds o) (anc_loop fuel ds (option_map sh o)).
Proof. revert o. induction fuel as [|f IH]; intros [q|]; cbn [anc_loop option_map]; mv. Qed.
Lemma moves_first_ancestor fuel i ds : moves (option_map sh) (first_ancestor_of_type fuel i ds) (first_ancestor_of_type fuel (sh i) ds).
Proof. unfold first_ancestor_of_type. mv. apply moves_anc_loop. Qed.
Hint Resolve moves_first_ancestor : mv.
(** Conditions see classes and the truth of attributes only. *)
Definition blind (cond : node -> bool) : Prop := forall n, cond (sh_node b n) = cond n.
Lemma moves_trav {A B} (f : A -> B) fuel cond body body' acc l : blind cond -> (forall a i, moves f (body a i) (body' (f a) (sh i))) ->
  moves f (trav_loop fuel cond body acc l) (trav_loop fuel cond body' (f acc) (map sh l)).
Proof.
  intros Hc Hb. revert acc l. induction fuel as [|fuel IH]; intros acc [|x l]; cbn [trav_loop map]; try (apply moves_ret; reflexivity); [apply moves_raise|].
  eapply moves_bind; [apply moves_get_node|]. intros n. rewrite Hc. eapply moves_bind; [destruct (cond n); [apply Hb|apply moves_ret; reflexivity]|]. intros a.
  eapply moves_bind; [apply moves_children_of|]. intros cs. rewrite app_sh. apply IH.
Qed.
Lemma moves_for {A B} (f : A -> B) fuel cond body body' acc acc' i : blind cond -> (forall a i, moves f (body a i) (body' (f a) (sh i))) -> acc' = f acc ->
  moves f (for_traverse fuel cond body acc i) (for_traverse fuel cond body' acc' (sh i)).
Proof. intros H1 H2 ->. exact (moves_trav f fuel cond body body' acc [i] H1 H2). Qed.
Lemma blind_any : blind cond_any.
Proof. intros n. reflexivity. Qed.
Lemma blind_class d : blind (cond_class d).
Proof. intros n. reflexivity. Qed.
Lemma blind_exact ds : blind (cond_exact ds).
Proof. intros n. reflexivity. Qed.
Lemma blind_attr a : blind (cond_attr a).
Proof. intros n. unfold cond_attr, sh_node. cbn [n_attrs]. rewrite lookup_fmap. destruct (n_attrs n !! a); [apply truthy_sh|reflexivity]. Qed.
Lemma moves_traverse fuel cond i : blind cond -> moves (map sh) (traverse fuel cond i) (traverse fuel cond (sh i)).
Proof.
  intros Hc. unfold traverse. eapply moves_bind; [eapply (moves_for (map sh)); [exact Hc|intros a j; apply moves_ret; reflexivity|reflexivity]|].
  intros a. apply moves_ret. rewrite map_rev. reflexivity.
Qed.
Lemma moves_full_number fuel i : moves same (full_number fuel i) (full_number fuel (sh i)).
Proof.
  revert i. induction fuel as [|fuel IH]; intros i; cbn [full_number]; [apply moves_raise|]. cbv zeta. mv1; [mv1|mv_norm]. apply moves_if; [mv|]. mv1; [mv1|mv_norm]. apply moves_if; [mv|]. mv1; [mv1|mv_norm].
  eapply (moves_bind b (option_map sh)); [destruct a1 as [x|]; mv|]. intros an. mv1; [mv1|mv_norm]. destruct an as [y|]; mv_norm; [|mv]. mv1; [apply IH|mv_norm]. destruct a3 as [[|ch r]|]; [mv| |mv]. mv1; [apply IH|mv].
Qed.
Hint Resolve moves_full_number : mv.
Lemma moves_reftext fuel i : moves same (reftext fuel i) (reftext fuel (sh i)).
Proof. unfold reftext. mv. Qed.
Lemma moves_py_setattr i k v v' : v' = sh_val b v -> moves same (py_setattr i k v) (py_setattr (sh i) k v').
Proof. intros ->. unfold py_setattr. mv. Qed.
Lemma sh_val_eqb v w : val_eqb (sh_val b v) (sh_val b w) = val_eqb v w.
Proof.
  destruct v, w; try reflexivity; cbn [sh_val val_eqb as_num]; [apply eqb_sh|].
  destruct (decide (l = l0)) as [->|H]; [rewrite decide_True by reflexivity; reflexivity|].
  rewrite decide_False; [reflexivity|]. intros E. apply H. exact (fmap_inj _ (sh_inj b) _ _ E).
Qed.
Lemma attr_eq_sh n m a : attr_eq (sh_node b n) (sh_node b m) a = attr_eq n m a.
Proof. unfold attr_eq, sh_node. cbn [n_attrs]. rewrite !lookup_fmap. destruct (n_attrs n !! a), (n_attrs m !! a); try reflexivity. apply sh_val_eqb. Qed.
Lemma parent_eq_sh n m : parent_eq (sh_node b n) (sh_node b m) = parent_eq n m.
Proof. unfold parent_eq, sh_node. cbn [n_parent]. destruct (n_parent n), (n_parent m); try reflexivity. apply eqb_sh. Qed.
Lemma node_eq_sh fuel h x y : node_eq fuel (sh_heap b h) (sh x) (sh y) = node_eq fuel h x y.
Proof.
  revert x y. induction fuel as [|fuel IH]; intros x y; [reflexivity|]. cbn [node_eq]. rewrite !sh_lookup. destruct (h !! x) as [nx|], (h !! y) as [ny|]; try reflexivity. cbn [fmap option_fmap option_map].
  change (n_cls (sh_node b ny)) with (n_cls ny). change (n_cls (sh_node b nx)) with (n_cls nx).
  set (sw := subclass (n_cls ny) (n_cls nx) && negb (cls_eqb (n_cls ny) (n_cls nx))). cbv zeta.
  replace (if sw then sh_node b ny else sh_node b nx) with (sh_node b (if sw then ny else nx)) by (destruct sw; reflexivity).
  replace (if sw then sh_node b nx else sh_node b ny) with (sh_node b (if sw then nx else ny)) by (destruct sw; reflexivity).
  generalize (if sw then ny else nx) (if sw then nx else ny). intros u v. clear sw. rewrite parent_eq_sh.
  change (n_cls (sh_node b u)) with (n_cls u).
  replace (forallb (attr_eq (sh_node b u) (sh_node b v)) (eq_attrs (n_cls u))) with (forallb (attr_eq u v) (eq_attrs (n_cls u))).
  2: { induction (eq_attrs (n_cls u)) as [|z l IHl]; [reflexivity|]. cbn [forallb]. rewrite IHl, attr_eq_sh. reflexivity. }
  destruct (_ && _); [|reflexivity]. destruct (has_children (n_cls u)); [|reflexivity]. rewrite !kids_sh. generalize (kids u) (kids v).
  induction l as [|p l IHl]; intros [|q m]; try reflexivity. cbn [map]. rewrite eqb_sh, IH, IHl. reflexivity.
Qed.
End Nodes2.
#[export] Hint Resolve moves_raw_children moves_append1 moves_prepend1 moves_remove moves_remove_self moves_clear moves_inst moves_first_go moves_first_of_type moves_last_of_type moves_first_inst moves_prev_sibling moves_next_sibling moves_first_ancestor moves_full_number moves_reftext moves_py_setattr blind_any blind_class blind_exact blind_attr moves_traverse : mv.
Ltac mvx := first
  [ mv1
  | lazymatch goal with
    | |- moves _ _ (append _ _) _ => apply moves_append; mv_norm; reflexivity
    | |- moves _ _ (prepend _ _) _ => apply moves_prepend; mv_norm; reflexivity
    | |- moves _ _ (replace_self _ _) _ => apply moves_replace_self; mv_norm; reflexivity
    | |- moves _ _ (set_parent _ _) _ => apply moves_set_parent; mv_norm; reflexivity
    | |- moves _ _ (iterM _ ?l) (iterM _ ?l) => apply moves_iterM'; intro
    | |- moves _ _ (iterM _ _) (iterM _ (map _ _)) => apply moves_iterM; intro
    | |- moves _ _ (iterM _ _) (iterM _ _) => apply moves_iterM'; intro
    | |- moves _ _ (ret _) (ret _) => apply moves_ret; mv_norm; reflexivity
    | |- moves _ _ (for_traverse _ _ _ _ _) _ => eapply moves_for; [eauto with mv|intros|reflexivity]
    end ].
Ltac mv ::= repeat (mv_norm; mvx).
