(** Trees of a consistent heap, and traversal. *)
From stdpp Require Import fin_sets.
From Verif Require Export Consistency.

(** ** Existence of the tree of a node *)

Fixpoint tree_size (t : tree) : nat :=
  match t with T _ cs => S (fold_right (fun t n => tree_size t + n) 0 cs) end.

Lemma tree_ind' (P : tree -> Prop) :
  (forall i cs, Forall P cs -> P (T i cs)) -> forall t, P t.
Proof.
  intros H. fix IH 1. intros [i cs]. apply H.
  induction cs as [|c cs IHc]; constructor; [apply IH|exact IHc].
Qed.
Lemma tree_at_ind' (h : gmap id node) (P : option id -> tree -> Prop) :
  (forall p i n cs, h !! i = Some n -> n_parent n = p -> kids n = map root cs ->
     Forall (tree_at h (Some i)) cs -> Forall (P (Some i)) cs -> P p (T i cs)) ->
  forall p t, tree_at h p t -> P p t.
Proof.
  intros H p t. revert p. induction t as [i cs IH] using tree_ind'. intros p Ht.
  inversion Ht as [p' i' n cs' Hi Hp Hk Hcs]; subst.
  eapply H; eauto. rewrite list.Forall_forall in *. intros t Hin. apply IH; [assumption|].
  apply Hcs. assumption.
Qed.

Inductive upchain (h : gmap id node) : list id -> Prop :=
| up_one i : is_Some (h !! i) -> upchain h [i]
| up_cons i p l : parent_is h i p -> upchain h (p :: l) -> upchain h (i :: p :: l).
Lemma upchain_some h l i : upchain h l -> i ∈ l -> is_Some (h !! i).
Proof.
  induction 1 as [j Hj|j p l (n & Hn & Hp) Hc IH]; intros Hin.
  - apply elem_of_list_singleton in Hin. subst. assumption.
  - apply elem_of_cons in Hin as [->|Hin]; [eauto|auto].
Qed.
Lemma upchain_ancestor h l i j : upchain h (i :: l) -> j ∈ l -> ancestor h i j.
Proof.
  revert i. induction l as [|p l IH]; intros i H Hin; [inversion Hin|].
  inversion H as [|? ? ? Hp Hc]; subst. apply elem_of_cons in Hin as [->|Hin].
  - constructor. assumption.
  - eapply anc_step; [eassumption|]. apply IH; assumption.
Qed.
Lemma upchain_nodup h l : consistent h -> upchain h l -> NoDup l.
Proof.
  intros Hc. induction 1 as [j Hj|j p l Hp Hu IH].
  - apply NoDup_singleton.
  - constructor; [|assumption]. intros Hin.
    apply (cons_acyclic _ Hc j). apply (upchain_ancestor h (p :: l)); [|assumption].
    constructor; assumption.
Qed.
Lemma upchain_length (h : gmap id node) l : consistent h -> upchain h l -> length l <= size h.
Proof.
  intros Hc Hu. pose proof (upchain_nodup _ _ Hc Hu) as Hnd.
  rewrite <- (size_list_to_set (C := gset nat) l Hnd), <- (size_dom (D := gset nat) h).
  apply subseteq_size. intros x Hx. apply elem_of_list_to_set in Hx.
  apply elem_of_dom. eapply upchain_some; eassumption.
Qed.

Lemma tree_exists_aux h k : forall i n l,
  consistent h -> h !! i = Some n -> upchain h (i :: l) -> size h < k + length (i :: l) ->
  exists t, root t = i /\ tree_at h (n_parent n) t.
Proof.
  induction k as [|k IH]; intros i n l Hc Hi Hu Hlt.
  - pose proof (upchain_length _ _ Hc Hu). simpl in *. lia.
  - assert (exists cs, map root cs = kids n /\ Forall (tree_at h (Some i)) cs) as (cs & Hm & Hcs).
    { assert (Hall : forall c, c ∈ kids n -> parent_is h c i).
      { intros c Hin. apply (cons_parent _ Hc). exists n. auto. }
      revert Hall. induction (kids n) as [|c r IHr]; intros Hall.
      - exists []. auto.
      - destruct IHr as (cs & Hm & Hcs); [intros; apply Hall; constructor; assumption|].
        destruct (Hall c) as (m & Hcm & Hp); [constructor|].
        destruct (IH c m (i :: l)) as (t & Hr & Ht); auto.
        + constructor; [exists m|]; auto.
        + simpl in *. lia.
        + rewrite Hp in Ht. exists (t :: cs). simpl. rewrite Hm, Hr. auto. }
    exists (T i cs). split; [reflexivity|]. econstructor; eauto.
Qed.
Lemma tree_exists h i n :
  consistent h -> h !! i = Some n -> exists t, root t = i /\ tree_at h (n_parent n) t.
Proof.
  intros Hc Hi. apply (tree_exists_aux h (S (size h)) i n []); auto.
  - constructor. eauto.
  - simpl. lia.
Qed.

Lemma tree_at_doc_order h p t i :
  consistent h -> tree_at h p t -> i ∈ doc_order t -> i = root t \/ ancestor h i (root t).
Proof.
  intros Hc Ht. induction Ht as [p r n cs Hr Hp Hk Hcs IH] using tree_at_ind'. simpl.
  intros Hin. apply elem_of_cons in Hin as [->|Hin]; [auto|]. right.
  apply elem_of_list_In, in_flat_map in Hin as (t & Ht & Hin).
  apply elem_of_list_In in Hin, Ht. rewrite list.Forall_forall in IH.
  assert (parent_is h (root t) r) as Hpar.
  { apply (cons_parent _ Hc). exists n. split; [assumption|]. rewrite Hk.
    apply elem_of_list_fmap. eauto. }
  destruct (IH _ Ht Hin) as [->|Ha].
  - constructor. assumption.
  - eapply ancestor_trans; [eassumption|]. constructor. assumption.
Qed.
Lemma parent_unique h x p q : parent_is h x p -> parent_is h x q -> p = q.
Proof. intros (n & H & E) (m & H' & E'). congruence. Qed.
(** Ancestors of a node form a chain. *)
Lemma ancestor_linear h x a b :
  ancestor h x a -> ancestor h x b -> a = b \/ ancestor h a b \/ ancestor h b a.
Proof.
  intros Ha. revert b. induction Ha as [x p Hp|x p a Hp Ha IH]; intros b Hb.
  - inversion Hb as [? q Hq|? q ? Hq Hb']; subst; rewrite (parent_unique _ _ _ _ Hp Hq); auto.
  - inversion Hb as [? q Hq|? q ? Hq Hb']; subst; pose proof (parent_unique _ _ _ _ Hp Hq); subst; auto.
Qed.
Lemma ancestor_parent h x p a : parent_is h x p -> ancestor h x a -> a = p \/ ancestor h p a.
Proof.
  intros Hp Ha. inversion Ha as [? q Hq|? q ? Hq Ha']; subst;
    rewrite (parent_unique _ _ _ _ Hp Hq); auto.
Qed.
Lemma siblings_disjoint h p a b x :
  consistent h -> parent_is h a p -> parent_is h b p -> a <> b ->
  (x = a \/ ancestor h x a) -> (x = b \/ ancestor h x b) -> False.
Proof.
  intros Hc Ha Hb Hne H1 H2.
  assert (Habs : forall u v, parent_is h u p -> parent_is h v p -> ancestor h u v -> False).
  { intros u v Hu Hv Huv. apply (cons_acyclic _ Hc p).
    destruct (ancestor_parent _ _ _ _ Hu Huv) as [->|H].
    - exfalso. apply (cons_acyclic _ Hc p). constructor. assumption.
    - eapply ancestor_trans; [eassumption|constructor; assumption]. }
  destruct H1 as [->|H1], H2 as [->|H2]; eauto.
  destruct (ancestor_linear _ _ _ _ H1 H2) as [?|[?|?]]; eauto.
Qed.
Lemma tree_at_nodup h p t : consistent h -> tree_at h p t -> NoDup (doc_order t).
Proof.
  intros Hc Ht. induction Ht as [p r n cs Hr Hp Hk Hcs IH] using tree_at_ind'. simpl.
  assert (Hpar : forall t, t ∈ cs -> parent_is h (root t) r).
  { intros t Hin. apply (cons_parent _ Hc). exists n. split; [assumption|]. rewrite Hk.
    apply elem_of_list_fmap. eauto. }
  constructor.
  - intros Hin. apply elem_of_list_In, in_flat_map in Hin as (t & Ht & Hin).
    apply elem_of_list_In in Hin, Ht. rewrite list.Forall_forall in Hcs.
    apply (tree_at_doc_order h (Some r)) in Hin; auto. pose proof (Hpar _ Ht) as Hpt.
    apply (cons_acyclic _ Hc r). destruct Hin as [->|Ha].
    + constructor. assumption.
    + eapply ancestor_trans; [eassumption|constructor; assumption].
  - pose proof (cons_nodup _ Hc _ _ Hr) as Hnd. rewrite Hk in Hnd. clear Hk.
    induction cs as [|t cs IHcs]; simpl; [constructor|].
    inversion Hnd as [|? ? Hnin Hnd']; subst.
    apply list.Forall_cons in Hcs as [Ht Hcs]. apply list.Forall_cons in IH as [IHt IH].
    apply NoDup_app. split; [assumption|]. split.
    + intros x Hx Hx'. apply elem_of_list_In, in_flat_map in Hx' as (t' & Ht' & Hx').
      apply elem_of_list_In in Hx', Ht'. rewrite list.Forall_forall in Hcs.
      apply (tree_at_doc_order h (Some r)) in Hx, Hx'; auto.
      apply (siblings_disjoint h r (root t) (root t') x); auto.
      * apply Hpar. constructor.
      * apply Hpar. constructor. assumption.
      * intros E. apply Hnin. rewrite E. apply elem_of_list_fmap. eauto.
    + apply IHcs; auto. intros t' Hin. apply Hpar. constructor. assumption.
Qed.
Lemma document_exists h i n :
  consistent h -> h !! i = Some n -> n_parent n = None -> exists t, root t = i /\ document h t.
Proof.
  intros Hc Hi Hp. destruct (tree_exists h i n Hc Hi) as (t & Hr & Ht). rewrite Hp in Ht.
  exists t. split; [assumption|]. split; [assumption|]. eapply tree_at_nodup; eassumption.
Qed.
(** The tree of a node is unique. *)
Lemma tree_at_unique h p t t' : tree_at h p t -> tree_at h p t' -> root t = root t' -> t = t'.
Proof.
  intros Ht. revert t'. induction Ht as [p r n cs Hr Hp Hk Hcs IH] using tree_at_ind'.
  intros t' Ht'. inversion Ht' as [p' r' n' cs' Hr' Hp' Hk' Hcs']; subst. simpl. intros <-.
  assert (n' = n) as -> by congruence. rewrite Hk in Hk'. f_equal.
  clear - IH Hcs' Hk'. revert cs' Hk' Hcs'. induction cs as [|c cs IHc]; intros [|c' cs']; simpl; try discriminate; auto.
  intros [= E1 E2] [H1 H2]%list.Forall_cons. apply list.Forall_cons in IH as [IH1 IH2].
  f_equal; auto.
Qed.

(** ** The traversal loop *)

(** One step of the traversal: run the body on [i] if the condition holds. *)
Definition visit {A} (cond : node -> bool) (body : A -> id -> M A) (acc : A) (i : id) : M A :=
  let! n := get_node i in if cond n then body acc i else ret acc.

(** A tree given by children only. *)
Inductive kid_tree (h : gmap id node) : tree -> Prop :=
| KidTree i n cs : h !! i = Some n -> kids n = map root cs -> Forall (kid_tree h) cs -> kid_tree h (T i cs).
Lemma tree_at_kid h p t : tree_at h p t -> kid_tree h t.
Proof.
  induction 1 as [p r n cs Hr Hp Hk Hcs IH] using tree_at_ind'. econstructor; eauto.
Qed.
Definition kids_same (h h' : gmap id node) (j : id) : Prop :=
  forall n, h !! j = Some n -> exists n', h' !! j = Some n' /\ kids n' = kids n.
Lemma kid_tree_same h h' t :
  kid_tree h t -> (forall j, j ∈ doc_order t -> kids_same h h' j) -> kid_tree h' t.
Proof.
  induction t as [i cs IH] using tree_ind'. intros Ht Hs.
  inversion Ht as [? n ? Hi Hk Hcs]; subst.
  destruct (Hs i ltac:(simpl; constructor) n Hi) as (n' & Hn' & Hk').
  econstructor; [eassumption|congruence|]. rewrite list.Forall_forall in *. intros t Hin.
  apply IH; auto. intros j Hj. apply Hs. simpl. constructor.
  apply elem_of_list_In, in_flat_map. exists t. rewrite <- !elem_of_list_In. auto.
Qed.
Lemma kid_trees_same h h' ts :
  Forall (kid_tree h) ts -> (forall j, j ∈ doc_orders ts -> kids_same h h' j) -> Forall (kid_tree h') ts.
Proof.
  rewrite !list.Forall_forall. intros Ht Hs t Hin. eapply kid_tree_same; [eauto|].
  intros j Hj. apply Hs. apply elem_of_list_In, in_flat_map. exists t. rewrite <- !elem_of_list_In. auto.
Qed.
Lemma doc_orders_cons t ts : doc_orders (t :: ts) = doc_order t ++ doc_orders ts.
Proof. reflexivity. Qed.
Lemma doc_orders_app ts us : doc_orders (ts ++ us) = doc_orders ts ++ doc_orders us.
Proof. unfold doc_orders. rewrite flat_map_app. reflexivity. Qed.

(** [Inv s rem]: what the consumer needs when the nodes [rem] are still to come. *)
Lemma trav_fold {A} (Inv : st -> list id -> Prop) (cond : node -> bool) (body : A -> id -> M A) :
  (forall s i rem acc s' acc' n,
     Inv s (i :: rem) -> st_heap s !! i = Some n ->
     visit cond body acc i s = (s', Ok acc') ->
     Inv s' rem /\ forall j, j ∈ i :: rem -> kids_same (st_heap s) (st_heap s') j) ->
  forall fuel ts acc s,
  Inv s (doc_orders ts) -> Forall (kid_tree (st_heap s)) ts -> length (doc_orders ts) <= fuel ->
  trav_loop fuel cond body acc (map root ts) s = foldM (visit cond body) acc (doc_orders ts) s.
Proof.
  intros Hstep. induction fuel as [|fuel IH]; intros ts acc s HI Hts Hlen.
  - destruct ts as [|[i cs] ts]; [reflexivity|]. simpl in Hlen. lia.
  - destruct ts as [|[i cs] ts]; [reflexivity|].
    apply list.Forall_cons in Hts as [Ht Hts]. inversion Ht as [? n ? Hi Hk Hcs]; subst.
    cbn [map root trav_loop doc_orders flat_map doc_order app foldM].
    unfold visit at 1. unfold bind at 1 4. unfold bind at 3. rewrite (get_node_eq _ _ _ Hi).
    destruct ((if cond n then body acc i else ret acc) s) as [s1 [acc1|e]] eqn:E.
    2:{ unfold bind. rewrite E. reflexivity. }
    unfold bind at 1. rewrite E.
    assert (visit cond body acc i s = (s1, Ok acc1)) as Hv.
    { unfold visit, bind. rewrite (get_node_eq _ _ _ Hi). exact E. }
    destruct (Hstep s i (flat_map doc_order cs ++ doc_orders ts) acc s1 acc1 n) as [HI1 Hsame]; auto.
    destruct (Hsame i ltac:(constructor) n Hi) as (n1 & Hi1 & Hk1).
    unfold bind, children_of, bind. rewrite (get_node_eq _ _ _ Hi1). unfold ret.
    rewrite Hk1, Hk, <- map_app.
    rewrite IH.
    + rewrite doc_orders_app. reflexivity.
    + rewrite doc_orders_app. exact HI1.
    + apply (kid_trees_same (st_heap s)).
      * apply list.Forall_app. auto.
      * intros j Hj. apply Hsame. constructor. rewrite doc_orders_app in Hj. exact Hj.
    + rewrite doc_orders_app. unfold doc_orders in *. simpl in Hlen. rewrite app_length in *. lia.
Qed.
(** If the loop succeeds there was enough fuel. *)
Lemma trav_fuel {A} (Inv : st -> list id -> Prop) (cond : node -> bool) (body : A -> id -> M A) :
  (forall s i rem acc s' acc' n,
     Inv s (i :: rem) -> st_heap s !! i = Some n ->
     visit cond body acc i s = (s', Ok acc') ->
     Inv s' rem /\ forall j, j ∈ i :: rem -> kids_same (st_heap s) (st_heap s') j) ->
  forall fuel ts acc s s' r,
  Inv s (doc_orders ts) -> Forall (kid_tree (st_heap s)) ts ->
  trav_loop fuel cond body acc (map root ts) s = (s', Ok r) -> length (doc_orders ts) <= fuel.
Proof.
  intros Hstep. induction fuel as [|fuel IH]; intros ts acc s s' r HI Hts H.
  - destruct ts as [|[i cs] ts]; [simpl; lia|]. discriminate.
  - destruct ts as [|[i cs] ts]; [simpl; lia|].
    apply list.Forall_cons in Hts as [Ht Hts]. inversion Ht as [? n ? Hi Hk Hcs]; subst.
    cbn [map root trav_loop] in H.
    apply bind_ok in H as (s0 & n0 & H0 & H). apply get_node_ok in H0 as [-> H0].
    assert (n0 = n) as -> by congruence.
    apply bind_ok in H as (s1 & acc1 & E & H).
    assert (visit cond body acc i s = (s1, Ok acc1)) as Hv.
    { unfold visit, bind. rewrite (get_node_eq _ _ _ Hi). exact E. }
    destruct (Hstep s i (flat_map doc_order cs ++ doc_orders ts) acc s1 acc1 n) as [HI1 Hsame]; auto.
    destruct (Hsame i ltac:(constructor) n Hi) as (n1 & Hi1 & Hk1).
    apply bind_ok in H as (s2 & cs2 & H2 & H). apply children_of_ok in H2 as (-> & n2 & Hn2 & ->).
    assert (n2 = n1) as -> by congruence. rewrite Hk1, Hk, <- map_app in H.
    apply IH in H.
    + rewrite doc_orders_app in H. unfold doc_orders in H. unfold doc_orders. simpl. rewrite app_length in *. lia.
    + rewrite doc_orders_app. exact HI1.
    + apply (kid_trees_same (st_heap s)).
      * apply list.Forall_app. auto.
      * intros j Hj. apply Hsame. constructor. rewrite doc_orders_app in Hj. exact Hj.
Qed.
Lemma trav_ok {A} (Inv : st -> list id -> Prop) (cond : node -> bool) (body : A -> id -> M A) :
  (forall s i rem acc s' acc' n,
     Inv s (i :: rem) -> st_heap s !! i = Some n ->
     visit cond body acc i s = (s', Ok acc') ->
     Inv s' rem /\ forall j, j ∈ i :: rem -> kids_same (st_heap s) (st_heap s') j) ->
  forall fuel t acc s s' r,
  Inv s (doc_order t) -> kid_tree (st_heap s) t ->
  for_traverse fuel cond body acc (root t) s = (s', Ok r) ->
  foldM (visit cond body) acc (doc_order t) s = (s', Ok r).
Proof.
  intros Hstep fuel t acc s s' r HI Ht H. unfold for_traverse in H.
  assert (E : doc_order t = doc_orders [t]) by (unfold doc_orders; simpl; rewrite app_nil_r; reflexivity).
  change [root t] with (map root [t]) in H. rewrite E in *.
  assert (Hts : Forall (kid_tree (st_heap s)) [t]) by auto.
  pose proof (trav_fuel Inv cond body Hstep _ _ _ _ _ _ HI Hts H) as Hlen.
  rewrite (trav_fold Inv cond body Hstep) in H; assumption.
Qed.
Lemma trav_eq {A} (Inv : st -> list id -> Prop) (cond : node -> bool) (body : A -> id -> M A) :
  (forall s i rem acc s' acc' n,
     Inv s (i :: rem) -> st_heap s !! i = Some n ->
     visit cond body acc i s = (s', Ok acc') ->
     Inv s' rem /\ forall j, j ∈ i :: rem -> kids_same (st_heap s) (st_heap s') j) ->
  forall fuel t acc s,
  Inv s (doc_order t) -> kid_tree (st_heap s) t -> length (doc_order t) <= fuel ->
  for_traverse fuel cond body acc (root t) s = foldM (visit cond body) acc (doc_order t) s.
Proof.
  intros Hstep fuel t acc s HI Ht Hlen. unfold for_traverse.
  assert (E : doc_order t = doc_orders [t]) by (unfold doc_orders; simpl; rewrite app_nil_r; reflexivity).
  change [root t] with (map root [t]). rewrite E in *.
  apply (trav_fold Inv cond body Hstep); auto.
Qed.

(** ** traverse *)

Definition holds (cond : node -> bool) (h : gmap id node) (i : id) : bool :=
  match h !! i with Some n => cond n | None => false end.

Lemma visit_collect cond l : forall acc s,
  Forall (fun i => is_Some (st_heap s !! i)) l ->
  foldM (visit cond (fun acc i => ret (i :: acc))) acc l s
  = (s, Ok (rev (List.filter (holds cond (st_heap s)) l) ++ acc)).
Proof.
  induction l as [|i l IH]; intros acc s Hall; [reflexivity|].
  apply list.Forall_cons in Hall as [[n Hi] Hall]. simpl. unfold bind at 1. unfold visit, bind.
  rewrite (get_node_eq _ _ _ Hi). unfold holds at 1. rewrite Hi.
  destruct (cond n); unfold ret at 1; rewrite IH by assumption; simpl;
    rewrite <- ?app_assoc; reflexivity.
Qed.
Lemma kid_tree_some h t i : kid_tree h t -> i ∈ doc_order t -> is_Some (h !! i).
Proof.
  induction t as [r cs IH] using tree_ind'. intros Ht Hin.
  inversion Ht as [? n ? Hi Hk Hcs]; subst. simpl in Hin. apply elem_of_cons in Hin as [->|Hin]; [eauto|].
  apply elem_of_list_In, in_flat_map in Hin as (t & Ht' & Hin). apply elem_of_list_In in Ht', Hin.
  rewrite list.Forall_forall in *. eauto.
Qed.
Lemma tree_at_some h p t i : tree_at h p t -> i ∈ doc_order t -> is_Some (h !! i).
Proof. intros Ht. apply kid_tree_some, (tree_at_kid _ p), Ht. Qed.

Lemma collect_stable cond : forall s i rem (acc : list id) s' acc' n,
  True -> st_heap s !! i = Some n ->
  visit cond (fun acc i => ret (i :: acc)) acc i s = (s', Ok acc') ->
  True /\ forall j, j ∈ i :: rem -> kids_same (st_heap s) (st_heap s') j.
Proof.
  intros s i rem acc s' acc' n _ Hi H. unfold visit in H. msteps.
  destruct (cond _); msteps; (split; [exact I|]); intros j _ m Hm; eauto.
Qed.
Lemma traverse_eq fuel cond p t s :
  tree_at (st_heap s) p t -> length (doc_order t) <= fuel ->
  traverse fuel cond (root t) s = (s, Ok (List.filter (holds cond (st_heap s)) (doc_order t))).
Proof.
  intros Ht Hlen. unfold traverse, bind.
  rewrite (trav_eq (fun _ _ => True) cond _ (collect_stable cond)); auto; [|eapply tree_at_kid; eassumption].
  rewrite visit_collect.
  - rewrite app_nil_r. unfold ret. rewrite rev_involutive. reflexivity.
  - apply list.Forall_forall. intros i Hi. eapply tree_at_some; eassumption.
Qed.
Lemma traverse_ok fuel cond p t s s' r :
  tree_at (st_heap s) p t -> traverse fuel cond (root t) s = (s', Ok r) ->
  s' = s /\ r = List.filter (holds cond (st_heap s)) (doc_order t).
Proof.
  intros Ht H. unfold traverse in H. apply bind_ok in H as (s1 & l & H & H').
  apply (trav_ok (fun _ _ => True) cond _ (collect_stable cond)) in H; auto; [|eapply tree_at_kid; eassumption].
  rewrite visit_collect in H.
  - injection H as <- <-. injection H' as <- <-. rewrite app_nil_r, rev_involutive. auto.
  - apply list.Forall_forall. intros i Hi. eapply tree_at_some; eassumption.
Qed.
