(** Taking nodes out of a tree. *)
From Verif Require Export SpecResult TocLoop.
From Verif Require Import Labels HandrailDepth Autonumber FullNumber Queries Built Meta Subproofs ResolveAll ResolvePrev Resolve NodeOps Monad.

Lemma filter_flat {A B} (g : B -> bool) (f : A -> list B) l : List.filter g (flat_map f l) = flat_map (fun x => List.filter g (f x)) l.
Proof. induction l as [|a l IH]; [reflexivity|]. cbn [flat_map]. rewrite List.filter_app, IH. reflexivity. Qed.
Lemma flat_map_ext_in {A B} (f g : A -> list B) l : (forall x, x ∈ l -> f x = g x) -> flat_map f l = flat_map g l.
Proof.
  intros H. induction l as [|a l IH]; [reflexivity|]. cbn [flat_map]. rewrite (H a) by constructor. f_equal. apply IH.
  intros x Hx. apply H. constructor. assumption.
Qed.
Lemma flat_map_flat {A B C} (f : B -> list C) (g : A -> list B) l : flat_map f (flat_map g l) = flat_map (fun x => flat_map f (g x)) l.
Proof. induction l as [|a l IH]; [reflexivity|]. cbn [flat_map]. rewrite flat_map_app, IH. reflexivity. Qed.
Lemma flat_map_single {A B} (f : A -> B) l : flat_map (fun x => [f x]) l = map f l.
Proof. induction l as [|a l IH]; [reflexivity|]. cbn [flat_map map app]. congruence. Qed.
Lemma doc_orders_flat ts : doc_orders ts = flat_map doc_order ts.
Proof. induction ts as [|t ts IH]; [reflexivity|]. rewrite doc_orders_cons. cbn [flat_map]. congruence. Qed.
Lemma filter_ext_elem {A} (f g : A -> bool) l : (forall x, x ∈ l -> f x = g x) -> List.filter f l = List.filter g l.
Proof.
  intros H. induction l as [|a l IH]; [reflexivity|]. cbn [List.filter]. rewrite (H a) by constructor.
  rewrite IH; [reflexivity|]. intros x Hx. apply H. constructor. assumption.
Qed.
Lemma filter_map_comm {A B} (g : B -> bool) (f : A -> B) l : List.filter g (map f l) = map f (List.filter (fun x => g (f x)) l).
Proof. induction l as [|a l IH]; [reflexivity|]. cbn [map List.filter]. destruct (g (f a)); cbn [map]; rewrite IH; reflexivity. Qed.
Lemma filter_false {A} (g : A -> bool) l : (forall x, x ∈ l -> g x = false) -> List.filter g l = [].
Proof. apply filter_none. Qed.
Lemma in_flat {A B} (f : A -> list B) l y : y ∈ flat_map f l <-> exists x, x ∈ l /\ y ∈ f x.
Proof.
  rewrite elem_of_list_In, in_flat_map. split; intros (x & H1 & H2); exists x; rewrite ?elem_of_list_In in *; auto.
Qed.

(** The document order of what is left. *)
Lemma forget_order keep t : doc_orders (forget keep t) = List.filter keep (doc_order t).
Proof.
  induction t as [i cs IH] using tree_ind'. rewrite doc_order_T. cbn [forget List.filter].
  assert (E : doc_orders (flat_map (forget keep) cs) = List.filter keep (doc_orders cs)).
  { unfold doc_orders. rewrite flat_map_flat, filter_flat. apply flat_map_ext_in. rewrite list.Forall_forall in IH. assumption. }
  destruct (keep i); [|exact E]. rewrite doc_orders_cons. change (doc_orders []) with (@nil id). rewrite app_nil_r, doc_order_T, E. reflexivity.
Qed.
Lemma forget_ext k1 k2 t : (forall x, x ∈ doc_order t -> k1 x = k2 x) -> forget k1 t = forget k2 t.
Proof.
  induction t as [i cs IH] using tree_ind'. rewrite list.Forall_forall in IH. intros H. rewrite doc_order_T in H. cbn [forget].
  assert (E : flat_map (forget k1) cs = flat_map (forget k2) cs).
  { apply flat_map_ext_in. intros c Hc. apply IH; [assumption|]. intros x Hx. apply H. constructor. apply elem_doc_orders. eauto. }
  rewrite (H i), E by constructor. reflexivity.
Qed.
Lemma forget_none keep t : (forall x, x ∈ doc_order t -> keep x = false) -> forget keep t = [].
Proof.
  induction t as [i cs IH] using tree_ind'. rewrite list.Forall_forall in IH. intros H. rewrite doc_order_T in H. cbn [forget].
  rewrite (H i) by constructor.
  assert (E : flat_map (forget keep) cs = flat_map (fun _ => []) cs).
  { apply flat_map_ext_in. intros c Hc. apply IH; [assumption|]. intros x Hx. apply H. constructor. apply elem_doc_orders. eauto. }
  rewrite E. clear. induction cs; auto.
Qed.
Lemma forget_all keep t : (forall x, x ∈ doc_order t -> keep x = true) -> forget keep t = [t].
Proof.
  induction t as [i cs IH] using tree_ind'. rewrite list.Forall_forall in IH. intros H. rewrite doc_order_T in H. cbn [forget].
  rewrite (H i) by constructor. do 2 f_equal.
  rewrite (flat_map_ext_in _ (fun c => [c])); [|intros c Hc; apply IH; [assumption|]; intros x Hx; apply H; constructor; apply elem_doc_orders; eauto].
  rewrite flat_map_single. apply map_id.
Qed.

(** Wrappers. *)
Lemma restructured_forget h h' t t' keep :
  restructured h h' t t' -> (forall x, x ∈ doc_order t -> keep x = true) -> (forall w, h !! w = None -> keep w = false) ->
  forget keep t' = [t].
Proof.
  intros H Hk Hw. revert Hk.
  assert (Hs : forall ts ts', Forall2 (restructured h h') ts ts' ->
     Forall2 (fun t t' => (forall x, x ∈ doc_order t -> keep x = true) -> forget keep t' = [t]) ts ts' ->
     (forall x, x ∈ doc_orders ts -> keep x = true) -> flat_map (forget keep) ts' = ts).
  { intros ts ts' _ F. induction F as [|t1 t1' ts ts' H1 F IH]; intros Hk; [reflexivity|].
    cbn [flat_map]. rewrite doc_orders_cons in Hk. rewrite H1, IH; [reflexivity|..]; intros x Hx; apply Hk, elem_of_app; auto. }
  induction H as [i ts ts' Hc F IH|i Hc|i ts w ts' Hc Hne Hns Hwn Hwc F IH|i pre c post w v pre' post' Hc Hns Hcs Hwn Hwc Hvn Hvc F1 IH1 F2 IH2
    |i pre c w pre' c' Hc Hns Hcs Hwn Hwc F IH Hr IHr] using restructured_ind'; intros Hk; rewrite doc_order_T in Hk; cbn [forget];
    rewrite (Hk i) by constructor;
    assert (Hk' : forall x, x ∈ doc_orders _ -> keep x = true) by (intros x Hx; apply Hk; constructor; exact Hx); clear Hk.
  - rewrite Hs with (ts := ts); auto.
  - reflexivity.
  - cbn [flat_map forget]. rewrite (Hw w Hwn), app_nil_r, Hs with (ts := ts); auto.
  - cbn [flat_map forget]. rewrite (Hw w Hwn), (Hw v Hvn), app_nil_r. rewrite doc_orders_app in Hk'.
    rewrite Hs with (ts := pre) (ts' := pre'), Hs with (ts := c :: post) (ts' := post'); auto; intros x Hx; apply Hk', elem_of_app; auto.
  - cbn [flat_map forget]. rewrite (Hw w Hwn), app_nil_r. rewrite doc_orders_app in Hk'.
    rewrite Hs with (ts := pre) (ts' := pre'), IHr; auto; intros x Hx; apply Hk', elem_of_app; auto.
    right. rewrite doc_orders_cons. apply elem_of_app. auto.
Qed.

(** Cutting off subtrees. *)
Definition prunes (xs : list id) (cs : list tree) : list tree :=
  flat_map (fun c => if decide (root c ∈ xs) then [] else [prune xs c]) cs.
Lemma prune_T xs i cs : prune xs (T i cs) = T i (prunes xs cs).
Proof. reflexivity. Qed.
Lemma forget_prunes keep xs t : (forall x, x ∈ doc_order t -> x ∈ xs -> keep x = true) ->
  flat_map (forget keep) (prunes xs [t]) = prunes xs (forget keep t).
Proof.
  induction t as [i cs IH] using tree_ind'. rewrite list.Forall_forall in IH. intros H. rewrite doc_order_T in H.
  assert (E : flat_map (forget keep) (prunes xs cs) = prunes xs (flat_map (forget keep) cs)).
  { unfold prunes. rewrite !flat_map_flat. apply flat_map_ext_in. intros c Hc. specialize (IH c Hc).
    unfold prunes in IH. cbn [flat_map] in IH. rewrite app_nil_r in IH. apply IH.
    intros x Hx. apply H. constructor. apply elem_doc_orders. eauto. }
  unfold prunes at 1. cbn [flat_map root]. rewrite app_nil_r. destruct (decide (i ∈ xs)) as [Hi|Hi].
  - cbn [flat_map forget]. rewrite (H i) by (constructor || assumption). unfold prunes. cbn [flat_map root].
    rewrite decide_True by assumption. reflexivity.
  - cbn [flat_map]. rewrite app_nil_r, prune_T. cbn [forget]. destruct (keep i); [|exact E].
    rewrite E. unfold prunes at 2. cbn [flat_map root]. rewrite decide_False by assumption. reflexivity.
Qed.
Lemma forget_prune keep xs t : (forall x, x ∈ doc_order t -> x ∈ xs -> keep x = true) -> root t ∉ xs ->
  forget keep (prune xs t) = prunes xs (forget keep t).
Proof.
  intros H Hr. rewrite <- forget_prunes by assumption. unfold prunes. cbn [flat_map]. rewrite decide_False by assumption.
  cbn [flat_map app]. rewrite app_nil_r. reflexivity.
Qed.
(** Subtrees without kept nodes. *)
Lemma forget_added h p t keep xs : tree_at h p t ->
  (forall p c, tree_at h p c -> root c ∈ xs -> forall y, y ∈ doc_order c -> keep y = false) -> 
  forget keep (prune xs t) = forget keep t.
Proof.
  intros Ht Hxs. induction Ht as [p i n cs Hi Hp Hk Hcs IH] using tree_at_ind'. cbn [prune forget].
  assert (E : flat_map (forget keep) (flat_map (fun c => if decide (root c ∈ xs) then [] else [prune xs c]) cs) = flat_map (forget keep) cs).
  { rewrite flat_map_flat. apply flat_map_ext_in. rewrite list.Forall_forall in Hcs, IH. intros c Hc. destruct (decide (root c ∈ xs)) as [Hx|Hx].
    - cbn [flat_map]. symmetry. apply forget_none. eapply Hxs; [apply Hcs; assumption|assumption].
    - cbn [flat_map]. rewrite app_nil_r. apply IH. assumption. }
  rewrite E. reflexivity.
Qed.

(** Renaming. *)
Lemma tmap_order f t : doc_order (tmap f t) = map f (doc_order t).
Proof.
  induction t as [i cs IH] using tree_ind'. cbn [tmap]. rewrite !doc_order_T. cbn [map]. f_equal. unfold doc_orders.
  induction IH as [|c cs Hc _ IHcs]; [reflexivity|]. cbn [map flat_map]. rewrite map_app, Hc, IHcs. reflexivity.
Qed.
Lemma tmap_root f t : root (tmap f t) = f (root t).
Proof. destruct t; reflexivity. Qed.
Lemma prune_tmap f xs ys t : (forall x, x ∈ doc_order t -> f x ∈ ys <-> x ∈ xs) -> prune ys (tmap f t) = tmap f (prune xs t).
Proof.
  induction t as [i cs IH] using tree_ind'. rewrite list.Forall_forall in IH. intros H. rewrite doc_order_T in H. cbn [tmap prune tmap]. f_equal.
  assert (H' : forall c, c ∈ cs -> forall x, x ∈ doc_order c -> f x ∈ ys <-> x ∈ xs).
  { intros c Hc x Hx. apply H. constructor. apply elem_doc_orders. eauto. }
  clear H. induction cs as [|c cs IHcs]; [reflexivity|]. cbn [map flat_map]. rewrite tmap_root.
  assert (Hc : c ∈ c :: cs) by constructor.
  pose proof (H' c Hc (root c) (root_in_doc_order _)) as Hr.
  rewrite IHcs; [|intros c' Hc'; apply IH; constructor; assumption|intros c' Hc'; apply H'; constructor; assumption].
  rewrite map_app. f_equal. destruct (decide (root c ∈ xs)) as [Hx|Hx].
  - rewrite decide_True by tauto. reflexivity.
  - rewrite decide_False by tauto. cbn [map]. rewrite (IH c Hc (H' c Hc)). reflexivity.
Qed.
