(** Facts about trees and document order. *)
From Verif Require Export Frames SpecTransform.
From Verif Require Import NodeOps Monad.

Definition good (s : st) : Prop := fresh_ok s /\ consistent (st_heap s).

Lemma elem_doc_orders (x : id) ts : x ∈ doc_orders ts <-> exists t, t ∈ ts /\ x ∈ doc_order t.
Proof.
  unfold doc_orders. rewrite elem_of_list_In, in_flat_map. setoid_rewrite elem_of_list_In. reflexivity.
Qed.
Lemma root_in_doc_order t : root t ∈ doc_order t.
Proof. destruct t. simpl. constructor. Qed.
Lemma doc_order_T i cs : doc_order (T i cs) = i :: doc_orders cs.
Proof. reflexivity. Qed.

(** The parent of a node comes before it. *)
Lemma forest_parent_before h (i : id) cs :
  (forall c, c ∈ cs -> forall l1 x l2 q, doc_order c = l1 ++ x :: l2 -> parent_is h x q -> q = i \/ q ∈ l1) ->
  forall l1 x l2 q, doc_orders cs = l1 ++ x :: l2 -> parent_is h x q -> q = i \/ q ∈ l1.
Proof.
  induction cs as [|c cs IH]; intros Hc l1 x l2 q E Hq.
  - destruct l1; discriminate.
  - rewrite doc_orders_cons in E. apply app_eq_app in E as (l & [[E1 E2]|[E1 E2]]).
    + destruct l as [|y l].
      * rewrite app_nil_r in E1. subst l1. simpl in E2.
        destruct (IH (fun c' Hc' => Hc c' (elem_of_list_further _ _ _ Hc')) [] x l2 q) as [?|Hin]; auto.
        inversion Hin.
      * injection E2 as -> ->. destruct (Hc c ltac:(constructor) l1 y l q E1 Hq); auto.
    + destruct (IH (fun c' Hc' => Hc c' (elem_of_list_further _ _ _ Hc')) l x l2 q E2 Hq) as [?|Hin]; [auto|].
      right. rewrite E1. apply elem_of_app. auto.
Qed.
Lemma tree_parent_before h p t : tree_at h p t ->
  forall l1 x l2 q, doc_order t = l1 ++ x :: l2 -> parent_is h x q -> Some q = p \/ q ∈ l1.
Proof.
  induction 1 as [p i n cs Hi Hp Hk Hcs IH] using tree_at_ind'. intros l1 x l2 q E Hq.
  rewrite doc_order_T in E. destruct l1 as [|y l1]; injection E as -> E.
  - left. destruct Hq as (m & Hm & Em). congruence.
  - right. destruct (forest_parent_before h y cs) with (l1 := l1) (x := x) (l2 := l2) (q := q) as [->|?]; auto.
    + intros c Hc l1' x' l2' q' E' Hq'. rewrite list.Forall_forall in IH.
      destruct (IH c Hc l1' x' l2' q' E' Hq') as [[= ->]|?]; auto.
    + constructor.
    + constructor. assumption.
Qed.
Lemma document_parent_before h t l1 x l2 q :
  document h t -> doc_order t = l1 ++ x :: l2 -> parent_is h x q -> q ∈ l1 /\ q ∉ x :: l2.
Proof.
  intros [Ht Hnd] E Hq. destruct (tree_parent_before h None t Ht l1 x l2 q E Hq) as [?|Hin]; [discriminate|].
  split; [assumption|]. rewrite E in Hnd. apply NoDup_app in Hnd as (_ & Hd & _). apply Hd. assumption.
Qed.

Lemma tree_at_inv h p i cs :
  tree_at h p (T i cs) -> exists n, h !! i = Some n /\ n_parent n = p /\ kids n = map root cs /\
    Forall (tree_at h (Some i)) cs.
Proof. inversion 1; subst. eauto. Qed.
Lemma tree_at_in h p t x :
  tree_at h p t -> x ∈ doc_order t -> exists n, h !! x = Some n.
Proof. intros Ht Hx. destruct (tree_at_some _ _ _ _ Ht Hx). eauto. Qed.
(** Nodes other than the root have their parent in the tree. *)
Lemma tree_at_parent_in h p t x :
  tree_at h p t -> x ∈ doc_order t -> x = root t \/ exists q, parent_is h x q /\ q ∈ doc_order t.
Proof.
  induction 1 as [p i n cs Hi Hp Hk Hcs IH] using tree_at_ind'. rewrite doc_order_T. intros Hx.
  apply elem_of_cons in Hx as [->|Hx]; [auto|]. right.
  apply elem_doc_orders in Hx as (c & Hc & Hx). rewrite list.Forall_forall in IH, Hcs.
  destruct (IH c Hc Hx) as [->|(q & Hq & Hin)].
  - exists i. split; [|constructor]. specialize (Hcs c Hc). inversion Hcs; subst. exists n0. auto.
  - exists q. split; [assumption|]. constructor. apply elem_doc_orders. eauto.
Qed.

(** ** Renaming *)

Lemma tmap_root f t : root (tmap f t) = f (root t).
Proof. destruct t. reflexivity. Qed.
Lemma tmap_doc_order f t : doc_order (tmap f t) = map f (doc_order t).
Proof.
  induction t as [i cs IH] using tree_ind'. simpl. f_equal.
  induction cs as [|c cs IHc]; [reflexivity|]. simpl. apply list.Forall_cons in IH as [H1 H2].
  rewrite map_app, H1, IHc; auto.
Qed.
Lemma tmap_ext f g t : (forall x, x ∈ doc_order t -> f x = g x) -> tmap f t = tmap g t.
Proof.
  induction t as [i cs IH] using tree_ind'. simpl. intros He. f_equal; [apply He; constructor|].
  apply map_ext_in. intros c Hc. apply elem_of_list_In in Hc. rewrite list.Forall_forall in IH.
  apply IH; [assumption|]. intros x Hx. apply He. constructor. apply elem_doc_orders. eauto.
Qed.
Lemma tmap_id f t : (forall x, x ∈ doc_order t -> f x = x) -> tmap f t = t.
Proof.
  induction t as [i cs IH] using tree_ind'. simpl. intros He. f_equal; [apply He; constructor|].
  rewrite <- (map_id cs) at 2. apply map_ext_in. intros c Hc. apply elem_of_list_In in Hc. rewrite list.Forall_forall in IH.
  apply IH; [assumption|]. intros x Hx. apply He. constructor. apply elem_doc_orders. eauto.
Qed.
Lemma tree_at_tmap h h' f p t :
  tree_at h p t ->
  (forall x n, x ∈ doc_order t -> h !! x = Some n ->
     exists n', h' !! f x = Some n' /\ n_parent n' = option_map f (n_parent n) /\ kids n' = map f (kids n)) ->
  tree_at h' (option_map f p) (tmap f t).
Proof.
  induction 1 as [p i n cs Hi Hp Hk Hcs IH] using tree_at_ind'. intros Hf.
  destruct (Hf i n) as (n' & Hi' & Hp' & Hk'); [constructor|assumption|].
  simpl. econstructor; [exact Hi'|congruence| |].
  - rewrite Hk', Hk, !map_map. apply map_ext. intros c. rewrite tmap_root. reflexivity.
  - rewrite list.Forall_forall in *. intros c Hc. apply elem_of_list_fmap in Hc as (c0 & -> & Hc0).
    apply (IH c0 Hc0). intros x m Hx. apply Hf. constructor. apply elem_doc_orders. eauto.
Qed.
