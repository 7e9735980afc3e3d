(** The nodes made by [_make_title_node]. *)
From Verif Require Export TrNeatHr.
From Verif Require Import NodeOps Monad.

(** A node of [s'] satisfies [P] or comes from [s]. *)
Definition nn (P : cls -> gmap attr val -> Prop) (s s' : st) : Prop :=
  forall x n', st_heap s' !! x = Some n' ->
    P (n_cls n') (n_attrs n') \/ exists n, st_heap s !! x = Some n /\ n_cls n' = n_cls n /\ n_attrs n' = n_attrs n.
Section NN.
Context (P : cls -> gmap attr val -> Prop).
Lemma nn_refl s : nn P s s.
Proof. intros x n H. right. eauto. Qed.
Lemma nn_trans s1 s2 s3 : nn P s1 s2 -> nn P s2 s3 -> nn P s1 s3.
Proof.
  intros H1 H2 x n Hx. destruct (H2 _ _ Hx) as [H|(n2 & Hn2 & E1 & E2)]; [left; assumption|].
  rewrite E1, E2. destruct (H1 _ _ Hn2) as [H|(n1 & Hn1 & D1 & D2)]; [left; assumption|]. right. exists n1. repeat split; congruence.
Qed.
Lemma nn_new c kw : P c (mk_attrs c kw) -> changes (nn P) (new_node c kw).
Proof.
  intros H s x n Hx. unfold new_node, alloc in Hx. cbn in Hx. destruct (decide (st_next s = x)) as [<-|Hne].
  - rewrite lookup_insert in Hx. injection Hx as <-. left. exact H.
  - rewrite lookup_insert_ne in Hx by assumption. right. eauto.
Qed.
Lemma nn_mod i f : (forall n, n_cls (f n) = n_cls n /\ n_attrs (f n) = n_attrs n) -> changes (nn P) (mod_node i f).
Proof.
  intros Hf s. unfold mod_node, bind, get_node. destruct (st_heap s !! i) as [n|] eqn:Hi; [|apply nn_refl].
  intros x m Hx. change (st_heap (upd s i (f n)) !! x = Some m) in Hx. rewrite upd_lookup in Hx.
  destruct (decide (i = x)) as [<-|Hne]; [|right; eauto]. injection Hx as <-. right. exists n. split; [assumption|]. apply Hf.
Qed.
Ltac nn_step :=
  match goal with
  | |- changes _ (bind _ _) => apply ch_bind; [apply nn_trans| |intros ?]
  | |- changes _ (ret _) => apply ch_ret, nn_refl
  | |- changes _ (raise _) => apply ch_raise, nn_refl
  | |- changes _ (get_node _) => apply ch_get_node, nn_refl
  | |- changes _ (cls_of _) => apply ch_cls_of; [apply nn_refl|apply nn_trans]
  | |- changes _ (parent_of _) => apply ch_parent_of; [apply nn_refl|apply nn_trans]
  | |- changes _ (iterM _ _) => apply ch_iterM; [apply nn_refl|apply nn_trans|intros ?]
  | |- changes _ (set_raw_children _ _) => apply nn_mod; intros ?; split; reflexivity
  | |- changes _ (match ?x with _ => _ end) => destruct x
  | |- changes _ (if ?x then _ else _) => destruct x
  end.
Lemma nn_set_parent i p : changes (nn P) (set_parent i p).
Proof.
  unfold set_parent. destruct p as [q|].
  - nn_step; [nn_step|]. destruct (possible_parents a).
    + apply nn_mod. intros ?; split; reflexivity.
    + nn_step; [nn_step|]. nn_step; [|nn_step]. apply nn_mod. intros ?; split; reflexivity.
  - apply nn_mod. intros ?; split; reflexivity.
Qed.
Lemma nn_raw_children i : changes (nn P) (raw_children i).
Proof. unfold raw_children. repeat nn_step. Qed.
Lemma nn_append p cs : changes (nn P) (append p cs).
Proof. unfold append. nn_step. unfold append1. repeat first [nn_step|apply nn_set_parent|apply nn_raw_children]. Qed.
Lemma nn_title label desc :
  P CParagraph (mk_attrs CParagraph [(a_types, VStrs [lit "hr-label"])]) ->
  (forall cl, P CSpan (mk_attrs CSpan [(a_types, VStrs [cl])])) ->
  (forall s, P CText (mk_attrs CText [(a_text, VStr s)])) -> changes (nn P) (make_title_node label desc).
Proof.
  intros H1 H2 H3. unfold make_title_node. destruct label, desc; repeat first [nn_step|apply nn_append|apply nn_new; auto].
Qed.
End NN.

Definition title_node (c : cls) (m : gmap attr val) : Prop :=
  (c = CParagraph \/ c = CSpan \/ c = CText) /\ m !! a_must_close_p_tag = None /\ m !! a_followed_by_dot = None /\
  m !! a_label = Some (VStr []).
Lemma title_new s label desc s' j x n :
  make_title_node label desc s = (s', Ok j) -> st_heap s' !! x = Some n -> st_heap s !! x = None -> title_node (n_cls n) (n_attrs n).
Proof.
  intros H Hx Hn. assert (G : changes (nn title_node) (make_title_node label desc)).
  { apply nn_title; intros; (split; [auto|]); vm_compute; auto. }
  specialize (G s). rewrite H in G. destruct (G _ _ Hx) as [?|(n0 & Hn0 & _)]; [assumption|congruence].
Qed.
Lemma tree_all_new h h' j p t : consistent h -> consistent h' ->
  (forall x n, h !! x = Some n -> h' !! x = Some n) ->
  tree_at h' p t -> root t = j -> h !! j = None -> forall x, x ∈ doc_order t -> h !! x = None.
Proof.
  intros Hc Hc' Hex Ht. revert j. induction Ht as [p i n cs Hi Hp Hk Hcs IH] using tree_at_ind'.
  intros j <- Hj x Hx. cbn [root] in Hj. rewrite doc_order_T in Hx. apply elem_of_cons in Hx as [->|Hx]; [assumption|].
  apply elem_doc_orders in Hx as (t & Hin & Hx). rewrite list.Forall_forall in IH. eapply (IH t Hin); [reflexivity| |exact Hx].
  rewrite list.Forall_forall in Hcs. pose proof (Hcs t Hin) as Ht. destruct t as [k ks]. apply tree_at_inv in Ht as (m & Hm & Hpm & _).
  cbn [root]. destruct (h !! k) as [m'|] eqn:E; [|reflexivity]. pose proof (Hex _ _ E) as E'. assert (m' = m) as -> by congruence.
  assert (Hpar : parent_is h k i) by (exists m; auto). apply (cons_parent _ Hc) in Hpar as (ni & Hni & _). congruence.
Qed.
Lemma title_spec s label desc s' j : good s -> make_title_node label desc s = (s', Ok j) ->
  exists t, root t = j /\ document (st_heap s') t /\
    forall x, x ∈ doc_order t -> st_heap s !! x = None /\ exists n, st_heap s' !! x = Some n /\ title_node (n_cls n) (n_attrs n).
Proof.
  intros [Hf Hc] H. pose proof H as H'. rewrite make_title_build in H'.
  apply build_ok in H' as (Hf' & Hc' & -> & [_ G] & n & Hn & Hp); [|assumption..].
  destruct (document_exists _ _ _ Hc' Hn Hp) as (t & Hr & Hd). exists t. split; [assumption|]. split; [assumption|].
  intros x Hx. assert (Hxn : st_heap s !! x = None).
  { eapply (tree_all_new (st_heap s) (st_heap s')); [assumption|assumption| |apply Hd|exact Hr| |exact Hx].
    - intros y m Hy. rewrite G by (eapply Hf; eassumption). assumption.
    - destruct (st_heap s !! st_next s) eqn:E; [|reflexivity]. apply Hf in E. lia. }
  split; [assumption|]. destruct (tree_at_in _ _ _ x (proj1 Hd) Hx) as [m Hm]. exists m. split; [assumption|]. eapply title_new; eassumption.
Qed.
