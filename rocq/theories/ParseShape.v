(** What the parser gives to every manuscript, so that only the author's mistakes are left. *)
From Verif Require Export SpecSource ParseTyped.
From Verif Require Import RenderProps TreeFacts Consistency NodeProofs NodeOps Monad.
Local Open Scope string_scope.
Local Open Scope list_scope.

(** Nodes are only where their class may be. *)
Definition placed_inv (s : st) : Prop :=
  fresh_ok s /\ forall x n p, st_heap s !! x = Some n -> n_parent n = Some p ->
    possible_parents (n_cls n) = [] \/ exists m, st_heap s !! p = Some m /\ In (n_cls m) (possible_parents (n_cls n)).
Lemma placed_permitted s : placed_inv s -> parents_permitted (st_heap s).
Proof. intros [_ H] x n p m Hx Hp Hm. destruct (H _ _ _ Hx Hp) as [E|(m' & Hm' & Hi)]; [left; exact E|right]. assert (m' = m) as <- by congruence. exact Hi. Qed.
Lemma placed_upd s i n n' : placed_inv s -> st_heap s !! i = Some n -> n_cls n' = n_cls n ->
  (forall p, n_parent n' = Some p -> n_parent n = Some p \/ possible_parents (n_cls n) = [] \/ exists m, st_heap s !! p = Some m /\ In (n_cls m) (possible_parents (n_cls n))) ->
  placed_inv (upd s i n').
Proof.
  intros [Hf H] Hi Hc Hp. split.
  { intros j m Hj. rewrite upd_lookup in Hj. destruct (decide (i = j)) as [<-|]; eapply Hf; eassumption. }
  assert (G : forall p m, st_heap s !! p = Some m -> exists m', st_heap (upd s i n') !! p = Some m' /\ n_cls m' = n_cls m).
  { intros p m Hm. rewrite upd_lookup. destruct (decide (i = p)) as [<-|]; [|eauto]. exists n'. split; [reflexivity|]. congruence. }
  assert (K : forall c p, (possible_parents c = [] \/ exists m, st_heap s !! p = Some m /\ In (n_cls m) (possible_parents c)) ->
    possible_parents c = [] \/ exists m, st_heap (upd s i n') !! p = Some m /\ In (n_cls m) (possible_parents c)).
  { intros c p [E|(m & Hm & Hi')]; [left; exact E|right]. destruct (G _ _ Hm) as (m' & Hm' & Ec). exists m'. split; [exact Hm'|]. rewrite Ec. exact Hi'. }
  intros x m p Hx Hpx. rewrite upd_lookup in Hx. destruct (decide (i = x)) as [<-|].
  - injection Hx as <-. rewrite Hc. apply K. destruct (Hp _ Hpx) as [E|E]; [|exact E]. exact (H _ _ _ Hi E).
  - apply K. exact (H _ _ _ Hx Hpx).
Qed.
Lemma placed_mod i f : (forall n, n_cls (f n) = n_cls n /\ (n_parent (f n) = n_parent n \/ n_parent (f n) = None)) -> keeps placed_inv (mod_node i f).
Proof.
  intros Hf s Hs. unfold mod_node, bind, get_node. destruct (st_heap s !! i) as [n|] eqn:E; [|exact Hs]. cbn [fst put_node]. change (placed_inv (upd s i (f n))).
  destruct (Hf n) as [H1 H2]. eapply placed_upd; [exact Hs|exact E|exact H1|]. intros p Hp. left. destruct H2 as [H2|H2]; congruence.
Qed.
Lemma placed_set_parent i p : keeps placed_inv (set_parent i p).
Proof.
  unfold set_parent. destruct p as [p|]; [|apply placed_mod; cbn; auto].
  intros s Hs. unfold cls_of, bind, get_node, ret. destruct (st_heap s !! i) as [n|] eqn:E; [|exact Hs].
  destruct (possible_parents (n_cls n)) as [|c cs] eqn:Ec.
  - unfold mod_node, bind, get_node. rewrite E. cbn [fst put_node]. eapply (placed_upd _ _ _ (set_n_parent (Some p) n)); [exact Hs|exact E|reflexivity|]. intros q _. auto.
  - destruct (st_heap s !! p) as [m|] eqn:Ep; [|exact Hs]. destruct (cls_mem (n_cls m) (c :: cs)) eqn:Em; [|exact Hs].
    unfold mod_node, bind, get_node. rewrite E. cbn [fst put_node]. eapply (placed_upd _ _ _ (set_n_parent (Some p) n)); [exact Hs|exact E|reflexivity|].
    cbn. intros q [= <-]. right. right. exists m. split; [exact Ep|]. rewrite Ec. apply cls_mem_spec, Em.
Qed.
Lemma placed_new c kw : keeps placed_inv (new_node c kw).
Proof.
  intros s [Hf H]. unfold new_node, alloc. cbn [fst]. change (placed_inv (new s (mk_node c kw))). split.
  - intros j m Hj. rewrite new_lookup in Hj. cbn [st_next new]. destruct (decide _); [lia|]. specialize (Hf _ _ Hj). lia.
  - intros x n p Hx Hp. rewrite new_lookup in Hx. destruct (decide _); [injection Hx as <-; discriminate Hp|].
    destruct (H _ _ _ Hx Hp) as [E|(m & Hm & Hi)]; [left; exact E|right; exists m; split; [|exact Hi]]. rewrite new_lookup. destruct (decide _) as [<-|]; [|exact Hm].
    specialize (Hf _ _ Hm). lia.
Qed.
Lemma parse_placed fuel c : keeps placed_inv (parse fuel c).
Proof.
  apply p_parse with (errors := True) (okv := fun _ _ => True) (key_ok := fun _ => True); auto.
  - intros r s Hs. exact Hs.
  - intros. apply List.Forall_forall. auto.
  - intros i a v _. apply placed_mod. cbn. auto.
  - apply placed_set_parent.
  - intros i cs. apply placed_mod. cbn. auto.
  - intros. apply placed_new.
  - intros. apply placed_new.
  - split; auto.
Qed.
(** The parser makes no references: they are pending. *)
Definition pending_inv (s : st) : Prop := forall i n, st_heap s !! i = Some n -> n_cls n <> CReference /\ n_cls n <> CBaseReference.
Lemma pending_mod i f : (forall n, n_cls (f n) = n_cls n) -> keeps pending_inv (mod_node i f).
Proof.
  intros Hf s Hs. unfold mod_node, bind, get_node. destruct (st_heap s !! i) as [n|] eqn:E; [|exact Hs]. cbn [fst put_node].
  intros j m Hj. change (st_heap (upd s i (f n)) !! j = Some m) in Hj. rewrite upd_lookup in Hj. destruct (decide (i = j)); [|eapply Hs, Hj].
  injection Hj as <-. rewrite Hf. eapply Hs, E.
Qed.
Lemma pending_new c kw : c <> CReference -> c <> CBaseReference -> keeps pending_inv (new_node c kw).
Proof.
  intros H1 H2 s Hs j m Hj. unfold new_node, alloc in Hj. cbn [fst] in Hj. change (st_heap (new s (mk_node c kw)) !! j = Some m) in Hj.
  rewrite new_lookup in Hj. destruct (decide _); [|eapply Hs, Hj]. injection Hj as <-. split; assumption.
Qed.
Lemma parse_pending fuel c : keeps pending_inv (parse fuel c).
Proof.
  apply p_parse with (errors := True) (okv := fun _ _ => True) (key_ok := fun _ => True); auto.
  - intros r s Hs. exact Hs.
  - intros. apply List.Forall_forall. auto.
  - intros i a v _. apply pending_mod. reflexivity.
  - intros i p. unfold set_parent. destruct p as [p|]; [|apply pending_mod; reflexivity].
    assert (Hc : forall j, keeps pending_inv (cls_of j)) by (intros j; unfold cls_of; apply keeps_bind; [apply keeps_get_node|intros; apply keeps_ret]).
    apply keeps_bind; [apply Hc|intros k]. destruct (possible_parents k); [apply pending_mod; reflexivity|].
    apply keeps_bind; [apply Hc|intros d]. destruct (cls_mem _ _); [apply pending_mod; reflexivity|apply keeps_raise].
  - intros i cs. apply pending_mod. reflexivity.
  - intros k kw Hk _. apply pending_new; intros ->; discriminate Hk.
  - intros. apply pending_new; discriminate.
  - split; auto.
Qed.

Lemma holds_class h p t a : SpecParse.holds h p t a -> class_of h (root t) (a_class a).
Proof. intros H. destruct H as [p i n us ts Hn _ _ _]. exists n. split; [exact Hn|reflexivity]. Qed.
Lemma parsed_presentable fuel c s t : clean_source c -> parse fuel c empty_st = (s, Ok (root t)) -> tree_at (st_heap s) None t ->
  (well_written s t -> presentable s t) /\ (well_written_handrails s t -> presentable_handrails s t).
Proof.
  intros C H Ht. assert (K : forall i n, st_heap empty_st !! i = Some n -> False) by (intros i n; cbn; rewrite lookup_empty; discriminate).
  destruct (parse_from _ _ _ _ _ (cl_source _ C) (cl_errors _ C) (cl_keys _ C) empty_sane H) as (t' & Hr & R & (Hg & Hb & Hty & Hco) & Hh & _ & _).
  assert (t' = t) as ->. { apply (tree_at_unique (st_heap s) None); [exact (proj1 (ms_document _ _ (proj1 R)))|exact Ht|exact Hr]. }
  assert (Hp : placed_inv s).
  { assert (H0 : placed_inv empty_st) by (split; [intros i n Hi|intros i n p Hi]; destruct (K _ _ Hi)). pose proof (parse_placed fuel c empty_st H0) as G. rewrite H in G. exact G. }
  assert (Hq : pending_inv s).
  { assert (H0 : pending_inv empty_st) by (intros i n Hi; destruct (K _ _ Hi)). pose proof (parse_pending fuel c empty_st H0) as G. rewrite H in G. exact G. }
  assert (Hm : class_of (st_heap s) (root t) CManuscript).
  { rewrite <- (manuscript_class c). eapply holds_class, Hh. }
  assert (W : well_written s t -> presentable s t).
  { intros W. split; try apply W.
    - split; try apply W; try assumption. apply placed_permitted, Hp.
    - intros x _ (n & Hn & E). destruct (Hq _ _ Hn) as [G _]. congruence.
    - intros x _ (n & Hn & E). destruct (Hq _ _ Hn) as [_ G]. congruence. }
  split; [exact W|]. intros [W1 W2 W3]. split; auto.
Qed.
