(** Only the first table of contents is kept. *)
From Verif Require Export FullNumber.
From Verif Require Import Queries Built Meta Subproofs ResolveAll NodeOps Monad.

Definition keep_out (xs l : list id) : list id := base.filter (fun c => c ∉ xs) l.
Definition contents_in (h : gmap id node) (l : list id) : list id := List.filter (is_contents h) l.

(** [s] is [s0] with the nodes [xs] cut off. *)
Record pruned (s0 s : st) (xs : list id) : Prop := {
  pr_good : good s;
  pr_next : st_next s = st_next s0;
  pr_logs : logs_grow s0 s;
  pr_none : forall j, st_heap s0 !! j = None -> st_heap s !! j = None;
  pr_old : forall j n, st_heap s0 !! j = Some n -> exists n', st_heap s !! j = Some n' /\
    n_cls n' = n_cls n /\ n_attrs n' = n_attrs n /\
    n_parent n' = (if decide (j ∈ xs) then None else n_parent n) /\ kids n' = keep_out xs (kids n);
}.
Lemma keep_out_nil l : keep_out [] l = l.
Proof.
  unfold keep_out. induction l as [|x l IH]; [reflexivity|]. rewrite filter_cons_True by (intros H; inversion H). congruence.
Qed.
Lemma pruned_refl s : good s -> pruned s s [].
Proof.
  intros Hg. constructor; auto.
  - apply logs_grow_same. reflexivity.
  - intros j n Hj. exists n. rewrite keep_out_nil. split; [assumption|]. do 2 (split; [reflexivity|]).
    destruct (decide (j ∈ [])) as [H|H]; [inversion H|auto].
Qed.
Lemma keep_out_split (xs l1 l2 : list id) i : i ∉ xs -> i ∉ l1 -> i ∉ l2 ->
  forall l, keep_out xs l = l1 ++ i :: l2 -> keep_out (xs ++ [i]) l = l1 ++ l2.
Proof.
  intros Hx H1 H2 l E. unfold keep_out in *.
  assert (E2 : base.filter (fun c => c ∉ xs ++ [i]) l = base.filter (fun c => c <> i) (base.filter (fun c => c ∉ xs) l)).
  { rewrite list_filter_filter. apply list_filter_iff. intros x. rewrite elem_of_app, elem_of_list_singleton. tauto. }
  rewrite E2, E, list.filter_app, filter_cons_False by (intros Hn; apply Hn; reflexivity).
  assert (F : forall l : list id, i ∉ l -> base.filter (fun c => c <> i) l = l).
  { clear. induction l as [|x l IH]; intros H; [reflexivity|]. apply not_elem_of_cons in H as [H1 H2].
    rewrite filter_cons_True by auto. rewrite IH by assumption. reflexivity. }
  rewrite !F by assumption. reflexivity.
Qed.
Lemma keep_out_same (xs : list id) i l : i ∉ keep_out xs l -> keep_out (xs ++ [i]) l = keep_out xs l.
Proof.
  intros H. unfold keep_out in *. induction l as [|x l IH]; [reflexivity|].
  destruct (decide (x ∈ xs)) as [Hx|Hx].
  - assert (E1 : base.filter (fun c => c ∉ xs) (x :: l) = base.filter (fun c => c ∉ xs) l).
    { apply filter_cons_False. intros Hn. apply Hn. assumption. }
    assert (E2 : base.filter (fun c => c ∉ xs ++ [i]) (x :: l) = base.filter (fun c => c ∉ xs ++ [i]) l).
    { apply filter_cons_False. intros Hn. apply Hn. apply elem_of_app. auto. }
    rewrite E1 in *. rewrite E2. auto.
  - assert (E1 : base.filter (fun c => c ∉ xs) (x :: l) = x :: base.filter (fun c => c ∉ xs) l).
    { apply filter_cons_True. assumption. }
    rewrite E1 in *. apply not_elem_of_cons in H as [H1 H2].
    assert (E2 : base.filter (fun c => c ∉ xs ++ [i]) (x :: l) = x :: base.filter (fun c => c ∉ xs ++ [i]) l).
    { apply filter_cons_True. rewrite elem_of_app, elem_of_list_singleton. intros [?|?]; [contradiction|congruence]. }
    rewrite E2, IH by assumption. reflexivity.
Qed.

Lemma pick_visit s0 s s' xs acc acc' i :
  pruned s0 s xs -> i ∉ xs -> is_Some (st_heap s0 !! i) ->
  visit (cond_class CContents) toc_pick acc i s = (s', Ok acc') ->
  (is_contents (st_heap s0) i = false /\ s' = s /\ acc' = acc) \/
  (is_contents (st_heap s0) i = true /\ acc = None /\ s' = s /\ acc' = Some i) \/
  (is_contents (st_heap s0) i = true /\ acc <> None /\ acc' = acc /\ pruned s0 s' (xs ++ [i])).
Proof.
  intros P Hi [n0 Hn0] H. unfold visit in H. apply bind_ok in H as (s1 & n & Hn & H). apply get_node_ok in Hn as [-> Hn].
  destruct (pr_old _ _ _ P _ _ Hn0) as (m & Hm & Ec & Ea & Ep & Ek). assert (m = n) as -> by congruence. clear Hm.
  unfold is_contents. rewrite Hn0. unfold cond_class in H. rewrite Ec in H.
  destruct (subclass (n_cls n0) CContents).
  2:{ apply ret_ok in H as [-> ->]. left. auto. }
  unfold toc_pick in H. destruct acc as [c|].
  2:{ apply ret_ok in H as [-> ->]. right. left. auto. }
  right. right. apply bind_ok in H as (s1 & u & Hw & H). apply warn_log_only in Hw as (Eh & En & El).
  apply bind_ok in H as (s2 & u2 & Hr & H). apply ret_ok in H as [-> ->].
  split; [reflexivity|]. split; [discriminate|]. split; [reflexivity|].
  assert (Hg1 : good s1).
  { destruct (pr_good _ _ _ P) as [Hf Hc]. split; [|rewrite Eh; assumption]. intros j m Hj. rewrite Eh in Hj. rewrite En. eapply Hf; eassumption. }
  pose proof (remove_self_consistent _ _ _ _ (proj2 Hg1) Hr) as Hc2.
  apply remove_self_ok in Hr as (Hrest & nc & Hnc & Hr). rewrite Eh in Hnc. assert (nc = n) as -> by congruence.
  destruct Hrest as [Rn Rl].
  assert (Hnp : n_parent n = n_parent n0) by (rewrite Ep, decide_False by assumption; reflexivity).
  destruct (n_parent n) as [p|] eqn:Epar.
  - destruct Hr as (np & l1 & l2 & Hp & Hhc & El' & Hni & He).
    constructor.
    + split; [|assumption]. intros j m Hj. rewrite He in Hj. destruct (st_heap s1 !! j) as [m0|] eqn:E0; [|discriminate].
      rewrite Rn. apply (proj1 Hg1 j m0 E0).
    + rewrite Rn, En. apply P.
    + eapply logs_grow_trans; [apply P|]. eapply logs_grow_trans; [exact El|]. apply logs_grow_same. assumption.
    + intros j Hj. rewrite He, Eh, (pr_none _ _ _ P j Hj). reflexivity.
    + intros j m Hj. destruct (pr_old _ _ _ P _ _ Hj) as (m' & Hm' & F1 & F2 & F3 & F4).
      exists (MkNode (n_cls m') (if decide (j = i) then None else n_parent m') (if decide (j = p) then l1 ++ l2 else n_children m') (n_attrs m')).
      rewrite He, Eh, Hm'. split; [reflexivity|]. cbn [n_cls n_attrs n_parent]. split; [assumption|]. split; [assumption|]. split.
      * rewrite F3. destruct (decide (j = i)) as [-> |Hne].
        -- rewrite decide_True by (apply elem_of_app; right; constructor). reflexivity.
        -- destruct (decide (j ∈ xs)) as [Hx|Hx].
           ++ rewrite decide_True by (apply elem_of_app; auto). reflexivity.
           ++ rewrite decide_False by (rewrite elem_of_app, elem_of_list_singleton; tauto). reflexivity.
      * assert (Hkm : forall l, kids (MkNode (n_cls m') l (n_children m') (n_attrs m')) = kids m') by (intros; destruct m'; reflexivity).
        destruct (decide (j = p)) as [-> |Hne].
        -- rewrite Eh in Hp. assert (np = m') as -> by congruence. unfold kids at 1. cbn [n_cls n_children]. rewrite Hhc.
           assert (Hk : kids m' = l1 ++ i :: l2) by (unfold kids; rewrite Hhc; assumption).
           symmetry. apply (keep_out_split xs l1 l2 i); auto; [|congruence].
           assert (Hnd : NoDup (kids m')).
           { destruct (pr_good _ _ _ P) as [_ Hc]. eapply (cons_nodup _ Hc). exact Hp. }
           rewrite Hk in Hnd. apply NoDup_app in Hnd as (_ & _ & Hnd). apply list.NoDup_cons in Hnd. tauto.
        -- rewrite Hkm, F4. symmetry. apply keep_out_same. rewrite <- F4. intros Hin. apply Hne.
           destruct (pr_good _ _ _ P) as [_ Hc].
           assert (Hq : parent_is (st_heap s) i j) by (apply (cons_parent _ Hc); exists m'; auto).
           destruct Hq as (q & Hq & Eq). congruence.
  - subst s2. constructor.
    + assumption.
    + rewrite En. apply P.
    + eapply logs_grow_trans; [apply P|exact El].
    + intros j Hj. rewrite Eh. apply (pr_none _ _ _ P j Hj).
    + intros j m Hj. destruct (pr_old _ _ _ P _ _ Hj) as (m' & Hm' & F1 & F2 & F3 & F4).
      exists m'. rewrite Eh. split; [assumption|]. split; [assumption|]. split; [assumption|]. split.
      * rewrite F3. destruct (decide (j ∈ xs)) as [Hx|Hx].
        -- rewrite decide_True by (apply elem_of_app; auto). reflexivity.
        -- destruct (decide (j ∈ xs ++ [i])) as [Hx'|Hx']; [|reflexivity].
           apply elem_of_app in Hx' as [?|Hx']; [contradiction|]. apply elem_of_list_singleton in Hx'. subst j. congruence.
      * rewrite F4. symmetry. apply keep_out_same. rewrite <- F4. intros Hin.
        destruct (pr_good _ _ _ P) as [_ Hc].
        assert (Hq : parent_is (st_heap s) i j) by (apply (cons_parent _ Hc); exists m'; auto).
        destruct Hq as (q & Hq & Eq). congruence.
Qed.

Lemma contents_snoc h l i : contents_in h (l ++ [i]) = contents_in h l ++ if is_contents h i then [i] else [].
Proof. unfold contents_in. rewrite List.filter_app. reflexivity. Qed.

Lemma pick_fold s0 : forall l done acc s s' acc',
  NoDup (done ++ l) -> (forall x, x ∈ l -> is_Some (st_heap s0 !! x)) ->
  acc = head (contents_in (st_heap s0) done) -> pruned s0 s (tail (contents_in (st_heap s0) done)) ->
  foldM (visit (cond_class CContents) toc_pick) acc l s = (s', Ok acc') ->
  acc' = head (contents_in (st_heap s0) (done ++ l)) /\ pruned s0 s' (tail (contents_in (st_heap s0) (done ++ l))).
Proof.
  induction l as [|i l IH]; intros done acc s s' acc' Hnd Hex Ha P H.
  - apply ret_ok in H as [-> ->]. rewrite app_nil_r. auto.
  - cbn [foldM] in H. apply bind_ok in H as (s1 & a1 & H1 & H).
    assert (E : done ++ i :: l = (done ++ [i]) ++ l) by (rewrite <- app_assoc; reflexivity).
    assert (Hi : i ∉ done) by (intros Hd; apply NoDup_app in Hnd as (_ & Hd' & _); apply (Hd' i Hd); constructor).
    assert (Hi' : i ∉ tail (contents_in (st_heap s0) done)).
    { intros Hd. apply Hi. unfold contents_in in Hd. destruct (List.filter _ done) as [|y ys] eqn:Ef; [inversion Hd|].
      simpl in Hd. assert (Hin : In i (List.filter (is_contents (st_heap s0)) done)) by (rewrite Ef; right; apply elem_of_list_In; assumption).
      apply filter_In in Hin as [Hin _]. apply elem_of_list_In. assumption. }
    rewrite E in *.
    assert (G : a1 = head (contents_in (st_heap s0) (done ++ [i])) /\ pruned s0 s1 (tail (contents_in (st_heap s0) (done ++ [i])))).
    { rewrite contents_snoc.
      destruct (pick_visit _ _ _ _ _ _ _ P Hi' (Hex i ltac:(constructor)) H1) as [(-> & -> & ->)|[(-> & Ea & -> & ->)|(-> & Ea & -> & P')]].
      - rewrite app_nil_r. auto.
      - rewrite Ea in Ha. destruct (contents_in (st_heap s0) done); [|discriminate]. simpl in *. auto.
      - destruct (contents_in (st_heap s0) done); [simpl in Ha; congruence|]. simpl in *. auto. }
    destruct G as [G1 G2]. eapply (IH (done ++ [i])); eauto.
    intros x Hx. apply Hex. constructor. assumption.
Qed.

(** The traversal: a removed node changes the children of its parent only, and
    the parent has been visited before. *)
Definition pick_inv (s : st) (rem : list id) : Prop :=
  good s /\ NoDup rem /\ (forall x, x ∈ rem -> is_Some (st_heap s !! x)) /\
  (forall l1 x l2 q, rem = l1 ++ x :: l2 -> parent_is (st_heap s) x q -> q ∉ x :: l2).
Lemma pick_trav_step s i rem acc s' acc' n :
  pick_inv s (i :: rem) -> st_heap s !! i = Some n ->
  visit (cond_class CContents) toc_pick acc i s = (s', Ok acc') ->
  pick_inv s' rem /\ forall j, j ∈ i :: rem -> kids_same (st_heap s) (st_heap s') j.
Proof.
  intros (Hg & Hnd & Hex & Hpar) Hi H. apply list.NoDup_cons in Hnd as [Hnin Hnd].
  assert (Same : pick_inv s rem /\ forall j, j ∈ i :: rem -> kids_same (st_heap s) (st_heap s) j).
  { split; [|intros j _ m Hm; eauto]. split; [assumption|]. split; [assumption|]. split.
    - intros x Hx. apply Hex. constructor. assumption.
    - intros l1 x l2 q E Hq. apply (Hpar (i :: l1) x l2 q); [simpl; congruence|assumption]. }
  destruct (pick_visit s s s' [] acc acc' i (pruned_refl _ Hg)) as [(_ & -> & _)|[(_ & _ & -> & _)|(_ & _ & _ & P)]]; auto.
  { intros Hx. inversion Hx. }
  simpl in P. split.
  - split; [apply P|]. split; [assumption|]. split.
    + intros x Hx. destruct (Hex x) as [m Hm]; [constructor; assumption|].
      destruct (pr_old _ _ _ P _ _ Hm) as (m' & Hm' & _). eauto.
    + intros l1 x l2 q E (m' & Hm' & Em').
      assert (Hx : x ∈ rem) by (rewrite E; apply elem_of_app; right; constructor).
      destruct (Hex x) as [m Hm]; [constructor; assumption|].
      destruct (pr_old _ _ _ P _ _ Hm) as (m2 & Hm2 & _ & _ & E3 & _).
      assert (m2 = m') as -> by congruence.
      apply (Hpar (i :: l1) x l2 q); [simpl; congruence|]. exists m. split; [assumption|].
      destruct (decide (x ∈ [i])); congruence.
  - intros j Hj m Hm. destruct (pr_old _ _ _ P _ _ Hm) as (m' & Hm' & _ & _ & _ & E4).
    exists m'. split; [assumption|]. rewrite E4. rewrite <- (keep_out_nil (kids m)) at 2. apply (keep_out_same [] i).
    rewrite keep_out_nil. intros Hin. apply (Hpar [] i rem j eq_refl); [|assumption].
    apply (cons_parent _ (proj2 Hg)). exists m. auto.
Qed.

Lemma prune_root xs t : root (prune xs t) = root t.
Proof. destruct t. reflexivity. Qed.
Lemma prune_roots xs cs :
  map root (flat_map (fun c => if decide (root c ∈ xs) then [] else [prune xs c]) cs) = keep_out xs (map root cs).
Proof.
  unfold keep_out. induction cs as [|c cs IH]; [reflexivity|]. cbn [flat_map map].
  destruct (decide (root c ∈ xs)) as [Hx|Hx].
  - rewrite filter_cons_False by (intros Hn; apply Hn; assumption). assumption.
  - rewrite filter_cons_True by assumption. cbn [app map]. rewrite prune_root, IH. reflexivity.
Qed.
Lemma prune_tree s0 s xs p t :
  pruned s0 s xs -> tree_at (st_heap s0) p t -> root t ∉ xs -> tree_at (st_heap s) p (prune xs t).
Proof.
  intros P Ht. induction Ht as [p i n cs Hi Hp Hk Hcs IH] using tree_at_ind'. cbn [root prune]. intros Hx.
  destruct (pr_old _ _ _ P _ _ Hi) as (n' & Hn' & _ & _ & Ep & Ek). rewrite decide_False in Ep by assumption.
  econstructor; [exact Hn'|congruence| |].
  - rewrite Ek, Hk, prune_roots. reflexivity.
  - rewrite list.Forall_forall in *. intros c' Hc'. apply elem_of_list_In, in_flat_map in Hc' as (c & Hc & Hc').
    apply elem_of_list_In in Hc. destruct (decide (root c ∈ xs)) as [Hd|Hd]; [destruct Hc'|].
    destruct Hc' as [<-|[]]. apply IH; assumption.
Qed.
Lemma prune_sublist xs t : sublist (doc_order (prune xs t)) (doc_order t).
Proof.
  induction t as [i cs IH] using tree_ind'. cbn [prune]. rewrite !doc_order_T. apply sublist_skip.
  induction cs as [|c cs IHcs]; [constructor|]. apply list.Forall_cons in IH as [Hc IH].
  cbn [flat_map]. rewrite (doc_orders_cons c cs). destruct (decide (root c ∈ xs)).
  - apply sublist_inserts_l. auto.
  - cbn [app]. rewrite doc_orders_cons. apply sublist_app; auto.
Qed.
Lemma sublist_in {A} (l l' : list A) x : sublist l l' -> x ∈ l -> x ∈ l'.
Proof.
  induction 1 as [|y l l' Hs IH|y l l' Hs IH]; intros Hx; [inversion Hx| |constructor; auto].
  apply elem_of_cons in Hx as [-> |Hx]; constructor; auto.
Qed.
Lemma sublist_nodup {A} (l l' : list A) : sublist l l' -> NoDup l' -> NoDup l.
Proof.
  induction 1 as [|x l l' Hs IH|x l l' Hs IH]; intros Hnd; [constructor| |]; apply list.NoDup_cons in Hnd as [H1 H2].
  - constructor; [|auto]. intros Hx. apply H1. eapply sublist_in; eassumption.
  - auto.
Qed.

Theorem toc_pick_ok fuel s t s' r :
  manuscript s t -> for_traverse fuel (cond_class CContents) toc_pick None (root t) s = (s', Ok r) ->
  r = head (contents_in (st_heap s) (doc_order t)) /\
  pruned s s' (tail (contents_in (st_heap s) (doc_order t))) /\
  manuscript s' (prune (tail (contents_in (st_heap s) (doc_order t))) t).
Proof.
  intros Hm H. pose proof (manuscript_good _ _ Hm) as Hg. pose proof (ms_document _ _ Hm) as [Ht Hnd].
  apply (trav_ok pick_inv) in H; [|intros; eapply pick_trav_step; eassumption| |eapply tree_at_kid; eassumption].
  2:{ split; [assumption|]. split; [assumption|]. split.
      - intros x Hx. eapply manuscript_some; eassumption.
      - intros l1 x l2 q E Hq. eapply document_parent_before; [split|..]; eassumption. }
  apply (pick_fold s (doc_order t) []) in H; [|exact Hnd| |reflexivity|apply pruned_refl; assumption].
  2:{ intros x Hx. eapply manuscript_some; eassumption. }
  destruct H as [-> P]. cbn [app] in *. set (xs := tail _) in *. split; [reflexivity|]. split; [assumption|].
  assert (Hr : root t ∉ xs).
  { unfold xs, contents_in. destruct t as [i cs]. rewrite doc_order_T in *. apply list.NoDup_cons in Hnd as [Hi _].
    cbn [List.filter root]. intros Hin. apply Hi. apply elem_of_list_In. apply elem_of_list_In in Hin.
    destruct (is_contents (st_heap s) i).
    - simpl in Hin. apply filter_In in Hin. tauto.
    - destruct (List.filter (is_contents (st_heap s)) (doc_orders cs)) as [|y ys] eqn:Ef; [destruct Hin|].
      assert (Hin' : In i (List.filter (is_contents (st_heap s)) (doc_orders cs))) by (rewrite Ef; right; exact Hin).
      apply filter_In in Hin'. tauto. }
  split; [apply P|apply P|]. split; [eapply prune_tree; eassumption|].
  eapply sublist_nodup; [apply prune_sublist|assumption].
Qed.
