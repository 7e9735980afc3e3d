(** The table of contents after transform. *)
From Verif Require Export ResultNumbers.
From Verif Require Import Consistency Traverse Labels HandrailDepth Autonumber FullNumber TocPick TocBuild Queries Built Meta Subproofs ResolveAll ResolvePrev Resolve NodeOps Monad.

(** *** Nodes above others, in trees *)
Inductive above (a x : id) : tree -> Prop :=
| ab_here cs : x ∈ doc_orders cs -> above a x (T a cs)
| ab_in i cs c : c ∈ cs -> above a x c -> above a x (T i cs).
Lemma forget_above keep a x t : keep a = true -> keep x = true -> above a x t -> exists u, u ∈ forget keep t /\ above a x u.
Proof.
  intros Ha Hx. induction 1 as [cs H|i cs c Hc H (u & Hu & IH)].
  - cbn [forget]. rewrite Ha. eexists. split; [apply elem_of_list_singleton; reflexivity|]. apply ab_here.
    assert (E : doc_orders (flat_map (forget keep) cs) = List.filter keep (doc_orders cs)).
    { clear. induction cs as [|c cs IH]; [reflexivity|]. cbn [flat_map]. rewrite doc_orders_app, forget_order, IH, doc_orders_cons, List.filter_app. reflexivity. }
    rewrite E. apply elem_of_list_In, filter_In. split; [apply elem_of_list_In|]; assumption.
  - cbn [forget]. assert (Hin : u ∈ flat_map (forget keep) cs).
    { apply elem_of_list_In, in_flat_map. exists c. split; apply elem_of_list_In; assumption. }
    destruct (keep i); [|eauto]. eexists. split; [apply elem_of_list_singleton; reflexivity|]. eapply ab_in; eassumption.
Qed.
Lemma above_in a x t : above a x t -> a ∈ doc_order t /\ x ∈ doc_order t.
Proof.
  induction 1 as [cs H|i cs c Hc H [IH1 IH2]]; rewrite doc_order_T.
  - split; constructor. assumption.
  - split; constructor; apply elem_doc_orders; eauto.
Qed.
Lemma above_ancestor h p t a x : consistent h -> tree_at h p t -> above a x t -> ancestor h x a.
Proof.
  intros Hc Ht Ha. revert p Ht. induction Ha as [cs H|i cs c Hcc H IH]; intros p Ht; apply tree_at_inv in Ht as (n & Hn & _ & Hk & Hcs).
  - apply elem_doc_orders in H as (u & Hu & Hx). rewrite list.Forall_forall in Hcs. specialize (Hcs _ Hu).
    assert (Hp : parent_is h (root u) a).
    { apply (cons_parent _ Hc). exists n. split; [assumption|]. rewrite Hk. apply elem_of_list_fmap. eauto. }
    destruct (tree_at_doc_order _ _ _ _ Hc Hcs Hx) as [-> |G]; [constructor; assumption|]. eapply ancestor_trans; [exact G|constructor; assumption].
  - rewrite list.Forall_forall in Hcs. eapply IH. apply Hcs. assumption.
Qed.
Lemma above_child h p t a q x n : tree_at h p t -> above a q t -> h !! q = Some n -> x ∈ kids n -> above a x t.
Proof.
  intros Ht Ha. revert p Ht. induction Ha as [cs H|i cs c Hcc H IH]; intros p Ht Hq Hx; apply tree_at_inv in Ht as (m & Hm & _ & Hk & Hcs); rewrite list.Forall_forall in Hcs.
  - apply ab_here. apply elem_doc_orders in H as (u & Hu & Hqu). apply elem_doc_orders. exists u. split; [assumption|].
    eapply doc_order_closed; [apply Hcs; exact Hu|exact Hqu|exact Hq|exact Hx].
  - eapply ab_in; [exact Hcc|]. eapply IH; [apply Hcs; exact Hcc|assumption..].
Qed.
Lemma child_above h p t q x n : tree_at h p t -> q ∈ doc_order t -> h !! q = Some n -> x ∈ kids n -> above q x t.
Proof.
  intros Ht. induction Ht as [p i m cs Hi Hp Hk Hcs IH] using tree_at_ind'. rewrite doc_order_T. intros Hq Hn Hx.
  apply elem_of_cons in Hq as [-> |Hq].
  - assert (n = m) as -> by congruence. apply ab_here. rewrite Hk in Hx. apply elem_of_list_fmap in Hx as (u & -> & Hu).
    apply elem_doc_orders. exists u. split; [assumption|apply root_in_doc_order].
  - apply elem_doc_orders in Hq as (u & Hu & Hqu). eapply ab_in; [exact Hu|]. rewrite list.Forall_forall in IH. apply (IH u Hu); assumption.
Qed.
Lemma ancestor_above h t x a : consistent h -> tree_at h None t -> x ∈ doc_order t -> ancestor h x a -> above a x t.
Proof.
  intros Hc Ht Hx Ha. induction Ha as [x p Hp|x p y Hp Ha IH].
  - destruct (tree_at_parent_in _ _ _ _ Ht Hx) as [-> |(q & Hq & Hqt)].
    + exfalso. destruct t as [i cs]. apply tree_at_inv in Ht as (n & Hn & Hnp & _). destruct Hp as (m & Hm & Hmp). cbn [root] in Hm. congruence.
    + assert (q = p) as -> by (destruct Hp as (? & ? & ?), Hq as (? & ? & ?); congruence).
      apply (cons_parent _ Hc) in Hp as (n & Hn & Hk). eapply child_above; eassumption.
  - destruct (tree_at_parent_in _ _ _ _ Ht Hx) as [-> |(q & Hq & Hqt)].
    + exfalso. destruct t as [i cs]. apply tree_at_inv in Ht as (n & Hn & Hnp & _). destruct Hp as (m & Hm & Hmp). cbn [root] in Hm. congruence.
    + assert (q = p) as -> by (destruct Hp as (? & ? & ?), Hq as (? & ? & ?); congruence).
      apply (cons_parent _ Hc) in Hp as (n & Hn & Hk). eapply above_child; [exact Ht|apply IH; assumption|exact Hn|exact Hk].
Qed.
Lemma above_tmap f a x t : above a x (tmap f t) -> exists a0 x0, a = f a0 /\ x = f x0 /\ above a0 x0 t.
Proof.
  induction t as [i cs IH] using tree_ind'. cbn [tmap]. intros H. inversion H as [cs' Hx|i' cs' c Hc Hx]; subst.
  - assert (E : doc_orders (map (tmap f) cs) = map f (doc_orders cs)).
    { clear. induction cs as [|c cs IH]; [reflexivity|]. cbn [map]. rewrite !doc_orders_cons, tmap_order, IH, map_app. reflexivity. }
    rewrite E in Hx. apply elem_of_list_fmap in Hx as (x0 & -> & Hx). exists i, x0. split; [reflexivity|]. split; [reflexivity|]. apply ab_here. assumption.
  - apply elem_of_list_fmap in Hc as (u & -> & Hu). rewrite list.Forall_forall in IH. destruct (IH u Hu Hx) as (a0 & x0 & -> & -> & Hab).
    exists a0, x0. split; [reflexivity|]. split; [reflexivity|]. eapply ab_in; eassumption.
Qed.

(** *** Outlines *)
Lemma outlines_forget h keep t : (forall x, x ∈ doc_order t -> keep x = false -> is_section h x = false) ->
  flat_map (outlines h) (forget keep t) = outlines h t.
Proof.
  induction t as [i cs IH] using tree_ind'. intros Hk. cbn [forget outlines].
  assert (E : flat_map (outlines h) (flat_map (forget keep) cs) = flat_map (outlines h) cs).
  { rewrite doc_order_T in Hk. assert (Hk' : forall x, x ∈ doc_orders cs -> keep x = false -> is_section h x = false) by (intros x Hx; apply Hk; constructor; assumption).
    clear Hk. induction IH as [|c cs Hc _ IHcs]; [reflexivity|]. cbn [flat_map]. rewrite flat_map_app, Hc, IHcs; [reflexivity|..]; intros x Hx; apply Hk'; rewrite doc_orders_cons; apply elem_of_app; auto. }
  destruct (keep i) eqn:Ek.
  - cbn [flat_map outlines]. rewrite E, app_nil_r. reflexivity.
  - rewrite E, (Hk i) by (assumption || (rewrite doc_order_T; constructor)). reflexivity.
Qed.
Lemma outlines_tmap h h' f t : (forall x, x ∈ doc_order t -> is_section h' (f x) = is_section h x /\ (is_section h x = true -> f x = x)) ->
  outlines h' (tmap f t) = outlines h t.
Proof.
  induction t as [i cs IH] using tree_ind'. intros Hk. rewrite doc_order_T in Hk. cbn [tmap outlines].
  assert (E : flat_map (outlines h') (map (tmap f) cs) = flat_map (outlines h) cs).
  { assert (Hk' : forall x, x ∈ doc_orders cs -> is_section h' (f x) = is_section h x /\ (is_section h x = true -> f x = x)) by (intros x Hx; apply Hk; constructor; assumption).
    clear Hk. induction IH as [|c cs Hc _ IHcs]; [reflexivity|]. cbn [map flat_map].
    rewrite Hc, IHcs; [reflexivity|..]; intros x Hx; apply Hk'; rewrite doc_orders_cons; apply elem_of_app; auto. }
  destruct (Hk i) as [-> Hf]; [constructor|]. rewrite E. destruct (is_section h i) eqn:Es; [rewrite Hf by reflexivity|]; reflexivity.
Qed.

(** *** Entries in a heap with the same structure *)
Definition toc_attrs (h h' : gmap id node) : Prop :=
  forall x b, b = a_title \/ b = a_nonum \/ b = a_number \/ b = a_target \/ b = a_overwrite_reftext -> value h' x b = value h x b.
Lemma same_class h h' x c : same_structure h h' -> class_of h x c -> class_of h' x c.
Proof.
  intros HS (n & Hn & Hc). specialize (HS x). rewrite Hn in HS. destruct (h' !! x) as [n'|] eqn:E; [|contradiction].
  exists n'. destruct HS as (Ec & _). split; [assumption|congruence].
Qed.
Lemma same_has h h' ds x : same_structure h h' -> has_class h ds x -> has_class h' ds x.
Proof.
  intros HS (n & Hn & Hc). specialize (HS x). rewrite Hn in HS. destruct (h' !! x) as [n'|] eqn:E; [|contradiction].
  exists n'. destruct HS as (Ec & _). split; [assumption|]. rewrite Ec. assumption.
Qed.
Lemma same_closest' h h' ds i r : same_structure h h' -> closest_ancestor h ds i r -> closest_ancestor h' ds i r.
Proof.
  intros HS. pose proof (same_structure_sym _ _ HS) as HS'. destruct r as [x|]; cbn [closest_ancestor].
  - intros (H1 & H2 & H3). split; [eapply same_structure_ancestor; eassumption|]. split; [eapply same_has; eassumption|].
    intros b Hb1 Hb2 Hc. apply (H3 b).
    + eapply same_structure_ancestor; eassumption.
    + eapply same_structure_ancestor; eassumption.
    + eapply same_has; eassumption.
  - intros H b Hb Hc. apply (H b); [eapply same_structure_ancestor; eassumption|eapply same_has; eassumption].
Qed.
Lemma same_scope h h' x : same_structure h h' -> scope_of h' x = scope_of h x.
Proof.
  intros HS. unfold scope_of. specialize (HS x). destruct (h !! x), (h' !! x); try contradiction; [|reflexivity].
  destruct HS as (Ec & _). rewrite Ec. reflexivity.
Qed.
Lemma same_scope_node h h' x r : same_structure h h' -> scope_node h x r -> scope_node h' x r.
Proof.
  intros HS [(y & -> & H)|[H1 H2]]; [left|right].
  - exists y. split; [reflexivity|]. rewrite (same_scope _ _ _ HS). eapply same_closest'; eassumption.
  - rewrite (same_scope _ _ _ HS). split; eapply same_closest'; eassumption.
Qed.
Lemma same_unnumbered h h' x : toc_attrs h h' -> unnumbered h x -> unnumbered h' x.
Proof. intros HA (v & Hv & Ht). exists v. rewrite HA by auto. auto. Qed.
Lemma same_numbers_to h h' x l : same_structure h h' -> toc_attrs h h' -> numbers_to h x l -> numbers_to h' x l.
Proof.
  intros HS HA. pose proof (same_structure_sym _ _ HS) as HS'.
  induction 1 as [x Hc|x v w tx Hc Hw Ht Hv Hn Hsc|x v w tx y l Hc Hw Ht Hv Hn Hsc Hl IH].
  - constructor. eapply same_class; eassumption.
  - eapply nums_outermost; [intros G; apply Hc; eapply same_class; eassumption|rewrite HA by auto; eassumption|eassumption|rewrite HA by auto; eassumption|eassumption|].
    destruct Hsc as [G|(y & G1 & G2 & G3)]; [left; eapply same_scope_node; eassumption|right]. exists y.
    split; [eapply same_scope_node; eassumption|]. split; [intros G; apply G2; eapply same_class; eassumption|eapply same_unnumbered; eassumption].
  - eapply nums_within; [intros G; apply Hc; eapply same_class; eassumption|rewrite HA by auto; eassumption|eassumption|rewrite HA by auto; eassumption|eassumption| |exact IH].
    eapply same_scope_node; eassumption.
Qed.
Lemma toc_attrs_sym h h' : toc_attrs h h' -> toc_attrs h' h.
Proof. intros H x b Hb. symmetry. apply H. assumption. Qed.
Lemma same_section_link h h' r x : same_structure h h' -> toc_attrs h h' -> section_link h r x -> section_link h' r x.
Proof.
  intros HS HA (H1 & H2 & text & H3 & H4). split; [eapply same_class; eassumption|]. rewrite !HA by auto 6. split; [assumption|].
  exists text. split; [assumption|]. intros title Ht. rewrite HA in Ht by auto. destruct (H4 title Ht) as [G1 G2]. split.
  - intros G. apply G1. eapply same_unnumbered; [apply toc_attrs_sym; exact HA|exact G].
  - intros l G. apply G2. eapply same_numbers_to; [apply same_structure_sym; exact HS|apply toc_attrs_sym; exact HA|exact G].
Qed.
Lemma same_kids_are h h' x l : same_structure h h' -> kids_are h x l -> kids_are h' x l.
Proof. intros HS (n & Hn & Hk). destruct (same_structure_kids _ _ x HS _ Hn) as (n' & Hn' & E). exists n'. split; [assumption|congruence]. Qed.
Lemma same_toc_entry h h' : same_structure h h' -> toc_attrs h h' -> forall o i, toc_entry h o i -> toc_entry h' o i.
Proof.
  intros HS HA. fix IH 3. intros o i H. destruct H as [x i r Hc Hk Hl|x os i r it items Hc Hk Hl Hne Hci Hki Hall].
  - eapply te_leaf; [eapply same_class; eassumption|eapply same_kids_are; eassumption|eapply same_section_link; eassumption].
  - eapply te_nested; [eapply same_class; eassumption|eapply same_kids_are; eassumption|eapply same_section_link; eassumption|assumption|eapply same_class; eassumption|eapply same_kids_are; eassumption|].
    clear Hne Hki. induction Hall as [|o' i' os items Ho _ IHall]; constructor; [apply IH; exact Ho|exact IHall].
Qed.

Section early.
  Context (d d' : labels) (s s1 s2 s3 : st) (t t3 : tree) (f : id -> id) (cites : list (list id)).
  Context (Hm : manuscript s t).
  Context (ST : early d d' s s1 s2 s3 t t3 f cites).
  Notation h := (st_heap s). Notation h1 := (st_heap s1). Notation h2 := (st_heap s2). Notation h3 := (st_heap s3).
  Notation keep := (fun y => bool_decide (y ∈ map f (doc_order t))).

  Lemma section_f x : x ∈ doc_order t -> is_section h2 (f x) = is_section h x /\ (is_section h x = true -> f x = x).
  Proof using Hm ST.
    intros Hx. apply (by_node_f Hm ST (fun n => subclass (n_cls n) CSection) x Hx). apply (stable_class (fun c => subclass c CSection)); reflexivity.
  Qed.
  Lemma section_class hh x c : class_of hh x c -> subclass c CSection = true -> is_section hh x = true.
  Proof using. intros (n & Hn & Ec) H. unfold is_section. rewrite Hn, Ec. assumption. Qed.
  Lemma forget_23 : forget keep t3 = [tmap f t].
  Proof using Hm ST.
    apply (restructured_forget _ _ _ _ keep (sg_restructured ST)).
    - intros x Hx. rewrite tmap_order in Hx. apply bool_decide_eq_true. assumption.
    - intros w Hw. destruct (bool_decide (w ∈ map f (doc_order t))) eqn:Eb; [|reflexivity]. apply (keep_some2 ST) in Eb as [n Hn]. congruence.
  Qed.
End early.
Arguments section_f {d d' s s1 s2 s3 t t3 f cites} Hm ST.
Arguments forget_23 {d d' s s1 s2 s3 t t3 f cites} Hm ST.

Section middle.
  Context (d d' : labels) (s s1 s2 s3 s4 : st) (t t3 : tree) (f : id -> id) (cites : list (list id)) (a : num_st).
  Context (Hm : manuscript s t).
  Context (ST : middle d d' s s1 s2 s3 s4 t t3 f cites a).
  Notation h := (st_heap s). Notation h1 := (st_heap s1). Notation h2 := (st_heap s2). Notation h3 := (st_heap s3).
  Notation h4 := (st_heap s4).
  Local Notation section_f := (section_f Hm ST).
  Local Notation forget_23 := (forget_23 Hm ST).

  Notation keep := (fun y => bool_decide (y ∈ map f (doc_order t))).

  Lemma section_24 x : is_Some (h2 !! x) -> is_section h4 x = is_section h2 x.
  Proof using ST.
    intros Hx. transitivity (is_section h3 x).
    - apply (carried_classb (fun c => subclass c CSection) _ _ _ _ (c34 ST)). eapply carried_some; [exact (c23 ST)|assumption].
    - apply (carried_classb (fun c => subclass c CSection) _ _ _ _ (c23 ST) Hx).
  Qed.
  Lemma section_4 x : x ∈ doc_order t3 -> is_section h4 x = true -> x ∈ doc_order t /\ is_section h x = true /\ f x = x.
  Proof using Hm ST.
    intros Hx Hs. assert (H3 : is_Some (h3 !! x)) by (eapply manuscript_some; [apply (sg_m3 ST)|assumption]).
    assert (E3 : is_section h3 x = true) by (rewrite <- Hs; symmetry; apply (carried_classb (fun c => subclass c CSection) _ _ _ _ (c34 ST) H3)).
    destruct (h2 !! x) as [n2|] eqn:E2.
    - assert (Hin : x ∈ map f (doc_order t)) by (apply (old3 ST); [assumption|eauto]).
      apply elem_of_list_fmap in Hin as (y & -> & Hy). rewrite section_24 in Hs by eauto. destruct (section_f y Hy) as [G1 G2].
      rewrite G1 in Hs. rewrite (G2 Hs). auto.
    - exfalso. destruct (wrapper3 ST x Hx E2) as [(n & Hn & Ec)|(n & Hn & Ec)]; unfold is_section in E3; rewrite Hn, Ec in E3; discriminate.
  Qed.
  Lemma class_4 x c : x ∈ doc_order t -> class_of h4 x c -> class_of h x c.
  Proof using Hm ST. intros Hx. apply (carried_class_inv _ _ _ _ _ (c04 ST)). apply (in_h Hm). assumption. Qed.
  Lemma ancestor_4 x y : x ∈ doc_order t3 -> is_section h4 x = true -> is_section h4 y = true -> ancestor h4 x y -> ancestor h x y.
  Proof using Hm ST.
    intros Hx Hsx Hsy Ha. apply (ancestor_above _ t3) in Ha; [|apply (sg_m4 ST)|apply (ms_document _ _ (sg_m4 ST))|assumption].
    destruct (above_in _ _ _ Ha) as [Hy _]. destruct (section_4 x Hx Hsx) as (Hxt & _ & Hfx). destruct (section_4 y Hy Hsy) as (Hyt & _ & Hfy).
    assert (Hk : forall z, z ∈ doc_order t -> f z = z -> keep z = true).
    { intros z Hz Hf. apply bool_decide_eq_true, elem_of_list_fmap. exists z. auto. }
    destruct (forget_above keep y x t3 (Hk y Hyt Hfy) (Hk x Hxt Hfx) Ha) as (u & Hu & Hau). rewrite forget_23 in Hu.
    apply elem_of_list_singleton in Hu as ->. apply above_tmap in Hau as (y0 & x0 & Ey & Ex & Hab).
    destruct (above_in _ _ _ Hab) as [Hy0 Hx0].
    assert (x0 = x) as -> by (apply (ri_inj _ _ _ _ _ _ (sg_resolve ST)); [assumption|assumption|congruence]).
    assert (y0 = y) as -> by (apply (ri_inj _ _ _ _ _ _ (sg_resolve ST)); [assumption|assumption|congruence]).
    eapply above_ancestor; [apply (ms_consistent _ _ Hm)|apply (ms_document _ _ Hm)|assumption].
  Qed.
  Lemma parent_4 x p : x ∈ doc_order t -> is_section h x = true -> is_section h p = true -> parent_is h x p -> parent_is h4 x p.
  Proof using Hm ST.
    intros Hx Hsx Hsp Hp. assert (Hpt : p ∈ doc_order t).
    { destruct (tree_at_parent_in _ _ _ _ (proj1 (ms_document _ _ Hm)) Hx) as [-> |(q & Hq & Hqt)].
      - exfalso. pose proof (proj1 (ms_document _ _ Hm)) as Ht. destruct t as [i cs]. apply tree_at_inv in Ht as (n & Hn & Hnp & _). destruct Hp as (m & Hm' & Hmp). cbn [root] in Hm'. congruence.
      - assert (q = p) as -> by (destruct Hp as (? & ? & ?), Hq as (? & ? & ?); congruence). assumption. }
    pose proof (proj2 (section_f _ Hx) Hsx) as Hfx. pose proof (proj2 (section_f _ Hpt) Hsp) as Hfp.
    apply (cons_parent _ (ms_consistent _ _ Hm)) in Hp as (n & Hn & Hk).
    assert (Hnp : pendingb h p = false).
    { unfold is_section in Hsp. rewrite Hn in Hsp. unfold pendingb, holds, cond_exact. rewrite Hn. destruct (n_cls n); try discriminate; reflexivity. }
    pose proof (kids_2 Hm ST p (kids n) Hpt) as K2. rewrite Hnp, Hfp in K2.
    destruct K2 as (n2 & Hn2 & Hk2); [exists n; auto|].
    assert (Hp2 : p ∈ doc_order (tmap f t)) by (rewrite <- Hfp; apply (f_in2 t f); assumption).
    destruct (restructured_kids _ _ _ _ (sg_restructured ST) _ _ (proj1 (ms_document _ _ (sg_m2 ST))) (proj1 (ms_document _ _ (sg_m3 ST))) p n2 Hp2 Hn2) as [HS _].
    assert (Hns : ~ class_of h2 p CStep).
    { intros Hc. apply (carried_class_inv _ _ _ _ _ (c02 ST)) in Hc; [|eauto]. destruct Hc as (m & Hm' & Ec). unfold is_section in Hsp. rewrite Hm', Ec in Hsp. discriminate. }
    apply HS in Hns. apply (kids_only _ _ _ _ _ (sg_num_only ST)) in Hns as (n4 & Hn4 & Hk4).
    apply (cons_parent _ (ms_consistent _ _ (sg_m4 ST))). exists n4. split; [assumption|]. rewrite Hk4, Hk2.
    apply elem_of_list_fmap. exists x. auto.
  Qed.
  Lemma well_nested_4 : well_nested h t -> well_nested h4 t3.
  Proof using Hm ST.
    intros Hw x Hx. split; [|split]; intros Hc.
    - assert (Hs : is_section h4 x = true) by (eapply section_class; [exact Hc|reflexivity]).
      destruct (section_4 x Hx Hs) as (Hxt & _ & _). destruct (Hw x Hxt) as (H0 & _ & _). intros y Hy.
      destruct (is_section h4 y) eqn:Ey; [|reflexivity]. exfalso.
      pose proof (ancestor_4 x y Hx Hs Ey Hy) as Hay. specialize (H0 (class_4 _ _ Hxt Hc) y Hay).
      assert (Hy3 : y ∈ doc_order t3).
      { apply (ancestor_above _ t3) in Hy; [|apply (sg_m4 ST)|apply (ms_document _ _ (sg_m4 ST))|assumption]. apply above_in in Hy. tauto. }
      destruct (section_4 y Hy3 Ey) as (_ & G & _). congruence.
    - assert (Hs : is_section h4 x = true) by (eapply section_class; [exact Hc|reflexivity]).
      destruct (section_4 x Hx Hs) as (Hxt & Hsx & _). destruct (Hw x Hxt) as (_ & H1 & _).
      destruct (H1 (class_4 _ _ Hxt Hc)) as (p & Hp & Hpc). exists p.
      split; [apply parent_4; [assumption|assumption|eapply section_class; [exact Hpc|reflexivity]|assumption]|eapply carried_class; [exact (c04 ST)|assumption]].
    - assert (Hs : is_section h4 x = true) by (eapply section_class; [exact Hc|reflexivity]).
      destruct (section_4 x Hx Hs) as (Hxt & Hsx & _). destruct (Hw x Hxt) as (_ & _ & H1).
      destruct (H1 (class_4 _ _ Hxt Hc)) as (p & Hp & Hpc). exists p.
      split; [apply parent_4; [assumption|assumption|eapply section_class; [exact Hpc|reflexivity]|assumption]|eapply carried_class; [exact (c04 ST)|assumption]].
  Qed.
End middle.
Arguments section_24 {d d' s s1 s2 s3 s4 t t3 f cites a} ST.
Arguments section_4 {d d' s s1 s2 s3 s4 t t3 f cites a} Hm ST.
Arguments class_4 {d d' s s1 s2 s3 s4 t t3 f cites a} Hm ST.
Arguments ancestor_4 {d d' s s1 s2 s3 s4 t t3 f cites a} Hm ST.
Arguments parent_4 {d d' s s1 s2 s3 s4 t t3 f cites a} Hm ST.
Arguments well_nested_4 {d d' s s1 s2 s3 s4 t t3 f cites a} Hm ST.

Section result.
  Context (fuel : nat) (d d' : labels) (s s1 s2 s3 s4 s5 s6 s7 s8 s' : st) (t t3 t6 : tree)
    (f : id -> id) (cites : list (list id)) (a : num_st) (xs : list id).
  Context (Hm : manuscript s t).
  Context (ST : stages fuel d d' s s1 s2 s3 s4 s5 s6 s7 s8 s' t t3 t6 f cites a xs).
  Notation h := (st_heap s). Notation h1 := (st_heap s1). Notation h2 := (st_heap s2). Notation h3 := (st_heap s3).
  Notation h4 := (st_heap s4). Notation h5 := (st_heap s5). Notation h6 := (st_heap s6). Notation h7 := (st_heap s7).
  Notation h8 := (st_heap s8). Notation h' := (st_heap s').
  Local Notation section_f := (section_f Hm ST).
  Local Notation forget_23 := (forget_23 Hm ST).
  Local Notation section_24 := (section_24 ST).
  Local Notation section_4 := (section_4 Hm ST).
  Local Notation class_4 := (class_4 Hm ST).
  Local Notation ancestor_4 := (ancestor_4 Hm ST).
  Local Notation parent_4 := (parent_4 Hm ST).
  Local Notation well_nested_4 := (well_nested_4 Hm ST).

  Notation keep := (fun y => bool_decide (y ∈ map f (doc_order t))).

  Lemma same_6' : same_structure h6 h' /\ toc_attrs h6 h'.
  Proof using ST.
    split.
    - eapply same_structure_trans; [eapply only_structure; apply (sg_con_only ST)|].
      eapply same_structure_trans; [eapply only_structure; apply (sg_depth_only ST)|]. eapply only_structure; apply (sg_ids_only ST).
    - intros x b Hb.
      rewrite (value_only _ _ _ _ _ (sg_ids_only ST)) by (unfold id_attr; intros ->; destruct Hb as [G|[G|[G|[G|G]]]]; discriminate).
      rewrite (value_only _ _ _ _ _ (sg_depth_only ST)) by (unfold depth_attr; intros ->; destruct Hb as [G|[G|[G|[G|G]]]]; discriminate).
      apply (value_only _ _ _ _ _ (sg_con_only ST)). intros (_ & _ & ->). destruct Hb as [G|[G|[G|[G|G]]]]; discriminate.
  Qed.
  Lemma outlines_4 : outlines h4 (prune xs t3) = outlines h (prune xs t).
  Proof using Hm ST.
    assert (Hno : forall x, x ∈ doc_order t3 -> keep x = false -> is_section h4 x = false).
    { intros x Hx Hk. destruct (is_section h4 x) eqn:E; [|reflexivity]. destruct (section_4 x Hx E) as (Hxt & _ & Hf).
      apply bool_decide_eq_false in Hk. exfalso. apply Hk. apply elem_of_list_fmap. exists x. auto. }
    rewrite <- (outlines_forget h4 keep).
    - rewrite <- (outlines_tmap h h4 f).
      + assert (E : forget keep (prune xs t3) = [tmap f (prune xs t)]); [|rewrite E; cbn [flat_map]; apply app_nil_r].
        rewrite <- (result_tree Hm ST). rewrite <- (sg_t6 ST). eapply forget_added; [apply (sg_m6 ST)|].
        intros p c Hc Hr y Hy. destruct (bool_decide (y ∈ map f (doc_order t))) eqn:Eb; [|reflexivity].
        pose proof (keep_some2 ST _ Eb) as [n Hn]. pose proof (proj1 (manuscript_good _ _ (sg_m2 ST)) _ _ Hn) as Hlt.
        assert (Hrt : st_next s5 <= root c).
        { unfold added_ids in Hr. apply elem_of_list_In, filter_In in Hr as [_ Hr]. apply Nat.leb_le in Hr. assumption. }
        pose proof (extends_new_tree _ _ _ _ (sg_extends ST) Hc Hrt y Hy) as Hge.
        pose proof (n23 ST). pose proof (n34 ST). pose proof (n45 ST). lia.
      + intros x Hx. assert (Hxt : x ∈ doc_order t) by (eapply sublist_in; [apply prune_sublist|exact Hx]).
        rewrite section_24 by (apply (f_some2 ST); assumption). apply section_f. assumption.
    - intros x Hx. apply Hno. eapply sublist_in; [apply prune_sublist|exact Hx].
  Qed.
  Theorem toc_result toc l : well_nested h t -> head (List.filter (is_contents h) (doc_order t)) = Some toc -> kids_are h toc l ->
    exists items, kids_are h' toc (map f (without (later_contents h t) l) ++ items) /\
      Forall2 (toc_entry h') (outlines h (prune (later_contents h t) t)) items.
  Proof using Hm ST.
    intros Hw Hh Hl. rewrite <- (contents_3 Hm ST) in Hh. destruct (sg_toc ST) as [u Ht].
    destruct (toc_entries_ok _ _ _ _ _ _ (sg_m4 ST) (well_nested_4 Hw) Ht Hh) as (s1' & items & P & B & En).
    rewrite <- (sg_xs ST) in P, En. rewrite outlines_4 in En. exists items. rewrite <- (xs_later Hm ST). destruct same_6' as [HS HA]. split.
    - assert (Htoc : toc ∈ List.filter (is_contents h) (doc_order t)).
      { rewrite <- (contents_3 Hm ST). destruct (contents_in h4 (doc_order t3)); [discriminate|]. injection Hh as ->. constructor. }
      apply elem_of_list_In, filter_In in Htoc as [Htt Hct]. apply elem_of_list_In in Htt.
      assert (Hnp : pendingb h toc = false).
      { unfold is_contents in Hct. unfold pendingb, holds, cond_exact. destruct (h !! toc) as [n|]; [|reflexivity]. destruct (n_cls n); try discriminate; reflexivity. }
      assert (Hf : f toc = toc) by (apply (f_same Hm ST); [assumption|rewrite <- pending_iff; congruence]).
      pose proof (kids_2 Hm ST toc l Htt Hl) as K2. rewrite Hnp, Hf in K2. destruct K2 as (n2 & Hn2 & Hk2).
      assert (Hp2 : toc ∈ doc_order (tmap f t)) by (rewrite <- Hf; apply (f_in2 t f); assumption).
      destruct (restructured_kids _ _ _ _ (sg_restructured ST) _ _ (proj1 (ms_document _ _ (sg_m2 ST))) (proj1 (ms_document _ _ (sg_m3 ST))) toc n2 Hp2 Hn2) as [HR _].
      assert (Hns : ~ class_of h2 toc CStep).
      { intros Hc. apply (carried_class_inv _ _ _ _ _ (c02 ST)) in Hc; [|apply (in_h Hm); assumption]. destruct Hc as (m & Hm' & Ec). unfold is_contents in Hct. rewrite Hm', Ec in Hct. discriminate. }
      apply HR in Hns. apply (kids_only _ _ _ _ _ (sg_num_only ST)) in Hns as (n4 & Hn4 & Hk4).
      destruct (pr_old _ _ _ P _ _ Hn4) as (n5 & Hn5 & Ec5 & _ & _ & Hk5).
      assert (Hlt : toc < st_next s1').
      { apply (proj1 (pr_good _ _ _ P)) in Hn5. assumption. }
      pose proof (bu_old _ _ _ _ B toc Hlt) as E6. rewrite Hn5, decide_True in E6 by reflexivity.
      eapply same_kids_are; [exact HS|]. exists (add_kids items n5). split; [assumption|].
      assert (Hch : has_children (n_cls n5) = true).
      { rewrite Ec5. unfold is_contents in Hct. destruct (h !! toc) as [n|] eqn:E0; [|discriminate]. destruct (c04 ST _ _ E0) as (n' & Hn' & Ec & _).
        assert (n4 = n') as -> by congruence. rewrite Ec. destruct (n_cls n); try discriminate; reflexivity. }
      assert (Eg : kids (add_kids items n5) = kids n5 ++ items) by (unfold kids, add_kids in *; cbn [n_cls n_children]; rewrite Hch; reflexivity).
      rewrite Eg, Hk5, Hk4, Hk2. f_equal. change (without xs l) with (keep_out xs l). apply keep_out_map. intros c Hc.
      apply (f_xs _ _ _ _ _ _ _ _ _ _ _ _ _ _ _ _ _ _ _ _ Hm ST). eapply (child_in Hm toc l); eassumption.
    - eapply list.Forall2_impl; [exact En|]. intros o i Hoi. eapply same_toc_entry; eassumption.
  Qed.
End result.
