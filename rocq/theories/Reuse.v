(** A Transformer that has been used before, on documents with other labels. *)
From Verif Require Export SpecReuse ResolveAll Labels Stages.
From Verif Require Import Frames Traverse TreeFacts NodeOps Monad.
Local Open Scope list_scope.

Definition agree {A B} (R : A -> B -> Prop) (x : st * res A) (y : st * res B) : Prop :=
  fst x = fst y /\ match snd x, snd y with Ok a, Ok b => R a b | Err e, Err e' => e = e' | _, _ => False end.
Lemma agree_bind {A B A' B'} (R : A -> B -> Prop) (Q : A' -> B' -> Prop) (m : M A) (n : M B) (f : A -> M A') (g : B -> M B') s :
  agree R (m s) (n s) -> (forall a b s', n s = (s', Ok b) -> R a b -> agree Q (f a s') (g b s')) -> agree Q (bind m f s) (bind n g s).
Proof.
  unfold agree, bind. destruct (m s) as [s1 [a|e]], (n s) as [s2 [b|e']]; cbn; intros [E H] K; subst; try contradiction; auto.
Qed.
Lemma agree_refl {A} (x : st * res A) : agree eq x x.
Proof. split; [reflexivity|]. destruct (snd x); reflexivity. Qed.

Section Two.
  Context {A B : Type} (R : A -> B -> Prop) (Inv : st -> list id -> Prop) (cond : node -> bool) (body : A -> id -> M A) (body' : B -> id -> M B).
  Context (Hstep : forall s i rem acc s' acc' n, Inv s (i :: rem) -> st_heap s !! i = Some n ->
     visit cond body' acc i s = (s', Ok acc') -> Inv s' rem /\ forall j, j ∈ i :: rem -> kids_same (st_heap s) (st_heap s') j).
  Context (Hsame : forall s i rem a b n, Inv s (i :: rem) -> st_heap s !! i = Some n -> cond n = true -> R a b -> agree R (body a i s) (body' b i s)).
  Lemma trav_two : forall fuel ts a b s, R a b -> Inv s (doc_orders ts) -> Forall (kid_tree (st_heap s)) ts ->
    agree R (trav_loop fuel cond body a (map root ts) s) (trav_loop fuel cond body' b (map root ts) s).
  Proof using Hstep Hsame.
    induction fuel as [|fuel IH]; intros [|[i cs] ts] a b s HR HI Hts; [split; [reflexivity|exact HR]|split; reflexivity|split; [reflexivity|exact HR]|].
    apply list.Forall_cons in Hts as [Ht Hts]. inversion Ht as [? n ? Hi Hk Hcs]; subst. cbn [map root trav_loop].
    eapply (agree_bind eq); [apply agree_refl|]. intros n0 n0' s0 H0 ->. apply get_node_ok in H0 as [-> H0]. assert (n0' = n) as -> by congruence.
    eapply (agree_bind R).
    - destruct (cond n) eqn:Ec; [eapply (Hsame s i (flat_map doc_order cs ++ doc_orders ts)); [exact HI|exact Hi|exact Ec|exact HR]|split; [reflexivity|exact HR]].
    - intros a1 b1 s1 E HR1.
      assert (Hv : visit cond body' b i s = (s1, Ok b1)) by (unfold visit, bind; rewrite (get_node_eq _ _ _ Hi); exact E).
      destruct (Hstep s i (flat_map doc_order cs ++ doc_orders ts) b s1 b1 n) as [HI1 Hs1]; auto.
      destruct (Hs1 i ltac:(constructor) n Hi) as (n1 & Hi1 & Hk1).
      eapply (agree_bind eq); [apply agree_refl|]. intros c1 c2 s2 H2 ->. apply children_of_ok in H2 as (-> & n2 & Hn2 & ->).
      assert (n2 = n1) as -> by congruence. rewrite Hk1, Hk, <- map_app. apply IH; [exact HR1| |].
      + rewrite doc_orders_app. exact HI1.
      + apply (kid_trees_same (st_heap s)); [apply list.Forall_app; auto|]. intros j Hj. apply Hs1. constructor. rewrite doc_orders_app in Hj. exact Hj.
  Qed.
  Lemma traverse_two fuel t a b s : R a b -> Inv s (doc_order t) -> kid_tree (st_heap s) t ->
    agree R (for_traverse fuel cond body a (root t) s) (for_traverse fuel cond body' b (root t) s).
  Proof using Hstep Hsame.
    intros HR HI Ht. unfold for_traverse. change [root t] with (map root [t]). apply trav_two; [exact HR| |auto].
    unfold doc_orders. cbn. rewrite app_nil_r. exact HI.
  Qed.
End Two.

Section Reuse.
  Context (d : labels).
  Lemma lookup_other e l : lookup_label d l = None -> lookup_label (d ++ e) l = lookup_label e l.
  Proof. intros H. rewrite lookup_label_app, H. reflexivity. Qed.

  (** ** Labels *)
  Definition cinv (s : st) (rem : list id) : Prop := NoDup rem /\ forall x, x ∈ rem -> label_of (st_heap s) x <> [] -> lookup_label d (label_of (st_heap s) x) = None.
  Lemma collect_two fuel t s : tree_at (st_heap s) None t -> cinv s (doc_order t) ->
    agree (fun a b => a = d ++ b) (collect_labels fuel d (root t) s) (collect_labels fuel [] (root t) s).
  Proof.
    intros Ht HI. unfold collect_labels. eapply (traverse_two _ cinv); [| | |exact HI|eapply tree_at_kid, Ht].
    - intros s0 i rem acc s' acc' n [Hnd I0] Hi Hv. apply list.NoDup_cons in Hnd as [Hni Hnd].
      pose proof (ch_run _ _ _ _ _ (ch_visit _ (only_refl _) (only_trans _) (cond_attr a_label) _ acc i (only_collect_body acc i)) Hv) as Ho.
      split; [|intros j _; eapply same_structure_kids, only_structure, Ho].
      split; [exact Hnd|]. intros x Hx Hl. assert (Hne : x <> i) by (intros ->; contradiction).
      unfold label_of in *. rewrite (value_only _ _ _ _ _ Ho) in * by tauto. apply I0; [constructor; exact Hx|exact Hl].
    - intros s0 i rem a b n [_ I0] Hi Hc ->. unfold collect_body. eapply (agree_bind eq); [apply agree_refl|]. intros l l' s1 Hg ->.
      apply get_str_ok in Hg as (-> & m & Hm & Hg). assert (m = n) as -> by congruence. unfold cond_attr in Hc. rewrite Hg in Hc.
      assert (El : label_of (st_heap s0) i = l') by (unfold label_of, value; rewrite Hi, Hg; reflexivity).
      rewrite lookup_other by (rewrite <- El; apply I0; [constructor|rewrite El; intros ->; discriminate Hc]).
      destruct (lookup_label b l').
      + eapply (agree_bind eq); [apply agree_refl|]. intros u u' s2 _ _. eapply (agree_bind eq); [apply agree_refl|]. intros v v' s3 _ _. split; reflexivity.
      + split; [reflexivity|]. cbn. symmetry; apply app_assoc.
    - symmetry. apply app_nil_r.
  Qed.

  (** ** References *)
  Definition keys_free (h : gmap id node) (x : id) : Prop := forall l,
    value h x a_target = Some (VStr l) \/ (exists ks, value h x a_targetlabels = Some (VStrs ks) /\ l ∈ ks) -> lookup_label d l = None.
  Lemma mapM_same (e : labels) ls : (forall l, l ∈ ls -> lookup_label d l = None) -> forall s,
    agree eq (mapM (fun l => label_to_node (d ++ e) l DefUnknownBibitem) ls s) (mapM (fun l => label_to_node e l DefUnknownBibitem) ls s).
  Proof.
    induction ls as [|l ls IH]; intros H s; [split; reflexivity|]. cbn [mapM].
    assert (E : label_to_node (d ++ e) l DefUnknownBibitem = label_to_node e l DefUnknownBibitem) by (unfold label_to_node; rewrite lookup_other; [reflexivity|apply H; constructor]).
    rewrite E. eapply (agree_bind eq); [apply agree_refl|]. intros a b s1 _ ->. eapply (agree_bind eq); [apply IH; intros; apply H; constructor; assumption|].
    intros a b' s2 _ ->. split; reflexivity.
  Qed.
  Lemma resolve_same fuel e k i s n : st_heap s !! i = Some n -> keys_free (st_heap s) i ->
    agree eq (resolve_body fuel (d ++ e) k i s) (resolve_body fuel e k i s).
  Proof.
    intros Hi HF. unfold resolve_body. eapply (agree_bind eq); [apply agree_refl|]. intros c c' s1 Hc ->. apply cls_of_ok in Hc as (-> & m & Hm & ->).
    assert (m = n) as -> by congruence.
    destruct (subclass (n_cls n) CPendingReference); [|destruct (subclass (n_cls n) CPendingCite); [|apply agree_refl]].
    - eapply (agree_bind eq); [|intros u u' s2 _ _; apply agree_refl]. unfold resolve_reference.
      eapply (agree_bind eq); [apply agree_refl|]. intros l l' s1 Hg ->. apply get_str_ok in Hg as (-> & m & Hm' & Hg).
      assert (E : label_to_node (d ++ e) l' DefError = label_to_node e l' DefError).
      { unfold label_to_node. rewrite lookup_other; [reflexivity|]. apply HF. left. unfold value. rewrite Hm'. exact Hg. }
      rewrite E. apply agree_refl.
    - eapply (agree_bind eq); [|intros u u' s2 _ _; apply agree_refl]. unfold resolve_cite.
      eapply (agree_bind eq); [apply agree_refl|]. intros ls ls' s1 Hg ->. unfold get_strs in Hg.
      eapply (agree_bind eq); [apply mapM_same|intros a b s2 _ ->; apply agree_refl].
      intros l Hl. apply HF. right. exists ls'. split; [|exact Hl].
      apply bind_ok in Hg as (s2 & v & Hv & Hg). apply getattr_ok in Hv as (-> & m & Hm' & Hv). destruct v; try discriminate Hg. apply ret_ok in Hg as [-> ->].
      unfold value. rewrite Hm'. exact Hv.
  Qed.
  Definition kinv (e : labels) (s : st) (rem : list id) : Prop := trav_inv e s rem /\ forall x, x ∈ rem -> keys_free (st_heap s) x.
  Lemma references_two fuel e t s : manuscript s t -> no_error_labels e (st_heap s) -> (forall x, x ∈ doc_order t -> keys_free (st_heap s) x) ->
    agree eq (resolve_pending_references fuel (d ++ e) (root t) s) (resolve_pending_references fuel e (root t) s).
  Proof.
    intros Hm He HF. pose proof (manuscript_good _ _ Hm) as Hg. pose proof (ms_document _ _ Hm) as [Ht Hnd].
    unfold resolve_pending_references. eapply (agree_bind eq); [|intros u u' s2 _ _; apply agree_refl].
    eapply (traverse_two eq (kinv e)); [| |reflexivity| |eapply tree_at_kid, Ht].
    - intros s0 i rem acc s' acc' n [I0 K0] Hi Hv. destruct (resolve_trav_step _ _ _ _ _ _ _ _ _ I0 Hi Hv) as [I1 Hk]. split; [|exact Hk]. split; [exact I1|].
      destruct I0 as (Hg0 & He0 & _ & Hex & _).
      intros x Hx. assert (Hx' : x ∈ i :: rem) by (constructor; exact Hx). specialize (K0 x Hx').
      destruct (resolve_visit_swaps _ _ _ _ _ _ _ Hg0 He0 Hv) as [-> |(r & nr & bl & SW)]; [exact K0|].
      destruct (Hex x Hx') as [m Hm']. destruct (sw_old _ _ _ _ _ _ SW _ _ Hm') as (m' & E1 & _ & _ & _ & E4 & _).
      assert (V : forall a, a <> a_backlinks -> value (st_heap s') x a = value (st_heap s0) x a) by (intros a Ha; unfold value; rewrite E1, Hm'; apply E4, Ha).
      unfold keys_free. rewrite !V by discriminate. exact K0.
    - intros s0 i rem a b n [I0 K0] Hi Hc ->. eapply resolve_same; [exact Hi|]. apply K0. constructor.
    - split; [|exact HF]. split; [assumption|]. split; [assumption|]. split; [assumption|]. split.
      + intros x Hx. eapply manuscript_some; eassumption.
      + intros l1 x l2 q E Hq. eapply document_parent_before; [split|..]; eassumption.
  Qed.

  Theorem transform_reused fuel t s : ready s t -> not_used d (st_heap s) t ->
    agree (fun a b => a = d ++ b) (transform fuel d (root t) s) (transform fuel [] (root t) s).
  Proof.
    intros (Hm & _ & Herr) HU. unfold transform. eapply (agree_bind eq); [apply agree_refl|]. intros u u' s0 E0 _.
    assert (Eh : st_heap s0 = st_heap s) by (injection E0 as <- _; reflexivity).
    assert (Hm0 : manuscript s0 t) by (eapply (only_manuscript (fun _ _ => True)); [|exact Hm]; exact (ch_run _ _ _ _ _ (only_log _ _) E0)).
    rewrite <- Eh in HU, Herr. clear Eh E0 Hm s. rename s0 into s. pose proof (ms_document _ _ Hm0) as [Ht Hnd].
    eapply (agree_bind (fun a b => a = d ++ b)).
    { apply collect_two; [exact Ht|]. split; [exact Hnd|]. intros x Hx Hl. apply (HU x); [exact Hx|]. left. auto. }
    intros a e s1 E1 ->. destruct (collect_labels_ok _ _ _ _ _ _ (conj Ht Hnd) E1) as (Ho & Hk & Hv).
    pose proof (only_manuscript _ _ _ _ Ho Hm0) as Hm1.
    assert (He : no_error_labels e (st_heap s1)).
    { intros l x Hl. rewrite Hk in Hl. cbn in Hl. destruct l as [|c l]; [discriminate Hl|]. apply find_label_first in Hl; [|discriminate]. destruct Hl as (Hne & Hx & p & q & El & _).
      assert (Hin : x ∈ doc_order t) by (rewrite El; apply elem_of_app; right; constructor).
      destruct (manuscript_some _ _ _ Hm1 Hin) as [n Hn]. exists n. split; [exact Hn|]. intros Ec.
      assert (Hc : class_of (st_heap s) x CError).
      { destruct Ho as (_ & _ & Oh). specialize (Oh x). rewrite Hn in Oh. destruct (st_heap s !! x) as [m|] eqn:Em; [|contradiction]. exists m. split; [exact Em|]. destruct Oh as [Oc _]. congruence. }
      specialize (Herr x Hin Hc). congruence. }
    assert (HF : forall x, x ∈ doc_order t -> keys_free (st_heap s1) x).
    { intros x Hx l Hl. apply (HU x l Hx). right. rewrite !(value_only _ _ _ _ _ Ho) in Hl by (intros [_ ?]; discriminate). exact Hl. }
    eapply (agree_bind eq); [apply references_two; eassumption|]. intros v v' s2 _ _.
    do 6 (eapply (agree_bind eq); [apply agree_refl|intros ? ? ? _ _]). split; reflexivity.
  Qed.
End Reuse.

Theorem transformer_other fuel d t s : ready s t -> not_used d (st_heap s) t -> same_outcome d (transform fuel d (root t) s) (transform fuel [] (root t) s).
Proof. intros R U. exact (transform_reused d fuel t s R U). Qed.
Theorem transformer_second f0 fuel t0 t s s1 d0 : ready s t0 -> transform f0 [] (root t0) s = (s1, Ok d0) -> ready s1 t ->
  (forall x y l, x ∈ doc_order t -> uses (st_heap s1) x l -> y ∈ doc_order t0 -> label_of (st_heap s) y <> l) ->
  same_outcome d0 (transform fuel d0 (root t) s1) (transform fuel [] (root t) s1).
Proof.
  intros (Hm & _) H0 R U. apply transformer_other; [exact R|]. intros x l Hx Hl. specialize (U x). unfold transform in H0.
  apply bind_ok in H0 as (s' & u & E0 & H0). assert (Eh : st_heap s' = st_heap s) by (injection E0 as <- _; reflexivity).
  apply bind_ok in H0 as (s2 & d & E1 & H0).
  assert (Hm0 : manuscript s' t0) by (eapply (only_manuscript (fun _ _ => True)); [|exact Hm]; exact (ch_run _ _ _ _ _ (only_log _ _) E0)).
  destruct (collect_labels_ok _ _ _ _ _ _ (ms_document _ _ Hm0) E1) as (_ & Hk & _).
  assert (d0 = d) as -> by (do 7 (apply bind_ok in H0 as (? & ? & _ & H0)); apply ret_ok in H0 as [_ H0]; congruence).
  rewrite Hk. cbn. destruct l as [|c l]; [reflexivity|]. apply find_label_none. intros y Hy. rewrite Eh. exact (U y _ Hx Hl Hy).
Qed.
