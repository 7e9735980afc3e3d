(** From the manuscript of the source to the nodes in memory, before and after transform. *)
From Verif Require Export SpecRender ResultAll.
From Verif Require Import ResultSteps TreeFacts Forget Consistency NodeOps Resolve ResolveAll Result Monad.
Local Open Scope list_scope.

Definition stands (h : gmap id node) (x : id) (b : atree) : Prop :=
  exists n us, h !! x = Some n /\ n_cls n = a_class b /\ n_attrs n = a_attrs b /\ kids n = map root us /\ Forall2 (SpecParse.holds h (Some x)) us (a_kids b).
Lemma holds_root h p t a : SpecParse.holds h p t a -> stands h (root t) a.
Proof. intros H. destruct H as [p i n us ts Hn Hp Hk Hf]. exists n, us. auto. Qed.
Lemma holds_all h : forall a p t, SpecParse.holds h p t a -> Forall2 (stands h) (doc_order t) (a_preorder a).
Proof.
  fix IH 1. intros a p t H. pose proof (holds_root _ _ _ _ H) as Hr. destruct a as [c m ts]. inversion H as [p0 i n us ts0 Hn Hp Hk Hf E1 E2 E3]. subst. cbn [doc_order a_preorder root] in *.
  constructor; [exact Hr|]. clear Hr H Hk. revert us Hf. induction ts as [|b ts IHt]; intros us Hf; inversion Hf as [|u b0 us0 ts1 Hu Hus E4 E5]; subst; cbn; [constructor|].
  apply Forall2_app; [exact (IH _ _ _ Hu)|]. apply IHt, Hus.
Qed.
Lemma holds_find h a t x : Forall2 (stands h) (doc_order t) (a_preorder a) -> x ∈ doc_order t -> exists b, In b (a_preorder a) /\ stands h x b.
Proof. intros H Hx. apply elem_of_list_lookup in Hx as [k Hk]. destruct (Forall2_lookup_l _ _ _ _ _ H Hk) as (b & Hb & S). exists b. split; [|exact S]. apply elem_of_list_In, elem_of_list_lookup. eauto. Qed.
Lemma holds_back h a t b : Forall2 (stands h) (doc_order t) (a_preorder a) -> In b (a_preorder a) -> exists x, x ∈ doc_order t /\ stands h x b.
Proof. intros H Hx. apply elem_of_list_In, elem_of_list_lookup in Hx as [k Hk]. destruct (Forall2_lookup_r _ _ _ _ _ H Hk) as (x & Hb & S). exists x. split; [|exact S]. apply elem_of_list_lookup. eauto. Qed.
Lemma stands_kid h x b n y : stands h x b -> h !! x = Some n -> y ∈ kids n -> exists k, In k (a_kids b) /\ stands h y k.
Proof.
  intros (m & us & Hm & _ & _ & Hk & Hf) Hn Hy. rewrite Hn in Hm. injection Hm as <-. rewrite Hk in Hy. apply elem_of_list_In, in_map_iff in Hy as (u & <- & Hu).
  apply elem_of_list_In, elem_of_list_lookup in Hu as [i Hi]. destruct (Forall2_lookup_l _ _ _ _ _ Hf Hi) as (k & Hk2 & Hh). exists k.
  split; [apply elem_of_list_In, elem_of_list_lookup; eauto|]. eapply holds_root, Hh.
Qed.
Lemma stands_class h x b c : stands h x b -> class_of h x c <-> a_class b = c.
Proof.
  intros (n & us & Hn & Hc & _). split; [intros (m & Hm & <-); rewrite Hn in Hm; injection Hm as <-; congruence|]. intros <-. exists n. auto.
Qed.
Lemma pending_image s t s' t' f cites y : result s t s' t' f cites -> y ∈ doc_order t -> is_pending (st_heap s) y ->
  exists c, class_of (st_heap s') (f y) c /\ (c = CReference \/ c = CError \/ c = CCite).
Proof.
  intros R Hy [H|[H|H]].
  - destruct (rs_refs _ _ _ _ _ _ R y Hy H) as (lbl & _ & [(x & _ & Hc & _)|(_ & Hc & _)]); eauto.
  - assert (Hin : In y (List.filter (is_cite (st_heap s)) (doc_order t))).
    { apply filter_In. split; [apply elem_of_list_In, Hy|]. destruct H as (n & Hn & Hc). unfold is_cite. rewrite Hn, Hc. reflexivity. }
    apply In_nth_error in Hin as [k Hk]. destruct (nth_error cites k) as [ts|] eqn:E.
    + destruct (rs_cites _ _ _ _ _ _ R k y ts Hk E) as (Hc & _). eauto.
    + apply nth_error_None in E. rewrite (rs_cites_len _ _ _ _ _ _ R) in E. assert (k < length (List.filter (is_cite (st_heap s)) (doc_order t))); [|lia]. apply nth_error_Some. rewrite Hk. discriminate.
  - destruct (rs_prevs _ _ _ _ _ _ R y Hy H) as (step & v & k & z & _ & _ & _ & _ & Hc & _). eauto.
Qed.
Lemma class_det h x c d : class_of h x c -> class_of h x d -> c = d.
Proof. intros (n & Hn & <-) (m & Hm & <-). rewrite Hn in Hm. injection Hm as ->. reflexivity. Qed.
(** A node of the result of a class that transform does not make was there before. *)
Lemma result_old s t s' t' f cites x c : result s t s' t' f cites -> x ∈ doc_order t' -> class_of (st_heap s') x c ->
  c ∉ [CStatement; CSubproof; CItem; CItemize; CReference; CError; CCite] ->
  x ∈ doc_order t /\ ~ is_pending (st_heap s) x /\ class_of (st_heap s) x c /\ f x = x.
Proof.
  intros R Hx Hc Hn. pose proof (rs_transformed _ _ _ _ _ _ R) as TF.
  destruct (decide (x ∈ map f (doc_order t))) as [Hin|Hin].
  - apply elem_of_list_In, in_map_iff in Hin as (y & E & Hy). apply elem_of_list_In in Hy.
    destruct (decide (pendingb (st_heap s) y = true)) as [Hp|Hp].
    + apply Result.pending_iff in Hp. destruct (pending_image _ _ _ _ _ _ y R Hy Hp) as (d & Hd & Hd'). rewrite E in Hd. pose proof (class_det _ _ _ _ Hc Hd). subst d.
      exfalso. apply Hn. destruct Hd' as [E3|[E3|E3]]; rewrite E3; set_solver.
    + rewrite Result.pending_iff in Hp. pose proof (tf_same _ _ _ _ _ TF y Hy Hp) as E2. rewrite E in E2. subst y. split; [exact Hy|]. split; [exact Hp|]. split; [|exact E].
      destruct (tf_node _ _ _ _ _ TF x Hy Hp) as (n & n' & Hh & Hh' & Hcl & _). destruct Hc as (m & Hm & <-). rewrite Hh' in Hm. injection Hm as <-. exists n. auto.
  - destruct (tf_added _ _ _ _ _ TF x Hx Hin) as (_ & d & Hd & Hd'). pose proof (class_det _ _ _ _ Hc Hd). subst d. exfalso. apply Hn. set_solver.
Qed.
(** [source] is stored in the manuscript, which changes nothing else. *)
Lemma sourced_in c a x : In x (a_preorder (sourced c a)) -> exists x0, In x0 (a_preorder a) /\ a_class x = a_class x0 /\ a_kids x = a_kids x0.
Proof.
  destruct a as [k m ts]. cbn [sourced a_preorder]. intros [<-|H]; [exists (A k m ts); split; [left|]; auto|]. exists x. split; [right|]; auto.
Qed.
Lemma sourced_placed c a : formulas_placed a -> formulas_placed (sourced c a).
Proof.
  intros H. split.
  - intros x k Hx Hk Hc. destruct (sourced_in _ _ _ Hx) as (x0 & H0 & -> & E). rewrite E in Hk. eapply (fp_parent _ H); eauto.
  - intros x k Hx Hc Hk. destruct (sourced_in _ _ _ Hx) as (x0 & H0 & E0 & E). rewrite E in Hk. rewrite E0 in Hc. eapply (fp_contents _ H); eauto.
  - intros x l k y Hx Hk. destruct (sourced_in _ _ _ Hx) as (x0 & H0 & E0 & E). rewrite E in Hk. eapply (fp_last _ H); eauto.
Qed.
Lemma in_without x l xs : In x (without xs l) <-> In x l /\ x ∉ xs.
Proof. unfold without. rewrite <- !elem_of_list_In, elem_of_list_filter. tauto. Qed.
Lemma without_id xs l : (forall x, In x l -> x ∉ xs) -> without xs l = l.
Proof.
  unfold without. induction l as [|y l IH]; intros H; [reflexivity|]. rewrite filter_cons_True by (apply H; left; reflexivity). f_equal. apply IH. intros x Hx. apply H. right. exact Hx.
Qed.
Lemma later_class h t x : x ∈ later_contents h t -> class_of h x CContents.
Proof.
  unfold later_contents. intros H. apply elem_of_list_In in H. assert (G : In x (List.filter (is_contents h) (doc_order t))).
  { destruct (List.filter _ _); [destruct H|right; exact H]. }
  apply filter_In in G as [_ G]. unfold is_contents in G. destruct (h !! x) as [n|] eqn:E; [|discriminate]. exists n. split; [exact E|]. destruct (n_cls n); try discriminate G. reflexivity.
Qed.
Lemma math_after s t s' t' f cites a : manuscript s t -> SpecParse.holds (st_heap s) None t a -> formulas_placed a -> a_class a = CManuscript ->
  result s t s' t' f cites -> math_placed s' t'.
Proof.
  intros M Hh F Hr R. pose proof (rs_transformed _ _ _ _ _ _ R) as TF. pose proof (holds_all _ _ _ _ Hh) as HA. pose proof (tf_manuscript _ _ _ _ _ TF) as M'.
  assert (MB : forall x, x ∈ doc_order t' -> class_of (st_heap s') x CMathBlock -> exists p l, parent_is (st_heap s) x p /\ p ∈ doc_order t /\
    f x = x /\ class_of (st_heap s) x CMathBlock /\ x ∈ doc_order t /\ class_of (st_heap s) p CParagraph /\ kids_are (st_heap s) p l /\ kids_are (st_heap s') p (map f l) /\ In x l /\ parent_is (st_heap s') x p).
  { intros x Hx Hc. destruct (result_old _ _ _ _ _ _ _ _ R Hx Hc) as (H1 & H2 & H3 & H4); [set_solver|].
    destruct (holds_find _ _ _ _ HA H1) as (bx & Hbx & Sx).
    destruct (ms_document _ _ M) as [Ht Hnd]. destruct (tree_at_parent_in _ _ _ _ Ht H1) as [E|(p & Hp & Hpd)].
    { subst x. pose proof (holds_root _ _ _ _ Hh) as S. apply (stands_class _ _ _ _ S) in H3. congruence. }
    destruct (holds_find _ _ _ _ HA Hpd) as (b & Hb & S). destruct (tree_at_in _ _ _ _ Ht Hpd) as [n Hn].
    assert (Hxk : x ∈ kids n). { apply (cons_parent _ (ms_consistent _ _ M)) in Hp. destruct Hp as (n0 & Hn0 & Hk0). rewrite Hn in Hn0. injection Hn0 as <-. exact Hk0. }
    destruct (stands_kid _ _ _ _ _ S Hn Hxk) as (k & Hk & Sk). apply (stands_class _ _ _ _ Sk) in H3 as Hck.
    assert (Hcp : class_of (st_heap s) p CParagraph) by (apply (stands_class _ _ _ _ S); eapply (fp_parent _ F); eauto).
    exists p, (kids n). assert (Hka : kids_are (st_heap s) p (kids n)) by (exists n; auto).
    assert (Hnp : ~ is_pending (st_heap s) p). { intros [H|[H|H]]; pose proof (class_det _ _ _ _ Hcp H); discriminate. }
    assert (Hk' : kids_are (st_heap s') p (map f (kids n))).
    { rewrite <- (without_id (later_contents (st_heap s) t) (kids n)).
      - eapply (rs_kids _ _ _ _ _ _ R); eauto; discriminate.
      - intros y Hy Hl. apply later_class in Hl. apply elem_of_list_In in Hy. destruct (stands_kid _ _ _ _ _ S Hn Hy) as (ky & Hky & Sy).
        apply (stands_class _ _ _ _ Sy) in Hl. eapply (fp_contents _ F b ky); eauto. apply (stands_class _ _ _ _ S), Hcp. }
    apply elem_of_list_In in Hxk. split; [exact Hp|]. do 8 (split; [assumption|]).
    apply (cons_parent _ (ms_consistent _ _ M')). destruct Hk' as (n' & Hn' & E). exists n'. split; [exact Hn'|]. rewrite E. apply elem_of_list_In, in_map_iff. exists x. auto. }
  split.
  - intros x _. split.
    + destruct (value (st_heap s') x a_must_close_p_tag) as [v|] eqn:E; [|reflexivity]. apply value_node in E as (n & Hn & Hv). destruct (rs_typed _ _ _ _ _ _ R _ _ _ _ Hn Hv) as [H _]. discriminate H.
    + destruct (value (st_heap s') x a_followed_by_dot) as [v|] eqn:E; [|reflexivity]. apply value_node in E as (n & Hn & Hv). destruct (rs_typed _ _ _ _ _ _ R _ _ _ _ Hn Hv) as [H _]. discriminate H.
  - intros x Hx Hc. destruct (MB x Hx Hc) as (p & l & Hp & Hpd & Hf & _ & _ & Hcp & Hk & Hk' & Hxl & Hp'). exists p. split; [exact Hp'|].
    assert (Hnp : ~ is_pending (st_heap s) p). { intros [H|[H|H]]; pose proof (class_det _ _ _ _ Hcp H); discriminate. }
    destruct (tf_node _ _ _ _ _ TF p Hpd Hnp) as (n & n' & Hn & Hn' & E & _). exists n'. split; [exact Hn'|]. destruct Hcp as (m & Hm & Ec). congruence.
  - intros p n l x y Hp Hn Hk Hc Hy Hcy.
    assert (Hin : forall z, In z (kids n) -> z ∈ doc_order t' /\ parent_is (st_heap s') z p).
    { intros z Hz. assert (Hzp : parent_is (st_heap s') z p) by (apply (cons_parent _ (ms_consistent _ _ M')); exists n; split; [exact Hn|]; apply elem_of_list_In, Hz).
      split; [|exact Hzp]. eapply (child_in M' p (kids n)); [exact Hp|exists n; auto|apply elem_of_list_In, Hz]. }
    assert (Hxn : In x (kids n)) by (rewrite Hk; apply in_or_app; right; left; reflexivity).
    assert (Hyn : In y (kids n)) by (rewrite Hk; apply in_or_app; left; apply elem_of_list_In, Hy).
    destruct (Hin x Hxn) as [Hxd Hxp]. destruct (Hin y Hyn) as [Hyd Hyp].
    destruct (MB x Hxd Hc) as (q & lx & _ & Hqd & Hf & Hcx & Hxt & Hcp & (nq & Hnq & Ekq) & (n' & Hn' & Ek') & Hxl & Hq). 
    assert (q = p). { destruct Hq as (m1 & Hm1 & E1). destruct Hxp as (m2 & Hm2 & E2). rewrite Hm1 in Hm2. injection Hm2 as <-. congruence. } subst q.
    rewrite Hn in Hn'. injection Hn' as <-. rewrite Hk in Ek'.
    destruct (MB y Hyd Hcy) as (_ & _ & _ & _ & Hfy & Hcy0 & Hyt & _).
    symmetry in Ek'. destruct (map_eq_app _ _ _ _ Ek') as (l1 & l2 & El & E1 & E2). destruct l2 as [|x2 [|? ?]]; try discriminate E2. cbn in E2. injection E2 as E2.
    destruct (holds_find _ _ _ _ HA Hqd) as (b & Hb & S). pose proof S as (nb & us & Hnb & Hcb & _ & Hkb & Hfb). rewrite Hnq in Hnb. injection Hnb as <-.
    rewrite Ekq, El in Hkb. symmetry in Hkb. destruct (map_eq_app _ _ _ _ Hkb) as (u1 & u2 & Eu & E3 & E4). destruct u2 as [|u [|? ?]]; try discriminate E4. cbn in E4. injection E4 as E4.
    rewrite Eu in Hfb. apply Forall2_app_inv_l in Hfb as (k1 & k2 & F1 & F2 & Eb). destruct k2 as [|k [|? ?]]; [inversion F2| |inversion F2 as [|? ? ? ? ? F3]; inversion F3].
    assert (Hld : forall z, In z lx -> z ∈ doc_order t) by (intros z Hz; eapply (child_in M p lx); [exact Hqd|exists nq; auto|apply elem_of_list_In, Hz]).
    assert (Ex : x2 = x). { apply (tf_inj _ _ _ _ _ TF); [apply Hld; rewrite El; apply in_or_app; right; left; reflexivity|exact Hxt|congruence]. }
    assert (Hu : SpecParse.holds (st_heap s) (Some p) u k) by (inversion F2; assumption). apply holds_root in Hu. rewrite E4, Ex in Hu.
    rewrite <- E1 in Hy. apply elem_of_list_In, in_map_iff in Hy as (y0 & Ey & Hy0).
    assert (y0 = y). { apply (tf_inj _ _ _ _ _ TF); [apply Hld; rewrite El; apply in_or_app; left; exact Hy0|exact Hyt|congruence]. } subst y0.
    rewrite <- E3 in Hy0. apply in_map_iff in Hy0 as (uy & Ery & Huy). apply elem_of_list_In, elem_of_list_lookup in Huy as [i Hi]. destruct (Forall2_lookup_l _ _ _ _ _ F1 Hi) as (ky & Hky & Hhy). apply holds_root in Hhy. rewrite Ery in Hhy.
    eapply (fp_last _ F b k1 k ky Hb Eb).
    + apply (stands_class _ _ _ _ Hu), Hcx.
    + apply elem_of_list_In, elem_of_list_lookup. eauto.
    + apply (stands_class _ _ _ _ Hhy), Hcy0.
Qed.
