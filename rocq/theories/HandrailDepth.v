(** Handrail depth. *)
From Verif Require Export Passes.
From Verif Require Import Queries Sexp Built Meta NodeOps Monad.

Definition depth_attr (_ : id) (b : attr) : Prop := b = a_handrail_depth.
Definition deeper (k : nat) (v v' : option val) : Prop :=
  (k = 0 /\ v' = v) \/ exists d, v = Some (VInt d) /\ v' = Some (VInt (d + Z.of_nat k)).
Lemma deeper_trans k k' v v1 v' : deeper k v v1 -> deeper k' v1 v' -> deeper (k + k') v v'.
Proof.
  intros [[-> ->]|(d & -> & ->)] [[-> ->]|(d' & E & ->)]; unfold deeper.
  - auto.
  - right. exists d'. rewrite E. split; [reflexivity|]. do 2 f_equal.
  - right. exists d. split; [reflexivity|]. do 2 f_equal. lia.
  - right. exists d. split; [reflexivity|]. injection E as <-. do 2 f_equal. lia.
Qed.
Lemma deeper_zero v v' : deeper 0 v v' -> v' = v.
Proof. intros [[_ ->]|(d & -> & ->)]; [reflexivity|]. do 2 f_equal. lia. Qed.

Lemma foldM_app_ok {A B} (f : B -> A -> M B) l l' : forall b s s' r,
  foldM f b (l ++ l') s = (s', Ok r) -> exists s1 b1, foldM f b l s = (s1, Ok b1) /\ foldM f b1 l' s1 = (s', Ok r).
Proof.
  induction l as [|a l IH]; intros b s s' r H; [exists s, b; auto|].
  cbn [app foldM] in H. apply bind_ok in H as (s1 & b1 & H1 & H). apply IH in H as (s2 & b2 & H & H2).
  exists s2, b2. split; [|assumption]. cbn [foldM]. unfold bind. rewrite H1. assumption.
Qed.
Lemma node_eqM_ok fuel x y s s' b : node_eqM fuel x y s = (s', Ok b) -> s' = s /\ node_eq fuel (st_heap s) x y = Some b.
Proof. unfold node_eqM. destruct (node_eq fuel (st_heap s) x y); [|discriminate]. intros [= <- <-]. auto. Qed.
Lemma ch_node_eqM (R : st -> st -> Prop) fuel x y : (forall s, R s s) -> changes R (node_eqM fuel x y).
Proof. intros Hr s. unfold node_eqM. destruct (node_eq fuel (st_heap s) x y); apply Hr. Qed.
Lemma depth_inner_only fuel nd u y : changes (only (fun j b => j = y /\ b = a_handrail_depth)) (depth_inner fuel nd u y).
Proof.
  unfold depth_inner. apply ch_bind; [apply only_trans|apply ch_node_eqM, only_refl|]. intros [].
  - apply ch_ret, only_refl.
  - apply ch_bind; [apply only_trans|apply ch_get_int; [apply only_refl|apply only_trans]|]. intros d.
    apply only_setattr. auto.
Qed.
Lemma depth_inner_depth fuel nd u y : changes (only depth_attr) (depth_inner fuel nd u y).
Proof. intros s. eapply only_weaken; [|apply depth_inner_only]. intros j b [_ ->]. reflexivity. Qed.
Lemma depth_outer_depth fuel u nd : changes (only depth_attr) (depth_outer fuel u nd).
Proof.
  unfold depth_outer. apply ch_for_traverse; [apply only_refl|apply only_trans|]. intros acc i. apply depth_inner_depth.
Qed.
Lemma depth_class_depth fuel tree nc : changes (only depth_attr) (add_handrail_depth_for_class fuel tree nc).
Proof.
  unfold add_handrail_depth_for_class. apply ch_for_traverse; [apply only_refl|apply only_trans|].
  intros acc i. apply depth_outer_depth.
Qed.

(** A node is different from its proper descendants for [==], because the
    parents differ. *)
Lemma descendant_not_equal fuel h p t y b :
  consistent h -> tree_at h p t -> y ∈ doc_order t -> y <> root t ->
  node_eq fuel h y (root t) = Some b -> b = false.
Proof.
  intros Hc Ht Hy Hne E. destruct b; [|reflexivity]. exfalso.
  destruct (tree_at_doc_order _ _ _ _ Hc Ht Hy) as [?|Ha]; [contradiction|].
  destruct (tree_at_in _ _ _ _ Ht Hy) as (ny & Hny).
  destruct (tree_at_in _ _ _ _ Ht (root_in_doc_order t)) as (nt & Hnt).
  destruct (node_eq_agree _ _ _ _ _ _ Hny Hnt E) as [Ep _].
  destruct (n_parent ny) as [q|] eqn:Eq.
  - assert (Hq : parent_is h y q) by (exists ny; auto).
    assert (Hq' : parent_is h (root t) q) by (exists nt; auto).
    apply (cons_acyclic _ Hc (root t)).
    destruct (ancestor_parent _ _ _ _ Hq Ha) as [E'|Ha']; [rewrite <- E' in Hq'; constructor; assumption|].
    eapply anc_step; eassumption.
  - inversion Ha as [? q (m & ? & ?)|? q ? (m & ? & ?)]; subst; congruence.
Qed.

Lemma comparable_only P s s' : only P s s' -> (forall j b, P j b -> b = a_handrail_depth) -> all_comparable s -> all_comparable s'.
Proof.
  intros (_ & _ & H) HP Hc i n Hi. specialize (H i). rewrite Hi in H. destruct (st_heap s !! i) as [m|] eqn:E; [|contradiction].
  destruct H as (Ecl & _ & _ & Ha). intros a. rewrite Ecl. intros Hin. rewrite Ha.
  - apply (Hc i m E). assumption.
  - intros Hp. apply HP in Hp. subst a. unfold eq_attrs in Hin. apply in_app_or in Hin as [Hin|Hin].
    + simpl in Hin. intuition discriminate.
    + destruct (subclass (n_cls m) CBaseReference); simpl in Hin; intuition discriminate.
Qed.

Lemma depth_inner_fold fuel nd : forall l s s' p t,
  consistent (st_heap s) -> all_comparable s -> tree_at (st_heap s) p t -> root t = nd ->
  NoDup l -> (forall y, y ∈ l -> y ∈ doc_order t) ->
  foldM (visit cond_any (depth_inner fuel nd)) tt l s = (s', Ok tt) ->
  only (fun j b => j ∈ l /\ j <> nd /\ b = a_handrail_depth) s s' /\
  forall y, y ∈ l -> y <> nd -> deeper 1 (value (st_heap s) y a_handrail_depth) (value (st_heap s') y a_handrail_depth).
Proof.
  induction l as [|y l IH]; intros s s' p t Hc Hcmp Ht Hr Hnd Hsub H.
  - apply ret_ok in H as [-> _]. split; [apply only_refl|]. intros y Hy. inversion Hy.
  - apply list.NoDup_cons in Hnd as [Hy Hnd]. cbn [foldM] in H. apply bind_ok in H as (s1 & [] & H1 & H).
    pose proof (ch_run _ _ _ _ _ (ch_visit _ (only_refl _) (only_trans _) cond_any _ tt y (depth_inner_only fuel nd tt y)) H1) as Ho1.
    assert (Hst : same_structure (st_heap s) (st_heap s1)) by (eapply only_structure; eassumption).
    assert (Hc1 : consistent (st_heap s1)) by (eapply same_structure_consistent; eassumption).
    assert (Hcmp1 : all_comparable s1) by (eapply comparable_only; [exact Ho1|intros ? ? Hpp; apply Hpp|assumption]).
    assert (Ht1 : tree_at (st_heap s1) p t) by (eapply same_structure_tree; eassumption).
    destruct (IH s1 s' p t Hc1 Hcmp1 Ht1 Hr Hnd) as [Ho Hv]; [intros z Hz; apply Hsub; constructor; assumption|assumption|].
    unfold visit in H1. apply bind_ok in H1 as (s2 & n & Hn & H1). apply get_node_ok in Hn as [-> Hn]. cbn [cond_any] in H1.
    unfold depth_inner in H1. apply bind_ok in H1 as (s2 & e & He & H1). apply node_eqM_ok in He as [-> He].
    destruct (decide (y = nd)) as [Eyn|Eyn].
    + (* the node itself is skipped *)
      assert (e = true) as ->.
      { rewrite Eyn in He. destruct fuel; [discriminate|]. rewrite Eyn in Hn.
        rewrite (node_eq_refl _ _ _ _ Hn (Hcmp _ _ Hn)) in He. congruence. }
      apply ret_ok in H1 as [-> _]. split.
      * eapply only_weaken; [|exact Ho]. intros j b (? & ? & ?). split; [constructor; assumption|auto].
      * intros z Hz Hzn. apply elem_of_cons in Hz as [-> |Hz]; [congruence|auto].
    + assert (e = false) as ->.
      { subst nd. eapply descendant_not_equal; [exact Hc|exact Ht| |eassumption|exact He]. apply Hsub. constructor. }
      apply bind_ok in H1 as (s2 & d & Hd & H1). apply get_int_ok in Hd as (-> & m & Hm & Hd).
      assert (m = n) as -> by congruence. clear Hm.
      apply setattr_ok in H1 as (m & Hm & Es1). assert (m = n) as -> by congruence. clear Hm.
      split.
      * eapply only_trans; [eapply only_weaken; [|exact Ho1]|eapply only_weaken; [|exact Ho]].
        -- intros j b [-> ->]. split; [constructor|auto].
        -- intros j b (? & ? & ?). split; [constructor; assumption|auto].
      * intros z Hz Hzn. apply elem_of_cons in Hz as [-> |Hz].
        -- rewrite (value_only _ _ _ _ _ Ho) by (intros [? _]; contradiction). right. exists d.
           rewrite (value_some _ _ _ _ Hn). split; [assumption|]. subst s1. erewrite value_upd by eassumption.
           rewrite decide_True by auto. reflexivity.
        -- rewrite <- (value_only _ _ _ _ _ Ho1); [auto|]. intros [-> _]. contradiction.
Qed.
Lemma depth_outer_ok fuel u s s' p t :
  consistent (st_heap s) -> all_comparable s -> tree_at (st_heap s) p t ->
  depth_outer fuel u (root t) s = (s', Ok tt) ->
  only (fun j b => j ∈ doc_order t /\ j <> root t /\ b = a_handrail_depth) s s' /\
  forall y, y ∈ doc_order t -> y <> root t ->
    deeper 1 (value (st_heap s) y a_handrail_depth) (value (st_heap s') y a_handrail_depth).
Proof.
  intros Hc Hcmp Ht H. unfold depth_outer in H.
  apply (trav_attr depth_attr _ _ _ p t) in H; [|intros; apply depth_inner_depth|assumption].
  eapply depth_inner_fold; eauto. eapply tree_at_nodup; eassumption.
Qed.

(** *** One class *)

(** [inside t y l]: [l] lists the proper ancestors of [y] within [t]. *)
Inductive inside : tree -> id -> list id -> Prop :=
| in_root i cs : inside (T i cs) i []
| in_kid i cs c y l : c ∈ cs -> inside c y l -> inside (T i cs) y (l ++ [i]).
Lemma inside_in t y l : inside t y l -> y ∈ doc_order t.
Proof.
  induction 1; rewrite doc_order_T; constructor. apply elem_doc_orders. eauto.
Qed.
Lemma inside_exists t : forall y, y ∈ doc_order t -> exists l, inside t y l.
Proof.
  induction t as [i cs IH] using tree_ind'. intros y. rewrite doc_order_T. intros Hy.
  apply elem_of_cons in Hy as [-> |Hy]; [eexists; constructor|].
  apply elem_doc_orders in Hy as (c & Hc & Hy). rewrite list.Forall_forall in IH.
  destruct (IH c Hc y Hy) as (l & Hl). exists (l ++ [i]). econstructor; eauto.
Qed.
Lemma inside_ancestors h p t y l l' :
  tree_at h p t -> inside t y l -> match p with None => l' = [] | Some q => exists l0, l' = q :: l0 /\ ancestors h q l0 end ->
  ancestors h y (l ++ l').
Proof.
  intros Ht Hin. revert p l' Ht. induction Hin as [i cs|i cs c y l Hc Hin IH]; intros p l' Ht Hl.
  - apply tree_at_inv in Ht as (n & Hn & Hp & _). simpl. destruct p as [q|].
    + destruct Hl as (l0 & -> & Hl). econstructor; eauto.
    + subst l'. econstructor; eauto.
  - apply tree_at_inv in Ht as (n & Hn & Hp & Hk & Hcs). rewrite <- app_assoc. simpl.
    rewrite list.Forall_forall in Hcs. apply (IH (Some i)); [auto|]. exists l'. split; [reflexivity|].
    destruct p as [q|].
    + destruct Hl as (l0 & -> & Hl). econstructor; eauto.
    + subst l'. econstructor; eauto.
Qed.
Definition classcount (h : gmap id node) (nc : cls) (l : list id) : nat :=
  length (List.filter (fun x => match h !! x with Some n => subclass (n_cls n) nc | None => false end) l).
Lemma classcount_app h nc l l' : classcount h nc (l ++ l') = classcount h nc l + classcount h nc l'.
Proof. unfold classcount. rewrite List.filter_app, app_length. reflexivity. Qed.
Lemma classcount_only P s s' nc l : only P s s' -> classcount (st_heap s') nc l = classcount (st_heap s) nc l.
Proof.
  intros (_ & _ & H). unfold classcount. f_equal. apply filter_ext. intros x. specialize (H x).
  destruct (st_heap s !! x), (st_heap s' !! x); try contradiction; [|reflexivity]. destruct H as (-> & _). reflexivity.
Qed.

Definition depth_post (nc : cls) (t : tree) (s s' : st) : Prop :=
  only (fun j b => j ∈ doc_order t /\ b = a_handrail_depth) s s' /\
  forall y l, inside t y l ->
    deeper (classcount (st_heap s) nc l) (value (st_heap s) y a_handrail_depth) (value (st_heap s') y a_handrail_depth).
Lemma depth_class_tree fuel nc t : forall p s s',
  consistent (st_heap s) -> all_comparable s -> tree_at (st_heap s) p t ->
  foldM (visit (cond_class nc) (depth_outer fuel)) tt (doc_order t) s = (s', Ok tt) -> depth_post nc t s s'.
Proof.
  induction t as [i cs IH] using tree_ind'. intros p s s' Hc Hcmp Ht H.
  rewrite doc_order_T in H. cbn [foldM] in H. apply bind_ok in H as (s1 & [] & H1 & H).
  assert (Hnd : NoDup (doc_order (T i cs))) by (eapply tree_at_nodup; eassumption).
  rewrite doc_order_T in Hnd. apply list.NoDup_cons in Hnd as [Hi Hnd].
  pose proof Ht as Ht0. apply tree_at_inv in Ht0 as (n & Hn & Hp & Hk & Hcs).
  (* the visit of the root of this subtree *)
  assert (Hroot : only (fun j b => j ∈ doc_orders cs /\ b = a_handrail_depth) s s1 /\
            forall y, y ∈ doc_orders cs ->
              deeper (classcount (st_heap s) nc [i]) (value (st_heap s) y a_handrail_depth) (value (st_heap s1) y a_handrail_depth)).
  { unfold visit in H1. apply bind_ok in H1 as (s2 & m & Hm & H1). apply get_node_ok in Hm as [-> Hm].
    assert (m = n) as -> by congruence. unfold cond_class in H1. unfold classcount. cbn [List.filter]. rewrite Hn.
    destruct (subclass (n_cls n) nc).
    - destruct (depth_outer_ok fuel tt s s1 p (T i cs) Hc Hcmp Ht H1) as [Ho Hv]. rewrite doc_order_T in *. cbn [root] in *.
      split.
      + eapply only_weaken; [|exact Ho]. intros j b (Hj & Hne & ->). split; [|reflexivity].
        apply elem_of_cons in Hj as [?|?]; [contradiction|assumption].
      + intros y Hy. apply Hv; [constructor; assumption|]. intros ->. contradiction.
    - apply ret_ok in H1 as [-> _]. split; [apply only_refl|]. intros y Hy. left. auto. }
  destruct Hroot as [Ho1 Hv1]. clear H1.
  (* the subtrees *)
  assert (Hc1 : consistent (st_heap s1)) by (eapply same_structure_consistent; [eapply only_structure; exact Ho1|assumption]).
  assert (Hcmp1 : all_comparable s1) by (eapply comparable_only; [exact Ho1|intros ? ? Hpp; apply Hpp|assumption]).
  assert (Hcs1 : Forall (tree_at (st_heap s1) (Some i)) cs).
  { rewrite list.Forall_forall in *. intros c Hin. eapply same_structure_tree; [eapply only_structure; exact Ho1|auto]. }
  assert (Hkids : only (fun j b => j ∈ doc_orders cs /\ b = a_handrail_depth) s1 s' /\
            forall c y l, c ∈ cs -> inside c y l ->
              deeper (classcount (st_heap s1) nc l) (value (st_heap s1) y a_handrail_depth) (value (st_heap s') y a_handrail_depth)).
  { clear Ho1 Hv1 Hi Ht Hk Hcs Hn Hc Hcmp. clear s n p Hp. change (flat_map doc_order cs) with (doc_orders cs) in *.
    revert s1 H Hc1 Hcmp1 Hcs1. induction cs as [|c cs IHcs]; intros s1 H Hc1 Hcmp1 Hcs1.
    - apply ret_ok in H as [-> _]. split; [apply only_refl|]. intros c y l Hin. inversion Hin.
    - rewrite doc_orders_cons in H. apply foldM_app_ok in H as (s2 & [] & H1 & H2).
      rewrite doc_orders_cons in Hnd. apply NoDup_app in Hnd as (Hnd1 & Hdis & Hnd2).
      apply list.Forall_cons in IH as [IHc IH]. apply list.Forall_cons in Hcs1 as [Hc1c Hcs1].
      destruct (IHc _ _ _ Hc1 Hcmp1 Hc1c H1) as [Ho1 Hv1].
      assert (Hc2 : consistent (st_heap s2)) by (eapply same_structure_consistent; [eapply only_structure; exact Ho1|assumption]).
      assert (Hcmp2 : all_comparable s2) by (eapply comparable_only; [exact Ho1|intros ? ? Hpp; apply Hpp|assumption]).
      assert (Hcs2 : Forall (tree_at (st_heap s2) (Some i)) cs).
      { rewrite list.Forall_forall in *. intros c' Hin. eapply same_structure_tree; [eapply only_structure; exact Ho1|auto]. }
      destruct (IHcs IH Hnd2 s2 H2 Hc2 Hcmp2 Hcs2) as [Ho2 Hv2]. split.
      + eapply only_trans; [eapply only_weaken; [|exact Ho1]|eapply only_weaken; [|exact Ho2]];
          intros j b [Hj ->]; (split; [|reflexivity]); rewrite doc_orders_cons; apply elem_of_app; auto.
      + intros c' y l Hin Hins. apply elem_of_cons in Hin as [-> |Hin].
        * rewrite (value_only _ _ _ _ _ Ho2); [auto|]. intros [Hj _]. apply (Hdis y); [|assumption].
          eapply inside_in; eassumption.
        * rewrite <- (value_only _ _ _ _ _ Ho1); [rewrite <- (classcount_only _ _ _ _ _ Ho1); eauto|].
          intros [Hj _]. apply (Hdis y); [assumption|]. apply elem_doc_orders. exists c'. split; [assumption|].
          eapply inside_in; eassumption. }
  destruct Hkids as [Ho2 Hv2]. split.
  - eapply only_trans; [eapply only_weaken; [|exact Ho1]|eapply only_weaken; [|exact Ho2]];
      intros j b [Hj ->]; (split; [|reflexivity]); rewrite doc_order_T; constructor; assumption.
  - intros y l Hins. inversion Hins as [i' cs'|i' cs' c y' l0 Hin Hins']; subst.
    + left. split; [reflexivity|]. rewrite (value_only _ _ _ _ _ Ho2), (value_only _ _ _ _ _ Ho1); [reflexivity| |];
        intros [Hj _]; contradiction.
    + rewrite classcount_app, Nat.add_comm. eapply deeper_trans.
      * apply Hv1. apply elem_doc_orders. exists c. split; [assumption|]. eapply inside_in; eassumption.
      * rewrite <- (classcount_only _ _ _ _ _ Ho1). eauto.
Qed.

(** *** All classes *)
Definition sumcount (h : gmap id node) (ncs : list cls) (l : list id) : nat :=
  list_sum (map (fun nc => classcount h nc l) ncs).
Lemma depth_classes fuel t : forall ncs s s',
  consistent (st_heap s) -> all_comparable s -> tree_at (st_heap s) None t ->
  iterM (add_handrail_depth_for_class fuel (root t)) ncs s = (s', Ok tt) ->
  only (fun j b => j ∈ doc_order t /\ b = a_handrail_depth) s s' /\
  forall y l, inside t y l ->
    deeper (sumcount (st_heap s) ncs l) (value (st_heap s) y a_handrail_depth) (value (st_heap s') y a_handrail_depth).
Proof.
  induction ncs as [|nc ncs IH]; intros s s' Hc Hcmp Ht H.
  - apply ret_ok in H as [-> _]. split; [apply only_refl|]. intros y l _. left. auto.
  - cbn [iterM] in H. apply bind_ok in H as (s1 & [] & H1 & H).
    unfold add_handrail_depth_for_class in H1.
    apply (trav_attr depth_attr _ _ _ None t) in H1; [|intros; apply depth_outer_depth|assumption].
    destruct (depth_class_tree _ _ _ _ _ _ Hc Hcmp Ht H1) as [Ho1 Hv1].
    assert (Hst : same_structure (st_heap s) (st_heap s1)) by (eapply only_structure; eassumption).
    destruct (IH s1 s') as [Ho Hv]; auto.
    + eapply same_structure_consistent; eassumption.
    + eapply comparable_only; [exact Ho1|intros ? ? Hpp; apply Hpp|assumption].
    + eapply same_structure_tree; eassumption.
    + split; [eapply only_trans; eassumption|]. intros y l Hin. unfold sumcount. cbn [map list_sum fold_right].
      eapply deeper_trans; [eauto|]. specialize (Hv y l Hin). unfold sumcount in Hv.
      erewrite map_ext in Hv; [exact Hv|]. intros nc'. apply (classcount_only _ _ _ _ _ Ho1).
Qed.
Lemma list_sum_app' a b : list_sum (a ++ b) = list_sum a + list_sum b.
Proof. induction a; simpl; lia. Qed.
Lemma sumcount_cons h ncs x l : sumcount h ncs (x :: l) = sumcount h ncs [x] + sumcount h ncs l.
Proof.
  unfold sumcount. induction ncs as [|nc ncs IH]; [reflexivity|]. cbn [map list_sum fold_right] in *.
  rewrite (classcount_app h nc [x] l : classcount h nc (x :: l) = _). fold (list_sum (map (fun nc => classcount h nc (x :: l)) ncs)).
  fold (list_sum (map (fun nc => classcount h nc [x]) ncs)) (list_sum (map (fun nc => classcount h nc l) ncs)).
  unfold list_sum in *. lia.
Qed.
Lemma sumcount_single h cs x n : h !! x = Some n ->
  sumcount h (List.filter has_handrail cs) [x] =
  length (List.filter (fun d => has_handrail d && subclass (n_cls n) d) cs).
Proof.
  intros Hx. unfold sumcount. induction cs as [|c cs IH]; [reflexivity|]. cbn [List.filter].
  destruct (has_handrail c); cbn [andb]; [|assumption]. cbn [map list_sum fold_right].
  fold (list_sum (map (fun nc => classcount h nc [x]) (List.filter has_handrail cs))). unfold list_sum in *. rewrite IH.
  unfold classcount at 1. cbn [List.filter]. rewrite Hx. destruct (subclass (n_cls n) c); reflexivity.
Qed.
Lemma sumcount_handrails h l :
  sumcount h (List.filter has_handrail all_cls) l = list_sum (map (handrails_of h) l).
Proof.
  induction l as [|x l IH].
  - unfold sumcount. simpl. generalize (List.filter has_handrail all_cls) as cs; intros cs; induction cs; [reflexivity|assumption].
  - rewrite sumcount_cons, IH. cbn [map]. change (list_sum (?a :: ?b)) with (a + list_sum b). f_equal.
    unfold handrails_of. destruct (h !! x) as [n|] eqn:Hx; [apply sumcount_single; assumption|].
    unfold sumcount, classcount. cbn [List.filter]. rewrite Hx.
    generalize (List.filter has_handrail all_cls) as cs; intros cs; induction cs; [reflexivity|assumption].
Qed.

Lemma ancestors_unique h x l l' : ancestors h x l -> ancestors h x l' -> l = l'.
Proof.
  intros H. revert l'. induction H as [x n Hx Hp|x n p l Hx Hp H IH]; intros l' H'; inversion H'; subst; try congruence.
  f_equal; [congruence|]. apply IH. congruence.
Qed.
Lemma handrail_depth_classes fuel s t s' ncs :
  (forall l, sumcount (st_heap s) ncs l = list_sum (map (handrails_of (st_heap s)) l)) ->
  manuscript s t -> all_comparable s -> iterM (add_handrail_depth_for_class fuel (root t)) ncs s = (s', Ok tt) ->
  only depth_attr s s' /\
  forall y l, y ∈ doc_order t -> ancestors (st_heap s) y l ->
    deeper (list_sum (map (handrails_of (st_heap s)) l))
      (value (st_heap s) y a_handrail_depth) (value (st_heap s') y a_handrail_depth).
Proof.
  intros Hsum Hm Hcmp H.
  destruct (depth_classes fuel t _ _ _ (ms_consistent _ _ Hm) Hcmp (proj1 (ms_document _ _ Hm)) H) as [Ho Hv].
  split; [eapply only_weaken; [|exact Ho]; intros j b [_ ->]; reflexivity|].
  intros y l Hy Ha. destruct (inside_exists t y Hy) as (l' & Hl').
  assert (E : ancestors (st_heap s) y (l' ++ [])) by (eapply (inside_ancestors _ None); eauto; apply Hm).
  rewrite app_nil_r in E. rewrite (ancestors_unique _ _ _ _ Ha E), <- Hsum. auto.
Qed.
Theorem handrail_depth_ok fuel s t s' :
  manuscript s t -> all_comparable s -> add_handrail_depth fuel (root t) s = (s', Ok tt) ->
  only depth_attr s s' /\
  forall y l, y ∈ doc_order t -> ancestors (st_heap s) y l ->
    deeper (list_sum (map (handrails_of (st_heap s)) l))
      (value (st_heap s) y a_handrail_depth) (value (st_heap s') y a_handrail_depth).
Proof.
  exact (handrail_depth_classes fuel s t s' (List.filter has_handrail all_cls) (sumcount_handrails (st_heap s))).
Qed.
