(** Proof steps after transform. *)
From Verif Require Export Result.
From Verif Require Import Labels HandrailDepth Autonumber FullNumber TocPick Queries Built Meta Subproofs ResolveAll ResolvePrev Resolve NodeOps Monad.

Lemma tree_at_kids h p i cs : tree_at h p (T i cs) -> kids_are h i (map root cs).
Proof. intros H. apply tree_at_inv in H as (n & Hn & _ & Hk & _). exists n. auto. Qed.
Lemma doc_order_closed h p t x n c : tree_at h p t -> x ∈ doc_order t -> h !! x = Some n -> c ∈ kids n -> c ∈ doc_order t.
Proof.
  intros Ht. induction Ht as [p i m cs Hi Hp Hk Hcs IH] using tree_at_ind'. rewrite doc_order_T. intros Hx Hn Hc.
  apply elem_of_cons in Hx as [-> |Hx].
  - assert (n = m) as -> by congruence. rewrite Hk in Hc. apply elem_of_list_fmap in Hc as (u & -> & Hu). constructor.
    apply elem_doc_orders. exists u. split; [assumption|apply root_in_doc_order].
  - apply elem_doc_orders in Hx as (u & Hu & Hx). constructor. apply elem_doc_orders. exists u. split; [assumption|].
    rewrite list.Forall_forall in IH. apply (IH u Hu); assumption.
Qed.
Lemma restructured_roots h h' ts ts' : Forall2 (restructured h h') ts ts' -> map root ts' = map root ts.
Proof. induction 1 as [|t t' ts ts' H _ IH]; [reflexivity|]. cbn [map]. rewrite IH, (restructured_root _ _ _ _ H). reflexivity. Qed.
Definition kids_rel (h h' : gmap id node) (x : id) (l : list id) : Prop :=
  (~ class_of h x CStep -> kids_are h' x l) /\ (class_of h x CStep -> split_step h h' (fun l => l) x l).
Lemma restructured_kids h h' t t' :
  restructured h h' t t' -> forall p p', tree_at h p t -> tree_at h' p' t' ->
  forall x n, x ∈ doc_order t -> h !! x = Some n -> kids_rel h h' x (kids n).
Proof.
  induction 1 as [i ts ts' H1 H2 IH|i H1|i ts w ts' H1 H2 H3 H4 H5 H6 IH
    |i pre c post w v pre' post' H1 H2 H3 H4 H5 H6 H7 H8 H9 IH1 IH2
    |i pre c w pre' c' H1 H2 H3 H4 H5 H6 IH1 H7 IH2] using restructured_ind'; intros p p' Ht Ht' x n Hx Hn.
  all: pose proof (tree_at_kids _ _ _ _ Ht) as K; pose proof (tree_at_kids _ _ _ _ Ht') as K'.
  all: apply tree_at_inv in Ht as (m & Hm & Hp & Hk & Hcs); apply tree_at_inv in Ht' as (m' & Hm' & Hp' & Hk' & Hcs').
  all: rewrite doc_order_T in Hx; apply elem_of_cons in Hx.
  all: assert (Hfor : forall us us' q q', Forall2 (λ t t' : tree, forall p p', tree_at h p t -> tree_at h' p' t' ->
            forall x n, x ∈ doc_order t -> h !! x = Some n -> kids_rel h h' x (kids n)) us us' ->
         Forall (tree_at h q) us -> Forall (tree_at h' q') us' ->
         forall x n, x ∈ doc_orders us -> h !! x = Some n -> kids_rel h h' x (kids n))
    by (clear; induction 1 as [|t t' us us' H _ IH]; intros Hf Hf' x n Hin Hn; [inversion Hin|];
        apply list.Forall_cons in Hf as [Hf1 Hf2]; apply list.Forall_cons in Hf' as [Hf1' Hf2'];
        rewrite doc_orders_cons in Hin; apply elem_of_app in Hin as [Hin|Hin]; [eapply H; eauto|eapply IH; eauto]).
  - destruct Hx as [-> |Hx]; [|eapply Hfor; eauto]. assert (m = n) as -> by congruence. rewrite Hk.
    split; [|contradiction]. intros _. rewrite (restructured_roots _ _ _ _ H2) in K'. exact K'.
  - destruct Hx as [-> |Hx]; [|inversion Hx]. assert (m = n) as -> by congruence. rewrite Hk.
    split; [contradiction|]. intros _. apply ss_empty; [reflexivity|exact K'].
  - apply list.Forall_cons in Hcs' as [Hw _]. pose proof (tree_at_kids _ _ _ _ Hw) as Kw. rewrite (restructured_roots _ _ _ _ H6) in Kw.
    apply tree_at_inv in Hw as (mw & Hmw & _ & _ & Hcw).
    destruct Hx as [-> |Hx]; [|eapply Hfor; eauto]. assert (m = n) as -> by congruence. rewrite Hk.
    split; [contradiction|]. intros _. apply (ss_statement _ _ _ _ _ w); auto.
    + destruct ts; [contradiction|discriminate].
    + intros y Hy. apply elem_of_list_fmap in Hy as (u & -> & Hu). auto.
  - apply list.Forall_cons in Hcs' as [Hw Hcs']. apply list.Forall_cons in Hcs' as [Hv _].
    pose proof (tree_at_kids _ _ _ _ Hw) as Kw. rewrite (restructured_roots _ _ _ _ H8) in Kw.
    pose proof (tree_at_kids _ _ _ _ Hv) as Kv. rewrite (restructured_roots _ _ _ _ H9) in Kv.
    apply tree_at_inv in Hw as (mw & Hmw & _ & _ & Hcw). apply tree_at_inv in Hv as (mv & Hmv & _ & _ & Hcv).
    apply list.Forall_app in Hcs as [Hcs1 Hcs2].
    destruct Hx as [-> |Hx].
    + assert (m = n) as -> by congruence. rewrite Hk. split; [contradiction|]. intros _.
      rewrite map_app. apply (ss_steps _ _ _ _ _ (map root pre) (root c) (map root post) w v); auto.
      intros y Hy. apply elem_of_list_fmap in Hy as (u & -> & Hu). auto.
    + rewrite doc_orders_app in Hx. apply elem_of_app in Hx as [Hx|Hx]; [eapply (Hfor _ _ _ _ IH1); eauto|eapply (Hfor _ _ _ _ IH2); eauto].
  - apply list.Forall_cons in Hcs' as [Hw Hcs']. apply list.Forall_cons in Hcs' as [Hc' _].
    pose proof (tree_at_kids _ _ _ _ Hw) as Kw. rewrite (restructured_roots _ _ _ _ H6) in Kw.
    apply tree_at_inv in Hw as (mw & Hmw & _ & _ & Hcw).
    apply list.Forall_app in Hcs as [Hcs1 Hcs2]. apply list.Forall_cons in Hcs2 as [Hcs2 _].
    destruct Hx as [-> |Hx].
    + assert (m = n) as -> by congruence. rewrite Hk. split; [contradiction|]. intros _.
      rewrite map_app. apply (ss_subproof _ _ _ _ _ (map root pre) (root c) w); auto.
      * intros y Hy. apply elem_of_list_fmap in Hy as (u & -> & Hu). auto.
      * cbn [map root] in K'. rewrite (restructured_root _ _ _ _ H7) in K'. exact K'.
    + rewrite doc_orders_app in Hx. apply elem_of_app in Hx as [Hx|Hx]; [eapply (Hfor _ _ _ _ IH1); eauto|].
      rewrite doc_orders_cons in Hx. apply elem_of_app in Hx as [Hx|Hx]; [eapply IH2; eauto|inversion Hx].
Qed.

Lemma keep_out_app xs l l' : keep_out xs (l ++ l') = keep_out xs l ++ keep_out xs l'.
Proof. unfold keep_out. apply list.filter_app. Qed.
Lemma keep_out_all xs l : (forall c, c ∈ l -> c ∉ xs) -> keep_out xs l = l.
Proof.
  unfold keep_out. induction l as [|x l IH]; intros H; [reflexivity|]. rewrite filter_cons_True by (apply H; constructor).
  rewrite IH; [reflexivity|]. intros c Hc. apply H. constructor. assumption.
Qed.
Lemma keep_out_map f xs l : (forall c, c ∈ l -> f c ∈ xs <-> c ∈ xs) -> keep_out xs (map f l) = map f (keep_out xs l).
Proof.
  unfold keep_out. induction l as [|x l IH]; intros H; [reflexivity|]. cbn [map].
  assert (IH' : base.filter (λ c : id, c ∉ xs) (map f l) = map f (base.filter (λ c : id, c ∉ xs) l)) by (apply IH; intros c Hc; apply H; constructor; assumption).
  destruct (decide (x ∈ xs)) as [Hx|Hx].
  - rewrite !filter_cons_False; [assumption|intros G; apply G; assumption|]. intros G. apply G. apply H; [constructor|assumption].
  - rewrite !filter_cons_True; [cbn [map]; congruence|assumption|]. intros G. apply Hx. apply H; [constructor|assumption].
Qed.
Lemma keep_out_split xs l : forall pre x post, keep_out xs l = pre ++ x :: post ->
  exists pre3 post3, l = pre3 ++ x :: post3 /\ keep_out xs pre3 = pre.
Proof.
  unfold keep_out. induction l as [|y l IH]; intros pre x post H; [destruct pre; discriminate|].
  destruct (decide (y ∈ xs)) as [Hy|Hy].
  - rewrite filter_cons_False in H by (intros G; apply G; assumption). destruct (IH _ _ _ H) as (p3 & q3 & -> & E).
    exists (y :: p3), q3. split; [reflexivity|]. rewrite filter_cons_False; [assumption|]. intros G. apply G. assumption.
  - rewrite filter_cons_True in H by assumption. destruct pre as [|z pre].
    + injection H as -> _. exists [], l. auto.
    + injection H as -> H. destruct (IH _ _ _ H) as (p3 & q3 & -> & E). exists (z :: p3), q3. split; [reflexivity|].
      rewrite filter_cons_True by assumption. congruence.
Qed.
Lemma exactly_keep_out (P Q : id -> Prop) xs l : forall k, (forall c, c ∈ l -> P c <-> Q c) -> (forall c, c ∈ l -> c ∈ xs -> ~ P c) -> exactly Q k (keep_out xs l) -> exactly P k l.
Proof.
  unfold keep_out. induction l as [|y l IH]; intros k HPQ HP H; [inversion H; constructor|].
  assert (HPQ' : forall c, c ∈ l -> P c <-> Q c) by (intros; apply HPQ; constructor; assumption).
  assert (HP' : forall c, c ∈ l -> c ∈ xs -> ~ P c) by (intros; apply HP; [constructor|]; assumption).
  destruct (decide (y ∈ xs)) as [Hy|Hy].
  - rewrite filter_cons_False in H by (intros G; apply G; assumption). apply ex_no; [apply HP; [constructor|assumption]|]. apply IH; assumption.
  - rewrite filter_cons_True in H by assumption. inversion H; subst.
    + apply ex_yes; [apply HPQ; [constructor|assumption]|]. apply IH; assumption.
    + apply ex_no; [rewrite HPQ by constructor; assumption|]. apply IH; assumption.
Qed.
Lemma kids_unique h x l l' : kids_are h x l -> kids_are h x l' -> l = l'.
Proof. intros (n & Hn & <-) (n' & Hn' & <-). congruence. Qed.

Section early.
  Context (d d' : labels) (s s1 s2 s3 : st) (t t3 : tree) (f : id -> id) (cites : list (list id)).
  Context (Hm : manuscript s t).
  Context (ST : early d d' s s1 s2 s3 t t3 f cites).
  Notation h := (st_heap s). Notation h1 := (st_heap s1). Notation h2 := (st_heap s2). Notation h3 := (st_heap s3).
  Lemma kids_only P sa sb x l : only P sa sb -> kids_are (st_heap sa) x l -> kids_are (st_heap sb) x l.
  Proof using.
    intros Ho (n & Hn & <-). destruct (only_kids _ _ _ _ _ Ho Hn) as (n' & Hn' & _ & _ & Hk & _). exists n'. auto.
  Qed.
  Lemma kids_2 x l : x ∈ doc_order t -> kids_are h x l -> kids_are h2 (f x) (if pendingb h x then [] else map f l).
  Proof using Hm ST.
    intros Hx Hk. apply (kids_only _ _ _ _ _ (proj1 (sg_labels ST))) in Hk. destruct Hk as (n & Hn & <-).
    destruct (pendingb h x) eqn:Ep.
    - apply pending_iff, (pending1 Hm ST) in Ep; [|assumption].
      destruct (ri_res _ _ _ _ _ _ (sg_resolve ST) _ Hx Ep) as (_ & n0 & n' & _ & Hn' & _ & _ & Hr).
      exists n'. split; [assumption|]. eapply resolved_like. exact Hr.
    - rewrite (f_same Hm ST) by (assumption || (rewrite <- pending_iff; congruence)).
      destruct (ri_old _ _ _ _ _ _ (sg_resolve ST) _ _ Hn) as (n2 & Hn2 & _ & Hk2 & _). exists n2. auto.
  Qed.
  Lemma class_f2 c x : x ∈ doc_order t -> c = CStep \/ c = CSubproof -> class_of h2 (f x) c <-> class_of h x c.
  Proof using Hm ST.
    intros Hx Hc. destruct (pendingb h x) eqn:Ep.
    - apply pending_iff in Ep. destruct (f_new Hm ST x Hx Ep) as (_ & n' & Hn' & Hc'). split.
      + intros (n2 & Hn2 & E). exfalso. assert (n2 = n') as -> by congruence. rewrite E in Hc'.
        destruct Hc as [-> | ->]; rewrite !elem_of_cons in Hc'; destruct Hc' as [G|[G|[G|G]]]; try discriminate; inversion G.
      + intros (n & Hn & E). exfalso. destruct Ep as [(m & Hm' & G)|[(m & Hm' & G)|(m & Hm' & G)]]; destruct Hc; congruence.
    - rewrite (f_same Hm ST) by (assumption || (rewrite <- pending_iff; congruence)). split; intros H.
      + eapply carried_class_inv; [exact (c02 ST)|apply (in_h Hm); assumption|assumption].
      + eapply carried_class; [exact (c02 ST)|assumption].
  Qed.
  Lemma child_in x l c : x ∈ doc_order t -> kids_are h x l -> c ∈ l -> c ∈ doc_order t.
  Proof using Hm.
    intros Hx (n & Hn & <-) Hc. eapply doc_order_closed; [apply (ms_document _ _ Hm)|exact Hx|exact Hn|exact Hc].
  Qed.
End early.
Arguments kids_2 {d d' s s1 s2 s3 t t3 f cites} Hm ST.
Arguments class_f2 {d d' s s1 s2 s3 t t3 f cites} Hm ST.
Arguments child_in {s t} Hm.

Section result.
  Context (fuel : nat) (d d' : labels) (s s1 s2 s3 s4 s5 s6 s7 s8 s' : st) (t t3 t6 : tree)
    (f : id -> id) (cites : list (list id)) (a : num_st) (xs : list id).
  Context (Hm : manuscript s t).
  Context (ST : stages fuel d d' s s1 s2 s3 s4 s5 s6 s7 s8 s' t t3 t6 f cites a xs).
  Notation h := (st_heap s). Notation h1 := (st_heap s1). Notation h2 := (st_heap s2). Notation h3 := (st_heap s3).
  Notation h4 := (st_heap s4). Notation h5 := (st_heap s5). Notation h6 := (st_heap s6). Notation h7 := (st_heap s7).
  Notation h8 := (st_heap s8). Notation h' := (st_heap s').

  Local Notation kids_2 := (kids_2 Hm ST).
  Local Notation class_f2 := (class_f2 Hm ST).
  Local Notation child_in := (child_in Hm).

  Lemma kids_6' x l : kids_are h6 x l -> kids_are h' x l.
  Proof using ST.
    intros H. eapply kids_only; [apply (sg_ids_only ST)|]. eapply kids_only; [apply (sg_depth_only ST)|].
    eapply kids_only; [apply (sg_con_only ST)|]. exact H.
  Qed.
  Lemma kids_3' x l c : class_of h3 x c -> ~ holds_items c -> kids_are h3 x l -> kids_are h' x (keep_out xs l).
  Proof using ST.
    intros Hc Hn Hk. apply kids_6'. pose proof (kids_only _ _ _ _ _ (sg_num_only ST) Hk) as (n4 & Hn4 & Hk4).
    destruct (carried_class _ _ _ _ _ (c34 ST) Hc) as (m & Hm4 & Ec). assert (m = n4) as -> by congruence.
    destruct (pr_old _ _ _ (sg_pruned ST) _ _ Hn4) as (n5 & Hn5 & Ec5 & _ & _ & Hk5).
    destruct (ex_old _ _ (sg_extends ST) _ _ Hn5) as (n6 & Hn6 & _ & _ & _ & l6 & Hk6 & _ & Hl6).
    exists n6. split; [assumption|]. destruct l6 as [|z l6].
    - rewrite Hk6, app_nil_r, Hk5, Hk4. reflexivity.
    - exfalso. apply Hn. rewrite <- Ec, <- Ec5. apply Hl6. discriminate.
  Qed.
  Lemma f_xs c : c ∈ doc_order t -> f c ∈ xs <-> c ∈ xs.
  Proof using Hm ST.
    intros Hc. split; intros H.
    - destruct (xs_in Hm ST _ H) as (H1 & _ & H2). assert (E : f c = c); [|rewrite E in H; assumption].
      apply (ri_inj _ _ _ _ _ _ (sg_resolve ST)); assumption.
    - destruct (xs_in Hm ST _ H) as (_ & _ & E). rewrite E. assumption.
  Qed.
  Lemma keep_out_single w : w ∉ xs -> keep_out xs [w] = [w].
  Proof using. intros H. apply keep_out_all. intros c Hc. apply elem_of_list_singleton in Hc. subst. assumption. Qed.
  Lemma fresh_not_xs w : h2 !! w = None -> w ∉ xs.
  Proof using Hm ST. intros Hw Hx. destruct (xs_in Hm ST _ Hx) as (H & _). apply (in_h Hm) in H. apply (carried_some _ _ _ _ (c02 ST)) in H. destruct H. congruence. Qed.
  Lemma not_items c : c = CStatement \/ c = CSubproof \/ c = CStep -> ~ holds_items c.
  Proof using. intros [-> |[-> | ->]] [H|[H|H]]; discriminate. Qed.
  Lemma subproof_not_xs c : c ∈ doc_order t -> class_of h c CSubproof -> c ∉ xs.
  Proof using Hm ST.
    intros Hc (n & Hn & Ec) Hx. destruct (xs_in Hm ST _ Hx) as (_ & H & _). unfold is_contents in H. rewrite Hn, Ec in H. discriminate.
  Qed.
  Theorem steps_split x l : x ∈ doc_order t -> class_of h x CStep -> kids_are h x l ->
    split_step h h' (fun cs => map f (without (later_contents h t) cs)) x l.
  Proof using Hm ST.
    intros Hx Hc Hk. pose proof (child_in x l) as Hin.
    assert (Hp : pendingb h x = false).
    { destruct Hc as (n & Hn & Ec). unfold pendingb, holds, cond_exact. rewrite Hn, Ec. reflexivity. }
    pose proof (kids_2 _ _ Hx Hk) as Hk2. rewrite Hp in Hk2.
    assert (Hfx : f x = x) by (apply (f_same Hm ST); [assumption|rewrite <- pending_iff; congruence]).
    rewrite Hfx in Hk2. destruct Hk2 as (n2 & Hn2 & Hk2).
    assert (Hx2 : x ∈ doc_order (tmap f t)) by (rewrite <- Hfx; apply (f_in2 t f); assumption).
    assert (Hc2 : class_of h2 x CStep) by (eapply carried_class; [exact (c02 ST)|assumption]).
    destruct (restructured_kids _ _ _ _ (sg_restructured ST) _ _ (proj1 (ms_document _ _ (sg_m2 ST))) (proj1 (ms_document _ _ (sg_m3 ST))) x n2 Hx2 Hn2) as [_ HS].
    specialize (HS Hc2). rewrite Hk2 in HS. rewrite <- (xs_later Hm ST). change (without xs) with (keep_out xs).
    assert (Hc3 : class_of h3 x CStep) by (eapply carried_class; [exact (c03 ST)|assumption]).
    assert (Hss : forall c, c ∈ l -> step_or_sub h c -> step_or_sub h2 (f c)).
    { intros c Hcl [H|H]; [left|right]; apply class_f2; eauto. }
    assert (Hmv : forall l0, (forall c, c ∈ l0 -> c ∈ l) -> keep_out xs (map f l0) = map f (keep_out xs l0)).
    { intros l0 H0. apply keep_out_map. intros c Hc0. apply f_xs. eauto. }
    destruct HS as [El K|w Hne Hno Hw Hcw K Kw|pre c post w v El Hno Hcc Hw Hcw Hv Hcv K Kw Kv|pre c w El Hno Hcc Hw Hcw K Kw].
    - destruct l; [|discriminate]. apply ss_empty; [reflexivity|]. apply (kids_3' _ _ _ Hc3) in K; [exact K|apply not_items; auto].
    - apply (ss_statement _ _ _ _ _ w).
      + destruct l; [contradiction|discriminate].
      + intros c Hcl Hs. apply (Hno (f c)); [apply elem_of_list_fmap; eauto|auto].
      + apply (none_h ST). assumption.
      + eapply carried_class; [exact (c3' ST)|assumption].
      + apply (kids_3' _ _ _ Hc3) in K; [|apply not_items; auto]. rewrite keep_out_single in K by (apply fresh_not_xs; assumption). exact K.
      + apply (kids_3' _ _ _ Hcw) in Kw; [|apply not_items; auto]. rewrite Hmv in Kw by auto. exact Kw.
    - apply map_eq_app in El as (l1 & l2 & -> & <- & E2). destruct l2 as [|c0 l2]; [discriminate|]. cbn [map] in E2. injection E2 as <- <-.
      assert (Hin0 : c0 ∈ l1 ++ c0 :: l2) by set_solver.
      apply (ss_steps _ _ _ _ _ l1 c0 l2 w v).
      + reflexivity.
      + intros c Hcl Hs. apply (Hno (f c)); [apply elem_of_list_fmap; eauto|]. apply Hss; [set_solver|assumption].
      + apply class_f2 in Hcc; eauto.
      + apply (none_h ST). assumption.
      + eapply carried_class; [exact (c3' ST)|assumption].
      + apply (none_h ST). assumption.
      + eapply carried_class; [exact (c3' ST)|assumption].
      + apply (kids_3' _ _ _ Hc3) in K; [|apply not_items; auto]. rewrite keep_out_all in K; [exact K|].
        intros c Hc'. rewrite !elem_of_cons in Hc'. destruct Hc' as [-> |[-> |Hc']]; [apply fresh_not_xs; assumption..|inversion Hc'].
      + apply (kids_3' _ _ _ Hcw) in Kw; [|apply not_items; auto]. rewrite Hmv in Kw; [exact Kw|set_solver].
      + apply (kids_3' _ _ _ Hcv) in Kv; [|apply not_items; auto]. change (f c0 :: map f l2) with (map f (c0 :: l2)) in Kv.
        rewrite Hmv in Kv; [exact Kv|set_solver].
    - apply map_eq_app in El as (l1 & l2 & -> & <- & E2). destruct l2 as [|c0 l2]; [discriminate|]. cbn [map] in E2. injection E2 as <- E2.
      apply map_eq_nil in E2. subst l2.
      assert (Hin0 : c0 ∈ l1 ++ [c0]) by set_solver. assert (Hd0 : c0 ∈ doc_order t) by eauto.
      assert (Hc0 : class_of h c0 CSubproof) by (apply class_f2 in Hcc; auto).
      assert (Hf0 : f c0 = c0).
      { apply (f_same Hm ST); [assumption|]. destruct Hc0 as (m0 & Hm0 & Ec0). intros [(m & Hm' & G)|[(m & Hm' & G)|(m & Hm' & G)]]; congruence. }
      rewrite Hf0 in *.
      apply (ss_subproof _ _ _ _ _ l1 c0 w).
      + reflexivity.
      + intros c Hcl Hs. apply (Hno (f c)); [apply elem_of_list_fmap; eauto|]. apply Hss; [set_solver|assumption].
      + assumption.
      + apply (none_h ST). assumption.
      + eapply carried_class; [exact (c3' ST)|assumption].
      + apply (kids_3' _ _ _ Hc3) in K; [|apply not_items; auto]. rewrite keep_out_all in K; [exact K|].
        intros c Hc'. rewrite !elem_of_cons in Hc'. destruct Hc' as [-> |[-> |Hc']]; [apply fresh_not_xs; assumption|apply subproof_not_xs; assumption|inversion Hc'].
      + apply (kids_3' _ _ _ Hcw) in Kw; [|apply not_items; auto]. rewrite Hmv in Kw; [exact Kw|set_solver].
  Qed.

  Lemma not_toc c : c = CProof \/ c = CSubproof \/ c = CStep -> ~ toc_class c.
  Proof using. intros [-> |[-> | ->]] [H|[H|H]]; discriminate. Qed.
  Lemma old_class y c : y ∈ doc_order t6 -> class_of h' y c -> c = CProof \/ c = CSubproof \/ c = CStep ->
    y ∈ doc_order t3 /\ class_of h3 y c.
  Proof using ST.
    intros Hy Hc Hcc. destruct (decide (y < st_next s5)) as [Hlt|Hge].
    - destruct (old6 ST _ Hy Hlt) as [_ H3]. split; [assumption|].
      eapply carried_class_inv; [exact (c3' ST)|eapply manuscript_some; [apply (sg_m3 ST)|assumption]|assumption].
    - destruct (new6 ST y Hy) as (n & Hn6 & Htc); [lia|]. exfalso. apply (not_toc c Hcc).
      destruct (c6' ST _ _ Hn6) as (n' & Hn' & Ec & _). destruct Hc as (m & Hm' & <-). assert (m = n') as -> by congruence. rewrite Ec. assumption.
  Qed.
  Theorem steps_numbered p l pre x post j : p ∈ doc_order t6 -> holds_steps h' p -> kids_are h' p l -> l = pre ++ x :: post ->
    class_of h' x CStep -> exactly (fun c => class_of h' c CStep) j pre -> value h' x a_number = Some (VInt (Z.of_nat (S j))).
  Proof using Hm ST.
    intros Hp Hh Hk El Hx He.
    assert (Hp3 : p ∈ doc_order t3 /\ holds_steps h3 p /\ exists c, class_of h3 p c /\ ~ holds_items c).
    { destruct Hh as [H|H].
      - destruct (old_class p CProof Hp H) as [H1 H2]; [auto|]. split; [assumption|]. split; [left; assumption|]. exists CProof. split; [assumption|]. intros [G|[G|G]]; discriminate.
      - destruct (old_class p CSubproof Hp H) as [H1 H2]; [auto|]. split; [assumption|]. split; [right; assumption|]. exists CSubproof. split; [assumption|]. intros [G|[G|G]]; discriminate. }
    destruct Hp3 as (Hp3 & Hh3 & c & Hc3 & Hni).
    destruct (manuscript_some _ _ _ (sg_m3 ST) Hp3) as [n3 Hn3].
    assert (Hk3 : kids_are h3 p (kids n3)) by (exists n3; auto).
    pose proof (kids_3' _ _ _ Hc3 Hni Hk3) as Hk'. rewrite (kids_unique _ _ _ _ Hk Hk') in El.
    destruct (keep_out_split _ _ _ _ _ El) as (pre3 & post3 & E3 & Epre).
    assert (Hin3 : forall c, c ∈ kids n3 -> c ∈ doc_order t3).
    { intros c0 Hc0. eapply doc_order_closed; [apply (ms_document _ _ (sg_m3 ST))|exact Hp3|exact Hn3|exact Hc0]. }
    assert (Hst : forall c, c ∈ kids n3 -> class_of h3 c CStep <-> class_of h' c CStep).
    { intros c0 Hc0. split; [apply (carried_class _ _ _ _ _ (c3' ST))|]. apply (carried_class_inv _ _ _ _ _ (c3' ST)).
      eapply manuscript_some; [apply (sg_m3 ST)|auto]. }
    rewrite (carried_value _ _ _ _ _ (c4' ST)).
    - apply (ni_steps _ _ _ _ (sg_num ST) p n3 pre3 x post3 j Hp3 Hh3 Hn3 E3).
      + apply Hst; [rewrite E3; set_solver|assumption].
      + subst pre. eapply exactly_keep_out; [| |exact He].
        * intros c0 Hc0. apply Hst. rewrite E3. set_solver.
        * intros c0 Hc0 Hxs (m & Hm' & Ec). destruct (xs_in Hm ST _ Hxs) as (Hd0 & Hct & _). unfold is_contents in Hct.
          destruct (h !! c0) as [n0|] eqn:E0; [|discriminate]. destruct (c03 ST _ _ E0) as (n0' & Hn0' & Ec0 & _).
          assert (m = n0') as -> by congruence. rewrite <- Ec0, Ec in Hct. discriminate.
    - eapply manuscript_some; [apply (sg_m4 ST)|]. apply Hin3. rewrite E3. set_solver.
    - intros [G|[G|G]]; discriminate.
  Qed.
End result.
