(** A document without mistakes can be translated after transform. *)
From Verif Require Export TemplateKept ResultAll TransformTotal TrTotal6.
From Verif Require Import Consistency Traverse Labels HandrailDepth Autonumber FullNumber TocPick TocLoop TocBuild TocEntries Queries Built Meta Subproofs ResolveAll ResolvePrev Resolve NodeOps Monad.
Local Open Scope list_scope.

(** ** References in the table of contents *)

Definition toc_refs (s0 s : st) : Prop :=
  forall y n, st_next s0 <= y -> st_heap s !! y = Some n -> n_cls n = CReference ->
    exists z, n_attrs n !! a_target = Some (VNode z) /\ is_section (st_heap s0) z = true.
Lemma toc_refs_added s0 s s' p x sub text : good s -> st_next s0 <= st_next s -> is_section (st_heap s0) x = true ->
  toc_refs s0 s -> added s s' p x sub text -> toc_refs s0 s'.
Proof.
  intros Hg Hle Hsec HR A y n Hy Hn Hc. destruct (decide (y < st_next s)) as [Hlt|Hge].
  - rewrite (ad_old _ _ _ _ _ _ A y Hlt) in Hn. destruct (st_heap s !! y) as [m|] eqn:Em; [|discriminate]. injection Hn as <-.
    destruct (HR y m Hy Em) as (z & Hz & Hs); [destruct (decide (y = p)); exact Hc|]. exists z. split; [|exact Hs]. destruct (decide (y = p)); exact Hz.
  - assert (Hy' : y < st_next s') by (apply (proj1 (ad_good _ _ _ _ _ _ A) _ _ Hn)).
    rewrite (ad_next _ _ _ _ _ _ A) in Hy'.
    assert (C : y = st_next s \/ y = S (st_next s) \/ (sub = true /\ y = S (S (st_next s)))) by (destruct sub; lia).
    destruct C as [-> |[-> |[Es ->]]].
    + rewrite (ad_item _ _ _ _ _ _ A) in Hn. injection Hn as <-. discriminate Hc.
    + rewrite (ad_ref _ _ _ _ _ _ A) in Hn. injection Hn as <-. exists x. split; [apply ref_attr_target|exact Hsec].
    + rewrite (ad_sub _ _ _ _ _ _ A Es) in Hn. injection Hn as <-. discriminate Hc.
Qed.
Lemma toc_refs_fold fuel toc s0 : forall l acc s s' acc',
  toc_inv toc s0 acc s -> toc_refs s0 s -> (forall x, x ∈ l -> is_section (st_heap s0) x = true) ->
  foldM (toc_body fuel toc) acc l s = (s', Ok acc') -> toc_refs s0 s'.
Proof.
  induction l as [|x l IH]; intros acc s s' acc' HI HR Hsec H; [apply ret_ok in H as [-> ->]; assumption|].
  cbn [foldM] in H. apply bind_ok in H as (s1 & a1 & H1 & H).
  assert (Hx : is_section (st_heap s0) x = true) by (apply Hsec; constructor).
  pose proof Hx as Hx0. unfold is_section in Hx. destruct (st_heap s0 !! x) as [n0|] eqn:E0; [|discriminate].
  destruct (ex_old _ _ (proj1 HI) _ _ E0) as (n & Hn & Ec & _).
  assert (Hs : sec_cond n = true) by (unfold sec_cond, cond_class; congruence).
  pose proof HI as (E & Ht & Hcur).
  destruct (toc_body_ok _ _ _ _ _ _ _ _ (ex_good _ _ E) Ht Hcur Hn Hs H1) as (p & sub & text & A & _).
  eapply IH; [| | |exact H].
  - eapply toc_step; [exact HI|exact Hn|exact Hs|exact H1].
  - eapply toc_refs_added; [apply (ex_good _ _ E)|apply (ex_next _ _ E)|exact Hx0|exact HR|exact A].
  - intros y Hy. apply Hsec. constructor. assumption.
Qed.

Section present.
  Context (fuel : nat) (d d' : labels) (s s1 s2 s3 s4 s5 s6 s7 s8 s' : st) (t t3 t6 : tree) (f : id -> id) (cites : list (list id)) (a : num_st) (xs : list id).
  Context (Hm : manuscript s t) (ST : stages fuel d d' s s1 s2 s3 s4 s5 s6 s7 s8 s' t t3 t6 f cites a xs).
  Notation h := (st_heap s). Notation h' := (st_heap s'). Notation h5 := (st_heap s5). Notation h6 := (st_heap s6).

  (** A reference made for the table of contents refers to a section. *)
  Lemma toc_references y : y ∈ doc_order t6 -> st_next s5 <= y -> class_of h' y CReference ->
    exists z, value h' y a_target = Some (VNode z) /\ is_section h' z = true.
  Proof.
    intros Hy Hge Hc. destruct (sg_toc ST) as [u Ht].
    destruct (make_toc_ok _ _ _ _ _ (sg_m4 ST) Ht) as (s5' & P & M5 & E & Hh).
    assert (En : st_next s5' = st_next s5).
    { pose proof (pr_next _ _ _ P). pose proof (n45 ST). lia. }
    assert (HR : toc_refs s5' s6).
    { destruct (head _) as [toc|] eqn:Eh.
      - destruct Hh as [Htoc (cur & Hf)]. eapply toc_refs_fold; [| | |exact Hf].
        + split; [apply extends_refl, P|]. split; [assumption|]. intros p [= <-]. assumption.
        + intros z n Hz Hn. exfalso. apply (proj1 (pr_good _ _ _ P)) in Hn. lia.
        + intros x Hx. unfold sections_in in Hx. rewrite elem_of_list_In, filter_In in Hx. tauto.
      - subst s6. intros z n Hz Hn. exfalso. apply (proj1 (pr_good _ _ _ P)) in Hn. lia. }
    destruct (manuscript_some _ _ _ (sg_m6 ST) Hy) as [n Hn].
    assert (Hcn : n_cls n = CReference).
    { apply (carried_class_inv _ _ _ _ _ (c6' ST)) in Hc; [|eauto]. destruct Hc as (m & Hm' & Ec). congruence. }
    destruct (HR y n ltac:(lia) Hn Hcn) as (z & Hz & Hs). exists z. split.
    - rewrite (carried_value _ _ _ _ _ (c6' ST)); [unfold value; rewrite Hn; exact Hz|eauto|]. unfold late_attr. intros [?|[?|?]]; discriminate.
    - unfold is_section in Hs |- *. destruct (st_heap s5' !! z) as [m|] eqn:Em; [|discriminate].
      destruct (ex_old _ _ E _ _ Em) as (m6 & H6 & Ec6 & _). destruct (c6' ST _ _ H6) as (m' & Hm' & Ec' & _). rewrite Hm'. congruence.
  Qed.

  (** The nodes of the result. *)
  Lemma result_nodes y : y ∈ doc_order t6 ->
    (y ∈ doc_order t /\ ~ is_pending h y) \/
    (exists j, j ∈ doc_order t /\ is_pending h j /\ y = f j) \/
    (y ∉ map f (doc_order t) /\ st_next s5 <= y) \/
    (y ∉ map f (doc_order t) /\ (class_of h' y CStatement \/ class_of h' y CSubproof)).
  Proof using Hm ST.
    intros Hy. destruct (decide (y ∈ map f (doc_order t))) as [Hin|Hn].
    - apply elem_of_list_fmap in Hin as (x & -> & Hx). destruct (pendingb h x) eqn:Ep.
      + right. left. exists x. apply pending_iff in Ep. auto.
      + left. assert (Hnp : ~ is_pending h x) by (rewrite <- pending_iff, Ep; discriminate). rewrite (f_same Hm ST x Hx Hnp). auto.
    - right. right. destruct (decide (y < st_next s5)) as [Hlt|Hge]; [right|left; split; [exact Hn|lia]]. split; [exact Hn|].
      destruct (old6 ST _ Hy Hlt) as [_ H3].
      assert (E2 : st_heap s2 !! y = None) by (destruct (st_heap s2 !! y) eqn:E2; [|reflexivity]; exfalso; apply Hn; apply (old3 ST); [assumption|eauto]).
      destruct (wrapper3 ST y H3 E2) as [Hw|Hw]; [left|right]; (eapply carried_class; [exact (c3' ST)|exact Hw]).
  Qed.
End present.

Lemma prunes_in xs cs u : u ∈ prunes xs cs -> exists c, c ∈ cs /\ u = prune xs c.
Proof.
  unfold prunes. intros H. apply elem_of_list_In, in_flat_map in H as (c & Hc & H). exists c. split; [apply elem_of_list_In, Hc|].
  destruct (decide _); [destruct H|]. destruct H as [<-|[]]. reflexivity.
Qed.
Lemma below_in s t c x : manuscript s t -> c ∈ doc_order t -> ancestor (st_heap s) x c -> x ∈ doc_order t.
Proof.
  intros M Hc H. induction H as [x p Hp|x p y Hp Ha IH].
  - apply (cons_parent _ (ms_consistent _ _ M)) in Hp as (n & Hn & Hk). eapply doc_order_closed; [apply M|exact Hc|exact Hn|exact Hk].
  - apply (cons_parent _ (ms_consistent _ _ M)) in Hp as (n & Hn & Hk). eapply doc_order_closed; [apply M|apply IH, Hc|exact Hn|exact Hk].
Qed.
Lemma above_prune xs a x t : above a x (prune xs t) -> above a x t.
Proof.
  induction t as [i cs IH] using tree_ind'. rewrite prune_T. rewrite list.Forall_forall in IH. intros H. inversion H as [cs' Hx|i' cs' c Hc Hx]; subst.
  - apply ab_here. apply elem_doc_orders in Hx as (u & Hu & Hx). apply prunes_in in Hu as (c & Hc & ->). apply elem_doc_orders. exists c. split; [exact Hc|].
    eapply sublist_in; [apply prune_sublist|exact Hx].
  - apply prunes_in in Hc as (c0 & Hc0 & ->). eapply ab_in; [exact Hc0|]. apply IH; assumption.
Qed.
Lemma above_kids h p t a x n : tree_at h p t -> above a x t -> h !! a = Some n -> kids n <> [].
Proof.
  intros Ht Ha. revert p Ht. induction Ha as [cs H|i cs c Hc H IH]; intros p Ht Hn; apply tree_at_inv in Ht as (m & Hm & _ & Hk & Hcs).
  - assert (m = n) as -> by congruence. rewrite Hk. destruct cs; [inversion H|discriminate].
  - rewrite list.Forall_forall in Hcs. eapply IH; [apply Hcs, Hc|exact Hn].
Qed.
Lemma class_fun h x c d : class_of h x c -> class_of h x d -> c = d.
Proof. intros (n & Hn & <-) (m & Hm & <-). congruence. Qed.
Lemma not_pending_class h x c : class_of h x c -> ~ In c [CPendingReference; CPendingCite; CPendingPrev] -> ~ is_pending h x.
Proof. intros Hc Hn Hp. apply Hn. destruct Hp as [Hp|[Hp|Hp]]; rewrite (class_fun _ _ _ _ Hc Hp); cbn; auto. Qed.

Section conclude.
  Context (s : st) (t : tree) (s' : st) (t6 : tree) (f : id -> id) (cites : list (list id)).
  Context (n5 : nat) (R : result s t s' t6 f cites) (P : presentable s t).
  Notation h := (st_heap s). Notation h' := (st_heap s').
  Context (Hnodes : forall y, y ∈ doc_order t6 ->
    (y ∈ doc_order t /\ ~ is_pending h y) \/ (exists j, j ∈ doc_order t /\ is_pending h j /\ y = f j) \/
    (y ∉ map f (doc_order t) /\ n5 <= y) \/ (y ∉ map f (doc_order t) /\ (class_of h' y CStatement \/ class_of h' y CSubproof))).
  Context (Htoc : forall y, y ∈ doc_order t6 -> n5 <= y -> class_of h' y CReference -> exists z, value h' y a_target = Some (VNode z) /\ is_section h' z = true).
  Context (Htmpl : templates_ok s').
  Let TF := rs_transformed _ _ _ _ _ _ R.
  Let TA := ps_transformable _ _ P.

  Lemma old_class x c : x ∈ doc_order t -> ~ is_pending h x -> class_of h x c <-> class_of h' x c.
  Proof using R.
    intros Hx Hp. destruct (tf_node _ _ _ _ _ TF x Hx Hp) as (n & n' & Hn & Hn' & Ec & _). split; intros (m & Hm & <-); [exists n'|exists n]; split; congruence.
  Qed.
  Lemma old_value x b : x ∈ doc_order t -> ~ is_pending h x -> ~ transform_attr b -> value h' x b = value h x b.
  Proof using R.
    intros Hx Hp Hb. destruct (tf_node _ _ _ _ _ TF x Hx Hp) as (n & n' & Hn & Hn' & _ & E). unfold value. rewrite Hn, Hn'. apply E, Hb.
  Qed.
  (** Nodes of classes that transform does not create. *)
  Lemma class_old y c : y ∈ doc_order t6 -> class_of h' y c -> ~ In c [CReference; CError; CCite; CStatement; CSubproof; CItem; CItemize] ->
    y ∈ doc_order t /\ ~ is_pending h y /\ class_of h y c.
  Proof using R.
    intros Hy Hc Hn. destruct (decide (y ∈ map f (doc_order t))) as [Hin|Hin].
    - apply elem_of_list_fmap in Hin as (x & -> & Hx). destruct (pendingb h x) eqn:Ep.
      + exfalso. apply pending_iff in Ep. destruct Ep as [Ep|[Ep|Ep]].
        * destruct (rs_refs _ _ _ _ _ _ R x Hx Ep) as (l & _ & [(z & _ & G & _)|(_ & G & _)]); apply Hn; rewrite (class_fun _ _ _ _ Hc G); cbn; auto.
        * assert (Hi : In x (List.filter (is_cite h) (doc_order t))).
          { apply filter_In. split; [apply elem_of_list_In, Hx|]. destruct Ep as (n & Hx' & Ec). unfold is_cite. rewrite Hx', Ec. reflexivity. }
          apply In_nth_error in Hi as [k Hk]. assert (Hlen : k < length cites) by (rewrite (rs_cites_len _ _ _ _ _ _ R); apply nth_error_Some; congruence).
          destruct (nth_error cites k) as [ts|] eqn:Ets; [|apply nth_error_Some in Hlen; congruence].
          destruct (rs_cites _ _ _ _ _ _ R k x ts Hk Ets) as (G & _). apply Hn; rewrite (class_fun _ _ _ _ Hc G); cbn; auto.
        * destruct (rs_prevs _ _ _ _ _ _ R x Hx Ep) as (st & v & k & z & _ & _ & _ & _ & G & _). apply Hn; rewrite (class_fun _ _ _ _ Hc G); cbn; auto.
      + assert (Hnp : ~ is_pending h x) by (rewrite <- pending_iff, Ep; discriminate). rewrite (tf_same _ _ _ _ _ TF x Hx Hnp) in *.
        split; [exact Hx|]. split; [exact Hnp|]. apply old_class; assumption.
    - exfalso. destruct (tf_added _ _ _ _ _ TF y Hy Hin) as (_ & c' & Hc' & Hi). apply Hn. rewrite (class_fun _ _ _ _ Hc Hc'). apply elem_of_list_In in Hi. cbn in *. intuition auto.
  Qed.
  Ltac notin := cbn; intros HF; repeat (destruct HF as [HF|HF]; [discriminate HF|]); destruct HF.

  Lemma pd_refs x : x ∈ doc_order t6 -> class_of h' x CReference -> exists y, value h' x a_target = Some (VNode y).
  Proof using R P Hnodes Htoc.
    intros Hx Hc. destruct (Hnodes x Hx) as [[Hx0 Hp]|[(j & Hj & Hp & ->)|[[Hn Hge]|[Hn Hw]]]].
    - exfalso. apply (ps_refs _ _ P x Hx0). apply old_class; assumption.
    - destruct Hp as [Ep|[Ep|Ep]].
      + destruct (rs_refs _ _ _ _ _ _ R j Hj Ep) as (l & _ & [(z & _ & _ & G & _)|(_ & G & _)]); [eauto|]. discriminate (class_fun _ _ _ _ Hc G).
      + exfalso. assert (Hi : In j (List.filter (is_cite h) (doc_order t))).
        { apply filter_In. split; [apply elem_of_list_In, Hj|]. destruct Ep as (n & Hx' & Ec). unfold is_cite. rewrite Hx', Ec. reflexivity. }
        apply In_nth_error in Hi as [k Hk]. assert (Hlen : k < length cites) by (rewrite (rs_cites_len _ _ _ _ _ _ R); apply nth_error_Some; congruence).
        destruct (nth_error cites k) as [ts|] eqn:Ets; [|apply nth_error_Some in Hlen; congruence].
        destruct (rs_cites _ _ _ _ _ _ R k j ts Hk Ets) as (G & _). discriminate (class_fun _ _ _ _ Hc G).
      + destruct (rs_prevs _ _ _ _ _ _ R j Hj Ep) as (st & v & k & z & _ & _ & _ & _ & _ & G & _). eauto.
    - destruct (Htoc x Hx Hge Hc) as (z & Hz & _). eauto.
    - destruct Hw as [G|G]; discriminate (class_fun _ _ _ _ Hc G).
  Qed.

  Lemma presented : translatable_doc s' t6.
  Proof using R P Hnodes Htoc Htmpl.
    pose proof (tf_manuscript _ _ _ _ _ TF) as M'. constructor.
    - exact M'.
    - rewrite (tf_root _ _ _ _ _ TF). pose proof (ta_root _ _ TA) as Hr. apply old_class; [apply root_in_doc_order| |exact Hr].
      eapply not_pending_class; [exact Hr|notin].
    - apply (rs_typed _ _ _ _ _ _ R).
    - apply (rs_complete _ _ _ _ _ _ R).
    - intros x Hx Hc. destruct (class_old _ _ Hx Hc) as (Hx0 & Hp & Hc0); [notin|].
      destruct (ps_math _ _ P x Hx0 Hc0) as (p & Hpar & Hcp).
      pose proof (proj1 (ta_ready _ _ TA)) as M. pose proof (ms_consistent _ _ M) as HC.
      apply (cons_parent _ HC) in Hpar as (np & Hnp & Hk).
      assert (Hpt : p ∈ doc_order t).
      { destruct (tree_at_parent_in _ _ _ _ (proj1 (ms_document _ _ M)) Hx0) as [-> |(q & Hq & Hqt)].
        - exfalso. destruct (ta_root _ _ TA) as (m & Hm & Ec). destruct Hc0 as (m' & Hm' & Ec'). congruence.
        - assert (Hp2 : parent_is h x p) by (apply (cons_parent _ HC); exists np; split; [exact Hnp|exact Hk]).
          assert (q = p) as -> by (destruct Hp2 as (? & ? & ?), Hq as (? & ? & ?); congruence). exact Hqt. }
      assert (Hpp : ~ is_pending h p) by (eapply not_pending_class; [exact Hcp|notin]).
      exists p. split; [|apply old_class; assumption].
      destruct (rs_kids _ _ _ _ _ _ R p CParagraph (kids np) Hpt Hpp Hcp ltac:(discriminate) ltac:(discriminate) ltac:(discriminate) ltac:(discriminate)
        ltac:(exists np; auto)) as (np' & Hnp' & Hk').
      apply (cons_parent _ (ms_consistent _ _ M')). exists np'. split; [exact Hnp'|]. rewrite Hk', <- (tf_same _ _ _ _ _ TF x Hx0 Hp). apply elem_of_list_fmap.
      exists x. split; [reflexivity|]. unfold without. apply elem_of_list_filter. split; [|exact Hk].
      intros Hin. unfold later_contents in Hin. assert (Hin2 : In x (List.filter (is_contents h) (doc_order t))) by (destruct (List.filter _ _); [inversion Hin|right; apply elem_of_list_In, Hin]).
      apply filter_In in Hin2 as [_ Hct]. unfold is_contents in Hct. destruct Hc0 as (m & Hm & Ec). rewrite Hm, Ec in Hct. discriminate Hct.
    - apply pd_refs.
    - intros x c y Hx Hc Hin Hv. destruct Hin as [<-|[<-|[<-|[]]]].
      + destruct (class_old _ _ Hx Hc) as (Hx0 & _ & Hc0); [notin|]. exact (ps_base _ _ P x Hx0 Hc0).
      + apply (rs_pending _ _ _ _ _ _ R x Hx). left. exact Hc.
      + apply (rs_pending _ _ _ _ _ _ R x Hx). right. right. exact Hc.
    - intros x Hx Hc. destruct (class_old _ _ Hx Hc) as (Hx0 & Hp & Hc0); [notin|].
      rewrite (old_value _ _ Hx0 Hp); [apply (ps_urls _ _ P); assumption|]. unfold transform_attr. intuition discriminate.
    - intros x c Hx Hc Hs.
      destruct (class_old _ _ Hx Hc) as (Hx0 & Hp & Hc0); [intros HF; cbn in HF; repeat (destruct HF as [<-|HF]; [discriminate Hs|]); destruct HF|].
      pose proof (ps_entries _ _ P x c Hx0 Hc0 Hs) as [E1 E2 E3 E4].
      assert (V : forall b, In b [a_author; a_year; a_kind; a_journal; a_publisher] -> value h' x b = value h x b).
      { intros b Hb. apply (old_value _ _ Hx0 Hp). unfold transform_attr. cbn in Hb. intuition (subst; discriminate). }
      split; rewrite !V by (cbn; auto 6); assumption.
    - intros x tmpl Hv. apply simple_fillable. apply value_node in Hv as (n & Hn & Hv). eapply Htmpl; eassumption.
  Qed.

  Lemma presented_handrails : presentable_handrails s t -> handrails_doc s' t6.
  Proof using R P Hnodes Htoc Htmpl.
    intros PH. pose proof (tf_manuscript _ _ _ _ _ TF) as M'. constructor.
    - exact presented.
    - intros x Hx Hc. destruct (class_old _ _ Hx Hc) as (Hx0 & Hp & Hc0); [notin|].
      destruct (ph_authors _ _ PH x Hx0 Hc0) as (b & v & Hb & Hv & Ht). exists b, v. split; [exact Hb|]. split; [|exact Ht].
      rewrite (old_value _ _ Hx0 Hp); [exact Hv|]. unfold transform_attr. cbn in Hb. intuition (subst; discriminate).
    - intros c x y Hc Hcc Hanc Hcx Hv.
      assert (Hx : x ∈ doc_order t6) by (eapply below_in; [apply M'|exact Hc|exact Hanc]).
      assert (Hsec : forall z, is_section h' z = true -> exists k, In k [CSection; CSubsection; CSubsubsection] /\ class_of h' z k).
      { intros z Hz. rewrite section_split in Hz. rewrite !orb_true_iff, !is_class_spec in Hz. destruct Hz as [[Hz|Hz]|Hz]; eexists; (split; [|exact Hz]); cbn; auto. }
      destruct (class_old _ _ Hc Hcc) as (Hc0 & Hpc & Hcc0); [notin|].
      assert (Hkeep : x ∈ map f (doc_order t) -> False).
      { intros Hin. pose proof (ancestor_above _ _ _ _ (ms_consistent _ _ M') (proj1 (ms_document _ _ M')) Hx Hanc) as Ha.
        apply (forget_above (fun y => bool_decide (y ∈ map f (doc_order t)))) in Ha as (u & Hu & Ha).
        - rewrite (tf_tree _ _ _ _ _ TF) in Hu. apply elem_of_list_singleton in Hu as ->. apply above_tmap in Ha as (c0 & x0 & Ec & Ex & Ha). apply above_prune in Ha.
          assert (E : c0 = c).
          { apply (tf_inj _ _ _ _ _ TF); [apply (above_in _ _ _ Ha)|exact Hc0|]. rewrite (tf_same _ _ _ _ _ TF c Hc0 Hpc). congruence. }
          rewrite E in Ha. destruct (ph_contents _ _ PH c Hc0 Hcc0) as (n & Hn & Hk). pose proof (proj1 (ta_ready _ _ TA)) as M.
          exact (above_kids _ _ _ _ _ _ (proj1 (ms_document _ _ M)) Ha Hn Hk).
        - apply bool_decide_eq_true. rewrite <- (tf_same _ _ _ _ _ TF c Hc0 Hpc). apply elem_of_list_fmap. eauto.
        - apply bool_decide_eq_true, Hin. }
      destruct (Hnodes x Hx) as [[Hx0 Hp]|[(j & Hj & Hp & ->)|[[Hn Hge]|[Hn Hw]]]].
      + exfalso. apply Hkeep. rewrite <- (tf_same _ _ _ _ _ TF x Hx0 Hp). apply elem_of_list_fmap. eauto.
      + exfalso. apply Hkeep. apply elem_of_list_fmap. eauto.
      + destruct (Htoc x Hx Hge Hcx) as (z & Hz & Hs). assert (z = y) as -> by congruence. apply Hsec, Hs.
      + destruct Hw as [G|G]; discriminate (class_fun _ _ _ _ Hcx G).
  Qed.
End conclude.

Lemma transform_presented s t s' : presentable s t -> transforms_to s t s' ->
  exists t', root t' = root t /\ translatable_doc s' t' /\ (presentable_handrails s t -> handrails_doc s' t').
Proof.
  intros P H. pose proof (ps_transformable _ _ P) as TA. pose proof (ta_ready _ _ TA) as R.
  assert (G : typed s' /\ complete s' /\ all_built s' /\ templates_ok s').
  { destruct H as (fuel & d & H). destruct (transform_typed fuel [] (root t) [] (fun x H => H) s (conj (ta_typed _ _ TA) (ta_complete _ _ TA))) as ([H1 H2] & _ & _); [intros x []|].
    pose proof (templates_kept fuel [] (root t) s) as H3. rewrite H in H1, H2, H3. split; [exact H1|]. split; [exact H2|]. split; [apply complete_built, H2|]. apply H3.
    intros x n tmpl Hx Ht. apply (ps_templates _ _ P x). unfold value. rewrite Hx. exact Ht. }
  destruct G as (Ht' & Hc' & Hb' & Htm).
  stages_of R H fuel d' s1 s2 s3 s4 s5 s6 s7 s8 t3 t6 f cites a xs ST TF Hm. exists t6.
  assert (HC : length cites = length (List.filter (is_cite (st_heap s)) (doc_order t)) /\
    (forall k j ts, nth_error (List.filter (is_cite (st_heap s)) (doc_order t)) k = Some j -> nth_error cites k = Some ts -> cite_resolved s t s' f k j ts) /\
    (forall x, is_Some (st_heap s !! x) -> backlinks_of (st_heap s') x = backlinks_of (st_heap s) x ++ mentions x 0 cites)) by (eapply cites_resolved; eauto).
  destruct HC as (C1 & C2 & C3).
  assert (RS : result s t s' t6 f cites).
  { split; try assumption.
    - intros. eapply labels_unique; eauto.
    - intros. eapply label_first; eauto.
    - intros. eapply label_later; eauto.
    - intros. eapply label_none; eauto.
    - intros. eapply no_pending; eauto.
    - intros. eapply refs_resolved; eauto.
    - intros. eapply prevs_resolved; eauto.
    - intros. eapply other_kids; eauto.
    - apply typed_translatable; try assumption. apply (tf_manuscript _ _ _ _ _ TF). }
  pose proof (result_nodes _ _ _ _ _ _ _ _ _ _ _ _ _ _ _ _ _ _ _ _ Hm ST) as HN.
  pose proof (toc_references _ _ _ _ _ _ _ _ _ _ _ _ _ _ _ _ _ _ _ _ ST) as HT.
  split; [apply (tf_root _ _ _ _ _ TF)|]. split; [exact (presented _ _ _ _ _ _ _ RS P HN HT Htm)|exact (presented_handrails _ _ _ _ _ _ _ RS P HN HT Htm)].
Qed.

(** ** From a parsed document to HTML *)

Theorem presentable_shown hl s t : presentable s t -> exists s' html s'', transforms_to s t s' /\ translates_to hl s' t html s''.
Proof.
  intros P. destruct (transform_total s t (ps_transformable _ _ P)) as [s' H]. destruct (transform_presented s t s' P H) as (t' & Hr & TD & _).
  destruct (translate_total hl s' t' TD) as (html & s'' & G). exists s', html, s''. split; [exact H|]. unfold translates_to in *. rewrite <- Hr. exact G.
Qed.
Theorem presentable_shown_handrails hl src s t : presentable_handrails s t ->
  exists s' html s'', transforms_to s t s' /\ translates_handrails_to hl src s' t html s''.
Proof.
  intros P. pose proof (ph_doc _ _ P) as P0. destruct (transform_total s t (ps_transformable _ _ P0)) as [s' H]. destruct (transform_presented s t s' P0 H) as (t' & Hr & _ & HD).
  destruct (handrails_total hl src s' t' (HD P)) as (html & s'' & G). exists s', html, s''. split; [exact H|]. unfold translates_handrails_to in *. rewrite <- Hr. exact G.
Qed.
