(** Transform neither makes nor mends the mistakes that translate minds. *)
From Verif Require Import PresentDoc.
From Verif Require Export Stuck3.
From Verif Require Import Consistency Traverse Labels ResolveAll ResolvePrev Resolve NodeOps Monad.
Local Open Scope list_scope.

Section mistakes.
  Context (s : st) (t : tree) (s' : st) (t6 : tree) (f : id -> id) (cites : list (list id)).
  Context (n5 : nat) (R : result s t s' t6 f cites) (P : printable s t).
  Notation h := (st_heap s). Notation h' := (st_heap s').
  Context (Hnodes : forall y, y ∈ doc_order t6 ->
    (y ∈ doc_order t /\ ~ is_pending h y) \/ (exists j, j ∈ doc_order t /\ is_pending h j /\ y = f j) \/
    (y ∉ map f (doc_order t) /\ n5 <= y) \/ (y ∉ map f (doc_order t) /\ (class_of h' y CStatement \/ class_of h' y CSubproof))).
  Context (Htoc : forall y, y ∈ doc_order t6 -> n5 <= y -> class_of h' y CReference -> exists z, value h' y a_target = Some (VNode z) /\ is_section h' z = true).
  Context (Htmpl : templates_ok s').
  Let TF := rs_transformed _ _ _ _ _ _ R.
  Ltac notin := cbn; intros HF; repeat (destruct HF as [HF|HF]; [discriminate HF|]); destruct HF.

  Lemma refs_done x : x ∈ doc_order t6 -> class_of h' x CReference -> exists y, value h' x a_target = Some (VNode y).
  Proof using R P Hnodes Htoc.
    intros Hx Hc. destruct (Hnodes x Hx) as [[Hx0 Hp]|[(j & Hj & Hp & ->)|[[Hn Hge]|[Hn Hw]]]].
    - exfalso. apply (pt_refs _ _ P x Hx0). exact (proj2 (old_class _ _ _ _ _ _ R x _ Hx0 Hp) Hc).
    - destruct Hp as [Ep|[Ep|Ep]].
      + destruct (rs_refs _ _ _ _ _ _ R j Hj Ep) as (l & _ & [(z & _ & _ & G & _)|(_ & G & _)]); [eauto|]. discriminate (class_fun _ _ _ _ Hc G).
      + exfalso. assert (Hi : In j (List.filter (is_cite h) (doc_order t))).
        { apply filter_In. split; [apply elem_of_list_In, Hj|]. destruct Ep as (n & Hx' & Ec). unfold is_cite. rewrite Hx', Ec. reflexivity. }
        apply In_nth_error in Hi as [k Hk]. assert (Hlen : k < length cites) by (rewrite (rs_cites_len _ _ _ _ _ _ R); apply nth_error_Some; congruence).
        destruct (nth_error cites k) as [ts|] eqn:Ets; [|apply nth_error_Some in Hlen; congruence].
        destruct (rs_cites _ _ _ _ _ _ R k j ts Hk Ets) as (G & _). discriminate (class_fun _ _ _ _ Hc G).
      + destruct (rs_prevs _ _ _ _ _ _ R j Hj Ep) as (st & v & k & z & _ & _ & _ & _ & _ & G & _). eauto.
    - destruct (Htoc x Hx Hge Hc) as (z & Hz & _). eauto.
    - destruct Hw as [G|G]; discriminate (class_fun _ _ _ _ Hc G).
  Qed.
  Lemma formula_kept x : x ∈ doc_order t6 -> class_of h' x CMathBlock ->
    x ∈ doc_order t /\ class_of h x CMathBlock /\ exists q c, parent_is h x q /\ parent_is h' x q /\ class_of h q c /\ class_of h' q c /\ c <> CStep /\ c <> CCaption.
  Proof using R P.
    intros Hx Hc. pose proof (tf_manuscript _ _ _ _ _ TF) as M'.
    destruct (class_old _ _ _ _ _ _ R _ _ Hx Hc) as (Hx0 & Hp & Hc0); [notin|]. split; [exact Hx0|]. split; [exact Hc0|].
    pose proof (proj1 (pt_ready _ _ P)) as M. pose proof (ms_consistent _ _ M) as HC.
    destruct (tree_at_parent_in _ _ _ _ (proj1 (ms_document _ _ M)) Hx0) as [-> |(q & Hq & Hqt)].
    { exfalso. discriminate (class_fun _ _ _ _ Hc0 (pt_root _ _ P)). }
    pose proof Hq as Hq1. apply (cons_parent _ HC) in Hq1 as (nq & Hnq & Hk).
    assert (Hcq : class_of h q (n_cls nq)) by (exists nq; auto).
    pose proof (pt_formulas _ _ P x q (n_cls nq) Hx0 Hc0 Hq Hcq) as Hno.
    assert (Hpq : ~ is_pending h q) by (eapply not_pending_class; [exact Hcq|]; intros HF; apply Hno; cbn in *; intuition auto).
    exists q, (n_cls nq). split; [exact Hq|]. split; [|split; [exact Hcq|split; [exact (proj1 (old_class _ _ _ _ _ _ R q _ Hqt Hpq) Hcq)|split; intros E; apply Hno; rewrite E; cbn; auto 8]]].
    destruct (rs_kids _ _ _ _ _ _ R q (n_cls nq) (kids nq) Hqt Hpq Hcq) as (nq' & Hnq' & Hk'); [intros E; apply Hno; rewrite E; cbn; auto 8..|exists nq; auto|].
    apply (cons_parent _ (ms_consistent _ _ M')). exists nq'. split; [exact Hnq'|]. rewrite Hk', <- (tf_same _ _ _ _ _ TF x Hx0 Hp). apply elem_of_list_fmap.
    exists x. split; [reflexivity|]. unfold without. apply elem_of_list_filter. split; [|exact Hk].
    intros Hin. unfold later_contents in Hin. assert (Hin2 : In x (List.filter (is_contents h) (doc_order t))) by (destruct (List.filter _ _); [inversion Hin|right; apply elem_of_list_In, Hin]).
    apply filter_In in Hin2 as [_ Hct]. unfold is_contents in Hct. destruct Hc0 as (m & Hm & Ec). rewrite Hm, Ec in Hct. discriminate Hct.
  Qed.
  Lemma parent_fun hh x p q : parent_is hh x p -> parent_is hh x q -> p = q.
  Proof using. intros (n & Hn & E) (m & Hm & E'). congruence. Qed.

  Lemma printable_presented : SpecStuck.presented s' t6.
  Proof using R P Hnodes Htoc Htmpl.
    pose proof (tf_manuscript _ _ _ _ _ TF) as M'. constructor.
    - exact M'.
    - rewrite (tf_root _ _ _ _ _ TF). pose proof (pt_root _ _ P) as Hr. apply (old_class _ _ _ _ _ _ R); [apply root_in_doc_order| |exact Hr].
      eapply not_pending_class; [exact Hr|notin].
    - apply (rs_typed _ _ _ _ _ _ R).
    - apply (rs_complete _ _ _ _ _ _ R).
    - intros x c y Hx Hc Hin Hv. destruct Hin as [<-|[<-|[<-|[]]]].
      + destruct (class_old _ _ _ _ _ _ R _ _ Hx Hc) as (Hx0 & _ & Hc0); [notin|]. exact (pt_base _ _ P x Hx0 Hc0).
      + apply (rs_pending _ _ _ _ _ _ R x Hx). left. exact Hc.
      + apply (rs_pending _ _ _ _ _ _ R x Hx). right. right. exact Hc.
    - intros x v Hx Hc Hv. destruct (class_old _ _ _ _ _ _ R _ _ Hx Hc) as (Hx0 & Hp & Hc0); [notin|].
      rewrite (old_value _ _ _ _ _ _ R _ _ Hx0 Hp) in Hv; [eapply (pt_addresses _ _ P); eassumption|]. unfold transform_attr. intuition discriminate.
    - intros x p Hx Hc Hpar. destruct (formula_kept x Hx Hc) as (_ & _ & q & c & _ & Hq' & _ & Hc' & N1 & N2).
      rewrite (parent_fun _ _ _ _ Hpar Hq'). split; intros K; [apply N1|apply N2]; exact (class_fun _ _ _ _ Hc' K).
    - intros x tmpl Hv. apply simple_fillable. apply value_node in Hv as (n & Hn & Hv). eapply Htmpl; eassumption.
  Qed.
  Lemma mistake_old x e : x ∈ doc_order t6 -> minded h' x e -> x ∈ doc_order t /\ minded h x e.
  Proof using R P Hnodes Htoc.
    intros Hx [Hc Hbad|Hc Hbad|Hc Hbad|c Hc Hs Hbad].
    - destruct (formula_kept x Hx Hc) as (Hx0 & Hc0 & q & c & Hq & Hq' & Hcq & Hcq' & _). split; [exact Hx0|]. apply minded_formula; [exact Hc0|].
      intros p Hp K. apply (Hbad q Hq'). rewrite (parent_fun _ _ _ _ Hp Hq) in K. rewrite <- (class_fun _ _ _ _ Hcq K). exact Hcq'.
    - exfalso. destruct (refs_done x Hx Hc) as [y Hy]. exact (Hbad y Hy).
    - destruct (class_old _ _ _ _ _ _ R _ _ Hx Hc) as (Hx0 & Hp & Hc0); [notin|]. split; [exact Hx0|]. apply minded_link; [exact Hc0|].
      rewrite (old_value _ _ _ _ _ _ R _ _ Hx0 Hp) in Hbad; [exact Hbad|]. unfold transform_attr. intuition discriminate.
    - destruct (class_old _ _ _ _ _ _ R _ _ Hx Hc) as (Hx0 & Hp & Hc0); [intros HF; cbn in HF; repeat (destruct HF as [<-|HF]; [discriminate Hs|]); destruct HF|].
      split; [exact Hx0|]. apply (minded_entry _ _ c); [exact Hc0|exact Hs|]. intros [E1 E2 E3 E4]. apply Hbad.
      assert (V : forall b, In b [a_author; a_year; a_kind; a_journal; a_publisher] -> value h' x b = value h x b).
      { intros b Hb. apply (old_value _ _ _ _ _ _ R _ _ Hx0 Hp). unfold transform_attr. cbn in Hb. intuition (subst; discriminate). }
      split; rewrite !V by (cbn; auto 6); assumption.
  Qed.
  Lemma mistake_same x e : x ∈ doc_order t -> minded h x e -> ~ is_pending h x.
  Proof using P.
    intros Hx [Hc Hbad|Hc Hbad|Hc Hbad|c Hc Hs Hbad]; (apply (not_pending_class _ _ _ Hc)); [notin..|].
    intros HF. cbn in HF. repeat (destruct HF as [<-|HF]; [discriminate Hs|]). destruct HF.
  Qed.
  Lemma mistake_new x e : x ∈ doc_order t6 -> x ∈ doc_order t -> minded h x e -> minded h' x e.
  Proof using R P.
    intros Hx Hx0 Hm. pose proof (mistake_same x e Hx0 Hm) as Hp. destruct Hm as [Hc Hbad|Hc Hbad|Hc Hbad|c Hc Hs Hbad].
    - pose proof (proj1 (old_class _ _ _ _ _ _ R x _ Hx0 Hp) Hc) as Hc'. destruct (formula_kept x Hx Hc') as (_ & _ & q & c & Hq & Hq' & Hcq & Hcq' & _).
      apply minded_formula; [exact Hc'|]. intros p Hpar K. apply (Hbad q Hq). rewrite (parent_fun _ _ _ _ Hpar Hq') in K. rewrite <- (class_fun _ _ _ _ Hcq' K). exact Hcq.
    - exfalso. exact (pt_refs _ _ P x Hx0 Hc).
    - apply minded_link; [exact (proj1 (old_class _ _ _ _ _ _ R x _ Hx0 Hp) Hc)|].
      rewrite (old_value _ _ _ _ _ _ R _ _ Hx0 Hp); [exact Hbad|]. unfold transform_attr. intuition discriminate.
    - apply (minded_entry _ _ c); [exact (proj1 (old_class _ _ _ _ _ _ R x _ Hx0 Hp) Hc)|exact Hs|].
      assert (V : forall b, In b [a_author; a_year; a_kind; a_journal; a_publisher] -> value h' x b = value h x b).
      { intros b Hb. apply (old_value _ _ _ _ _ _ R _ _ Hx0 Hp). unfold transform_attr. cbn in Hb. intuition (subst; discriminate). }
      intros [E1 E2 E3 E4]. apply Hbad. split; rewrite <- ?V by (cbn; auto 6); try assumption.
  Qed.
  Notation t0 := (prune (later_contents h t) t).
  Lemma kept_in x : x ∈ doc_order t0 -> x ∈ doc_order t.
  Proof using. intros Hx. eapply sublist_in; [apply prune_sublist|exact Hx]. Qed.
  Lemma kept_order : List.filter (fun y => bool_decide (y ∈ map f (doc_order t))) (doc_order t6) = map f (doc_order t0).
  Proof using R. rewrite <- forget_order, (tf_tree _ _ _ _ _ TF). unfold doc_orders. cbn. rewrite ?app_nil_r. apply tmap_order. Qed.
  Lemma filter_split {A} (g : A -> bool) l : forall p x q, List.filter g l = p ++ x :: q -> exists p' q', l = p' ++ x :: q' /\ List.filter g p' = p.
  Proof using.
    induction l as [|y l IH]; intros p x q H; [destruct p; discriminate H|]. cbn in H. destruct (g y) eqn:E.
    - destruct p as [|z p]; cbn in H.
      + injection H as -> H. exists [], l. auto.
      + injection H as -> H. destruct (IH p x q H) as (p' & q' & -> & Hp). exists (z :: p'), q'. cbn. rewrite E, Hp. auto.
    - destruct (IH p x q H) as (p' & q' & -> & Hp). exists (y :: p'), q'. cbn. rewrite E. auto.
  Qed.
  Lemma old_kept x e : x ∈ doc_order t6 -> minded h' x e -> x ∈ doc_order t0 /\ minded h x e.
  Proof using R P Hnodes Htoc.
    intros Hx Hm. destruct (mistake_old x e Hx Hm) as [Hx0 Hm0]. split; [|exact Hm0].
    pose proof (tf_same _ _ _ _ _ TF x Hx0 (mistake_same x e Hx0 Hm0)) as E.
    assert (Hin : In x (map f (doc_order t0))).
    { rewrite <- kept_order. apply filter_In. split; [apply elem_of_list_In, Hx|]. apply bool_decide_eq_true. rewrite <- E. apply elem_of_list_fmap. eauto. }
    apply in_map_iff in Hin as (z & Ez & Hz). apply elem_of_list_In in Hz. assert (z = x) as <-; [|exact Hz].
    apply (tf_inj _ _ _ _ _ TF); [apply kept_in, Hz|exact Hx0|congruence].
  Qed.
  Lemma kept_new x e : x ∈ doc_order t0 -> minded h x e -> x ∈ doc_order t6 /\ minded h' x e.
  Proof using R P.
    intros Hx Hm. pose proof (kept_in x Hx) as Hx0. pose proof (tf_same _ _ _ _ _ TF x Hx0 (mistake_same x e Hx0 Hm)) as E.
    assert (H6 : x ∈ doc_order t6).
    { assert (Hin : In x (map f (doc_order t0))) by (rewrite <- E; apply in_map, elem_of_list_In, Hx). rewrite <- kept_order in Hin. apply filter_In in Hin as [Hin _]. apply elem_of_list_In, Hin. }
    split; [exact H6|apply mistake_new; assumption].
  Qed.
  Lemma first_kept x e : first_minded s t0 x e -> first_minded s' t6 x e.
  Proof using R P Hnodes Htoc.
    intros [Hm (p & q & Hd & Hp)]. assert (Hx : x ∈ doc_order t0) by (rewrite Hd; apply elem_of_app; right; apply elem_of_cons; left; reflexivity).
    destruct (kept_new x e Hx Hm) as [H6 Hm']. split; [exact Hm'|].
    pose proof (kept_in x Hx) as Hx0. pose proof (tf_same _ _ _ _ _ TF x Hx0 (mistake_same x e Hx0 Hm)) as E.
    pose proof kept_order as K. rewrite Hd, map_app in K. cbn [map] in K. rewrite E in K. destruct (filter_split _ _ _ _ _ K) as (p' & q' & Hd' & Hp').
    exists p', q'. split; [exact Hd'|]. intros y e' Hy Hmy. assert (Hy6 : y ∈ doc_order t6) by (rewrite Hd'; apply elem_of_app; left; exact Hy).
    destruct (mistake_old y e' Hy6 Hmy) as [Hy0 Hmy0]. pose proof (tf_same _ _ _ _ _ TF y Hy0 (mistake_same y e' Hy0 Hmy0)) as Ey.
    assert (Hin : In y (map f p)).
    { rewrite <- Hp'. apply filter_In. split; [apply elem_of_list_In, Hy|]. apply bool_decide_eq_true. rewrite <- Ey. apply elem_of_list_fmap. eauto. }
    apply in_map_iff in Hin as (z & Ez & Hz). apply elem_of_list_In in Hz. assert (z = y) as ->; [|exact (Hp y e' Hz Hmy0)].
    apply (tf_inj _ _ _ _ _ TF); [apply kept_in; rewrite Hd; apply elem_of_app; left; exact Hz|exact Hy0|congruence].
  Qed.
End mistakes.

Lemma transform_printable s t s' : printable s t -> transforms_to s t s' ->
  exists t', root t' = root t /\ SpecStuck.presented s' t' /\
    (forall x e, x ∈ doc_order t' /\ minded (st_heap s') x e <-> x ∈ doc_order (prune (later_contents (st_heap s) t) t) /\ minded (st_heap s) x e) /\
    (forall x e, first_minded s (prune (later_contents (st_heap s) t) t) x e -> first_minded s' t' x e).
Proof.
  intros P H. pose proof (pt_ready _ _ P) as R.
  assert (G : typed s' /\ complete s' /\ all_built s' /\ templates_ok s').
  { destruct H as (fuel & d & H). destruct (transform_typed fuel [] (root t) [] (fun x H => H) s (conj (pt_typed _ _ P) (pt_complete _ _ P))) as ([H1 H2] & _ & _); [intros x []|].
    pose proof (templates_kept fuel [] (root t) s) as H3. rewrite H in H1, H2, H3. split; [exact H1|]. split; [exact H2|]. split; [apply complete_built, H2|]. apply H3.
    intros x n tmpl Hx Ht. apply (pt_templates _ _ P x). unfold value. rewrite Hx. exact Ht. }
  destruct G as (Ht' & Hc' & Hb' & Htm).
  stages_of R H fuel d' s1 s2 s3 s4 s5 s6 s7 s8 t3 t6 f cites a xs ST TF Hm. exists t6.
  assert (HC : length cites = length (List.filter (is_cite (st_heap s)) (doc_order t)) /\
    (forall k j ts, nth_error (List.filter (is_cite (st_heap s)) (doc_order t)) k = Some j -> nth_error cites k = Some ts -> cite_resolved s t s' f k j ts) /\
    (forall x, is_Some (st_heap s !! x) -> backlinks_of (st_heap s') x = backlinks_of (st_heap s) x ++ mentions x 0 cites)) by (eapply cites_resolved; eauto).
  destruct HC as (C1 & C2 & C3).
  assert (RS : result s t s' t6 f cites).
  { split; try assumption.
    - intros. eapply labels_unique; eauto.
    - intros. eapply label_first; eauto.
    - intros. eapply label_later; eauto.
    - intros. eapply label_none; eauto.
    - intros. eapply no_pending; eauto.
    - intros. eapply refs_resolved; eauto.
    - intros. eapply prevs_resolved; eauto.
    - intros. eapply other_kids; eauto.
    - apply typed_translatable; try assumption. apply (tf_manuscript _ _ _ _ _ TF). }
  pose proof (result_nodes _ _ _ _ _ _ _ _ _ _ _ _ _ _ _ _ _ _ _ _ Hm ST) as HN.
  pose proof (toc_references _ _ _ _ _ _ _ _ _ _ _ _ _ _ _ _ _ _ _ _ ST) as HT.
  split; [apply (tf_root _ _ _ _ _ TF)|]. split; [exact (printable_presented _ _ _ _ _ _ _ RS P HN HT Htm)|].
  split; [|exact (first_kept _ _ _ _ _ _ _ RS P HN HT)].
  intros x e. split; intros [H1 H2]; [exact (old_kept _ _ _ _ _ _ _ RS P HN HT x e H1 H2)|exact (kept_new _ _ _ _ _ _ RS P x e H1 H2)].
Qed.

Lemma source_first hl s t s' x e : printable s t -> transforms_to s t s' ->
  first_minded s (prune (later_contents (st_heap s) t) t) x e -> translate_raises hl s' t e.
Proof.
  intros P H F. destruct (transform_printable s t s' P H) as (t' & Hr & PR & _ & Hf).
  pose proof (first_raises hl s' t' x e PR (Hf x e F)) as G. unfold translate_raises in *. rewrite <- Hr. exact G.
Qed.
Lemma source_iff hl s t s' : printable s t -> transforms_to s t s' ->
  (exists html s'', translates_to hl s' t html s'') <-> forall x e, x ∈ doc_order (prune (later_contents (st_heap s) t) t) -> ~ minded (st_heap s) x e.
Proof.
  intros P H. destruct (transform_printable s t s' P H) as (t' & Hr & PR & Ho & _).
  assert (I : (exists html s'', translates_to hl s' t html s'') <-> exists html s'', translates_to hl s' t' html s'') by (unfold translates_to; rewrite Hr; reflexivity).
  rewrite I, (translated_iff hl s' t' PR). split.
  - intros G x e Hx Hm. destruct (proj2 (Ho x e) (conj Hx Hm)) as [H1 H2]. exact (G x e H1 H2).
  - intros G x e Hx Hm. destruct (proj1 (Ho x e) (conj Hx Hm)) as [H1 H2]. exact (G x e H1 H2).
Qed.
