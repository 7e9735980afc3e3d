(** The same for the translator with handrails. *)
From Verif Require Import PresentDoc.
From Verif Require Export Stuck4.
From Verif Require Import Consistency Traverse Labels HandrailDepth Autonumber FullNumber TocPick TocLoop TocBuild TocEntries Queries Built Meta Subproofs ResolveAll ResolvePrev Resolve NodeOps Monad.
Local Open Scope list_scope.

Section mistakes.
  Context (s : st) (t : tree) (s' : st) (t6 : tree) (f : id -> id) (cites : list (list id)).
  Context (n5 : nat) (R : result s t s' t6 f cites) (PR : printable_rails s t).
  Notation h := (st_heap s). Notation h' := (st_heap s').
  Context (Hnodes : forall y, y ∈ doc_order t6 ->
    (y ∈ doc_order t /\ ~ is_pending h y) \/ (exists j, j ∈ doc_order t /\ is_pending h j /\ y = f j) \/
    (y ∉ map f (doc_order t) /\ n5 <= y) \/ (y ∉ map f (doc_order t) /\ (class_of h' y CStatement \/ class_of h' y CSubproof))).
  Context (Htoc : forall y, y ∈ doc_order t6 -> n5 <= y -> class_of h' y CReference -> exists z, value h' y a_target = Some (VNode z) /\ is_section h' z = true).
  Context (Htmpl : templates_ok s').
  Let TF := rs_transformed _ _ _ _ _ _ R.
  Let P := ptr_doc _ _ PR.
  Ltac notin := cbn; intros HF; repeat (destruct HF as [HF|HF]; [discriminate HF|]); destruct HF.

  Lemma printable_presented_rails : presented_rails s' t6.
  Proof using R PR Hnodes Htoc Htmpl.
    pose proof (tf_manuscript _ _ _ _ _ TF) as M'. constructor.
    - exact (printable_presented _ _ _ _ _ _ _ R P Hnodes Htoc Htmpl).
    - intros x Hx Hc. destruct (formula_kept _ _ _ _ _ _ R P x Hx Hc) as (Hx0 & Hc0 & q & c & Hq & Hq' & Hcq & Hcq' & _).
      destruct (ptr_formulas _ _ PR x Hx0 Hc0) as (p & Hp & Hcp). rewrite (parent_fun _ _ _ _ Hp Hq) in Hcp. exists q. split; [exact Hq'|].
      rewrite <- (class_fun _ _ _ _ Hcq Hcp). exact Hcq'.
    - intros c x Hc Hcc Hanc Hcx.
      assert (Hx : x ∈ doc_order t6) by (eapply PresentDoc.below_in; [apply M'|exact Hc|exact Hanc]).
      assert (Hsec : forall z, is_section h' z = true -> exists k, In k [CSection; CSubsection; CSubsubsection] /\ class_of h' z k).
      { intros z Hz. rewrite section_split in Hz. rewrite !orb_true_iff, !is_class_spec in Hz. destruct Hz as [[Hz|Hz]|Hz]; eexists; (split; [|exact Hz]); cbn; auto. }
      destruct (class_old _ _ _ _ _ _ R _ _ Hc Hcc) as (Hc0 & Hpc & Hcc0); [notin|].
      assert (Hkeep : x ∈ map f (doc_order t) -> False).
      { intros Hin. pose proof (ancestor_above _ _ _ _ (ms_consistent _ _ M') (proj1 (ms_document _ _ M')) Hx Hanc) as Ha.
        apply (forget_above (fun y => bool_decide (y ∈ map f (doc_order t)))) in Ha as (u & Hu & Ha).
        - rewrite (tf_tree _ _ _ _ _ TF) in Hu. apply elem_of_list_singleton in Hu as ->. apply above_tmap in Ha as (c0 & x0 & Ec & Ex & Ha). apply above_prune in Ha.
          assert (E : c0 = c).
          { apply (tf_inj _ _ _ _ _ TF); [apply (above_in _ _ _ Ha)|exact Hc0|]. rewrite (tf_same _ _ _ _ _ TF c Hc0 Hpc). congruence. }
          rewrite E in Ha. destruct (ptr_contents _ _ PR c Hc0 Hcc0) as (n & Hn & Hk). pose proof (proj1 (pt_ready _ _ P)) as M.
          exact (above_kids _ _ _ _ _ _ (proj1 (ms_document _ _ M)) Ha Hn Hk).
        - apply bool_decide_eq_true. rewrite <- (tf_same _ _ _ _ _ TF c Hc0 Hpc). apply elem_of_list_fmap. eauto.
        - apply bool_decide_eq_true, Hin. }
      destruct (Hnodes x Hx) as [[Hx0 Hp]|[(j & Hj & Hp & ->)|[[Hn Hge]|[Hn Hw]]]].
      + exfalso. apply Hkeep. rewrite <- (tf_same _ _ _ _ _ TF x Hx0 Hp). apply elem_of_list_fmap. eauto.
      + exfalso. apply Hkeep. apply elem_of_list_fmap. eauto.
      + destruct (Htoc x Hx Hge Hcx) as (z & Hz & Hs). destruct (Hsec z Hs) as (k & Hk & Hck). exists z, k. auto.
      + destruct Hw as [G|G]; discriminate (class_fun _ _ _ _ Hcx G).
  Qed.
  Lemma rmistake_same x e : x ∈ doc_order t -> minded_rails h x e -> ~ is_pending h x.
  Proof using PR.
    intros Hx [e' Hm|Hc _]; [exact (mistake_same _ _ P x e' Hx Hm)|]. apply (not_pending_class _ _ _ Hc). notin.
  Qed.
  Lemma rmistake_old x e : x ∈ doc_order t6 -> minded_rails h' x e -> x ∈ doc_order t /\ minded_rails h x e.
  Proof using R PR Hnodes Htoc.
    intros Hx [e' Hm|Hc Hbad].
    - destruct (mistake_old _ _ _ _ _ _ _ R P Hnodes Htoc x e' Hx Hm) as [H1 H2]. split; [exact H1|apply minded_same, H2].
    - destruct (class_old _ _ _ _ _ _ R _ _ Hx Hc) as (Hx0 & Hp & Hc0); [notin|]. split; [exact Hx0|]. apply minded_author; [exact Hc0|].
      intros b v Hb Hv. apply (Hbad b v Hb). rewrite (old_value _ _ _ _ _ _ R _ _ Hx0 Hp); [exact Hv|]. unfold transform_attr. cbn in Hb. intuition (subst; discriminate).
  Qed.
  Lemma rmistake_new x e : x ∈ doc_order t6 -> x ∈ doc_order t -> minded_rails h x e -> minded_rails h' x e.
  Proof using R PR.
    intros Hx Hx0 Hm. pose proof (rmistake_same x e Hx0 Hm) as Hp. destruct Hm as [e' Hm|Hc Hbad].
    - apply minded_same. exact (mistake_new _ _ _ _ _ _ R P x e' Hx Hx0 Hm).
    - apply minded_author; [exact (proj1 (old_class _ _ _ _ _ _ R x _ Hx0 Hp) Hc)|]. intros b v Hb Hv. apply (Hbad b v Hb).
      rewrite (old_value _ _ _ _ _ _ R _ _ Hx0 Hp) in Hv; [exact Hv|]. unfold transform_attr. cbn in Hb. intuition (subst; discriminate).
  Qed.
  Notation t0 := (prune (later_contents h t) t).
  Lemma rold_kept x e : x ∈ doc_order t6 -> minded_rails h' x e -> x ∈ doc_order t0 /\ minded_rails h x e.
  Proof using R PR Hnodes Htoc.
    intros Hx Hm. destruct (rmistake_old x e Hx Hm) as [Hx0 Hm0]. split; [|exact Hm0].
    pose proof (tf_same _ _ _ _ _ TF x Hx0 (rmistake_same x e Hx0 Hm0)) as E.
    assert (Hin : In x (map f (doc_order t0))).
    { rewrite <- (kept_order _ _ _ _ _ _ R). apply filter_In. split; [apply elem_of_list_In, Hx|]. apply bool_decide_eq_true. rewrite <- E. apply elem_of_list_fmap. eauto. }
    apply in_map_iff in Hin as (z & Ez & Hz). apply elem_of_list_In in Hz. assert (z = x) as <-; [|exact Hz].
    apply (tf_inj _ _ _ _ _ TF); [apply (kept_in s t), Hz|exact Hx0|congruence].
  Qed.
  Lemma rkept_new x e : x ∈ doc_order t0 -> minded_rails h x e -> x ∈ doc_order t6 /\ minded_rails h' x e.
  Proof using R PR.
    intros Hx Hm. pose proof (kept_in s t x Hx) as Hx0. pose proof (tf_same _ _ _ _ _ TF x Hx0 (rmistake_same x e Hx0 Hm)) as E.
    assert (H6 : x ∈ doc_order t6).
    { assert (Hin : In x (map f (doc_order t0))) by (rewrite <- E; apply in_map, elem_of_list_In, Hx). rewrite <- (kept_order _ _ _ _ _ _ R) in Hin. apply filter_In in Hin as [Hin _]. apply elem_of_list_In, Hin. }
    split; [exact H6|apply rmistake_new; assumption].
  Qed.
  Lemma rfirst_kept x e : first_minded_rails s t0 x e -> first_minded_rails s' t6 x e.
  Proof using R PR Hnodes Htoc.
    intros [Hm (p & q & Hd & Hp)]. assert (Hx : x ∈ doc_order t0) by (rewrite Hd; apply elem_of_app; right; apply elem_of_cons; left; reflexivity).
    destruct (rkept_new x e Hx Hm) as [H6 Hm']. split; [exact Hm'|].
    pose proof (kept_in s t x Hx) as Hx0. pose proof (tf_same _ _ _ _ _ TF x Hx0 (rmistake_same x e Hx0 Hm)) as E.
    pose proof (kept_order _ _ _ _ _ _ R) as K. rewrite Hd, map_app in K. cbn [map] in K. rewrite E in K. destruct (filter_split _ _ _ _ _ K) as (p' & q' & Hd' & Hp').
    exists p', q'. split; [exact Hd'|]. intros y e' Hy Hmy. assert (Hy6 : y ∈ doc_order t6) by (rewrite Hd'; apply elem_of_app; left; exact Hy).
    destruct (rmistake_old y e' Hy6 Hmy) as [Hy0 Hmy0]. pose proof (tf_same _ _ _ _ _ TF y Hy0 (rmistake_same y e' Hy0 Hmy0)) as Ey.
    assert (Hin : In y (map f p)).
    { rewrite <- Hp'. apply filter_In. split; [apply elem_of_list_In, Hy|]. apply bool_decide_eq_true. rewrite <- Ey. apply elem_of_list_fmap. eauto. }
    apply in_map_iff in Hin as (z & Ez & Hz). apply elem_of_list_In in Hz. assert (z = y) as ->; [|exact (Hp y e' Hz Hmy0)].
    apply (tf_inj _ _ _ _ _ TF); [apply (kept_in s t); rewrite Hd; apply elem_of_app; left; exact Hz|exact Hy0|congruence].
  Qed.
End mistakes.

Lemma transform_printable_rails s t s' : printable_rails s t -> transforms_to s t s' ->
  exists t', root t' = root t /\ presented_rails s' t' /\
    (forall x e, x ∈ doc_order t' /\ minded_rails (st_heap s') x e <-> x ∈ doc_order (prune (later_contents (st_heap s) t) t) /\ minded_rails (st_heap s) x e) /\
    (forall x e, first_minded_rails s (prune (later_contents (st_heap s) t) t) x e -> first_minded_rails s' t' x e).
Proof.
  intros PR H. pose proof (ptr_doc _ _ PR) as P. pose proof (pt_ready _ _ P) as R.
  assert (G : typed s' /\ complete s' /\ all_built s' /\ templates_ok s').
  { destruct H as (fuel & d & H). destruct (transform_typed fuel [] (root t) [] (fun x H => H) s (conj (pt_typed _ _ P) (pt_complete _ _ P))) as ([H1 H2] & _ & _); [intros x []|].
    pose proof (templates_kept fuel [] (root t) s) as H3. rewrite H in H1, H2, H3. split; [exact H1|]. split; [exact H2|]. split; [apply complete_built, H2|]. apply H3.
    intros x n tmpl Hx Ht. apply (pt_templates _ _ P x). unfold value. rewrite Hx. exact Ht. }
  destruct G as (Ht' & Hc' & Hb' & Htm).
  stages_of R H fuel d' s1 s2 s3 s4 s5 s6 s7 s8 t3 t6 f cites a xs ST TF Hm. exists t6.
  assert (HC : length cites = length (List.filter (is_cite (st_heap s)) (doc_order t)) /\
    (forall k j ts, nth_error (List.filter (is_cite (st_heap s)) (doc_order t)) k = Some j -> nth_error cites k = Some ts -> cite_resolved s t s' f k j ts) /\
    (forall x, is_Some (st_heap s !! x) -> backlinks_of (st_heap s') x = backlinks_of (st_heap s) x ++ mentions x 0 cites)) by (eapply cites_resolved; eauto).
  destruct HC as (C1 & C2 & C3).
  assert (RS : result s t s' t6 f cites).
  { split; try assumption.
    - intros. eapply labels_unique; eauto.
    - intros. eapply label_first; eauto.
    - intros. eapply label_later; eauto.
    - intros. eapply label_none; eauto.
    - intros. eapply no_pending; eauto.
    - intros. eapply refs_resolved; eauto.
    - intros. eapply prevs_resolved; eauto.
    - intros. eapply other_kids; eauto.
    - apply typed_translatable; try assumption. apply (tf_manuscript _ _ _ _ _ TF). }
  pose proof (result_nodes _ _ _ _ _ _ _ _ _ _ _ _ _ _ _ _ _ _ _ _ Hm ST) as HN.
  pose proof (toc_references _ _ _ _ _ _ _ _ _ _ _ _ _ _ _ _ _ _ _ _ ST) as HT.
  split; [apply (tf_root _ _ _ _ _ TF)|]. split; [exact (printable_presented_rails _ _ _ _ _ _ _ RS PR HN HT Htm)|].
  split; [|exact (rfirst_kept _ _ _ _ _ _ _ RS PR HN HT)].
  intros x e. split; intros [H1 H2]; [exact (rold_kept _ _ _ _ _ _ _ RS PR HN HT x e H1 H2)|exact (rkept_new _ _ _ _ _ _ RS PR x e H1 H2)].
Qed.

Lemma source_first_rails hl src s t s' x e : printable_rails s t -> transforms_to s t s' ->
  first_minded_rails s (prune (later_contents (st_heap s) t) t) x e -> handrails_raises hl src s' t e.
Proof.
  intros P H F. destruct (transform_printable_rails s t s' P H) as (t' & Hr & PR & _ & Hf).
  pose proof (first_raises_rails hl src s' t' x e PR (Hf x e F)) as G. unfold handrails_raises in *. rewrite <- Hr. exact G.
Qed.
Lemma source_iff_rails hl src s t s' : printable_rails s t -> transforms_to s t s' ->
  (exists html s'', translates_handrails_to hl src s' t html s'') <-> forall x e, x ∈ doc_order (prune (later_contents (st_heap s) t) t) -> ~ minded_rails (st_heap s) x e.
Proof.
  intros P H. destruct (transform_printable_rails s t s' P H) as (t' & Hr & PR & Ho & _).
  assert (I : (exists html s'', translates_handrails_to hl src s' t html s'') <-> exists html s'', translates_handrails_to hl src s' t' html s'') by (unfold translates_handrails_to; rewrite Hr; reflexivity).
  rewrite I, (translated_rails_iff hl src s' t' PR). split.
  - intros G x e Hx Hm. destruct (proj2 (Ho x e) (conj Hx Hm)) as [H1 H2]. exact (G x e H1 H2).
  - intros G x e Hx Hm. destruct (proj1 (Ho x e) (conj Hx Hm)) as [H1 H2]. exact (G x e H1 H2).
Qed.
