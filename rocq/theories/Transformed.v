(** The properties of transform, for a whole run. *)
From Verif Require Export ResultRefs ResultSteps ResultNumbers ResultEnd RefText.
From Verif Require Import Consistency Traverse Labels HandrailDepth Autonumber FullNumber TocPick TocBuild TocEntries Queries Built Build Meta Subproofs ResolveAll ResolvePrev Resolve NodeOps Monad.

Lemma run_stages s t s' : ready s t -> transforms_to s t s' ->
  exists fuel d' s1 s2 s3 s4 s5 s6 s7 s8 t3 t6 f cites a xs, stages fuel [] d' s s1 s2 s3 s4 s5 s6 s7 s8 s' t t3 t6 f cites a xs.
Proof.
  intros (Hm & Hb & He) (fuel & d & H). exists fuel, d. apply transform_stages; try assumption. discriminate.
Qed.
Ltac stages_of R H fuel d' s1 s2 s3 s4 s5 s6 s7 s8 t3 t6 f cites a xs ST TF Hm :=
  destruct (run_stages _ _ _ R H) as (fuel & d' & s1 & s2 & s3 & s4 & s5 & s6 & s7 & s8 & t3 & t6 & f & cites & a & xs & ST);
  pose proof (proj1 R) as Hm; pose proof (result_transformed Hm ST) as TF.

Section final.
  Context (s : st) (t : tree) (s' : st) (R : ready s t) (H : transforms_to s t s').
  Notation h := (st_heap s). Notation h' := (st_heap s').

  Lemma fin_labels : exists t' f, transformed s t s' t' f /\
    (forall x y, x ∈ doc_order t -> y ∈ doc_order t -> label_of h' x = label_of h' y -> label_of h' x <> [] -> x = y) /\
    (forall lbl x, first_labelled h (doc_order t) lbl x -> label_of h' x = lbl) /\
    (forall lbl x y, first_labelled h (doc_order t) lbl x -> y ∈ doc_order t -> y <> x -> label_of h y = lbl ->
       value h' y a_label = Some (VStr [])) /\
    (forall x, x ∈ doc_order t -> label_of h x = [] -> value h' x a_label = value h x a_label).
  Proof using R H.
    stages_of R H fuel d' s1 s2 s3 s4 s5 s6 s7 s8 t3 t6 f cites a xs ST TF Hm. exists t6, f. split; [assumption|].
    split; [|split; [|split]].
    - intros. eapply labels_unique; eauto.
    - intros. eapply label_first; eauto.
    - intros. eapply label_later; eauto.
    - intros. eapply label_none; eauto.
  Qed.
  Lemma fin_pending : exists t' f, transformed s t s' t' f /\ forall y, y ∈ doc_order t' -> ~ is_pending h' y.
  Proof using R H.
    stages_of R H fuel d' s1 s2 s3 s4 s5 s6 s7 s8 t3 t6 f cites a xs ST TF Hm. exists t6, f. split; [assumption|].
    intros. eapply no_pending; eauto.
  Qed.
  Lemma fin_refs : exists t' f, transformed s t s' t' f /\
    forall j, j ∈ doc_order t -> class_of h j CPendingReference -> ref_resolved s t s' f j.
  Proof using R H.
    stages_of R H fuel d' s1 s2 s3 s4 s5 s6 s7 s8 t3 t6 f cites a xs ST TF Hm. exists t6, f. split; [assumption|].
    intros. eapply refs_resolved; eauto.
  Qed.
  Lemma fin_cites : exists t' f cites, transformed s t s' t' f /\
    length cites = length (List.filter (is_cite h) (doc_order t)) /\
    (forall k j ts, nth_error (List.filter (is_cite h) (doc_order t)) k = Some j -> nth_error cites k = Some ts ->
       cite_resolved s t s' f k j ts) /\
    (forall x, is_Some (h !! x) -> backlinks_of h' x = backlinks_of h x ++ mentions x 0 cites).
  Proof using R H.
    stages_of R H fuel d' s1 s2 s3 s4 s5 s6 s7 s8 t3 t6 f cites a xs ST TF Hm. exists t6, f, cites. split; [assumption|].
    eapply cites_resolved; eauto.
  Qed.
  Lemma fin_prevs : exists t' f, transformed s t s' t' f /\
    forall j, j ∈ doc_order t -> class_of h j CPendingPrev -> prev_resolved s s' f j.
  Proof using R H.
    stages_of R H fuel d' s1 s2 s3 s4 s5 s6 s7 s8 t3 t6 f cites a xs ST TF Hm. exists t6, f. split; [assumption|].
    intros. eapply prevs_resolved; eauto.
  Qed.
  Lemma fin_steps : exists t' f, transformed s t s' t' f /\
    forall x l, x ∈ doc_order t -> class_of h x CStep -> kids_are h x l ->
      split_step h h' (fun cs => map f (without (later_contents h t) cs)) x l.
  Proof using R H.
    stages_of R H fuel d' s1 s2 s3 s4 s5 s6 s7 s8 t3 t6 f cites a xs ST TF Hm. exists t6, f. split; [assumption|].
    intros. eapply steps_split; eauto.
  Qed.
  Lemma fin_whole : exists t' f, transformed s t s' t' f.
  Proof using R H. stages_of R H fuel d' s1 s2 s3 s4 s5 s6 s7 s8 t3 t6 f cites a xs ST TF Hm. eauto. Qed.
  Lemma cls_list_eqb_eq a : forall b, cls_list_eqb a b = true <-> a = b.
  Proof using.
    induction a as [|x a IH]; intros [|y b]; cbn; try (split; congruence). destruct (cls_eqb_spec x y) as [-> |E]; cbn.
    - rewrite IH. split; congruence.
    - split; congruence.
  Qed.
  Lemma fin_numbers : exists t' f, transformed s t s' t' f /\
    (forall p x q sc k, doc_order t = p ++ x :: q -> is_numbered h x = true ->
       current_scope h (scope_of h x) p sc -> exactly (consumes h (scope_of h x) (sequence_of h x)) k sc ->
       scope_of h x <> [CManuscript] \/ (forall y, y ∈ p -> is_appendix h y = false) ->
       value h' x a_number = Some (VInt (Z.of_nat (S k)))) /\
    (forall x, x ∈ doc_order t -> ~ is_pending h x -> is_numbered h x = false -> ~ class_of h x CStep ->
       value h' x a_number = value h x a_number).
  Proof using R H.
    stages_of R H fuel d' s1 s2 s3 s4 s5 s6 s7 s8 t3 t6 f cites a xs ST TF Hm. exists t6, f. split; [assumption|]. split.
    - intros p x q sc k E Hn Hsc Hk Hno. destruct (numbers_expected _ _ _ _ _ _ _ _ _ _ _ _ _ _ _ _ _ _ _ _ Hm ST _ _ _ _ _ E Hn Hsc Hk) as [G _].
      rewrite G. unfold expected. destruct (cls_list_eqb (scope_of h x) [CManuscript]) eqn:E1; [|reflexivity].
      apply cls_list_eqb_eq in E1. destruct Hno as [Hno|Hno]; [contradiction|].
      destruct (existsb (is_appendix h) p) eqn:E2; [|reflexivity]. apply existsb_exists in E2 as (y & Hy & E2). rewrite Hno in E2; [discriminate|].
      apply elem_of_list_In. assumption.
    - intros. eapply numbers_other; eauto.
  Qed.
  Lemma fin_letters : exists t' f, transformed s t s' t' f /\
    (forall p x q sc k, doc_order t = p ++ x :: q -> is_numbered h x = true -> scope_of h x = [CManuscript] ->
       (exists y, y ∈ p /\ is_appendix h y = true) ->
       current_scope h [CManuscript] p sc -> exactly (consumes h [CManuscript] (sequence_of h x)) k sc ->
       k < 26 /\ value h' x a_number = letter k) /\
    (forall p x q, doc_order t = p ++ x :: q -> is_numbered h x = true -> is_section h x = true ->
       (exists y, y ∈ p /\ is_appendix h y = true) ->
       value h x a_reftext_template = Some (VStr (lit "{nodeclass} {number}")) ->
       value h' x a_reftext_template = Some (VStr (lit "Appendix {number}"))).
  Proof using R H.
    stages_of R H fuel d' s1 s2 s3 s4 s5 s6 s7 s8 t3 t6 f cites a xs ST TF Hm. exists t6, f. split; [assumption|].
    assert (Hap : forall p, (exists y, y ∈ p /\ is_appendix h y = true) -> existsb (is_appendix h) p = true).
    { intros p (y & Hy & E). apply existsb_exists. exists y. split; [apply elem_of_list_In|]; assumption. }
    split.
    - intros p x q sc k E Hn Hw Ha Hsc Hk. rewrite <- Hw in Hsc, Hk. destruct (numbers_expected _ _ _ _ _ _ _ _ _ _ _ _ _ _ _ _ _ _ _ _ Hm ST _ _ _ _ _ E Hn Hsc Hk) as [G G2].
      rewrite G. unfold expected in *. rewrite Hw, (Hap _ Ha) in *. change (cls_list_eqb [CManuscript] [CManuscript]) with true in *. cbn [andb] in *.
      unfold letter in *. destruct (Nat.ltb_spec k 26) as [Hlt|]; [auto|destruct G2; discriminate].
    - intros p x q E Hn Hs Ha Ht. assert (G : value h' x a_reftext_template = Some (VStr (replace (lit "{nodeclass}") (lit "Appendix") (lit "{nodeclass} {number}")))) by (eapply appendix_template; eauto).
      rewrite G. vm_compute. reflexivity.
  Qed.
  Lemma fin_stepnums : exists t' f, transformed s t s' t' f /\
    forall p l pre x post j, p ∈ doc_order t' -> holds_steps h' p -> kids_are h' p l -> l = pre ++ x :: post ->
      class_of h' x CStep -> exactly (fun c => class_of h' c CStep) j pre -> value h' x a_number = Some (VInt (Z.of_nat (S j))).
  Proof using R H.
    stages_of R H fuel d' s1 s2 s3 s4 s5 s6 s7 s8 t3 t6 f cites a xs ST TF Hm. exists t6, f. split; [assumption|].
    intros. eapply steps_numbered; eauto.
  Qed.
  Lemma fin_constructs : exists t' f, transformed s t s' t' f /\
    (forall x, x ∈ doc_order t' -> is_construct h' x = true ->
       exists kind ts, x ∈ doc_order t /\ kind <> [] /\ value h x a_kind = Some (VStr kind) /\ value h x a_types = Some (VStrs ts) /\
         (conclusion_kind kind -> value h' x a_types = Some (VStrs (ts ++ [kind]))) /\
         (~ conclusion_kind kind -> value h' x a_types = Some (VStrs (ts ++ [kind; lit "assumption"])))) /\
    (forall x, x ∈ doc_order t -> ~ is_pending h x -> is_construct h x = false -> value h' x a_types = value h x a_types).
  Proof using R H.
    stages_of R H fuel d' s1 s2 s3 s4 s5 s6 s7 s8 t3 t6 f cites a xs ST TF Hm. exists t6, f. split; [assumption|]. split.
    - intros. eapply constructs_typed; eauto.
    - intros. eapply types_other; eauto.
  Qed.
  Lemma fin_depth : exists t' f, transformed s t s' t' f /\
    forall x k v, x ∈ doc_order t -> x ∈ doc_order t' -> handrails_above h' x k -> value h x a_handrail_depth = Some (VInt v) ->
      value h' x a_handrail_depth = Some (VInt (v + Z.of_nat k)).
  Proof using R H.
    stages_of R H fuel d' s1 s2 s3 s4 s5 s6 s7 s8 t3 t6 f cites a xs ST TF Hm. exists t6, f. split; [assumption|].
    intros. eapply depths; eauto.
  Qed.
  Lemma fin_ids : exists t' f, transformed s t s' t' f /\
    forall k x, doc_order t' !! k = Some x -> value h' x a_nodeid = Some (VInt (Z.of_nat k)) /\
      forall fuel, length (doc_order t') <= fuel -> get_child_by_id fuel (root t') (Z.of_nat k) s' = (s', Ok (Some x)).
  Proof using R H.
    stages_of R H fuel d' s1 s2 s3 s4 s5 s6 s7 s8 t3 t6 f cites a xs ST TF Hm. exists t6, f. split; [assumption|].
    intros. eapply ids; eauto.
  Qed.
  Lemma fin_texts : exists t' f, transformed s t s' t' f /\
    List.filter (is_text h') (doc_order t') = List.filter (is_text h) (doc_order (prune (later_contents h t) t)) /\
    ((forall c, c ∈ later_contents h t -> kids_are h c []) ->
      List.filter (is_text h') (doc_order t') = List.filter (is_text h) (doc_order t)) /\
    (forall x, x ∈ doc_order t -> is_text h x = true -> value h' x a_text = value h x a_text).
  Proof using R H.
    stages_of R H fuel d' s1 s2 s3 s4 s5 s6 s7 s8 t3 t6 f cites a xs ST TF Hm. exists t6, f. split; [assumption|].
    assert (G : List.filter (is_text h') (doc_order t6) = List.filter (is_text h) (doc_order (prune (later_contents h t) t)) /\
      (forall x, x ∈ doc_order t -> is_text h x = true -> value h' x a_text = value h x a_text)) by (eapply texts_kept; eauto).
    destruct G as [G1 G2]. split; [assumption|]. split; [|assumption]. intros Hk. rewrite G1. eapply prune_filter; [apply (ms_document _ _ Hm)|].
    intros x Hx. split; [apply Hk; assumption|]. unfold later_contents in Hx.
    assert (Hin : x ∈ List.filter (is_contents h) (doc_order t)).
    { destruct (List.filter (is_contents h) (doc_order t)); [inversion Hx|]. constructor. exact Hx. }
    apply elem_of_list_In, filter_In in Hin as [_ Hin]. unfold is_contents in Hin. unfold is_text. destruct (h !! x) as [n|]; [|reflexivity].
    destruct (cls_eqb_spec (n_cls n) CText) as [E|]; [|reflexivity]. rewrite E in Hin. discriminate.
  Qed.
End final.
