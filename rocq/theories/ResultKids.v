(** The children of the nodes that transform does not restructure. *)
From Verif Require Export Transformed.
From Verif Require Import Labels HandrailDepth Autonumber FullNumber TocPick TocBuild Queries Built Meta Subproofs ResolveAll ResolvePrev Resolve NodeOps Monad.

Section result.
  Context (fuel : nat) (d d' : labels) (s s1 s2 s3 s4 s5 s6 s7 s8 s' : st) (t t3 t6 : tree)
    (f : id -> id) (cites : list (list id)) (a : num_st) (xs : list id).
  Context (Hm : manuscript s t).
  Context (ST : stages fuel d d' s s1 s2 s3 s4 s5 s6 s7 s8 s' t t3 t6 f cites a xs).
  Notation h := (st_heap s). Notation h2 := (st_heap s2). Notation h3 := (st_heap s3). Notation h' := (st_heap s').

  Theorem other_kids x c l : x ∈ doc_order t -> ~ is_pending h x -> class_of h x c -> c <> CStep ->
    c <> CItemize -> c <> CEnumerate -> c <> CContents -> kids_are h x l ->
    kids_are h' x (map f (without (later_contents h t) l)).
  Proof using Hm ST.
    intros Hx Hnp Hc H1 H2 H3 H4 Hk. pose proof (child_in Hm x l) as Hin.
    assert (Hp : pendingb h x = false) by (destruct (pendingb h x) eqn:E; [apply pending_iff in E; contradiction|reflexivity]).
    pose proof (kids_2 Hm ST _ _ Hx Hk) as Hk2. rewrite Hp in Hk2.
    assert (Hfx : f x = x) by (apply (f_same Hm ST); assumption). rewrite Hfx in Hk2. destruct Hk2 as (n2 & Hn2 & Hk2).
    assert (Hx2 : x ∈ doc_order (tmap f t)) by (rewrite <- Hfx; apply (f_in2 t f); assumption).
    assert (Hc2 : class_of h2 x c) by (eapply carried_class; [exact (c02 ST)|assumption]).
    destruct (restructured_kids _ _ _ _ (sg_restructured ST) _ _ (proj1 (ms_document _ _ (sg_m2 ST))) (proj1 (ms_document _ _ (sg_m3 ST))) x n2 Hx2 Hn2) as [HS _].
    assert (K : kids_are h3 x (map f l)).
    { rewrite <- Hk2. apply HS. intros (m & Em & Ec). destruct Hc2 as (m2 & Em2 & Ec2). congruence. }
    assert (Hc3 : class_of h3 x c) by (eapply carried_class; [exact (c03 ST)|assumption]).
    eapply (kids_3' _ _ _ _ _ _ _ _ _ _ _ _ _ _ _ _ _ _ _ _ ST) in K; [|exact Hc3|intros [E|[E|E]]; congruence].
    rewrite keep_out_map in K; [|intros y Hy; apply (f_xs _ _ _ _ _ _ _ _ _ _ _ _ _ _ _ _ _ _ _ _ Hm ST), Hin; assumption].
    rewrite <- (xs_later Hm ST). exact K.
  Qed.
End result.

Lemma fin_kids s t s' : ready s t -> transforms_to s t s' -> exists t' f, transformed s t s' t' f /\
  forall x c l, x ∈ doc_order t -> ~ is_pending (st_heap s) x -> class_of (st_heap s) x c -> c <> CStep ->
    c <> CItemize -> c <> CEnumerate -> c <> CContents -> kids_are (st_heap s) x l ->
    kids_are (st_heap s') x (map f (without (later_contents (st_heap s) t) l)).
Proof.
  intros R H. stages_of R H fuel d' s1 s2 s3 s4 s5 s6 s7 s8 t3 t6 f cites a xs ST TF Hm. exists t6, f. split; [assumption|].
  intros. eapply other_kids; eauto.
Qed.
