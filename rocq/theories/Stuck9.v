(** What lint does with a source without syntax errors. *)
From Verif Require Import PresentDoc RenderTotal Late MakeTotal.
From Verif Require Export Stuck8.
From Verif Require Import ParseShape TreeFacts AppProofs Rendered BuildProofs.
Local Open Scope string_scope.
Local Open Scope list_scope.

Lemma parsed_plausible fuel c s t : clean_source c -> parse fuel c empty_st = (s, Ok (root t)) -> tree_at (st_heap s) None t -> arranged s t -> plausible s t.
Proof.
  intros C H Ht A.
  destruct (parse_from _ _ _ _ _ (cl_source _ C) (cl_errors _ C) (cl_keys _ C) empty_sane H) as (t' & Hr & R & (Hg & Hb & Hty & Hco) & Hh & _ & _).
  assert (t' = t) as ->. { apply (tree_at_unique (st_heap s) None); [exact (proj1 (ms_document _ _ (proj1 R)))|exact Ht|exact Hr]. }
  assert (Hm : class_of (st_heap s) (root t) CManuscript).
  { rewrite <- (manuscript_class c). eapply holds_class, Hh. }
  split; try assumption; apply A.
Qed.
Lemma plausible_lintable s t s' : plausible s t -> transforms_to s t s' ->
  exists t', root t' = root t /\ document (st_heap s') t' /\ lintable (st_heap s') t'.
Proof.
  intros T H. destruct (transform_result s t s' (pl_ready _ _ T) (pl_typed _ _ T) (pl_complete _ _ T) H) as (t' & f & cites & R).
  pose proof (tb_manuscript _ _ (rs_translatable _ _ _ _ _ _ R)) as M. pose proof (ms_document _ _ M) as D.
  exists t'. split; [exact (tf_root _ _ _ _ _ (rs_transformed _ _ _ _ _ _ R))|]. split; [exact D|]. pose proof (rs_complete _ _ _ _ _ _ R) as C. pose proof (rs_typed _ _ _ _ _ _ R) as Ty.
  assert (Hin : forall x, x ∈ doc_order t' -> is_Some (st_heap s' !! x)).
  { intros x Hx. destruct (tree_at_in _ _ _ _ (proj1 D) Hx) as (n & Hn). eauto. }
  split.
  - destruct (pl_root _ _ T) as (n0 & Hn0 & Hc0). assert (Hr : root t ∈ doc_order t) by apply root_in_doc_order.
    destruct (tf_node _ _ _ _ _ (rs_transformed _ _ _ _ _ _ R) (root t) Hr) as (m & m' & Hm & Hm' & Hc & _).
    { intros [(n1 & Hn1 & E)|[(n1 & Hn1 & E)|(n1 & Hn1 & E)]]; rewrite Hn0 in Hn1; injection Hn1 as <-; congruence. }
    rewrite (tf_root _ _ _ _ _ (rs_transformed _ _ _ _ _ _ R)). unfold value. rewrite Hm'. apply (C _ _ _ Hm'). rewrite Hc. assert (m = n0) as -> by congruence. rewrite Hc0. vm_compute. tauto.
  - intros x Hx. destruct (Hin x Hx) as [n Hn]. unfold value. rewrite Hn. split; [exact (C _ _ _ Hn (label_default _))|].
    destruct (C _ _ _ Hn (point_default _)) as [v Hv]. rewrite Hv. destruct (Ty _ _ _ _ Hn Hv) as [S _]. destruct v; try discriminate S. eauto.
Qed.
Lemma lint_stops ts hl pkg fuel source path hr c w text s1 s2 i e : fresh_ok (w_mem w) -> given source path (w_fs w) text -> In (lc_format c) formats ->
  parse fuel (ts text) empty_st = (s1, Ok i) -> transform fuel [] i s1 = (s2, Err e) -> (forall x, e <> EParser x) ->
  snd (lint_rsm ts hl pkg fuel source path hr c w) = Err e.
Proof.
  intros Hf Hg Hc Hp Ht He.
  destruct (call_alone ts hl pkg fuel (CallLint source path hr c) w Hf) as (H1 & _). cbn [do_call] in H1.
  enough (E : snd (lint_rsm ts hl pkg fuel source path hr c (new_process (w_fs w))) = Err e) by (rewrite E in H1; exact H1). clear H1.
  assert (Ef : str_mem (lc_format c) formats = true) by (apply str_mem_In, Hc).
  unfold lint_rsm, run_app, lint_app, linter_app, parser_app.
  destruct Hg as [(Hs & -> & ->)|(-> & Hp0 & Hpl & Hfs)].
  - destruct source as [|x source]; [congruence|]. cbn [truthy_path truthy_str negb andb orb]. unfold rsm_app, config_rsm_logger. cbn [lc_format lc_level lc_time lc_lineno]. rewrite Ef. cbv zeta. cbn [map app].
    unfold app_run, pipeline_run, new_pipeline. rewrite new_pipeline_tasks. cbn [p_tasks app run_tasks call_task task_of t_run exec]. unfold act. cbn [w_mem new_process]. rewrite Hp. cbn [give run_tasks call_task task_of t_run exec w_mem w_dict].
    unfold act. cbn [w_mem]. rewrite Ht. destruct e; try reflexivity; destruct (He _ eq_refl).
  - destruct path as [|x path]; [congruence|]. cbn [truthy_path truthy_str negb andb orb]. unfold rsm_app, config_rsm_logger. cbn [lc_format lc_level lc_time lc_lineno]. rewrite Ef. cbv zeta. cbn [map app].
    unfold app_run, pipeline_run, new_pipeline. rewrite new_pipeline_tasks. cbn [p_tasks app run_tasks call_task task_of t_run exec]. unfold read_file. rewrite Hpl. cbv zeta. cbn [w_fs set_log new_process]. rewrite Hfs.
    cbn [give run_tasks call_task task_of t_run exec]. unfold act. cbn [w_mem set_log new_process]. rewrite Hp. cbn [give run_tasks call_task task_of t_run exec w_mem w_dict].
    unfold act. cbn [w_mem w_dict set_log new_process]. rewrite Ht. destruct e; try reflexivity; destruct (He _ eq_refl).
Qed.
Theorem lint_outcomes ts hl pkg source path hr c w text s t : fresh_ok (w_mem w) -> given source path (w_fs w) text -> In (lc_format c) formats ->
  reads_as (ts text) s t -> clean_source (ts text) -> arranged s t ->
  (exists F i, forall fuel, F <= fuel -> snd (lint_rsm ts hl pkg fuel source path hr c w) = Ok (PObj (OTree i))) \/
  exists F e, ((exists x, first_mistake s t x e) \/
      ((exists x, x ∈ doc_order t /\ (misplaced_subproof (st_heap s) x \/ no_kind (st_heap s) x)) /\ e = EAssert) \/
      ((exists x, x ∈ doc_order t /\ no_letter (st_heap s) t x) /\ e = EStopIteration)) /\
    forall fuel, F <= fuel -> snd (lint_rsm ts hl pkg fuel source path hr c w) = Err e.
Proof.
  intros Hf Hg Hc Hp C A. pose proof Hp as Hp1. destruct Hp1 as [[F0 Hp0] Htree]. pose proof (parsed_plausible _ _ _ _ C Hp0 Htree A) as PL.
  destruct (parses_mono _ _ _ Hp) as [F1 H1].
  assert (Early : forall e, blamed false s t e -> transform_raises s t e -> exists F, forall fuel, F <= fuel -> snd (lint_rsm ts hl pkg fuel source path hr c w) = Err e).
  { intros e B [F2 H2]. exists (F1 + F2). intros fuel Hfu. destruct (H2 fuel ltac:(lia)) as [s2 H3].
    eapply lint_stops; [exact Hf|exact Hg|exact Hc|apply H1; lia|exact H3|exact (blamed_kind_of _ _ _ _ B)]. }
  destruct (Late.all_outcomes s t PL (parsed_placed _ _ _ _ Hp0) (ar_nested _ _ A)) as [[s' Ht]|[(x & e & Hx & G)|[((x & Hx & Hb) & G)|[((x & Hx & Hb) & G)|((x & Hx & Hb) & G)]]]].
  - left. destruct (plausible_lintable s t s' PL Ht) as (t' & Hr & D & L). destruct (transforms_mono _ _ _ Ht) as (F2 & d & H2).
    exists (F1 + F2 + length (doc_order t')), (st_next (w_mem w) + root t'). intros fuel Hfu.
    destruct (lint_ends ts hl pkg fuel source path hr c (w_fs w) text s (root t) s' d _ (root t') Hg Hc ltac:(apply H1; lia) ltac:(apply H2; lia) ltac:(rewrite <- Hr; apply lint_exact; [exact D|exact L|lia])) as (w' & E & _).
    destruct (call_alone ts hl pkg fuel (CallLint source path hr c) w Hf) as (K & _). cbn [do_call] in K. rewrite E in K. exact K.
  - right. destruct (Early e (blamed_reference _ _ _ x e Hx) G) as [F H]. exists F, e. eauto 6.
  - right. destruct (Early EAssert (blamed_subproof _ _ _ x Hx Hb) G) as [F H]. exists F, EAssert. split; [right; left; eauto|exact H].
  - right. destruct (Early EStopIteration (blamed_letter _ _ _ x Hx Hb) G) as [F H]. exists F, EStopIteration. split; [right; right; eauto|exact H].
  - right. destruct (Early EAssert (blamed_kind _ _ _ x Hx Hb) G) as [F H]. exists F, EAssert. split; [right; left; eauto|exact H].
Qed.
Theorem lint_passes ts hl pkg source path hr c w text s t s' : fresh_ok (w_mem w) -> given source path (w_fs w) text -> In (lc_format c) formats ->
  reads_as (ts text) s t -> clean_source (ts text) -> arranged s t -> transforms_to s t s' ->
  exists F i, forall fuel, F <= fuel -> snd (lint_rsm ts hl pkg fuel source path hr c w) = Ok (PObj (OTree i)).
Proof.
  intros Hf Hg Hc Hp C A Ht. pose proof Hp as Hp1. destruct Hp1 as [[F0 Hp0] Htree]. pose proof (parsed_plausible _ _ _ _ C Hp0 Htree A) as PL.
  destruct (parses_mono _ _ _ Hp) as [F1 H1]. destruct (plausible_lintable s t s' PL Ht) as (t' & Hr & D & L). destruct (transforms_mono _ _ _ Ht) as (F2 & d & H2).
  exists (F1 + F2 + length (doc_order t')), (st_next (w_mem w) + root t'). intros fuel Hfu.
  destruct (lint_ends ts hl pkg fuel source path hr c (w_fs w) text s (root t) s' d _ (root t') Hg Hc ltac:(apply H1; lia) ltac:(apply H2; lia) ltac:(rewrite <- Hr; apply lint_exact; [exact D|exact L|lia])) as (w' & E & _).
  destruct (call_alone ts hl pkg fuel (CallLint source path hr c) w Hf) as (K & _). cbn [do_call] in K. rewrite E in K. exact K.
Qed.
