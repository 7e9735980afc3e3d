(** A source with a mistake is not made into a page. *)
From Verif Require Import PresentDoc RenderTotal Late.
From Verif Require Export Stuck7.
From Verif Require Import ParseShape TreeFacts AppProofs Rendered BuildProofs.
Local Open Scope string_scope.
Local Open Scope list_scope.

(** Transform or translate raises [e]. *)
Definition stops (ts : str -> cst) (hl : str -> str -> str) (fuel : nat) (hr add : bool) (text : str) (i : id) (e : exn) : Prop :=
  exists s1, parse fuel (ts text) empty_st = (s1, Ok i) /\
    ((exists s2, transform fuel [] i s1 = (s2, Err e)) \/
     exists s2 d m, transform fuel [] i s1 = (s2, Ok d) /\ (if hr then translate_handrails hl add fuel i else translate hl fuel i) s2 = (m, Err e)).
Section Make.
Context (ts : str -> cst) (hl : str -> str -> str) (pkg : list (str * str)) (fuel : nat).
Lemma make_stops source path hr lnt c w text i e : fresh_ok (w_mem w) -> given source path (w_fs w) text -> In (lc_format c) formats ->
  stops ts hl fuel lnt lnt text i e -> (forall x, e <> EParser x) ->
  exists w', make_rsm ts hl pkg fuel source path hr lnt c w = (w', Err e) /\ w_fs w' = w_fs w.
Proof.
  intros Hf Hg Hc (s1 & Hp & Hst) He.
  assert (E : snd (make_rsm ts hl pkg fuel source path hr lnt c w) = Err e).
  { destruct (call_alone ts hl pkg fuel (CallMake source path hr lnt c) w Hf) as (H1 & _ & _ & _). cbn [do_call] in H1.
    enough (E : snd (make_rsm ts hl pkg fuel source path hr lnt c (new_process (w_fs w))) = Err e) by (rewrite E in H1; exact H1). clear H1.
    assert (Ef : str_mem (lc_format c) formats = true) by (apply str_mem_In, Hc).
    unfold make_rsm, run_app, make_app, full_build_app, processor_app, parser_app.
    destruct Hg as [(Hs & -> & ->)|(-> & Hp0 & Hpl & Hfs)].
    - destruct source as [|x source]; [congruence|]. cbn [truthy_path truthy_str negb andb orb]. unfold rsm_app, config_rsm_logger. cbn [lc_format lc_level lc_time lc_lineno]. rewrite Ef. cbv zeta. rewrite andb_true_r. cbn [map app].
      unfold app_run, pipeline_run, new_pipeline. rewrite new_pipeline_tasks. cbn [p_tasks app run_tasks call_task task_of t_run exec]. unfold act. cbn [w_mem new_process]. rewrite Hp. cbn [give run_tasks call_task task_of t_run exec w_mem w_dict].
      unfold act. cbn [w_mem]. destruct Hst as [(s2 & Ht)|(s2 & d & m & Ht & Htr)]; rewrite Ht; [destruct e; try reflexivity; destruct (He _ eq_refl)|].
      cbn [run_tasks call_task task_of t_run exec w_mem]. unfold act. cbn [w_mem]. rewrite Htr. cbn [give]. destruct e; try reflexivity; destruct (He _ eq_refl).
    - destruct path as [|x path]; [congruence|]. cbn [truthy_path truthy_str negb andb orb]. unfold rsm_app, config_rsm_logger. cbn [lc_format lc_level lc_time lc_lineno]. rewrite Ef. cbv zeta. rewrite andb_true_r. cbn [map app].
      unfold app_run, pipeline_run, new_pipeline. rewrite new_pipeline_tasks. cbn [p_tasks app run_tasks call_task task_of t_run exec]. unfold read_file. rewrite Hpl. cbv zeta. cbn [w_fs set_log new_process]. rewrite Hfs.
      cbn [give run_tasks call_task task_of t_run exec]. unfold act. cbn [w_mem set_log new_process]. rewrite Hp. cbn [give run_tasks call_task task_of t_run exec w_mem w_dict].
      unfold act. cbn [w_mem w_dict set_log new_process]. destruct Hst as [(s2 & Ht)|(s2 & d & m & Ht & Htr)]; rewrite Ht; [destruct e; try reflexivity; destruct (He _ eq_refl)|].
      cbn [run_tasks call_task task_of t_run exec w_mem]. unfold act. cbn [w_mem]. rewrite Htr. cbn [give]. destruct e; try reflexivity; destruct (He _ eq_refl). }
  destruct (make_rsm ts hl pkg fuel source path hr lnt c w) as [w' r] eqn:Em. cbn [snd] in E. subst r. exists w'. split; [reflexivity|].
  apply any_make in Em as [(H & _)|(H & _)]; [exact H|discriminate H|exact Hf].
Qed.
End Make.
Lemma stage_outcomes ts hl hr add text s t : reads_as (ts text) s t -> clean_source (ts text) ->
  (if hr : bool then put_down_rails s t else put_down s t) -> arranged s t ->
  (exists F h m, forall fuel, F <= fuel -> pieces ts hl fuel hr add text h m (root t)) \/
  exists F e, blamed hr s t e /\ forall fuel, F <= fuel -> stops ts hl fuel hr add text (root t) e.
Proof.
  intros Hp C W A. pose proof Hp as Hp1. destruct Hp1 as [[F0 Hp0] Htree]. destruct (parsed_printable _ _ _ _ C Hp0 Htree) as [P1 P2].
  assert (P : printable s t) by (destruct hr; [exact (ptr_doc _ _ (P2 W))|exact (P1 W)]).
  assert (PL : plausible s t) by (split; [apply P|apply P|apply P|apply P|apply A|apply A]).
  destruct (parses_mono _ _ _ Hp) as [F1 H1].
  assert (Early : forall e, blamed hr s t e -> transform_raises s t e -> exists F e, blamed hr s t e /\ forall fuel, F <= fuel -> stops ts hl fuel hr add text (root t) e).
  { intros e B [F2 H2]. exists (F1 + F2), e. split; [exact B|]. intros fuel Hfu. destruct (H2 fuel ltac:(lia)) as [s2 H3]. exists s. split; [apply H1; lia|]. left. eauto. }
  destruct (Late.all_outcomes s t PL (parsed_placed _ _ _ _ Hp0) (ar_nested _ _ A)) as [[s' Ht]|[(x & e & Hx & G)|[((x & Hx & Hb) & G)|[((x & Hx & Hb) & G)|((x & Hx & Hb) & G)]]]].
  - destruct (transforms_mono _ _ _ Ht) as (F2 & d & H2).
    assert (D : (exists h m F3, forall fuel, F3 <= fuel -> (if hr then translate_handrails hl add fuel (root t) else translate hl fuel (root t)) s' = (m, Ok h)) \/
      exists e, blamed hr s t e /\ exists F3, forall fuel, F3 <= fuel -> exists m, (if hr then translate_handrails hl add fuel (root t) else translate hl fuel (root t)) s' = (m, Err e)).
    { destruct hr.
      - destruct (first_b (mindedrb (st_heap s)) (doc_order (prune (later_contents (st_heap s) t) t))) as [[x e]|] eqn:E.
        + right. apply first_rails_if in E. exists e. split; [exact (blamed_rails true _ _ x e eq_refl E)|]. exact (source_first_rails hl add s t s' x e (P2 W) Ht E).
        + left. apply (proj2 (source_iff_rails hl add s t s' (P2 W) Ht)). intros x e Hx Hm. apply mindedrb_spec in Hm. destruct (first_b_some _ _ _ _ Hx Hm) as (y & e' & K). congruence.
      - destruct (first_b (mindedb (st_heap s)) (doc_order (prune (later_contents (st_heap s) t) t))) as [[x e]|] eqn:E.
        + right. apply first_if in E. exists e. split; [exact (blamed_node false _ _ x e eq_refl E)|]. exact (source_first hl s t s' x e (P1 W) Ht E).
        + left. apply (proj2 (source_iff hl s t s' (P1 W) Ht)). intros x e Hx Hm. apply mindedb_spec in Hm. destruct (first_b_some _ _ _ _ Hx Hm) as (y & e' & K). congruence. }
    destruct D as [(h & m & F3 & H3)|(e & B & F3 & H3)].
    + left. exists (F1 + F2 + F3), h, m. intros fuel Hfu. exists s, s', d. split; [apply H1; lia|]. split; [apply H2; lia|]. apply H3. lia.
    + right. exists (F1 + F2 + F3), e. split; [exact B|]. intros fuel Hfu. destruct (H3 fuel ltac:(lia)) as [m Hm]. exists s. split; [apply H1; lia|]. right.
      exists s', d, m. split; [apply H2; lia|exact Hm].
  - right. apply (Early e); [exact (blamed_reference _ _ _ x e Hx)|exact G].
  - right. apply (Early EAssert); [exact (blamed_subproof _ _ _ x Hx Hb)|exact G].
  - right. apply (Early EStopIteration); [exact (blamed_letter _ _ _ x Hx Hb)|exact G].
  - right. apply (Early EAssert); [exact (blamed_kind _ _ _ x Hx Hb)|exact G].
Qed.
Theorem make_outcomes ts hl pkg source path hr lnt c w text s t : fresh_ok (w_mem w) -> given source path (w_fs w) text -> In (lc_format c) formats ->
  reads_as (ts text) s t -> clean_source (ts text) -> (if lnt : bool then put_down_rails s t else put_down s t) -> arranged s t ->
  (exists F html, forall fuel, F <= fuel -> snd (render_rsm ts hl pkg fuel source path lnt true c w) = Ok (PObj (OText html))) \/
  exists F e, blamed lnt s t e /\ forall fuel, F <= fuel ->
    exists w', make_rsm ts hl pkg fuel source path hr lnt c w = (w', Err e) /\ w_fs w' = w_fs w.
Proof.
  intros Hf Hg Hc Hp C W A. destruct (stage_outcomes ts hl lnt lnt text s t Hp C W A) as [(F & h & m & H)|(F & e & B & H)].
  - left. exists F, (Html.render h). intros fuel Hfu. eapply render_returns; [exact Hf|exact Hg|exact Hc|]. rewrite andb_true_r. apply H, Hfu.
  - right. exists F, e. split; [exact B|]. intros fuel Hfu. eapply make_stops; [exact Hf|exact Hg|exact Hc|apply H, Hfu|exact (blamed_kind_of _ _ _ _ B)].
Qed.
