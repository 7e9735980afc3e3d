(** Sources without mistakes are linted and made into web pages. *)
From Verif Require Export ParseGives LintProofs BuildProofs.
From Verif Require Import RenderTotalDemo RenderDemo Fuel Isolation TreeFacts AppProofs Rendered.
Local Open Scope string_scope.
Local Open Scope list_scope.

Section Returns.
Context (ts : str -> cst) (hl : str -> str -> str) (pkg : list (str * str)) (fuel : nat).
Lemma lint_ends source path hr c fs text s1 i s2 d s3 j : given source path fs text -> In (lc_format c) formats ->
  parse fuel (ts text) empty_st = (s1, Ok i) -> transform fuel [] i s1 = (s2, Ok d) -> lint fuel i s2 = (s3, Ok j) ->
  exists w', lint_rsm ts hl pkg fuel source path hr c (new_process fs) = (w', Ok (PObj (OTree j))) /\ w_mem w' = s3.
Proof.
  intros Hg Hc Hp Ht Hl. assert (Ef : str_mem (lc_format c) formats = true) by (apply str_mem_In, Hc).
  unfold lint_rsm, run_app, lint_app, linter_app, parser_app.
  destruct Hg as [(Hs & -> & ->)|(-> & Hp0 & Hpl & Hfs)].
  - destruct source as [|x source]; [congruence|]. cbn [truthy_path truthy_str negb andb orb]. unfold rsm_app, config_rsm_logger. cbn [lc_format lc_level lc_time lc_lineno]. rewrite Ef. cbv zeta. cbn [map app].
    unfold app_run, pipeline_run, new_pipeline. rewrite new_pipeline_tasks. cbn [p_tasks app run_tasks call_task task_of t_run exec]. unfold act. cbn [w_mem new_process]. rewrite Hp. cbn [give run_tasks call_task task_of t_run exec w_mem w_dict].
    unfold act. cbn [w_mem]. rewrite Ht. cbn [run_tasks call_task task_of t_run exec w_mem]. unfold act. cbn [w_mem]. rewrite Hl. eexists. split; reflexivity.
  - destruct path as [|x path]; [congruence|]. cbn [truthy_path truthy_str negb andb orb]. unfold rsm_app, config_rsm_logger. cbn [lc_format lc_level lc_time lc_lineno]. rewrite Ef. cbv zeta. cbn [map app].
    unfold app_run, pipeline_run, new_pipeline. rewrite new_pipeline_tasks. cbn [p_tasks app run_tasks call_task task_of t_run exec]. unfold read_file. rewrite Hpl. cbv zeta. cbn [w_fs set_log new_process]. rewrite Hfs.
    cbn [give run_tasks call_task task_of t_run exec]. unfold act. cbn [w_mem set_log new_process]. rewrite Hp. cbn [give run_tasks call_task task_of t_run exec w_mem w_dict].
    unfold act. cbn [w_mem w_dict set_log new_process]. rewrite Ht. cbn [run_tasks call_task task_of t_run exec w_mem]. unfold act. cbn [w_mem]. rewrite Hl. eexists. split; reflexivity.
Qed.
Lemma make_ends source path hr lnt c w text h m i p : fresh_ok (w_mem w) -> given source path (w_fs w) text -> In (lc_format c) formats ->
  pieces ts hl fuel lnt lnt text h m i -> full_build pkg (w_fs w) (Html.render h) = Ok p ->
  exists w', make_rsm ts hl pkg fuel source path hr lnt c w = (w', Ok PNone) /\ w_fs w' = write p (w_fs w).
Proof.
  intros Hf Hg Hc (s1 & s2 & d & Hp & Ht & Htr) Hb. destruct (call_alone ts hl pkg fuel (CallMake source path hr lnt c) w Hf) as (H1 & H2 & _ & _). cbn [do_call] in H1, H2.
  assert (E : snd (make_rsm ts hl pkg fuel source path hr lnt c (new_process (w_fs w))) = Ok PNone /\ w_fs (fst (make_rsm ts hl pkg fuel source path hr lnt c (new_process (w_fs w)))) = write p (w_fs w)).
  { assert (Ef : str_mem (lc_format c) formats = true) by (apply str_mem_In, Hc).
    unfold make_rsm, run_app, make_app, full_build_app, processor_app, parser_app.
    destruct Hg as [(Hs & -> & ->)|(-> & Hp0 & Hpl & Hfs)].
    - destruct source as [|x source]; [congruence|]. cbn [truthy_path truthy_str negb andb orb]. unfold rsm_app, config_rsm_logger. cbn [lc_format lc_level lc_time lc_lineno]. rewrite Ef. cbv zeta. rewrite andb_true_r. cbn [map app].
      unfold app_run, pipeline_run, new_pipeline. rewrite new_pipeline_tasks. cbn [p_tasks app run_tasks call_task task_of t_run exec]. unfold act. cbn [w_mem new_process]. rewrite Hp. cbn [give run_tasks call_task task_of t_run exec w_mem w_dict].
      unfold act. cbn [w_mem]. rewrite Ht. cbn [run_tasks call_task task_of t_run exec w_mem]. unfold act. cbn [w_mem]. rewrite Htr.
      cbn [give run_tasks call_task task_of t_run exec w_mem w_fs w_log w_dict set_log]. cbv zeta; cbn [w_fs set_log new_process w_mem w_log w_dict]; rewrite Hb. cbn [run_tasks call_task task_of t_run exec w_mem w_fs w_log w_dict set_log]. split; reflexivity.
    - destruct path as [|x path]; [congruence|]. cbn [truthy_path truthy_str negb andb orb]. unfold rsm_app, config_rsm_logger. cbn [lc_format lc_level lc_time lc_lineno]. rewrite Ef. cbv zeta. rewrite andb_true_r. cbn [map app].
      unfold app_run, pipeline_run, new_pipeline. rewrite new_pipeline_tasks. cbn [p_tasks app run_tasks call_task task_of t_run exec]. unfold read_file. rewrite Hpl. cbv zeta. cbn [w_fs set_log new_process]. rewrite Hfs.
      cbn [give run_tasks call_task task_of t_run exec]. unfold act. cbn [w_mem set_log new_process]. rewrite Hp. cbn [give run_tasks call_task task_of t_run exec w_mem w_dict].
      unfold act. cbn [w_mem w_dict set_log new_process]. rewrite Ht. cbn [run_tasks call_task task_of t_run exec w_mem]. unfold act. cbn [w_mem]. rewrite Htr.
      cbn [give run_tasks call_task task_of t_run exec w_mem w_fs w_log w_dict set_log]. cbv zeta; cbn [w_fs set_log new_process w_mem w_log w_dict]; rewrite Hb. cbn [run_tasks call_task task_of t_run exec w_mem w_fs w_log w_dict set_log]. split; reflexivity. }
  destruct E as [E1 E2]. destruct (make_rsm ts hl pkg fuel source path hr lnt c w) as [w' r]. cbn [fst snd] in *. rewrite E1 in H1. cbn [same_answer] in H1. subst r.
  exists w'. split; [reflexivity|]. congruence.
Qed.
End Returns.

Lemma point_default c : In a_start_point (map fst (default_attrs c)).
Proof.
  assert (E : forallb (fun c => existsb (fun a => bool_decide (a = a_start_point)) (map fst (default_attrs c))) all_cls = true) by (vm_compute; reflexivity).
  rewrite forallb_forall in E. specialize (E c (all_cls_complete c)). apply existsb_exists in E as (a & Ha & E). apply bool_decide_eq_true in E. subst a. exact Ha.
Qed.
Lemma transformed_lintable s t s' : transformable s t -> transforms_to s t s' ->
  exists t', root t' = root t /\ document (st_heap s') t' /\ lintable (st_heap s') t'.
Proof.
  intros T H. destruct (transform_result s t s' (ta_ready _ _ T) (ta_typed _ _ T) (ta_complete _ _ T) H) as (t' & f & cites & R).
  pose proof (tb_manuscript _ _ (rs_translatable _ _ _ _ _ _ R)) as M. pose proof (ms_document _ _ M) as D.
  exists t'. split; [exact (tf_root _ _ _ _ _ (rs_transformed _ _ _ _ _ _ R))|]. split; [exact D|]. pose proof (rs_complete _ _ _ _ _ _ R) as C. pose proof (rs_typed _ _ _ _ _ _ R) as Ty.
  assert (Hin : forall x, x ∈ doc_order t' -> is_Some (st_heap s' !! x)).
  { intros x Hx. destruct (tree_at_in _ _ _ _ (proj1 D) Hx) as (n & Hn). eauto. }
  split.
  - destruct (ta_root _ _ T) as (n0 & Hn0 & Hc0). assert (Hr : root t ∈ doc_order t) by apply root_in_doc_order.
    destruct (tf_node _ _ _ _ _ (rs_transformed _ _ _ _ _ _ R) (root t) Hr) as (m & m' & Hm & Hm' & Hc & _).
    { intros [(n1 & Hn1 & E)|[(n1 & Hn1 & E)|(n1 & Hn1 & E)]]; rewrite Hn0 in Hn1; injection Hn1 as <-; congruence. }
    rewrite (tf_root _ _ _ _ _ (rs_transformed _ _ _ _ _ _ R)). unfold value. rewrite Hm'. apply (C _ _ _ Hm'). rewrite Hc. assert (m = n0) as -> by congruence. rewrite Hc0. vm_compute. tauto.
  - intros x Hx. destruct (Hin x Hx) as [n Hn]. unfold value. rewrite Hn. split; [exact (C _ _ _ Hn (label_default _))|].
    destruct (C _ _ _ Hn (point_default _)) as [v Hv]. rewrite Hv. destruct (Ty _ _ _ _ Hn Hv) as [S _]. destruct v; try discriminate S. eauto.
Qed.

Theorem lint_from_source ts hl pkg source path hr c fs text : given source path fs text -> In (lc_format c) formats ->
  clean_source (ts text) -> well_formed (ts text) -> (forall s t, reads_as (ts text) s t -> well_written s t) ->
  exists F s t s' t', reads_as (ts text) s t /\ transforms_to s t s' /\ root t' = root t /\ tree_at (st_heap s') None t' /\
    forall fuel, F <= fuel -> exists w', lint_rsm ts hl pkg fuel source path hr c (new_process fs) = (w', Ok (PObj (OTree (root t')))) /\
      w_mem w' = with_logs s' (MkLog (lit "RSM") INFO (lit "Linting...") None :: map (lint_record (st_heap s')) (offences (st_heap s') t')).
Proof.
  intros Hg Hc C Hw W. destruct (parse_reads _ C Hw) as (s & t & Hp).
  assert (P : presentable s t). { destruct Hp as [[F Hp1] Ht]. destruct (parsed_presentable _ _ _ _ C Hp1 Ht) as [P1 _]. apply P1, W. split; eauto. }
  pose proof (ps_transformable _ _ P) as T. destruct (transform_total s t T) as [s' H]. destruct (transformed_lintable s t s' T H) as (t' & Hr & D & L).
  destruct (parses_mono _ _ _ Hp) as [F1 H1]. destruct (transforms_mono _ _ _ H) as (F2 & d & H2).
  exists (F1 + F2 + length (doc_order t')), s, t, s', t'. split; [exact Hp|]. split; [exact H|]. split; [exact Hr|]. split; [exact (proj1 D)|].
  intros fuel Hf. eapply lint_ends; [exact Hg|exact Hc|apply H1; lia|apply H2; lia|]. rewrite <- Hr. apply lint_exact; [exact D|exact L|lia].
Qed.
Theorem lint_anywhere ts hl pkg source path hr c w text : fresh_ok (w_mem w) -> given source path (w_fs w) text -> In (lc_format c) formats ->
  clean_source (ts text) -> well_formed (ts text) -> (forall s t, reads_as (ts text) s t -> well_written s t) ->
  exists F i, forall fuel, F <= fuel -> snd (lint_rsm ts hl pkg fuel source path hr c w) = Ok (PObj (OTree i)).
Proof.
  intros Hf Hg Hc C Hw W. destruct (lint_from_source ts hl pkg source path hr c (w_fs w) text Hg Hc C Hw W) as (F & s & t & s' & t' & _ & _ & _ & _ & H).
  exists F, (st_next (w_mem w) + root t'). intros fuel Hfu. destruct (H fuel Hfu) as (w' & E & _).
  destruct (call_alone ts hl pkg fuel (CallLint source path hr c) w Hf) as (H1 & _). cbn [do_call] in H1. rewrite E in H1. exact H1.
Qed.
Theorem make_from_source ts hl pkg source path hr lnt c w text : fresh_ok (w_mem w) -> given source path (w_fs w) text -> In (lc_format c) formats ->
  clean_source (ts text) -> well_formed (ts text) ->
  (forall s t, reads_as (ts text) s t -> if lnt : bool then well_written_handrails s t else well_written s t) ->
  exists F html, forall fuel, F <= fuel ->
    snd (render_rsm ts hl pkg fuel source path lnt true c w) = Ok (PObj (OText html)) /\
    forall l, mentioned html l -> (forall a, In a l -> plain_path a = true /\ is_Some (w_fs w !! path_str a)) ->
      exists w', make_rsm ts hl pkg fuel source path hr lnt c w = (w', Ok PNone) /\ w_fs w' !! lit "index.html" = Some (make_main_file html).
Proof.
  intros Hf Hg Hc C Hw W. destruct (parse_reads _ C Hw) as (s & t & Hp).
  assert (P : if lnt then presentable_handrails s t else presentable s t).
  { pose proof (W s t Hp) as Wt. destruct Hp as [[F Hp1] Ht]. destruct (parsed_presentable _ _ _ _ C Hp1 Ht) as [P1 P2]. destruct lnt; auto. }
  destruct (presentable_pieces ts hl lnt lnt text s t Hp P) as (F & h & m & H). exists F, (Html.render h). intros fuel Hfu. split.
  - eapply render_returns; [exact Hf|exact Hg|exact Hc|]. rewrite andb_true_r. apply H, Hfu.
  - intros l Hl Ha. destruct (build_succeeds pkg (w_fs w) (Html.render h) l Hl Ha) as [p Hb].
    destruct (make_ends ts hl pkg fuel source path hr lnt c w text h m (root t) p Hf Hg Hc (H fuel Hfu) Hb) as (w' & Hm & Hfs).
    exists w'. split; [exact Hm|]. rewrite Hfs. destruct (build_files _ _ _ _ _ Hl Hb) as (_ & _ & D & _). unfold write. apply lookup_union_Some_l, D.
Qed.

(** ** The example *)

Lemma reads_fun c s t s' t' : reads_as c s t -> reads_as c s' t' -> s = s' /\ t = t'.
Proof.
  intros H H'. destruct (parses_mono _ _ _ H) as [F E]. destruct (parses_mono _ _ _ H') as [F' E'].
  specialize (E (F + F') ltac:(lia)). specialize (E' (F + F') ltac:(lia)). rewrite E in E'. injection E' as -> Hr. split; [reflexivity|].
  exact (tree_at_unique (st_heap s') None _ _ (proj2 H) (proj2 H') Hr).
Qed.
Lemma article_ready : fresh_ok (w_mem (new_process demo_fs)) /\ given (lit "x") [] demo_fs (lit "x") /\ In (lc_format demo_lc) formats /\
  clean_source article_cst /\ well_formed article_cst /\ forall s t, reads_as article_cst s t -> well_written_handrails s t.
Proof.
  split; [exact (proj1 (proj1 empty_sane))|]. split; [left; split; [discriminate|split; reflexivity]|]. split; [apply str_mem_In; reflexivity|].
  split; [exact article_clean|]. split; [exact article_formed|]. intros s t H. destruct (reads_fun _ _ _ _ _ H article_parses) as [-> ->]. exact article_written.
Qed.
