(** What render, lint and make do, stage by stage. *)
From Verif Require Export RenderTree.
From Verif Require Import AppProofs.
Local Open Scope string_scope.
Local Open Scope list_scope.

Section Run.
Context (ts : str -> cst) (hl : str -> str -> str) (pkg : list (str * str)) (fuel : nat).
Notation exec := (exec ts hl pkg fuel).
Definition run_stages (l : list stage) (v : pv obj) (w : world) := run_tasks (map (task_of ts hl pkg fuel) l) v w.
Lemma run_app_ok a w w' v : run_app ts hl pkg fuel a w = (w', Ok v) ->
  exists g l, a (w_log w) = (g, Ok l) /\
  ((exists w1, run_stages l PNone (MkW (w_mem w) g [] (w_fs w)) = (w1, Ok v) /\ w' = say INFO_LVL (lit "Done.") w1) \/
   (exists w1 msg, run_stages l PNone (MkW (w_mem w) g [] (w_fs w)) = (w1, Err (EParser msg)) /\ v = PObj (OText []) /\
      w' = say ERROR_LVL (lit "There was an error: " ++ msg) w1)).
Proof.
  unfold run_app. destruct (a (w_log w)) as [g [l|e]]; [|discriminate]. intros H. exists g, l. split; [reflexivity|].
  unfold app_run, pipeline_run, new_pipeline in H. rewrite new_pipeline_tasks in H. cbn [p_tasks app] in H. fold (run_stages l PNone (MkW (w_mem w) g [] (w_fs w))) in H.
  destruct (run_stages l PNone _) as [w1 [v1|e]].
  - left. exists w1. injection H as <- <-. auto.
  - right. destruct e; try discriminate H. injection H as <- <-. eauto.
Qed.
Lemma exec_fs s args kws w : s <> SWrite -> w_fs (fst (exec s args kws w)) = w_fs w.
Proof.
  intros Hs. destruct s; try congruence; destruct args as [|[] [|]]; try reflexivity; destruct kws; try reflexivity; cbn [Render.exec]; try (destruct o; try reflexivity).
  - unfold read_file, give. destruct p as [|[|]|]; try reflexivity; destruct (plain_path _); try reflexivity; cbn [w_fs set_log]; destruct (w_fs w !! _); reflexivity.
  - unfold give, act. destruct (parse _ _ _) as [s1 [x|e]]; reflexivity.
  - unfold act. destruct (transform _ _ _ _) as [s1 [x|e]]; reflexivity.
  - unfold give, act. destruct (lint _ _ _) as [s1 [x|e]]; reflexivity.
  - unfold give, act. destruct handrails; [destruct (translate_handrails _ _ _ _ _) as [s1 [x|e]]|destruct (translate _ _ _ _) as [s1 [x|e]]]; reflexivity.
  - cbv zeta. destruct (full_build _ _ _); reflexivity.
Qed.
Lemma run_fs l : ~ In SWrite l -> forall v w, w_fs (fst (run_stages l v w)) = w_fs w.
Proof.
  unfold run_stages. induction l as [|s l IH]; intros H v w; [reflexivity|]. cbn [map run_tasks].
  assert (E : w_fs (fst (call_task (task_of ts hl pkg fuel s) v w)) = w_fs w).
  { unfold call_task. destruct v; cbn [task_of t_run]; apply exec_fs; intros ->; apply H; left; reflexivity. }
  destruct (call_task _ v w) as [w1 [v1|e]]; [|exact E]. rewrite IH; [exact E|]. intros G. apply H. right. exact G.
Qed.
Lemma run_cons s l v w r : run_stages (s :: l) v w = r ->
  match call_task (task_of ts hl pkg fuel s) v w with (w1, Ok v1) => run_stages l v1 w1 = r | (w1, Err e) => r = (w1, Err e) end.
Proof. unfold run_stages. cbn [map run_tasks]. destruct (call_task _ v w) as [w1 [v1|e]]; auto. Qed.
(** The first three stages of all applications. *)
Lemma front first rest source path w w' v : (if truthy_str source then SPlain source else SRead (PathStr path)) = first ->
  (source = [] -> path <> []) -> (source <> [] -> path = []) ->
  run_stages (first :: SParse :: STransform :: rest) PNone w = (w', Ok v) ->
  exists text s1 i s2 d g, given source path (w_fs w) text /\ parse fuel (ts text) (w_mem w) = (s1, Ok i) /\
    transform fuel (w_dict w) i s1 = (s2, Ok d) /\ run_stages rest (PObj (OTree i)) (MkW s2 g d (w_fs w)) = (w', Ok v).
Proof.
  intros Hf H1 H2 H. apply run_cons in H.
  assert (G : exists text g, given source path (w_fs w) text /\ call_task (task_of ts hl pkg fuel first) PNone w = (MkW (w_mem w) g (w_dict w) (w_fs w), Ok (PObj (OText text)))).
  { subst first. destruct source as [|ch source]; cbn [truthy_str] in *; cbn [call_task task_of t_run Render.exec] in *.
    - destruct path as [|ch path]; [specialize (H1 eq_refl); congruence|]. unfold read_file, give in *. destruct (plain_path (ch :: path)) eqn:Ep; [|discriminate H]. cbn [w_fs set_log] in *.
      destruct (w_fs w !! path_str (ch :: path)) as [text|] eqn:Et; [|discriminate H]. exists text. eexists. split; [|reflexivity]. right. auto.
    - exists (ch :: source), (w_log w). split; [left; split; [discriminate|]; split; [apply H2; discriminate|reflexivity]|]. destruct w; reflexivity. }
  destruct G as (text & g & Hg & E). rewrite E in H. clear E Hf first. apply run_cons in H. cbn [call_task task_of t_run Render.exec] in H. unfold give, act in H. cbn [w_mem w_log w_dict w_fs] in H.
  destruct (parse fuel (ts text) (w_mem w)) as [s1 [i|e]] eqn:Ep; [|discriminate H].
  apply run_cons in H. cbn [call_task task_of t_run Render.exec] in H. unfold act in H. cbn [w_mem w_log w_dict w_fs] in H.
  destruct (transform fuel (w_dict w) i s1) as [s2 [d|e]] eqn:Et; [|discriminate H].
  exists text, s1, i, s2, d. eexists. split; [exact Hg|]. split; [exact Ep|]. split; [exact Et|]. exact H.
Qed.
Lemma parser_app_ok path source c g g' l : parser_app (PathStr path) source c g = (g', Ok l) ->
  l = [if truthy_str source then SPlain source else SRead (PathStr path); SParse; STransform] /\ (source = [] -> path <> []) /\ (source <> [] -> path = []).
Proof.
  unfold parser_app, rsm_app. intros H. destruct source as [|a source], path as [|b path]; cbn [truthy_path truthy_str negb andb orb] in H; try discriminate H;
  destruct (config_rsm_logger _ _ _ _ g) as [g1 [u|e]]; try discriminate H; injection H as _ <-; (split; [reflexivity|]); split; intros E; try reflexivity; try discriminate E; congruence.
Qed.
Definition translation (handrails add_source : bool) (i : id) : M (list tok) :=
  if handrails then translate_handrails hl add_source fuel i else translate hl fuel i.
(** render returns the HTML that the translator makes of the transformed manuscript; only if the
    parser gives up it returns the empty string. *)
Lemma render_does source path hr add c w w' v : render_rsm ts hl pkg fuel source path hr add c w = (w', Ok v) ->
  w_fs w' = w_fs w /\
  (v = PObj (OText []) \/
   exists text s1 i s2 d h, given source path (w_fs w) text /\ parse fuel (ts text) (w_mem w) = (s1, Ok i) /\ transform fuel [] i s1 = (s2, Ok d) /\
     translation hr (hr && add) i s2 = (w_mem w', Ok h) /\ v = PObj (OText (Html.render h))).
Proof.
  unfold render_rsm. intros H. apply run_app_ok in H as (g & l & Ha & H). unfold render_app, processor_app in Ha.
  destruct (parser_app (PathStr path) source c (w_log w)) as [g1 [l1|e]] eqn:Ep; [|discriminate Ha]. injection Ha as <- <-.
  apply parser_app_ok in Ep as (-> & H1 & H2). cbn [app] in H.
  assert (Hnw : ~ In SWrite [if truthy_str source then SPlain source else SRead (PathStr path); SParse; STransform; STranslate hr (hr && add)]).
  { intros [E|[E|[E|[E|[]]]]]; [destruct (truthy_str source)| | |]; discriminate E. }
  destruct H as [(w1 & H & ->)|(w1 & msg & H & -> & ->)].
  - pose proof (run_fs _ Hnw PNone (MkW (w_mem w) g1 [] (w_fs w))) as Hfs. rewrite H in Hfs. cbn [fst w_fs] in Hfs. split; [exact Hfs|]. right.
    apply (front _ _ source path) in H; [|reflexivity|exact H1|exact H2]. destruct H as (text & s1 & i & s2 & d & g & Hg & Hp & Ht & H). cbn [w_mem w_dict w_fs] in *.
    apply run_cons in H. cbn [call_task task_of t_run Render.exec] in H. unfold give, act in H. cbn [w_mem w_log w_dict w_fs] in H.
    fold (translation hr (hr && add) i) in H. destruct (translation hr (hr && add) i s2) as [s3 [h|e]] eqn:Eh; [|discriminate H].
    injection H as <- <-. exists text, s1, i, s2, d, h. auto.
  - pose proof (run_fs _ Hnw PNone (MkW (w_mem w) g1 [] (w_fs w))) as Hfs. rewrite H in Hfs. cbn [fst w_fs] in Hfs. split; [exact Hfs|]. left. reflexivity.
Qed.
(** lint gives the manuscript, after transform, to the linter. *)
Lemma lint_does source path hr c w w' v : lint_rsm ts hl pkg fuel source path hr c w = (w', Ok v) ->
  w_fs w' = w_fs w /\
  (v = PObj (OText []) \/
   exists text s1 i s2 d j, given source path (w_fs w) text /\ parse fuel (ts text) (w_mem w) = (s1, Ok i) /\ transform fuel [] i s1 = (s2, Ok d) /\
     lint fuel i s2 = (w_mem w', Ok j) /\ v = PObj (OTree j)).
Proof.
  unfold lint_rsm. intros H. apply run_app_ok in H as (g & l & Ha & H). unfold lint_app, linter_app in Ha.
  destruct (parser_app (PathStr path) source _ (w_log w)) as [g1 [l1|e]] eqn:Ep; [|discriminate Ha]. injection Ha as <- <-.
  apply parser_app_ok in Ep as (-> & H1 & H2). cbn [app] in H.
  assert (Hnw : ~ In SWrite [if truthy_str source then SPlain source else SRead (PathStr path); SParse; STransform; SLint]).
  { intros [E|[E|[E|[E|[]]]]]; [destruct (truthy_str source)| | |]; discriminate E. }
  destruct H as [(w1 & H & ->)|(w1 & msg & H & -> & ->)].
  - pose proof (run_fs _ Hnw PNone (MkW (w_mem w) (new_linter g1) [] (w_fs w))) as Hfs. rewrite H in Hfs. cbn [fst w_fs] in Hfs. split; [exact Hfs|]. right.
    apply (front _ _ source path) in H; [|reflexivity|exact H1|exact H2]. destruct H as (text & s1 & i & s2 & d & g & Hg & Hp & Ht & H). cbn [w_mem w_dict w_fs] in *.
    apply run_cons in H. cbn [call_task task_of t_run Render.exec] in H. unfold give, act in H. cbn [w_mem w_log w_dict w_fs] in H.
    destruct (lint fuel i s2) as [s3 [j|e]] eqn:El; [|discriminate H].
    injection H as <- <-. exists text, s1, i, s2, d, j. auto.
  - pose proof (run_fs _ Hnw PNone (MkW (w_mem w) (new_linter g1) [] (w_fs w))) as Hfs. rewrite H in Hfs. cbn [fst w_fs] in Hfs. split; [exact Hfs|]. left. reflexivity.
Qed.
(** make writes the page of the HTML, or nothing. *)
Lemma run_app_fs a w : (forall g l, a (w_log w) = (g, Ok l) -> ~ In SWrite l) -> w_fs (fst (run_app ts hl pkg fuel a w)) = w_fs w.
Proof.
  intros H. unfold run_app. destruct (a (w_log w)) as [g [l|e]]; [|reflexivity]. specialize (H g l eq_refl).
  unfold app_run, pipeline_run, new_pipeline. rewrite new_pipeline_tasks. cbn [p_tasks app]. pose proof (run_fs l H PNone (MkW (w_mem w) g [] (w_fs w))) as E. unfold run_stages in E.
  destruct (run_tasks (map (task_of ts hl pkg fuel) l) PNone (MkW (w_mem w) g [] (w_fs w))) as [w1 [v1|e]]; [exact E|]. destruct e; exact E.
Qed.
Lemma render_fs source path hr add c w : w_fs (fst (render_rsm ts hl pkg fuel source path hr add c w)) = w_fs w.
Proof.
  apply run_app_fs. intros g l Ha. unfold render_app, processor_app in Ha. destruct (parser_app (PathStr path) source _ (w_log w)) as [g1 [l1|e]] eqn:Ep; [|discriminate Ha]. injection Ha as <- <-.
  apply parser_app_ok in Ep as (-> & _). cbn [app]. intros [E|[E|[E|[E|[]]]]]; [destruct (truthy_str source)| | |]; discriminate E.
Qed.
Lemma lint_fs source path hr c w : w_fs (fst (lint_rsm ts hl pkg fuel source path hr c w)) = w_fs w.
Proof.
  apply run_app_fs. intros g l Ha. unfold lint_app, linter_app in Ha. destruct (parser_app (PathStr path) source _ (w_log w)) as [g1 [l1|e]] eqn:Ep; [|discriminate Ha]. injection Ha as <- <-.
  apply parser_app_ok in Ep as (-> & _). cbn [app]. intros [E|[E|[E|[E|[]]]]]; [destruct (truthy_str source)| | |]; discriminate E.
Qed.
Lemma run_app_split l1 l2 v w : run_stages (l1 ++ l2) v w = match run_stages l1 v w with (w1, Ok v1) => run_stages l2 v1 w1 | (w1, Err e) => (w1, Err e) end.
Proof.
  unfold run_stages. revert v w. induction l1 as [|s l1 IH]; intros v w; [reflexivity|]. cbn [app map run_tasks]. destruct (call_task _ v w) as [w1 [v1|e]]; [apply IH|reflexivity].
Qed.
Lemma make_does source path hr lint c w w' r : make_rsm ts hl pkg fuel source path hr lint c w = (w', r) ->
  (w_fs w' = w_fs w /\ (r = Ok (PObj (OText [])) \/ exists e, r = Err e)) \/
  (r = Ok PNone /\ exists text s1 i s2 d h p, given source path (w_fs w) text /\ parse fuel (ts text) (w_mem w) = (s1, Ok i) /\ transform fuel [] i s1 = (s2, Ok d) /\
     translation lint lint i s2 = (w_mem w', Ok h) /\ full_build pkg (w_fs w) (Html.render h) = Ok p /\ w_fs w' = write p (w_fs w)).
Proof.
  unfold make_rsm, run_app, make_app, full_build_app, processor_app. intros H.
  destruct (parser_app (PathStr path) source _ (w_log w)) as [g1 [l1|e]] eqn:Ep; [|left; injection H as <- <-; split; [reflexivity|right; eauto]].
  apply parser_app_ok in Ep as (-> & H1 & H2). rewrite andb_true_r in H. cbn [app] in H.
  unfold app_run, pipeline_run, new_pipeline in H. rewrite new_pipeline_tasks in H. cbn [p_tasks app] in H.
  set (first := if truthy_str source then SPlain source else SRead (PathStr path)) in *.
  change (run_tasks (map (task_of ts hl pkg fuel) [first; SParse; STransform; STranslate lint lint; SBuild; SWrite]))
    with (run_stages ([first; SParse; STransform; STranslate lint lint; SBuild] ++ [SWrite])) in H. rewrite run_app_split in H.
  assert (Hnw : ~ In SWrite [first; SParse; STransform; STranslate lint lint; SBuild]).
  { unfold first. intros [E|[E|[E|[E|[E|[]]]]]]; [destruct (truthy_str source)| | | |]; discriminate E. }
  pose proof (run_fs _ Hnw PNone (MkW (w_mem w) g1 [] (w_fs w))) as Hfs.
  destruct (run_stages [first; SParse; STransform; STranslate lint lint; SBuild] PNone (MkW (w_mem w) g1 [] (w_fs w))) as [w1 [v1|e]] eqn:E.
  - right. apply (front _ _ source path) in E; [|reflexivity|exact H1|exact H2]. destruct E as (text & s1 & i & s2 & d & g & Hg & Hp & Ht & E). cbn [w_mem w_dict w_fs] in *.
    apply run_cons in E. cbn [call_task task_of t_run Render.exec] in E. unfold give, act in E. cbn [w_mem w_log w_dict w_fs] in E.
    fold (translation lint lint i) in E. destruct (translation lint lint i s2) as [s3 [h|e]] eqn:Eh; [|discriminate E].
    apply run_cons in E. cbn [call_task task_of t_run Render.exec] in E. cbv zeta in E. cbn [set_log w_mem w_log w_dict w_fs] in E.
    destruct (full_build pkg (w_fs w) (Html.render h)) as [p|e] eqn:Eb; [|discriminate E]. injection E as <- <-.
    cbn in H. injection H as <- <-. split; [reflexivity|]. exists text, s1, i, s2, d, h, p. cbn [w_mem w_fs say set_log]. auto 8.
  - left. cbn [fst w_fs] in Hfs. destruct e; injection H as <- <-; (split; [exact Hfs|]); eauto.
Qed.
End Run.
