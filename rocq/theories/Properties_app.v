(** Properties C55-C60 and C63: applications, pipelines, logging and the command line
    (rsm/app.py, rsm/rsmlogger.py, rsm/cli.py). *)
From Verif Require Import AppProps.
Local Open Scope string_scope.
Local Open Scope list_scope.

(** ** C55 *)

Theorem C55_exactly_one_source :
  one_source parser_app /\ one_source linter_app /\
  (forall h a r, one_source (fun p s c => processor_app p s c h a r)) /\
  (forall h r, one_source (fun p s c => full_build_app p s c h r)).
Proof. exact (conj parser_one_source (conj linter_one_source (conj processor_one_source full_one_source))). Qed.
Print Assumptions C55_exactly_one_source.
(** The source that was given is the one that is processed. *)
Theorem C55_source_used : forall p s c g g' l, parser_app p s c g = (g', Ok l) ->
  l = (if truthy_str s then SPlain s else SRead p) :: [SParse; STransform].
Proof. exact parser_stages. Qed.
Print Assumptions C55_source_used.
Example C55_nonvacuous : exactly_one (path_given (PathStr (lit "a.rsm"))) (plain_given []) /\
  ~ exactly_one (path_given (PathStr [])) (plain_given []) /\ ~ exactly_one (path_given (PathObj [])) (plain_given (lit "x")).
Proof.
  split; [left; split; [split; discriminate|intros H; exact (H eq_refl)]|].
  split; intros [[A B]|[A B]].
  - apply (proj2 A). reflexivity.
  - apply B. reflexivity.
  - apply B. discriminate.
  - apply A. split; discriminate.
Qed.

(** ** C56 *)

Theorem C56_run_feeds : forall O W (ts : list (task O W)) v w v' w',
  pipeline_run (new_pipeline ts) v w = (w', Ok v') <-> feeds ts v w v' w'.
Proof. exact @pipeline_ok. Qed.
Print Assumptions C56_run_feeds.
Theorem C56_failure_stops : forall O W (ts : list (task O W)) v w w' e,
  pipeline_run (new_pipeline ts) v w = (w', Err e) <-> stops ts v w w' e.
Proof. exact @pipeline_err. Qed.
Print Assumptions C56_failure_stops.
(** Adding then removing: the tasks are as before; so are the attributes if the name was not in use. *)
Theorem C56_pop_add_partial : forall O W (t : task O W) p, p_attrs p !! t_name t = None -> pop_task (add_task t p) = (p, Ok t).
Proof. exact @pop_add. Qed.
Print Assumptions C56_pop_add_partial.
Theorem C56_pop_add_tasks : forall O W (t : task O W) p, exists p', pop_task (add_task t p) = (p', Ok t) /\ p_tasks p' = p_tasks p.
Proof. exact @pop_tasks. Qed.
Print Assumptions C56_pop_add_tasks.
Theorem C56_pop_add_refuted : exists (t : task nat unit) p, fst (pop_task (add_task t p)) <> p.
Proof. exact pop_add_ex. Qed.
Print Assumptions C56_pop_add_refuted.
(** Three tasks: one returns keywords, one a list, the last adds up what it is given. *)
Example C56_nonvacuous :
  let t1 : task nat (list nat) := MkTask (lit "a") PNone (fun args _ w => (w ++ [length args], Ok (PDict [(lit "x", PObj 1)]))) in
  let t2 : task nat (list nat) := MkTask (lit "b") PNone (fun args kws w => (w ++ [length kws], Ok (PSeq [PObj 7; PObj 8]))) in
  let t3 : task nat (list nat) := MkTask (lit "c") PNone (fun args kws w => (w ++ [length args], Ok (PObj (length kws)))) in
  feeds [t1; t2; t3] (PObj 5) [] (PObj 0) [1; 1; 2].
Proof.
  cbv zeta. apply run_ok. vm_compute. reflexivity.
Qed.

(** ** C57 *)

Theorem C57_parser_error : forall O W say (empty : O) (ts : list (task O W)) v w w' msg, stops ts v w w' (EParser msg) ->
  app_run say empty (new_pipeline ts) v w = (say ERROR_LVL (lit "There was an error: " ++ msg) w', Ok (PObj empty)).
Proof. exact @app_parser. Qed.
Print Assumptions C57_parser_error.
Theorem C57_other_errors : forall O W say (empty : O) (ts : list (task O W)) v w w' e, stops ts v w w' e ->
  (forall msg, e <> EParser msg) -> app_run say empty (new_pipeline ts) v w = (w', Err e).
Proof. exact @app_other. Qed.
Print Assumptions C57_other_errors.
Theorem C57_success : forall O W say (empty : O) (ts : list (task O W)) v w v' w', feeds ts v w v' w' ->
  app_run say empty (new_pipeline ts) v w = (say INFO_LVL (lit "Done.") w', Ok v').
Proof. exact @app_ok. Qed.
Print Assumptions C57_success.
(** These are all cases. *)
Theorem C57_cases : forall O W (ts : list (task O W)) v w, (exists v' w', feeds ts v w v' w') \/ (exists w' e, stops ts v w w' e).
Proof. exact @app_cases. Qed.
Print Assumptions C57_cases.
Example C57_nonvacuous :
  let t1 : task nat (list nat) := MkTask (lit "a") PNone (fun _ _ w => (w ++ [1], Ok (PObj 1))) in
  let t2 : task nat (list nat) := MkTask (lit "b") PNone (fun _ _ w => (w ++ [2], Err (EParser (lit "bad")))) in
  let t3 : task nat (list nat) := MkTask (lit "c") PNone (fun _ _ w => (w ++ [3], Ok PNone)) in
  stops [t1; t2; t3] PNone [] [1; 2] (EParser (lit "bad")) /\ stops [t1; MkTask [] PNone (fun _ _ w => (w, Err EKey)); t3] PNone [] [1] EKey.
Proof. cbv zeta. split; apply run_err; vm_compute; reflexivity. Qed.

(** ** C58 *)

(** What make does: handrails are there exactly when lint is asked for, and the linter is not run. *)
Theorem C58_make_partial : forall source path h lint c g g' l, make_app source path h lint c g = (g', Ok l) ->
  (exists a, In (STranslate lint a) l) /\ ~ In SLint l /\ ~ (exists a, In (STranslate (negb lint) a) l).
Proof. exact make_stages. Qed.
Print Assumptions C58_make_partial.
Theorem C58_make_runs_linter_refuted : exists h c g g' l, make_app (lit "a") [] h true c g = (g', Ok l) /\ ~ In SLint l.
Proof. exact make_lint_ex. Qed.
Print Assumptions C58_make_runs_linter_refuted.
Theorem C58_make_handrails_refuted : exists c g g' l, make_app (lit "a") [] true false c g = (g', Ok l) /\ In (STranslate false false) l.
Proof. exact make_handrails_ex. Qed.
Print Assumptions C58_make_handrails_refuted.
Theorem C58_make_no_handrails_refuted : exists c g g' l, make_app (lit "a") [] false true c g = (g', Ok l) /\ In (STranslate true true) l.
Proof. exact make_handrails_ex2. Qed.
Print Assumptions C58_make_no_handrails_refuted.
(** The applications below make honour theirs. *)
Theorem C58_processor_options : forall p s c h a r g g' l, processor_app p s c h a r g = (g', Ok l) ->
  l = [if truthy_str s then SPlain s else SRead p; SParse; STransform] ++ (if r then [SLint] else []) ++ [STranslate h (h && a)].
Proof. exact processor_stages. Qed.
Print Assumptions C58_processor_options.
Example C58_nonvacuous : exists g l, make_app (lit "a") [] true true (MkLC 30 (lit "rsm") true true) initial_log = (g, Ok l).
Proof. eexists _, _. vm_compute. reflexivity. Qed.

(** ** C59 *)

(** The least level is 10. *)
Theorem C59_shown_iff_level : forall level f lt ll g g' lvl, config_rsm_logger level f lt ll g = (g', Ok tt) ->
  ((Z.max 10 level <= lvl)%Z -> shown g' lvl) /\ ((lvl < Z.max 10 level)%Z -> hidden g' lvl).
Proof. exact (fun level f lt ll g g' lvl H => conj (config_shown _ _ _ _ _ _ lvl H) (config_hidden _ _ _ _ _ _ lvl H)). Qed.
Print Assumptions C59_shown_iff_level.
Theorem C59_processor : forall p s c h a g g' l lvl, processor_app p s c h a false g = (g', Ok l) ->
  ((Z.max 10 (lc_level c) <= lvl)%Z -> shown g' lvl) /\ ((lvl < Z.max 10 (lc_level c))%Z -> hidden g' lvl).
Proof. exact processor_shown. Qed.
Print Assumptions C59_processor.
Theorem C59_lint_shown_by_linter : forall p s c g g' l lvl, linter_app p s c g = (g', Ok l) ->
  ((LINT_LVL <= lvl)%Z -> shown g' lvl) /\ ((lvl < LINT_LVL)%Z -> hidden g' lvl).
Proof. exact linter_shown. Qed.
Print Assumptions C59_lint_shown_by_linter.
(** With run_linter, lint messages are shown only if the level asked for is low enough. *)
Theorem C59_lint_shown_by_processor_partial : forall p s c h a g g' l, processor_app p s c h a true g = (g', Ok l) ->
  ((lc_level c <= LINT_LVL)%Z -> shown g' LINT_LVL) /\ ((LINT_LVL < lc_level c)%Z -> hidden g' LINT_LVL).
Proof. exact processor_lint_shown. Qed.
Print Assumptions C59_lint_shown_by_processor_partial.
Theorem C59_lint_shown_by_processor_refuted : exists p s c g g' l, processor_app p s c false false true g = (g', Ok l) /\
  In SLint l /\ lc_level c = WARNING_LVL /\ hidden g' LINT_LVL.
Proof. exact processor_lint_hidden_ex. Qed.
Print Assumptions C59_lint_shown_by_processor_refuted.
(** The linter's application does not show what it is asked to. *)
Theorem C59_linter_level_refuted : exists p s c g g' l, linter_app p s c g = (g', Ok l) /\
  (lc_level c <= DEBUG_LVL)%Z /\ hidden g' INFO_LVL.
Proof. exact linter_level_ex. Qed.
Print Assumptions C59_linter_level_refuted.
Example C59_nonvacuous : exists g, config_rsm_logger 20 (lit "rsm") true true initial_log = (g, Ok tt) /\
  g_out (log_at 20 (lit "x") (log_at 10 (lit "y") g)) = [(20%Z, lit "x")].
Proof. eexists. vm_compute. auto. Qed.

(** ** C60 *)

Theorem C60_once_in_order : forall ok levels t l, reliable ok ->
  map snd (gh_sent (gcalls_run ok l (new_gather levels t))) ++ gh_buffer (gcalls_run ok l (new_gather levels t)) = emitted levels l.
Proof. exact gather_once. Qed.
Print Assumptions C60_once_in_order.
Theorem C60_flushed : forall ok levels t l c u, reliable ok -> c = GFlush \/ c = GClose -> last_target t l = Some u ->
  gh_buffer (gcalls_run ok (l ++ [c]) (new_gather levels t)) = [] /\
  map snd (gh_sent (gcalls_run ok (l ++ [c]) (new_gather levels t))) = emitted levels l /\
  gh_sent (gcalls_run ok (l ++ [c]) (new_gather levels t)) =
    gh_sent (gcalls_run ok l (new_gather levels t)) ++ map (pair u) (gh_buffer (gcalls_run ok l (new_gather levels t))).
Proof. exact gather_flushed. Qed.
Print Assumptions C60_flushed.
Theorem C60_kept_without_target : forall ok levels t l, reliable ok -> (forall a b, l = a ++ b -> last_target t a = None) ->
  gh_sent (gcalls_run ok l (new_gather levels t)) = [] /\ gh_buffer (gcalls_run ok l (new_gather levels t)) = emitted levels l.
Proof. exact gather_kept. Qed.
Print Assumptions C60_kept_without_target.
(** A target that raises is given records twice. *)
Theorem C60_once_refuted : exists ok levels t l,
  ~ NoDup (map snd (gh_sent (gcalls_run ok l (new_gather levels t)))) /\ NoDup (emitted levels l).
Proof. exact gather_twice_ex. Qed.
Print Assumptions C60_once_refuted.
Example C60_nonvacuous :
  let l := [GEmit (MkRec 30 (lit "a")); GEmit (MkRec 20 (lit "b")); GFlush; GTarget (Some 1); GEmit (MkRec 30 (lit "c")); GFlush; GEmit (MkRec 30 (lit "d"))] in
  let g := gcalls_run (fun _ _ => true) l (new_gather [30%Z] None) in
  gh_sent g = [(1, MkRec 30 (lit "a")); (1, MkRec 30 (lit "c"))] /\ gh_buffer g = [MkRec 30 (lit "d")].
Proof. vm_compute. auto. Qed.

(** ** C63 *)

Theorem C63_render : forall src fs g g' l, src <> [] -> cli_render_app src fs g = (g', Ok l) ->
  exists s h, l = [s; SParse; STransform; STranslate h false] /\
    (In FString fs -> s = SPlain src) /\ (~ In FString fs -> s = SRead (PathStr src)) /\ (h = true <-> In FHandrails fs) /\
    (forall lvl, (Z.max 10 (30 - 10 * Z.of_nat (count_v fs)) <= lvl)%Z -> shown g' lvl) /\
    (forall lvl, (lvl < Z.max 10 (30 - 10 * Z.of_nat (count_v fs)))%Z -> hidden g' lvl).
Proof. exact cli_render_does. Qed.
Print Assumptions C63_render.
Theorem C63_make : forall src fs g g' l, src <> [] -> cli_make_app src fs g = (g', Ok l) ->
  exists s, l = [s; SParse; STransform; STranslate true true; SBuild; SWrite] /\
    (In FString fs -> s = SPlain src) /\ (~ In FString fs -> s = SRead (PathStr src)) /\
    (forall lvl, (Z.max 10 (30 - 10 * Z.of_nat (count_v fs)) <= lvl)%Z -> shown g' lvl) /\
    (forall lvl, (lvl < Z.max 10 (30 - 10 * Z.of_nat (count_v fs)))%Z -> hidden g' lvl).
Proof. exact cli_make_does. Qed.
Print Assumptions C63_make.
Theorem C63_lint_partial : forall src fs g g' l, src <> [] -> cli_lint_app src fs g = (g', Ok l) ->
  exists s, l = [s; SParse; STransform; SLint] /\
    (In FString fs -> s = SPlain src) /\ (~ In FString fs -> s = SRead (PathStr src)) /\
    (forall lvl, (LINT_LVL <= lvl)%Z -> shown g' lvl) /\ (forall lvl, (lvl < LINT_LVL)%Z -> hidden g' lvl).
Proof. exact cli_lint_does. Qed.
Print Assumptions C63_lint_partial.
(** Each command builds its application. *)
Theorem C63_builds : forall (app : str -> list flag -> built_app) d src fs g,
  (app = cli_render_app /\ d = render_defaults) \/ (app = cli_make_app /\ d = make_defaults) \/ (app = cli_lint_app /\ d = lint_defaults) ->
  src <> [] -> (forall f, In (FFormat f) fs -> In f (map lit ["plain"; "rsm"; "json"; "lint"])) -> exists g' l, app src fs g = (g', Ok l).
Proof. exact cli_builds. Qed.
Print Assumptions C63_builds.
(** What is printed, and the exit status, whatever the application returns. *)
Theorem C63_prints : forall W (func : kwargs -> W -> W * res output) o w w' out, func (kwargs_of o) w = (w', Ok out) ->
  exists p, cli_main func o w = (w', Ok (p, 0%Z)) /\ (p = Some out <-> o_silent o = false /\ out <> ONone /\ out <> OStr []) /\
    (p <> Some out -> p = None).
Proof. exact @main_prints. Qed.
Print Assumptions C63_prints.
Theorem C63_silent : forall d src fs, o_silent (parse_args d src fs) = true <-> o_silent (d src) = true \/ In FSilent fs.
Proof. exact silent_flag. Qed.
Print Assumptions C63_silent.
Theorem C63_format : forall d src fs, format_given fs (o_format (d src)) (lc_format (k_log (kwargs_of (parse_args d src fs)))).
Proof. exact kw_format. Qed.
Print Assumptions C63_format.
Theorem C63_lint_verbose_refuted : exists src fs g g' l, count_v fs = 2 /\ cli_lint_app src fs g = (g', Ok l) /\ hidden g' INFO_LVL.
Proof. exact lint_verbose_ex. Qed.
Print Assumptions C63_lint_verbose_refuted.
Theorem C63_make_lineno_refuted : exists src fs g g' l h, In FNoLineno fs /\ cli_make_app src fs g = (g', Ok l) /\ g_handlers g' = [h] /\
  exists lvl f t, h = HStream lvl f t true.
Proof. exact make_lineno_ex. Qed.
Print Assumptions C63_make_lineno_refuted.
Example C63_nonvacuous : exists g l, cli_render_app (lit "a b") [FVerbose; FString; FHandrails; FFormat (lit "json")] initial_log = (g, Ok l) /\
  l = [SPlain (lit "a b"); SParse; STransform; STranslate true false].
Proof. eexists _, _. split; vm_compute; reflexivity. Qed.
