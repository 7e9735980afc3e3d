(** Model of rsm/app.py: pipelines, and how the applications are put together. *)
From Verif Require Export Logger.
Local Open Scope string_scope.
Local Open Scope list_scope.

(** ** Pipelines (rsm/app.py:78-119) *)

Section Pipeline.
(** The values passed between tasks, and the world that tasks act on. *)
Context {O W : Type}.
Inductive pv := PNone | PDict (d : list (str * pv)) | PSeq (l : list pv) | PObj (o : O).

(** rsm/app.py:78-83; a call has positional and keyword arguments. *)
Record task := MkTask { t_name : str; t_obj : pv; t_run : list pv -> list (str * pv) -> W -> W * res pv }.
(** The list of tasks, and the attributes set on the object. *)
Record pipeline := MkP { p_tasks : list task; p_attrs : gmap str pv }.

(** rsm/app.py:94-97.  A task called "tasks" would replace the list itself and is not modelled. *)
Definition add_task (t : task) (p : pipeline) : pipeline :=
  MkP (p_tasks p ++ [t]) (<[t_name t := t_obj t]> (p_attrs p)).
(** rsm/app.py:89-92 *)
Definition new_pipeline (ts : list task) : pipeline := fold_left (fun p t => add_task t p) ts (MkP [] ∅).
(** rsm/app.py:99-103: the task is removed before its attribute. *)
Definition pop_task (p : pipeline) : pipeline * res task :=
  match rev (p_tasks p) with
  | [] => (p, Err EIndex)
  | t :: r =>
      match p_attrs p !! t_name t with
      | None => (MkP (rev r) (p_attrs p), Err EAttribute)
      | Some _ => (MkP (rev r) (delete (t_name t) (p_attrs p)), Ok t)
      end
  end.
(** rsm/app.py:105-119 *)
Definition call_task (t : task) (v : pv) (w : W) : W * res pv :=
  match v with
  | PDict d => t_run t [] d w
  | PSeq l => t_run t l [] w
  | PNone => t_run t [] [] w
  | PObj _ => t_run t [v] [] w
  end.
Fixpoint run_tasks (ts : list task) (v : pv) (w : W) : W * res pv :=
  match ts with
  | [] => (w, Ok v)
  | t :: ts => match call_task t v w with (w, Ok v) => run_tasks ts v w | (w, Err e) => (w, Err e) end
  end.
Definition pipeline_run (p : pipeline) (v : pv) (w : W) : W * res pv := run_tasks (p_tasks p) v w.

(** rsm/app.py:137-144: [say] logs; only RSMParserError is caught. *)
Definition app_run (say : Z -> str -> W -> W) (empty : O) (p : pipeline) (v : pv) (w : W) : W * res pv :=
  match pipeline_run p v w with
  | (w, Ok v) => (say INFO_LVL (lit "Done.") w, Ok v)
  | (w, Err (EParser msg)) => (say ERROR_LVL (lit "There was an error: " ++ msg) w, Ok (PObj empty))
  | (w, Err e) => (w, Err e)
  end.
End Pipeline.
Arguments pv : clear implicits.
Arguments task : clear implicits.
Arguments pipeline : clear implicits.

(** ** The applications *)

(** The parameter srcpath: None, a string, or a Path object (which is always true). *)
Inductive srcpath := NoPath | PathStr (s : str) | PathObj (s : str).
Definition truthy_path (p : srcpath) : bool :=
  match p with NoPath => false | PathStr s => match s with [] => false | _ => true end | PathObj _ => true end.
Definition truthy_str (s : str) : bool := match s with [] => false | _ => true end.
(** The tasks: name in the pipeline and what is run. *)
Inductive stage :=
| SRead (p : srcpath) | SPlain (s : str) | SParse | STransform | SLint
| STranslate (handrails add_source : bool) | SBuild | SWrite.
Definition stage_name (s : stage) : str :=
  lit match s with
      | SRead _ => "reader" | SPlain _ => "dummy" | SParse => "parser" | STransform => "transformer" | SLint => "linter"
      | STranslate _ _ => "translator" | SBuild => "builder" | SWrite => "writer"
      end.
(** How logging is configured. *)
Record logcfg := MkLC { lc_level : Z; lc_format : str; lc_time : bool; lc_lineno : bool }.
(** Building an application acts on the logger. *)
Definition built_app := glog -> glog * res (list stage).

(** rsm/app.py:123-135 *)
Definition rsm_app (tasks : list stage) (c : logcfg) : built_app := fun g =>
  match config_rsm_logger (lc_level c) (lc_format c) (lc_time c) (lc_lineno c) g with
  | (g, Err e) => (g, Err e)
  | (g, Ok _) => (log_at INFO_LVL (lit "Configuring...") (log_at INFO_LVL (lit "Application started") g), Ok tasks)
  end.
(** rsm/app.py:157-186 *)
Definition parser_app (p : srcpath) (plain : str) (c : logcfg) : built_app := fun g =>
  if (negb (truthy_path p) && negb (truthy_str plain)) || (truthy_path p && truthy_str plain)
  then (g, Err (EApplication (lit "Must specify exactly one of srcpath, plain")))
  else rsm_app ((if truthy_str plain then SPlain plain else SRead p) :: [SParse; STransform]) c g.
(** rsm/app.py:189-203: the level given by the user is not used. *)
Definition linter_app (p : srcpath) (plain : str) (c : logcfg) : built_app := fun g =>
  match parser_app p plain (MkLC LINT_LVL (lc_format c) (lc_time c) (lc_lineno c)) g with
  | (g, Err e) => (g, Err e)
  | (g, Ok l) => (new_linter g, Ok (l ++ [SLint]))
  end.
(** rsm/app.py:206-229 *)
Definition processor_app (p : srcpath) (plain : str) (c : logcfg) (handrails add_source run_linter : bool) : built_app := fun g =>
  match parser_app p plain c g with
  | (g, Err e) => (g, Err e)
  | (g, Ok l) =>
      let '(g, l) := if run_linter then (new_linter g, l ++ [SLint]) else (g, l) in
      (g, Ok (l ++ [STranslate handrails (handrails && add_source)]))
  end.
(** rsm/app.py:232-248: the arguments are passed by position; [handrails] lands on log_lineno and
    [run_linter] on handrails. *)
Definition full_build_app (p : srcpath) (plain : str) (c : logcfg) (handrails run_linter : bool) : built_app := fun g =>
  match processor_app p plain (MkLC (lc_level c) (lc_format c) (lc_time c) handrails) run_linter true false g with
  | (g, Err e) => (g, Err e)
  | (g, Ok l) => (g, Ok (l ++ [SBuild; SWrite]))
  end.
(** rsm/app.py:251-270 *)
Definition render_app (source path : str) (handrails add_source : bool) (c : logcfg) : built_app :=
  processor_app (PathStr path) source c handrails add_source false.
(** rsm/app.py:273-289 *)
Definition lint_app (source path : str) (handrails : bool) (c : logcfg) : built_app := linter_app (PathStr path) source c.
(** rsm/app.py:292-310 *)
Definition make_app (source path : str) (handrails lint : bool) (c : logcfg) : built_app :=
  full_build_app (PathStr path) source c true lint.
