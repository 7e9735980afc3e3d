(** The tasks of the applications (rsm/app.py), each doing what its module does, and the functions
    render, lint and make.  The grammar is not part of the repository: [ts] stands for the tree-sitter
    parser, from the source to the concrete syntax tree; [hl] for the highlighter of source code;
    [pkg] for the static files of the package. *)
From Verif Require Export App Cli Parser Transformer Linter Translator Handrails Builder.
Local Open Scope string_scope.
Local Open Scope list_scope.

(** What tasks hand on: a string, a manuscript, a WebManuscript. *)
Inductive obj := OText (s : str) | OTree (i : id) | OPage (w : web).
(** The nodes in memory, the logger, the labels known to the Transformer of the application, and the
    files of the working directory. *)
Record world := MkW { w_mem : st; w_log : glog; w_dict : labels; w_fs : files }.
Definition set_log (g : glog) (w : world) : world := MkW (w_mem w) g (w_dict w) (w_fs w).
(** The records made in between reach the logger. *)
Definition show (old : st) (new : st) (g : glog) : glog :=
  fold_left (fun g r => log_at (lg_level r) (lg_msg r) g) (skipn (length (st_logs old)) (st_logs new)) g.
Definition act {A} (m : M A) (w : world) : world * res A :=
  let (s, r) := m (w_mem w) in (MkW s (show (w_mem w) s (w_log w)) (w_dict w) (w_fs w), r).
Definition give {A} (f : A -> pv obj) (p : world * res A) : world * res (pv obj) :=
  match p with (w, Ok a) => (w, Ok (f a)) | (w, Err e) => (w, Err e) end.

Section Stages.
Context (ts : str -> cst) (hl : str -> str -> str) (pkg : list (str * str)) (fuel : nat).

(** rsm/reader.py:42-48.  Files hold what [read] returns for them: decoding and the translation of
    line ends are not modelled, nor are paths out of the working directory. *)
Definition read_file (p : srcpath) (w : world) : world * res str :=
  let w := set_log (log_at INFO_LVL (lit "Reading...") (w_log w)) w in
  match p with
  | NoPath | PathStr [] => (w, Err EType)
  | PathStr s | PathObj s =>
      if plain_path s then
        match w_fs w !! path_str s with Some t => (w, Ok t) | None => (w, Err (EOther (lit "FileNotFoundError"))) end
      else (w, Err EUnsupported)
  end.
(** rsm/app.py:171-177, 203, 221-229, 247-248: what each task calls.  A call with other arguments
    than those the task before it returns is a TypeError. *)
Definition exec (s : stage) (args : list (pv obj)) (kws : list (str * pv obj)) (w : world) : world * res (pv obj) :=
  match s, args, kws with
  | SRead p, [], [] => give (fun t => PObj (OText t)) (read_file p w)
  | SPlain t, [], [] => (w, Ok (PObj (OText t)))
  | SParse, [PObj (OText t)], [] => give (fun i => PObj (OTree i)) (act (parse fuel (ts t)) w)
  | STransform, [PObj (OTree i)], [] =>
      match act (transform fuel (w_dict w) i) w with
      | (w, Ok d) => (MkW (w_mem w) (w_log w) d (w_fs w), Ok (PObj (OTree i)))
      | (w, Err e) => (w, Err e)
      end
  | SLint, [PObj (OTree i)], [] => give (fun i => PObj (OTree i)) (act (lint fuel i) w)
  | STranslate h a, [PObj (OTree i)], [] =>
      give (fun l => PObj (OText (Html.render l))) (act (if h then translate_handrails hl a fuel i else translate hl fuel i) w)
  | SBuild, [PObj (OText b)], [] =>
      let w := set_log (log_at INFO_LVL (lit "Building...") (w_log w)) w in
      match full_build pkg (w_fs w) b with Ok p => (w, Ok (PObj (OPage p))) | Err e => (w, Err e) end
  | SWrite, [PObj (OPage p)], [] => (MkW (w_mem w) (w_log w) (w_dict w) (write p (w_fs w)), Ok PNone)
  | _, _, _ => (w, Err EType)
  end.
Definition task_of (s : stage) : task obj world := MkTask (stage_name s) PNone (exec s).
Definition say (lvl : Z) (msg : str) (w : world) : world := set_log (log_at lvl msg (w_log w)) w.
(** Building an application, with its own Transformer, and running it without arguments. *)
Definition run_app (a : built_app) (w : world) : world * res (pv obj) :=
  match a (w_log w) with
  | (g, Err e) => (set_log g w, Err e)
  | (g, Ok l) => app_run say (OText []) (new_pipeline (map task_of l)) PNone (MkW (w_mem w) g [] (w_fs w))
  end.
(** rsm/app.py:251-270, 273-289, 292-310 *)
Definition render_rsm (source path : str) (handrails add_source : bool) (c : logcfg) (w : world) : world * res (pv obj) :=
  run_app (render_app source path handrails add_source c) w.
Definition lint_rsm (source path : str) (handrails : bool) (c : logcfg) (w : world) : world * res (pv obj) :=
  run_app (lint_app source path handrails c) w.
Definition make_rsm (source path : str) (handrails lint : bool) (c : logcfg) (w : world) : world * res (pv obj) :=
  run_app (make_app source path handrails lint c) w.
End Stages.
