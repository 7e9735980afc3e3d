(** Model of rsm/cli.py: options, and what they become. *)
From Verif Require Export App.
Local Open Scope string_scope.
Local Open Scope list_scope.

(** The options of rsm/cli.py:19-82 as they occur on the command line, in order.  How argparse
    splits the words of the command line is not modelled; --version and --serve neither. *)
Inductive flag := FString | FHandrails | FSilent | FVerbose | FNoTimestamps | FNoLineno | FFormat (f : str).
(** The Namespace made by parse_args. *)
Record opts := MkOpts {
  o_src : str; o_string : bool; o_handrails : bool; o_silent : bool; o_verbose : nat;
  o_time : bool; o_lineno : bool; o_format : str }.
(** The actions: store_true, store_false, count and store. *)
Definition apply_flag (o : opts) (f : flag) : opts :=
  match f with
  | FString => MkOpts (o_src o) true (o_handrails o) (o_silent o) (o_verbose o) (o_time o) (o_lineno o) (o_format o)
  | FHandrails => MkOpts (o_src o) (o_string o) true (o_silent o) (o_verbose o) (o_time o) (o_lineno o) (o_format o)
  | FSilent => MkOpts (o_src o) (o_string o) (o_handrails o) true (o_verbose o) (o_time o) (o_lineno o) (o_format o)
  | FVerbose => MkOpts (o_src o) (o_string o) (o_handrails o) (o_silent o) (S (o_verbose o)) (o_time o) (o_lineno o) (o_format o)
  | FNoTimestamps => MkOpts (o_src o) (o_string o) (o_handrails o) (o_silent o) (o_verbose o) false (o_lineno o) (o_format o)
  | FNoLineno => MkOpts (o_src o) (o_string o) (o_handrails o) (o_silent o) (o_verbose o) (o_time o) false (o_format o)
  | FFormat f => MkOpts (o_src o) (o_string o) (o_handrails o) (o_silent o) (o_verbose o) (o_time o) (o_lineno o) f
  end.
Definition parse_args (defaults : str -> opts) (src : str) (fs : list flag) : opts := fold_left apply_flag fs (defaults src).
(** rsm/cli.py:107-109, 112-116 and 119-123 *)
Definition render_defaults (src : str) : opts := MkOpts src false false false 0 true true (lit "rsm").
Definition lint_defaults (src : str) : opts := MkOpts src false false true 0 true true (lit "lint").
Definition make_defaults (src : str) : opts := MkOpts src false true false 0 true true (lit "rsm").

(** The keyword arguments of rsm/cli.py:90-100; the one of source and path that is not passed has
    its default, the empty string. *)
Record kwargs := MkKw { k_source : str; k_path : str; k_handrails : bool; k_log : logcfg }.
Definition kwargs_of (o : opts) : kwargs :=
  MkKw (if o_string o then o_src o else []) (if o_string o then [] else o_src o) (o_handrails o)
    (MkLC (WARNING_LVL - Z.of_nat (o_verbose o) * 10) (o_format o) (o_time o) (o_lineno o)).
(** What the functions return: None, a string, or an object (a manuscript). *)
Inductive output := ONone | OStr (s : str) | OObj.
Definition truthy_output (o : output) : bool := match o with ONone => false | OStr [] => false | _ => true end.
(** rsm/cli.py:85-104: [func] is app.render, app.lint or app.make; the result is what is printed
    and the exit status. *)
Definition cli_main {W} (func : kwargs -> W -> W * res output) (o : opts) (w : W) : W * res (option output * Z) :=
  match func (kwargs_of o) w with
  | (w, Err e) => (w, Err e)
  | (w, Ok out) => (w, Ok (if negb (o_silent o) && truthy_output out then Some out else None, 0%Z))
  end.
(** The application each command builds. *)
Definition cli_render_app (src : str) (fs : list flag) : built_app :=
  let k := kwargs_of (parse_args render_defaults src fs) in render_app (k_source k) (k_path k) (k_handrails k) false (k_log k).
Definition cli_lint_app (src : str) (fs : list flag) : built_app :=
  let k := kwargs_of (parse_args lint_defaults src fs) in lint_app (k_source k) (k_path k) (k_handrails k) (k_log k).
Definition cli_make_app (src : str) (fs : list flag) : built_app :=
  let k := kwargs_of (parse_args make_defaults src fs) in make_app (k_source k) (k_path k) (k_handrails k) true (k_log k).
