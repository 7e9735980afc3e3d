(** Model of rsm/linter.py. *)
From Verif Require Export NodeOps.
Local Open Scope string_scope.
Local Open Scope list_scope.

(** rsm/linter.py:41-47 *)
Definition lint_extra (i : id) : M (Z * Z) :=
  let! v := getattr i a_start_point in
  match v with
  | VPoint r c => ret (r + 1, c + 1)%Z
  | VNone => raise EType
  | _ => raise EUnsupported
  end.
(** logger.lint(msg, extra=self._extra(node)), rsm/linter.py:24-26 *)
Definition lint_msg (msg : str) (i : id) : M unit :=
  let! p := lint_extra i in log_rec (MkLog logger_nodes LINT msg (Some p)).

(** rsm/linter.py:49-52 *)
Definition lint_manuscript_title (root : id) : M unit :=
  let! v := getattr root a_title in
  if truthy v then ret tt else lint_msg (lit "Manuscript with no title") root.
(** rsm/linter.py:54-58 *)
Definition lint_section (i : id) : M unit :=
  let! v := getattr i a_label in
  if truthy v then ret tt else lint_msg (lit "Section with no label") i.
Definition lint_section_label (fuel : nat) (root : id) : M unit :=
  for_traverse fuel (cond_class CSection) (fun _ i => lint_section i) tt root.
(** rsm/linter.py:60-67 *)
Definition fmt_parent (c : option cls) : str := match c with Some c => fmt_cls c | None => lit "<class 'NoneType'>" end.
Definition lint_block (i : id) : M unit :=
  let! p := parent_of i in
  let! c := match p with Some p => let! c := cls_of p in ret (Some c) | None => ret None end in
  if match c with Some c => subclass c CParagraph | None => false end then ret tt
  else lint_msg (lit "MathBlock must be direct child of Paragraph, not " ++ fmt_parent c) i.
Definition lint_mathblock_inside_paragraph (fuel : nat) (root : id) : M unit :=
  for_traverse fuel (cond_class CMathBlock) (fun _ i => lint_block i) tt root.
(** rsm/linter.py:30-39 *)
Definition lint (fuel : nat) (root : id) : M id :=
  do! info logger_nodes (lit "Linting...") in
  do! lint_manuscript_title root in
  do! lint_section_label fuel root in
  do! lint_mathblock_inside_paragraph fuel root in
  ret root.
