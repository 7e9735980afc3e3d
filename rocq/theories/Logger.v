(** Model of rsm/rsmlogger.py and of the parts of the logging package it uses: levels, handlers
    and buffering.  Formatting is not modelled (only which formatter is chosen). *)
From Coq Require Import ZArith.
From Verif Require Export Heap.
Local Open Scope string_scope.
Local Open Scope list_scope.
Local Open Scope Z_scope.

(** Levels (logging: DEBUG, INFO, WARNING, ERROR; rsm/linter.py:19). *)
Definition DEBUG_LVL : Z := 10.
Definition INFO_LVL : Z := 20.
Definition LINT_LVL : Z := 25.
Definition WARNING_LVL : Z := 30.
Definition ERROR_LVL : Z := 40.

(** The keys of the table at rsm/rsmlogger.py:168-173. *)
Definition formats : list str := map lit ["json"; "rsm"; "lint"; "plain"].
(** A handler of the logger: the NullHandler of rsm/rsmlogger.py:33, which shows nothing, or a
    StreamHandler with a formatter. *)
Inductive handler := HNull (lvl : Z) | HStream (lvl : Z) (fmt : str) (log_time log_lineno : bool).
Definition h_level (h : handler) : Z := match h with HNull l => l | HStream l _ _ _ => l end.
Definition set_h_level (l : Z) (h : handler) : handler :=
  match h with HNull _ => HNull l | HStream _ f a b => HStream l f a b end.
(** The logger "RSM", shared by all applications of the process, and what its handlers have
    written (level and message).  The children ("RSM.parse", ...) have no level and no
    handlers of their own, so that their records go the same way.  The cache of isEnabledFor is
    left out: rsm/rsmlogger.py:180 clears it before each application. *)
Record glog := MkG { g_level : Z; g_handlers : list handler; g_out : list (Z * str) }.
(** The state after importing the package: level NOTSET, for which the root's WARNING counts. *)
Definition initial_log : glog := MkG WARNING_LVL [HNull 0] [].

(** Logger.log: the level of the logger, then that of each handler, decide. *)
Definition written_by (lvl : Z) (h : handler) : bool :=
  match h with HNull _ => false | HStream l _ _ _ => l <=? lvl end.
Definition log_at (lvl : Z) (msg : str) (g : glog) : glog :=
  if g_level g <=? lvl then
    MkG (g_level g) (g_handlers g) (g_out g ++ map (fun _ => (lvl, msg)) (List.filter (written_by lvl) (g_handlers g)))
  else g.

(** rsm/rsmlogger.py:178-183 *)
Definition set_level (level : Z) (g : glog) : glog :=
  let level := Z.max level DEBUG_LVL in
  MkG level (map (fun h => if level <? h_level h then set_h_level level h else h) (g_handlers g)) (g_out g).
(** rsm/rsmlogger.py:145-175: the handlers are dropped before the format is looked up. *)
Definition config_rsm_logger (level : Z) (fmt : str) (log_time log_lineno : bool) (g : glog) : glog * res unit :=
  let g := MkG (g_level g) [] (g_out g) in
  if str_mem fmt formats then
    let g := MkG (g_level g) (g_handlers g ++ [HStream WARNING_LVL fmt log_time log_lineno]) (g_out g) in
    (set_level level g, Ok tt)
  else (g, Err EKey).
(** rsm/linter.py:21-28 (the constructor of Linter). *)
Definition new_linter (g : glog) : glog :=
  if LINT_LVL <? g_level g then MkG LINT_LVL (g_handlers g) (g_out g) else g.

(** ** GatherHandler (rsm/rsmlogger.py:121-142) *)

(** A record, its level and what it says. *)
Record rec := MkRec { r_level : Z; r_msg : str }.
(** A target is known by its name; [gh_sent] is what targets have been given, in order.  A target
    whose [handle] raises is named in [broken]. *)
Record gather := MkGather { gh_levels : list Z; gh_buffer : list rec; gh_target : option nat; gh_sent : list (nat * rec) }.
(** rsm/rsmlogger.py:122-128 *)
Definition new_gather (levels : list Z) (target : option nat) : gather := MkGather levels [] target [].
(** rsm/rsmlogger.py:130-132 *)
Definition gather_emit (r : rec) (g : gather) : gather :=
  if existsb (Z.eqb (r_level r)) (gh_levels g) then MkGather (gh_levels g) (gh_buffer g ++ [r]) (gh_target g) (gh_sent g) else g.
(** Assigning the attribute target. *)
Definition gather_target (t : option nat) (g : gather) : gather := MkGather (gh_levels g) (gh_buffer g) t (gh_sent g).
(** rsm/rsmlogger.py:134-142; [ok t r] says that the target [t] handles [r] without raising.  When
    it raises, the records handled before it stay in the buffer. *)
Fixpoint handle_all (ok : nat -> rec -> bool) (t : nat) (l : list rec) (sent : list (nat * rec)) : list (nat * rec) * bool :=
  match l with
  | [] => (sent, true)
  | r :: l => if ok t r then handle_all ok t l (sent ++ [(t, r)]) else (sent, false)
  end.
Definition gather_flush (ok : nat -> rec -> bool) (g : gather) : gather * res unit :=
  match gh_target g with
  | None => (g, Ok tt)
  | Some t =>
      let '(sent, fine) := handle_all ok t (gh_buffer g) (gh_sent g) in
      if fine then (MkGather (gh_levels g) [] (gh_target g) sent, Ok tt)
      else (MkGather (gh_levels g) (gh_buffer g) (gh_target g) sent, Err (EOther (lit "raised by the target")))
  end.
(** logging.handlers.BufferingHandler.close: flush, then the handler is closed. *)
Definition gather_close := gather_flush.

(** One call. *)
Inductive gcall := GEmit (r : rec) | GTarget (t : option nat) | GFlush | GClose.
Definition gcall_run (ok : nat -> rec -> bool) (c : gcall) (g : gather) : gather :=
  match c with
  | GEmit r => gather_emit r g
  | GTarget t => gather_target t g
  | GFlush => fst (gather_flush ok g)
  | GClose => fst (gather_close ok g)
  end.
Definition gcalls_run (ok : nat -> rec -> bool) (l : list gcall) (g : gather) : gather := fold_left (fun g c => gcall_run ok c g) l g.
