(** What is expected of pipelines, applications and the command line. *)
From Verif Require Export Cli.
Local Open Scope string_scope.
Local Open Scope list_scope.

(** ** Pipelines *)

(** The arguments that a result of the previous task turns into. *)
Inductive passes {O} : pv O -> list (pv O) -> list (str * pv O) -> Prop :=
| passes_nothing : passes PNone [] []
| passes_keywords d : passes (PDict d) [] d
| passes_positions l : passes (PSeq l) l []
| passes_one o : passes (PObj o) [PObj o] [].
(** A task called with what [v] turns into. *)
Definition called {O W} (t : task O W) (v : pv O) (w w' : W) (r : res (pv O)) : Prop :=
  exists args kws, passes v args kws /\ t_run t args kws w = (w', r).
(** Tasks run one after the other, each fed with the result of the one before. *)
Inductive feeds {O W} : list (task O W) -> pv O -> W -> pv O -> W -> Prop :=
| feeds_nil v w : feeds [] v w v w
| feeds_cons t ts v w v1 w1 v2 w2 : called t v w w1 (Ok v1) -> feeds ts v1 w1 v2 w2 -> feeds (t :: ts) v w v2 w2.
(** A task fails after those before it have succeeded. *)
Definition stops {O W} (ts : list (task O W)) (v : pv O) (w w' : W) (e : exn) : Prop :=
  exists before t after v1 w1, ts = before ++ t :: after /\ feeds before v w v1 w1 /\ called t v1 w1 w' (Err e).

(** ** Sources *)

Definition path_given (p : srcpath) : Prop := p <> NoPath /\ p <> PathStr [].
Definition plain_given (s : str) : Prop := s <> [].
Definition exactly_one (P Q : Prop) : Prop := (P /\ ~ Q) \/ (~ P /\ Q).
Definition known_format (c : logcfg) : Prop := In (lc_format c) (map lit ["plain"; "rsm"; "json"; "lint"]).
(** [mk] builds an application iff exactly one source is given; otherwise it does nothing but raise. *)
Definition one_source (mk : srcpath -> str -> logcfg -> built_app) : Prop := forall p plain c g, known_format c ->
  (exactly_one (path_given p) (plain_given plain) -> exists g' l, mk p plain c g = (g', Ok l)) /\
  (~ exactly_one (path_given p) (plain_given plain) -> exists msg, mk p plain c g = (g, Err (EApplication msg))).

(** ** Logging *)

(** A record of level [lvl] is shown once. *)
Definition shown (g : glog) (lvl : Z) : Prop := forall msg, g_out (log_at lvl msg g) = g_out g ++ [(lvl, msg)].
Definition hidden (g : glog) (lvl : Z) : Prop := forall msg, g_out (log_at lvl msg g) = g_out g.

(** The records emitted in a history of calls that have one of the levels. *)
Fixpoint emitted (levels : list Z) (l : list gcall) : list rec :=
  match l with
  | [] => []
  | GEmit r :: l => (if existsb (Z.eqb (r_level r)) levels then [r] else []) ++ emitted levels l
  | _ :: l => emitted levels l
  end.
(** The target in force after a history. *)
Fixpoint last_target (t : option nat) (l : list gcall) : option nat :=
  match l with [] => t | GTarget t :: l => last_target t l | _ :: l => last_target t l end.

(** ** The command line *)

Fixpoint count_v (fs : list flag) : nat := match fs with [] => 0 | FVerbose :: fs => S (count_v fs) | _ :: fs => count_v fs end.
Definition format_given (fs : list flag) (d f : str) : Prop :=
  (f = d /\ forall f', ~ In (FFormat f') fs) \/
  (exists a b, fs = a ++ FFormat f :: b /\ forall f', ~ In (FFormat f') b).
