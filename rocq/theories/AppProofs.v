(** Proofs about logging, pipelines, applications and the command line. *)
From Coq Require Import ZArith Lia.
From Verif Require Export SpecApp Monad.
Local Open Scope string_scope.
Local Open Scope list_scope.

(** ** Pipelines *)

Lemma passes_fun {O} (v : pv O) a k a' k' : passes v a k -> passes v a' k' -> a = a' /\ k = k'.
Proof. intros H; inversion H; intros H'; inversion H'; subst; auto. Qed.
Lemma called_iff {O W} (t : task O W) v w w' r : call_task t v w = (w', r) <-> called t v w w' r.
Proof.
  split.
  - intros E. destruct v; cbn in E; eexists _, _; (split; [constructor|exact E]).
  - intros (a & k & P & E). destruct P; exact E.
Qed.
Lemma run_ok {O W} (ts : list (task O W)) : forall v w v' w', run_tasks ts v w = (w', Ok v') <-> feeds ts v w v' w'.
Proof.
  induction ts as [|t ts IH]; intros v w v' w'; cbn.
  - split; [intros [= <- <-]; constructor|intros H; inversion H; subst; reflexivity].
  - split.
    + destruct (call_task t v w) as [w1 [v1|e]] eqn:E; [|discriminate]. intros R.
      eapply feeds_cons; [apply called_iff; exact E|apply IH; exact R].
    + intros H. inversion H; subst. match goal with C : called _ _ _ _ _ |- _ => apply called_iff in C; rewrite C end.
      apply IH. assumption.
Qed.
Lemma run_err {O W} (ts : list (task O W)) : forall v w w' e, run_tasks ts v w = (w', Err e) <-> stops ts v w w' e.
Proof.
  induction ts as [|t ts IH]; intros v w w' e; cbn.
  - split; [discriminate|]. intros (b & t & a & v1 & w1 & E & _). destruct b; discriminate E.
  - split.
    + destruct (call_task t v w) as [w1 [v1|e1]] eqn:E.
      * intros R. apply IH in R. destruct R as (b & t' & a & v2 & w2 & -> & F & C).
        exists (t :: b), t', a, v2, w2. split; [reflexivity|]. split; [|exact C].
        eapply feeds_cons; [apply called_iff; exact E|exact F].
      * intros [= <- <-]. exists [], t, ts, v, w. split; [reflexivity|]. split; [constructor|apply called_iff; exact E].
    + intros (b & t' & a & v2 & w2 & E & F & C). destruct b as [|t1 b]; cbn in E; injection E as <- ->.
      * inversion F; subst. apply called_iff in C. rewrite C. reflexivity.
      * inversion F; subst. match goal with X : called t _ _ _ _ |- _ => apply called_iff in X; rewrite X end.
        apply IH. exists b, t', a, v2, w2. auto.
Qed.
Lemma new_pipeline_tasks {O W} (ts : list (task O W)) : forall p, p_tasks (fold_left (fun p t => add_task t p) ts p) = p_tasks p ++ ts.
Proof.
  induction ts as [|t ts IH]; intros p; cbn; [rewrite app_nil_r; reflexivity|].
  rewrite IH. cbn. rewrite <-app_assoc. reflexivity.
Qed.
Lemma pipeline_ok {O W} (ts : list (task O W)) v w v' w' : pipeline_run (new_pipeline ts) v w = (w', Ok v') <-> feeds ts v w v' w'.
Proof. unfold pipeline_run, new_pipeline. rewrite new_pipeline_tasks. apply run_ok. Qed.
Lemma pipeline_err {O W} (ts : list (task O W)) v w w' e : pipeline_run (new_pipeline ts) v w = (w', Err e) <-> stops ts v w w' e.
Proof. unfold pipeline_run, new_pipeline. rewrite new_pipeline_tasks. apply run_err. Qed.
Lemma pop_add {O W} (t : task O W) p : p_attrs p !! t_name t = None -> pop_task (add_task t p) = (p, Ok t).
Proof.
  intros E. unfold pop_task, add_task. cbn. rewrite rev_app_distr. cbn. rewrite lookup_insert.
  rewrite rev_involutive, delete_insert by exact E. destruct p; reflexivity.
Qed.
Lemma pop_tasks {O W} (t : task O W) p : exists p', pop_task (add_task t p) = (p', Ok t) /\ p_tasks p' = p_tasks p.
Proof.
  unfold pop_task, add_task. cbn. rewrite rev_app_distr. cbn. rewrite lookup_insert. eexists. split; [reflexivity|].
  cbn. apply rev_involutive.
Qed.

(** *** Exceptions *)

Section Run.
  Context {O W : Type} (say : Z -> str -> W -> W) (empty : O).
  Lemma app_ok (ts : list (task O W)) v w v' w' : feeds ts v w v' w' ->
    app_run say empty (new_pipeline ts) v w = (say INFO_LVL (lit "Done.") w', Ok v').
  Proof. intros F. apply pipeline_ok in F. unfold app_run. rewrite F. reflexivity. Qed.
  Lemma app_parser (ts : list (task O W)) v w w' msg : stops ts v w w' (EParser msg) ->
    app_run say empty (new_pipeline ts) v w = (say ERROR_LVL (lit "There was an error: " ++ msg) w', Ok (PObj empty)).
  Proof. intros F. apply pipeline_err in F. unfold app_run. rewrite F. reflexivity. Qed.
  Lemma app_other (ts : list (task O W)) v w w' e : stops ts v w w' e -> (forall msg, e <> EParser msg) ->
    app_run say empty (new_pipeline ts) v w = (w', Err e).
  Proof.
    intros F N. apply pipeline_err in F. unfold app_run. rewrite F. destruct e; try reflexivity. destruct (N _ eq_refl).
  Qed.
  (** There is no other outcome. *)
  Lemma app_cases (ts : list (task O W)) v w : (exists v' w', feeds ts v w v' w') \/ (exists w' e, stops ts v w w' e).
  Proof.
    destruct (run_tasks ts v w) as [w' [v'|e]] eqn:E; [left|right].
    - exists v', w'. apply run_ok. exact E.
    - exists w', e. apply run_err. exact E.
  Qed.
End Run.

(** ** Sources *)

Lemma truthy_path_iff p : truthy_path p = true <-> path_given p.
Proof.
  destruct p as [|[|c s]|s]; cbn; split; intros H; try discriminate; try reflexivity.
  - destruct H as [H _]. exfalso. apply H. reflexivity.
  - destruct H as [_ H]. exfalso. apply H. reflexivity.
  - split; intros K; discriminate K.
  - split; intros K; discriminate K.
Qed.
Lemma truthy_str_iff s : truthy_str s = true <-> plain_given s.
Proof. destruct s; cbn; split; intros H; try discriminate; try reflexivity. exfalso. apply H. reflexivity. Qed.
Lemma config_ok l f a b g : In f (map lit ["plain"; "rsm"; "json"; "lint"]) -> exists g', config_rsm_logger l f a b g = (g', Ok tt).
Proof.
  intros I. unfold config_rsm_logger. destruct (str_mem f formats) eqn:E; [eexists; reflexivity|]. exfalso.
  rewrite <-Bool.not_true_iff_false in E. apply E. apply str_mem_In. unfold formats. cbn in I |- *. tauto.
Qed.
Lemma parser_one_source : one_source parser_app.
Proof.
  intros p s c g K. split.
  - intros E. unfold parser_app.
    assert (X : (negb (truthy_path p) && negb (truthy_str s) || truthy_path p && truthy_str s)%bool = false).
    { destruct (truthy_path p) eqn:P, (truthy_str s) eqn:S; try reflexivity; exfalso;
      (destruct E as [[A B]|[A B]]; [apply truthy_path_iff in A|apply truthy_str_iff in B]); try congruence.
      - apply B, truthy_str_iff, S.
      - apply A, truthy_path_iff, P. }
    rewrite X. unfold rsm_app. destruct (config_ok (lc_level c) (lc_format c) (lc_time c) (lc_lineno c) g K) as [g' ->]. eauto.
  - intros E. unfold parser_app. eexists.
    assert (X : (negb (truthy_path p) && negb (truthy_str s) || truthy_path p && truthy_str s)%bool = true).
    { destruct (truthy_path p) eqn:P, (truthy_str s) eqn:S; try reflexivity; exfalso; apply E.
      - left. split; [apply truthy_path_iff, P|]. intros Q. apply truthy_str_iff in Q. congruence.
      - right. split; [|apply truthy_str_iff, S]. intros Q. apply truthy_path_iff in Q. congruence. }
    rewrite X. reflexivity.
Qed.
Ltac src_tac H p s c g K :=
  destruct (H p s c g K) as [A B]; split;
  [intros E; destruct (A E) as (g' & l & ->)|intros E; destruct (B E) as [msg ->]; eexists; reflexivity].
Lemma linter_one_source : one_source linter_app.
Proof.
  intros p s c g K. unfold linter_app.
  destruct (parser_one_source p s (MkLC LINT_LVL (lc_format c) (lc_time c) (lc_lineno c)) g K) as [A B]. split.
  - intros E. destruct (A E) as (g' & l & ->). eauto.
  - intros E. destruct (B E) as [msg ->]. eauto.
Qed.
Lemma processor_one_source h a r : one_source (fun p s c => processor_app p s c h a r).
Proof.
  intros p s c g K. unfold processor_app. destruct (parser_one_source p s c g K) as [A B]. split.
  - intros E. destruct (A E) as (g' & l & ->). destruct r; eauto.
  - intros E. destruct (B E) as [msg ->]. eauto.
Qed.
Lemma full_one_source h r : one_source (fun p s c => full_build_app p s c h r).
Proof.
  intros p s c g K. unfold full_build_app.
  destruct (processor_one_source r true false p s (MkLC (lc_level c) (lc_format c) (lc_time c) h) g K) as [A B]. split.
  - intros E. destruct (A E) as (g' & l & ->). eauto.
  - intros E. destruct (B E) as [msg ->]. eauto.
Qed.
(** The first stage: the source that was given. *)
Lemma parser_stages p s c g g' l : parser_app p s c g = (g', Ok l) ->
  l = (if truthy_str s then SPlain s else SRead p) :: [SParse; STransform].
Proof.
  unfold parser_app. destruct (_ || _)%bool; [discriminate|]. unfold rsm_app.
  destruct (config_rsm_logger _ _ _ _ g) as [g1 [u|e]]; [|discriminate]. intros [= _ <-]. reflexivity.
Qed.
Lemma linter_stages p s c g g' l : linter_app p s c g = (g', Ok l) ->
  l = [if truthy_str s then SPlain s else SRead p; SParse; STransform; SLint].
Proof.
  unfold linter_app. destruct (parser_app _ _ _ g) as [g1 [l1|e]] eqn:E; [|discriminate]. intros [= _ <-].
  apply parser_stages in E. subst. reflexivity.
Qed.
Lemma processor_stages p s c h a r g g' l : processor_app p s c h a r g = (g', Ok l) ->
  l = [if truthy_str s then SPlain s else SRead p; SParse; STransform] ++ (if r then [SLint] else []) ++ [STranslate h (h && a)].
Proof.
  unfold processor_app. destruct (parser_app _ _ _ g) as [g1 [l1|e]] eqn:E; [|discriminate].
  apply parser_stages in E. subst. destruct r; intros [= _ <-]; reflexivity.
Qed.
Lemma full_stages p s c h r g g' l : full_build_app p s c h r g = (g', Ok l) ->
  l = [if truthy_str s then SPlain s else SRead p; SParse; STransform; STranslate r r; SBuild; SWrite].
Proof.
  unfold full_build_app. destruct (processor_app _ _ _ _ _ _ g) as [g1 [l1|e]] eqn:E; [|discriminate].
  apply processor_stages in E. subst. intros [= _ <-]. destruct r; reflexivity.
Qed.

(** ** Logging *)

Lemma config_inv l f a b g g' : config_rsm_logger l f a b g = (g', Ok tt) ->
  g' = MkG (Z.max l 10) [HStream (if Z.max l 10 <? 30 then Z.max l 10 else 30)%Z f a b] (g_out g).
Proof.
  unfold config_rsm_logger. destruct (str_mem f formats); [|discriminate]. intros [= <-]. cbn.
  unfold set_level, DEBUG_LVL, WARNING_LVL. cbn. destruct (_ <? _)%Z; reflexivity.
Qed.
Lemma config_shown l f a b g g' lvl : config_rsm_logger l f a b g = (g', Ok tt) -> (Z.max 10 l <= lvl)%Z -> shown g' lvl.
Proof.
  intros C L msg. apply config_inv in C. subst g'. unfold log_at. cbn -[Z.leb Z.ltb Z.max].
  replace (Z.max l 10 <=? lvl)%Z with true by (symmetry; apply Z.leb_le; lia).
  destruct (Z.max l 10 <? 30)%Z eqn:E; cbn -[Z.leb Z.max].
  - replace (Z.max l 10 <=? lvl)%Z with true by (symmetry; apply Z.leb_le; lia). reflexivity.
  - replace (30 <=? lvl)%Z with true by (symmetry; apply Z.leb_le; apply Z.ltb_ge in E; lia). reflexivity.
Qed.
Lemma config_hidden l f a b g g' lvl : config_rsm_logger l f a b g = (g', Ok tt) -> (lvl < Z.max 10 l)%Z -> hidden g' lvl.
Proof.
  intros C L msg. apply config_inv in C. subst g'. unfold log_at. cbn -[Z.leb Z.ltb Z.max].
  replace (Z.max l 10 <=? lvl)%Z with false by (symmetry; apply Z.leb_gt; lia). reflexivity.
Qed.
Lemma log_at_conf lvl msg g : g_level (log_at lvl msg g) = g_level g /\ g_handlers (log_at lvl msg g) = g_handlers g.
Proof. unfold log_at. destruct (_ <=? _)%Z; auto. Qed.
(** Whether a record is shown depends on the configuration only. *)
Lemma shown_conf g g' lvl : g_level g = g_level g' -> g_handlers g = g_handlers g' -> shown g lvl -> shown g' lvl.
Proof.
  intros A B H msg. specialize (H msg). unfold log_at in *. rewrite <-A, <-B.
  destruct (_ <=? _)%Z; cbn in *.
  - apply app_inv_head in H. rewrite H. reflexivity.
  - apply (f_equal (@length _)) in H. rewrite app_length in H. cbn in H. lia.
Qed.
Lemma hidden_conf g g' lvl : g_level g = g_level g' -> g_handlers g = g_handlers g' -> hidden g lvl -> hidden g' lvl.
Proof.
  intros A B H msg. specialize (H msg). unfold log_at in *. rewrite <-A, <-B.
  destruct (_ <=? _)%Z; cbn in *; [|reflexivity].
  rewrite <-(app_nil_r (g_out g)) in H at 2. apply app_inv_head in H. rewrite H, app_nil_r. reflexivity.
Qed.
Lemma parser_conf p s c g g' l : parser_app p s c g = (g', Ok l) ->
  exists g1, config_rsm_logger (lc_level c) (lc_format c) (lc_time c) (lc_lineno c) g = (g1, Ok tt) /\
    g_level g1 = g_level g' /\ g_handlers g1 = g_handlers g'.
Proof.
  unfold parser_app. destruct (_ || _)%bool; [discriminate|]. unfold rsm_app.
  destruct (config_rsm_logger _ _ _ _ g) as [g1 [[]|e]]; [|discriminate]. intros [= <- _]. exists g1.
  split; [reflexivity|]. split.
  - rewrite (proj1 (log_at_conf _ _ _)), (proj1 (log_at_conf _ _ _)). reflexivity.
  - rewrite (proj2 (log_at_conf _ _ _)), (proj2 (log_at_conf _ _ _)). reflexivity.
Qed.
Lemma parser_shown p s c g g' l lvl : parser_app p s c g = (g', Ok l) ->
  ((Z.max 10 (lc_level c) <= lvl)%Z -> shown g' lvl) /\ ((lvl < Z.max 10 (lc_level c))%Z -> hidden g' lvl).
Proof.
  intros H. destruct (parser_conf _ _ _ _ _ _ H) as (g1 & C & A & B). split; intros L.
  - exact (shown_conf g1 g' lvl A B (config_shown _ _ _ _ _ _ _ C L)).
  - exact (hidden_conf g1 g' lvl A B (config_hidden _ _ _ _ _ _ _ C L)).
Qed.
Lemma processor_shown p s c h a g g' l lvl : processor_app p s c h a false g = (g', Ok l) ->
  ((Z.max 10 (lc_level c) <= lvl)%Z -> shown g' lvl) /\ ((lvl < Z.max 10 (lc_level c))%Z -> hidden g' lvl).
Proof.
  unfold processor_app. destruct (parser_app _ _ _ g) as [g1 [l1|e]] eqn:E; [|discriminate]. intros [= <- _].
  exact (parser_shown _ _ _ _ _ _ lvl E).
Qed.
Lemma full_shown p s c h r g g' l lvl : full_build_app p s c h r g = (g', Ok l) ->
  ((Z.max 10 (lc_level c) <= lvl)%Z -> shown g' lvl) /\ ((lvl < Z.max 10 (lc_level c))%Z -> hidden g' lvl).
Proof.
  unfold full_build_app. destruct (processor_app _ _ _ _ _ _ g) as [g1 [l1|e]] eqn:E; [|discriminate]. intros [= <- _].
  exact (processor_shown _ _ _ _ _ _ _ _ lvl E).
Qed.
(** The linter's application shows lint messages and everything above, whatever level is asked for. *)
Lemma linter_shown p s c g g' l lvl : linter_app p s c g = (g', Ok l) ->
  ((LINT_LVL <= lvl)%Z -> shown g' lvl) /\ ((lvl < LINT_LVL)%Z -> hidden g' lvl).
Proof.
  unfold linter_app. destruct (parser_app _ _ _ g) as [g1 [l1|e]] eqn:E; [|discriminate]. intros [= <- _].
  destruct (parser_shown _ _ _ _ _ _ lvl E) as [A B]. destruct (parser_conf _ _ _ _ _ _ E) as (g2 & C & X & Y).
  apply config_inv in C. subst g2. cbn -[Z.max] in X. unfold LINT_LVL in *. cbn in X.
  assert (N : new_linter g1 = g1). { unfold new_linter, LINT_LVL. rewrite <-X. reflexivity. }
  rewrite N. cbn in A, B. split; intros L; [apply A|apply B]; lia.
Qed.
(** With the linter in a processor, lint messages are shown iff the level asked for is at most theirs. *)
Lemma processor_lint_shown p s c h a g g' l : processor_app p s c h a true g = (g', Ok l) ->
  ((lc_level c <= LINT_LVL)%Z -> shown g' LINT_LVL) /\ ((LINT_LVL < lc_level c)%Z -> hidden g' LINT_LVL).
Proof.
  unfold processor_app. destruct (parser_app _ _ _ g) as [g1 [l1|e]] eqn:E; [|discriminate]. intros [= <- _].
  destruct (parser_shown _ _ _ _ _ _ LINT_LVL E) as [A B]. destruct (parser_conf _ _ _ _ _ _ E) as (g2 & C & X & Y).
  apply config_inv in C. subst g2. cbn -[Z.max Z.ltb] in X, Y. unfold LINT_LVL in *. split; intros L.
  - unfold new_linter, LINT_LVL. rewrite <-X. replace (25 <? Z.max (lc_level c) 10)%Z with false by (symmetry; apply Z.ltb_ge; lia).
    apply A. lia.
  - unfold new_linter, LINT_LVL. rewrite <-X. replace (25 <? Z.max (lc_level c) 10)%Z with true by (symmetry; apply Z.ltb_lt; lia).
    intros msg. unfold log_at. cbn. rewrite <-Y. cbn -[Z.ltb Z.max Z.leb].
    destruct (Z.max (lc_level c) 10 <? 30)%Z.
    + replace (Z.max (lc_level c) 10 <=? 25)%Z with false by (symmetry; apply Z.leb_gt; lia). cbn. apply app_nil_r.
    + cbn. apply app_nil_r.
Qed.

(** *** GatherHandler *)

Definition reliable (ok : nat -> rec -> bool) : Prop := forall t r, ok t r = true.
Lemma handle_all_ok ok t l : reliable ok -> forall sent, handle_all ok t l sent = (sent ++ map (pair t) l, true).
Proof.
  intros R. induction l as [|r l IH]; intros sent; cbn; [rewrite app_nil_r; reflexivity|].
  rewrite R, IH, <-app_assoc. reflexivity.
Qed.
Lemma flush_ok ok g t : reliable ok -> gh_target g = Some t ->
  gather_flush ok g = (MkGather (gh_levels g) [] (Some t) (gh_sent g ++ map (pair t) (gh_buffer g)), Ok tt).
Proof. intros R T. unfold gather_flush. rewrite T, (handle_all_ok ok t _ R). reflexivity. Qed.
Lemma gather_gen ok : reliable ok -> forall l g,
  map snd (gh_sent (gcalls_run ok l g)) ++ gh_buffer (gcalls_run ok l g) =
    (map snd (gh_sent g) ++ gh_buffer g) ++ emitted (gh_levels g) l /\
  gh_target (gcalls_run ok l g) = last_target (gh_target g) l /\ gh_levels (gcalls_run ok l g) = gh_levels g.
Proof.
  intros R. assert (F : forall g, map snd (gh_sent (fst (gather_flush ok g))) ++ gh_buffer (fst (gather_flush ok g)) = map snd (gh_sent g) ++ gh_buffer g /\
    gh_target (fst (gather_flush ok g)) = gh_target g /\ gh_levels (fst (gather_flush ok g)) = gh_levels g).
  { intros g. destruct (gh_target g) as [t|] eqn:T.
    - rewrite (flush_ok ok g t R T). cbn. split; [|auto]. rewrite app_nil_r, map_app, map_map. cbn. rewrite map_id. reflexivity.
    - unfold gather_flush. rewrite T. auto. }
  induction l as [|c l IH]; intros g; cbn; [rewrite app_nil_r; auto|].
  unfold gcalls_run in IH. destruct (IH (gcall_run ok c g)) as (A & B & C). rewrite A, B, C. destruct c as [r|t| |]; cbn.
  - unfold gather_emit. destruct (existsb _ _); cbn; [|auto]. split; [|auto]. rewrite <-!app_assoc. reflexivity.
  - auto.
  - destruct (F g) as (X & Y & Z). rewrite X, Y, Z. auto.
  - destruct (F g) as (X & Y & Z). unfold gather_close. rewrite X, Y, Z. auto.
Qed.
Lemma gather_once ok levels t l : reliable ok ->
  map snd (gh_sent (gcalls_run ok l (new_gather levels t))) ++ gh_buffer (gcalls_run ok l (new_gather levels t)) = emitted levels l.
Proof. intros R. destruct (gather_gen ok R l (new_gather levels t)) as (A & _). rewrite A. reflexivity. Qed.
Lemma gcalls_app ok a b g : gcalls_run ok (a ++ b) g = gcalls_run ok b (gcalls_run ok a g).
Proof. unfold gcalls_run. apply fold_left_app. Qed.
Lemma gather_flushed ok levels t l c u : reliable ok -> c = GFlush \/ c = GClose -> last_target t l = Some u ->
  gh_buffer (gcalls_run ok (l ++ [c]) (new_gather levels t)) = [] /\
  map snd (gh_sent (gcalls_run ok (l ++ [c]) (new_gather levels t))) = emitted levels l /\
  gh_sent (gcalls_run ok (l ++ [c]) (new_gather levels t)) =
    gh_sent (gcalls_run ok l (new_gather levels t)) ++ map (pair u) (gh_buffer (gcalls_run ok l (new_gather levels t))).
Proof.
  intros R C T. rewrite gcalls_app. destruct (gather_gen ok R l (new_gather levels t)) as (A & B & D). cbn in A, B, D.
  rewrite T in B. set (g := gcalls_run ok l (new_gather levels t)) in *.
  assert (E : gcalls_run ok [c] g = MkGather (gh_levels g) [] (Some u) (gh_sent g ++ map (pair u) (gh_buffer g))).
  { destruct C as [-> | ->]; cbn; unfold gather_close; rewrite (flush_ok ok g u R B); reflexivity. }
  rewrite E. cbn. split; [reflexivity|]. split; [|reflexivity]. rewrite map_app, map_map. cbn. rewrite map_id. exact A.
Qed.
Lemma gather_kept ok levels t l : reliable ok -> (forall a b, l = a ++ b -> last_target t a = None) ->
  gh_sent (gcalls_run ok l (new_gather levels t)) = [] /\ gh_buffer (gcalls_run ok l (new_gather levels t)) = emitted levels l.
Proof.
  intros R. induction l as [|c l IH] using rev_ind; intros H; [auto|].
  assert (P : forall a b, l = a ++ b -> last_target t a = None).
  { intros a b ->. apply (H a (b ++ [c])). rewrite app_assoc. reflexivity. }
  destruct (IH P) as [A B]. pose proof (gather_once ok levels t (l ++ [c]) R) as O.
  assert (S : gh_sent (gcalls_run ok (l ++ [c]) (new_gather levels t)) = []).
  { rewrite gcalls_app. destruct (gather_gen ok R l (new_gather levels t)) as (_ & T & _). cbn in T.
    rewrite (P l [] ltac:(rewrite app_nil_r; reflexivity)) in T.
    destruct c as [r|u| |]; cbn.
    - unfold gather_emit. destruct (existsb _ _); exact A.
    - exact A.
    - unfold gather_flush. rewrite T. exact A.
    - unfold gather_close, gather_flush. rewrite T. exact A. }
  rewrite S in O. cbn in O. auto.
Qed.
(** A target that raises is given the records before it once more. *)
Lemma gather_twice_ex : exists ok levels t l, ~ NoDup (map snd (gh_sent (gcalls_run ok l (new_gather levels t)))) /\ NoDup (emitted levels l).
Proof.
  exists (fun _ r => (r_level r =? 30)%Z), [30; 40]%Z, (Some 0),
    [GEmit (MkRec 30 (lit "a")); GEmit (MkRec 40 (lit "b")); GFlush; GFlush].
  split.
  - vm_compute. intros H. inversion H as [|x l N _]. apply N. left.
  - vm_compute. repeat constructor; rewrite ?elem_of_list_In; cbn; intuition discriminate.
Qed.

(** ** The command line *)

Lemma apply_flags fs : forall o,
  o_src (fold_left apply_flag fs o) = o_src o /\
  (o_string (fold_left apply_flag fs o) = true <-> o_string o = true \/ In FString fs) /\
  (o_handrails (fold_left apply_flag fs o) = true <-> o_handrails o = true \/ In FHandrails fs) /\
  (o_silent (fold_left apply_flag fs o) = true <-> o_silent o = true \/ In FSilent fs) /\
  o_verbose (fold_left apply_flag fs o) = o_verbose o + count_v fs /\
  (o_time (fold_left apply_flag fs o) = true <-> o_time o = true /\ ~ In FNoTimestamps fs) /\
  (o_lineno (fold_left apply_flag fs o) = true <-> o_lineno o = true /\ ~ In FNoLineno fs).
Proof.
  induction fs as [|f fs IH]; intros o; cbn [fold_left].
  - cbn. rewrite Nat.add_0_r. tauto.
  - destruct (IH (apply_flag o f)) as (A & B & C & D & E & F & G). rewrite A, B, C, D, E, F, G. clear.
    destruct f; cbn; (repeat split); try lia; intuition (try discriminate; try congruence).
Qed.
Lemma apply_format fs : forall o, format_given fs (o_format o) (o_format (fold_left apply_flag fs o)).
Proof.
  induction fs as [|f fs IH]; intros o; cbn [fold_left].
  - left. split; [reflexivity|]. intros f' [].
  - destruct (IH (apply_flag o f)) as [[E N]|(a & b & E & N)].
    + rewrite E. destruct f; cbn; try (left; split; [reflexivity|]; intros f' [X|X]; [discriminate X|exact (N _ X)]).
      right. exists [], fs. auto.
    + right. exists (f :: a), b. split; [|exact N]. rewrite E at 1. reflexivity.
Qed.
Lemma main_prints {W} (func : kwargs -> W -> W * res output) o w w' out : func (kwargs_of o) w = (w', Ok out) ->
  exists p, cli_main func o w = (w', Ok (p, 0%Z)) /\ (p = Some out <-> o_silent o = false /\ out <> ONone /\ out <> OStr []) /\
    (p <> Some out -> p = None).
Proof.
  intros E. unfold cli_main. rewrite E. eexists. split; [reflexivity|].
  destruct (o_silent o); cbn.
  - split; [|auto]. split; [discriminate|]. intros (X & _). discriminate X.
  - destruct out as [|[|c s]|]; cbn.
    + split; [|auto]. split; [discriminate|]. intros (_ & X & _). exfalso. apply X. reflexivity.
    + split; [|auto]. split; [discriminate|]. intros (_ & _ & X). exfalso. apply X. reflexivity.
    + split; [|intros X; exfalso; apply X; reflexivity]. split; [|reflexivity]. intros _. split; [reflexivity|]. split; intros K; discriminate K.
    + split; [|intros X; exfalso; apply X; reflexivity]. split; [|reflexivity]. intros _. split; [reflexivity|]. split; intros K; discriminate K.
Qed.
Lemma main_raises {W} (func : kwargs -> W -> W * res output) o w w' e : func (kwargs_of o) w = (w', Err e) ->
  cli_main func o w = (w', Err e).
Proof. intros E. unfold cli_main. rewrite E. reflexivity. Qed.
