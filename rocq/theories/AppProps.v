(** The properties C55-C63 of applications, from AppProofs. *)
From Coq Require Import ZArith Lia.
From Verif Require Export AppProofs.
Local Open Scope string_scope.
Local Open Scope list_scope.

Lemma make_stages source path h lint c g g' l : make_app source path h lint c g = (g', Ok l) ->
  (exists a, In (STranslate lint a) l) /\ ~ In SLint l /\ ~ (exists a, In (STranslate (negb lint) a) l).
Proof.
  intros H. apply full_stages in H. subst l. split; [exists lint; cbn; auto 10|].
  destruct (truthy_str source), lint; cbn; split; intuition (try discriminate); (destruct H as [a H]; intuition discriminate).
Qed.
Lemma make_lint_ex : exists h c g g' l, make_app (lit "a") [] h true c g = (g', Ok l) /\ ~ In SLint l.
Proof.
  exists true, (MkLC 30 (lit "rsm") true true), initial_log. eexists _, _. split; [vm_compute; reflexivity|].
  vm_compute. intuition discriminate.
Qed.
Lemma make_handrails_ex : exists c g g' l, make_app (lit "a") [] true false c g = (g', Ok l) /\ In (STranslate false false) l.
Proof.
  exists (MkLC 30 (lit "rsm") true true), initial_log. eexists _, _. split; [vm_compute; reflexivity|]. vm_compute. auto 10.
Qed.
Lemma make_handrails_ex2 : exists c g g' l, make_app (lit "a") [] false true c g = (g', Ok l) /\ In (STranslate true true) l.
Proof.
  exists (MkLC 30 (lit "rsm") true true), initial_log. eexists _, _. split; [vm_compute; reflexivity|]. vm_compute. auto 10.
Qed.
Lemma processor_lint_hidden_ex : exists p s c g g' l, processor_app p s c false false true g = (g', Ok l) /\
  In SLint l /\ lc_level c = WARNING_LVL /\ hidden g' LINT_LVL.
Proof.
  exists NoPath, (lit "a"), (MkLC 30 (lit "rsm") true true), initial_log.
  destruct (processor_app NoPath (lit "a") (MkLC 30 (lit "rsm") true true) false false true initial_log) as [g' [l|e]] eqn:E;
    [|vm_compute in E; discriminate E].
  exists g', l. split; [reflexivity|]. split; [apply processor_stages in E; subst l; cbn; auto 10|]. split; [reflexivity|].
  apply (processor_lint_shown _ _ _ _ _ _ _ _ E). reflexivity.
Qed.
Lemma linter_level_ex : exists p s c g g' l, linter_app p s c g = (g', Ok l) /\
  (lc_level c <= DEBUG_LVL)%Z /\ hidden g' INFO_LVL.
Proof.
  exists NoPath, (lit "a"), (MkLC 10 (lit "lint") true true), initial_log.
  destruct (linter_app NoPath (lit "a") (MkLC 10 (lit "lint") true true) initial_log) as [g' [l|e]] eqn:E; [|vm_compute in E; discriminate E].
  exists g', l. split; [reflexivity|]. split; [cbn; unfold DEBUG_LVL; lia|].
  apply (linter_shown _ _ _ _ _ _ _ E). reflexivity.
Qed.
Lemma pop_add_ex : exists (t : task nat unit) p, fst (pop_task (add_task t p)) <> p.
Proof.
  exists (MkTask (lit "x") (PObj 2) (fun _ _ w => (w, Ok PNone))),
    (new_pipeline [MkTask (lit "x") (PObj 1) (fun _ _ w => (w, Ok PNone))]).
  intros H. apply (f_equal (fun p => p_attrs p !! lit "x")) in H. vm_compute in H. discriminate H.
Qed.

(** ** The command line *)

Lemma kw_source d src fs : o_src (d src) = src -> o_string (d src) = false ->
  let k := kwargs_of (parse_args d src fs) in
  (In FString fs -> k_source k = src /\ k_path k = []) /\ (~ In FString fs -> k_source k = [] /\ k_path k = src).
Proof.
  intros A B. unfold parse_args. destruct (apply_flags fs (d src)) as (S & T & _). rewrite A in S. rewrite B in T.
  unfold kwargs_of. cbn. rewrite S. destruct (o_string (fold_left apply_flag fs (d src))); split; intros H; cbn; auto.
  - exfalso. apply H. destruct T as [T _]. destruct (T eq_refl) as [X|X]; [discriminate X|exact X].
  - exfalso. destruct T as [_ T]. specialize (T (or_intror H)). discriminate T.
Qed.
Lemma kw_level d src fs : o_verbose (d src) = 0 ->
  lc_level (k_log (kwargs_of (parse_args d src fs))) = (30 - 10 * Z.of_nat (count_v fs))%Z.
Proof.
  intros A. unfold parse_args. destruct (apply_flags fs (d src)) as (_ & _ & _ & _ & V & _). unfold kwargs_of, WARNING_LVL. cbn.
  rewrite V, A. lia.
Qed.
Lemma kw_time d src fs : o_time (d src) = true -> lc_time (k_log (kwargs_of (parse_args d src fs))) = true <-> ~ In FNoTimestamps fs.
Proof. intros A. unfold parse_args. destruct (apply_flags fs (d src)) as (_ & _ & _ & _ & _ & V & _). unfold kwargs_of. cbn. rewrite V, A. tauto. Qed.
Lemma kw_lineno d src fs : o_lineno (d src) = true -> lc_lineno (k_log (kwargs_of (parse_args d src fs))) = true <-> ~ In FNoLineno fs.
Proof. intros A. unfold parse_args. destruct (apply_flags fs (d src)) as (_ & _ & _ & _ & _ & _ & V). unfold kwargs_of. cbn. rewrite V, A. tauto. Qed.
Lemma kw_format d src fs : format_given fs (o_format (d src)) (lc_format (k_log (kwargs_of (parse_args d src fs)))).
Proof. apply apply_format. Qed.
Lemma kw_handrails d src fs : k_handrails (kwargs_of (parse_args d src fs)) = true <-> o_handrails (d src) = true \/ In FHandrails fs.
Proof. unfold parse_args. destruct (apply_flags fs (d src)) as (_ & _ & V & _). unfold kwargs_of. cbn. exact V. Qed.
Lemma silent_flag d src fs : o_silent (parse_args d src fs) = true <-> o_silent (d src) = true \/ In FSilent fs.
Proof. unfold parse_args. destruct (apply_flags fs (d src)) as (_ & _ & _ & V & _). exact V. Qed.

(** Which source a command reads. *)
Lemma source_stage d src fs : src <> [] -> o_src (d src) = src -> o_string (d src) = false ->
  let k := kwargs_of (parse_args d src fs) in
  (if truthy_str (k_source k) then SPlain (k_source k) else SRead (PathStr (k_path k))) =
  (if existsb (fun f => match f with FString => true | _ => false end) fs then SPlain src else SRead (PathStr src)).
Proof.
  intros N A B k. destruct (kw_source d src fs A B) as [X Y]. fold k in X, Y.
  destruct (existsb _ fs) eqn:E.
  - destruct X as [X1 X2]. { apply existsb_exists in E. destruct E as (f & I & F). destruct f; try discriminate F. exact I. }
    rewrite X1. destruct src; [destruct (N eq_refl)|reflexivity].
  - destruct Y as [Y1 Y2]. { intros I. rewrite <-not_true_iff_false in E. apply E, existsb_exists. exists FString. auto. }
    rewrite Y1, Y2. reflexivity.
Qed.
Lemma in_string_iff fs : existsb (fun f => match f with FString => true | _ => false end) fs = true <-> In FString fs.
Proof.
  rewrite existsb_exists. split.
  - intros (f & I & F). destruct f; try discriminate F. exact I.
  - intros I. exists FString. auto.
Qed.
Lemma cli_render_does src fs g g' l : src <> [] -> cli_render_app src fs g = (g', Ok l) ->
  exists s h, l = [s; SParse; STransform; STranslate h false] /\
    (In FString fs -> s = SPlain src) /\ (~ In FString fs -> s = SRead (PathStr src)) /\ (h = true <-> In FHandrails fs) /\
    (forall lvl, (Z.max 10 (30 - 10 * Z.of_nat (count_v fs)) <= lvl)%Z -> shown g' lvl) /\
    (forall lvl, (lvl < Z.max 10 (30 - 10 * Z.of_nat (count_v fs)))%Z -> hidden g' lvl).
Proof.
  intros N H. unfold cli_render_app, render_app in H. pose proof H as H0. apply processor_stages in H.
  rewrite (source_stage render_defaults src fs N eq_refl eq_refl) in H. eexists _, _. split; [rewrite H, Bool.andb_false_r; reflexivity|].
  split; [intros I; apply in_string_iff in I; rewrite I; reflexivity|].
  split. { intros I. destruct (existsb _ fs) eqn:E; [exfalso; apply I, in_string_iff, E|reflexivity]. }
  split. { rewrite kw_handrails. cbn. intuition discriminate. }
  rewrite <-(kw_level render_defaults src fs eq_refl).
  split; intros lvl; apply (processor_shown _ _ _ _ _ _ _ _ lvl H0).
Qed.
Lemma cli_make_does src fs g g' l : src <> [] -> cli_make_app src fs g = (g', Ok l) ->
  exists s, l = [s; SParse; STransform; STranslate true true; SBuild; SWrite] /\
    (In FString fs -> s = SPlain src) /\ (~ In FString fs -> s = SRead (PathStr src)) /\
    (forall lvl, (Z.max 10 (30 - 10 * Z.of_nat (count_v fs)) <= lvl)%Z -> shown g' lvl) /\
    (forall lvl, (lvl < Z.max 10 (30 - 10 * Z.of_nat (count_v fs)))%Z -> hidden g' lvl).
Proof.
  intros N H. unfold cli_make_app, make_app in H. pose proof H as H0. apply full_stages in H.
  rewrite (source_stage make_defaults src fs N eq_refl eq_refl) in H. eexists. split; [exact H|].
  split; [intros I; apply in_string_iff in I; rewrite I; reflexivity|].
  split. { intros I. destruct (existsb _ fs) eqn:E; [exfalso; apply I, in_string_iff, E|reflexivity]. }
  rewrite <-(kw_level make_defaults src fs eq_refl).
  split; intros lvl; apply (full_shown _ _ _ _ _ _ _ _ lvl H0).
Qed.
Lemma cli_lint_does src fs g g' l : src <> [] -> cli_lint_app src fs g = (g', Ok l) ->
  exists s, l = [s; SParse; STransform; SLint] /\
    (In FString fs -> s = SPlain src) /\ (~ In FString fs -> s = SRead (PathStr src)) /\
    (forall lvl, (LINT_LVL <= lvl)%Z -> shown g' lvl) /\ (forall lvl, (lvl < LINT_LVL)%Z -> hidden g' lvl).
Proof.
  intros N H. unfold cli_lint_app, lint_app in H. pose proof H as H0. apply linter_stages in H.
  rewrite (source_stage lint_defaults src fs N eq_refl eq_refl) in H. eexists. split; [exact H|].
  split; [intros I; apply in_string_iff in I; rewrite I; reflexivity|].
  split. { intros I. destruct (existsb _ fs) eqn:E; [exfalso; apply I, in_string_iff, E|reflexivity]. }
  split; intros lvl; apply (linter_shown _ _ _ _ _ _ lvl H0).
Qed.
(** The format asked for is known, hence the application is built. *)
Lemma cli_builds (app : str -> list flag -> built_app) d src fs g :
  (app = cli_render_app /\ d = render_defaults) \/ (app = cli_make_app /\ d = make_defaults) \/ (app = cli_lint_app /\ d = lint_defaults) ->
  src <> [] -> (forall f, In (FFormat f) fs -> In f (map lit ["plain"; "rsm"; "json"; "lint"])) -> exists g' l, app src fs g = (g', Ok l).
Proof.
  intros C N F.
  assert (K : forall d, (d = render_defaults \/ d = make_defaults \/ d = lint_defaults) -> known_format (k_log (kwargs_of (parse_args d src fs))) /\
     exactly_one (path_given (PathStr (k_path (kwargs_of (parse_args d src fs))))) (plain_given (k_source (kwargs_of (parse_args d src fs))))).
  { intros d' D. split.
    - unfold known_format. destruct (kw_format d' src fs) as [[E _]|(a & b & E & _)].
      + rewrite E. destruct D as [-> | [-> | ->]]; cbn; auto.
      + apply F. set (f := lc_format _) in *. rewrite E. apply in_or_app. right. left. reflexivity.
    - assert (A : o_src (d' src) = src /\ o_string (d' src) = false) by (destruct D as [-> | [-> | ->]]; auto).
      destruct (kw_source d' src fs (proj1 A) (proj2 A)) as [X Y].
      destruct (existsb (fun f => match f with FString => true | _ => false end) fs) eqn:E.
      + apply in_string_iff in E. destruct (X E) as [-> ->]. right. split; [|exact N]. intros [_ Q]. apply Q. reflexivity.
      + destruct Y as [-> ->]. { intros I. apply in_string_iff in I. congruence. }
        left. split; [|intros Q; apply Q; reflexivity]. split; intros Q; [discriminate Q|]. injection Q. exact N. }
  destruct C as [[-> ->]|[[-> ->]|[-> ->]]].
  - destruct (K render_defaults ltac:(auto)) as [A B]. apply (processor_one_source _ _ _ _ _ _ g A), B.
  - destruct (K make_defaults ltac:(auto)) as [A B]. apply (full_one_source _ _ _ _ _ g A), B.
  - destruct (K lint_defaults ltac:(auto)) as [A B]. apply (linter_one_source _ _ _ g A), B.
Qed.
(** --log-no-lineno has no effect on make. *)
Lemma make_lineno_ex : exists src fs g g' l h, In FNoLineno fs /\ cli_make_app src fs g = (g', Ok l) /\ g_handlers g' = [h] /\
  exists lvl f t, h = HStream lvl f t true.
Proof.
  exists (lit "a"), [FString; FNoLineno], initial_log. eexists _, _, _. split; [right; left; reflexivity|].
  split; [vm_compute; reflexivity|]. split; [cbn; reflexivity|]. eauto.
Qed.
(** -v has no effect on lint. *)
Lemma lint_verbose_ex : exists src fs g g' l, count_v fs = 2 /\ cli_lint_app src fs g = (g', Ok l) /\ hidden g' INFO_LVL.
Proof.
  exists (lit "a"), [FString; FVerbose; FVerbose], initial_log.
  destruct (cli_lint_app (lit "a") [FString; FVerbose; FVerbose] initial_log) as [g' [l|e]] eqn:E; [|vm_compute in E; discriminate E].
  exists g', l. split; [reflexivity|]. split; [reflexivity|].
  assert (N : lit "a" <> []) by discriminate.
  destruct (cli_lint_does _ _ _ _ _ N E) as (s & _ & _ & _ & _ & H). apply H. reflexivity.
Qed.
