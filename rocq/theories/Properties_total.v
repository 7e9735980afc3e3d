(** Property theorems: documents without mistakes go through the program without exceptions. *)
From Verif Require Import SpecTotal SpecFinish SpecSource SpecRender TransformTotal TotalDemo TransformDemo.
From Verif Require Import TrTotal5 TrTotal6 PresentDoc PresentDemo RenderTotal RenderTotalDemo RenderDemo.
From Verif Require Import SpecShape ParseTyped ParseGives SpecLint SpecBuild SpecCalls MakeTotal.
From Verif Require Import SpecPage TrPageRender.
Local Open Scope string_scope.
Local Open Scope list_scope.

(** ** C72 *)

(** A document without any of the mistakes listed in [transformable] is transformed. *)
Theorem C72_transform_returns : forall s t, transformable s t -> exists s', transforms_to s t s'.
Proof. exact transform_total. Qed.
Print Assumptions C72_transform_returns.
Example C72_nonvacuous : transformable tdemo_st tdemo_tree.
Proof. exact tdemo_transformable. Qed.

(** ** C73 *)

(** A transformed document without any of the mistakes listed in [translatable_doc] is translated,
    and so is, with handrails, one without those in [handrails_doc]. *)
Theorem C73_translate_returns : forall hl s t, translatable_doc s t -> exists html s', translates_to hl s t html s'.
Proof. exact translate_total. Qed.
Print Assumptions C73_translate_returns.
Theorem C73_handrails_returns : forall hl add_source s t, handrails_doc s t -> exists html s', translates_handrails_to hl add_source s t html s'.
Proof. exact handrails_total. Qed.
Print Assumptions C73_handrails_returns.
Example C73_nonvacuous : exists s' t', transforms_to pdemo_st pdemo_tree s' /\ root t' = root pdemo_tree /\ handrails_doc s' t'.
Proof. exact pdemo_handrails. Qed.

(** ** C74 *)

(** Transform leaves none of the mistakes that translate minds, if the document had none that count
    before. *)
Theorem C74_transform_prepares : forall s t s', presentable s t -> transforms_to s t s' ->
  exists t', root t' = root t /\ translatable_doc s' t' /\ (presentable_handrails s t -> handrails_doc s' t').
Proof. exact transform_presented. Qed.
Print Assumptions C74_transform_prepares.
(** A document without mistakes goes through transform and either of the translators. *)
Theorem C74_shown : forall hl s t, presentable s t -> exists s' html s'', transforms_to s t s' /\ translates_to hl s' t html s''.
Proof. exact presentable_shown. Qed.
Print Assumptions C74_shown.
Theorem C74_shown_handrails : forall hl add_source s t, presentable_handrails s t ->
  exists s' html s'', transforms_to s t s' /\ translates_handrails_to hl add_source s' t html s''.
Proof. exact presentable_shown_handrails. Qed.
Print Assumptions C74_shown_handrails.
Example C74_nonvacuous : presentable_handrails pdemo_st pdemo_tree.
Proof. exact pdemo_presentable. Qed.

(** ** C75 *)

(** Whatever nodes are in memory, render returns HTML for a source without syntax errors that the
    parser reads and in which the author has made none of the mistakes listed in [well_written]; the
    HTML does not depend on the fuel, if there is enough of it. *)
Theorem C75_render_returns : forall ts hl pkg source path handrails add_source c w text s t,
  fresh_ok (w_mem w) -> given source path (w_fs w) text -> In (lc_format c) formats ->
  reads_as (ts text) s t -> clean_source (ts text) -> (if handrails : bool then well_written_handrails s t else well_written s t) ->
  exists enough html, forall fuel, enough <= fuel ->
    snd (render_rsm ts hl pkg fuel source path handrails add_source c w) = Ok (PObj (OText html)).
Proof. exact render_total. Qed.
Print Assumptions C75_render_returns.
Example C75_nonvacuous : given (lit "x") [] demo_fs (lit "x") /\ In (lc_format demo_lc) formats /\
  reads_as article_cst article_st article_tree /\ clean_source article_cst /\ well_written_handrails article_st article_tree.
Proof.
  split; [left; split; [discriminate|split; reflexivity]|]. split; [apply str_mem_In; reflexivity|].
  split; [exact article_parses|]. split; [exact article_clean|exact article_written].
Qed.

(** ** C76 *)

(** A syntax tree of the shape described by [well_formed] (SpecShape.v) is read, whatever manuscripts
    are in memory. *)
Theorem C76_parse_returns : forall c s, source c -> keys_typed c -> well_formed c -> sane s ->
  exists enough s' r, forall fuel, enough <= fuel -> parse fuel c s = (s', Ok r).
Proof. exact parse_total. Qed.
Print Assumptions C76_parse_returns.
(** If it has no syntax errors either, and the author has made none of the listed mistakes, it is
    rendered. *)
Theorem C76_render_returns : forall ts hl pkg source path handrails add_source c w text,
  fresh_ok (w_mem w) -> given source path (w_fs w) text -> In (lc_format c) formats ->
  clean_source (ts text) -> well_formed (ts text) ->
  (forall s t, reads_as (ts text) s t -> if handrails : bool then well_written_handrails s t else well_written s t) ->
  exists enough html, forall fuel, enough <= fuel ->
    snd (render_rsm ts hl pkg fuel source path handrails add_source c w) = Ok (PObj (OText html)).
Proof. exact render_from_source. Qed.
Print Assumptions C76_render_returns.
(** The conditions on the shape are not idle: the trees in [odds] each break one, and parsing them
    raises an exception. *)
Theorem C76_other_shapes : forall c, In c odds ->
  fits c None = false /\ exists e, forall fuel, 50 <= fuel -> snd (parse fuel c empty_st) = Err e.
Proof. exact odd_fails. Qed.
Print Assumptions C76_other_shapes.
Example C76_nonvacuous : clean_source article_cst /\ well_formed article_cst /\ sane empty_st.
Proof. split; [exact article_clean|]. split; [exact article_formed|exact empty_sane]. Qed.

(** ** C77 *)

(** lint returns the manuscript of a source without mistakes, and reports what the rules of
    SpecLint.v object to in it after transform, and nothing else. *)
Theorem C77_lint_reports : forall ts hl pkg source path handrails c fs text, given source path fs text -> In (lc_format c) formats ->
  clean_source (ts text) -> well_formed (ts text) -> (forall s t, reads_as (ts text) s t -> well_written s t) ->
  exists enough s t s' t', reads_as (ts text) s t /\ transforms_to s t s' /\ root t' = root t /\ tree_at (st_heap s') None t' /\
    forall fuel, enough <= fuel -> exists w', lint_rsm ts hl pkg fuel source path handrails c (new_process fs) = (w', Ok (PObj (OTree (root t')))) /\
      w_mem w' = with_logs s' (MkLog (lit "RSM") INFO (lit "Linting...") None :: map (lint_record (st_heap s')) (offences (st_heap s') t')).
Proof. exact lint_from_source. Qed.
Print Assumptions C77_lint_reports.
(** It returns a manuscript whatever is in memory. *)
Theorem C77_lint_returns : forall ts hl pkg source path handrails c w text,
  fresh_ok (w_mem w) -> given source path (w_fs w) text -> In (lc_format c) formats ->
  clean_source (ts text) -> well_formed (ts text) -> (forall s t, reads_as (ts text) s t -> well_written s t) ->
  exists enough i, forall fuel, enough <= fuel -> snd (lint_rsm ts hl pkg fuel source path handrails c w) = Ok (PObj (OTree i)).
Proof. exact lint_anywhere. Qed.
Print Assumptions C77_lint_returns.
(** make writes the page of the HTML that render returns, if the files that it mentions are there.
    (The flag [lint] of make turns handrails on, C58.) *)
Theorem C77_make_returns : forall ts hl pkg source path handrails lint c w text,
  fresh_ok (w_mem w) -> given source path (w_fs w) text -> In (lc_format c) formats ->
  clean_source (ts text) -> well_formed (ts text) ->
  (forall s t, reads_as (ts text) s t -> if lint : bool then well_written_handrails s t else well_written s t) ->
  exists enough html, forall fuel, enough <= fuel ->
    snd (render_rsm ts hl pkg fuel source path lint true c w) = Ok (PObj (OText html)) /\
    forall l, mentioned html l -> (forall a, In a l -> plain_path a = true /\ is_Some (w_fs w !! path_str a)) ->
      exists w', make_rsm ts hl pkg fuel source path handrails lint c w = (w', Ok PNone) /\ w_fs w' !! lit "index.html" = Some (make_main_file html).
Proof. exact make_from_source. Qed.
Print Assumptions C77_make_returns.
Example C77_nonvacuous : fresh_ok (w_mem (new_process demo_fs)) /\ given (lit "x") [] demo_fs (lit "x") /\ In (lc_format demo_lc) formats /\
  clean_source article_cst /\ well_formed article_cst /\ forall s t, reads_as article_cst s t -> well_written_handrails s t.
Proof. exact article_ready. Qed.

(** ** C78 *)

(** What render returns for a source is the page of the document that transform makes of what the
    parser reads. *)
Theorem C78_page_rendered : forall ts hl pkg fuel source path add c w w' out, fresh_ok (w_mem w) ->
  (forall text, given source path (w_fs w) text -> clean_source (ts text)) ->
  render_rsm ts hl pkg fuel source path false add c w = (w', Ok (PObj (OText out))) -> out <> [] ->
  exists text s t s' t' h m, given source path (w_fs w) text /\ reads_as (ts text) s t /\ transforms_to s t s' /\
    root t' = root t /\ tree_at (st_heap s') None t' /\ translate hl fuel (root t') s' = (m, Ok h) /\
    out = Html.render h /\ plain_page h = tree_page fuel hl s' t'.
Proof. exact any_page. Qed.
Print Assumptions C78_page_rendered.
Example C78_page_rendered_nonvacuous : fresh_ok (w_mem (new_process demo_fs)) /\
  (forall text, given (lit "x") [] (w_fs (new_process demo_fs)) text -> clean_source (demo_ts text)) /\
  (exists w', render_rsm demo_ts demo_hl [] 400 (lit "x") [] false false demo_lc (new_process demo_fs) = (w', Ok (PObj (OText demo_out))) /\ demo_out <> []).
Proof. split; [apply new_fresh|]. split; [intros text _; exact demo_clean|exact demo_renders]. Qed.
