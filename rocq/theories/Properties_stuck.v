(** C83: a mistake in the document is an exception of a known kind in translation, never a page with a hole in it. *)
From Verif Require Import StuckDemo3 RenderTotal RenderTotalDemo RenderDemo TrTotal6 SpecStuck.
From Verif Require Stuck8 Stuck9 StuckDemo4.
Local Open Scope list_scope.

(** The first node in the order of the document with a mistake decides the exception. *)
Theorem C83_first_mistake hl s t x e : presented s t -> first_minded s t x e -> translate_raises hl s t e.
Proof. exact (first_raises hl s t x e). Qed.
Print Assumptions C83_first_mistake.
Example C83_first_formula_nonvacuous : stuck_at doc_formula EAssert.
Proof. exact doc_formula_stuck. Qed.
Example C83_first_reference_nonvacuous : stuck_at doc_reference EAttribute.
Proof. exact doc_reference_stuck. Qed.
Example C83_first_link_nonvacuous : stuck_at doc_link (ETranslator (lit "Found a node without a target")).
Proof. exact doc_link_stuck. Qed.
Example C83_first_entry_nonvacuous : stuck_at doc_entry EAttribute.
Proof. exact doc_entry_stuck. Qed.

(** There is a page, or the exception of the first mistake. *)
Theorem C83_outcomes hl s t : presented s t ->
  (exists h s', translates_to hl s t h s') \/ exists x e, first_minded s t x e /\ translate_raises hl s t e.
Proof. exact (outcomes hl s t). Qed.
Print Assumptions C83_outcomes.
Example C83_outcomes_nonvacuous : fine_at doc_fine /\ stuck_at doc_entry EAttribute.
Proof. exact (conj doc_fine_fine doc_entry_stuck). Qed.

(** Exactly the documents without mistakes have a page. *)
Theorem C83_translated_iff hl s t : presented s t ->
  (exists h s', translates_to hl s t h s') <-> forall x e, x ∈ doc_order t -> ~ minded (st_heap s) x e.
Proof. exact (translated_iff hl s t). Qed.
Print Assumptions C83_translated_iff.
Example C83_translated_nonvacuous : fine_at doc_fine.
Proof. exact doc_fine_fine. Qed.

(** The same in terms of the document before transform, which neither makes nor mends these mistakes:
    tables of contents after the first one are dropped, and of the rest the first mistake counts. *)
Theorem C83_source_first hl s t s' x e : printable s t -> transforms_to s t s' ->
  first_minded s (prune (later_contents (st_heap s) t) t) x e -> translate_raises hl s' t e.
Proof. exact (source_first hl s t s' x e). Qed.
Print Assumptions C83_source_first.
Example C83_source_formula_nonvacuous : source_stuck source_formula EAssert.
Proof. exact source_formula_stuck. Qed.
Example C83_source_link_nonvacuous : source_stuck source_link (ETranslator (lit "Found a node without a target")).
Proof. exact source_link_stuck. Qed.
Example C83_source_entry_nonvacuous : source_stuck source_entry EAttribute.
Proof. exact source_entry_stuck. Qed.

Theorem C83_source_iff hl s t s' : printable s t -> transforms_to s t s' ->
  (exists html s'', translates_to hl s' t html s'') <->
  forall x e, x ∈ doc_order (prune (later_contents (st_heap s) t) t) -> ~ minded (st_heap s) x e.
Proof. exact (source_iff hl s t s'). Qed.
Print Assumptions C83_source_iff.
Example C83_source_iff_nonvacuous : source_fine (source_with []) /\ source_stuck source_link (ETranslator (lit "Found a node without a target")).
Proof. exact (conj source_none_fine source_link_stuck). Qed.

(** The same with handrails, where an author of whom nothing is said is a mistake too. *)
Theorem C83_rails_first hl src s t x e : presented_rails s t -> first_minded_rails s t x e -> handrails_raises hl src s t e.
Proof. exact (first_raises_rails hl src s t x e). Qed.
Print Assumptions C83_rails_first.
Example C83_rails_author_nonvacuous : stuck_rails_at doc_author EAttribute.
Proof. exact doc_author_stuck. Qed.
Example C83_rails_link_nonvacuous : stuck_rails_at doc_rails_link (ETranslator (lit "Found a node without a target")).
Proof. exact doc_rails_link_stuck. Qed.

Theorem C83_rails_outcomes hl src s t : presented_rails s t ->
  (exists h s', translates_handrails_to hl src s t h s') \/ exists x e, first_minded_rails s t x e /\ handrails_raises hl src s t e.
Proof. exact (outcomes_rails hl src s t). Qed.
Print Assumptions C83_rails_outcomes.
Example C83_rails_outcomes_nonvacuous : fine_rails_at doc_fine /\ stuck_rails_at doc_author EAttribute.
Proof. exact (conj doc_fine_rails doc_author_stuck). Qed.

Theorem C83_rails_iff hl src s t : presented_rails s t ->
  (exists h s', translates_handrails_to hl src s t h s') <-> forall x e, x ∈ doc_order t -> ~ minded_rails (st_heap s) x e.
Proof. exact (translated_rails_iff hl src s t). Qed.
Print Assumptions C83_rails_iff.
Example C83_rails_iff_nonvacuous : fine_rails_at doc_fine.
Proof. exact doc_fine_rails. Qed.

Theorem C83_source_rails_first hl src s t s' x e : printable_rails s t -> transforms_to s t s' ->
  first_minded_rails s (prune (later_contents (st_heap s) t) t) x e -> handrails_raises hl src s' t e.
Proof. exact (source_first_rails hl src s t s' x e). Qed.
Print Assumptions C83_source_rails_first.
Example C83_source_author_nonvacuous : source_stuck_rails source_author EAttribute.
Proof. exact source_author_stuck. Qed.
Example C83_source_rails_entry_nonvacuous : source_stuck_rails source_rails_entry EAttribute.
Proof. exact source_rails_entry_stuck. Qed.

Theorem C83_source_rails_iff hl src s t s' : printable_rails s t -> transforms_to s t s' ->
  (exists html s'', translates_handrails_to hl src s' t html s'') <->
  forall x e, x ∈ doc_order (prune (later_contents (st_heap s) t) t) -> ~ minded_rails (st_heap s) x e.
Proof. exact (source_iff_rails hl src s t s'). Qed.
Print Assumptions C83_source_rails_iff.
Example C83_source_rails_iff_nonvacuous :
  source_fine_rails (source_with []) /\ source_stuck_rails source_link (ETranslator (lit "Found a node without a target")).
Proof. exact (conj source_none_fine_rails source_rails_link_stuck). Qed.

(** Render raises the exception of the first mistake, in any process, with and without handrails, if the
    source has no syntax errors and transform returns; and it returns HTML exactly if there is no mistake. *)
Theorem C83_render_first : forall ts hl pkg source path handrails add_source c w text s t s' x e,
  fresh_ok (w_mem w) -> given source path (w_fs w) text -> In (lc_format c) formats ->
  reads_as (ts text) s t -> clean_source (ts text) ->
  (if handrails : bool then put_down_rails s t else put_down s t) -> transforms_to s t s' ->
  (if handrails then first_minded_rails s (prune (later_contents (st_heap s) t) t) x e
   else first_minded s (prune (later_contents (st_heap s) t) t) x e) ->
  exists enough, forall fuel, enough <= fuel -> snd (render_rsm ts hl pkg fuel source path handrails add_source c w) = Err e.
Proof. exact render_first. Qed.
Print Assumptions C83_render_first.
Example C83_render_first_nonvacuous : given (lit "x") [] demo_fs (lit "x") /\ In (lc_format demo_lc) formats /\
  careful_but_one careless_cst careless_st careless_tree EAttribute /\ careful_but_one loose_cst loose_st loose_tree EAssert.
Proof.
  split; [left; split; [discriminate|split; reflexivity]|]. split; [apply str_mem_In; reflexivity|].
  exact (conj careless_raises loose_raises).
Qed.
Example C83_render_rails_nonvacuous : careful_but_one_rails careless_cst careless_st careless_tree EAttribute.
Proof. exact careless_raises_rails. Qed.

Theorem C83_render_iff : forall ts hl pkg source path handrails add_source c w text s t s',
  fresh_ok (w_mem w) -> given source path (w_fs w) text -> In (lc_format c) formats ->
  reads_as (ts text) s t -> clean_source (ts text) ->
  (if handrails : bool then put_down_rails s t else put_down s t) -> transforms_to s t s' ->
  (exists enough html, forall fuel, enough <= fuel ->
     snd (render_rsm ts hl pkg fuel source path handrails add_source c w) = Ok (PObj (OText html))) <->
  forall x e, x ∈ doc_order (prune (later_contents (st_heap s) t) t) ->
    ~ (if handrails then minded_rails (st_heap s) x e else minded (st_heap s) x e).
Proof. exact render_iff. Qed.
Print Assumptions C83_render_iff.
Example C83_render_iff_nonvacuous : careful_but_one_rails careless_cst careless_st careless_tree EAttribute /\ careful_but_one loose_cst loose_st loose_tree EAssert.
Proof. exact (conj careless_raises_rails loose_raises). Qed.

(** All that render may do with a source without syntax errors: it returns HTML, or raises an exception for
    which a mistake in the document is to blame.  Nothing is asked about the mistakes of transform or of translate. *)
Theorem C83_render_outcomes : forall ts hl pkg source path handrails add_source c w text s t,
  fresh_ok (w_mem w) -> given source path (w_fs w) text -> In (lc_format c) formats ->
  reads_as (ts text) s t -> clean_source (ts text) ->
  (if handrails : bool then put_down_rails s t else put_down s t) -> arranged s t ->
  (exists enough html, forall fuel, enough <= fuel ->
     snd (render_rsm ts hl pkg fuel source path handrails add_source c w) = Ok (PObj (OText html))) \/
  exists enough e, blamed handrails s t e /\ forall fuel, enough <= fuel ->
     snd (render_rsm ts hl pkg fuel source path handrails add_source c w) = Err e.
Proof. exact render_outcomes. Qed.
Print Assumptions C83_render_outcomes.
Example C83_render_outcomes_nonvacuous :
  (reads_as article_cst article_st article_tree /\ clean_source article_cst /\ put_down_rails article_st article_tree /\ arranged article_st article_tree) /\
  (careful_but_one_rails careless_cst careless_st careless_tree EAttribute /\ arranged careless_st careless_tree) /\
  (careful_but_one loose_cst loose_st loose_tree EAssert /\ arranged loose_st loose_tree).
Proof.
  exact (conj (conj article_parses (conj article_clean (conj article_put_down article_arranged)))
    (conj (conj careless_raises_rails careless_arranged) (conj loose_raises loose_arranged))).
Qed.

(** Make raises for the same mistakes as render does, and then leaves every file as it was.  It translates with
    handrails if told to lint, whatever it is told about handrails. *)
Theorem C83_make_outcomes : forall ts hl pkg source path handrails lint c w text s t,
  fresh_ok (w_mem w) -> given source path (w_fs w) text -> In (lc_format c) formats ->
  reads_as (ts text) s t -> clean_source (ts text) ->
  (if lint : bool then put_down_rails s t else put_down s t) -> arranged s t ->
  (exists enough html, forall fuel, enough <= fuel ->
     snd (render_rsm ts hl pkg fuel source path lint true c w) = Ok (PObj (OText html))) \/
  exists enough e, blamed lint s t e /\ forall fuel, enough <= fuel ->
     exists w', make_rsm ts hl pkg fuel source path handrails lint c w = (w', Err e) /\ w_fs w' = w_fs w.
Proof. exact Stuck8.make_outcomes. Qed.
Print Assumptions C83_make_outcomes.
Example C83_make_outcomes_nonvacuous :
  (careful_but_one_rails careless_cst careless_st careless_tree EAttribute /\ arranged careless_st careless_tree) /\
  (careful_but_one loose_cst loose_st loose_tree EAssert /\ arranged loose_st loose_tree).
Proof. exact (conj (conj careless_raises_rails careless_arranged) (conj loose_raises loose_arranged)). Qed.

(** All that lint may do with a source without syntax errors: it returns a manuscript, or raises for a mistake
    that transform raises for. *)
Theorem C83_lint_outcomes : forall ts hl pkg source path handrails c w text s t,
  fresh_ok (w_mem w) -> given source path (w_fs w) text -> In (lc_format c) formats ->
  reads_as (ts text) s t -> clean_source (ts text) -> arranged s t ->
  (exists enough i, forall fuel, enough <= fuel -> snd (lint_rsm ts hl pkg fuel source path handrails c w) = Ok (PObj (OTree i))) \/
  exists enough e, ((exists x, first_mistake s t x e) \/
      ((exists x, x ∈ doc_order t /\ (misplaced_subproof (st_heap s) x \/ no_kind (st_heap s) x)) /\ e = EAssert) \/
      ((exists x, x ∈ doc_order t /\ no_letter (st_heap s) t x) /\ e = EStopIteration)) /\
    forall fuel, enough <= fuel -> snd (lint_rsm ts hl pkg fuel source path handrails c w) = Err e.
Proof. exact Stuck9.lint_outcomes. Qed.
Print Assumptions C83_lint_outcomes.
Example C83_lint_outcomes_nonvacuous :
  (reads_as article_cst article_st article_tree /\ clean_source article_cst /\ arranged article_st article_tree) /\
  (careful_but_one loose_cst loose_st loose_tree EAssert /\ arranged loose_st loose_tree).
Proof. exact (conj (conj article_parses (conj article_clean article_arranged)) (conj loose_raises loose_arranged)). Qed.

(** Lint returns whenever transform does, whatever mistakes are left for translate. *)
Theorem C83_lint_passes : forall ts hl pkg source path handrails c w text s t s',
  fresh_ok (w_mem w) -> given source path (w_fs w) text -> In (lc_format c) formats ->
  reads_as (ts text) s t -> clean_source (ts text) -> arranged s t -> transforms_to s t s' ->
  exists enough i, forall fuel, enough <= fuel -> snd (lint_rsm ts hl pkg fuel source path handrails c w) = Ok (PObj (OTree i)).
Proof. exact Stuck9.lint_passes. Qed.
Print Assumptions C83_lint_passes.
Example C83_lint_passes_nonvacuous : careful_but_one loose_cst loose_st loose_tree EAssert /\ arranged loose_st loose_tree.
Proof. exact (conj loose_raises loose_arranged). Qed.

(** So it is not true that render returns HTML for a source that lint has returned for: a formula outside of a paragraph
    passes lint in every process, and render raises AssertionError for it. *)
Theorem C83_linted_refuted : exists ts : str -> cst, forall hl pkg handrails add_source c w, fresh_ok (w_mem w) -> In (lc_format c) formats ->
  exists enough i, forall fuel, enough <= fuel ->
    snd (lint_rsm ts hl pkg fuel (lit "x") [] handrails c w) = Ok (PObj (OTree i)) /\
    snd (render_rsm ts hl pkg fuel (lit "x") [] false add_source c w) = Err EAssert.
Proof. exact StuckDemo4.lint_misses. Qed.
Print Assumptions C83_linted_refuted.
Example C83_linted_nonvacuous : fresh_ok (w_mem (new_process demo_fs)) /\ In (lc_format demo_lc) formats.
Proof. split; [exact (proj1 MakeTotal.article_ready)|apply str_mem_In; reflexivity]. Qed.
