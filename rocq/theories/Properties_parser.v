(** Properties C47-C50, C65, C66: the parser (rsm/tsparser.py), from the concrete syntax tree to the
    manuscript. *)
From Verif Require Import TreeFacts ParseRefute.
Local Open Scope string_scope.
Local Open Scope list_scope.

(** ** C47 *)

(** [mirrored c] (SpecParse.v) is the manuscript by recursion on the syntax tree; [norm]
    (SpecNorm.v) normalises its texts; [sourced] stores the source in the root. *)
Theorem C47_tree_mirrors_source : forall fuel c s s' r, source c -> good s -> parse fuel c s = (s', Ok r) ->
  exists t, root t = r /\ manuscript s' t /\ SpecParse.holds (st_heap s') None t (sourced c (norm (mirrored c))).
Proof. exact parsed_manuscript. Qed.
Print Assumptions C47_tree_mirrors_source.
(** The nodes are new, and nothing else changes. *)
Theorem C47_only_new_nodes : forall fuel c s s' r, source c -> good s -> parse fuel c s = (s', Ok r) ->
  exists us, good s' /\ SpecParse.holds (st_heap s') None (T r us) (sourced c (norm (mirrored c))) /\
    (forall j, In j (doc_order (T r us)) -> st_next s <= j) /\
    (forall j, j < st_next s -> st_heap s' !! j = st_heap s !! j) /\
    st_logs s' = st_logs s ++ parse_records c.
Proof. exact parse_ok. Qed.
Print Assumptions C47_only_new_nodes.
(** The points where the nodes of the manuscript start are in the order of the source. *)
Theorem C47_source_order : forall c, starts_of (sourced c (norm (mirrored c))) `sublist_of` c_starts c.
Proof. exact parsed_starts. Qed.
Print Assumptions C47_source_order.
Theorem C47_at_most_one_node : forall c prev next, length (fst (mirror prev next c)) <= 1.
Proof. exact mirror_one. Qed.
Print Assumptions C47_at_most_one_node.
Theorem C47_terminates : forall fuel c s s', source c -> good s -> 7 * c_size c <= fuel -> parse fuel c s <> (s', Err EOutOfFuel).
Proof. exact parse_ends. Qed.
Print Assumptions C47_terminates.
(** The result meets the hypotheses of the theorems on the transformer and the translators. *)
Theorem C47_ready_for_transformer : forall fuel c s' r, source c -> (forall d, In d (c_preorder c) -> is_type "ERROR" d = false) ->
  parse fuel c empty_st = (s', Ok r) ->
  exists t, root t = r /\ SpecResult.ready s' t /\ SpecParse.holds (st_heap s') None t (sourced c (norm (mirrored c))).
Proof. exact parsed_ready. Qed.
Print Assumptions C47_ready_for_transformer.
Example C47_nonvacuous : source demo /\ good empty_st /\ 7 * c_size demo <= 500 /\ parses_to demo demo_shape = true /\
  forallb (fun d => negb (is_type "ERROR" d)) (c_preorder demo) = true /\
  shape_eqb (shape_of (norm (mirrored demo))) demo_shape = true.
Proof. split; [apply demo_source|]. split; [apply empty_good|]. vm_compute. repeat split. repeat constructor. Qed.

(** ** C48 *)

(** The loop of the normalisation does what [norm] says, on every manuscript. *)
Theorem C48_normalisation : forall fuel s s' u i us c m ts,
  good s -> SpecParse.holds (st_heap s) None (T i us) (A c m ts) -> subclass c CText = false -> normalize_text fuel (Some i) s = (s', Ok u) ->
  good s' /\ exists us', SpecParse.holds (st_heap s') None (T i us') (norm (A c m ts)) /\
    NormFam.within s s' (doc_order (T i us)) (doc_order (T i us')).
Proof. exact NormTree.normalize_ok. Qed.
Print Assumptions C48_normalisation.
Theorem C48_no_adjacent_texts : forall fuel c s s' r, source c -> good s -> parse fuel c s = (s', Ok r) ->
  exists t, root t = r /\ manuscript s' t /\
    forall p n a b, In p (doc_order t) -> st_heap s' !! p = Some n -> adjacent a b (kids n) ->
      ~ (text_at_id (st_heap s') a /\ text_at_id (st_heap s') b).
Proof. exact parsed_texts_apart. Qed.
Print Assumptions C48_no_adjacent_texts.
(** Apart from the keyword of a construct, the nodes which are not texts are the same, in the same
    order. *)
Theorem C48_other_nodes_kept : forall c m ts, exists w,
  non_texts (a_kids (norm (A c m ts))) = (if subclass c CConstruct then [norm (keyword w)] else []) ++ map norm (non_texts ts).
Proof. exact norm_others. Qed.
Print Assumptions C48_other_nodes_kept.
Theorem C48_every_node_kept : forall fuel c s s' r, source c -> good s -> parse fuel c s = (s', Ok r) ->
  forall x, In x (a_preorder (mirrored c)) -> text_node x = false -> x = mirrored c \/ In (norm x) (a_preorder (sourced c (norm (mirrored c)))).
Proof. exact parse_keeps_nodes. Qed.
Print Assumptions C48_every_node_kept.
(** What a reader sees of the children (SpecText.v) is the same: characters, nodes and where there is
    a gap.  Not covered: a text marked verbatim next to one which is not, as siblings. *)
Theorem C48_reading_kept_partial : forall b c m ts, (forall t, In t ts -> text_node t = true -> verbatim_text t = b) ->
  exists k w, (k = [] \/ k = [Gap]) /\
    tidy (line (a_kids (norm (A c m ts)))) =
      (if subclass c CConstruct then Nd (norm (keyword w)) :: k ++ tidy (line (map NormTree.norm1 ts)) else tidy (line (map NormTree.norm1 ts))).
Proof. exact norm_line. Qed.
Print Assumptions C48_reading_kept_partial.
Definition pt (s : string) : atree := A CText (mk_attrs CText [(a_text, VStr (lit s))]) [].
Example C48_nonvacuous :
  shape_eqb (shape_of (norm (A CParagraph (mk_attrs CParagraph []) [pt " one "; pt "two"; pt " three  "; A CSpan (mk_attrs CSpan []) [pt " x "]; pt "four "])))
            (sh CParagraph [tx "one two three "; sh CSpan [tx "x"]; tx "four"]) = true /\
  length (tidy (line [pt " one "; pt "two"; pt " three  "; A CSpan (mk_attrs CSpan []) [pt " x "]; pt "four "])) = 19.
Proof. vm_compute. auto. Qed.
(** The condition is needed: after a verbatim text, a backslash of another text is not taken away. *)
Theorem C48_mixed_texts_refuted : exists m ts, subclass CSpan CConstruct = false /\
  tidy (line (a_kids (norm (A CSpan m ts)))) <> tidy (line (map NormTree.norm1 ts)).
Proof.
  exists (mk_attrs CSpan []), [A CText (mk_attrs CText [(a_text, VStr (lit "x")); (a_asis, VBool true)]) []; pt "\*y"].
  split; [reflexivity|]. intros H. apply (f_equal (@length piece)) in H. vm_compute in H. discriminate H.
Qed.
Print Assumptions C48_mixed_texts_refuted.

(** ** C49 *)

(** Every syntax error on a way through the file, sections and paragraphs is reported, with its
    place.  What the full property asks for, that the manuscript shows the error and no text is lost,
    is refuted below. *)
Theorem C49_errors_warned_partial : forall fuel c d s s' r, source c -> good s -> parse fuel c s = (s', Ok r) -> error_in c d ->
  In (MkLog logger_parse WARNING (lit "The CST contains errors.") (Some (c_start d))) (st_logs s').
Proof. exact parse_warns. Qed.
Print Assumptions C49_errors_warned_partial.
Theorem C49_records_exact : forall fuel c s s' r, source c -> good s -> parse fuel c s = (s', Ok r) -> st_logs s' = st_logs s ++ parse_records c.
Proof. exact parse_log. Qed.
Print Assumptions C49_records_exact.
Example C49_nonvacuous : source demo_error /\ succeeds demo_error = true /\ warnings_of demo_error = 1.
Proof. vm_compute. auto. Qed.
Theorem C49_error_shown_refuted : exists c d s' r t, source c /\ error_in c d /\ parse 200 c empty_st = (s', Ok r) /\ root t = r /\ manuscript s' t /\
  forall i n, In i (doc_order t) -> st_heap s' !! i = Some n -> n_cls n <> CError.
Proof. exact error_lost. Qed.
Print Assumptions C49_error_shown_refuted.
Theorem C49_text_not_swallowed_refuted : exists c d s' r t, source c /\ In d (c_preorder c) /\ is_type "text" d = true /\ c_text d = lit "after" /\
  parse 200 c empty_st = (s', Ok r) /\ root t = r /\ manuscript s' t /\
  forall i n, In i (doc_order t) -> st_heap s' !! i = Some n -> n_cls n <> CText.
Proof. exact text_swallowed. Qed.
Print Assumptions C49_text_not_swallowed_refuted.
Theorem C49_every_error_reported_refuted : exists c d s' r, source c /\ In d (c_preorder c) /\ is_type "ERROR" d = true /\ parse 200 c empty_st = (s', Ok r) /\
  forall m, In m (st_logs s') -> lg_level m <> WARNING.
Proof. exact error_silent. Qed.
Print Assumptions C49_every_error_reported_refuted.

(** ** C50 *)

Theorem C50_ends_become_one_space : forall w1 s w2, blank w1 -> blank w2 -> no_space_at_start s -> no_space_at_start (rev s) ->
  squeeze (w1 ++ s ++ w2) = one_space w1 ++ s ++ one_space w2.
Proof. exact squeeze_exact. Qed.
Print Assumptions C50_ends_become_one_space.
Theorem C50_blank_text : forall w, blank w -> squeeze w = one_space w.
Proof. exact squeeze_blank. Qed.
Print Assumptions C50_blank_text.
Theorem C50_words_kept : forall s, tidy (chars (squeeze s)) = tidy (chars s).
Proof. exact squeeze_words. Qed.
Print Assumptions C50_words_kept.
Theorem C50_idempotent : forall s, squeeze (squeeze s) = squeeze s.
Proof. exact squeeze_idem. Qed.
Print Assumptions C50_idempotent.
(** So in every text of a parsed manuscript. *)
Theorem C50_texts_tight : forall fuel c s s' r, source c -> good s -> parse fuel c s = (s', Ok r) ->
  exists t, root t = r /\ manuscript s' t /\
    forall i n x, In i (doc_order t) -> st_heap s' !! i = Some n -> subclass (n_cls n) CText = true -> n_attrs n !! a_text = Some (VStr x) -> tight x.
Proof. exact parsed_texts_tight. Qed.
Print Assumptions C50_texts_tight.
Example C50_nonvacuous : squeeze (lit "   two  words ") = lit " two  words " /\ blank (lit "  ") /\ no_space_at_start (lit "two  words") /\
  no_space_at_start (rev (lit "two  words")) /\ tight (lit " two  words ") /\ ~ tight (lit "two  ").
Proof.
  split; [vm_compute; reflexivity|]. split; [repeat constructor|]. split; [reflexivity|]. split; [reflexivity|].
  split; [vm_compute; auto|]. intros [_ H]. vm_compute in H. destruct (H eq_refl) as [_ H1]. discriminate H1.
Qed.

(** ** C65 *)

(** The parser raises something else than RSMParserError. *)
Theorem C65_parser_error_only_refuted : exists c s' m, source c /\ parse 200 c empty_st = (s', Err (ENode m)).
Proof. exact stray_item. Qed.
Print Assumptions C65_parser_error_only_refuted.

(** ** C66 *)

(** The text of a formula or a listing keeps every character, apart from white space at its ends. *)
Theorem C66_verbatim_kept_partial : forall c m k a s, subclass c CConstruct = false -> subclass k CText = true -> verbatim_text (A k a []) = true ->
  a !! a_text = Some (VStr s) ->
  exists w1 x w2, s = w1 ++ x ++ w2 /\ blank w1 /\ blank w2 /\ a_kids (norm (A c m [A k a []])) = [A k (<[a_text := VStr x]> a) []].
Proof. exact verbatim_kept. Qed.
Print Assumptions C66_verbatim_kept_partial.
Example C66_nonvacuous :
  shape_eqb (shape_of (norm (A CMath (mk_attrs CMath []) [A CText (mk_attrs CText [(a_text, VStr (lit " a \: \{b\} ")); (a_asis, VBool true)]) []])))
            (sh CMath [tx "a \: \{b\}"]) = true.
Proof. vm_compute. reflexivity. Qed.
Theorem C66_indentation_kept_refuted : exists c d s' r t, source c /\ In d (c_preorder c) /\ is_type "asis_text" d = true /\
  parse 200 c empty_st = (s', Ok r) /\ root t = r /\ manuscript s' t /\
  forall i n, In i (doc_order t) -> st_heap s' !! i = Some n -> n_attrs n !! a_text <> Some (VStr (c_text d)).
Proof. exact indentation_lost. Qed.
Print Assumptions C66_indentation_kept_refuted.
