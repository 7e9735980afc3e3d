(** Properties C67-C71: render, lint and make (rsm/app.py), from the source to the HTML and the files.
    [ts] stands for the grammar, [hl] for the highlighter of source code and [pkg] for the files of the
    package; the theorems hold for all of them. *)
From Verif Require Import RenderDemo BuildProofs.
Local Open Scope string_scope.
Local Open Scope list_scope.

(** ** C67 *)

(** [pieces] (SpecRender.v) are the tags and texts the translator puts out. *)
Theorem C67_html_nested : forall ts hl pkg fuel source path hr add c w w' out, fresh_ok (w_mem w) ->
  (forall text, given source path (w_fs w) text -> clean_source (ts text) /\ formulas_placed (manuscript_of (ts text))) ->
  render_rsm ts hl pkg fuel source path hr add c w = (w', Ok (PObj (OText out))) -> out <> [] ->
  exists text h m i, given source path (w_fs w) text /\ pieces ts hl fuel hr (hr && add) text h m i /\ out = Html.render h /\ nested h.
Proof. exact any_nested. Qed.
Print Assumptions C67_html_nested.
(** render returns the pieces, put together. *)
Theorem C67_returns_pieces : forall ts hl pkg fuel source path hr add c w w' out, fresh_ok (w_mem w) ->
  render_rsm ts hl pkg fuel source path hr add c w = (w', Ok (PObj (OText out))) -> out <> [] ->
  exists text h m i, given source path (w_fs w) text /\ pieces ts hl fuel hr (hr && add) text h m i /\ out = Html.render h.
Proof. exact render_pieces. Qed.
Print Assumptions C67_returns_pieces.
Theorem C67_pieces_returned : forall ts hl pkg fuel source path hr add c w text h m i, fresh_ok (w_mem w) -> given source path (w_fs w) text -> In (lc_format c) formats ->
  pieces ts hl fuel hr (hr && add) text h m i -> snd (render_rsm ts hl pkg fuel source path hr add c w) = Ok (PObj (OText (Html.render h))).
Proof. exact render_returns. Qed.
Print Assumptions C67_pieces_returned.
Example C67_nonvacuous : fresh_ok (w_mem (new_process demo_fs)) /\
  (forall text, given (lit "x") [] (w_fs (new_process demo_fs)) text -> clean_source (demo_ts text) /\ formulas_placed (manuscript_of (demo_ts text))) /\
  (exists w', render_rsm demo_ts demo_hl [] 400 (lit "x") [] false false demo_lc (new_process demo_fs) = (w', Ok (PObj (OText demo_out))) /\ demo_out <> []) /\
  forallb (fun x => contains (lit x) demo_out) ["<body>"; "<h1>A title</h1>"; "<div class=""mathblock"; "</body>"] = true.
Proof.
  split; [apply new_fresh|]. split; [intros text _; split; [exact demo_clean|exact demo_placed]|]. split; [exact demo_renders|]. vm_compute. reflexivity.
Qed.

(** ** C68 *)

(** [texts_shown] (SpecRender.v): the texts of the manuscript in the order of the source, and a note
    for each reference to an unknown label. *)
Theorem C68_texts_shown : forall ts hl pkg fuel source path add c w w' out, fresh_ok (w_mem w) ->
  (forall text, given source path (w_fs w) text -> clean_source (ts text) /\ contents_empty (manuscript_of (ts text))) ->
  render_rsm ts hl pkg fuel source path false add c w = (w', Ok (PObj (OText out))) -> out <> [] ->
  exists text h m t, given source path (w_fs w) text /\ pieces ts hl fuel false false text h m (root t) /\ out = Html.render h /\
    tree_at (st_heap m) None t /\ texts_shown hl (manuscript_of (ts text)) (map snd (shown_of t h)).
Proof. exact any_texts. Qed.
Print Assumptions C68_texts_shown.
Example C68_nonvacuous : contents_empty (manuscript_of page_cst) /\
  forallb (fun x => contains (lit x) demo_out) ["See "; " or "; "[unknown label ""nowhere""]"; "x = y"; "again."; "Small."] = true.
Proof. split; [exact demo_contents|]. vm_compute. reflexivity. Qed.

(** ** C69 *)

(** A reference to a label is a link, and what carries the label first has it as its id.  Not for
    the markers of contents, citations, and nodes without an element of their own ([bare]). *)
Theorem C69_references_link : forall ts hl pkg fuel source path add c w w' out, fresh_ok (w_mem w) ->
  (forall text, given source path (w_fs w) text -> clean_source (ts text) /\ contents_empty (manuscript_of (ts text))) ->
  render_rsm ts hl pkg fuel source path false add c w = (w', Ok (PObj (OText out))) -> out <> [] ->
  exists text h m i, given source path (w_fs w) text /\ pieces ts hl fuel false false text h m i /\ out = Html.render h /\
    forall b lbl x, In b (a_preorder (manuscript_of (ts text))) -> a_class b = CPendingReference -> a_attrs b !! a_target = Some (VStr lbl) ->
      first_carrier (manuscript_of (ts text)) lbl x -> a_class x ∉ CContents :: CCite :: bare ->
      lit "#" ++ lbl ∈ SpecHtml.hrefs h /\ lbl ∈ SpecHtml.ids h.
Proof. exact any_links. Qed.
Print Assumptions C69_references_link.
Example C69_nonvacuous : exists b x, In b (a_preorder (manuscript_of page_cst)) /\ a_class b = CPendingReference /\ a_attrs b !! a_target = Some (VStr (lit "thm")) /\
  first_carrier (manuscript_of page_cst) (lit "thm") x /\ a_class x = CTheorem /\
  forallb (fun x => contains (lit x) demo_out) ["href=""#thm"""; "id=""thm"""] = true.
Proof.
  eexists (nth 4 (a_preorder (manuscript_of page_cst)) (manuscript_of page_cst)), (nth 11 (a_preorder (manuscript_of page_cst)) (manuscript_of page_cst)).
  split; [apply nth_In; vm_compute; lia|]. split; [vm_compute; reflexivity|]. split; [vm_compute; reflexivity|].
  split; [|split; vm_compute; reflexivity]. apply first_carrier_ok; [vm_compute; lia|discriminate|vm_compute; reflexivity|vm_compute; reflexivity].
Qed.

(** ** C70 *)

(** Whatever was called before in the process, a call returns, raises, prints and writes what it
    would in a new process in a directory with the same files. *)
Theorem C70_calls_independent : forall ts hl pkg fuel l fs k,
  let w := do_calls ts hl pkg fuel l (new_process fs) in
  let p := do_call ts hl pkg fuel k w in let p0 := do_call ts hl pkg fuel k (new_process (w_fs w)) in
  same_answer (st_next (w_mem w)) (snd p) (snd p0) /\ w_fs (fst p) = w_fs (fst p0) /\
  g_out (w_log (fst p)) = g_out (w_log w) ++ g_out (w_log (fst p0)) /\
  memory_beside (st_heap (w_mem w)) (st_heap (w_mem (fst p))) (st_heap (w_mem (fst p0))) (st_next (w_mem w)).
Proof. exact after_calls. Qed.
Print Assumptions C70_calls_independent.
(** The same from any memory, for instance when nodes have been made by hand. *)
Theorem C70_any_memory : forall ts hl pkg fuel k w, fresh_ok (w_mem w) ->
  let p := do_call ts hl pkg fuel k w in let p0 := do_call ts hl pkg fuel k (new_process (w_fs w)) in
  same_answer (st_next (w_mem w)) (snd p) (snd p0) /\ w_fs (fst p) = w_fs (fst p0) /\
  g_out (w_log (fst p)) = g_out (w_log w) ++ g_out (w_log (fst p0)) /\
  memory_beside (st_heap (w_mem w)) (st_heap (w_mem (fst p))) (st_heap (w_mem (fst p0))) (st_next (w_mem w)).
Proof. exact call_alone. Qed.
Print Assumptions C70_any_memory.
Theorem C70_memory_stays_fresh : forall ts hl pkg fuel l w, fresh_ok (w_mem w) -> fresh_ok (w_mem (do_calls ts hl pkg fuel l w)).
Proof. exact calls_fresh. Qed.
Print Assumptions C70_memory_stays_fresh.
Example C70_nonvacuous :
  let w := do_calls demo_ts demo_hl [] 400 demo_calls (new_process demo_fs) in
  Nat.ltb 30 (st_next (w_mem w)) = true /\ g_level (w_log w) <> g_level initial_log /\
  answer_is (do_call demo_ts demo_hl [] 400 (CallRender (lit "x") [] false false demo_lc) w) demo_out = true /\ demo_out <> [] /\
  snd (do_call demo_ts demo_hl [] 400 (CallRender (lit "x") (lit "y") true true demo_lc) w) = Err (EApplication (lit "Must specify exactly one of srcpath, plain")).
Proof. cbv zeta. split; [vm_compute; reflexivity|]. split; [vm_compute; discriminate|]. split; [vm_compute; reflexivity|]. split; [destruct demo_renders as (? & _ & H); exact H|vm_compute; reflexivity]. Qed.

(** ** C71 *)

Theorem C71_render_writes_nothing : forall ts hl pkg fuel source path hr add c w, w_fs (fst (render_rsm ts hl pkg fuel source path hr add c w)) = w_fs w.
Proof. exact render_fs. Qed.
Print Assumptions C71_render_writes_nothing.
Theorem C71_lint_writes_nothing : forall ts hl pkg fuel source path hr c w, w_fs (fst (lint_rsm ts hl pkg fuel source path hr c w)) = w_fs w.
Proof. exact lint_fs. Qed.
Print Assumptions C71_lint_writes_nothing.
(** make writes the whole page and returns None, or writes nothing, and raises or returns the empty string. *)
Theorem C71_make_all_or_nothing : forall ts hl pkg fuel source path hr lnt c w w' r, fresh_ok (w_mem w) ->
  make_rsm ts hl pkg fuel source path hr lnt c w = (w', r) ->
  (w_fs w' = w_fs w /\ (r = Ok (PObj (OText [])) \/ exists e, r = Err e)) \/
  (r = Ok PNone /\ exists text h m i p, given source path (w_fs w) text /\ pieces ts hl fuel lnt lnt text h m i /\
     full_build pkg (w_fs w) (Html.render h) = Ok p /\ w_fs w' = write p (w_fs w)).
Proof. exact any_make. Qed.
Print Assumptions C71_make_all_or_nothing.
Theorem C71_make_touches : forall ts hl pkg fuel source path hr lnt c w w' r f, fresh_ok (w_mem w) ->
  make_rsm ts hl pkg fuel source path hr lnt c w = (w', r) -> f <> lit "index.html" -> (forall n, f <> lit "static/" ++ n) -> w_fs w' !! f = w_fs w !! f.
Proof. exact make_touches. Qed.
Print Assumptions C71_make_touches.
Definition demo_make := make_rsm demo_ts demo_hl [(lit "rsm.css", lit "css")] 400 [] (lit "paper.rsm") true false demo_lc (new_process demo_fs).
Example C71_nonvacuous : snd demo_make = Ok PNone /\ w_fs (fst demo_make) !! lit "paper.rsm" = Some (lit "the source") /\
  (match w_fs (fst demo_make) !! lit "index.html" with Some s => contains demo_out s | None => false end = true) /\
  w_fs (fst demo_make) !! lit "static/rsm.css" = Some (lit "css").
Proof. split; [vm_compute; reflexivity|]. split; [vm_compute; reflexivity|]. split; vm_compute; reflexivity. Qed.
(** The parameter handrails has no effect; the parameter lint turns on handrails (rsm/app.py:232-248). *)
Theorem C71_handrails_parameter_refuted : exists ts hl pkg fuel source path c w,
  fresh_ok (w_mem w) /\ snd (make_rsm ts hl pkg fuel source path true false c w) = Ok PNone /\
  make_rsm ts hl pkg fuel source path true false c w = make_rsm ts hl pkg fuel source path false false c w /\
  snd (render_rsm ts hl pkg fuel source path true true c w) <> snd (render_rsm ts hl pkg fuel source path false true c w).
Proof. exact make_handrails. Qed.
Print Assumptions C71_handrails_parameter_refuted.
