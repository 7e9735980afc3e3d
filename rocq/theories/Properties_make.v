(** Properties C81 and C82: making a page again, and the title of the page. *)
From Verif Require Import MakeDemo.
From Verif Require Import NodeOps Monad.
Local Open Scope string_scope.
Local Open Scope list_scope.

(** ** C81 *)

(** After a call of make that succeeded, a second one in any process (in which other calls may have
    been made before), on the same text, succeeds too and leaves the content of every file as it was.
    The text may come from another argument, and all options but that of the linter may differ.
    The files of the package lie in one directory ([slashless] says that a name has no slash);
    either there was no index.html before, or the page does not show it as a figure. *)
Theorem C81_make_again : forall ts hl pkg fuel source path hr lnt c w w' text source2 path2 hr2 c2 w2,
  fresh_ok (w_mem w) -> fresh_ok (w_mem w2) -> w_fs w2 = w_fs w' -> In (lc_format c2) formats ->
  given source path (w_fs w) text -> given source2 path2 (w_fs w') text ->
  (forall n x, In (n, x) pkg -> slashless n = true) ->
  (w_fs w !! lit "index.html" = None \/
   forall h m i l a, pieces ts hl fuel lnt lnt text h m i -> mentioned (Html.render h) l -> In a l -> path_str a <> lit "index.html") ->
  make_rsm ts hl pkg fuel source path hr lnt c w = (w', Ok PNone) ->
  exists w3, make_rsm ts hl pkg fuel source2 path2 hr2 lnt c2 w2 = (w3, Ok PNone) /\ w_fs w3 = w_fs w'.
Proof. exact make_again. Qed.
Print Assumptions C81_make_again.
(** For a source in a file: it must not be in the place of a file that make writes. *)
Theorem C81_same_file : forall ts hl pkg fuel path hr lnt c w w' hr2 c2 w2,
  fresh_ok (w_mem w) -> fresh_ok (w_mem w2) -> w_fs w2 = w_fs w' -> In (lc_format c2) formats ->
  path_str path <> lit "index.html" -> (forall n, path_str path <> lit "static/" ++ n) ->
  (forall n x, In (n, x) pkg -> slashless n = true) -> w_fs w !! lit "index.html" = None ->
  make_rsm ts hl pkg fuel [] path hr lnt c w = (w', Ok PNone) ->
  exists w3, make_rsm ts hl pkg fuel [] path hr2 lnt c2 w2 = (w3, Ok PNone) /\ w_fs w3 = w_fs w'.
Proof. exact make_path_again. Qed.
Print Assumptions C81_same_file.
(** A source in a file with a figure whose file has the name of one of the package. *)
Example C81_nonvacuous : fresh_ok (w_mem (new_process figure_fs)) /\ In (lc_format demo_lc) formats /\
  path_str (lit "paper.rsm") <> lit "index.html" /\ (forall n, path_str (lit "paper.rsm") <> lit "static/" ++ n) /\
  (forall n x, In (n, x) figure_pkg -> slashless n = true) /\ figure_fs !! lit "index.html" = None /\
  exists w, make_rsm (figure_ts "img/a.png") demo_hl figure_pkg 400 [] (lit "paper.rsm") false false demo_lc (new_process figure_fs) = (w, Ok PNone) /\
    w_fs w !! lit "static/a.png" = Some (lit "PNG") /\ w_fs w !! lit "static/rsm.css" = Some (lit "CSS").
Proof.
  split; [apply new_fresh|]. split; [vm_compute; auto|]. split; [vm_compute; discriminate|]. split; [intros n; vm_compute; discriminate|].
  split; [exact pkg_names|]. split; [vm_compute; reflexivity|exact figure_made].
Qed.
(** Without the condition on index.html the files may change each time. *)
Theorem C81_page_as_figure_refuted : exists ts hl pkg fuel path c w w' w3,
  fresh_ok (w_mem w) /\ path_str path <> lit "index.html" /\ (forall n, path_str path <> lit "static/" ++ n) /\
  (forall n x, In (n, x) pkg -> slashless n = true) /\
  make_rsm ts hl pkg fuel [] path false false c w = (w', Ok PNone) /\
  make_rsm ts hl pkg fuel [] path false false c (new_process (w_fs w')) = (w3, Ok PNone) /\ w_fs w3 <> w_fs w'.
Proof.
  destruct page_made as (H1 & H2 & w & H3 & H4). exists (figure_ts "index.html"), demo_hl, figure_pkg, 400, (lit "paper.rsm"), demo_lc, (new_process page_fs), page_first, w.
  split; [apply new_fresh|]. split; [vm_compute; discriminate|]. split; [intros n; vm_compute; discriminate|]. split; [exact pkg_names|].
  split; [exact H1|]. split; [exact H3|]. intros K. rewrite K in H4. exact (H4 H2).
Qed.
Print Assumptions C81_page_as_figure_refuted.
(** A source called index.html is lost. *)
Theorem C81_source_kept_refuted : exists ts hl pkg fuel path c w w' text,
  fresh_ok (w_mem w) /\ given [] path (w_fs w) text /\ make_rsm ts hl pkg fuel [] path false false c w = (w', Ok PNone) /\ ~ given [] path (w_fs w') text.
Proof.
  destruct self_made as (w & H1 & H2). exists good_ts, demo_hl, [], 400, (lit "index.html"), demo_lc, (new_process self_fs), w, (lit "the source").
  split; [apply new_fresh|]. split; [right; repeat split; try discriminate; vm_compute; reflexivity|]. split; [exact H1|].
  intros [(K & _)|(_ & _ & _ & K)]; [congruence|]. apply H2. change (path_str (lit "index.html")) with (lit "index.html") in K. rewrite K. vm_compute. reflexivity.
Qed.
Print Assumptions C81_source_kept_refuted.

(** ** C82 *)

(** The title that make gives to the page is that of the manuscript.  [page] is in SpecBuild.v: what
    is before the title has no title in it. *)
Theorem C82_title : forall ts hl pkg fuel source path hr lint c w w' title, fresh_ok (w_mem w) ->
  (forall text, given source path (w_fs w) text -> clean_source (ts text) /\ no_markup lint (ts text) /\
     a_attrs (manuscript_of (ts text)) !! a_title = Some (VStr title)) -> title <> [] -> ~ In 10%N title ->
  make_rsm ts hl pkg fuel source path hr lint c w = (w', Ok PNone) ->
  exists text h m i top, given source path (w_fs w) text /\ pieces ts hl fuel lint lint text h m i /\
    absent (lit "<title>") top /\ absent (lit "</head>") top /\ w_fs w' !! lit "index.html" = Some (page top title (Html.render h)).
Proof. exact page_title_any. Qed.
Print Assumptions C82_title.
Example C82_nonvacuous : fresh_ok (w_mem (new_process ∅)) /\ clean_source good_cst /\ no_markup true good_cst /\ no_markup false good_cst /\
  a_attrs (manuscript_of good_cst) !! a_title = Some (VStr (lit "A ""title""")) /\ ~ In 10%N (lit "A ""title""") /\
  forall lint, exists w, make_rsm (fun _ => good_cst) demo_hl [] 400 (lit "x") [] false lint demo_lc (new_process ∅) = (w, Ok PNone).
Proof.
  split; [apply new_fresh|]. split; [exact good_clean|]. split; [exact good_input|]. split; [exact (no_markup_less _ good_input)|]. split; [exact good_title|].
  split; [vm_compute; intuition discriminate|exact good_made].
Qed.
(** A title of two lines is not found. *)
Theorem C82_lines_refuted : exists d title hl fuel c w w' p, fresh_ok (w_mem w) /\ clean_source d /\ no_markup false d /\
  a_attrs (manuscript_of d) !! a_title = Some (VStr title) /\ title <> [] /\
  make_rsm (fun _ => d) hl [] fuel (lit "x") [] false false c w = (w', Ok PNone) /\
  w_fs w' !! lit "index.html" = Some p /\ contains (lit "<title></title>") p = true.
Proof.
  destruct lines_made as (H1 & w & p & H2 & H3 & H4). exists lines_cst, lines_title, demo_hl, 400, demo_lc, (new_process ∅), w, p.
  split; [apply new_fresh|]. split; [exact lines_clean|]. split; [exact (no_markup_less _ lines_input)|]. split; [exact H1|]. split; [discriminate|]. auto.
Qed.
Print Assumptions C82_lines_refuted.
(** Without a title, markup in a text may become the title of the page. *)
Theorem C82_no_title_refuted : exists d hl fuel c w w' p, fresh_ok (w_mem w) /\
  a_attrs (manuscript_of d) !! a_title = Some (VStr []) /\
  make_rsm (fun _ => d) hl [] fuel (lit "x") [] false false c w = (w', Ok PNone) /\
  w_fs w' !! lit "index.html" = Some p /\ contains (lit "<title>B</title>") p = true.
Proof.
  destruct shown_made as (H1 & w & p & H2 & H3 & H4). exists shown_cst, demo_hl, 400, demo_lc, (new_process ∅), w, p.
  split; [apply new_fresh|]. auto.
Qed.
Print Assumptions C82_no_title_refuted.
(** With the linter the page contains the source, before the title; a comment may provide the title
    although the manuscript has one and no node of the tree below the root has markup. *)
Theorem C82_comment_refuted : exists d title hl fuel c w w' p, fresh_ok (w_mem w) /\ clean_source d /\
  (forall e x, In e (c_children d) -> In x (c_preorder e) -> lacks LT (c_text x) = true) /\
  a_attrs (manuscript_of d) !! a_title = Some (VStr title) /\ title <> lit "B" /\ ~ In 10%N title /\
  make_rsm (fun _ => d) hl [] fuel (lit "x") [] false true c w = (w', Ok PNone) /\
  w_fs w' !! lit "index.html" = Some p /\ contains (lit "<title>B</title>") p = true.
Proof.
  destruct comment_made as (H1 & w & p & H2 & H3 & H4). exists comment_cst, (lit "A title"), demo_hl, 400, demo_lc, (new_process ∅), w, p.
  split; [apply new_fresh|]. split; [exact comment_clean|]. split; [exact comment_input|]. split; [exact H1|]. split; [discriminate|].
  split; [vm_compute; intuition discriminate|]. auto.
Qed.
Print Assumptions C82_comment_refuted.
