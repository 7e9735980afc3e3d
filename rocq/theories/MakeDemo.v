(** Sources with a figure, made more than once, and sources whose page has a title. *)
From Verif Require Export MakeTwice TitleRails InputDemo.
From Verif Require Import NodeOps Monad.
Local Open Scope string_scope.
Local Open Scope list_scope.

(** A figure whose file is [u]. *)
Definition figure_cst (u : string) : cst :=
  nd "source_file" 0 0 "the source"
    [fd "title" (leaf "text" 0 2 "A title");
     nd "section" 7 0 ""
       [fd "title" (leaf "text" 7 2 "Next");
        nd "block" 9 0 "" [fd "tag" (leaf "figure" 9 1 "figure");
                           fd "meta" (nd "blockmeta" 10 0 "" [pair_ 10 "label" "fig"; pair_ 10 "path" u]);
                           nd "caption" 11 0 "" [nd "paragraph" 11 0 "" [leaf "text" 11 0 "Small."]]]]].
Definition figure_ts (u : string) (_ : str) : cst := figure_cst u.
Definition figure_fs : files := <[lit "img/a.png" := lit "PNG"]> {[ lit "paper.rsm" := lit "the source" ]}.
Definition figure_pkg : list (str * str) := [(lit "rsm.css", lit "CSS"); (lit "a.png", lit "other")].
Definition figure_make (u : string) (fs : files) := make_rsm (figure_ts u) demo_hl figure_pkg 400 [] (lit "paper.rsm") false false demo_lc (new_process fs).
Lemma pkg_names n x : In (n, x) figure_pkg -> slashless n = true.
Proof. intros [H|[H|[]]]; injection H as <- <-; reflexivity. Qed.
Definition answers_none (p : world * res (pv obj)) : bool := match p with (_, Ok PNone) => true | _ => false end.
Lemma answers_ok p : answers_none p = true -> exists w, p = (w, Ok PNone) /\ w_fs w = w_fs (fst p).
Proof. destruct p as [w [[| | |[s|i|q]]|e]]; cbn; try discriminate. eauto. Qed.
Definition file_is (f c : str) (fs : files) : bool := match fs !! f with Some x => str_eqb x c | None => false end.
Lemma file_is_ok f c fs : file_is f c fs = true -> fs !! f = Some c.
Proof. unfold file_is. destruct (fs !! f) as [x|]; [|discriminate]. intros H. apply str_eqb_eq in H as ->. reflexivity. Qed.
Lemma figure_made : exists w, figure_make "img/a.png" figure_fs = (w, Ok PNone) /\ w_fs w !! lit "static/a.png" = Some (lit "PNG") /\ w_fs w !! lit "static/rsm.css" = Some (lit "CSS").
Proof.
  destruct (answers_ok (figure_make "img/a.png" figure_fs)) as (w & E & F); [vm_compute; reflexivity|]. exists w. split; [exact E|]. rewrite F. split; apply file_is_ok; vm_compute; reflexivity.
Qed.

(** A figure that is the page of an earlier run. *)
Definition page_fs : files := <[lit "index.html" := lit "old"]> figure_fs.
Definition page_first : world := fst (figure_make "index.html" page_fs).
Lemma page_made : figure_make "index.html" page_fs = (page_first, Ok PNone) /\ w_fs page_first !! lit "static/index.html" = Some (lit "old") /\
  exists w, figure_make "index.html" (w_fs page_first) = (w, Ok PNone) /\ w_fs w !! lit "static/index.html" <> Some (lit "old").
Proof.
  split; [|split].
  - destruct (answers_ok (figure_make "index.html" page_fs)) as (w & E & F); [vm_compute; reflexivity|]. unfold page_first. rewrite E. reflexivity.
  - apply file_is_ok. vm_compute. reflexivity.
  - destruct (answers_ok (figure_make "index.html" (w_fs page_first))) as (w & E & F); [vm_compute; reflexivity|]. exists w. split; [exact E|]. rewrite F. intros K.
    assert (B : file_is (lit "static/index.html") (lit "old") (w_fs (fst (figure_make "index.html" (w_fs page_first)))) = false) by (vm_compute; reflexivity).
    unfold file_is in B. rewrite K in B. discriminate B.
Qed.

(** A source that is called as the page. *)
Definition self_fs : files := {[ lit "index.html" := lit "the source" ]}.
Definition self_make := make_rsm good_ts demo_hl [] 400 [] (lit "index.html") false false demo_lc (new_process self_fs).
Lemma self_made : exists w, self_make = (w, Ok PNone) /\ w_fs w !! lit "index.html" <> self_fs !! lit "index.html".
Proof.
  destruct (answers_ok self_make) as (w & E & F); [vm_compute; reflexivity|]. exists w. split; [exact E|]. rewrite F. replace (self_fs !! lit "index.html") with (Some (lit "the source")) by (vm_compute; reflexivity). intros K.
  assert (B : file_is (lit "index.html") (lit "the source") (w_fs (fst self_make)) = false) by (vm_compute; reflexivity).
  unfold file_is in B. rewrite K in B. discriminate B.
Qed.

(** Titles. *)
Definition lint_make (lnt : bool) (d : cst) := make_rsm (fun _ => d) demo_hl [] 400 (lit "x") [] false lnt demo_lc (new_process ∅).
Notation titled_make := (lint_make false).
Lemma good_title : a_attrs (manuscript_of good_cst) !! a_title = Some (VStr (lit "A ""title""")).
Proof. vm_compute. reflexivity. Qed.
Lemma good_made lnt : exists w, lint_make lnt good_cst = (w, Ok PNone).
Proof. destruct (answers_ok (lint_make lnt good_cst)) as (w & E & _); [destruct lnt; vm_compute; reflexivity|]. exists w. exact E. Qed.
(** A title over two lines, and no title but a text that looks like one. *)
Definition lines_title : str := lit "One" ++ 10%N :: lit "two".
Definition titled_cst (titles : list cst) (u : string) : cst := nd "source_file" 0 0 "the source" (titles ++ [nd "paragraph" 2 0 "" [leaf "text" 2 0 u]]).
Definition lines_cst : cst := titled_cst [Cst (lit "text") (Some (lit "title")) true lines_title (0, 2)%Z (1, 3)%Z []] "Text.".
Definition shown_cst : cst := titled_cst [] "A <h1>B</h1>".
Definition index_has (x : str) (fs : files) : bool := match fs !! lit "index.html" with Some c => contains x c | None => false end.
Lemma index_has_ok x fs : index_has x fs = true -> exists c, fs !! lit "index.html" = Some c /\ contains x c = true.
Proof. unfold index_has. destruct (fs !! lit "index.html") as [c|]; [|discriminate]. exists c. split; [reflexivity|assumption]. Qed.
Lemma lines_made : a_attrs (manuscript_of lines_cst) !! a_title = Some (VStr lines_title) /\
  exists w c, titled_make lines_cst = (w, Ok PNone) /\ w_fs w !! lit "index.html" = Some c /\ contains (lit "<title></title>") c = true.
Proof.
  split; [vm_compute; reflexivity|]. destruct (answers_ok (titled_make lines_cst)) as (w & E & F); [vm_compute; reflexivity|].
  destruct (index_has_ok (lit "<title></title>") (w_fs (fst (titled_make lines_cst)))) as (c & C1 & C2); [vm_compute; reflexivity|]. exists w, c. split; [exact E|]. split; [rewrite F; exact C1|exact C2].
Qed.
Lemma shown_made : a_attrs (manuscript_of shown_cst) !! a_title = Some (VStr []) /\
  exists w c, titled_make shown_cst = (w, Ok PNone) /\ w_fs w !! lit "index.html" = Some c /\ contains (lit "<title>B</title>") c = true.
Proof.
  split; [vm_compute; reflexivity|]. destruct (answers_ok (titled_make shown_cst)) as (w & E & F); [vm_compute; reflexivity|].
  destruct (index_has_ok (lit "<title>B</title>") (w_fs (fst (titled_make shown_cst)))) as (c & C1 & C2); [vm_compute; reflexivity|]. exists w, c. split; [exact E|]. split; [rewrite F; exact C1|exact C2].
Qed.
Lemma lines_clean : clean_source lines_cst.
Proof. apply clean_ok; vm_compute; reflexivity. Qed.
Lemma lines_input : no_markup true lines_cst.
Proof. apply markless_ok; vm_compute; reflexivity. Qed.
(** A comment with a heading. *)
Definition comment_cst : cst := nd "source_file" 0 0 "% <h1>B</h1>" [fd "title" (leaf "text" 0 2 "A title"); nd "paragraph" 2 0 "" [leaf "text" 2 0 "Text."]].
Lemma comment_clean : clean_source comment_cst.
Proof. apply clean_ok; vm_compute; reflexivity. Qed.
Lemma comment_input d e : In d (c_children comment_cst) -> In e (c_preorder d) -> lacks LT (c_text e) = true.
Proof.
  assert (K : forallb (fun d => forallb (fun e => lacks LT (c_text e)) (c_preorder d)) (c_children comment_cst) = true) by (vm_compute; reflexivity).
  intros Hd He. rewrite forallb_forall in K. specialize (K d Hd). rewrite forallb_forall in K. exact (K e He).
Qed.
Lemma comment_made : a_attrs (manuscript_of comment_cst) !! a_title = Some (VStr (lit "A title")) /\
  exists w c, lint_make true comment_cst = (w, Ok PNone) /\ w_fs w !! lit "index.html" = Some c /\ contains (lit "<title>B</title>") c = true.
Proof.
  split; [vm_compute; reflexivity|]. destruct (answers_ok (lint_make true comment_cst)) as (w & E & F); [vm_compute; reflexivity|].
  destruct (index_has_ok (lit "<title>B</title>") (w_fs (fst (lint_make true comment_cst)))) as (c & C1 & C2); [vm_compute; reflexivity|]. exists w, c. split; [exact E|]. split; [rewrite F; exact C1|exact C2].
Qed.
