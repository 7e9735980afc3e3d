(** A source without mistakes, for the examples beside the theorems on what is always rendered. *)
From Verif Require Export RenderTotal.
From Verif Require Import PresentDemo RenderDemo ReadyDoc Traverse Built.
Local Open Scope string_scope.
Local Open Scope list_scope.

(** A title; an author; a table of contents; a section with a reference to a theorem, one to an unknown
    label, two citations, a link and a displayed formula; the theorem, with its proof in two steps,
    the second of which refers to the first; a bibliography. *)
Definition article_cst : cst :=
  nd "source_file" 0 0 "the source"
    [fd "title" (leaf "text" 0 2 "A title");
     nd "block" 1 0 "" [fd "tag" (leaf "author" 1 1 "author"); fd "meta" (nd "blockmeta" 1 2 "" [pair_ 1 "name" "Ann"])];
     nd "specialblock" 2 0 "" [leaf "toc" 2 1 "toc"];
     nd "section" 3 0 ""
       [fd "title" (leaf "text" 3 2 "Next");
        fd "meta" (nd "blockmeta" 4 0 "" [pair_ 4 "label" "sec"]);
        nd "paragraph" 5 0 ""
          [leaf "text" 5 0 "See "; nd "specialinline" 5 30 "" [nd "ref" 5 31 "" []; leaf "text" 5 34 "thm"]; leaf "text" 5 40 " or ";
           nd "specialinline" 6 30 "" [nd "ref" 6 31 "" []; leaf "text" 6 34 "nowhere"];
           nd "specialinline" 7 30 "" [nd "cite" 7 31 "" []; leaf "text" 7 34 "key, other"];
           nd "specialinline" 8 30 "" [nd "url" 8 31 "" []; leaf "text" 8 34 "http://example.com"];
           nd "mathblock" 9 0 "" [leaf "asis_text" 9 2 "x = y"]; leaf "text" 10 0 "again."];
        nd "block" 11 0 "" [fd "tag" (leaf "theorem" 11 1 "theorem"); fd "meta" (nd "blockmeta" 12 0 "" [pair_ 12 "label" "thm"]);
                           nd "paragraph" 13 0 "" [leaf "text" 13 0 "Small."]];
        nd "block" 14 0 "" [fd "tag" (leaf "proof" 14 1 "proof");
          nd "block" 15 0 "" [fd "tag" (leaf "step" 15 1 "step"); nd "paragraph" 16 0 "" [leaf "text" 16 0 "First."]];
          nd "block" 17 0 "" [fd "tag" (leaf "step" 17 1 "step");
            nd "paragraph" 18 0 "" [leaf "text" 18 0 "By "; nd "specialinline" 18 30 "" [nd "prev" 18 31 "" []]; leaf "text" 18 34 "."]]]];
     nd "specialblock" 19 0 "" [leaf "bibliography" 19 1 "references"];
     nd "bibtex" 20 0 "" [nd "bibitem" 20 0 "" [fd "kind" (leaf "word" 20 1 "book"); fd "label" (leaf "word" 20 6 "key");
                            nd "bibitempair" 21 0 "" [leaf "word" 21 0 "title"; leaf "word" 21 5 "On sums"];
                            nd "bibitempair" 22 0 "" [leaf "word" 22 0 "author"; leaf "word" 22 5 "Bob"];
                            nd "bibitempair" 23 0 "" [leaf "word" 23 0 "year"; leaf "word" 23 5 "1999"]]]].
Definition article_run := parse 400 article_cst empty_st.
Definition article_st : st := fst article_run.
Definition article_tree : tree := Eval vm_compute in read_tree 50 (st_heap (fst (parse 400 article_cst empty_st))) 0.
Definition article_ts (_ : str) : cst := article_cst.
Lemma article_clean : clean_source article_cst.
Proof.
  split; [vm_compute; repeat split| |].
  - intros d H. revert d H. apply forallb_forall. vm_compute. reflexivity.
  - assert (E : forallb (fun d => negb (is_type "ERROR" d)) (c_preorder article_cst) = true) by (vm_compute; reflexivity).
    intros d H. rewrite forallb_forall in E. specialize (E d H). destruct (is_type "ERROR" d); [discriminate E|reflexivity].
Qed.
Lemma article_parses : reads_as article_cst article_st article_tree.
Proof.
  split.
  - exists 400. assert (E : match snd article_run with Ok 0 => true | _ => false end = true) by (vm_compute; reflexivity). unfold article_st. unfold article_run in *.
    destruct (parse 400 article_cst empty_st) as [s [[|k]|e]]; try discriminate E. reflexivity.
  - apply (check_document_sound (st_heap article_st) article_tree). vm_compute. reflexivity.
Qed.
Lemma article_written : well_written_handrails article_st article_tree.
Proof.
  assert (R : SpecResult.ready article_st article_tree).
  { destruct article_parses as [[F H] Ht]. destruct (parsed_ready _ _ _ _ (cl_source _ article_clean) (cl_errors _ article_clean) H) as (t & Hr & R & _).
    assert (t = article_tree) as <-; [|exact R]. apply (tree_at_unique (st_heap article_st) None); [exact (proj1 (ms_document _ _ (proj1 R)))|exact Ht|exact Hr]. }
  assert (P : presentable_handrails article_st article_tree) by (apply presentableb_ok; [exact R|vm_compute; reflexivity]).
  destruct P as [[[] ? ? ? ? ? ?] ? ?]. split; [split|..]; assumption.
Qed.
