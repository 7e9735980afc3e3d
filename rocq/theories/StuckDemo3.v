(** Sources with mistakes, for the examples on what render raises. *)
From Verif Require Import PresentDemo LateDemo RenderTotalDemo.
From Verif Require Export StuckDemo2 Stuck7.
From Verif Require Import RenderDemo ReadyDoc Traverse Built.
Local Open Scope string_scope.
Local Open Scope list_scope.

(** The article of RenderTotalDemo.v, without the year in the bibliography. *)
Definition careless_cst : cst :=
  nd "source_file" 0 0 "the source"
    [fd "title" (leaf "text" 0 2 "A title");
     nd "block" 1 0 "" [fd "tag" (leaf "author" 1 1 "author"); fd "meta" (nd "blockmeta" 1 2 "" [pair_ 1 "name" "Ann"])];
     nd "specialblock" 2 0 "" [leaf "toc" 2 1 "toc"];
     nd "section" 3 0 ""
       [fd "title" (leaf "text" 3 2 "Next");
        fd "meta" (nd "blockmeta" 4 0 "" [pair_ 4 "label" "sec"]);
        nd "paragraph" 5 0 ""
          [leaf "text" 5 0 "See "; nd "specialinline" 5 30 "" [nd "ref" 5 31 "" []; leaf "text" 5 34 "thm"]; leaf "text" 5 40 " or ";
           nd "specialinline" 6 30 "" [nd "ref" 6 31 "" []; leaf "text" 6 34 "nowhere"];
           nd "specialinline" 7 30 "" [nd "cite" 7 31 "" []; leaf "text" 7 34 "key, other"];
           nd "specialinline" 8 30 "" [nd "url" 8 31 "" []; leaf "text" 8 34 "http://example.com"];
           nd "mathblock" 9 0 "" [leaf "asis_text" 9 2 "x = y"]; leaf "text" 10 0 "again."];
        nd "block" 11 0 "" [fd "tag" (leaf "theorem" 11 1 "theorem"); fd "meta" (nd "blockmeta" 12 0 "" [pair_ 12 "label" "thm"]);
                           nd "paragraph" 13 0 "" [leaf "text" 13 0 "Small."]];
        nd "block" 14 0 "" [fd "tag" (leaf "proof" 14 1 "proof");
          nd "block" 15 0 "" [fd "tag" (leaf "step" 15 1 "step"); nd "paragraph" 16 0 "" [leaf "text" 16 0 "First."]];
          nd "block" 17 0 "" [fd "tag" (leaf "step" 17 1 "step");
            nd "paragraph" 18 0 "" [leaf "text" 18 0 "By "; nd "specialinline" 18 30 "" [nd "prev" 18 31 "" []]; leaf "text" 18 34 "."]]]];
     nd "specialblock" 19 0 "" [leaf "bibliography" 19 1 "references"];
     nd "bibtex" 20 0 "" [nd "bibitem" 20 0 "" [fd "kind" (leaf "word" 20 1 "book"); fd "label" (leaf "word" 20 6 "key");
                            nd "bibitempair" 21 0 "" [leaf "word" 21 0 "title"; leaf "word" 21 5 "On sums"];
                            nd "bibitempair" 22 0 "" [leaf "word" 22 0 "author"; leaf "word" 22 5 "Bob"]]]].
Definition careless_run := parse 400 careless_cst empty_st.
Definition careless_st : st := fst careless_run.
Definition careless_tree : tree := Eval vm_compute in read_tree 50 (st_heap (fst (parse 400 careless_cst empty_st))) 0.
Lemma careless_clean : clean_source careless_cst.
Proof.
  split; [vm_compute; repeat split| |].
  - intros d H. revert d H. apply forallb_forall. vm_compute. reflexivity.
  - assert (E : forallb (fun d => negb (is_type "ERROR" d)) (c_preorder careless_cst) = true) by (vm_compute; reflexivity).
    intros d H. rewrite forallb_forall in E. specialize (E d H). destruct (is_type "ERROR" d); [discriminate E|reflexivity].
Qed.
Lemma careless_parses : reads_as careless_cst careless_st careless_tree.
Proof.
  split.
  - exists 400. assert (E : match snd careless_run with Ok 0 => true | _ => false end = true) by (vm_compute; reflexivity). unfold careless_st. unfold careless_run in *.
    destruct (parse 400 careless_cst empty_st) as [s [[|k]|e]]; try discriminate E. reflexivity.
  - apply (check_document_sound (st_heap careless_st) careless_tree). vm_compute. reflexivity.
Qed.
(** ... and also with a displayed formula outside of a paragraph, before it. *)
Definition loose_cst : cst :=
  nd "source_file" 0 0 "the source"
    [fd "title" (leaf "text" 0 2 "A title");
     nd "block" 1 0 "" [fd "tag" (leaf "author" 1 1 "author"); fd "meta" (nd "blockmeta" 1 2 "" [pair_ 1 "name" "Ann"])];
     nd "specialblock" 2 0 "" [leaf "toc" 2 1 "toc"];
     nd "section" 3 0 ""
       [fd "title" (leaf "text" 3 2 "Next");
        fd "meta" (nd "blockmeta" 4 0 "" [pair_ 4 "label" "sec"]);
        nd "paragraph" 5 0 ""
          [leaf "text" 5 0 "See "; nd "specialinline" 5 30 "" [nd "ref" 5 31 "" []; leaf "text" 5 34 "thm"]; leaf "text" 5 40 " or ";
           nd "specialinline" 6 30 "" [nd "ref" 6 31 "" []; leaf "text" 6 34 "nowhere"];
           nd "specialinline" 7 30 "" [nd "cite" 7 31 "" []; leaf "text" 7 34 "key, other"];
           nd "specialinline" 8 30 "" [nd "url" 8 31 "" []; leaf "text" 8 34 "http://example.com"];
           nd "mathblock" 9 0 "" [leaf "asis_text" 9 2 "x = y"]; leaf "text" 10 0 "again."];
        nd "block" 11 0 "" [fd "tag" (leaf "theorem" 11 1 "theorem"); fd "meta" (nd "blockmeta" 12 0 "" [pair_ 12 "label" "thm"]);
                           nd "paragraph" 13 0 "" [leaf "text" 13 0 "Small."]];
        nd "mathblock" 14 0 "" [leaf "asis_text" 14 2 "y = z"];
        nd "block" 14 0 "" [fd "tag" (leaf "proof" 14 1 "proof");
          nd "block" 15 0 "" [fd "tag" (leaf "step" 15 1 "step"); nd "paragraph" 16 0 "" [leaf "text" 16 0 "First."]];
          nd "block" 17 0 "" [fd "tag" (leaf "step" 17 1 "step");
            nd "paragraph" 18 0 "" [leaf "text" 18 0 "By "; nd "specialinline" 18 30 "" [nd "prev" 18 31 "" []]; leaf "text" 18 34 "."]]]];
     nd "specialblock" 19 0 "" [leaf "bibliography" 19 1 "references"];
     nd "bibtex" 20 0 "" [nd "bibitem" 20 0 "" [fd "kind" (leaf "word" 20 1 "book"); fd "label" (leaf "word" 20 6 "key");
                            nd "bibitempair" 21 0 "" [leaf "word" 21 0 "title"; leaf "word" 21 5 "On sums"];
                            nd "bibitempair" 22 0 "" [leaf "word" 22 0 "author"; leaf "word" 22 5 "Bob"]]]].
Definition loose_run := parse 400 loose_cst empty_st.
Definition loose_st : st := fst loose_run.
Definition loose_tree : tree := Eval vm_compute in read_tree 50 (st_heap (fst (parse 400 loose_cst empty_st))) 0.
Lemma loose_clean : clean_source loose_cst.
Proof.
  split; [vm_compute; repeat split| |].
  - intros d H. revert d H. apply forallb_forall. vm_compute. reflexivity.
  - assert (E : forallb (fun d => negb (is_type "ERROR" d)) (c_preorder loose_cst) = true) by (vm_compute; reflexivity).
    intros d H. rewrite forallb_forall in E. specialize (E d H). destruct (is_type "ERROR" d); [discriminate E|reflexivity].
Qed.
Lemma loose_parses : reads_as loose_cst loose_st loose_tree.
Proof.
  split.
  - exists 400. assert (E : match snd loose_run with Ok 0 => true | _ => false end = true) by (vm_compute; reflexivity). unfold loose_st. unfold loose_run in *.
    destruct (parse 400 loose_cst empty_st) as [s [[|k]|e]]; try discriminate E. reflexivity.
  - apply (check_document_sound (st_heap loose_st) loose_tree). vm_compute. reflexivity.
Qed.

Lemma parsed_ready_tree c s t : clean_source c -> reads_as c s t -> SpecResult.ready s t.
Proof.
  intros C [[F H] Ht]. destruct (parsed_ready _ _ _ _ (cl_source _ C) (cl_errors _ C) H) as (t' & Hr & R & _).
  assert (t' = t) as <-; [|exact R]. apply (tree_at_unique (st_heap s) None); [exact (proj1 (ms_document _ _ (proj1 R)))|exact Ht|exact Hr].
Qed.
Lemma printable_put_down s t : printable s t -> put_down s t.
Proof. intros []. split; assumption. Qed.
Lemma printable_put_down_rails s t : printable_rails s t -> put_down_rails s t.
Proof. intros [P ? ?]. split; [apply printable_put_down, P|assumption..]. Qed.
Definition careful_but_one (c : cst) (s : st) (t : tree) (e : exn) : Prop :=
  reads_as c s t /\ clean_source c /\ put_down s t /\ (exists s', transforms_to s t s') /\ exists x, first_minded s (prune (later_contents (st_heap s) t) t) x e.
Definition careful_but_one_rails (c : cst) (s : st) (t : tree) (e : exn) : Prop :=
  reads_as c s t /\ clean_source c /\ put_down_rails s t /\ (exists s', transforms_to s t s') /\ exists x, first_minded_rails s (prune (later_contents (st_heap s) t) t) x e.
Lemma careful_if c s t x e : clean_source c -> reads_as c s t -> printableb s t = true ->
  first_b (mindedb (st_heap s)) (doc_order (prune (later_contents (st_heap s) t) t)) = Some (x, e) -> careful_but_one c s t e.
Proof.
  intros C H H4 H5. destruct (printableb_ok s t (parsed_ready_tree c s t C H) H4) as [TA P].
  split; [exact H|]. split; [exact C|]. split; [apply printable_put_down, P|]. split; [apply transform_total, TA|]. exists x. apply first_if, H5.
Qed.
Lemma careful_rails_if c s t x e : clean_source c -> reads_as c s t -> printableb s t = true -> printable_railsb s t = true ->
  first_b (mindedrb (st_heap s)) (doc_order (prune (later_contents (st_heap s) t) t)) = Some (x, e) -> careful_but_one_rails c s t e.
Proof.
  intros C H H4 H4' H5. destruct (printableb_ok s t (parsed_ready_tree c s t C H) H4) as [TA P].
  split; [exact H|]. split; [exact C|]. split; [apply printable_put_down_rails, printable_rails_if; assumption|]. split; [apply transform_total, TA|]. exists x. apply first_rails_if, H5.
Qed.
Lemma careless_raises : careful_but_one careless_cst careless_st careless_tree EAttribute.
Proof. eapply careful_if; [exact careless_clean|exact careless_parses|vm_compute; reflexivity|vm_compute; reflexivity]. Qed.
Lemma careless_raises_rails : careful_but_one_rails careless_cst careless_st careless_tree EAttribute.
Proof. eapply careful_rails_if; [exact careless_clean|exact careless_parses|vm_compute; reflexivity|vm_compute; reflexivity|vm_compute; reflexivity]. Qed.
Lemma loose_raises : careful_but_one loose_cst loose_st loose_tree EAssert.
Proof. eapply careful_if; [exact loose_clean|exact loose_parses|vm_compute; reflexivity|vm_compute; reflexivity]. Qed.
Lemma arranged_if c s t : clean_source c -> reads_as c s t -> plausibleb s t = true -> arranged s t.
Proof.
  intros C H G. destruct (plausibleb_ok s t (parsed_ready_tree c s t C H) G) as (P & _ & N). split; [apply P|apply P|intros _; exact N].
Qed.
Lemma careless_arranged : arranged careless_st careless_tree.
Proof. eapply arranged_if; [exact careless_clean|exact careless_parses|vm_compute; reflexivity]. Qed.
Lemma loose_arranged : arranged loose_st loose_tree.
Proof. eapply arranged_if; [exact loose_clean|exact loose_parses|vm_compute; reflexivity]. Qed.
Lemma article_arranged : arranged article_st article_tree.
Proof. eapply arranged_if; [exact article_clean|exact article_parses|vm_compute; reflexivity]. Qed.
Lemma article_put_down : put_down_rails article_st article_tree.
Proof.
  apply printable_put_down_rails. apply printable_rails_if; [|vm_compute; reflexivity].
  apply (printableb_ok _ _ (parsed_ready_tree _ _ _ article_clean article_parses)). vm_compute. reflexivity.
Qed.
