(** A source for the examples beside the theorems on render, lint and make. *)
From Verif Require Export RenderAny ParseDemo.
Local Open Scope string_scope.
Local Open Scope list_scope.

(** ** Checks *)
Definition placed_at (x : atree) : bool :=
  (forallb (fun k => negb (cls_eqb (a_class k) CMathBlock) || cls_eqb (a_class x) CParagraph) (a_kids x)) &&
  (negb (cls_eqb (a_class x) CParagraph) || forallb (fun k => negb (cls_eqb (a_class k) CContents)) (a_kids x)) &&
  match rev (a_kids x) with
  | k :: l => negb (cls_eqb (a_class k) CMathBlock) || forallb (fun y => negb (cls_eqb (a_class y) CMathBlock)) l
  | [] => true
  end.
Lemma placed_ok a : forallb placed_at (a_preorder a) = true -> formulas_placed a.
Proof.
  intros H. rewrite forallb_forall in H. split.
  - intros x k Hx Hk Hc. specialize (H x Hx). unfold placed_at in H. apply andb_true_iff in H as [H _]. apply andb_true_iff in H as [H _]. rewrite forallb_forall in H. specialize (H k Hk).
    destruct (cls_eqb_spec (a_class k) CMathBlock) as [_|N]; [|congruence]. destruct (cls_eqb_spec (a_class x) CParagraph); [assumption|discriminate H].
  - intros x k Hx Hc Hk. specialize (H x Hx). unfold placed_at in H. apply andb_true_iff in H as [H _]. apply andb_true_iff in H as [_ H].
    destruct (cls_eqb_spec (a_class x) CParagraph) as [_|N]; [|congruence]. cbn [negb orb] in H. rewrite forallb_forall in H. specialize (H k Hk). destruct (cls_eqb_spec (a_class k) CContents); [discriminate H|assumption].
  - intros x l k y Hx E Hc Hy. specialize (H x Hx). unfold placed_at in H. apply andb_true_iff in H as [_ H]. rewrite E, rev_app_distr in H. cbn [rev app] in H.
    destruct (cls_eqb_spec (a_class k) CMathBlock) as [_|N]; [|congruence]. cbn [negb orb] in H. rewrite forallb_forall in H. apply in_rev in Hy. specialize (H y Hy). destruct (cls_eqb_spec (a_class y) CMathBlock); [discriminate H|assumption].
Qed.
Definition contents_at (x : atree) : bool := negb (cls_eqb (a_class x) CContents) || match a_kids x with [] => true | _ => false end.
Lemma contents_ok a : forallb contents_at (a_preorder a) = true -> contents_empty a.
Proof.
  intros H x Hx Hc. rewrite forallb_forall in H. specialize (H x Hx). unfold contents_at in H. destruct (cls_eqb_spec (a_class x) CContents) as [_|N]; [|congruence]. destruct (a_kids x); [reflexivity|discriminate H].
Qed.

(** ** The source *)
(** A title; a paragraph with a reference to a theorem, one to an unknown label, and a displayed
    formula in the middle; a section with the theorem; a table of contents. *)
Definition page_cst : cst :=
  nd "source_file" 0 0 "the source"
    [fd "title" (leaf "text" 0 2 "A title");
     nd "specialblock" 1 0 "" [leaf "toc" 1 1 "toc"];
     nd "paragraph" 2 0 ""
       [leaf "text" 2 0 "See "; nd "specialinline" 3 30 "" [nd "ref" 3 31 "" []; leaf "text" 3 34 "thm"]; leaf "text" 3 40 " or ";
        nd "specialinline" 4 30 "" [nd "ref" 4 31 "" []; leaf "text" 4 34 "nowhere"];
        nd "mathblock" 5 0 "" [leaf "asis_text" 5 2 "x = y"]; leaf "text" 6 0 "again."];
     nd "section" 7 0 ""
       [fd "title" (leaf "text" 7 2 "Next");
        fd "meta" (nd "blockmeta" 8 0 "" [pair_ 8 "label" "sec"]);
        nd "block" 9 0 "" [fd "tag" (leaf "theorem" 9 1 "theorem"); fd "meta" (nd "blockmeta" 10 0 "" [pair_ 10 "label" "thm"]);
                           nd "paragraph" 11 0 "" [leaf "text" 11 0 "Small."]]]].
Definition demo_ts (_ : str) : cst := page_cst.
Definition demo_hl (s l : str) : str := s.
Definition demo_lc : logcfg := MkLC 30 (lit "rsm") true true.
Definition out_of (p : world * res (pv obj)) : str := match p with (_, Ok (PObj (OText s))) => s | _ => [] end.
Definition answer_is (p : world * res (pv obj)) (s : str) : bool := match p with (_, Ok (PObj (OText x))) => str_eqb x s | _ => false end.
Definition demo_fs : files := {[ lit "paper.rsm" := lit "the source" ]}.
Definition demo_run := render_rsm demo_ts demo_hl [] 400 (lit "x") [] false false demo_lc (new_process demo_fs).
Definition demo_out : str := out_of demo_run.
Lemma demo_clean : clean_source page_cst.
Proof.
  split; [vm_compute; repeat split| |].
  - intros d H. revert d H. apply List.Forall_forall. vm_compute. repeat constructor.
  - intros d H. revert d H. apply List.Forall_forall. vm_compute. repeat constructor.
Qed.
Lemma demo_placed : formulas_placed (manuscript_of page_cst).
Proof. apply placed_ok. vm_compute. reflexivity. Qed.
Lemma demo_contents : contents_empty (manuscript_of page_cst).
Proof. apply contents_ok. vm_compute. reflexivity. Qed.
Lemma demo_given fs text : given (lit "x") [] fs text -> text = lit "x".
Proof. intros [(_ & _ & H)|(H & _)]; [exact H|discriminate H]. Qed.
Lemma demo_renders : exists w', demo_run = (w', Ok (PObj (OText demo_out))) /\ demo_out <> [].
Proof.
  unfold demo_out. assert (E : match demo_run with (_, Ok (PObj (OText (_ :: _)))) => true | _ => false end = true) by (vm_compute; reflexivity).
  destruct demo_run as [w' [[| | |[[|x s]|i|p]]|e]]; try discriminate E. exists w'. split; [reflexivity|discriminate].
Qed.
(** Some calls before: one that renders, one that lints, one that raises. *)
Definition demo_calls : list call :=
  [CallRender (lit "x") [] true true demo_lc; CallLint (lit "x") [] false demo_lc; CallRender (lit "x") (lit "y") true true demo_lc].
Lemma nth_middle {A} (l : list A) n d : n < length l -> l = firstn n l ++ nth n l d :: skipn (S n) l.
Proof. revert n. induction l as [|x l IH]; intros [|n] H; cbn in *; [lia|lia|reflexivity|]. f_equal. apply IH. lia. Qed.
Lemma first_carrier_ok a lbl n : let l := a_preorder a in n < length l -> lbl <> [] -> a_attrs (nth n l a) !! a_label = Some (VStr lbl) ->
  forallb (fun y => negb (str_eqb (string_at a_label y) lbl)) (firstn n l) = true -> first_carrier a lbl (nth n l a).
Proof.
  cbv zeta. intros Hn Hl Ha Hf. split; [split; assumption|]. exists (firstn n (a_preorder a)), (skipn (S n) (a_preorder a)). split; [apply nth_middle, Hn|].
  intros y Hy [_ Hc]. rewrite forallb_forall in Hf. specialize (Hf y Hy). unfold string_at in Hf. rewrite Hc in Hf. destruct (str_eqb lbl lbl) eqn:E; [discriminate Hf|]. assert (str_eqb lbl lbl = true) by (apply str_eqb_eq; reflexivity). congruence.
Qed.
Lemma make_handrails : exists ts hl pkg fuel source path c w,
  fresh_ok (w_mem w) /\ snd (make_rsm ts hl pkg fuel source path true false c w) = Ok PNone /\
  make_rsm ts hl pkg fuel source path true false c w = make_rsm ts hl pkg fuel source path false false c w /\
  snd (render_rsm ts hl pkg fuel source path true true c w) <> snd (render_rsm ts hl pkg fuel source path false true c w).
Proof.
  exists demo_ts, demo_hl, [], 400, (lit "x"), [], demo_lc, (new_process demo_fs). split; [apply new_fresh|]. split; [vm_compute; reflexivity|]. split; [reflexivity|].
  intros E. assert (G : contains (lit "hr-menu") (out_of (new_process demo_fs, snd (render_rsm demo_ts demo_hl [] 400 (lit "x") [] true true demo_lc (new_process demo_fs)))) = true) by (vm_compute; reflexivity).
  rewrite E in G. vm_compute in G. discriminate G.
Qed.
