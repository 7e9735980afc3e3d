(** A check of [presentable], and a document that passes. *)
From Verif Require Export PresentDoc TotalDemo.
From Verif Require Import ResolvePrev Autonumber Labels NodeOps Monad.
Local Open Scope list_scope.

Notation is_class := TrDemo.is_class.
Definition text_or_falsy (s : st) (x : id) (a : attr) : bool :=
  match value (st_heap s) x a with Some (VStr _) | None => true | Some v => negb (truthy v) end.
Lemma text_or_falsy_ok s x a v : text_or_falsy s x a = true -> value (st_heap s) x a = Some v -> truthy v = true -> exists y, v = VStr y.
Proof. unfold text_or_falsy. intros H E Ht. rewrite E in H. destruct v; eauto; rewrite Ht in H; discriminate H. Qed.
Definition entryb (s : st) (x : id) : bool :=
  match value (st_heap s) x a_author with Some (VStr _) => true | _ => false end &&
  text_or_falsy s x a_year && text_or_falsy s x a_journal && text_or_falsy s x a_publisher.
Definition docb (s : st) (x : id) (n : node) : bool :=
  match n_cls n with
  | CMathBlock => match n_parent n with Some p => is_class s p CParagraph | None => false end
  | CReference | CBaseReference => false
  | CURL => match n_attrs n !! a_target with Some (VStr (_ :: _)) => true | _ => false end
  | CAuthor => existsb (fun a => match n_attrs n !! a with Some v => truthy v | None => false end) [a_name; a_affiliation; a_email]
  | CContents => match kids n with [] => true | _ => false end
  | c => if subclass c CBibitem then entryb s x else true
  end.
Definition node_templateb (n : node) : bool :=
  match n_attrs n !! a_reftext_template with Some (VStr t) => templateb (length t) t | _ => true end.
Definition presentableb (s : st) (t : tree) : bool :=
  transformableb s t && forallb (fun x => match st_heap s !! x with Some n => docb s x n | None => true end) (doc_order t) && all_nodes s (fun _ n => node_templateb n).

Lemma presentableb_ok s t : SpecResult.ready s t -> presentableb s t = true -> presentable_handrails s t.
Proof.
  intros R H. unfold presentableb in H. apply andb_true_iff in H as [H H3]. apply andb_true_iff in H as [H1 H2].
  assert (F : forall x n, x ∈ doc_order t -> st_heap s !! x = Some n -> docb s x n = true).
  { intros x n Hx Hn. rewrite forallb_forall in H2. specialize (H2 x ltac:(apply elem_of_list_In, Hx)). rewrite Hn in H2. exact H2. }
  constructor; [constructor|..].
  - apply transformableb_ok; assumption.
  - intros x Hx (n & Hn & Hc). pose proof (F x n Hx Hn) as G. unfold docb in G. rewrite Hc in G. destruct (n_parent n) as [p|] eqn:Ep; [|discriminate G].
    exists p. split; [exists n; auto|apply is_class_of, G].
  - intros x Hx (n & Hn & Hc). pose proof (F x n Hx Hn) as G. unfold docb in G. rewrite Hc in G. discriminate G.
  - intros x Hx (n & Hn & Hc). pose proof (F x n Hx Hn) as G. unfold docb in G. rewrite Hc in G. discriminate G.
  - intros x Hx (n & Hn & Hc). pose proof (F x n Hx Hn) as G. unfold docb in G. rewrite Hc in G. unfold value. rewrite Hn.
    destruct (n_attrs n !! a_target) as [[]|]; try discriminate G. eexists. split; [reflexivity|]. intros ->. discriminate G.
  - intros x c Hx (n & Hn & Hc) Hs. pose proof (F x n Hx Hn) as G. unfold docb in G. rewrite Hc in G.
    assert (E : entryb s x = true) by (destruct c; try discriminate Hs; exact G). unfold entryb in E. apply andb_true_iff in E as [E E4]. apply andb_true_iff in E as [E E3]. apply andb_true_iff in E as [E E2].
    split; [destruct (value (st_heap s) x a_author) as [[]|]; try discriminate E; eauto|..].
    + intros v Hv Ht. exact (text_or_falsy_ok _ _ _ _ E2 Hv Ht).
    + intros v _ Hv Ht. exact (text_or_falsy_ok _ _ _ _ E3 Hv Ht).
    + intros v _ Hv Ht. exact (text_or_falsy_ok _ _ _ _ E4 Hv Ht).
  - intros x tmpl Hv. unfold value in Hv. destruct (st_heap s !! x) as [n|] eqn:E; [|discriminate Hv]. pose proof (all_nodes_ok _ _ x n H3 E) as G. cbv beta in G.
    unfold node_templateb in G. rewrite Hv in G. eapply templateb_ok, G.
  - intros x Hx (n & Hn & Hc). pose proof (F x n Hx Hn) as G. unfold docb in G. rewrite Hc in G. apply existsb_exists in G as (a & Ha & G).
    destruct (n_attrs n !! a) as [v|] eqn:Ev; [|discriminate G]. exists a, v. split; [exact Ha|]. split; [|exact G]. unfold value. rewrite Hn. exact Ev.
  - intros x Hx (n & Hn & Hc). pose proof (F x n Hx Hn) as G. unfold docb in G. rewrite Hc in G. exists n. split; [exact Hn|]. destruct (kids n); [reflexivity|discriminate G].
Qed.

(** An example with sections, a table of contents, an author, references, citations, a proof with
    steps in steps, a displayed formula, a link, lists, code, a figure and a bibliography. *)
Definition pdemo : bt :=
  BT CManuscript [(a_title, VStr (lit "On examples"))]
    [BT CAuthor [(a_name, VStr (lit "Ada"))] [];
     BT CAbstract [(a_keywords, VStrs [lit "one"])] [BT CParagraph [] [txt "short"]];
     BT CContents [] [];
     BT CSection [(a_title, VStr (lit "One")); (a_label, VStr (lit "sec"))]
       [BT CParagraph []
          [txt "see "; BT CPendingReference [(a_target, VStr (lit "thm"))] [];
           BT CPendingReference [(a_target, VStr (lit "nowhere"))] [];
           BT CPendingCite [(a_targetlabels, VStrs [lit "k1"; lit "k2"])] [];
           BT CURL [(a_target, VStr (lit "http://example.com")); (a_overwrite_reftext, VStr (lit "there"))] [];
           BT CMathBlock [(a_label, VStr (lit "eq"))] [txt "x=y"]; txt "after"];
        BT CTheorem [(a_label, VStr (lit "thm")); (a_title, VStr (lit "Main"))]
          [BT CParagraph [] [BT CConstruct [(a_kind, VStr (lit "let"))] [txt "x"]; BT CConstruct [(a_kind, VStr (lit "then"))] [txt "y"]]];
        BT CProof []
          [BT CStep [(a_label, VStr (lit "s1"))] [txt "first"];
           BT CStep []
             [txt "second"; BT CPendingPrev [(a_target, VStr (lit "1"))] [];
              BT CStep [] [txt "sub"]; BT CStep [] [txt "sub2"]]];
        BT CSubsection [(a_title, VStr (lit "Sub"))]
          [BT CItemize [] [BT CItem [] [BT CParagraph [] [txt "item"]]; BT CItem [] [txt "other"]];
           BT CFigure [(a_path, VStr (lit "fig")); (a_scale, VFloat (lit "1.0"))] [BT CCaption [] [txt "caption"]];
           BT CCodeBlock [] [txt "code"]]];
     BT CBibliography [] [BT CBibitem [(a_label, VStr (lit "k1")); (a_kind, VStr (lit "article")); (a_author, VStr (lit "Bob")); (a_title, VStr (lit "T"));
        (a_year, VStr (lit "1999")); (a_journal, VStr (lit "J"))] []];
     BT CAppendix [] [];
     BT CSection [(a_title, VStr (lit "More"))] []].
Definition pdemo_st : st := fst (run (build pdemo)).
Definition pdemo_tree : tree := Eval vm_compute in built_tree pdemo.
Lemma pdemo_ready : SpecResult.ready pdemo_st pdemo_tree.
Proof. apply (built_ready_tree pdemo); vm_compute; reflexivity. Qed.
Lemma pdemo_presentable : presentable_handrails pdemo_st pdemo_tree.
Proof. apply presentableb_ok; [exact pdemo_ready|]. vm_compute. reflexivity. Qed.
Lemma pdemo_handrails : exists s' t', transforms_to pdemo_st pdemo_tree s' /\ root t' = root pdemo_tree /\ handrails_doc s' t'.
Proof.
  pose proof (ph_doc _ _ pdemo_presentable) as P. destruct (transform_total _ _ (ps_transformable _ _ P)) as [s' H]. exists s'.
  destruct (transform_presented _ _ _ P H) as (t' & Hr & _ & HD). exists t'. split; [exact H|]. split; [exact Hr|]. apply HD, pdemo_presentable.
Qed.
