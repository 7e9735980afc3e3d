(** Documents with mistakes that translate minds. *)
From Verif Require Import TemplateKept PresentDemo ResolvePrev Autonumber Labels NodeOps Monad.
From Verif Require Export StuckDec.
Local Open Scope string_scope.
Local Open Scope list_scope.

Definition presentb (s : st) (x : id) (n : node) : bool :=
  match n_cls n with
  | CBaseReference | CPendingReference | CPendingPrev => false
  | CURL => match n_attrs n !! a_target with Some VNone | Some (VStr _) => true | _ => false end
  | CMathBlock => match n_parent n with Some p => negb (is_class s p CStep) && negb (is_class s p CCaption) | None => true end
  | _ => true
  end.
Definition presentedb (s : st) (t : tree) : bool :=
  typedb s && completeb s && is_class s (root t) CManuscript &&
  forallb (fun x => match st_heap s !! x with Some n => presentb s x n | None => true end) (doc_order t) && all_nodes s (fun _ n => node_templateb n).
Lemma is_class_if s x c : class_of (st_heap s) x c -> is_class s x c = true.
Proof. intros (n & Hn & <-). unfold is_class. rewrite Hn. destruct (n_cls n); reflexivity. Qed.
Lemma presented_if b : snd (Build.run (build b)) = Ok 0 -> errors_unlabelledb (built b) = true ->
  check_document (st_heap (built b)) (wtree b) = true -> presentedb (built b) (wtree b) = true -> presented (built b) (wtree b).
Proof.
  intros H1 H2 H3 H. assert (R : SpecResult.ready (built b) (wtree b)) by (apply built_ready_tree; assumption). clear H1 H2 H3.
  unfold presentedb in H. apply andb_true_iff in H as [H G5]. apply andb_true_iff in H as [H G4]. apply andb_true_iff in H as [H G3]. apply andb_true_iff in H as [G1 G2].
  revert R G1 G2 G3 G4 G5. generalize (built b) (wtree b). clear b. intros s t R G1 G2 G3 G4 G5.
  assert (F : forall x n, x ∈ doc_order t -> st_heap s !! x = Some n -> presentb s x n = true).
  { intros x n Hx Hn. rewrite forallb_forall in G4. specialize (G4 x ltac:(apply elem_of_list_In, Hx)). rewrite Hn in G4. exact G4. }
  constructor.
  - apply R.
  - apply is_class_of, G3.
  - apply typedb_ok, G1.
  - apply completeb_ok, G2.
  - intros x c y Hx (n & Hn & Hc) Hin. pose proof (F x n Hx Hn) as G. unfold presentb in G. destruct Hin as [<-|[<-|[<-|[]]]]; rewrite Hc in G; discriminate G.
  - intros x v Hx (n & Hn & Hc) Hv. pose proof (F x n Hx Hn) as G. unfold presentb in G. rewrite Hc in G. unfold value in Hv. rewrite Hn in Hv. rewrite Hv in G. destruct v; try discriminate G; eauto.
  - intros x p Hx (n & Hn & Hc) (n' & Hn' & Hp). assert (n' = n) as -> by congruence. pose proof (F x n Hx Hn) as G. unfold presentb in G. rewrite Hc, Hp in G.
    apply andb_true_iff in G as [Ga Gb]. split; intros K; apply is_class_if in K; rewrite K in *; discriminate.
  - intros x tmpl Hv. unfold value in Hv. destruct (st_heap s !! x) as [n|] eqn:E; [|discriminate Hv]. pose proof (all_nodes_ok _ _ x n G5 E) as G. cbv beta in G.
    unfold node_templateb in G. rewrite Hv in G. apply simple_fillable. eapply templateb_ok, G.
Qed.

(** Documents, with something before the mistake and another mistake after it. *)
Definition before : list bt :=
  [BT CAuthor [(a_name, VStr (lit "Ada"))] [];
   BT CSection [(a_title, VStr (lit "One")); (a_label, VStr (lit "sec"))]
     [BT CParagraph [] [txt "a formula"; BT CMathBlock [] [txt "x=y"]; txt "after"];
      BT CTheorem [(a_label, VStr (lit "thm")); (a_title, VStr (lit "Main"))] [BT CParagraph [] [txt "so"]];
      BT CProof [] [BT CStep [] [BT CStatement [] [txt "clear"]]]]].
Definition with_mistakes (b c : bt) : bt := BT CManuscript [(a_title, VStr (lit "On mistakes"))] (before ++ [b; c]).
Definition bad_formula : bt := BT CSection [(a_title, VStr (lit "Two"))] [BT CMathBlock [] [txt "y=z"]].
Definition bad_reference : bt := BT CParagraph [] [txt "see"; BT CReference [] []].
Definition bad_link : bt := BT CParagraph [] [txt "see"; BT CURL [(a_target, VStr [])] []].
Definition bad_entry : bt := BT CBibliography [] [BT CBibitem [(a_label, VStr (lit "k")); (a_author, VStr (lit "Bob")); (a_title, VStr (lit "T"))] []].
Definition bad_author : bt := BT CAuthor [] [].
Definition stuck_at (b : bt) (e : exn) : Prop := presented (built b) (wtree b) /\ exists x, first_minded (built b) (wtree b) x e.
Lemma stuck_if b x e : snd (Build.run (build b)) = Ok 0 -> errors_unlabelledb (built b) = true ->
  check_document (st_heap (built b)) (wtree b) = true -> presentedb (built b) (wtree b) = true ->
  first_b (mindedb (st_heap (built b))) (doc_order (wtree b)) = Some (x, e) -> stuck_at b e.
Proof. intros H1 H2 H3 H4 H5. split; [apply presented_if; assumption|]. exists x. apply first_if, H5. Qed.

Definition doc_formula : bt := with_mistakes bad_formula bad_link.
Definition doc_reference : bt := with_mistakes bad_reference bad_formula.
Definition doc_link : bt := with_mistakes bad_link bad_reference.
Definition doc_entry : bt := with_mistakes bad_entry bad_link.
Lemma doc_formula_stuck : stuck_at doc_formula EAssert.
Proof. eapply stuck_if; vm_compute; reflexivity. Qed.
Lemma doc_reference_stuck : stuck_at doc_reference EAttribute.
Proof. eapply stuck_if; vm_compute; reflexivity. Qed.
Lemma doc_link_stuck : stuck_at doc_link (ETranslator (lit "Found a node without a target")).
Proof. eapply stuck_if; vm_compute; reflexivity. Qed.
Lemma doc_entry_stuck : stuck_at doc_entry EAttribute.
Proof. eapply stuck_if; vm_compute; reflexivity. Qed.

(** A document without mistakes. *)
Definition doc_fine : bt := BT CManuscript [(a_title, VStr (lit "On mistakes"))]
  (before ++ [BT CParagraph [] [txt "see"; BT CURL [(a_target, VStr (lit "http://a"))] []]]).
Definition fine_at (b : bt) : Prop := presented (built b) (wtree b) /\ forall x e, x ∈ doc_order (wtree b) -> ~ minded (st_heap (built b)) x e.
Lemma fine_if b : snd (Build.run (build b)) = Ok 0 -> errors_unlabelledb (built b) = true ->
  check_document (st_heap (built b)) (wtree b) = true -> presentedb (built b) (wtree b) = true ->
  forallb (fun x => match mindedb (st_heap (built b)) x with None => true | Some _ => false end) (doc_order (wtree b)) = true -> fine_at b.
Proof.
  intros H1 H2 H3 H4 H5. split; [apply presented_if; assumption|]. intros x e Hx Hm. apply mindedb_spec in Hm.
  rewrite forallb_forall in H5. specialize (H5 x ltac:(apply elem_of_list_In, Hx)). rewrite Hm in H5. discriminate H5.
Qed.
Lemma doc_fine_fine : fine_at doc_fine.
Proof. apply fine_if; vm_compute; reflexivity. Qed.

(** With handrails. *)
Definition railsb (s : st) (n : node) : bool :=
  match n_cls n with
  | CContents => false
  | CMathBlock => match n_parent n with Some p => is_class s p CParagraph | None => false end
  | _ => true
  end.
Definition presented_railsb (s : st) (t : tree) : bool :=
  forallb (fun x => match st_heap s !! x with Some n => railsb s n | None => true end) (doc_order t).
Lemma presented_rails_if s t : presented s t -> presented_railsb s t = true -> presented_rails s t.
Proof.
  intros P G. unfold presented_railsb in G. rewrite forallb_forall in G.
  assert (F : forall x n, x ∈ doc_order t -> st_heap s !! x = Some n -> railsb s n = true).
  { intros x n Hx Hn. specialize (G x ltac:(apply elem_of_list_In, Hx)). rewrite Hn in G. exact G. }
  constructor.
  - exact P.
  - intros x Hx (n & Hn & Hc). pose proof (F x n Hx Hn) as K. unfold railsb in K. rewrite Hc in K. destruct (n_parent n) as [p|] eqn:Ep; [|discriminate K].
    exists p. split; [exists n; auto|apply is_class_of, K].
  - intros c x Hx (n & Hn & Hc). pose proof (F c n Hx Hn) as K. unfold railsb in K. rewrite Hc in K. discriminate K.
Qed.
Definition stuck_rails_at (b : bt) (e : exn) : Prop := presented_rails (built b) (wtree b) /\ exists x, first_minded_rails (built b) (wtree b) x e.
Lemma stuck_rails_if b x e : snd (Build.run (build b)) = Ok 0 -> errors_unlabelledb (built b) = true ->
  check_document (st_heap (built b)) (wtree b) = true -> presentedb (built b) (wtree b) = true -> presented_railsb (built b) (wtree b) = true ->
  first_b (mindedrb (st_heap (built b))) (doc_order (wtree b)) = Some (x, e) -> stuck_rails_at b e.
Proof.
  intros H1 H2 H3 H4 H4' H. split; [apply presented_rails_if; [apply presented_if; assumption|assumption]|]. exists x.
  apply first_b_ok in H as (Hf & p & q & Hd & Hp). split; [apply mindedrb_spec, Hf|]. exists p, q. split; [exact Hd|].
  intros y e' Hy Hm. apply mindedrb_spec in Hm. eapply Hp; eassumption.
Qed.
Definition doc_author : bt := with_mistakes bad_author bad_link.
Definition doc_rails_link : bt := with_mistakes bad_link bad_author.
Lemma doc_author_stuck : stuck_rails_at doc_author EAttribute.
Proof. eapply stuck_rails_if; vm_compute; reflexivity. Qed.
Lemma doc_rails_link_stuck : stuck_rails_at doc_rails_link (ETranslator (lit "Found a node without a target")).
Proof. eapply stuck_rails_if; vm_compute; reflexivity. Qed.
Definition fine_rails_at (b : bt) : Prop := presented_rails (built b) (wtree b) /\ forall x e, x ∈ doc_order (wtree b) -> ~ minded_rails (st_heap (built b)) x e.
Lemma fine_rails_if b : snd (Build.run (build b)) = Ok 0 -> errors_unlabelledb (built b) = true ->
  check_document (st_heap (built b)) (wtree b) = true -> presentedb (built b) (wtree b) = true -> presented_railsb (built b) (wtree b) = true ->
  forallb (fun x => match mindedrb (st_heap (built b)) x with None => true | Some _ => false end) (doc_order (wtree b)) = true -> fine_rails_at b.
Proof.
  intros H1 H2 H3 H4 H4' H5. split; [apply presented_rails_if; [apply presented_if; assumption|assumption]|]. intros x e Hx Hm. apply mindedrb_spec in Hm.
  rewrite forallb_forall in H5. specialize (H5 x ltac:(apply elem_of_list_In, Hx)). rewrite Hm in H5. discriminate H5.
Qed.
Lemma doc_fine_rails : fine_rails_at doc_fine.
Proof. apply fine_rails_if; vm_compute; reflexivity. Qed.
