(** Sources with mistakes that transform lets pass. *)
From Verif Require Export StuckDemo.
From Verif Require Import PresentDemo.
From Verif Require Export Stuck5.
From Verif Require Import ResolvePrev Autonumber Labels NodeOps Monad.
Local Open Scope string_scope.
Local Open Scope list_scope.

Definition printb (s : st) (n : node) : bool :=
  match n_cls n with
  | CBaseReference | CReference => false
  | CURL => match n_attrs n !! a_target with Some VNone | Some (VStr _) => true | _ => false end
  | CMathBlock => match n_parent n with
                  | Some p => negb (existsb (is_class s p) [CStep; CItemize; CEnumerate; CContents; CCaption; CPendingReference; CPendingCite; CPendingPrev])
                  | None => true
                  end
  | _ => true
  end.
Definition printableb (s : st) (t : tree) : bool :=
  transformableb s t && forallb (fun x => match st_heap s !! x with Some n => printb s n | None => true end) (doc_order t) && all_nodes s (fun _ n => node_templateb n).
Lemma printableb_ok s t : SpecResult.ready s t -> printableb s t = true -> transformable s t /\ printable s t.
Proof.
  intros R H. unfold printableb in H. apply andb_true_iff in H as [H H3]. apply andb_true_iff in H as [H1 H2].
  assert (F : forall x n, x ∈ doc_order t -> st_heap s !! x = Some n -> printb s n = true).
  { intros x n Hx Hn. rewrite forallb_forall in H2. specialize (H2 x ltac:(apply elem_of_list_In, Hx)). rewrite Hn in H2. exact H2. }
  assert (TA : transformable s t) by (apply transformableb_ok; assumption). split; [exact TA|]. constructor.
  - exact R.
  - apply (ta_typed _ _ TA).
  - apply (ta_complete _ _ TA).
  - apply (ta_root _ _ TA).
  - intros x Hx (n & Hn & Hc). pose proof (F x n Hx Hn) as G. unfold printb in G. rewrite Hc in G. discriminate G.
  - intros x Hx (n & Hn & Hc). pose proof (F x n Hx Hn) as G. unfold printb in G. rewrite Hc in G. discriminate G.
  - intros x v Hx (n & Hn & Hc) Hv. pose proof (F x n Hx Hn) as G. unfold printb in G. rewrite Hc in G. unfold value in Hv. rewrite Hn in Hv. rewrite Hv in G. destruct v; try discriminate G; eauto.
  - intros x p c Hx (n & Hn & Hc) (n' & Hn' & Hp) Hcp Hin. assert (n' = n) as -> by congruence. pose proof (F x n Hx Hn) as G. unfold printb in G. rewrite Hc, Hp in G.
    apply negb_true_iff in G. assert (K : existsb (is_class s p) [CStep; CItemize; CEnumerate; CContents; CCaption; CPendingReference; CPendingCite; CPendingPrev] = true).
    { apply existsb_exists. exists c. split; [exact Hin|apply is_class_if, Hcp]. }
    congruence.
  - intros x tmpl Hv. unfold value in Hv. destruct (st_heap s !! x) as [n|] eqn:E; [|discriminate Hv]. pose proof (all_nodes_ok _ _ x n H3 E) as G. cbv beta in G.
    unfold node_templateb in G. rewrite Hv in G. eapply templateb_ok, G.
Qed.
Definition kept_tree (b : bt) : tree := prune (later_contents (st_heap (built b)) (wtree b)) (wtree b).
Definition source_stuck (b : bt) (e : exn) : Prop :=
  printable (built b) (wtree b) /\ (exists s', transforms_to (built b) (wtree b) s') /\ exists x, first_minded (built b) (kept_tree b) x e.
Lemma source_stuck_if b x e : snd (Build.run (build b)) = Ok 0 -> errors_unlabelledb (built b) = true ->
  check_document (st_heap (built b)) (wtree b) = true -> printableb (built b) (wtree b) = true ->
  first_b (mindedb (st_heap (built b))) (doc_order (kept_tree b)) = Some (x, e) -> source_stuck b e.
Proof.
  intros H1 H2 H3 H4 H5. destruct (printableb_ok (built b) (wtree b)) as [TA P]; [apply built_ready_tree; assumption|exact H4|].
  split; [exact P|]. split; [apply transform_total, TA|]. exists x. apply first_if, H5.
Qed.
Definition source_fine (b : bt) : Prop :=
  printable (built b) (wtree b) /\ (exists s', transforms_to (built b) (wtree b) s') /\ forall x e, x ∈ doc_order (kept_tree b) -> ~ minded (st_heap (built b)) x e.
Lemma source_fine_if b : snd (Build.run (build b)) = Ok 0 -> errors_unlabelledb (built b) = true ->
  check_document (st_heap (built b)) (wtree b) = true -> printableb (built b) (wtree b) = true ->
  forallb (fun x => match mindedb (st_heap (built b)) x with None => true | Some _ => false end) (doc_order (kept_tree b)) = true -> source_fine b.
Proof.
  intros H1 H2 H3 H4 H5. destruct (printableb_ok (built b) (wtree b)) as [TA P]; [apply built_ready_tree; assumption|exact H4|].
  split; [exact P|]. split; [apply transform_total, TA|]. intros x e Hx Hm. apply mindedb_spec in Hm.
  rewrite forallb_forall in H5. specialize (H5 x ltac:(apply elem_of_list_In, Hx)). rewrite Hm in H5. discriminate H5.
Qed.

(** With references, citations, a table of contents, another one that is dropped, and a proof with steps in steps. *)
Definition source_with (l : list bt) : bt :=
  BT CManuscript [(a_title, VStr (lit "On examples"))]
    ([BT CAuthor [(a_name, VStr (lit "Ada"))] [];
      BT CContents [] [];
      BT CContents [] [];
      BT CSection [(a_title, VStr (lit "One")); (a_label, VStr (lit "sec"))]
       [BT CParagraph []
          [txt "see "; BT CPendingReference [(a_target, VStr (lit "thm"))] [];
           BT CPendingReference [(a_target, VStr (lit "nowhere"))] [];
           BT CPendingCite [(a_targetlabels, VStrs [lit "k1"; lit "k2"])] [];
           BT CURL [(a_target, VStr (lit "http://example.com")); (a_overwrite_reftext, VStr (lit "there"))] [];
           BT CMathBlock [(a_label, VStr (lit "eq"))] [txt "x=y"]; txt "after"];
        BT CTheorem [(a_label, VStr (lit "thm")); (a_title, VStr (lit "Main"))] [BT CParagraph [] [txt "so"]];
        BT CProof []
          [BT CStep [(a_label, VStr (lit "s1"))] [txt "first"];
           BT CStep []
             [txt "second"; BT CPendingPrev [(a_target, VStr (lit "1"))] [];
              BT CStep [] [txt "sub"]; BT CStep [] [txt "sub2"]]]]] ++ l).
Definition source_formula : bt := source_with [bad_formula; bad_link].
Definition source_link : bt := source_with [bad_link; bad_entry].
Definition source_entry : bt := source_with [bad_entry; bad_formula].
Lemma source_formula_stuck : source_stuck source_formula EAssert.
Proof. eapply source_stuck_if; vm_compute; reflexivity. Qed.
Lemma source_link_stuck : source_stuck source_link (ETranslator (lit "Found a node without a target")).
Proof. eapply source_stuck_if; vm_compute; reflexivity. Qed.
Lemma source_entry_stuck : source_stuck source_entry EAttribute.
Proof. eapply source_stuck_if; vm_compute; reflexivity. Qed.
Lemma source_none_fine : source_fine (source_with []).
Proof. apply source_fine_if; vm_compute; reflexivity. Qed.

(** With handrails. *)
Definition print_railsb (s : st) (n : node) : bool :=
  match n_cls n with
  | CContents => match kids n with [] => true | _ => false end
  | CMathBlock => match n_parent n with Some p => is_class s p CParagraph | None => false end
  | _ => true
  end.
Definition printable_railsb (s : st) (t : tree) : bool :=
  forallb (fun x => match st_heap s !! x with Some n => print_railsb s n | None => true end) (doc_order t).
Lemma printable_rails_if s t : printable s t -> printable_railsb s t = true -> printable_rails s t.
Proof.
  intros P G. unfold printable_railsb in G. rewrite forallb_forall in G.
  assert (F : forall x n, x ∈ doc_order t -> st_heap s !! x = Some n -> print_railsb s n = true).
  { intros x n Hx Hn. specialize (G x ltac:(apply elem_of_list_In, Hx)). rewrite Hn in G. exact G. }
  constructor.
  - exact P.
  - intros x Hx (n & Hn & Hc). pose proof (F x n Hx Hn) as K. unfold print_railsb in K. rewrite Hc in K. destruct (n_parent n) as [p|] eqn:Ep; [|discriminate K].
    exists p. split; [exists n; auto|apply is_class_of, K].
  - intros x Hx (n & Hn & Hc). pose proof (F x n Hx Hn) as K. unfold print_railsb in K. rewrite Hc in K. exists n. split; [exact Hn|]. destruct (kids n); [reflexivity|discriminate K].
Qed.
Definition source_stuck_rails (b : bt) (e : exn) : Prop :=
  printable_rails (built b) (wtree b) /\ (exists s', transforms_to (built b) (wtree b) s') /\ exists x, first_minded_rails (built b) (kept_tree b) x e.
Lemma source_stuck_rails_if b x e : snd (Build.run (build b)) = Ok 0 -> errors_unlabelledb (built b) = true ->
  check_document (st_heap (built b)) (wtree b) = true -> printableb (built b) (wtree b) = true -> printable_railsb (built b) (wtree b) = true ->
  first_b (mindedrb (st_heap (built b))) (doc_order (kept_tree b)) = Some (x, e) -> source_stuck_rails b e.
Proof.
  intros H1 H2 H3 H4 H4' H. destruct (printableb_ok (built b) (wtree b)) as [TA P]; [apply built_ready_tree; assumption|exact H4|].
  split; [apply printable_rails_if; assumption|]. split; [apply transform_total, TA|]. exists x.
  apply first_b_ok in H as (Hf & p & q & Hd & Hp). split; [apply mindedrb_spec, Hf|]. exists p, q. split; [exact Hd|].
  intros y e' Hy Hm. apply mindedrb_spec in Hm. eapply Hp; eassumption.
Qed.
Definition source_fine_rails (b : bt) : Prop :=
  printable_rails (built b) (wtree b) /\ (exists s', transforms_to (built b) (wtree b) s') /\ forall x e, x ∈ doc_order (kept_tree b) -> ~ minded_rails (st_heap (built b)) x e.
Lemma source_fine_rails_if b : snd (Build.run (build b)) = Ok 0 -> errors_unlabelledb (built b) = true ->
  check_document (st_heap (built b)) (wtree b) = true -> printableb (built b) (wtree b) = true -> printable_railsb (built b) (wtree b) = true ->
  forallb (fun x => match mindedrb (st_heap (built b)) x with None => true | Some _ => false end) (doc_order (kept_tree b)) = true -> source_fine_rails b.
Proof.
  intros H1 H2 H3 H4 H4' H5. destruct (printableb_ok (built b) (wtree b)) as [TA P]; [apply built_ready_tree; assumption|exact H4|].
  split; [apply printable_rails_if; assumption|]. split; [apply transform_total, TA|]. intros x e Hx Hm. apply mindedrb_spec in Hm.
  rewrite forallb_forall in H5. specialize (H5 x ltac:(apply elem_of_list_In, Hx)). rewrite Hm in H5. discriminate H5.
Qed.
Definition source_author : bt := source_with [bad_author; bad_link].
Definition source_rails_entry : bt := source_with [bad_entry; bad_author].
Lemma source_author_stuck : source_stuck_rails source_author EAttribute.
Proof. eapply source_stuck_rails_if; vm_compute; reflexivity. Qed.
Lemma source_rails_entry_stuck : source_stuck_rails source_rails_entry EAttribute.
Proof. eapply source_stuck_rails_if; vm_compute; reflexivity. Qed.
Lemma source_rails_link_stuck : source_stuck_rails source_link (ETranslator (lit "Found a node without a target")).
Proof. eapply source_stuck_rails_if; vm_compute; reflexivity. Qed.
Lemma source_none_fine_rails : source_fine_rails (source_with []).
Proof. apply source_fine_rails_if; vm_compute; reflexivity. Qed.
