(** The linter reports exactly the offences. *)
From Verif Require Export SpecLint Frames TreeFacts.
Local Open Scope string_scope.
Local Open Scope list_scope.

Definition with_logs (s : st) (l : list logrec) : st := MkSt (st_heap s) (st_next s) (st_logs s ++ l).
Lemma with_logs_nil s : with_logs s [] = s.
Proof. unfold with_logs. rewrite app_nil_r. destruct s; reflexivity. Qed.
Lemma with_logs_app s a b : with_logs (with_logs s a) b = with_logs s (a ++ b).
Proof. unfold with_logs. cbn. rewrite app_assoc. reflexivity. Qed.

Lemma getattr_value i a s v : value (st_heap s) i a = Some v -> getattr i a s = (s, Ok v).
Proof.
  unfold value. destruct (st_heap s !! i) as [n|] eqn:E; [|discriminate]. intros V.
  unfold getattr, bind, get_node. rewrite E, V. reflexivity.
Qed.
Lemma lint_msg_run msg i s r c : value (st_heap s) i a_start_point = Some (VPoint r c) ->
  lint_msg msg i s = (with_logs s [lint_record (st_heap s) (i, msg)], Ok tt).
Proof.
  intros V. unfold lint_msg, lint_extra, bind. rewrite (getattr_value _ _ _ _ V). unfold lint_record. cbn. rewrite V. reflexivity.
Qed.

Section Fold.
  Variable h : gmap id node.
  (** A visit that adds the records [f x] for each node. *)
  Lemma fold_records (m : unit -> id -> M unit) (f : id -> list logrec) l :
    (forall u x s, x ∈ l -> st_heap s = h -> m u x s = (with_logs s (f x), Ok tt)) ->
    forall s, st_heap s = h -> foldM m tt l s = (with_logs s (flat_map f l), Ok tt).
  Proof.
    intros H. revert H. induction l as [|x l IH]; intros H s E; cbn.
    - rewrite with_logs_nil. reflexivity.
    - unfold bind. rewrite (H tt x s ltac:(left) E). rewrite IH.
      + rewrite with_logs_app. reflexivity.
      + intros u y s' I. apply H. right. exact I.
      + exact E.
  Qed.
End Fold.
Lemma flat_filter {A B} (f : A -> list B) (p : A -> bool) (g : A -> B) l : (forall x, x ∈ l -> f x = if p x then [g x] else []) ->
  flat_map f l = map g (List.filter p l).
Proof.
  induction l as [|x l IH]; intros H; cbn; [reflexivity|]. rewrite IH by (intros y I; apply H; right; exact I).
  rewrite (H x ltac:(left)). destruct (p x); reflexivity.
Qed.

Definition nothing_attr (i : id) (a : attr) : Prop := False.
Lemma only_logs P s l : only P s (with_logs s l).
Proof.
  split; [reflexivity|]. split; [exists l; reflexivity|]. intros j. cbn. destruct (st_heap s !! j); auto.
Qed.
Lemma ch_lint_msg P msg i : changes (only P) (lint_msg msg i).
Proof.
  unfold lint_msg, lint_extra. apply ch_bind; [apply only_trans| |].
  - apply ch_bind; [apply only_trans|apply ch_getattr; [apply only_refl|apply only_trans]|]. intros v. destruct v; (apply ch_raise || apply ch_ret); apply only_refl.
  - intros p s. exact (only_logs P s [_]).
Qed.
Lemma ch_lint_section P i : changes (only P) (lint_section i).
Proof.
  unfold lint_section. apply ch_bind; [apply only_trans|apply ch_getattr; [apply only_refl|apply only_trans]|]. intros v.
  destruct (truthy v); [apply ch_ret, only_refl|apply ch_lint_msg].
Qed.
Lemma ch_lint_block P i : changes (only P) (lint_block i).
Proof.
  unfold lint_block. apply ch_bind; [apply only_trans|apply ch_parent_of; [apply only_refl|apply only_trans]|]. intros p.
  apply ch_bind; [apply only_trans| |].
  - destruct p; [|apply ch_ret, only_refl]. apply ch_bind; [apply only_trans|apply ch_cls_of; [apply only_refl|apply only_trans]|]. intros c. apply ch_ret, only_refl.
  - intros c. destruct (match c with Some c => subclass c CParagraph | None => false end); [apply ch_ret, only_refl|apply ch_lint_msg].
Qed.

Section Rules.
  Context (h : gmap id node) (t : tree) (Hd : document h t) (Hl : lintable h t).
  Lemma node_there x : x ∈ doc_order t -> exists n, h !! x = Some n.
  Proof. apply (tree_at_in h None t x), Hd. Qed.
  Lemma section_visit u x s : x ∈ doc_order t -> st_heap s = h ->
    visit (cond_class CSection) (fun _ i => lint_section i) u x s =
    (with_logs s (if isb h CSection x && negb (setb h a_label x) then [lint_record h (x, lit "Section with no label")] else []), Ok tt).
  Proof.
    intros I E. destruct u. destruct (node_there x I) as [n N]. unfold visit, bind, get_node, isb. rewrite E, N. unfold cond_class.
    destruct (subclass (n_cls n) CSection); cbn [andb]; [|rewrite with_logs_nil; reflexivity].
    destruct (proj2 Hl x I) as [[v V] (r & c & P)]. unfold setb. rewrite V.
    unfold lint_section, bind. rewrite <-E in V, P. rewrite (getattr_value _ _ _ _ V).
    destruct (truthy v); cbn [negb]; [rewrite with_logs_nil; reflexivity|].
    rewrite (lint_msg_run _ _ _ _ _ P), E. reflexivity.
  Qed.
  Lemma block_visit u x s : x ∈ doc_order t -> st_heap s = h ->
    visit (cond_class CMathBlock) (fun _ i => lint_block i) u x s =
    (with_logs s (if isb h CMathBlock x && negb (in_paragraph h x)
       then [lint_record h (x, lit "MathBlock must be direct child of Paragraph, not " ++ fmt_parent (parent_class h x))] else []), Ok tt).
  Proof.
    intros I E. destruct u. destruct (node_there x I) as [n N]. unfold visit, bind at 1, get_node at 1, isb. rewrite E, N. unfold cond_class.
    destruct (subclass (n_cls n) CMathBlock); cbn [andb]; [|rewrite with_logs_nil; reflexivity].
    destruct (proj2 Hl x I) as [_ (r & c & P)].
    assert (Q : match n_parent n with Some p => is_Some (h !! p) | None => True end).
    { destruct (n_parent n) as [p|] eqn:Ep; [|exact Logic.I].
      destruct Hd as [Ht _]. destruct (tree_at_parent_in h None t x Ht I) as [->|(q & (m & M1 & M2) & J)].
      - inversion Ht; subst. cbn in N. simplify_eq.
      - assert (m = n) as -> by congruence. apply node_there in J as [k K]. exists k. congruence. }
    unfold in_paragraph, parent_class. rewrite N. unfold lint_block, bind, parent_of, bind, get_node. rewrite E, N. cbn -[subclass with_logs].
    rewrite <-E in P.
    destruct (n_parent n) as [p|].
    - destruct Q as [m M]. unfold cls_of, bind, get_node. rewrite E, M. cbn -[subclass with_logs].
      destruct (subclass (n_cls m) CParagraph); cbn [negb]; [rewrite with_logs_nil; reflexivity|].
      rewrite (lint_msg_run _ _ _ _ _ P), E. reflexivity.
    - cbn. rewrite (lint_msg_run _ _ _ _ _ P), E. reflexivity.
  Qed.
End Rules.

Theorem lint_exact fuel s t : document (st_heap s) t -> lintable (st_heap s) t -> length (doc_order t) <= fuel ->
  lint fuel (root t) s =
  (with_logs s (MkLog (lit "RSM") INFO (lit "Linting...") None :: map (lint_record (st_heap s)) (offences (st_heap s) t)), Ok (root t)).
Proof.
  intros Hd Hl L. set (h := st_heap s) in *. unfold lint. unfold bind at 1.
  change (info logger_nodes (lit "Linting...") s) with (with_logs s [MkLog (lit "RSM") INFO (lit "Linting...") None], Ok tt).
  set (s1 := with_logs s _). assert (E1 : st_heap s1 = h) by reflexivity.
  assert (T : lint_manuscript_title (root t) s1 = (with_logs s1 (map (lint_record h) (no_title h t)), Ok tt)).
  { unfold lint_manuscript_title, bind. destruct (proj1 Hl) as [v V]. assert (V1 := V). rewrite <-E1 in V1. rewrite (getattr_value _ _ _ _ V1).
    unfold no_title, setb. rewrite V. destruct (truthy v); [cbn; rewrite with_logs_nil; reflexivity|].
    destruct (proj2 Hl (root t) (root_in_doc_order t)) as [_ (r & c & P)]. rewrite <-E1 in P.
    rewrite (lint_msg_run _ _ _ _ _ P), E1. reflexivity. }
  unfold bind at 1. rewrite T. set (s2 := with_logs s1 _). assert (E2 : st_heap s2 = h) by reflexivity.
  assert (S : lint_section_label fuel (root t) s2 = (with_logs s2 (map (lint_record h) (no_label h t)), Ok tt)).
  { unfold lint_section_label. rewrite (trav_attr_eq (fun _ _ => False) _ _ _ None t) by
      (try (intros; apply ch_lint_section); try (rewrite E2; apply Hd); assumption).
    rewrite (fold_records h _ _ _ (section_visit h t Hd Hl) s2 E2). unfold no_label. rewrite map_map.
    rewrite (flat_filter _ (fun x => isb h CSection x && negb (setb h a_label x)) (fun x => lint_record h (x, lit "Section with no label")));
      [reflexivity|]. intros x _. reflexivity. }
  unfold bind at 1. rewrite S. set (s3 := with_logs s2 _). assert (E3 : st_heap s3 = h) by reflexivity.
  assert (B : lint_mathblock_inside_paragraph fuel (root t) s3 = (with_logs s3 (map (lint_record h) (lone_block h t)), Ok tt)).
  { unfold lint_mathblock_inside_paragraph. rewrite (trav_attr_eq (fun _ _ => False) _ _ _ None t) by
      (try (intros; apply ch_lint_block); try (rewrite E3; apply Hd); assumption).
    rewrite (fold_records h _ _ _ (block_visit h t Hd Hl) s3 E3). unfold lone_block. rewrite map_map.
    rewrite (flat_filter _ (fun x => isb h CMathBlock x && negb (in_paragraph h x))
      (fun x => lint_record h (x, lit "MathBlock must be direct child of Paragraph, not " ++ fmt_parent (parent_class h x))));
      [reflexivity|]. intros x _. reflexivity. }
  unfold bind. rewrite B. unfold ret, s3, s2, s1. rewrite !with_logs_app. unfold offences. rewrite !map_app. reflexivity.
Qed.
(** No node is reported twice for the same thing. *)
Lemma offences_once h t : document h t -> NoDup (offences h t).
Proof.
  intros [_ N]. unfold offences. apply list.NoDup_app. split; [|split].
  - unfold no_title. destruct (setb h a_title (root t)); [constructor|]. apply list.NoDup_singleton.
  - intros o A B. unfold no_title in A. destruct (setb h a_title (root t)); [inversion A|]. apply elem_of_list_singleton in A. subst o.
    apply elem_of_app in B as [B|B]; apply elem_of_list_In, in_map_iff in B as (x & E & _); discriminate E.
  - assert (F : forall (p : id -> bool) (g : id -> str), NoDup (map (fun x => (x, g x)) (List.filter p (doc_order t)))).
    { intros p g. apply (NoDup_fmap_2_strong (fun x => (x, g x))).
      - intros x y _ _ E. congruence.
      - apply NoDup_ListNoDup, List.NoDup_filter, NoDup_ListNoDup, N. }
    apply list.NoDup_app. split; [apply (F _ (fun _ => _))|]. split; [|apply F].
    intros o A B. apply elem_of_list_In, in_map_iff in A as (x & <- & _). apply elem_of_list_In, in_map_iff in B as (y & E & _). discriminate E.
Qed.
Lemma lint_twice fuel s t : document (st_heap s) t -> lintable (st_heap s) t -> length (doc_order t) <= fuel ->
  exists s', lint fuel (root t) s = (s', Ok (root t)) /\ st_heap s' = st_heap s /\ st_next s' = st_next s.
Proof. intros A B C. eexists. split; [apply lint_exact; assumption|]. split; reflexivity. Qed.
Definition lintableb (h : gmap id node) (t : tree) : bool :=
  match value h (root t) a_title with Some _ => true | None => false end &&
  forallb (fun x => match value h x a_label, value h x a_start_point with Some _, Some (VPoint _ _) => true | _, _ => false end) (doc_order t).
Lemma lintableb_ok h t : lintableb h t = true -> lintable h t.
Proof.
  unfold lintableb. rewrite andb_true_iff, forallb_forall. intros [A B]. split.
  - destruct (value h (root t) a_title); [eauto|discriminate A].
  - intros x I. apply elem_of_list_In in I. specialize (B x I). destruct (value h x a_label); [|discriminate B]. split; [eauto|].
    destruct (value h x a_start_point) as [[]|]; try discriminate B. eauto.
Qed.
