(** Numbers after transform. *)
From Verif Require Export ResultSteps.
From Verif Require Import Labels HandrailDepth Autonumber FullNumber TocPick Queries Built Meta Subproofs ResolveAll ResolvePrev Resolve NodeOps Monad.

Definition numbered_node (n : node) : bool :=
  autonumber (n_cls n) && negb (cls_eqb (n_cls n) CStep) &&
  match n_attrs n !! a_nonum with Some v => negb (truthy v) | None => false end.
Definition appendix_node (n : node) : bool := cls_eqb (n_cls n) CAppendix.
Lemma stable_relevant : stable (fun n => numbered_node n || appendix_node n).
Proof.
  assert (Hno : forall n, autonumber (n_cls n) = false -> n_cls n <> CAppendix -> numbered_node n || appendix_node n = false).
  { intros n H1 H2. unfold numbered_node, appendix_node. rewrite H1. destruct (cls_eqb_spec (n_cls n) CAppendix); [contradiction|]. reflexivity. }
  constructor.
  - intros n n' Ec Ha. unfold numbered_node, appendix_node. rewrite Ec, Ha by (intros [G|G]; discriminate). reflexivity.
  - intros n [E|[E|E]]; apply Hno; rewrite E; (reflexivity || discriminate).
  - intros n [E|[E|E]]; apply Hno; rewrite E; (reflexivity || discriminate).
  - intros n [E|E]; apply Hno; rewrite E; (reflexivity || discriminate).
Qed.
Lemma relevant_by_node h x : relevant h x = by_node (fun n => numbered_node n || appendix_node n) h x.
Proof. unfold relevant, by_node, is_numbered, is_appendix. destruct (h !! x); reflexivity. Qed.
Lemma split_unique {A} (p p' q q' : list A) x : NoDup (p ++ x :: q) -> p ++ x :: q = p' ++ x :: q' -> p = p'.
Proof.
  revert p'. induction p as [|y p IH]; intros [|z p'] Hnd E; cbn [app] in *.
  - reflexivity.
  - injection E as -> E. apply list.NoDup_cons in Hnd as [Hn _]. exfalso. apply Hn. rewrite E. set_solver.
  - injection E as -> E. apply list.NoDup_cons in Hnd as [Hn _]. exfalso. apply Hn. set_solver.
  - injection E as -> E. apply list.NoDup_cons in Hnd as [_ Hnd]. rewrite (IH p'); auto.
Qed.
Lemma count_ext h h' w b l : forall k, (forall y, y ∈ l -> count_step h w b 0 y = count_step h' w b 0 y /\ count_step h w b 1 y = count_step h' w b 1 y) ->
  (forall y, y ∈ l -> forall k, count_step h w b k y = count_step h' w b k y) -> count_from h w b k l = count_from h' w b k l.
Proof.
  unfold count_from. induction l as [|y l IH]; intros k _ H; [reflexivity|]. cbn [fold_left].
  rewrite H by constructor. apply IH; intros z Hz; [split|intros]; apply H; constructor; assumption.
Qed.

Section early.
  Context (d d' : labels) (s s1 s2 s3 : st) (t t3 : tree) (f : id -> id) (cites : list (list id)).
  Context (Hm : manuscript s t).
  Context (ST : early d d' s s1 s2 s3 t t3 f cites).
  Notation h := (st_heap s). Notation h1 := (st_heap s1). Notation h2 := (st_heap s2). Notation h3 := (st_heap s3).
  Lemma numbered_3 x : is_Some (h !! x) -> is_numbered h3 x = is_numbered h x.
  Proof using ST.
    intros [n Hn]. destruct (c03 ST _ _ Hn) as (n' & Hn' & Ec & Ha). unfold is_numbered. rewrite Hn, Hn', Ec, Ha; [reflexivity|].
    intros [G|G]; discriminate.
  Qed.
  Lemma appendix_3 x : is_Some (h !! x) -> is_appendix h3 x = is_appendix h x.
  Proof using ST. intros Hx. apply (carried_classb (fun c => cls_eqb c CAppendix) _ _ _ _ (c03 ST) Hx). Qed.
  Lemma scope_3 x : is_Some (h !! x) -> scope_of h3 x = scope_of h x /\ sequence_of h3 x = sequence_of h x.
  Proof using ST.
    intros [n Hn]. destruct (c03 ST _ _ Hn) as (n' & Hn' & Ec & Ha). unfold scope_of, sequence_of. rewrite Hn, Hn', Ec. auto.
  Qed.
  Lemma count_step_3 w b k x : is_Some (h !! x) -> count_step h3 w b k x = count_step h w b k x.
  Proof using ST.
    intros Hx. unfold count_step, opensb, consumesb. rewrite (numbered_3 _ Hx), (appendix_3 _ Hx).
    destruct (scope_3 _ Hx) as [-> ->]. destruct Hx as [n Hn]. destruct (c03 ST _ _ Hn) as (n' & Hn' & Ec & Ha). rewrite Hn, Hn', Ec. reflexivity.
  Qed.
  (** What was visited before [x] is the same for the numbering. *)
  Lemma before_3 p x q : doc_order t = p ++ x :: q -> relevant h x = true ->
    exists p3 q3, doc_order t3 = p3 ++ x :: q3 /\
      List.filter (relevant h3) p3 = List.filter (relevant h) p.
  Proof using Hm ST.
    intros E Hr. assert (Hx : x ∈ doc_order t) by (rewrite E; set_solver).
    assert (H3 : List.filter (relevant h3) (doc_order t3) = List.filter (relevant h) (doc_order t)).
    { etransitivity; [|etransitivity; [apply (filter_3 Hm ST _ stable_relevant)|]].
      - apply filter_ext_elem. intros. apply relevant_by_node.
      - apply filter_ext_elem. intros. symmetry. apply relevant_by_node. }
    assert (Hx3 : x ∈ doc_order t3 /\ relevant h3 x = true).
    { assert (G : x ∈ List.filter (relevant h3) (doc_order t3)) by (rewrite H3; apply elem_of_list_In, filter_In; split; [apply elem_of_list_In|]; assumption).
      apply elem_of_list_In, filter_In in G as [G1 G2]. apply elem_of_list_In in G1. auto. }
    destruct Hx3 as [Hx3 Hr3]. pose proof Hx3 as G. apply elem_of_list_split in G as (p3 & q3 & E3). exists p3, q3. split; [assumption|].
    rewrite E3, E in H3. rewrite !List.filter_app in H3. cbn [List.filter] in H3. rewrite Hr3, Hr in H3.
    eapply split_unique; [|exact H3]. rewrite H3.
    assert (Hnd : NoDup (List.filter (relevant h) (doc_order t))).
    { apply NoDup_ListNoDup, List.NoDup_filter, NoDup_ListNoDup. apply (ms_document _ _ Hm). }
    rewrite E, List.filter_app in Hnd. cbn [List.filter] in Hnd. rewrite Hr in Hnd. exact Hnd.
  Qed.
  Lemma existsb_relevant hh l : existsb (is_appendix hh) l = existsb (is_appendix hh) (List.filter (relevant hh) l).
  Proof using.
    induction l as [|y l IH]; [reflexivity|]. cbn [existsb List.filter]. destruct (relevant hh y) eqn:E; cbn [existsb]; rewrite IH; [reflexivity|].
    unfold relevant in E. apply orb_false_iff in E as [_ ->]. reflexivity.
  Qed.
  Lemma count_same p p3 w b : (forall y, y ∈ p -> y ∈ doc_order t) -> List.filter (relevant h3) p3 = List.filter (relevant h) p ->
    count_in h3 w b p3 = count_in h w b p /\ existsb (is_appendix h3) p3 = existsb (is_appendix h) p.
  Proof using Hm ST.
    intros Hp E. assert (Hin : forall y, y ∈ List.filter (relevant h) p -> is_Some (h !! y)).
    { intros y Hy. apply elem_of_list_In, filter_In in Hy as [Hy _]. apply elem_of_list_In in Hy. apply (in_h Hm). auto. }
    split.
    - unfold count_in. rewrite (count_filter h3), (count_filter h), E. apply count_ext; [intros y Hy; split|intros y Hy k]; apply count_step_3; auto.
    - rewrite (existsb_relevant h3), (existsb_relevant h), E. clear E. induction (List.filter (relevant h) p) as [|y l IH]; [reflexivity|].
      cbn [existsb]. rewrite appendix_3 by (apply Hin; constructor). rewrite IH; [reflexivity|]. intros z Hz. apply Hin. constructor. assumption.
  Qed.
  Lemma in_3 x : x ∈ doc_order t -> ~ is_pending h x -> x ∈ doc_order t3.
  Proof using Hm ST.
    intros Hx Hp. assert (H : x ∈ List.filter (existed h2) (doc_order t3)).
    { rewrite (order3 ST), tmap_order. apply elem_of_list_fmap. exists x. rewrite (f_same Hm ST); auto. }
    apply elem_of_list_In, filter_In in H as [H _]. apply elem_of_list_In. assumption.
  Qed.
  Lemma section_3 x : is_Some (h !! x) -> is_section h3 x = is_section h x.
  Proof using ST. intros Hx. apply (carried_classb (fun c => subclass c CSection) _ _ _ _ (c03 ST) Hx). Qed.
End early.
Arguments numbered_3 {d d' s s1 s2 s3 t t3 f cites} ST.
Arguments appendix_3 {d d' s s1 s2 s3 t t3 f cites} ST.
Arguments scope_3 {d d' s s1 s2 s3 t t3 f cites} ST.
Arguments count_step_3 {d d' s s1 s2 s3 t t3 f cites} ST.
Arguments before_3 {d d' s s1 s2 s3 t t3 f cites} Hm ST.
Arguments count_same {d d' s s1 s2 s3 t t3 f cites} Hm ST.
Arguments in_3 {d d' s s1 s2 s3 t t3 f cites} Hm ST.
Arguments section_3 {d d' s s1 s2 s3 t t3 f cites} ST.

Section result.
  Context (fuel : nat) (d d' : labels) (s s1 s2 s3 s4 s5 s6 s7 s8 s' : st) (t t3 t6 : tree)
    (f : id -> id) (cites : list (list id)) (a : num_st) (xs : list id).
  Context (Hm : manuscript s t).
  Context (ST : stages fuel d d' s s1 s2 s3 s4 s5 s6 s7 s8 s' t t3 t6 f cites a xs).
  Notation h := (st_heap s). Notation h1 := (st_heap s1). Notation h2 := (st_heap s2). Notation h3 := (st_heap s3).
  Notation h4 := (st_heap s4). Notation h5 := (st_heap s5). Notation h6 := (st_heap s6). Notation h7 := (st_heap s7).
  Notation h8 := (st_heap s8). Notation h' := (st_heap s').

  Local Notation numbered_3 := (numbered_3 ST).
  Local Notation appendix_3 := (appendix_3 ST).
  Local Notation scope_3 := (scope_3 ST).
  Local Notation count_step_3 := (count_step_3 ST).
  Local Notation before_3 := (before_3 Hm ST).
  Local Notation count_same := (count_same Hm ST).
  Local Notation in_3 := (in_3 Hm ST).
  Local Notation section_3 := (section_3 ST).

  Definition expected (hh : gmap id node) (p : list id) (x : id) (k : nat) : option val :=
    if cls_list_eqb (scope_of hh x) [CManuscript] && existsb (is_appendix hh) p then letter k else Some (VInt (Z.of_nat (S k))).
  Lemma number_late x : x ∈ doc_order t3 -> value h' x a_number = value h4 x a_number /\ value h' x a_reftext_template = value h4 x a_reftext_template.
  Proof using ST.
    intros Hx. split; (apply (carried_value _ _ _ _ _ (c4' ST)); [eapply manuscript_some; [apply (sg_m4 ST)|assumption]|intros [G|[G|G]]; discriminate]).
  Qed.
  Theorem numbers_expected p x q sc k :
    doc_order t = p ++ x :: q -> is_numbered h x = true ->
    current_scope h (scope_of h x) p sc -> exactly (consumes h (scope_of h x) (sequence_of h x)) k sc ->
    value h' x a_number = expected h p x k /\ is_Some (expected h p x k).
  Proof using Hm ST.
    intros E Hn Hsc Hk. assert (Hr : relevant h x = true) by (unfold relevant; rewrite Hn; reflexivity).
    destruct (before_3 _ _ _ E Hr) as (p3 & q3 & E3 & Ep).
    assert (Hx : x ∈ doc_order t) by (rewrite E; set_solver). assert (Hx3 : x ∈ doc_order t3) by (rewrite E3; set_solver).
    rewrite (proj1 (number_late x Hx3)). pose proof (in_h Hm x Hx) as Hs.
    destruct (ni_number _ _ _ _ (sg_num ST) _ _ _ E3) as [Hval Hsome]; [rewrite numbered_3; assumption|]. rewrite Hval. revert Hsome. clear Hval.
    unfold expected_number, expected. destruct (scope_3 _ Hs) as [-> ->].
    destruct (count_same p p3 (scope_of h x) (sequence_of h x)) as [-> ->]; [intros y Hy; rewrite E; set_solver|assumption|].
    rewrite (count_current _ _ _ _ _ _ Hsc Hk). auto.
  Qed.
  Theorem numbers_other x : x ∈ doc_order t -> ~ is_pending h x -> is_numbered h x = false -> ~ class_of h x CStep ->
    value h' x a_number = value h x a_number.
  Proof using Hm ST.
    intros Hx Hp Hn Hs. rewrite (proj1 (number_late x (in_3 x Hx Hp))).
    pose proof (in_h Hm x Hx) as Hsome. rewrite (ni_rest _ _ _ _ (sg_num ST)).
    - apply (carried_value _ _ _ _ _ (c03 ST)); [assumption|]. intros [G|G]; discriminate.
    - intros _. rewrite numbered_3; assumption.
    - intros Hs3. exfalso. apply Hs. eapply carried_class_inv; [exact (c03 ST)|assumption|exact Hs3].
  Qed.
  Theorem appendix_template p x q : doc_order t = p ++ x :: q -> is_numbered h x = true -> is_section h x = true ->
    existsb (is_appendix h) p = true ->
    forall tpl, value h x a_reftext_template = Some (VStr tpl) ->
    value h' x a_reftext_template = Some (VStr (replace (lit "{nodeclass}") (lit "Appendix") tpl)).
  Proof using Hm ST.
    intros E Hn Hse Ha tpl Htpl. assert (Hr : relevant h x = true) by (unfold relevant; rewrite Hn; reflexivity).
    destruct (before_3 _ _ _ E Hr) as (p3 & q3 & E3 & Ep).
    assert (Hx : x ∈ doc_order t) by (rewrite E; set_solver). assert (Hx3 : x ∈ doc_order t3) by (rewrite E3; set_solver).
    rewrite (proj2 (number_late x Hx3)). pose proof (in_h Hm x Hx) as Hs.
    rewrite (ni_template _ _ _ _ (sg_num ST) _ _ _ E3), numbered_3, section_3, Hn, Hse by assumption.
    destruct (count_same p p3 [] CNode) as [_ ->]; [intros y Hy; rewrite E; set_solver|assumption|]. rewrite Ha. cbn [andb].
    rewrite (carried_value _ _ _ _ _ (c03 ST)) by (assumption || (intros [G|G]; discriminate)). rewrite Htpl. reflexivity.
  Qed.
  Theorem other_template p x q : doc_order t = p ++ x :: q -> ~ is_pending h x ->
    (is_numbered h x = false \/ is_section h x = false \/ existsb (is_appendix h) p = false) ->
    value h' x a_reftext_template = value h x a_reftext_template.
  Proof using Hm ST.
    intros E Hp Hno. assert (Hx : x ∈ doc_order t) by (rewrite E; set_solver). pose proof (in_h Hm x Hx) as Hs.
    pose proof (in_3 x Hx Hp) as Hx3. rewrite (proj2 (number_late x Hx3)).
    assert (Hc : value h3 x a_reftext_template = value h x a_reftext_template)
      by (apply (carried_value _ _ _ _ _ (c03 ST)); [assumption|intros [G|G]; discriminate]).
    destruct (is_numbered h x) eqn:Hn.
    - assert (Hr : relevant h x = true) by (unfold relevant; rewrite Hn; reflexivity).
      destruct (before_3 _ _ _ E Hr) as (p3 & q3 & E3 & Ep).
      rewrite (ni_template _ _ _ _ (sg_num ST) _ _ _ E3), numbered_3, section_3, Hn by assumption.
      destruct (count_same p p3 [] CNode) as [_ ->]; [intros y Hy; rewrite E; set_solver|assumption|].
      destruct Hno as [G|[->| ->]]; [discriminate|..]; cbn [andb]; rewrite ?andb_false_r; exact Hc.
    - pose proof Hx3 as G. apply elem_of_list_split in G as (p3 & q3 & E3).
      rewrite (ni_template _ _ _ _ (sg_num ST) _ _ _ E3), numbered_3, Hn by assumption. cbn [andb]. exact Hc.
  Qed.
End result.
