(** A Transformer used for two manuscripts with different labels. *)
From Verif Require Export Reuse TransformDemo.
From Verif Require Import TotalDemo ResultAll TreeFacts Consistency ParseReady.
From Verif Require Import NodeOps Monad.
Local Open Scope string_scope.
Local Open Scope list_scope.

Definition used (h : gmap id node) (x : id) : list str :=
  (match label_of h x with [] => [] | l => [l] end) ++
  (match value h x a_target with Some (VStr l) => [l] | _ => [] end) ++
  (match value h x a_targetlabels with Some (VStrs ks) => ks | _ => [] end).
Lemma uses_used h x l : uses h x l -> In l (used h x).
Proof.
  unfold used. intros [[E N]|[E|(ks & E & Hl)]].
  - apply in_or_app. left. rewrite E. destruct l; [congruence|left; reflexivity].
  - apply in_or_app. right. apply in_or_app. left. rewrite E. left. reflexivity.
  - apply in_or_app. right. apply in_or_app. right. rewrite E. apply elem_of_list_In, Hl.
Qed.
Definition not_usedb (d : labels) (h : gmap id node) (t : tree) : bool :=
  forallb (fun x => forallb (fun l => match lookup_label d l with None => true | _ => false end) (used h x)) (doc_order t).
Lemma not_usedb_ok d h t : not_usedb d h t = true -> not_used d h t.
Proof.
  unfold not_usedb. rewrite forallb_forall. intros H x l Hx Hl. apply elem_of_list_In in Hx. specialize (H x Hx).
  rewrite forallb_forall in H. specialize (H l (uses_used _ _ _ Hl)). destruct (lookup_label d l); [discriminate|reflexivity].
Qed.
Definition apartb (h h1 : gmap id node) (t0 t : tree) : bool :=
  forallb (fun x => forallb (fun l => forallb (fun y => negb (str_eqb (label_of h y) l)) (doc_order t0)) (used h1 x)) (doc_order t).
Lemma apartb_ok h h1 t0 t : apartb h h1 t0 t = true ->
  forall x y l, x ∈ doc_order t -> uses h1 x l -> y ∈ doc_order t0 -> label_of h y <> l.
Proof.
  unfold apartb. rewrite forallb_forall. intros H x y l Hx Hl Hy E. apply elem_of_list_In in Hx, Hy. specialize (H x Hx).
  rewrite forallb_forall in H. specialize (H l (uses_used _ _ _ Hl)). rewrite forallb_forall in H. specialize (H y Hy).
  rewrite E, str_eqb_refl in H. discriminate H.
Qed.
Lemma readyb s t : fresh_ok s -> consistent (st_heap s) -> completeb s = true -> errors_unlabelledb s = true -> check_document (st_heap s) t = true -> ready s t.
Proof.
  intros Hf Hc H1 H2 H3. split; [split; [assumption|assumption|apply check_document_sound, H3]|]. split; [apply complete_built, completeb_ok, H1|].
  intros x Hx (n & Hn & Hcl). unfold errors_unlabelledb in H2. rewrite forallb_forall in H2.
  specialize (H2 (x, n)). cbn [fst snd] in H2. rewrite Hcl in H2. cbn in H2.
  destruct (label_of (st_heap s) x); [reflexivity|]. discriminate H2. apply elem_of_list_In, elem_of_map_to_list. assumption.
Qed.

Definition other_one : bt :=
  BT CManuscript [] [BT CSection [(a_label, VStr (lit "a"))] []; BT CParagraph [] [BT CPendingReference [(a_target, VStr (lit "a"))] []]].
Definition other_two : bt :=
  BT CManuscript [] [BT CSection [(a_label, VStr (lit "b"))] []; BT CParagraph [] [BT CPendingReference [(a_target, VStr (lit "b"))] []]].
Definition others_one : st := fst (run (build other_one)).
Definition others_st : st := fst (build other_two others_one).
Definition others_after : st := fst (transform 100 [] 0 others_st).
Definition others_dict : labels := [(lit "a", 1)].
Definition others_tree0 : tree := T 0 [T 1 []; T 2 [T 3 []]].
Definition others_tree : tree := T 4 [T 5 []; T 6 [T 7 []]].

Lemma others_start : fresh_ok others_st /\ consistent (st_heap others_st).
Proof.
  assert (H1 : snd (run (build other_one)) = Ok 0) by (vm_compute; reflexivity).
  assert (H2 : snd (build other_two others_one) = Ok 4) by (vm_compute; reflexivity).
  unfold run in *. destruct (build other_one empty_st) as [s1 r1] eqn:E1. cbn [snd] in H1. subst r1.
  destruct (build_ok _ _ _ _ (proj1 empty_good) (proj2 empty_good) E1) as (Hf & Hc & _).
  unfold others_st. destruct (build other_two others_one) as [s2 r2] eqn:E2. cbn [snd fst] in *. subst r2.
  unfold others_one, run in E2. rewrite E1 in E2. cbn [fst] in E2. destruct (build_ok _ _ _ _ Hf Hc E2) as (Hf2 & Hc2 & _). auto.
Qed.
Lemma others_ready0 : ready others_st others_tree0.
Proof. destruct others_start. apply readyb; [assumption|assumption|vm_compute; reflexivity..]. Qed.
Lemma others_transform : transform 100 [] 0 others_st = (others_after, Ok others_dict).
Proof.
  assert (H : snd (transform 100 [] 0 others_st) = Ok others_dict) by (vm_compute; reflexivity).
  unfold others_after. destruct (transform 100 [] 0 others_st) as [s r]. cbn [fst snd] in *. subst r. reflexivity.
Qed.
Lemma others_ready : ready others_after others_tree.
Proof.
  destruct (fin_whole others_st others_tree0 others_after others_ready0) as (t' & f & TF); [exists 100, others_dict; exact others_transform|].
  destruct (tf_manuscript _ _ _ _ _ TF). apply readyb; [assumption|assumption|vm_compute; reflexivity..].
Qed.
Lemma others_apart : forall x y l, x ∈ doc_order others_tree -> uses (st_heap others_after) x l -> y ∈ doc_order others_tree0 -> label_of (st_heap others_st) y <> l.
Proof. apply apartb_ok. vm_compute. reflexivity. Qed.
(** The second transformation does something. *)
Lemma others_again : exists s2, transform 100 others_dict 4 others_after = (s2, Ok [(lit "a", 1); (lit "b", 5)]) /\
  value (st_heap s2) 9 a_target = Some (VNode 5).
Proof.
  eexists. split; [|].
  - assert (H : snd (transform 100 others_dict 4 others_after) = Ok [(lit "a", 1); (lit "b", 5)]) by (vm_compute; reflexivity).
    rewrite <- H. apply surjective_pairing.
  - vm_compute. reflexivity.
Qed.
Definition elsewhere : labels := [(lit "elsewhere", 0)].
Lemma tdemo_elsewhere : not_used elsewhere (st_heap tdemo_st) tdemo_tree.
Proof. apply not_usedb_ok. vm_compute. reflexivity. Qed.
