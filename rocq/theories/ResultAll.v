(** All that is known about the result of transform, about the same tree and map. *)
From Verif Require Export ResultKids TransformTyped.
From Verif Require Import Comparable Labels HandrailDepth Autonumber FullNumber TocPick TocBuild Queries Built Meta Subproofs ResolveAll ResolvePrev Resolve NodeOps Monad.
From Verif Require Import SpecTranslate.

Record result (s : st) (t : tree) (s' : st) (t' : tree) (f : id -> id) (cites : list (list id)) : Prop := {
  rs_transformed : transformed s t s' t' f;
  rs_unique : forall x y, x ∈ doc_order t -> y ∈ doc_order t -> label_of (st_heap s') x = label_of (st_heap s') y -> label_of (st_heap s') x <> [] -> x = y;
  rs_first : forall lbl x, first_labelled (st_heap s) (doc_order t) lbl x -> label_of (st_heap s') x = lbl;
  rs_later : forall lbl x y, first_labelled (st_heap s) (doc_order t) lbl x -> y ∈ doc_order t -> y <> x -> label_of (st_heap s) y = lbl ->
    value (st_heap s') y a_label = Some (VStr []);
  rs_none : forall x, x ∈ doc_order t -> label_of (st_heap s) x = [] -> value (st_heap s') x a_label = value (st_heap s) x a_label;
  rs_pending : forall y, y ∈ doc_order t' -> ~ is_pending (st_heap s') y;
  rs_refs : forall j, j ∈ doc_order t -> class_of (st_heap s) j CPendingReference -> ref_resolved s t s' f j;
  rs_cites_len : length cites = length (List.filter (is_cite (st_heap s)) (doc_order t));
  rs_cites : forall k j ts, nth_error (List.filter (is_cite (st_heap s)) (doc_order t)) k = Some j -> nth_error cites k = Some ts ->
    cite_resolved s t s' f k j ts;
  rs_backlinks : forall x, is_Some (st_heap s !! x) -> backlinks_of (st_heap s') x = backlinks_of (st_heap s) x ++ mentions x 0 cites;
  rs_prevs : forall j, j ∈ doc_order t -> class_of (st_heap s) j CPendingPrev -> prev_resolved s s' f j;
  rs_kids : forall x c l, x ∈ doc_order t -> ~ is_pending (st_heap s) x -> class_of (st_heap s) x c -> c <> CStep ->
    c <> CItemize -> c <> CEnumerate -> c <> CContents -> kids_are (st_heap s) x l ->
    kids_are (st_heap s') x (map f (without (later_contents (st_heap s) t) l));
  rs_translatable : translatable s' t';
  rs_typed : typed s';
  rs_complete : complete s';
  rs_built : all_built s'
}.
Lemma label_default c : In a_label (map fst (default_attrs c)).
Proof.
  assert (E : forallb (fun c => existsb (fun a => bool_decide (a = a_label)) (map fst (default_attrs c))) all_cls = true) by (vm_compute; reflexivity).
  rewrite forallb_forall in E. specialize (E c (all_cls_complete c)). apply existsb_exists in E as (a & Ha & E). apply bool_decide_eq_true in E. subst a. exact Ha.
Qed.
Lemma complete_built s : complete s -> all_built s.
Proof.
  intros H i n Hn a Ha. apply (H i n a Hn).
  assert (E : forallb (fun c => forallb (fun a => existsb (fun b => bool_decide (a = b)) (map fst (default_attrs c))) (eq_attrs c)) all_cls = true) by (vm_compute; reflexivity).
  rewrite forallb_forall in E. specialize (E (n_cls n) (all_cls_complete _)). rewrite forallb_forall in E. specialize (E a Ha). apply existsb_exists in E as (b & Hb & E).
  apply bool_decide_eq_true in E. subst. assumption.
Qed.
Lemma value_node h x a v : value h x a = Some v -> exists n, h !! x = Some n /\ n_attrs n !! a = Some v.
Proof. unfold value. destruct (h !! x) as [n|]; [eauto|discriminate]. Qed.
Lemma typed_translatable s t : manuscript s t -> typed s -> complete s -> translatable s t.
Proof.
  intros Hm Ht Hc. split.
  - exact Hm.
  - intros x y _ H. apply value_node in H as (n & Hn & Hv). apply (Ht _ _ _ _ Hn Hv). constructor.
  - intros x ys y _ H Hy. apply value_node in H as (n & Hn & Hv). apply (Ht _ _ _ _ Hn Hv), Hy.
  - intros x n Hn. destruct (Hc _ _ _ Hn (label_default _)) as [v Hv]. destruct (Ht _ _ _ _ Hn Hv) as [H _]. destruct v; try discriminate H. eauto.
  - intros x v _ H0. apply value_node in H0 as (n & Hn & Hv). destruct (Ht _ _ _ _ Hn Hv) as [H _]. destruct v; try discriminate H; eauto.
Qed.
Lemma transform_result s t s' : ready s t -> typed s -> complete s -> transforms_to s t s' -> exists t' f cites, result s t s' t' f cites.
Proof.
  intros R Ht Hc H. assert (G : typed s' /\ complete s' /\ all_built s').
  { destruct H as (fuel & d & H). destruct (transform_typed fuel [] (root t) [] (fun x H => H) s (conj Ht Hc)) as ([H1 H2] & _ & _); [intros x []|].
    rewrite H in H1, H2. split; [exact H1|]. split; [exact H2|]. apply complete_built, H2. }
  destruct G as (Ht' & Hc' & Hb').
  stages_of R H fuel d' s1 s2 s3 s4 s5 s6 s7 s8 t3 t6 f cites a xs ST TF Hm. exists t6, f, cites.
  assert (HC : length cites = length (List.filter (is_cite (st_heap s)) (doc_order t)) /\
    (forall k j ts, nth_error (List.filter (is_cite (st_heap s)) (doc_order t)) k = Some j -> nth_error cites k = Some ts -> cite_resolved s t s' f k j ts) /\
    (forall x, is_Some (st_heap s !! x) -> backlinks_of (st_heap s') x = backlinks_of (st_heap s) x ++ mentions x 0 cites)) by (eapply cites_resolved; eauto).
  destruct HC as (C1 & C2 & C3).
  split; try assumption.
  - intros. eapply labels_unique; eauto.
  - intros. eapply label_first; eauto.
  - intros. eapply label_later; eauto.
  - intros. eapply label_none; eauto.
  - intros. eapply no_pending; eauto.
  - intros. eapply refs_resolved; eauto.
  - intros. eapply prevs_resolved; eauto.
  - intros. eapply other_kids; eauto.
  - apply typed_translatable; try assumption. apply (tf_manuscript _ _ _ _ _ TF).
Qed.
