(** Corollaries in the form used by the properties of transform, and an example document. *)
From Verif Require Export ReadyDoc ResolvePrev ResolveAll Subproofs.
From Verif Require Import NodeOps Monad.
Local Open Scope string_scope.
Local Open Scope list_scope.

Lemma restructuring_keeps fuel s t s' :
  manuscript s t -> add_necessary_subproofs fuel (root t) s = (s', Ok tt) ->
  exists t', manuscript s' t' /\ restructured (st_heap s) (st_heap s') t t' /\
    List.filter (fun x => bool_decide (is_Some (st_heap s !! x))) (doc_order t') = doc_order t /\
    (forall x n, st_heap s !! x = Some n -> exists n', st_heap s' !! x = Some n' /\ n_cls n' = n_cls n /\ n_attrs n' = n_attrs n).
Proof.
  intros Hm H. destruct (add_necessary_subproofs_ok _ _ _ _ _ Hm H) as (t' & SP & Hm' & HR). exists t'.
  split; [assumption|]. split; [assumption|]. split; [|apply (sp_old _ _ _ _ SP)].
  apply (restructured_order _ _ _ _ HR). intros x Hx. eapply manuscript_some; eassumption.
Qed.
Lemma scope_and_count h w a l : exists sc k, current_scope h w l sc /\ exactly (consumes h w a) k sc.
Proof.
  destruct (current_scope_exists h w l) as (sc & H). destruct (exactly_exists (consumes h w a) sc (consumes_dec h w a)) as (k & Hk).
  exists sc, k. auto.
Qed.
Lemma built_numberable s : all_built s -> numberable (st_heap s).
Proof. intros H x n Hn. specialize (H x n Hn). split; apply H; cbn; auto. Qed.
Lemma full_number_ends fuel x s :
  consistent (st_heap s) -> all_built s -> is_Some (st_heap s !! x) -> 2 * size (st_heap s) < fuel ->
  exists s' r, full_number fuel x s = (s', Ok r).
Proof. intros Hc Hb Hx Hf. apply full_number_total; auto using built_numberable. Qed.
Lemma reftext_ends fuel x s n tmpl l o r : consistent (st_heap s) -> all_built s ->
  st_heap s !! x = Some n -> value (st_heap s) x a_reftext_template = Some (VStr tmpl) -> numbers_to (st_heap s) x l ->
  fills (cls_name (n_cls n)) (join (lit ".") l) tmpl o -> trimmed o r -> 2 * size (st_heap s) < fuel ->
  exists s', reftext fuel x s = (s', Ok r).
Proof. intros Hc Hb. apply reftext_total; auto using built_numberable. Qed.

(** Depth as the number of ancestors with a handrail, when none has two. *)
Definition has_rail (h : gmap id node) (x : id) : bool :=
  match h !! x with Some n => existsb (fun d => has_handrail d && subclass (n_cls n) d) all_cls | None => false end.
Lemma length_existsb {A} (p : A -> bool) l : length (List.filter p l) <= 1 -> length (List.filter p l) = if existsb p l then 1 else 0.
Proof.
  intros H. destruct (existsb p l) eqn:E.
  - apply existsb_exists in E as (x & Hx & E). assert (In x (List.filter p l)) by (apply filter_In; auto).
    destruct (List.filter p l) as [|a [|b r]]; cbn in *; [contradiction|reflexivity|lia].
  - induction l as [|x l IH]; [reflexivity|]. cbn in *. apply orb_false_iff in E as [E1 E2]. rewrite E1 in *. auto.
Qed.
Lemma rails_count h l : (forall x, x ∈ l -> handrails_of h x <= 1) ->
  list_sum (map (handrails_of h) l) = length (List.filter (has_rail h) l).
Proof.
  induction l as [|x l IH]; intros H; [reflexivity|].
  change (handrails_of h x + list_sum (map (handrails_of h) l) = length (if has_rail h x then x :: List.filter (has_rail h) l else List.filter (has_rail h) l)).
  rewrite IH by (intros y Hy; apply H; constructor; exact Hy). specialize (H x (elem_of_list_here _ _)).
  unfold handrails_of, has_rail in *. destruct (h !! x) as [n|]; [|reflexivity]. rewrite (length_existsb _ _ H).
  destruct (existsb _ all_cls); reflexivity.
Qed.
Lemma fin_depth_simple s t s' : ready s t -> transforms_to s t s' -> exists t' f, transformed s t s' t' f /\
  forall x l, x ∈ doc_order t -> x ∈ doc_order t' -> ancestors (st_heap s') x l ->
    (forall a, a ∈ l -> handrails_of (st_heap s') a <= 1) -> value (st_heap s) x a_handrail_depth = Some (VInt 0) ->
    value (st_heap s') x a_handrail_depth = Some (VInt (Z.of_nat (length (List.filter (has_rail (st_heap s')) l)))).
Proof.
  intros R H. destruct (fin_depth s t s' R H) as (t' & f & TF & G). exists t', f. split; [assumption|].
  intros x l Hx Hx' Hl Ho Hv. rewrite (G x _ 0%Z Hx Hx' (ex_intro _ l (conj Hl eq_refl)) Hv).
  rewrite (rails_count _ _ Ho). reflexivity.
Qed.

(** ** An example document with everything that transform treats *)
Definition tdemo : bt :=
  BT CManuscript []
    [BT CContents [] [];
     BT CSection [(a_title, VStr (lit "One")); (a_label, VStr (lit "a"))]
       [BT CParagraph []
          [txt "see "; BT CPendingReference [(a_target, VStr (lit "a")); (a_overwrite_reftext, VStr (lit "here"))] [];
           BT CPendingReference [(a_target, VStr (lit "zz"))] [];
           BT CPendingCite [(a_targetlabels, VStrs [lit "k1"; lit "k2"; lit "k1"])] []];
        BT CTheorem [(a_label, VStr (lit "a"))]
          [BT CParagraph [] [BT CConstruct [(a_kind, VStr (lit "let"))] [txt "x"]; BT CConstruct [(a_kind, VStr (lit "then"))] [txt "y"]]];
        BT CLemma [(a_nonum, VBool true)] []; BT CLemma [] [];
        BT CProof []
          [BT CStep [] [txt "first"];
           BT CParagraph [] [txt "between"];
           BT CStep []
             [txt "second"; BT CPendingPrev [(a_target, VStr (lit "1"))] [];
              BT CStep [] [txt "sub"]; BT CStep [] []]];
        BT CSubsection [(a_title, VStr (lit "Sub"))] [BT CMathBlock [] [txt "x=y"]]];
     BT CContents [] [];
     BT CSection [(a_title, VStr (lit "Two")); (a_nonum, VBool true)] [];
     BT CBibliography [] [BT CBibitem [(a_label, VStr (lit "k1"))] []; BT CBibitem [(a_label, VStr (lit "k3"))] []];
     BT CAppendix [] [];
     BT CSection [(a_title, VStr (lit "Three"))] [];
     BT CSection [(a_title, VStr (lit "Four"))] []].
Definition tdemo_st : st := fst (run (build tdemo)).
Definition tdemo_end : st := fst (transform 300 [] 0 tdemo_st).

Definition tdemo_tree : tree := Eval vm_compute in built_tree tdemo.
Lemma tdemo_ready : ready tdemo_st tdemo_tree.
Proof. apply (built_ready_tree tdemo); vm_compute; reflexivity. Qed.
Lemma runs_to (s : st) (t : tree) fuel :
  match snd (transform fuel [] (root t) s) with Ok _ => true | Err _ => false end = true ->
  transforms_to s t (fst (transform fuel [] (root t) s)).
Proof.
  intros H. exists fuel. destruct (transform fuel [] (root t) s) as [s1 [d|e]]; [|discriminate]. exists d. reflexivity.
Qed.
Lemma tdemo_runs : transforms_to tdemo_st tdemo_tree tdemo_end.
Proof. apply (runs_to tdemo_st tdemo_tree 300). vm_compute. reflexivity. Qed.
Lemma tdemo_consistent : consistent (st_heap tdemo_end).
Proof. destruct (fin_whole _ _ _ tdemo_ready tdemo_runs) as (t' & f & TF). apply (ms_consistent _ _ (tf_manuscript _ _ _ _ _ TF)). Qed.
Lemma tdemo_closest x ds r :
  snd (first_ancestor_of_type 50 x ds tdemo_end) = Ok r -> closest_ancestor (st_heap tdemo_end) ds x r.
Proof.
  intros H. destruct (first_ancestor_of_type 50 x ds tdemo_end) as [s' q] eqn:E. cbn in H. subst q.
  apply first_ancestor_ok in E as [_ E]; [exact E|apply tdemo_consistent].
Qed.
Lemma not_manuscript h x c : class_of h x c -> c <> CManuscript -> ~ class_of h x CManuscript.
Proof. intros (n & H1 & H2) H (m & H3 & H4). congruence. Qed.
Lemma class_if h x c : option_map n_cls (h !! x) = Some c -> class_of h x c.
Proof. destruct (h !! x) as [n|] eqn:E; [|discriminate]. intros [= H]. exists n. auto. Qed.
Lemma kids_if s x n l : option_map kids (st_heap s !! x) = Some l -> n = tt -> kids_are (st_heap s) x l.
Proof. intros H _. destruct (st_heap s !! x) as [m|] eqn:E; [|discriminate]. injection H as H. exists m. auto. Qed.
(** The lemma 15 is number 2 in section 2, which is number 1. *)
Lemma tdemo_numbers : numbers_to (st_heap tdemo_end) 15 [lit "1"; lit "2"].
Proof.
  change [lit "1"; lit "2"] with (([] ++ [lit "1"]) ++ [lit "2"]).
  assert (E1 : forall x c, option_map n_cls (st_heap tdemo_end !! x) = Some c -> cls_eqb c CManuscript = false ->
    ~ class_of (st_heap tdemo_end) x CManuscript).
  { intros x c H Hc. apply (not_manuscript _ _ c); [apply class_if, H|]. intros ->. discriminate Hc. }
  eapply nums_within with (v := VInt 2) (w := VBool false) (a := 2).
  - apply (E1 _ CLemma); vm_compute; reflexivity.
  - vm_compute. reflexivity.
  - reflexivity.
  - vm_compute. reflexivity.
  - apply (nt_int 2). discriminate.
  - left. exists 2. split; [reflexivity|]. apply tdemo_closest. vm_compute. reflexivity.
  - eapply nums_within with (v := VInt 1) (w := VBool false) (a := 0).
    + apply (E1 _ CSection); vm_compute; reflexivity.
    + vm_compute. reflexivity.
    + reflexivity.
    + vm_compute. reflexivity.
    + apply (nt_int 1). discriminate.
    + left. exists 0. split; [reflexivity|]. apply tdemo_closest. vm_compute. reflexivity.
    + apply nums_manuscript. apply class_if. vm_compute. reflexivity.
Qed.

(** ** Documents on which transform fails or gives an unwanted result *)
Definition fails_with (b : bt) (e : exn) : Prop :=
  exists t, ready (fst (run (build b))) t /\ snd (transform 300 [] (root t) (fst (run (build b)))) = Err e.
Lemma fails_if b e : snd (run (build b)) = Ok 0 -> errors_unlabelledb (fst (run (build b))) = true ->
  snd (transform 300 [] 0 (fst (run (build b)))) = Err e -> fails_with b e.
Proof. intros H1 H2 H3. destruct (built_ready b 0 H1 H2) as (t & Hr & R). exists t. rewrite Hr. auto. Qed.
(** The document [b] is ready and transform takes it to [after b]. *)
Definition after (b : bt) : st := fst (transform 300 [] 0 (fst (run (build b)))).
Definition transforms (b : bt) : Prop :=
  exists t, ready (fst (run (build b))) t /\ transforms_to (fst (run (build b))) t (after b).
Lemma transforms_if b : snd (run (build b)) = Ok 0 -> errors_unlabelledb (fst (run (build b))) = true ->
  match snd (transform 300 [] 0 (fst (run (build b)))) with Ok _ => true | Err _ => false end = true -> transforms b.
Proof.
  intros H1 H2 H3. destruct (built_ready b 0 H1 H2) as (t & Hr & R). exists t. split; [assumption|].
  unfold after. rewrite <- Hr in *. apply runs_to. exact H3.
Qed.
Definition cites_section : bt :=
  BT CManuscript [] [BT CSection [(a_label, VStr (lit "a"))] [BT CParagraph [] [BT CPendingCite [(a_targetlabels, VStrs [lit "a"])] []]]].
Definition subproof_first : bt :=
  BT CManuscript [] [BT CProof [] [BT CStep [] [BT CSubproof [] []; txt "x"]]].
Definition appendices (n : nat) : bt :=
  BT CManuscript [] (BT CAppendix [] [] :: repeat (BT CSection [] []) n).
Definition prev_letter : bt :=
  BT CManuscript [] [BT CProof [] [BT CStep [] [BT CPendingPrev [(a_target, VStr (lit "x"))] []]]].
Definition two_theorems : bt := BT CManuscript [] [BT CTheorem [] []; BT CSection [] []; BT CTheorem [] []].
Definition lemma_text : bt := BT CManuscript [] [BT CLemma [] [BT CParagraph [] []]].
Definition nonum_section : bt := BT CManuscript [] [BT CSection [(a_nonum, VBool true)] []].
(** Two manuscripts, 0 and 4, each with a section labelled [a]; the second refers to it. *)
Definition two_docs : M unit :=
  do! build (BT CManuscript [] [BT CSection [(a_label, VStr (lit "a"))] []; BT CParagraph [] [txt "x"]]) in
  do! build (BT CManuscript [] [BT CSection [(a_label, VStr (lit "a"))] []; BT CParagraph [] [BT CPendingReference [(a_target, VStr (lit "a"))] []]]) in
  ret tt.
Fixpoint ancestorsb (h : gmap id node) (x : id) (l : list id) : bool :=
  match h !! x, l with
  | Some n, [] => match n_parent n with None => true | Some _ => false end
  | Some n, p :: l => match n_parent n with Some q => Nat.eqb q p && ancestorsb h p l | None => false end
  | None, _ => false
  end.
Lemma ancestors_if h l : forall x, ancestorsb h x l = true -> ancestors h x l.
Proof.
  induction l as [|p l IH]; intros x H; cbn in H; destruct (h !! x) as [n|] eqn:E; try discriminate; destruct (n_parent n) as [q|] eqn:Ep; try discriminate.
  - eapply ancs_root; eauto.
  - apply andb_true_iff in H as [H1 H2]. apply Nat.eqb_eq in H1 as ->. eapply ancs_up; eauto.
Qed.
Lemma two_docs_differ :
  let s := fst (run two_docs) in
  exists s1 d s2 d2 s3 d3,
    transform 100 [] 0 s = (s1, Ok d) /\ transform 100 d 4 s1 = (s2, Ok d2) /\ transform 100 [] 4 s1 = (s3, Ok d3) /\
    kids_of s2 6 = [8] /\ kids_of s3 6 = [8] /\
    value (st_heap s2) 8 a_target = Some (VNode 1) /\ value (st_heap s3) 8 a_target = Some (VNode 5) /\
    label_of (st_heap s2) 5 = [] /\ label_of (st_heap s3) 5 = lit "a".
Proof.
  assert (G : forall (p : st * res labels) d, snd p = Ok d -> p = (fst p, Ok d)) by (intros [? ?] ? <-; reflexivity).
  set (s := fst (run two_docs)).
  set (s1 := fst (transform 100 [] 0 s)).
  assert (E1 : snd (transform 100 [] 0 s) = Ok [(lit "a", 1)]) by (vm_compute; reflexivity).
  set (s2 := fst (transform 100 [(lit "a", 1)] 4 s1)).
  assert (E2 : snd (transform 100 [(lit "a", 1)] 4 s1) = Ok [(lit "a", 1)]) by (vm_compute; reflexivity).
  set (s3 := fst (transform 100 [] 4 s1)).
  assert (E3 : snd (transform 100 [] 4 s1) = Ok [(lit "a", 5)]) by (vm_compute; reflexivity).
  exists s1, [(lit "a", 1)], s2, [(lit "a", 1)], s3, [(lit "a", 5)].
  split; [apply G, E1|]. split; [apply G, E2|]. split; [apply G, E3|].
  repeat split; vm_compute; reflexivity.
Qed.
Lemma ancestor_climb h x a : ancestor h x a -> exists p, parent_is h x p /\ (p = a \/ ancestor h p a).
Proof. destruct 1; eauto. Qed.
(** A check of [well_nested] that looks at parents. *)
Definition up1 (h : gmap id node) (x : id) : option id := match h !! x with Some n => n_parent n | None => None end.
Fixpoint no_section_above (fuel : nat) (h : gmap id node) (x : id) : bool :=
  match fuel with
  | 0 => false
  | S fuel => match up1 h x with None => true | Some p => negb (is_section h p) && no_section_above fuel h p end
  end.
Lemma no_section_above_sound fuel h : forall x a, no_section_above fuel h x = true -> ancestor h x a -> is_section h a = false.
Proof.
  induction fuel as [|fuel IH]; intros x a H Ha; cbn in H; [discriminate|].
  apply ancestor_climb in Ha as (p & (n & Hn & Hp) & Ha). unfold up1 in H. rewrite Hn, Hp in H.
  apply andb_true_iff in H as [H1 H2]. destruct Ha as [<- |Ha]; [apply negb_true_iff, H1|eauto].
Qed.
Definition parent_class (h : gmap id node) (x : id) : option cls :=
  match up1 h x with Some p => option_map n_cls (h !! p) | None => None end.
Lemma parent_class_sound h x c : parent_class h x = Some c -> exists p, parent_is h x p /\ class_of h p c.
Proof.
  unfold parent_class, up1. destruct (h !! x) as [n|] eqn:E; [|discriminate]. destruct (n_parent n) as [p|] eqn:Ep; [|discriminate].
  intros H. exists p. split; [exists n; auto|]. apply class_if, H.
Qed.
Definition well_nestedb (h : gmap id node) (t : tree) : bool :=
  forallb (fun x => match option_map n_cls (h !! x) with
    | Some CSection => no_section_above 50 h x
    | Some CSubsection => match parent_class h x with Some c => cls_eqb c CSection | None => false end
    | Some CSubsubsection => match parent_class h x with Some c => cls_eqb c CSubsection | None => false end
    | _ => true end) (doc_order t).
Lemma well_nestedb_sound h t : well_nestedb h t = true -> well_nested h t.
Proof.
  unfold well_nestedb. rewrite forallb_forall. intros H x Hx. apply elem_of_list_In in Hx. specialize (H x Hx).
  split; [|split]; intros (n & Hn & Hc); rewrite Hn in H; cbn [option_map] in H; rewrite Hc in H.
  - intros a Ha. eapply no_section_above_sound; eauto.
  - destruct (parent_class h x) as [c|] eqn:E; [|discriminate]. destruct (cls_eqb_spec c CSection) as [-> |]; [|discriminate]. apply parent_class_sound, E.
  - destruct (parent_class h x) as [c|] eqn:E; [|discriminate]. destruct (cls_eqb_spec c CSubsection) as [-> |]; [|discriminate]. apply parent_class_sound, E.
Qed.
