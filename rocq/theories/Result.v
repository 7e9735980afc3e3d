(** The document after transform. *)
From Verif Require Export Stages Forget.
From Verif Require Import Labels HandrailDepth Autonumber FullNumber TocPick Queries Built Meta Subproofs ResolveAll ResolvePrev Resolve NodeOps Monad.

(** Nodes keep their class and the attributes outside [P]. *)
Definition carried (P : attr -> Prop) (h h' : gmap id node) : Prop :=
  forall x n, h !! x = Some n -> exists n', h' !! x = Some n' /\ n_cls n' = n_cls n /\
    forall a, ~ P a -> n_attrs n' !! a = n_attrs n !! a.
Lemma carried_trans P Q h1 h2 h3 : carried P h1 h2 -> carried Q h2 h3 -> carried (fun a => P a \/ Q a) h1 h3.
Proof.
  intros H1 H2 x n Hx. destruct (H1 _ _ Hx) as (n1 & Hn1 & C1 & A1). destruct (H2 _ _ Hn1) as (n2 & Hn2 & C2 & A2).
  exists n2. split; [assumption|]. split; [congruence|]. intros a Ha. rewrite A2, A1; tauto.
Qed.
Lemma carried_weaken (P Q : attr -> Prop) h h' : (forall a, P a -> Q a) -> carried P h h' -> carried Q h h'.
Proof. intros H H1 x n Hx. destruct (H1 _ _ Hx) as (n1 & ? & ? & A1). exists n1. split; [assumption|]. split; [assumption|]. auto. Qed.
Lemma carried_only P (Q : attr -> Prop) s s' : only P s s' -> (forall j a, P j a -> Q a) -> carried Q (st_heap s) (st_heap s').
Proof.
  intros Ho HQ x n Hx. destruct (only_kids _ _ _ _ _ Ho Hx) as (n' & Hn' & Ec & _ & _ & Ha). exists n'.
  split; [assumption|]. split; [assumption|]. intros a Hna. apply Ha. intros H. eauto.
Qed.
Lemma carried_value P h h' x a : carried P h h' -> is_Some (h !! x) -> ~ P a -> value h' x a = value h x a.
Proof. intros H [n Hn] Ha. destruct (H _ _ Hn) as (n' & Hn' & _ & E). unfold value. rewrite Hn, Hn'. auto. Qed.
Lemma carried_class P h h' x c : carried P h h' -> class_of h x c -> class_of h' x c.
Proof. intros H (n & Hn & Ec). destruct (H _ _ Hn) as (n' & Hn' & Ec' & _). exists n'. split; congruence. Qed.
Lemma carried_class_inv P h h' x c : carried P h h' -> is_Some (h !! x) -> class_of h' x c -> class_of h x c.
Proof.
  intros H [n Hn] (m & Hm & Ec). destruct (H _ _ Hn) as (n' & Hn' & Ec' & _). exists n. split; [assumption|]. congruence.
Qed.
Lemma carried_some P h h' x : carried P h h' -> is_Some (h !! x) -> is_Some (h' !! x).
Proof. intros H [n Hn]. destruct (H _ _ Hn) as (n' & Hn' & _). eauto. Qed.
Lemma carried_classb (g : cls -> bool) P h h' x : carried P h h' -> is_Some (h !! x) ->
  match h' !! x with Some n => g (n_cls n) | None => false end = match h !! x with Some n => g (n_cls n) | None => false end.
Proof. intros H [n Hn]. destruct (H _ _ Hn) as (n' & Hn' & Ec & _). rewrite Hn, Hn', Ec. reflexivity. Qed.

Lemma pending_iff h x : pendingb h x = true <-> is_pending h x.
Proof.
  split.
  - intros H. apply pendingb_cases in H as (n & Hn & H). unfold is_pending, class_of. destruct H as [H|[H|H]]; eauto.
  - unfold pendingb, holds. intros [(n & -> & Ec)|[(n & -> & Ec)|(n & -> & Ec)]]; unfold cond_exact; rewrite Ec; reflexivity.
Qed.

Section early.
  Context (d d' : labels) (s s1 s2 s3 : st) (t t3 : tree) (f : id -> id) (cites : list (list id)).
  Context (Hm : manuscript s t).
  Context (ST : early d d' s s1 s2 s3 t t3 f cites).
  Notation h := (st_heap s). Notation h1 := (st_heap s1). Notation h2 := (st_heap s2). Notation h3 := (st_heap s3).
  Lemma c01 : carried (fun b => b = a_label) h h1.
  Proof using ST. eapply carried_only; [apply (sg_labels ST)|]. intros j b [_ ->]. reflexivity. Qed.
  Lemma c12 : carried (fun b => b = a_backlinks) h1 h2.
  Proof using ST.
    intros x n Hx. destruct (ri_old _ _ _ _ _ _ (sg_resolve ST) _ _ Hx) as (n' & ? & ? & _ & _ & ? & _). eauto.
  Qed.
  Lemma c23 : carried (fun _ => False) h2 h3.
  Proof using ST.
    intros x n Hx. destruct (sp_old _ _ _ _ (sg_steps ST) _ _ Hx) as (n' & ? & ? & E). exists n'. rewrite E. auto.
  Qed.
  (** Composed. *)
  Definition late_attr (b : attr) : Prop := b = a_types \/ b = a_handrail_depth \/ b = a_nodeid.
  Definition mid_attr (b : attr) : Prop := b = a_number \/ b = a_reftext_template \/ late_attr b.
  Lemma c02 : carried (fun b => b = a_label \/ b = a_backlinks) h h2.
  Proof using ST. eapply carried_weaken; [|eapply carried_trans; [exact c01|exact c12]]. intros b; cbv beta; tauto. Qed.
  Lemma c03 : carried (fun b => b = a_label \/ b = a_backlinks) h h3.
  Proof using ST. eapply carried_weaken; [|eapply carried_trans; [exact c02|exact c23]]. intros b; cbv beta; tauto. Qed.
  (** Identities of the nodes created by each pass. *)
  Lemma in_h x : x ∈ doc_order t -> is_Some (h !! x).
  Proof using Hm. intros Hx. eapply manuscript_some; eassumption. Qed.
  Lemma n01 : st_next s1 = st_next s.
  Proof using ST. apply (sg_labels ST). Qed.
  Lemma n12 : st_next s1 <= st_next s2.
  Proof using ST. apply (ri_next _ _ _ _ _ _ (sg_resolve ST)). Qed.
  Lemma n23 : st_next s2 <= st_next s3.
  Proof using ST. apply (sp_next _ _ _ _ (sg_steps ST)). Qed.
  Lemma below x n : st_heap s !! x = Some n -> x < st_next s.
  Proof using Hm. apply (proj1 (manuscript_good _ _ Hm)). Qed.

  Lemma pending1 x : x ∈ doc_order t -> pendingb h1 x = true <-> is_pending h x.
  Proof using Hm ST.
    intros Hx. rewrite <- pending_iff. unfold pendingb, holds, cond_exact.
    rewrite (carried_classb (fun c => cls_mem c pending_classes) _ _ _ _ c01) by (apply in_h; assumption). reflexivity.
  Qed.
  Lemma f_same x : x ∈ doc_order t -> ~ is_pending h x -> f x = x.
  Proof using Hm ST.
    intros Hx Hp. apply (ri_fix _ _ _ _ _ _ (sg_resolve ST)).
    intros [_ Hpb]. apply Hp. apply pending1; assumption.
  Qed.
  Lemma f_new x : x ∈ doc_order t -> is_pending h x -> st_next s <= f x /\ exists n', h2 !! f x = Some n' /\ n_cls n' ∈ [CReference; CError; CCite].
  Proof using Hm ST.
    intros Hx Hp. apply pending1 in Hp; [|assumption].
    destruct (ri_res _ _ _ _ _ _ (sg_resolve ST) _ Hx Hp) as (Hf & n & n' & _ & Hn' & _ & Hc & _).
    rewrite n01 in Hf. eauto.
  Qed.
  Lemma f_in2 x : x ∈ doc_order t -> f x ∈ doc_order (tmap f t).
  Proof using. intros Hx. rewrite tmap_order. apply elem_of_list_fmap. eauto. Qed.
  Lemma f_some2 x : x ∈ doc_order t -> is_Some (h2 !! f x).
  Proof using ST. intros Hx. eapply manuscript_some; [apply (sg_m2 ST)|]. apply f_in2. assumption. Qed.

  (** Predicates that new nodes do not satisfy. *)
  Definition by_node (g : node -> bool) (hh : gmap id node) (x : id) : bool :=
    match hh !! x with Some n => g n | None => false end.
  Definition replaced_class (c : cls) : Prop := c = CReference \/ c = CError \/ c = CCite.
  Definition pending_cls (c : cls) : Prop := c = CPendingReference \/ c = CPendingCite \/ c = CPendingPrev.
  Record stable (g : node -> bool) : Prop := {
    sb_same : forall n n', n_cls n' = n_cls n ->
      (forall b, ~ (b = a_label \/ b = a_backlinks) -> n_attrs n' !! b = n_attrs n !! b) -> g n' = g n;
    sb_replaced : forall n, replaced_class (n_cls n) -> g n = false;
    sb_pending : forall n, pending_cls (n_cls n) -> g n = false;
    sb_wrapper : forall n, n_cls n = CStatement \/ n_cls n = CSubproof -> g n = false;
  }.
  Lemma by_node_same g x hh hh' : stable g -> carried (fun b => b = a_label \/ b = a_backlinks) hh hh' -> is_Some (hh !! x) ->
    by_node g hh' x = by_node g hh x.
  Proof using.
    intros Hg H [n Hn]. destruct (H _ _ Hn) as (n' & Hn' & Ec & Ha). unfold by_node. rewrite Hn, Hn'. apply (sb_same _ Hg); assumption.
  Qed.
  Lemma by_node_f g x : x ∈ doc_order t -> stable g ->
    by_node g h2 (f x) = by_node g h x /\ (by_node g h x = true -> f x = x).
  Proof using Hm ST.
    intros Hx Hg. destruct (pendingb h x) eqn:Ep.
    - apply pending_iff in Ep. destruct (f_new x Hx Ep) as (_ & n' & Hn' & Hc).
      assert (E1 : by_node g h x = false).
      { unfold by_node. destruct Ep as [(n & -> & Ec)|[(n & -> & Ec)|(n & -> & Ec)]]; apply (sb_pending _ Hg); unfold pending_cls; auto. }
      rewrite E1. split; [|discriminate]. unfold by_node. rewrite Hn'. apply (sb_replaced _ Hg). unfold replaced_class.
      rewrite !elem_of_cons in Hc. destruct Hc as [->|[->|[->|Hc]]]; [auto..|inversion Hc].
    - assert (Hf : f x = x) by (apply f_same; [assumption|]; rewrite <- pending_iff; congruence).
      rewrite Hf. split; [|reflexivity]. apply by_node_same; [assumption|exact c02|]. apply in_h. assumption.
  Qed.
  Lemma filter_2 g : stable g ->
    List.filter (by_node g h2) (doc_order (tmap f t)) = List.filter (by_node g h) (doc_order t).
  Proof using Hm ST.
    intros Hg. rewrite tmap_order, filter_map_comm.
    rewrite (filter_ext_elem (fun x => by_node g h2 (f x)) (by_node g h)) by (intros x Hx; apply by_node_f; assumption).
    rewrite <- (map_id (List.filter (by_node g h) (doc_order t))) at 2. apply map_ext_in. intros x Hx.
    apply filter_In in Hx as [Hx Hgx]. apply elem_of_list_In in Hx. apply (by_node_f g x Hx Hg). assumption.
  Qed.
  Lemma wrapper3 w : w ∈ doc_order t3 -> h2 !! w = None -> class_of h3 w CStatement \/ class_of h3 w CSubproof.
  Proof using ST.
    intros Hw Hn. destruct (manuscript_some _ _ _ (sg_m3 ST) Hw) as [n Hn3].
    destruct (sub_post_new _ _ _ _ _ _ (sg_steps ST) Hn3 Hn); [left|right]; exists n; auto.
  Qed.
  Lemma order3 : List.filter (existed h2) (doc_order t3) = doc_order (tmap f t).
  Proof using ST.
    eapply restructured_order; [apply (sg_restructured ST)|].
    intros x Hx. eapply manuscript_some; [apply (sg_m2 ST)|exact Hx].
  Qed.
  Lemma filter_3 g : stable g ->
    List.filter (by_node g h3) (doc_order t3) = List.filter (by_node g h) (doc_order t).
  Proof using Hm ST.
    intros Hg. rewrite <- filter_2 by assumption. rewrite <- order3.
    assert (E : forall l, (forall x, x ∈ l -> x ∈ doc_order t3) ->
       List.filter (by_node g h3) l = List.filter (by_node g h2) (List.filter (existed h2) l)).
    { induction l as [|x l IH]; intros Hl; [reflexivity|]. cbn [List.filter].
      rewrite IH by (intros y Hy; apply Hl; constructor; assumption).
      destruct (h2 !! x) as [n|] eqn:E2.
      - rewrite existed_some by (rewrite E2; eauto). cbn [List.filter].
        assert (E : by_node g h3 x = by_node g h2 x).
        { apply by_node_same; [assumption| |eauto]. eapply carried_weaken; [|exact c23]. intros b []. }
        rewrite E. reflexivity.
      - rewrite existed_none by assumption.
        assert (E : by_node g h3 x = false).
        { unfold by_node. destruct (wrapper3 x) as [(n & -> & Ec)|(n & -> & Ec)]; auto; [apply Hl; constructor|..]; apply (sb_wrapper _ Hg); auto. }
        rewrite E. reflexivity. }
    apply E. auto.
  Qed.
  Lemma stable_class (g : cls -> bool) : g CStatement = false -> g CSubproof = false -> g CReference = false -> g CError = false -> g CCite = false ->
    g CPendingReference = false -> g CPendingCite = false -> g CPendingPrev = false -> stable (fun n => g (n_cls n)).
  Proof using.
    intros G1 G2 G3 G4 G5 G6 G7 G8. constructor.
    - intros n n' -> _. reflexivity.
    - intros n [-> |[-> | ->]]; assumption.
    - intros n [-> |[-> | ->]]; assumption.
    - intros n [-> | ->]; assumption.
  Qed.
  Notation keep := (fun y => bool_decide (y ∈ map f (doc_order t))).
  Lemma keep_some2 y : keep y = true -> is_Some (h2 !! y).
  Proof using ST. intros H. apply bool_decide_eq_true in H. apply elem_of_list_fmap in H as (x & -> & Hx). apply f_some2. assumption. Qed.
  Lemma old3 y : y ∈ doc_order t3 -> is_Some (h2 !! y) -> y ∈ map f (doc_order t).
  Proof using ST.
    intros Hy Hs. rewrite <- tmap_order, <- order3. apply elem_of_list_In, filter_In. split; [apply elem_of_list_In; assumption|].
    apply existed_some. assumption.
  Qed.
  Lemma none_h y : h2 !! y = None -> h !! y = None.
  Proof using ST.
    intros H. destruct (h !! y) as [n|] eqn:E; [|reflexivity]. destruct (c02 _ _ E) as (n' & Hn' & _). congruence.
  Qed.
End early.
Arguments c01 {d d' s s1 s2 s3 t t3 f cites} ST.
Arguments c12 {d d' s s1 s2 s3 t t3 f cites} ST.
Arguments c23 {d d' s s1 s2 s3 t t3 f cites} ST.
Arguments c02 {d d' s s1 s2 s3 t t3 f cites} ST.
Arguments c03 {d d' s s1 s2 s3 t t3 f cites} ST.
Arguments in_h {s t} Hm.
Arguments n01 {d d' s s1 s2 s3 t t3 f cites} ST.
Arguments n12 {d d' s s1 s2 s3 t t3 f cites} ST.
Arguments n23 {d d' s s1 s2 s3 t t3 f cites} ST.
Arguments below {s t} Hm.
Arguments pending1 {d d' s s1 s2 s3 t t3 f cites} Hm ST.
Arguments f_same {d d' s s1 s2 s3 t t3 f cites} Hm ST.
Arguments f_new {d d' s s1 s2 s3 t t3 f cites} Hm ST.
Arguments f_some2 {d d' s s1 s2 s3 t t3 f cites} ST.
Arguments by_node_f {d d' s s1 s2 s3 t t3 f cites} Hm ST.
Arguments filter_2 {d d' s s1 s2 s3 t t3 f cites} Hm ST.
Arguments wrapper3 {d d' s s1 s2 s3 t t3 f cites} ST.
Arguments order3 {d d' s s1 s2 s3 t t3 f cites} ST.
Arguments filter_3 {d d' s s1 s2 s3 t t3 f cites} Hm ST.
Arguments keep_some2 {d d' s s1 s2 s3 t t3 f cites} ST.
Arguments old3 {d d' s s1 s2 s3 t t3 f cites} ST.
Arguments none_h {d d' s s1 s2 s3 t t3 f cites} ST.

Section middle.
  Context (d d' : labels) (s s1 s2 s3 s4 : st) (t t3 : tree) (f : id -> id) (cites : list (list id)) (a : num_st).
  Context (Hm : manuscript s t).
  Context (ST : middle d d' s s1 s2 s3 s4 t t3 f cites a).
  Notation h := (st_heap s). Notation h1 := (st_heap s1). Notation h2 := (st_heap s2). Notation h3 := (st_heap s3).
  Notation h4 := (st_heap s4).
  Local Notation c01 := (c01 ST).
  Local Notation c12 := (c12 ST).
  Local Notation c23 := (c23 ST).
  Local Notation c02 := (c02 ST).
  Local Notation c03 := (c03 ST).
  Local Notation in_h := (in_h Hm).
  Local Notation n01 := (n01 ST).
  Local Notation n12 := (n12 ST).
  Local Notation n23 := (n23 ST).
  Local Notation below := (below Hm).
  Local Notation pending1 := (pending1 Hm ST).
  Local Notation f_same := (f_same Hm ST).
  Local Notation f_new := (f_new Hm ST).
  Local Notation f_some2 := (f_some2 ST).
  Local Notation by_node_f := (by_node_f Hm ST).
  Local Notation filter_2 := (filter_2 Hm ST).
  Local Notation wrapper3 := (wrapper3 ST).
  Local Notation order3 := (order3 ST).
  Local Notation filter_3 := (filter_3 Hm ST).
  Local Notation keep_some2 := (keep_some2 ST).
  Local Notation old3 := (old3 ST).
  Local Notation none_h := (none_h ST).

  Lemma c34 : carried (fun b => b = a_number \/ b = a_reftext_template) h3 h4.
  Proof using ST. eapply carried_only; [apply (sg_num_only ST)|]. auto. Qed.
  Lemma c04 : carried (fun b => b = a_label \/ b = a_backlinks \/ b = a_number \/ b = a_reftext_template) h h4.
  Proof using ST. eapply carried_weaken; [|eapply carried_trans; [exact c03|exact c34]]. intros b; cbv beta; tauto. Qed.

  Lemma n34 : st_next s4 = st_next s3.
  Proof using ST. apply (sg_num_only ST). Qed.
  Lemma contents_3 : contents_in h4 (doc_order t3) = List.filter (is_contents h) (doc_order t).
  Proof using Hm ST.
    unfold contents_in.
    rewrite (filter_ext_elem (is_contents h4) (is_contents h3)).
    - apply (filter_3 (fun n => subclass (n_cls n) CContents)). apply (stable_class (fun c => subclass c CContents)); reflexivity.
    - intros x Hx. apply (carried_classb (fun c => subclass c CContents) _ _ _ _ c34).
      eapply manuscript_some; [apply (sg_m3 ST)|exact Hx].
  Qed.
End middle.
Arguments c34 {d d' s s1 s2 s3 s4 t t3 f cites a} ST.
Arguments c04 {d d' s s1 s2 s3 s4 t t3 f cites a} ST.
Arguments n34 {d d' s s1 s2 s3 s4 t t3 f cites a} ST.
Arguments contents_3 {d d' s s1 s2 s3 s4 t t3 f cites a} Hm ST.

Section result.
  Context (fuel : nat) (d d' : labels) (s s1 s2 s3 s4 s5 s6 s7 s8 s' : st) (t t3 t6 : tree)
    (f : id -> id) (cites : list (list id)) (a : num_st) (xs : list id).
  Context (Hm : manuscript s t).
  Context (ST : stages fuel d d' s s1 s2 s3 s4 s5 s6 s7 s8 s' t t3 t6 f cites a xs).
  Notation h := (st_heap s). Notation h1 := (st_heap s1). Notation h2 := (st_heap s2). Notation h3 := (st_heap s3).
  Notation h4 := (st_heap s4). Notation h5 := (st_heap s5). Notation h6 := (st_heap s6). Notation h7 := (st_heap s7).
  Notation h8 := (st_heap s8). Notation h' := (st_heap s').

  Local Notation c01 := (c01 ST).
  Local Notation c12 := (c12 ST).
  Local Notation c23 := (c23 ST).
  Local Notation c02 := (c02 ST).
  Local Notation c03 := (c03 ST).
  Local Notation in_h := (in_h Hm).
  Local Notation n01 := (n01 ST).
  Local Notation n12 := (n12 ST).
  Local Notation n23 := (n23 ST).
  Local Notation below := (below Hm).
  Local Notation pending1 := (pending1 Hm ST).
  Local Notation f_same := (f_same Hm ST).
  Local Notation f_new := (f_new Hm ST).
  Local Notation f_some2 := (f_some2 ST).
  Local Notation by_node_f := (by_node_f Hm ST).
  Local Notation filter_2 := (filter_2 Hm ST).
  Local Notation wrapper3 := (wrapper3 ST).
  Local Notation order3 := (order3 ST).
  Local Notation filter_3 := (filter_3 Hm ST).
  Local Notation keep_some2 := (keep_some2 ST).
  Local Notation old3 := (old3 ST).
  Local Notation none_h := (none_h ST).
  Local Notation c34 := (c34 ST).
  Local Notation c04 := (c04 ST).
  Local Notation n34 := (n34 ST).
  Local Notation contents_3 := (contents_3 Hm ST).

  Lemma c45 : carried (fun _ => False) h4 h5.
  Proof using ST.
    intros x n Hx. destruct (pr_old _ _ _ (sg_pruned ST) _ _ Hx) as (n' & ? & ? & E & _). exists n'. rewrite E. auto.
  Qed.
  Lemma c56 : carried (fun _ => False) h5 h6.
  Proof using ST.
    intros x n Hx. destruct (ex_old _ _ (sg_extends ST) _ _ Hx) as (n' & ? & ? & _ & E & _). exists n'. rewrite E. auto.
  Qed.
  Lemma c67 : carried (fun b => b = a_types) h6 h7.
  Proof using ST. eapply carried_only; [apply (sg_con_only ST)|]. intros j b (_ & _ & ->). reflexivity. Qed.
  Lemma c78 : carried (fun b => b = a_handrail_depth) h7 h8.
  Proof using ST. eapply carried_only; [apply (sg_depth_only ST)|]. auto. Qed.
  Lemma c89 : carried (fun b => b = a_nodeid) h8 h'.
  Proof using ST. eapply carried_only; [apply (sg_ids_only ST)|]. auto. Qed.

  Lemma c6' : carried late_attr h6 h'.
  Proof using ST.
    eapply carried_weaken; [|eapply carried_trans; [eapply carried_trans; [exact c67|exact c78]|exact c89]].
    intros b [[H|H]|H]; unfold late_attr; auto.
  Qed.
  Lemma c4' : carried late_attr h4 h'.
  Proof using ST.
    eapply carried_weaken; [|eapply carried_trans; [eapply carried_trans; [exact c45|exact c56]|exact c6']]. intros b; cbv beta; tauto.
  Qed.
  Lemma c3' : carried mid_attr h3 h'.
  Proof using ST. eapply carried_weaken; [|eapply carried_trans; [exact c34|exact c4']]. intros b; cbv beta; unfold mid_attr; tauto. Qed.
  Lemma c2' : carried mid_attr h2 h'.
  Proof using ST. eapply carried_weaken; [|eapply carried_trans; [exact c23|exact c3']]. intros b; cbv beta; tauto. Qed.
  Lemma c1' : carried (fun b => b = a_backlinks \/ mid_attr b) h1 h'.
  Proof using ST. eapply carried_weaken; [|eapply carried_trans; [exact c12|exact c2']]. intros b; cbv beta; tauto. Qed.
  Lemma c0' : carried transform_attr h h'.
  Proof using ST.
    eapply carried_weaken; [|eapply carried_trans; [exact c01|exact c1']]. intros b; cbv beta; unfold transform_attr, mid_attr, late_attr; tauto.
  Qed.
  Lemma n45 : st_next s5 = st_next s4.
  Proof using ST. apply (pr_next _ _ _ (sg_pruned ST)). Qed.
  Lemma xs_later : xs = later_contents h t.
  Proof using Hm ST. rewrite (sg_xs ST), contents_3. reflexivity. Qed.
  Lemma xs_in x : x ∈ xs -> x ∈ doc_order t /\ is_contents h x = true /\ f x = x.
  Proof using Hm ST.
    rewrite xs_later. unfold later_contents. intros Hx.
    assert (H : x ∈ List.filter (is_contents h) (doc_order t)) by (destruct (List.filter _ _); [inversion Hx|constructor; assumption]).
    apply elem_of_list_In, filter_In in H as [H1 H2]. apply elem_of_list_In in H1. split; [assumption|]. split; [assumption|].
    apply f_same; [assumption|]. unfold is_contents in H2. intros [(n & Hn & Ec)|[(n & Hn & Ec)|(n & Hn & Ec)]]; rewrite Hn, Ec in H2; discriminate.
  Qed.
  Notation keep := (fun y => bool_decide (y ∈ map f (doc_order t))).
  Lemma root_kept : root t ∉ xs.
  Proof using Hm ST.
    intros H. pose proof H as H0. rewrite xs_later in H. unfold later_contents in H.
    pose proof (proj2 (ms_document _ _ Hm)) as Hnd. destruct t as [i cs]. rewrite doc_order_T in *. cbn [root List.filter] in *.
    apply list.NoDup_cons in Hnd as [Hni _].
    assert (Hin : i ∈ doc_orders cs).
    { assert (G : forall l, i ∈ tail (List.filter (is_contents h) l) -> i ∈ l).
      { intros l Hl. assert (Hl' : i ∈ List.filter (is_contents h) l) by (destruct (List.filter _ l); [inversion Hl|constructor; assumption]).
        apply elem_of_list_In, filter_In in Hl' as [? _]. apply elem_of_list_In. assumption. }
      destruct (is_contents h i); [|apply G; assumption]. cbn [tail] in H. apply elem_of_list_In, filter_In in H as [? _]. apply elem_of_list_In. assumption. }
    contradiction.
  Qed.
  Lemma result_tree : forget keep t6 = [tmap f (prune xs t)].
  Proof using Hm ST.
    assert (Hf6 : forget keep (prune (added_ids s5 t6) t6) = forget keep t6).
    { eapply forget_added; [apply (sg_m6 ST)|].
      intros p c Hc Hr y Hy. destruct (bool_decide (y ∈ map f (doc_order t))) eqn:Eb; [|reflexivity].
      pose proof (keep_some2 _ Eb) as [n Hn]. pose proof (proj1 (manuscript_good _ _ (sg_m2 ST)) _ _ Hn) as Hlt.
      assert (Hrt : st_next s5 <= root c).
      { unfold added_ids in Hr. apply elem_of_list_In, filter_In in Hr as [_ Hr]. apply Nat.leb_le in Hr. assumption. }
      pose proof (extends_new_tree _ _ _ _ (sg_extends ST) Hc Hrt y Hy) as Hge.
      pose proof n23. pose proof n34. pose proof n45. lia. }
    rewrite <- Hf6, (sg_t6 ST).
    assert (Hk2 : forall x, x ∈ doc_order (tmap f t) -> keep x = true).
    { intros x Hx. rewrite tmap_order in Hx. apply bool_decide_eq_true. assumption. }
    assert (Hk2' : forall w, h2 !! w = None -> keep w = false).
    { intros w Hw. destruct (bool_decide (w ∈ map f (doc_order t))) eqn:Eb; [|reflexivity].
      apply keep_some2 in Eb as [n Hn]. congruence. }
    assert (Hxk : forall x, x ∈ xs -> x ∈ map f (doc_order t)).
    { intros x Hx. destruct (xs_in x Hx) as (H1 & _ & H2). apply elem_of_list_fmap. exists x. auto. }
    rewrite forget_prune.
    - rewrite (restructured_forget _ _ _ _ keep (sg_restructured ST) Hk2 Hk2').
      unfold prunes. cbn [flat_map]. rewrite decide_False.
      + cbn [app]. f_equal. apply prune_tmap. intros x Hx. split; intros H.
        * destruct (xs_in _ H) as (H1 & _ & H2).
          assert (E : f x = x); [|rewrite E in H; assumption].
          apply (ri_inj _ _ _ _ _ _ (sg_resolve ST)); assumption.
        * destruct (xs_in _ H) as (_ & _ & E). rewrite E. assumption.
      + rewrite tmap_root. intros H. destruct (xs_in _ H) as (H1 & _ & H2).
        assert (E : f (root t) = root t).
        { apply (ri_inj _ _ _ _ _ _ (sg_resolve ST)); [assumption|apply root_in_doc_order|assumption]. }
        rewrite E in H. apply root_kept. assumption.
    - intros x _ Hx. apply bool_decide_eq_true. auto.
    - rewrite (restructured_root _ _ _ _ (sg_restructured ST)), tmap_root.
      intros H. destruct (xs_in _ H) as (H1 & _ & H2).
      assert (E : f (root t) = root t).
      { apply (ri_inj _ _ _ _ _ _ (sg_resolve ST)); [assumption|apply root_in_doc_order|assumption]. }
      rewrite E in H. apply root_kept. assumption.
  Qed.

  Lemma order6 : List.filter (fun x => Nat.ltb x (st_next s5)) (doc_order t6) = doc_order (prune xs t3).
  Proof using ST.
    rewrite <- forget_order.
    assert (E : forget (fun x => Nat.ltb x (st_next s5)) t6 = [prune xs t3]).
    { rewrite <- (forget_added h6 None t6 (fun x => Nat.ltb x (st_next s5)) (added_ids s5 t6)).
      - rewrite (sg_t6 ST). apply forget_all. intros x Hx. apply Nat.ltb_lt.
        destruct (manuscript_some _ _ _ (sg_m5 ST) Hx) as [n Hn].
        eapply (ms_fresh _ _ (sg_m5 ST)). exact Hn.
      - apply (sg_m6 ST).
      - intros p c Hc Hr y Hy. apply Nat.ltb_ge.
        assert (Hrt : st_next s5 <= root c).
        { unfold added_ids in Hr. apply elem_of_list_In, filter_In in Hr as [_ Hr]. apply Nat.leb_le in Hr. assumption. }
        eapply extends_new_tree; [apply (sg_extends ST)|exact Hc|exact Hrt|exact Hy]. }
    rewrite E, doc_orders_cons. apply app_nil_r.
  Qed.
  Lemma old6 y : y ∈ doc_order t6 -> y < st_next s5 -> y ∈ doc_order (prune xs t3) /\ y ∈ doc_order t3.
  Proof using ST.
    intros Hy Hlt. assert (H : y ∈ doc_order (prune xs t3)).
    { rewrite <- order6. apply elem_of_list_In, filter_In. split; [apply elem_of_list_In; assumption|apply Nat.ltb_lt; assumption]. }
    split; [assumption|]. eapply sublist_in; [apply prune_sublist|exact H].
  Qed.
  Lemma new6 y : y ∈ doc_order t6 -> st_next s5 <= y -> exists n, h6 !! y = Some n /\ toc_class (n_cls n).
  Proof using ST.
    intros Hy Hge. apply (sg_new6 ST). unfold added_ids.
    apply elem_of_list_In, filter_In. split; [apply elem_of_list_In; assumption|]. apply Nat.leb_le. assumption.
  Qed.

  Theorem result_transformed : transformed s t s' t6 f.
  Proof using Hm ST.
    constructor.
    - apply (sg_m' ST).
    - apply (sg_r6 ST).
    - apply f_same.
    - intros x Hx Hp. destruct (f_new x Hx Hp) as [Hge _]. destruct (h !! f x) as [n|] eqn:E; [|reflexivity]. apply below in E. lia.
    - intros x y. apply (ri_inj _ _ _ _ _ _ (sg_resolve ST)).
    - rewrite <- xs_later. apply result_tree.
    - intros y Hy Hn. destruct (decide (y < st_next s5)) as [Hlt|Hge].
      + destruct (old6 _ Hy Hlt) as [_ H3].
        assert (E2 : h2 !! y = None) by (destruct (h2 !! y) eqn:E2; [|reflexivity]; exfalso; apply Hn; apply old3; [assumption|eauto]).
        split; [apply none_h; assumption|]. destruct (wrapper3 y H3 E2) as [Hw|Hw]; (eexists; split; [eapply carried_class; [exact c3'|exact Hw]|]); set_solver.
      + destruct (new6 y Hy) as (n & Hn6 & Hc); [lia|]. split.
        { destruct (h !! y) as [m|] eqn:E; [|reflexivity]. apply below in E. pose proof n01. pose proof n12. pose proof n23. pose proof n34. pose proof n45. lia. }
        exists (n_cls n). split; [eapply carried_class; [exact c6'|exists n; auto]|].
        destruct Hc as [->|[->| ->]]; set_solver.
    - intros x Hx _. destruct (in_h x Hx) as [n Hn]. destruct (c0' _ _ Hn) as (n' & Hn' & Ec & Ha). exists n, n'. auto.
  Qed.
End result.
Arguments c45 {fuel d d' s s1 s2 s3 s4 s5 s6 s7 s8 s' t t3 t6 f cites a xs} ST.
Arguments c56 {fuel d d' s s1 s2 s3 s4 s5 s6 s7 s8 s' t t3 t6 f cites a xs} ST.
Arguments c67 {fuel d d' s s1 s2 s3 s4 s5 s6 s7 s8 s' t t3 t6 f cites a xs} ST.
Arguments c78 {fuel d d' s s1 s2 s3 s4 s5 s6 s7 s8 s' t t3 t6 f cites a xs} ST.
Arguments c89 {fuel d d' s s1 s2 s3 s4 s5 s6 s7 s8 s' t t3 t6 f cites a xs} ST.
Arguments c6' {fuel d d' s s1 s2 s3 s4 s5 s6 s7 s8 s' t t3 t6 f cites a xs} ST.
Arguments c4' {fuel d d' s s1 s2 s3 s4 s5 s6 s7 s8 s' t t3 t6 f cites a xs} ST.
Arguments c3' {fuel d d' s s1 s2 s3 s4 s5 s6 s7 s8 s' t t3 t6 f cites a xs} ST.
Arguments c2' {fuel d d' s s1 s2 s3 s4 s5 s6 s7 s8 s' t t3 t6 f cites a xs} ST.
Arguments c1' {fuel d d' s s1 s2 s3 s4 s5 s6 s7 s8 s' t t3 t6 f cites a xs} ST.
Arguments c0' {fuel d d' s s1 s2 s3 s4 s5 s6 s7 s8 s' t t3 t6 f cites a xs} ST.
Arguments n45 {fuel d d' s s1 s2 s3 s4 s5 s6 s7 s8 s' t t3 t6 f cites a xs} ST.
Arguments xs_later {fuel d d' s s1 s2 s3 s4 s5 s6 s7 s8 s' t t3 t6 f cites a xs} Hm ST.
Arguments xs_in {fuel d d' s s1 s2 s3 s4 s5 s6 s7 s8 s' t t3 t6 f cites a xs} Hm ST.
Arguments root_kept {fuel d d' s s1 s2 s3 s4 s5 s6 s7 s8 s' t t3 t6 f cites a xs} Hm ST.
Arguments result_tree {fuel d d' s s1 s2 s3 s4 s5 s6 s7 s8 s' t t3 t6 f cites a xs} Hm ST.
Arguments order6 {fuel d d' s s1 s2 s3 s4 s5 s6 s7 s8 s' t t3 t6 f cites a xs} ST.
Arguments old6 {fuel d d' s s1 s2 s3 s4 s5 s6 s7 s8 s' t t3 t6 f cites a xs} ST.
Arguments new6 {fuel d d' s s1 s2 s3 s4 s5 s6 s7 s8 s' t t3 t6 f cites a xs} ST.
Arguments result_transformed {fuel d d' s s1 s2 s3 s4 s5 s6 s7 s8 s' t t3 t6 f cites a xs} Hm ST.
