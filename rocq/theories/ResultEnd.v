(** Constructs, handrail depth, node ids and text after transform. *)
From Verif Require Export ResultToc.
From Verif Require Import Consistency Traverse Labels HandrailDepth Autonumber FullNumber TocPick TocBuild Queries Built Meta Subproofs ResolveAll ResolvePrev Resolve NodeOps Monad.

(** *** Looking up a node by its id *)
Lemma children_of_eq i s n : st_heap s !! i = Some n -> children_of i s = (s, Ok (kids n)).
Proof. intros H. unfold children_of, bind. rewrite (get_node_eq _ _ _ H). reflexivity. Qed.
Lemma first_loop_doc cond s : forall fuel ts p,
  Forall (tree_at (st_heap s) p) ts -> length (doc_orders ts) <= fuel ->
  first_loop fuel cond (map root ts) s = (s, Ok (List.find (holds cond (st_heap s)) (doc_orders ts))).
Proof.
  assert (G : forall fuel ts, Forall (fun t => exists p, tree_at (st_heap s) p t) ts -> length (doc_orders ts) <= fuel ->
    first_loop fuel cond (map root ts) s = (s, Ok (List.find (holds cond (st_heap s)) (doc_orders ts)))).
  { induction fuel as [|fuel IH]; intros [|[i cs] ts] Hf Hl; try reflexivity.
    { rewrite doc_orders_cons, doc_order_T in Hl. cbn in Hl. lia. }
    apply list.Forall_cons in Hf as [[p Ht] Hf]. apply tree_at_inv in Ht as (n & Hn & _ & Hk & Hcs).
    cbn [map root first_loop]. unfold bind at 1. rewrite (get_node_eq _ _ _ Hn).
    rewrite doc_orders_cons, doc_order_T. cbn [app List.find]. unfold holds at 1. rewrite Hn.
    destruct (cond n); [reflexivity|]. unfold bind at 1.
    rewrite (children_of_eq _ _ _ Hn), Hk, <- map_app, IH.
    - rewrite doc_orders_app. reflexivity.
    - apply list.Forall_app. split; [|assumption]. eapply list.Forall_impl; [exact Hcs|]. intros u Hu. eauto.
    - rewrite doc_orders_cons, doc_order_T in Hl. rewrite doc_orders_app. cbn in Hl. lia. }
  intros fuel ts p Hf. apply G. eapply list.Forall_impl; [exact Hf|]. eauto.
Qed.
Lemma find_ids h (l : list id) : (forall j x, l !! j = Some x -> value h x a_nodeid = Some (VInt (Z.of_nat j))) ->
  forall k x, l !! k = Some x -> List.find (holds (has_nodeid (Z.of_nat k)) h) l = Some x.
Proof.
  intros H. assert (G : forall m k x, (forall j x, l !! j = Some x -> value h x a_nodeid = Some (VInt (Z.of_nat (m + j)))) ->
    l !! k = Some x -> List.find (holds (has_nodeid (Z.of_nat (m + k))) h) l = Some x).
  { clear H. induction l as [|y l IH]; intros m k x H Hk; [discriminate|].
    pose proof (H 0 y eq_refl) as Hy. unfold value in Hy. destruct (h !! y) as [n|] eqn:En; [|discriminate].
    cbn [List.find]. unfold holds at 1, has_nodeid at 1. rewrite En, Hy. destruct k as [|k].
    - injection Hk as <-. rewrite Z.eqb_refl. reflexivity.
    - destruct (Z.eqb_spec (Z.of_nat (m + 0)) (Z.of_nat (m + S k))) as [E|E]; [lia|].
      replace (m + S k) with (S m + k) by lia. apply IH; [|exact Hk]. intros j z Hj. replace (S m + j) with (m + S j) by lia. apply H. exact Hj. }
  intros k x. apply (G 0). exact H.
Qed.

(** *** Trees without the later contents markers *)
Lemma prune_filter (g : id -> bool) h xs t p : tree_at h p t ->
  (forall x, x ∈ xs -> kids_are h x [] /\ g x = false) -> List.filter g (doc_order (prune xs t)) = List.filter g (doc_order t).
Proof.
  intros Ht Hx. induction Ht as [p i n cs Hi Hp Hk Hcs IH] using tree_at_ind'.
  cbn [prune]. rewrite !doc_order_T. cbn [List.filter].
  enough (E : List.filter g (doc_orders (flat_map (fun c => if decide (root c ∈ xs) then [] else [prune xs c]) cs)) = List.filter g (doc_orders cs)) by (rewrite E; reflexivity).
  clear Hk. induction cs as [|c cs IHc]; [reflexivity|]. apply list.Forall_cons in Hcs as [Hc Hcs]. apply list.Forall_cons in IH as [H1 IH].
  cbn [flat_map]. rewrite doc_orders_app, doc_orders_cons, !List.filter_app, (IHc Hcs IH). f_equal. case_decide as E.
  - destruct c as [j us]. destruct (Hx _ E) as [(m & Hm & Em) Eg]. apply tree_at_inv in Hc as (m' & Hm' & _ & Ek & _). cbn [root] in *.
    assert (m' = m) as -> by congruence. rewrite Em in Ek. destruct us; [|discriminate]. rewrite doc_order_T. cbn. rewrite Eg. reflexivity.
  - rewrite doc_orders_cons. cbn. rewrite app_nil_r. exact H1.
Qed.

Lemma transformed_keeps s t s' t' f (g : gmap id node -> id -> bool) :
  transformed s t s' t' f ->
  (forall y, y ∈ doc_order t' -> y ∉ map f (doc_order t) -> g (st_heap s') y = false) ->
  (forall x, x ∈ doc_order t -> is_pending (st_heap s) x -> g (st_heap s') (f x) = false /\ g (st_heap s) x = false) ->
  (forall x, x ∈ doc_order t -> ~ is_pending (st_heap s) x -> g (st_heap s') x = g (st_heap s) x) ->
  List.filter (g (st_heap s')) (doc_order t') = List.filter (g (st_heap s)) (doc_order (prune (later_contents (st_heap s) t) t)).
Proof.
  intros TF Hadd Hpen Hold. set (keep := fun y => bool_decide (y ∈ map f (doc_order t))).
  assert (E : List.filter (g (st_heap s')) (doc_order t') = List.filter (g (st_heap s')) (List.filter keep (doc_order t'))).
  { assert (Hs : forall y, y ∈ doc_order t' -> keep y = false -> g (st_heap s') y = false).
    { intros y Hy Hk. apply Hadd; [assumption|]. unfold keep in Hk. apply bool_decide_eq_false in Hk. exact Hk. }
    clear -Hs. induction (doc_order t') as [|y l IH]; [reflexivity|]. cbn [List.filter].
    assert (IH' := IH (fun y Hy => Hs y (elem_of_list_further _ _ _ Hy))). destruct (keep y) eqn:Ek.
    - cbn [List.filter]. destruct (g (st_heap s') y); [f_equal|]; exact IH'.
    - rewrite (Hs y) by (assumption || constructor). exact IH'. }
  rewrite E, <- forget_order. unfold keep. rewrite (tf_tree _ _ _ _ _ TF).
  rewrite doc_orders_cons. change (doc_orders []) with (@nil id). rewrite app_nil_r, tmap_order, filter_map_comm.
  assert (Hsub : forall x, x ∈ doc_order (prune (later_contents (st_heap s) t) t) -> x ∈ doc_order t) by (intros x Hx; eapply sublist_in; [apply prune_sublist|exact Hx]).
  induction (doc_order (prune (later_contents (st_heap s) t) t)) as [|x l IH]; [reflexivity|]. cbn [List.filter].
  assert (Hx : x ∈ doc_order t) by (apply Hsub; constructor).
  assert (IH' := IH (fun y Hy => Hsub y (elem_of_list_further _ _ _ Hy))).
  destruct (pendingb (st_heap s) x) eqn:Ep.
  - apply pending_iff in Ep. destruct (Hpen x Hx Ep) as [-> ->]. exact IH'.
  - assert (Hnp : ~ is_pending (st_heap s) x) by (rewrite <- pending_iff, Ep; discriminate).
    rewrite (tf_same _ _ _ _ _ TF x Hx Hnp), (Hold x Hx Hnp). destruct (g (st_heap s) x); cbn [map]; rewrite IH'; [|reflexivity].
    rewrite (tf_same _ _ _ _ _ TF x Hx Hnp). reflexivity.
Qed.

Lemma same_ancestors h h' x l : same_structure h h' -> ancestors h x l -> ancestors h' x l.
Proof.
  intros Hs. induction 1 as [x n Hx Hp|x n p l Hx Hp H IH]; pose proof (Hs x) as Hsx; rewrite Hx in Hsx; destruct (h' !! x) as [n'|] eqn:E; try contradiction;
    destruct Hsx as (_ & Ep & _).
  - eapply ancs_root; [exact E|congruence].
  - eapply ancs_up; [exact E|congruence|assumption].
Qed.
Section result_end.
  Context (fuel : nat) (d d' : labels) (s s1 s2 s3 s4 s5 s6 s7 s8 s' : st) (t t3 t6 : tree)
    (f : id -> id) (cites : list (list id)) (a : num_st) (xs : list id).
  Context (Hm : manuscript s t).
  Context (ST : stages fuel d d' s s1 s2 s3 s4 s5 s6 s7 s8 s' t t3 t6 f cites a xs).
  Notation h := (st_heap s). Notation h1 := (st_heap s1). Notation h2 := (st_heap s2). Notation h3 := (st_heap s3).
  Notation h4 := (st_heap s4). Notation h5 := (st_heap s5). Notation h6 := (st_heap s6). Notation h7 := (st_heap s7).
  Notation h8 := (st_heap s8). Notation h' := (st_heap s').

  Lemma c06 : carried (fun b => b = a_label \/ b = a_backlinks \/ b = a_number \/ b = a_reftext_template) h h6.
  Proof using ST.
    eapply carried_weaken; [|eapply carried_trans; [eapply carried_trans; [exact (c04 ST)|exact (c45 ST)]|exact (c56 ST)]]. intros b; cbv beta; tauto.
  Qed.
  Lemma c07 : carried (fun b => b = a_label \/ b = a_backlinks \/ b = a_number \/ b = a_reftext_template \/ b = a_types) h h7.
  Proof using ST. eapply carried_weaken; [|eapply carried_trans; [exact c06|exact (c67 ST)]]. intros b; cbv beta; tauto. Qed.
  Lemma c7' : carried (fun b => b = a_handrail_depth \/ b = a_nodeid) h7 h'.
  Proof using ST. eapply carried_weaken; [|eapply carried_trans; [exact (c78 ST)|exact (c89 ST)]]. intros b; cbv beta; tauto. Qed.

  (** A node of the result is an old one or has one of these classes. *)
  Lemma new_classes y : y ∈ doc_order t6 -> (y ∈ doc_order t /\ ~ is_pending h y) \/
    (exists c, class_of h' y c /\ c ∈ [CReference; CError; CCite; CStatement; CSubproof; CItem; CItemize] /\ h !! y = None).
  Proof using Hm ST.
    intros Hy. pose proof (result_transformed Hm ST) as TF. destruct (decide (y ∈ map f (doc_order t))) as [Hin|Hin].
    - apply elem_of_list_fmap in Hin as (x & -> & Hx). destruct (pendingb h x) eqn:Ep.
      + right. apply pending_iff in Ep. pose proof (tf_new _ _ _ _ _ TF x Hx Ep) as Hnone.
        destruct (f_new Hm ST x Hx Ep) as (_ & n' & Hn' & Hc).
        exists (n_cls n'). split; [eapply carried_class; [exact (c2' ST)|exists n'; auto]|]. split; [set_solver|assumption].
      + assert (Hnp : ~ is_pending h x) by (rewrite <- pending_iff, Ep; discriminate).
        rewrite (tf_same _ _ _ _ _ TF x Hx Hnp). left. auto.
    - right. destruct (tf_added _ _ _ _ _ TF y Hy Hin) as (Hn & c & Hc & Hin'). exists c. split; [assumption|]. split; [set_solver|assumption].
  Qed.

  Lemma constructs_typed x : x ∈ doc_order t6 -> is_construct h' x = true ->
    exists kind ts, x ∈ doc_order t /\ kind <> [] /\ value h x a_kind = Some (VStr kind) /\ value h x a_types = Some (VStrs ts) /\
      (conclusion_kind kind -> value h' x a_types = Some (VStrs (ts ++ [kind]))) /\
      (~ conclusion_kind kind -> value h' x a_types = Some (VStrs (ts ++ [kind; lit "assumption"]))).
  Proof using Hm ST.
    intros Hx Hc. destruct (new_classes x Hx) as [[Ht Hp]|(c & (n & Hn & Ec) & Hin & _)].
    - assert (H6 : constructb h6 x = true).
      { unfold constructb. destruct (in_h Hm x Ht) as [n0 Hn0]. destruct (c06 _ _ Hn0) as (n6 & Hn6 & _).
        rewrite <- Hc. unfold is_construct. symmetry. apply (carried_classb (fun c => subclass c CConstruct) _ _ _ _ (c6' ST)). eauto. }
      destruct (sg_con ST x Hx H6) as (kind & ts & Hk & Hkind & Htypes & Hv). exists kind, ts. split; [assumption|]. split; [assumption|].
      rewrite (carried_value _ _ _ _ _ c06) in Hkind; [|apply (in_h Hm); assumption|intros [?|[?|[?|?]]]; discriminate].
      rewrite (carried_value _ _ _ _ _ c06) in Htypes; [|apply (in_h Hm); assumption|intros [?|[?|[?|?]]]; discriminate].
      split; [assumption|]. split; [assumption|].
      assert (E : value h' x a_types = value h7 x a_types).
      { apply (carried_value _ _ _ _ _ c7'); [|intros [?|?]; discriminate]. eapply carried_some; [exact c07|]. apply (in_h Hm). assumption. }
      rewrite E, Hv. assert (Hiff : str_mem kind not_assumption = true <-> conclusion_kind kind).
      { unfold conclusion_kind. rewrite str_mem_In. unfold not_assumption. cbn [In]. clear. split; intros H; decompose [or] H; subst; tauto. }
      split; intros Hck.
      + apply Hiff in Hck. rewrite Hck. rewrite app_nil_r. reflexivity.
      + destruct (str_mem kind not_assumption); [exfalso; tauto|]. reflexivity.
    - exfalso. unfold is_construct in Hc. rewrite Hn, Ec in Hc. clear -Hin Hc.
      repeat (apply elem_of_cons in Hin as [-> |Hin]; [discriminate|]). inversion Hin.
  Qed.
  Lemma types_other x : x ∈ doc_order t -> ~ is_pending h x -> is_construct h x = false -> value h' x a_types = value h x a_types.
  Proof using Hm ST.
    intros Hx Hp Hc. assert (Hs : is_Some (h !! x)) by (apply (in_h Hm); assumption).
    rewrite (carried_value _ _ _ _ _ c7'); [|eapply carried_some; [exact c07|assumption]|intros [?|?]; discriminate].
    assert (H6 : constructb h6 x = false).
    { rewrite <- Hc. apply (carried_classb (fun c => subclass c CConstruct) _ _ _ _ c06). assumption. }
    rewrite (value_only _ _ _ _ _ (sg_con_only ST)) by (intros (_ & ? & _); congruence).
    apply (carried_value _ _ _ _ _ c06); [assumption|]. intros [?|[?|[?|?]]]; discriminate.
  Qed.

  Lemma depths x k v : x ∈ doc_order t -> x ∈ doc_order t6 -> handrails_above h' x k -> value h x a_handrail_depth = Some (VInt v) ->
    value h' x a_handrail_depth = Some (VInt (v + Z.of_nat k)).
  Proof using Hm ST.
    intros Ht Hx (l & Hl & ->) Hv.
    assert (S7 : same_structure h' h7).
    { apply same_structure_sym. eapply same_structure_trans; eapply only_structure; [apply (sg_depth_only ST)|apply (sg_ids_only ST)]. }
    assert (Hl7 : ancestors h7 x l) by (eapply same_ancestors; eassumption).
    pose proof (sg_depth ST x l Hx Hl7) as Hd.
    assert (E : map (handrails_of h') l = map (handrails_of h7) l).
    { apply map_ext_in. intros y _. unfold handrails_of. specialize (S7 y). destruct (h' !! y), (h7 !! y); try contradiction; [|reflexivity].
      destruct S7 as (-> & _). reflexivity. }
    rewrite E. rewrite (carried_value _ _ _ _ _ (c89 ST)); [|eapply carried_some; [exact (c78 ST)|]; eapply carried_some; [exact c07|]; apply (in_h Hm); assumption|discriminate].
    rewrite <- (carried_value _ _ _ _ _ c07) in Hv; [|apply (in_h Hm); assumption|intros [?|[?|[?|[?|?]]]]; discriminate].
    destruct Hd as [[-> ->]|(d0 & Hd0 & ->)].
    - rewrite Hv. do 2 f_equal. lia.
    - rewrite Hd0 in Hv. injection Hv as <-. reflexivity.
  Qed.

  Lemma ids k x : doc_order t6 !! k = Some x ->
    value h' x a_nodeid = Some (VInt (Z.of_nat k)) /\
    forall fuel', length (doc_order t6) <= fuel' -> get_child_by_id fuel' (root t6) (Z.of_nat k) s' = (s', Ok (Some x)).
  Proof using ST.
    intros Hk. split; [apply (sg_ids ST); assumption|]. intros fuel' Hf. unfold get_child_by_id.
    pose proof (first_loop_doc (has_nodeid (Z.of_nat k)) s' fuel' [t6] None) as G. cbn [map] in G. rewrite G.
    - rewrite doc_orders_cons. change (doc_orders []) with (@nil id). rewrite app_nil_r. do 2 f_equal.
      apply find_ids; [|assumption]. apply (sg_ids ST).
    - apply list.Forall_cons. split; [|constructor]. apply (ms_document _ _ (sg_m' ST)).
    - rewrite doc_orders_cons. change (doc_orders []) with (@nil id). rewrite app_nil_r. assumption.
  Qed.

  Lemma texts_kept :
    List.filter (is_text h') (doc_order t6) = List.filter (is_text h) (doc_order (prune (later_contents h t) t)) /\
    (forall x, x ∈ doc_order t -> is_text h x = true -> value h' x a_text = value h x a_text).
  Proof using Hm ST.
    pose proof (result_transformed Hm ST) as TF. split.
    - apply (transformed_keeps _ _ _ _ _ is_text TF).
      + intros y Hy Hn. destruct (tf_added _ _ _ _ _ TF y Hy Hn) as (_ & c & (n & Hn' & Ec) & Hin). unfold is_text. rewrite Hn', Ec.
        repeat (apply elem_of_cons in Hin as [-> |Hin]; [reflexivity|]). inversion Hin.
      + intros x Hx Hp. split.
        * destruct (f_new Hm ST x Hx Hp) as (_ & n' & Hn' & Hc).
          destruct (carried_class _ _ _ (f x) (n_cls n') (c2' ST)) as (m & Hm' & Em); [exists n'; auto|].
          unfold is_text. rewrite Hm', Em. repeat (apply elem_of_cons in Hc as [-> |Hc]; [reflexivity|]). inversion Hc.
        * unfold is_text. destruct Hp as [(n & -> & ->)|[(n & -> & ->)|(n & -> & ->)]]; reflexivity.
      + intros x Hx _. apply (carried_classb (fun c => cls_eqb c CText) _ _ _ _ (c0' ST)). apply (in_h Hm). assumption.
    - intros x Hx Ht. destruct (tf_node _ _ _ _ _ TF x Hx) as (n & n' & Hn & Hn' & _ & Ha).
      + unfold is_text in Ht. intros [(n & En & Ec)|[(n & En & Ec)|(n & En & Ec)]]; rewrite En, Ec in Ht; discriminate.
      + unfold value. rewrite Hn, Hn'. apply Ha. unfold transform_attr. intros H. decompose [or] H; discriminate.
  Qed.
End result_end.
