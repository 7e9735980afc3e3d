(** The texts of the manuscript of the source are the texts shown after transform. *)
From Verif Require Export Rendered.
From Verif Require Import ResultEnd ResultSteps TreeFacts Forget Consistency NodeOps Resolve ResolveAll Result Monad.
Local Open Scope list_scope.

Lemma flat_map_some {A B} (f : A -> list B) l : flat_map f l = flat_map f (List.filter (fun x => match f x with [] => false | _ => true end) l).
Proof. induction l as [|a l IH]; [reflexivity|]. cbn [flat_map List.filter]. rewrite IH. destruct (f a) eqn:E; [reflexivity|]. cbn [flat_map]. rewrite E. reflexivity. Qed.
Lemma order_after s t s' t' f (g : id -> bool) : transformed s t s' t' f -> manuscript s t ->
  (forall y, y ∈ doc_order t' -> y ∉ map f (doc_order t) -> g y = false) ->
  (forall x, x ∈ later_contents (st_heap s) t -> kids_are (st_heap s) x [] /\ g (f x) = false) ->
  List.filter g (doc_order t') = List.filter g (map f (doc_order t)).
Proof.
  intros TF M Ha Hl. pose proof (tf_tree _ _ _ _ _ TF) as E. apply (f_equal doc_orders) in E. rewrite forget_order in E. cbn [doc_orders] in E.
  rewrite (filter_ext_elem g (fun x => bool_decide (x ∈ map f (doc_order t)) && g x) (doc_order t')).
  - assert (F : forall l, List.filter (fun x => bool_decide (x ∈ map f (doc_order t)) && g x) l = List.filter g (List.filter (fun y => bool_decide (y ∈ map f (doc_order t))) l)).
    { induction l as [|y l IH]; [reflexivity|]. cbn [List.filter]. rewrite IH. destruct (bool_decide (y ∈ _)); [|reflexivity]. reflexivity. }
    rewrite F, E. unfold doc_orders. cbn [flat_map]. rewrite app_nil_r, tmap_order, !filter_map_comm. f_equal.
    destruct (ms_document _ _ M) as [Ht _]. apply (prune_filter (fun x => g (f x)) (st_heap s) _ t None Ht). exact Hl.
  - intros x Hx. case_bool_decide as B; [reflexivity|]. cbn. apply Ha; assumption.
Qed.
Lemma own_some hl h x : own_text hl h x <> [] -> exists c, class_of h x c /\ (c = CText \/ c = CError \/ c = CSourceCode).
Proof. unfold own_text. destruct (h !! x) as [n|] eqn:E; [|congruence]. intros H. exists (n_cls n). split; [exists n; auto|]. destruct (n_cls n); try congruence; auto. Qed.
Lemma own_none hl h x c : class_of h x c -> c <> CText -> c <> CError -> c <> CSourceCode -> own_text hl h x = [].
Proof. intros (n & Hn & <-) H1 H2 H3. unfold own_text. rewrite Hn. destruct (n_cls n); congruence. Qed.
Lemma stands_string h x b a : stands h x b -> match value h x a with Some (VStr s) => s | _ => [] end = string_at a b.
Proof. intros (n & us & Hn & _ & Ha & _). unfold value, string_at. rewrite Hn, Ha. reflexivity. Qed.
Lemma stands_value h x b a : stands h x b -> value h x a = a_attrs b !! a.
Proof. intros (n & us & Hn & _ & Ha & _). unfold value. rewrite Hn, Ha. reflexivity. Qed.
Lemma stands_carries h x b lbl : lbl <> [] -> stands h x b -> label_of h x = lbl <-> carries lbl b.
Proof.
  intros Hn S. unfold carries, label_of. rewrite (stands_value _ _ _ _ S). split.
  - intros E. split; [exact Hn|]. destruct (a_attrs b !! a_label) as [[]|]; congruence.
  - intros [_ E]. rewrite E. reflexivity.
Qed.
(** The first node with a label. *)
Lemma first_exists h l lbl x : lbl <> [] -> x ∈ l -> label_of h x = lbl -> exists y, first_labelled h l lbl y.
Proof.
  intros Hn. induction l as [|z l IH]; intros Hx Hl; [apply elem_of_nil in Hx; destruct Hx|].
  destruct (decide (label_of h z = lbl)) as [E|E].
  - exists z. split; [exact Hn|]. split; [exact E|]. exists [], l. split; [reflexivity|]. intros y Hy. apply elem_of_nil in Hy. destruct Hy.
  - apply elem_of_cons in Hx as [->|Hx]; [congruence|]. destruct (IH Hx Hl) as (y & H1 & H2 & l1 & l2 & El & H3). exists y. split; [exact Hn|]. split; [exact H2|].
    exists (z :: l1), l2. split; [rewrite El; reflexivity|]. intros u Hu. apply elem_of_cons in Hu as [->|Hu]; auto.
Qed.
Lemma text_after hl s t s' t' f cites a x b : result s t s' t' f cites -> Forall2 (stands (st_heap s)) (doc_order t) (a_preorder a) ->
  x ∈ doc_order t -> stands (st_heap s) x b -> text_shown hl a b (map snd (own_text hl (st_heap s') (f x))).
Proof.
  intros R HA Hx S. pose proof (rs_transformed _ _ _ _ _ _ R) as TF. pose proof S as (n & us & Hn & Hc & Hat & _).
  assert (HC : class_of (st_heap s) x (a_class b)) by (exists n; auto).
  destruct (decide (pendingb (st_heap s) x = true)) as [Hp|Hp].
  - apply pending_iff in Hp. destruct (decide (a_class b = CPendingReference)) as [E|E].
    + rewrite E in HC. destruct (rs_refs _ _ _ _ _ _ R x Hx HC) as (lbl & Hv & [(y & Hy & Hcl & _)|(Hy & Hcl & Htx & _)]).
      * rewrite (own_none _ _ _ _ Hcl) by discriminate. destruct Hy as (Hl & Hyl & l1 & l2 & El & _).
        assert (Hyt : y ∈ doc_order t) by (rewrite El; apply elem_of_app; right; constructor). destruct (holds_find _ _ _ _ HA Hyt) as (by_ & Hby & Sy).
        eapply (ts_known hl a b lbl by_); [exact E|rewrite <- (stands_value _ _ _ _ S); exact Hv|exact Hby|]. apply (stands_carries _ _ _ _ Hl Sy), Hyl.
      * assert (EO : own_text hl (st_heap s') (f x) = [(f x, unknown_label_text lbl)]).
        { destruct Hcl as (m & Hm & Ec). unfold own_text. rewrite Hm, Ec. unfold SpecTranslate.text_at. rewrite Htx. reflexivity. }
        rewrite EO. apply (ts_unknown hl a b lbl); [exact E|rewrite <- (stands_value _ _ _ _ S); exact Hv|].
        intros z Hz Hcar. destruct (holds_back _ _ _ _ HA Hz) as (w & Hw & Sw). pose proof Hcar as [Hl _]. apply (stands_carries _ _ _ _ Hl Sw) in Hcar.
        destruct (first_exists _ _ _ _ Hl Hw Hcar) as (y & F). exact (Hy y F).
    + destruct (pending_image _ _ _ _ _ _ x R Hx Hp) as (d & Hd & Hdc).
      assert (HD : d = CReference \/ d = CCite).
      { destruct Hp as [H|[H|H]]; [pose proof (class_det _ _ _ _ HC H); congruence| |].
        - assert (Hin : In x (List.filter (is_cite (st_heap s)) (doc_order t))).
          { apply filter_In. split; [apply elem_of_list_In, Hx|]. destruct H as (m & Hm & Em). unfold is_cite. rewrite Hm, Em. reflexivity. }
          apply In_nth_error in Hin as [k Hk]. destruct (nth_error cites k) as [ts|] eqn:Ek.
          + destruct (rs_cites _ _ _ _ _ _ R k x ts Hk Ek) as (Hcc & _). right. eapply class_det; eassumption.
          + apply nth_error_None in Ek. rewrite (rs_cites_len _ _ _ _ _ _ R) in Ek. assert (k < length (List.filter (is_cite (st_heap s)) (doc_order t))); [|lia]. apply nth_error_Some. rewrite Hk. discriminate.
        - destruct (rs_prevs _ _ _ _ _ _ R x Hx H) as (step & v & k & z & _ & _ & _ & _ & Hcc & _). left. eapply class_det; eassumption. }
      rewrite (own_none _ _ _ _ Hd) by (destruct HD; subst d; discriminate).
      apply ts_other; try exact E; destruct Hp as [H|[H|H]]; pose proof (class_det _ _ _ _ HC H) as E2; rewrite E2; discriminate.
  - rewrite pending_iff in Hp. rewrite (tf_same _ _ _ _ _ TF x Hx Hp). destruct (tf_node _ _ _ _ _ TF x Hx Hp) as (n0 & n' & Hn0 & Hn' & Ec & Eat).
    rewrite Hn in Hn0. injection Hn0 as <-.
    assert (Etx : SpecTranslate.text_at (st_heap s') x = string_at a_text b).
    { unfold SpecTranslate.text_at, string_at, value. rewrite Hn', Eat, Hat; [reflexivity|]. intros H. unfold transform_attr in H. repeat (destruct H as [H|H]; [discriminate H|]). discriminate H. }
    assert (Elg : lang_at (st_heap s') x = string_at a_lang b).
    { unfold lang_at, string_at, value. rewrite Hn', Eat, Hat; [reflexivity|]. intros H. unfold transform_attr in H. repeat (destruct H as [H|H]; [discriminate H|]). discriminate H. }
    unfold own_text. rewrite Hn', Ec, Hc, Etx, Elg.
    assert (EP : a_class b <> CPendingReference). { intros E. apply Hp. left. rewrite <- E. exact HC. }
    destruct (a_class b) eqn:EB; try (exfalso; apply EP; reflexivity); try (apply ts_other; rewrite EB; discriminate).
    all: try (apply ts_text; rewrite EB; auto; fail).
    all: cbn [map snd]; destruct (string_at a_lang b) eqn:EL; [apply ts_plain_code; assumption|rewrite <- EL; apply ts_code; [exact EB|rewrite EL; discriminate]].
Qed.
Lemma texts_after hl s t s' t' f cites a : manuscript s t -> SpecParse.holds (st_heap s) None t a -> contents_empty a -> result s t s' t' f cites ->
  texts_shown hl a (map snd (flat_map (own_text hl (st_heap s')) (doc_order t'))).
Proof.
  intros M Hh Hce R. pose proof (rs_transformed _ _ _ _ _ _ R) as TF. pose proof (holds_all _ _ _ _ Hh) as HA.
  assert (E : flat_map (own_text hl (st_heap s')) (doc_order t') = flat_map (own_text hl (st_heap s')) (map f (doc_order t))).
  { rewrite flat_map_some, (flat_map_some _ (map f _)). f_equal. eapply order_after; [exact TF|exact M| |].
    - intros y Hy Hn. destruct (tf_added _ _ _ _ _ TF y Hy Hn) as (_ & c & Hc & Hin). rewrite (own_none _ _ _ _ Hc); [reflexivity| | |]; intros ->; set_solver.
    - intros x Hx. pose proof (later_class _ _ _ Hx) as Hc.
      assert (Hxt : x ∈ doc_order t). { unfold later_contents in Hx. apply elem_of_list_In in Hx. assert (G : In x (List.filter (is_contents (st_heap s)) (doc_order t))) by (destruct (List.filter _ _); [destruct Hx|right; exact Hx]). apply filter_In in G as [G _]. apply elem_of_list_In, G. }
      destruct (holds_find _ _ _ _ HA Hxt) as (b & Hb & S). pose proof S as (n & us & Hn & Ecl & _ & Hk & Hf).
      assert (Ecb : a_class b = CContents) by (destruct Hc as (m & Hm & Em); congruence).
      split; [exists n; split; [exact Hn|]; rewrite Hk; rewrite (Hce b Hb Ecb) in Hf; inversion Hf; reflexivity|].
      assert (Hnp : ~ is_pending (st_heap s) x). { intros [H|[H|H]]; pose proof (class_det _ _ _ _ Hc H); discriminate. }
      rewrite (tf_same _ _ _ _ _ TF x Hxt Hnp). destruct (tf_node _ _ _ _ _ TF x Hxt Hnp) as (n0 & n' & Hn0 & Hn' & Ec & _).
      rewrite (own_none _ _ x CContents); [reflexivity| | | |]; try discriminate. exists n'. split; [exact Hn'|]. congruence. }
  rewrite E. exists (map (fun x => map snd (own_text hl (st_heap s') (f x))) (doc_order t)). split.
  - assert (G : forall l bs, (forall x, x ∈ l -> x ∈ doc_order t) -> Forall2 (stands (st_heap s)) l bs -> Forall2 (text_shown hl a) bs (map (fun x => map snd (own_text hl (st_heap s') (f x))) l)).
    { intros l bs Hl F. induction F as [|x b l bs S F IH]; cbn [map]; constructor.
      - eapply text_after; eauto. apply Hl. constructor.
      - apply IH. intros y Hy. apply Hl. constructor. exact Hy. }
    apply G; auto.
  - rewrite flat_map_concat_map, concat_map, !map_map. reflexivity.
Qed.
