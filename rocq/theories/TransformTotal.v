(** Transform returns on documents without mistakes. *)
From Verif Require Export SpecTotal TotalResolve TotalPlaced TotalSub TotalNumber TotalToc TotalRest ResultToc.
From Verif Require Import ResultAll ResultRefs Labels HandrailDepth Autonumber FullNumber TocPick TocLoop Queries Built Meta Subproofs ResolveAll ResolvePrev Resolve NodeOps Monad.
Local Open Scope list_scope.

Lemma placed_ok s t : manuscript s t -> parents_permitted (st_heap s) -> parents_ok s.
Proof.
  intros Hm Hp. split; [apply Hm|]. intros x n p Hx E.
  assert (Hpar : parent_is (st_heap s) x p) by (exists n; auto).
  apply (cons_parent _ (ms_consistent _ _ Hm)) in Hpar as (m & Hm' & _). exists m. split; [assumption|]. eapply Hp; eassumption.
Qed.
Lemma run_keeps {A} P (m : M A) s s' r : keeps P m -> P s -> m s = (s', r) -> P s'.
Proof. intros Hk Hs E. specialize (Hk s Hs). rewrite E in Hk. exact Hk. Qed.

Lemma first_in h l lbl x : first_labelled h l lbl x -> x ∈ l /\ label_of h x = lbl.
Proof. intros (_ & Hl & l1 & l2 & E & _). split; [rewrite E; set_solver|exact Hl]. Qed.
Section labels.
  Context (s s1 : st) (t : tree) (d : labels).
  Context (TR : SpecResult.ready s t) (LP : label_pass [] d s s1 t) (HT : TI s1) (Hex : ex (map snd d) s1).
  Notation h := (st_heap s). Notation h1 := (st_heap s1).
  Lemma lp_manuscript : manuscript s t. Proof using TR. apply TR. Qed.
  Lemma lp_manuscript1 : manuscript s1 t. Proof using TR LP. eapply only_manuscript; [apply LP|apply lp_manuscript]. Qed.
  Lemma lp_structure : same_structure h h1. Proof using LP. eapply only_structure. apply LP. Qed.
  Lemma lp_carried : carried (fun b => b = a_label) h h1.
  Proof using LP. eapply carried_only; [apply LP|]. intros j b [_ ->]. reflexivity. Qed.
  Lemma lp_class x c : x ∈ doc_order t -> class_of h1 x c -> class_of h x c.
  Proof using TR LP. intros Hx. apply (carried_class_inv _ _ _ _ _ lp_carried). eapply manuscript_some; [apply lp_manuscript|exact Hx]. Qed.
  Lemma lp_value x b : x ∈ doc_order t -> b <> a_label -> value h1 x b = value h x b.
  Proof using TR LP. intros Hx Hb. apply (carried_value _ _ _ _ _ lp_carried); [eapply manuscript_some; [apply lp_manuscript|exact Hx]|exact Hb]. Qed.
  Lemma lp_first lbl x : lookup_label d lbl = Some x -> first_labelled h (doc_order t) lbl x.
  Proof using LP. destruct LP as (_ & Hk & _). rewrite Hk. cbn. destruct lbl; [discriminate|]. apply find_label_first. discriminate. Qed.

  Lemma lp_resolvable l : class_of h (root t) CManuscript ->
    (forall x, x ∈ doc_order t -> class_of h x CPendingReference -> exists lbl, value h x a_target = Some (VStr lbl)) ->
    (forall x, x ∈ l -> x ∈ doc_order t) ->
    (forall x keys k y, x ∈ l -> class_of h x CPendingCite -> value h x a_targetlabels = Some (VStrs keys) -> k ∈ keys ->
       first_labelled h (doc_order t) k y -> class_of h y CBibitem) ->
    (forall x, x ∈ l -> class_of h x CPendingPrev ->
       exists step v k y, closest_ancestor h [CStep] x (Some step) /\
         value h x a_target = Some v /\ py_int (fmt_val v) = Some k /\ kth_previous h step (Z.to_nat k) y) ->
    resolvable_on l s1 t d.
  Proof using TR LP HT Hex.
    intros TA_root TA_refs Hin_l TA_cites TA_prevs. constructor.
    - apply lp_manuscript1.
    - exact HT.
    - exact Hex.
    - intros lbl x Hx. destruct (first_in _ _ _ _ (lp_first _ _ Hx)) as [Hin Hl].
      destruct (manuscript_some _ _ _ lp_manuscript Hin) as [n Hn]. destruct (lp_carried _ _ Hn) as (n1 & Hn1 & Ec & _).
      exists n1. split; [assumption|]. rewrite Ec. intros E.
      destruct (lp_first _ _ Hx) as (Hne & _). apply Hne. rewrite <- Hl.
      apply (proj2 (proj2 TR) x Hin). exists n. auto.
    - intros n Hn. destruct TA_root as (m & Hm' & Ec). destruct (lp_carried _ _ Hm') as (n1 & Hn1 & Ec1 & _). congruence.
    - intros x Hx Hc. rewrite lp_value by (assumption || discriminate). apply (TA_refs x Hx). apply lp_class; assumption.
    - intros x keys k y Hx Hc Hv Hk Hl. rewrite lp_value in Hv by first [apply Hin_l; assumption | discriminate].
      eapply carried_class; [apply lp_carried|]. eapply TA_cites; [exact Hx|apply lp_class; [apply Hin_l|]; assumption|exact Hv|exact Hk|apply lp_first; exact Hl].
    - intros x Hx Hc. rewrite lp_value by first [apply Hin_l; assumption | discriminate].
      destruct (TA_prevs x Hx (lp_class _ _ (Hin_l x Hx) Hc)) as (step & v & k & y & H1 & H2 & H3 & H4).
      exists step, v, k, y. split; [eapply same_closest; [apply lp_structure|exact H1]|]. split; [exact H2|]. split; [exact H3|].
      eapply same_kth; [apply lp_structure|exact H4].
  Qed.
End labels.

Section numbers.
  Context (d d' : labels) (s s1 s2 s3 : st) (t t3 : tree) (f : id -> id) (cites : list (list id)).
  Context (TR : SpecResult.ready s t) (TL : forall p x q sc k, doc_order t = p ++ x :: q ->
    is_numbered (st_heap s) x = true -> scope_of (st_heap s) x = [CManuscript] ->
    (exists a, a ∈ p /\ is_appendix (st_heap s) a = true) ->
    current_scope (st_heap s) [CManuscript] p sc ->
    exactly (consumes (st_heap s) [CManuscript] (sequence_of (st_heap s) x)) k sc -> k < 26) (ST : early d d' s s1 s2 s3 t t3 f cites).
  Notation h := (st_heap s). Notation h2 := (st_heap s2). Notation h3 := (st_heap s3).
  Let Hm : manuscript s t := proj1 TR.
  Lemma numbers_there : all_expected h3 (doc_order t3).
  Proof using TR TL ST.
    intros p3 x q3 E3 Hn3.
    assert (H3 : List.filter (relevant h3) (doc_order t3) = List.filter (relevant h) (doc_order t)).
    { etransitivity; [|etransitivity; [apply (filter_3 Hm ST _ stable_relevant)|]].
      - apply filter_ext_elem. intros. apply relevant_by_node.
      - apply filter_ext_elem. intros. symmetry. apply relevant_by_node. }
    assert (Hr3 : relevant h3 x = true) by (unfold relevant; rewrite Hn3; reflexivity).
    assert (Hx : x ∈ List.filter (relevant h) (doc_order t)).
    { rewrite <- H3. apply elem_of_list_In, filter_In. split; [|assumption]. apply elem_of_list_In. rewrite E3. set_solver. }
    apply elem_of_list_In, filter_In in Hx as [Hx Hr]. apply elem_of_list_In in Hx.
    assert (Hs : is_Some (h !! x)) by (apply (in_h Hm), Hx).
    pose proof Hx as G. apply elem_of_list_split in G as (p & q & E).
    destruct (before_3 Hm ST p x q E Hr) as (p3' & q3' & E3' & Ep).
    assert (p3' = p3) as ->.
    { eapply split_unique; [|rewrite <- E3'; exact E3]. rewrite <- E3'. apply (ms_document _ _ (sg_m3 ST)). }
    rewrite (numbered_3 ST _ Hs) in Hn3. destruct (scope_3 ST _ Hs) as [E1 E2].
    destruct (count_same Hm ST p p3 (scope_of h x) (sequence_of h x)) as [Ec Ea]; [intros y Hy; rewrite E; set_solver|exact Ep|].
    unfold expected_number. rewrite E1, E2, Ec, Ea.
    destruct (cls_list_eqb _ _ && existsb _ p) eqn:Eb; [|eauto].
    apply andb_true_iff in Eb as [Eb1 Eb2].
    assert (Esc : scope_of h x = [CManuscript]).
    { unfold scope_of in *. destruct (h !! x) as [n|]; [|discriminate Eb1]. clear -Eb1. destruct (n_cls n); vm_compute in Eb1; (discriminate Eb1 || reflexivity). }
    apply existsb_exists in Eb2 as (b & Hb & Hab). apply elem_of_list_In in Hb.
    destruct (current_exists h (scope_of h x) p) as [sc Hsc]. destruct (exactly_exists h (scope_of h x) (sequence_of h x) sc) as [k Hk].
    rewrite (count_current _ _ _ _ _ _ Hsc Hk). rewrite Esc in Hsc, Hk.
    assert (Hlt : k < 26) by (eapply TL; eauto).
    unfold letter. apply Nat.ltb_lt in Hlt. rewrite Hlt. eauto.
  Qed.
End numbers.

Section steps.
  Context (d d' : labels) (s s1 s2 : st) (t : tree) (f : id -> id) (cites : list (list id)).
  Context (TR : SpecResult.ready s t) (TS : forall x pre c post, x ∈ doc_order t -> class_of (st_heap s) x CStep ->
    kids_are (st_heap s) x (pre ++ c :: post) -> (forall y, y ∈ pre -> ~ step_or_sub (st_heap s) y) ->
    class_of (st_heap s) c CSubproof -> post = []) (LP : label_pass d d' s s1 t) (RI : rinv s1 d' (doc_order t) f cites s2).
  Notation h := (st_heap s). Notation h1 := (st_heap s1). Notation h2 := (st_heap s2).
  Let Hm : manuscript s t := proj1 TR.
  Lemma steps_there : steps_end h2 (doc_order (tmap f t)).
  Proof using TR TS LP RI.
    pose proof (carried_only _ (fun b => b = a_label) _ _ (proj1 LP) ltac:(intros j b [_ ->]; reflexivity)) as C01.
    assert (Hpen : forall x, x ∈ doc_order t -> pendingb h1 x = true -> forall n2, h2 !! f x = Some n2 -> n_cls n2 <> CStep /\ n_cls n2 <> CSubproof).
    { intros x Hx Hp n2 Hn2. destruct (ri_res _ _ _ _ _ _ RI x Hx Hp) as (_ & n & n' & _ & Hn' & _ & Hc & _).
      assert (n' = n2) as -> by congruence. rewrite !elem_of_cons in Hc. destruct Hc as [-> |[-> |[-> |Hc]]]; [split; discriminate..|inversion Hc]. }
    assert (Hfix : forall x, x ∈ doc_order t -> pendingb h1 x = false -> f x = x).
    { intros x Hx Hp. apply (ri_fix _ _ _ _ _ _ RI). intros [_ G]. congruence. }
    assert (Hback : forall x n2, x ∈ doc_order t -> h2 !! f x = Some n2 -> n_cls n2 = CStep \/ n_cls n2 = CSubproof ->
      f x = x /\ exists n, h !! x = Some n /\ n_cls n = n_cls n2 /\ kids n2 = map f (kids n)).
    { intros x n2 Hx Hn2 Hc. destruct (pendingb h1 x) eqn:Ep; [destruct (Hpen x Hx Ep n2 Hn2); tauto|].
      pose proof (Hfix x Hx Ep) as Hf. split; [exact Hf|]. rewrite Hf in Hn2.
      destruct (manuscript_some _ _ _ Hm Hx) as [n Hn]. exists n. split; [exact Hn|].
      destruct (only_kids _ _ _ _ _ (proj1 LP) Hn) as (n1 & Hn1 & Ec1 & _ & Ek1 & _).
      destruct (ri_old _ _ _ _ _ _ RI _ _ Hn1) as (n2' & Hn2' & Ec2 & Ek2 & _). assert (n2' = n2) as -> by congruence.
      split; congruence. }
    assert (Hforth : forall x, x ∈ doc_order t -> step_or_sub h x -> step_or_sub h2 (f x)).
    { intros x Hx Hss.
      assert (Hnp : pendingb h1 x = false).
      { destruct (pendingb h1 x) eqn:Ep; [|reflexivity]. apply pendingb_cases in Ep as (m & Hm1 & Hc). exfalso.
        destruct Hss as [H|H]; apply (carried_class _ _ _ _ _ C01) in H as (m' & Hm' & Ec);
          (assert (m' = m) as -> by congruence); destruct Hc as [Hc|[Hc|Hc]]; congruence. }
      rewrite (Hfix x Hx Hnp).
      assert (G : forall c, class_of h x c -> class_of h2 x c).
      { intros c Hc. apply (carried_class _ _ _ _ _ C01) in Hc as (m & Hm1 & Ec). destruct (ri_old _ _ _ _ _ _ RI _ _ Hm1) as (m2 & Hm2 & Ec2 & _).
        exists m2. split; congruence. }
      destruct Hss as [H|H]; [left|right]; auto. }
    intros y n2 Hy Hn2 Hc pre c post Ek Hpre Hcc. rewrite tmap_order in Hy. apply elem_of_list_fmap in Hy as (x & -> & Hx).
    destruct (Hback x n2 Hx Hn2 (or_introl Hc)) as (Hf & n & Hn & Ec & Ekn).
    assert (Hkin : forall z, z ∈ kids n -> z ∈ doc_order t).
    { intros z Hz. eapply doc_order_closed; [apply (ms_document _ _ Hm)|exact Hx|exact Hn|exact Hz]. }
    rewrite Ekn in Ek. apply map_eq_app in Ek as (l1 & l2 & El & <- & E2). destruct l2 as [|c0 l2]; [discriminate|].
    cbn [map] in E2. injection E2 as <- <-.
    assert (Hc0 : c0 ∈ doc_order t) by (apply Hkin; rewrite El; set_solver).
    destruct Hcc as (m2 & Hm2 & Em2). destruct (Hback c0 m2 Hc0 Hm2 (or_intror Em2)) as (_ & m & Hmm & Em & _).
    rewrite (TS x l1 c0 l2 Hx).
    - reflexivity.
    - exists n. split; congruence.
    - exists n. auto.
    - intros z Hz Hs. apply (Hpre (f z)); [apply elem_of_list_fmap; eauto|]. apply Hforth; [|exact Hs]. apply Hkin. rewrite El. set_solver.
    - exists m. split; congruence.
  Qed.
End steps.

Section kinds.
  Context (d d' : labels) (s s1 s2 s3 s4 s5 s6 : st) (t t3 t6 : tree) (f : id -> id) (cites : list (list id)) (a : num_st) (xs : list id).
  Context (TR : SpecResult.ready s t) (TK : forall x, x ∈ doc_order t -> is_construct (st_heap s) x = true ->
    exists kind, value (st_heap s) x a_kind = Some (VStr kind) /\ kind <> []) (MD : middle d d' s s1 s2 s3 s4 t t3 f cites a).
  Context (P : pruned s4 s5 xs) (Hm5 : manuscript s5 (prune xs t3)) (EX : extends s5 s6) (Hm6 : manuscript s6 t6).
  Context (Et6 : prune (added_ids s5 t6) t6 = prune xs t3).
  Context (Hnew : forall x, x ∈ added_ids s5 t6 -> exists n, st_heap s6 !! x = Some n /\ toc_class (n_cls n)).
  Notation h := (st_heap s). Notation h2 := (st_heap s2). Notation h3 := (st_heap s3). Notation h6 := (st_heap s6).
  Let Hm : manuscript s t := proj1 TR.
  Lemma old_order : List.filter (fun x => Nat.ltb x (st_next s5)) (doc_order t6) = doc_order (prune xs t3).
  Proof using Hm5 EX Hm6 Et6.
    rewrite <- forget_order.
    assert (E : forget (fun x => Nat.ltb x (st_next s5)) t6 = [prune xs t3]).
    { rewrite <- (forget_added h6 None t6 (fun x => Nat.ltb x (st_next s5)) (added_ids s5 t6)).
      - rewrite Et6. apply forget_all. intros x Hx. apply Nat.ltb_lt.
        destruct (manuscript_some _ _ _ Hm5 Hx) as [n Hn]. eapply (ms_fresh _ _ Hm5). exact Hn.
      - apply Hm6.
      - intros p c Hc Hr y Hy. apply Nat.ltb_ge.
        assert (Hrt : st_next s5 <= root c).
        { unfold added_ids in Hr. apply elem_of_list_In, filter_In in Hr as [_ Hr]. apply Nat.leb_le in Hr. assumption. }
        eapply extends_new_tree; [exact EX|exact Hc|exact Hrt|exact Hy]. }
    rewrite E, doc_orders_cons. apply app_nil_r.
  Qed.
  Lemma c46 : carried (fun _ => False) (st_heap s4) h6.
  Proof using P EX.
    intros x n Hx. destruct (pr_old _ _ _ P _ _ Hx) as (n5 & H5 & C5 & A5 & _). destruct (ex_old _ _ EX _ _ H5) as (n6 & H6 & C6 & _ & A6 & _).
    exists n6. split; [assumption|]. split; [congruence|]. intros b _. congruence.
  Qed.
  Lemma c36 : carried (fun b => b = a_number \/ b = a_reftext_template) h3 h6.
  Proof using MD P EX. eapply carried_weaken; [|eapply carried_trans; [exact (c34 MD)|exact c46]]. intros b; cbv beta; tauto. Qed.
  Lemma not_construct c : c ∈ [CReference; CError; CCite; CStatement; CSubproof; CItem; CItemize; CParagraph] -> subclass c CConstruct = false.
  Proof using. clear. intros Hin. repeat (apply elem_of_cons in Hin as [-> |Hin]; [reflexivity|]). inversion Hin. Qed.
  Lemma kinds_there x : x ∈ doc_order t6 -> constructb h6 x = true -> exists kind, value h6 x a_kind = Some (VStr kind) /\ kind <> [].
  Proof using TR TK MD P Hm5 EX Hm6 Et6 Hnew.
    intros Hx Hc.
    assert (Hno : forall c, class_of h3 x c -> subclass c CConstruct = true).
    { intros c H3. apply (carried_class _ _ _ _ _ c36) in H3 as (n & Hn & <-). unfold constructb in Hc. rewrite Hn in Hc. exact Hc. }
    destruct (decide (x < st_next s5)) as [Hlt|Hge].
    - assert (H3 : x ∈ doc_order t3).
      { eapply sublist_in; [apply (prune_sublist xs)|]. rewrite <- old_order.
        apply elem_of_list_In, filter_In. split; [apply elem_of_list_In; assumption|apply Nat.ltb_lt; assumption]. }
      destruct (h2 !! x) as [n2|] eqn:E2.
      + pose proof (old3 MD x H3 ltac:(eauto)) as Hin. apply elem_of_list_fmap in Hin as (x0 & -> & Hx0).
        destruct (pendingb h x0) eqn:Ep.
        * exfalso. apply pending_iff in Ep. destruct (f_new Hm MD x0 Hx0 Ep) as (_ & n' & Hn' & Hcl).
          assert (G : class_of h3 (f x0) (n_cls n')) by (apply (carried_class _ _ _ _ _ (c23 MD)); exists n'; auto).
          apply Hno in G. rewrite not_construct in G; [discriminate|]. set_solver.
        * assert (Hf : f x0 = x0) by (apply (f_same Hm MD); [assumption|]; rewrite <- pending_iff; congruence). rewrite Hf in *.
          assert (Hs : is_Some (h !! x0)) by (apply (in_h Hm), Hx0).
          destruct (TK x0 Hx0) as (kind & Hk & Hne).
          { destruct Hs as [n Hn]. unfold is_construct. rewrite Hn. apply Hno. apply (carried_class _ _ _ _ _ (c03 MD)). exists n. auto. }
          exists kind. split; [|exact Hne]. rewrite (carried_value _ _ _ _ _ c46); [|eapply carried_some; [exact (c04 MD)|exact Hs]|tauto].
          rewrite (carried_value _ _ _ _ _ (c04 MD)); [exact Hk|exact Hs|intros [G|[G|[G|G]]]; discriminate].
      + exfalso. destruct (wrapper3 MD x H3 E2) as [G|G]; apply Hno in G; discriminate.
    - exfalso. destruct (Hnew x) as (n & Hn & Htc).
      { unfold added_ids. apply elem_of_list_In, filter_In. split; [apply elem_of_list_In; assumption|]. apply Nat.leb_le. lia. }
      unfold constructb in Hc. rewrite Hn in Hc. destruct Htc as [E|[E|E]]; rewrite E in Hc; discriminate.
  Qed.
End kinds.

Theorem transform_total s t : transformable s t -> exists s', transforms_to s t s'.
Proof.
  intros TA. destruct (ta_ready _ _ TA) as (Hm & Hbu & Herr). assert (HT : TI s) by (split; apply TA).
  (* labels *)
  set (s0 := (info logger_tform (lit "Transforming...") s).1).
  assert (E0 : info logger_tform (lit "Transforming...") s = (s0, Ok tt)) by reflexivity.
  assert (Hm0 : manuscript s0 t) by (eapply (only_manuscript (fun _ _ => True)); [|exact Hm]; exact (ch_run _ _ _ _ _ (only_log _ _) E0)).
  assert (HT0 : TI s0) by exact HT.
  destruct (collect_total [] t s0 Hm0 HT0) as (f1 & s1 & d & E1 & HT1 & Hex1); [intros x []|].
  assert (LP : label_pass [] d s s1 t).
  { destruct (collect_labels_ok _ _ _ _ _ _ (ms_document _ _ Hm0) E1) as (Ho & Hk & Hv).
    unfold label_pass. split; [|split; assumption].
    destruct Ho as (On & Ol & Oh). split; [exact On|]. split; [|exact Oh].
    eapply logs_grow_trans; [|exact Ol]. eexists. reflexivity. }
  pose proof (lp_manuscript1 _ _ _ _ (ta_ready _ _ TA) LP) as Hm1.
  assert (Hpl : parents_ok s) by (eapply placed_ok; [exact Hm|apply TA]).
  assert (Hpl1 : parents_ok s1) by (eapply run_keeps; [apply pl_collect| |exact E1]; exact Hpl).
  (* references *)
  pose proof (lp_resolvable _ _ _ _ (ta_ready _ _ TA) LP HT1 Hex1 (doc_order t) (ta_root _ _ TA) (ta_refs _ _ TA) ltac:(auto) (ta_cites _ _ TA) (ta_prevs _ _ TA)) as RV.
  destruct (resolve_total _ _ _ RV) as (f2 & s2 & [] & E2 & HT2 & f & cites & RI).
  pose proof (rinv_document _ _ _ _ _ _ Hm1 RI) as Hm2.
  assert (Hpl2 : parents_ok s2) by (eapply run_keeps; [apply pl_resolve|exact Hpl1|exact E2]).
  assert (Hroot : root (tmap f t) = root t).
  { destruct t as [r cs]. cbn. apply (ri_fix _ _ _ _ _ _ RI). intros [_ Hp]. apply pendingb_cases in Hp as (n & Hn & Hc).
    rewrite (rv_root _ _ _ _ RV n Hn) in Hc. destruct Hc as [Hc|[Hc|Hc]]; discriminate. }
  (* subproofs *)
  destruct (sub_total s2 (tmap f t) Hm2 Hpl2 (steps_there _ _ _ _ _ _ _ _ (ta_ready _ _ TA) (ta_subproofs _ _ TA) LP RI)) as (f3 & s3 & [] & E3 & _).
  destruct (add_necessary_subproofs_ok _ _ _ _ _ Hm2 E3) as (t3 & SP & Hm3 & RS).
  assert (Hroot3 : root t3 = root t) by (rewrite (restructured_root _ _ _ _ RS); assumption).
  destruct (ok_TI _ _ _ _ _ _ _ (t_subproofs f3 (root (tmap f t)) []) HT2 ltac:(intros x []) E3) as (HT3 & _).
  assert (EA : early [] d s s1 s2 s3 t t3 f cites) by (constructor; assumption).
  (* numbers *)
  destruct (number_total s3 t3 Hm3 HT3 (numbers_there _ _ _ _ _ _ _ _ _ _ (ta_ready _ _ TA) (ta_letters _ _ TA) EA)) as (f4 & s4 & [] & E4 & _).
  destruct (autonumber_ok _ _ _ _ Hm3 E4) as (ON & a & NI).
  pose proof (only_manuscript _ _ _ _ ON Hm3) as Hm4.
  destruct (ok_TI _ _ _ _ _ _ _ (t_number f4 (root t3) []) HT3 ltac:(intros x []) E4) as (HT4 & _).
  assert (MD : middle [] d s s1 s2 s3 s4 t t3 f cites a) by (constructor; assumption).
  (* contents *)
  destruct (toc_total s4 t3 Hm4 HT4) as (f5 & s6 & [] & E5 & _).
  { intros (x & Hx & Hc). apply (well_nested_4 Hm MD). apply (ta_nested _ _ TA).
    assert (G : x ∈ contents_in (st_heap s4) (doc_order t3)) by (apply elem_of_list_In, filter_In; split; [apply elem_of_list_In|]; assumption).
    rewrite (contents_3 Hm MD) in G. apply elem_of_list_In, filter_In in G as [G1 G2]. apply elem_of_list_In in G1. eauto. }
  destruct (make_toc_ok _ _ _ _ _ Hm4 E5) as (s5 & P & Hm5 & EX & _).
  destruct (extends_manuscript _ _ _ Hm5 EX) as (t6 & Hm6 & Er6 & Et6 & Hnew6). rewrite prune_root, Hroot3 in Er6.
  destruct (ok_TI _ _ _ _ _ _ _ (t_toc f5 (root t3) []) HT4 ltac:(intros x []) E5) as (HT6 & _).
  (* constructs *)
  destruct (constructs_total s6 t6 Hm6 HT6) as (f6 & s7 & [] & E6 & _).
  { intros x Hx Hc. exact (kinds_there _ _ _ _ _ _ _ _ _ _ _ _ _ _ _ _ (ta_ready _ _ TA) (ta_kinds _ _ TA) MD P Hm5 EX Hm6 Et6 Hnew6 x Hx Hc). }
  pose proof (only_manuscript _ _ _ _ (proj1 (constructs_ok _ _ _ _ Hm6 E6)) Hm6) as Hm7.
  destruct (ok_TI _ _ _ _ _ _ _ (t_constructs f6 (root t6) []) HT6 ltac:(intros x []) E6) as (HT7 & _).
  (* handrails *)
  destruct (depth_total s7 t6 Hm7 HT7) as (f7 & s8 & [] & E7 & _).
  assert (Hcmp : all_comparable s7) by exact (complete_built _ (proj2 HT7)).
  pose proof (only_manuscript _ _ _ _ (proj1 (handrail_depth_ok _ _ _ _ Hm7 Hcmp E7)) Hm7) as Hm8.
  (* identifiers *)
  destruct (nodeids_total s8 t6 Hm8) as (f8 & s9 & [] & E8 & _).
  set (F := f1 + f2 + f3 + f4 + f5 + f6 + f7 + f8).
  exists s9, F, d. unfold transform. rewrite Hroot3 in E4, E5. rewrite Er6 in E6, E7, E8. rewrite Hroot in E3.
  unfold bind. rewrite E0.
  rewrite (mono_ok _ f1 F _ _ _ (mono_collect [] (root t)) ltac:(unfold F; lia) E1).
  rewrite (mono_ok _ f2 F _ _ _ (mono_resolve d (root t)) ltac:(unfold F; lia) E2).
  rewrite (mono_ok _ f3 F _ _ _ (mono_subproofs (root t)) ltac:(unfold F; lia) E3).
  rewrite (mono_ok _ f4 F _ _ _ (mono_number (root t)) ltac:(unfold F; lia) E4).
  rewrite (mono_ok _ f5 F _ _ _ (mono_toc (root t)) ltac:(unfold F; lia) E5).
  rewrite (mono_ok _ f6 F _ _ _ (mono_constructs (root t)) ltac:(unfold F; lia) E6).
  rewrite (mono_ok _ f7 F _ _ _ (mono_depth (root t)) ltac:(unfold F; lia) E7).
  rewrite (mono_ok _ f8 F _ _ _ (mono_nodeids (root t)) ltac:(unfold F; lia) E8).
  reflexivity.
Qed.
