(** Adding statements and subproofs returns. *)
From Verif Require Export TotalPlaced.
From Verif Require Import Consistency Subproofs EditTotal Queries ResolveAll Traverse TreeFacts NodeOps Monad.
Local Open Scope list_scope.

Lemma clear_ends i s n : good s -> st_heap s !! i = Some n -> has_children (n_cls n) = true -> ends (clear i) s (fun _ _ => True).
Proof.
  intros Hg Hi Hh. unfold clear.
  eapply ends_run; [unfold raw_children, bind, get_node; rewrite Hi, Hh; reflexivity|].
  assert (H : forall l s, is_Some (st_heap s !! i) -> (forall x, x ∈ l -> is_Some (st_heap s !! x)) ->
    ends (iterM (fun c => set_parent c None) l) s (fun _ s' => is_Some (st_heap s' !! i))).
  { induction l as [|x l IH]; intros s1 H1 H2; cbn [iterM]; [apply ends_ret; exact H1|].
    destruct (H2 x ltac:(constructor)) as [m Hm].
    eapply ends_run; [unfold set_parent, mod_node, bind, get_node, cls_of; rewrite Hm; reflexivity|].
    assert (K : forall y, is_Some (st_heap s1 !! y) -> is_Some (st_heap (put_node x (set_n_parent None m) s1).1 !! y)).
    { intros y Hy. change (is_Some (st_heap (upd s1 x (set_n_parent None m)) !! y)). rewrite upd_lookup. destruct (decide (x = y)); [eauto|exact Hy]. }
    apply IH; [apply K, H1|]. intros y Hy. apply K, H2. constructor. exact Hy. }
  eapply ends_bind; [apply H|].
  - eauto.
  - intros x Hx. pose proof (kids_some _ _ _ (proj2 Hg) Hi) as Ha. rewrite list.Forall_forall in Ha. apply Ha. rewrite kids_cls by exact Hh. exact Hx.
  - intros [] s1 _ [m Hm]. unfold set_raw_children, mod_node. eapply ends_run; [unfold get_node; rewrite Hm; reflexivity|]. eexists _, _. split; [reflexivity|exact I].
Qed.

(** Where the children of a step may go. *)
Lemma from_step c : permitted c CStep -> permitted c CSubproof /\ (c <> CStep -> permitted c CStatement).
Proof. unfold permitted. destruct c; vm_compute; intuition congruence. Qed.

Definition subs_last (h : gmap id node) (cs : list id) : Prop :=
  forall pre c post, cs = pre ++ c :: post -> (forall y, y ∈ pre -> ~ step_or_sub h y) -> class_of h c CSubproof -> post = [].

Lemma subproof_body_gives s i n : good s -> parents_ok s -> st_heap s !! i = Some n -> n_cls n = CStep ->
  gives (~ subs_last (st_heap s) (kids n)) EAssert (subproof_body tt i) s (fun _ _ => True).
Proof.
  intros Hg Hpl Hi Hcl. unfold subproof_body.
  assert (Hh : has_children (n_cls n) = true) by (rewrite Hcl; reflexivity).
  eapply gives_run; [unfold children_of, bind, get_node; rewrite Hi; reflexivity|].
  destruct (kids n) as [|k0 ks] eqn:Ek; [left; apply ends_ret; exact I|]. rewrite <- Ek in *. clear k0 ks Ek.
  assert (Hkid : forall x, x ∈ kids n -> exists m, st_heap s !! x = Some m /\ permitted (n_cls m) CStep).
  { intros x Hx. pose proof (kids_some _ _ _ (proj2 Hg) Hi) as Ha. rewrite list.Forall_forall in Ha. destruct (Ha x Hx) as [m Hm].
    assert (parent_is (st_heap s) x i) as (m' & Hm' & E) by (apply (cons_parent _ (proj2 Hg)); exists n; auto).
    assert (m' = m) as -> by congruence. destruct (proj2 Hpl x m i Hm E) as (m2 & H2 & Hp). exists m. split; [exact Hm|].
    rewrite <- Hcl. congruence. }
  destruct (first_of_type_total i [CStep; CSubproof] s n (proj2 Hg) Hi) as (f & Ef).
  pose proof Ef as Hf. apply first_of_type_ok in Hf as (_ & n' & Hn' & Hf). rewrite Hi in Hn'. injection Hn' as <-.
  eapply gives_run; [exact Ef|]. apply first_match_split in Hf.
  set (split := match f with Some (_, k) => k | None => length (kids n) end).
  assert (Hsp : exists pre post, kids n = pre ++ post /\ take split (kids n) = pre /\ drop split (kids n) = post /\ split = length pre /\
    (forall x, x ∈ pre -> ~ step_or_sub (st_heap s) x) /\
    match post with [] => True | c :: _ => step_or_sub (st_heap s) c end).
  { unfold split. destruct f as [[c k]|].
    - destruct Hf as (pre & post & E1 & -> & E2 & E3 & _ & H1 & H2). exists pre, (c :: post).
      split; [exact E1|]. split; [exact E2|]. split; [exact E3|]. split; [reflexivity|]. split; [|apply step_or_sub_inst, H2].
      intros x Hx Hs. apply (H1 x Hx), step_or_sub_inst, Hs.
    - exists (kids n), []. rewrite app_nil_r, take_ge, drop_ge by lia. split; [reflexivity|]. split; [reflexivity|]. split; [reflexivity|]. split; [reflexivity|].
      split; [|exact I]. intros x Hx Hs. apply (Hf x Hx), step_or_sub_inst, Hs. }
  clearbody split. clear f Ef Hf. destruct Hsp as (pre & post & El & Etk & Edr & Esp & Hpre & Hpost).
  assert (Hnd : NoDup (kids n)) by (eapply cons_nodup; [apply Hg|exact Hi]).
  eapply gives_bind; [eapply clear_ends; eassumption|]. intros [] s1 Eclr _. cbv zeta.
  assert (Hg1 : good s1).
  { pose proof (clear_consistent _ _ _ _ (proj2 Hg) Eclr) as Hc1.
    apply clear_ok in Eclr as (Hr & np & Hp & _ & He). split; [|assumption]. eapply fresh_edited; eauto. apply Hg. }
  pose proof Eclr as Eclr'. apply clear_ok in Eclr' as (_ & np & Hp & _ & He). rewrite Hi in Hp. injection Hp as <-.
  rewrite <- (class_step_children n Hcl) in He.
  assert (H1 : forall x m, x ∈ kids n -> st_heap s !! x = Some m -> exists m1, st_heap s1 !! x = Some m1 /\ n_parent m1 = None /\ n_cls m1 = n_cls m).
  { intros x m Hx Hm. rewrite (edited_lookup _ _ _ _ _ _ He Hm). eexists. split; [reflexivity|]. cbn. rewrite decide_True by exact Hx. auto. }
  eapply gives_bind; [apply (ends_new _ _ s1 (fun r s' => r = st_next s1 /\ s' = new s1 (mk_node CStatement []))); auto|].
  intros w s2 Enew [Ew Es2].
  assert (H2 : forall x m, x ∈ kids n -> st_heap s !! x = Some m -> exists m1, st_heap s2 !! x = Some m1 /\ n_parent m1 = None /\ n_cls m1 = n_cls m).
  { intros x m Hx Hm. destruct (H1 x m Hx Hm) as (m1 & K1 & K2). exists m1. split; [|exact K2]. subst s2. rewrite new_lookup. pose proof (proj1 Hg1 _ _ K1).
    rewrite decide_False by lia. exact K1. }
  assert (Hw2 : st_heap s2 !! w = Some (mk_node CStatement [])) by (subst; rewrite new_lookup, decide_True; reflexivity).
  rewrite Etk.
  destruct (append_total w pre s2 _ Hw2 eq_refl) as [s3 Eapp].
  { rewrite El in Hnd. apply NoDup_app in Hnd as [Hnd _]. exact Hnd. }
  { intros x Hx. apply elem_of_list_In in Hx. assert (Hxk : x ∈ kids n) by (rewrite El; apply elem_of_app; auto). destruct (Hkid x Hxk) as (m & Hm & Hpm).
    destruct (H2 x m Hxk Hm) as (m1 & K1 & K2 & K3). exists m1. split; [exact K1|]. split; [exact K2|]. rewrite K3. apply from_step; [exact Hpm|].
    intros Hc. apply (Hpre x Hx). left. exists m. auto. }
  eapply gives_run; [exact Eapp|].
  destruct (new_wrapper CStatement s1 s2 w s3 pre tt Hg1 eq_refl) as (_ & _ & _ & _ & Hw3 & _).
  { intros x Hx. assert (Hxk : x ∈ kids n) by (rewrite El; apply elem_of_app; auto). destruct (Hkid x Hxk) as (m & Hm & _). destruct (H1 x m Hxk Hm) as (m1 & K1 & _). eauto. }
  { exact Enew. }
  { exact Eapp. }
  assert (Eint : get_int w a_handrail_depth s3 = (s3, Ok 0%Z)) by (unfold get_int, getattr, bind, get_node; rewrite Hw3; reflexivity).
  eapply gives_run; [exact Eint|].
  eapply gives_bind; [eapply (ends_setattr _ _ _ s3 _ (fun _ _ => True)); [exact Hw3|exact I]|]. intros [] s4 Eset _.
  destruct (statement_part s s1 s2 s3 s4 i n pre post w tt tt tt 0%Z Hg Hi Hcl El Eclr Enew Eapp Eint Eset) as (Hg4 & Ew' & Hn4 & _ & Hw4 & Hold & Hdom).
  assert (Hi4 : exists n4, st_heap s4 !! i = Some n4 /\ n_cls n4 = CStep) by (rewrite (Hold i n Hi); eexists; split; [reflexivity|exact Hcl]).
  destruct Hi4 as (n4 & Hi4 & Hcl4). assert (Hh4 : has_children (n_cls n4) = true) by (rewrite Hcl4; reflexivity).
  assert (Hwi : forall x, x ∈ kids n -> w <> x).
  { intros x Hx ->. destruct (Hkid x Hx) as (m & Hm & _). apply (proj1 Hg) in Hm. lia. }
  assert (Hnth : nth_error (kids n) split = match post with [] => None | c :: _ => Some c end).
  { rewrite El, Esp, nth_error_app2, Nat.sub_diag by lia. destruct post; reflexivity. }
  rewrite Hnth. destruct post as [|c post].
  - destruct (append_total i [w] s4 n4 Hi4 Hh4) as [s5 E5]; [repeat constructor; set_solver| |left; exists s5, tt; auto].
    intros x [<-|[]]. eexists. split; [exact Hw4|]. split; [reflexivity|]. left. reflexivity.
  - assert (Hck : c ∈ kids n) by (rewrite El; apply elem_of_app; right; constructor).
    assert (Hnpre : forall x, x ∈ c :: post -> x ∉ pre).
    { intros x Hx Hx'. rewrite El in Hnd. apply NoDup_app in Hnd as (_ & Hd & _). apply (Hd x Hx' Hx). }
    assert (H4 : forall x m, x ∈ c :: post -> st_heap s !! x = Some m -> exists m1, st_heap s4 !! x = Some m1 /\ n_parent m1 = None /\ n_cls m1 = n_cls m).
    { intros x m Hx Hm. rewrite (Hold x m Hm). eexists. split; [reflexivity|]. cbn [n_parent n_cls]. rewrite decide_False by (apply Hnpre, Hx).
      rewrite decide_True by (apply elem_of_app; auto). auto. }
    destruct (Hkid c Hck) as (mc & Hmc & _). destruct (H4 c mc ltac:(constructor) Hmc) as (mc4 & Hmc4 & Hpc4 & Hcc4).
    eapply gives_bind; [apply (ends_inst [CStep] c s4 mc4 (fun b s' => b = subclass_any (n_cls mc) [CStep] /\ s' = s4)); [exact Hmc4|rewrite Hcc4; auto]|].
    intros b1 s' _ [-> ->].
    eapply gives_bind; [apply (ends_inst [CSubproof] c s4 mc4 (fun b s' => b = subclass_any (n_cls mc) [CSubproof] /\ s' = s4)); [exact Hmc4|rewrite Hcc4; auto]|].
    intros b2 s' _ [-> ->].
    destruct Hpost as [(m & Hm & Ec)|(m & Hm & Ec)]; (assert (m = mc) as -> by congruence); rewrite Ec.
    + change (subclass_any CStep [CStep]) with true. cbv iota. rewrite Edr.
      assert (Hsub : exists sp s6, (let! sp := new_node CSubproof [] in do! append sp (c :: post) in ret sp) s4 = (s6, Ok sp) /\
        (exists nsp, st_heap s6 !! sp = Some nsp /\ n_parent nsp = None /\ n_cls nsp = CSubproof) /\ sp <> w /\
        (exists nw, st_heap s6 !! w = Some nw /\ n_parent nw = None /\ n_cls nw = CStatement) /\
        (exists ni, st_heap s6 !! i = Some ni /\ n_cls ni = CStep)).
      { set (s5 := new s4 (mk_node CSubproof [])).
        assert (Hsp5 : st_heap s5 !! st_next s4 = Some (mk_node CSubproof [])) by (unfold s5; rewrite new_lookup, decide_True; reflexivity).
        destruct (append_total (st_next s4) (c :: post) s5 _ Hsp5 eq_refl) as [s6 E6].
        { rewrite El in Hnd. apply NoDup_app in Hnd as (_ & _ & Hnd). exact Hnd. }
        { intros x Hx. apply elem_of_list_In in Hx. assert (Hxk : x ∈ kids n) by (rewrite El; apply elem_of_app; auto). destruct (Hkid x Hxk) as (m & Hm' & Hpm).
          destruct (H4 x m Hx Hm') as (m1 & K1 & K2 & K3). exists m1. split; [unfold s5; rewrite new_lookup; pose proof (proj1 Hg4 _ _ K1); rewrite decide_False by lia; exact K1|].
          split; [exact K2|]. rewrite K3. apply from_step, Hpm. }
        destruct (new_wrapper CSubproof s4 s5 (st_next s4) s6 (c :: post) tt Hg4 eq_refl) as (_ & _ & _ & _ & Hsp6 & Hold6 & _).
        { intros x Hx. assert (Hxk : x ∈ kids n) by (rewrite El; apply elem_of_app; auto). destruct (Hkid x Hxk) as (m & Hm' & _).
          destruct (H4 x m Hx Hm') as (m1 & K1 & _). eauto. }
        { reflexivity. }
        { exact E6. }
        exists (st_next s4), s6. split; [unfold bind at 1; change (new_node CSubproof [] s4) with (s5, Ok (st_next s4)); cbv beta iota; unfold bind; rewrite E6; reflexivity|].
        split; [eexists; split; [exact Hsp6|auto]|]. split; [lia|]. split.
        - pose proof (Hold6 w _ Hw4) as K. rewrite decide_False in K; [eexists; split; [exact K|auto]|].
          intros Hin. apply (Hwi w); [rewrite El; apply elem_of_app; auto|reflexivity].
        - pose proof (Hold6 i _ Hi4) as K. eexists. split; [exact K|]. exact Hcl4. }
      destruct Hsub as (sp & s6 & E6 & (nsp & Hsp6 & Hpsp & Hcsp) & Hne & (nw & Hw6 & Hpw & Hcw) & (ni & Hi6 & Hci6)).
      eapply gives_run; [exact E6|].
      destruct (append_total i [w; sp] s6 ni Hi6 ltac:(rewrite Hci6; reflexivity)) as [s7 E7]; [| |left; exists s7, tt; auto].
      * repeat constructor; set_solver.
      * intros x [<-|[<-|[]]]; eexists; (split; [eassumption|]); (split; [assumption|]); left; [rewrite Hcw|rewrite Hcsp]; reflexivity.
    + change (subclass_any CSubproof [CStep]) with false. change (subclass_any CSubproof [CSubproof]) with true. cbv iota.
      destruct post as [|c2 post].
      2:{ right. split; [intros Hlast; discriminate (Hlast pre c (c2 :: post) El Hpre ltac:(exists mc; auto))|].
          replace (Nat.eqb split (length (kids n) - 1)) with false by (symmetry; apply Nat.eqb_neq; rewrite El, app_length; cbn [length]; lia).
          eexists. reflexivity. }
      replace (Nat.eqb split (length (kids n) - 1)) with true by (symmetry; apply Nat.eqb_eq; rewrite El, app_length; cbn [length]; lia).
      eapply gives_run; [reflexivity|].
      destruct (append_total i [w; c] s4 n4 Hi4 Hh4) as [s7 E7]; [| |left; exists s7, tt; auto].
      * pose proof (Hwi c Hck). repeat constructor; set_solver.
      * intros x [<-|[<-|[]]]; [eexists; (split; [exact Hw4|]); (split; [reflexivity|]); left; reflexivity|].
        exists mc4. split; [exact Hmc4|]. split; [exact Hpc4|]. rewrite Hcc4, Ec. left. reflexivity.
Qed.
Lemma subproof_body_ends s i n : good s -> parents_ok s -> st_heap s !! i = Some n -> n_cls n = CStep ->
  subs_last (st_heap s) (kids n) -> ends (subproof_body tt i) s (fun _ _ => True).
Proof. intros Hg Hpl Hi Hcl Hlast. destruct (subproof_body_gives s i n Hg Hpl Hi Hcl) as [H|[H _]]; [exact H|contradiction]. Qed.

(** ** The trees on the stack after a step was split *)

Definition step_weight (h : gmap id node) (x : id) : nat := if SpecTransform.is_step h x then 4 else 1.
Definition weight (h : gmap id node) (l : list id) : nat := list_sum (map (step_weight h) l).
Lemma weight_app h l l' : weight h (l ++ l') = weight h l + weight h l'.
Proof. unfold weight. rewrite map_app, list_sum_app. reflexivity. Qed.
Lemma weight_same h h' l : (forall x, x ∈ l -> class_in h' x = class_in h x) -> weight h' l = weight h l.
Proof.
  intros H. unfold weight. f_equal. apply map_ext_in. intros x Hx. apply elem_of_list_In in Hx. specialize (H x Hx).
  unfold step_weight, SpecTransform.is_step, class_in in *. destruct (h' !! x), (h !! x); cbn in H; try discriminate; [injection H as ->|]; reflexivity.
Qed.

Notation rooted h := (Forall (fun t => exists p, tree_at h p t)).
Lemma body_trees s s1 i n p (cs ts : list tree) u : good s -> tree_at (st_heap s) p (T i cs) -> rooted (st_heap s) ts ->
  NoDup (doc_orders (T i cs :: ts)) -> st_heap s !! i = Some n -> n_cls n = CStep -> subproof_body tt i s = (s1, Ok u) ->
  exists us n1, st_heap s1 !! i = Some n1 /\ kids n1 = map root us /\ good s1 /\ rooted (st_heap s1) (us ++ ts) /\ NoDup (doc_orders (us ++ ts)) /\
    (forall x, x ∈ doc_orders us -> x ∈ doc_orders cs \/ ~ class_of (st_heap s1) x CStep) /\
    (forall x m, st_heap s !! x = Some m -> x <> i -> exists m1, st_heap s1 !! x = Some m1 /\ n_cls m1 = n_cls m /\ kids m1 = kids m) /\
    (forall x, is_Some (st_heap s !! x) -> class_in (st_heap s1) x = class_in (st_heap s) x) /\
    weight (st_heap s1) (doc_orders us) <= weight (st_heap s) (doc_orders cs) + 2.
Proof.
  intros Hg Ht Hts Hnd Hi Estep Hb.
  pose proof Ht as Ht0. apply tree_at_inv in Ht as (n0 & Hn0 & Hp & Hk & Hcs).
  simpl in Hn0, Hi. assert (n0 = n) as -> by congruence. clear Hn0.
  rewrite doc_orders_cons, doc_order_T in Hnd. simpl in Hnd. apply list.NoDup_cons in Hnd as [Hnin Hnd].
  rewrite <- doc_orders_app in Hnin, Hnd.
  assert (Hall : rooted (st_heap s) (cs ++ ts)).
  { apply list.Forall_app. split; [eapply roots_of_tree; eassumption|assumption]. }
  assert (Hniks : i ∉ kids n).
  { intros Hin. rewrite Hk in Hin. apply elem_roots in Hin. apply Hnin. rewrite doc_orders_app. apply elem_of_app. auto. }
  pose proof (subproof_body_ok _ _ _ _ _ Hg Hi Estep Hb) as Hsplit.
  assert (Hd : forall x, x ∈ doc_orders cs -> x ∉ doc_orders ts).
  { rewrite doc_orders_app in Hnd. apply NoDup_app in Hnd as (_ & Hd & _). exact Hd. }
  assert (Hkids_doc : forall x, x ∈ kids n -> x ∈ doc_orders cs /\ x ∉ doc_orders ts).
  { intros x Hx. rewrite Hk in Hx. apply elem_roots in Hx. auto. }
  assert (Hlt : forall x, x ∈ doc_orders (cs ++ ts) -> x < st_next s).
  { intros x Hx. destruct (rooted_some _ _ _ Hall Hx) as [m Hm]. eapply not_fresh; eassumption. }
  assert (Hcsome : forall x, x ∈ doc_orders cs -> is_Some (st_heap s !! x)).
  { intros x Hx. eapply rooted_some; [exact Hall|]. rewrite doc_orders_app. apply elem_of_app. auto. }
  remember (kids n) as ks eqn:Eks. destruct Hsplit as [Es|ks Hne Hno W Hnx|pre c post Hno Hc W Hnx Hv|pre c Hno Hc W Hnx].
  - subst s1. destruct cs; [|discriminate]. exists [], n. split; [exact Hi|]. split; [congruence|]. split; [exact Hg|]. split; [exact Hts|]. split; [exact Hnd|].
    split; [intros x Hx; inversion Hx|]. split; [intros x m Hm _; eauto|]. split; [reflexivity|]. cbn. lia.
  - assert (Hcs1 : Forall (tree_at (st_heap s1) (Some (st_next s))) cs).
    { rewrite list.Forall_forall in *. intros c Hc.
      eapply (wrapped_subtree s s1 i ks [] [] i c cs n); eauto.
      - congruence.
      - intros Hin. apply Hnin. rewrite doc_orders_app. apply elem_of_app. left. apply elem_doc_orders. eauto.
      - intros x Hx. congruence.
      - intros x Hx. inversion Hx.
      - rewrite decide_True; [reflexivity|]. rewrite Hk. apply elem_of_list_fmap. eauto. }
    assert (Hst : tree_at (st_heap s1) (Some i) (T (st_next s) cs)).
    { econstructor; [apply W|reflexivity| |assumption]. exact Hk. }
    assert (Hts1 : forall t q, t ∈ ts -> tree_at (st_heap s) q t -> tree_at (st_heap s1) q t).
    { intros t q Hin Ht. eapply wrapped_other; eauto.
      - intros Hin'. apply Hnin. rewrite doc_orders_app. apply elem_of_app. right. apply elem_doc_orders. eauto.
      - intros x [Hx|Hx]; [|inversion Hx]. intros Hin'. destruct (Hkids_doc x Hx) as [_ Hn]. apply Hn. apply elem_doc_orders. eauto. }
    assert (Edoc : doc_orders [T (st_next s) cs] = st_next s :: doc_orders cs) by (rewrite doc_orders_cons, doc_order_T; simpl; rewrite app_nil_r; reflexivity).
    eexists [T (st_next s) cs], _. split; [apply (wr_old _ _ _ _ _ _ _ W _ _ Hi)|].
    split; [unfold kids; simpl; rewrite Estep; change (has_children CStep) with true; cbv iota; rewrite decide_True by reflexivity; reflexivity|].
    split; [apply W|]. split; [|split; [|split; [|split; [|split]]]].
    + constructor; [eauto|]. rewrite list.Forall_forall in *. intros t Hin. destruct (Hts t Hin) as [q Hq]. eauto.
    + rewrite doc_orders_app, Edoc. simpl. rewrite <- doc_orders_app. constructor; [|assumption].
      intros Hin. apply Hlt in Hin. lia.
    + intros x. rewrite Edoc, elem_of_cons. intros [->|Hx]; [right|auto]. intros (m & Hm & Em). rewrite (wr_stmt _ _ _ _ _ _ _ W) in Hm. injection Hm as <-. discriminate.
    + intros x m Hm Hne'. rewrite (wr_old _ _ _ _ _ _ _ W _ _ Hm), (decide_False (P := x = i)) by exact Hne'. eexists. split; [reflexivity|]. split; reflexivity.
    + intros x Hx. symmetry. eapply wrapped_class; eassumption.
    + rewrite Edoc. change (st_next s :: doc_orders cs) with ([st_next s] ++ doc_orders cs). rewrite weight_app.
      rewrite (weight_same (st_heap s) (st_heap s1) (doc_orders cs)) by (intros x Hx; symmetry; eapply wrapped_class; [exact Hg|exact W|apply Hcsome, Hx]).
      unfold weight at 1, step_weight, SpecTransform.is_step. cbn [map list_sum fold_right]. rewrite (wr_stmt _ _ _ _ _ _ _ W). cbn. lia.
  - symmetry in Hk. apply map_eq_app in Hk as (precs & postcs' & -> & Epre & Epost).
    destruct postcs' as [|ct postcs]; [discriminate|].
    assert (Hndk : NoDup (kids n)) by (eapply cons_nodup; [apply Hg|exact Hi]). rewrite <- Eks in Hndk.
    apply NoDup_app in Hndk as (_ & Hdk & _).
    assert (Hsubt : forall t, t ∈ precs ++ ct :: postcs -> tree_at (st_heap s1)
       (if decide (root t ∈ pre) then Some (st_next s) else if decide (root t ∈ c :: post) then Some (S (st_next s)) else Some i) t).
    { intros t Hin. rewrite list.Forall_forall in Hcs.
      eapply (wrapped_subtree s s1 i pre (c :: post) [S (st_next s)] (S (st_next s)) t (precs ++ ct :: postcs) n); eauto.
      - rewrite <- Eks, map_app. congruence.
      - intros Hin'. apply Hnin. rewrite doc_orders_app. apply elem_of_app. left. apply elem_doc_orders. eauto.
      - intros x Hx. rewrite <- Eks. apply elem_of_app. auto.
      - intros x Hx. rewrite <- Eks. apply elem_of_app. auto. }
    assert (Hpre1 : Forall (tree_at (st_heap s1) (Some (st_next s))) precs).
    { apply list.Forall_forall. intros t Hin. specialize (Hsubt t). rewrite decide_True in Hsubt.
      - apply Hsubt. apply elem_of_app. auto.
      - rewrite <- Epre. apply elem_of_list_fmap. eauto. }
    assert (Hpost1 : Forall (tree_at (st_heap s1) (Some (S (st_next s)))) (ct :: postcs)).
    { apply list.Forall_forall. intros t Hin. specialize (Hsubt t).
      assert (root t ∈ c :: post) as Hr by (rewrite <- Epost; apply elem_of_list_fmap; eauto).
      rewrite decide_False in Hsubt by (intros Hp'; apply (Hdk _ Hp'); assumption).
      rewrite decide_True in Hsubt by assumption. apply Hsubt. apply elem_of_app. auto. }
    assert (Hst : Forall (tree_at (st_heap s1) (Some i)) [T (st_next s) precs; T (S (st_next s)) (ct :: postcs)]).
    { constructor; [|constructor; [|constructor]].
      - econstructor; [apply W|reflexivity|exact (eq_sym Epre)|assumption].
      - econstructor; [exact Hv|reflexivity|exact (eq_sym Epost)|assumption]. }
    assert (Hts1 : forall t q, t ∈ ts -> tree_at (st_heap s) q t -> tree_at (st_heap s1) q t).
    { intros t q Hin Ht. eapply wrapped_other; eauto.
      - intros Hin'. apply Hnin. rewrite doc_orders_app. apply elem_of_app. right. apply elem_doc_orders. eauto.
      - intros x Hx. intros Hin'. destruct (Hkids_doc x) as [_ Hn]; [apply elem_of_app; assumption|]. apply Hn. apply elem_doc_orders. eauto. }
    assert (Edoc : doc_orders [T (st_next s) precs; T (S (st_next s)) (ct :: postcs)] =
                   st_next s :: doc_orders precs ++ S (st_next s) :: doc_orders (ct :: postcs)).
    { rewrite !doc_orders_cons, !doc_order_T. simpl. rewrite app_nil_r. reflexivity. }
    eexists [T (st_next s) precs; T (S (st_next s)) (ct :: postcs)], _. split; [apply (wr_old _ _ _ _ _ _ _ W _ _ Hi)|].
    split; [unfold kids; simpl; rewrite Estep; change (has_children CStep) with true; cbv iota; rewrite decide_True by reflexivity; reflexivity|].
    split; [apply W|]. split; [|split; [|split; [|split; [|split]]]].
    + apply list.Forall_app. split; [eapply roots_of_tree; exact Hst|]. rewrite list.Forall_forall in *. intros t Hin. destruct (Hts t Hin) as [q Hq]. eauto.
    + rewrite doc_orders_app, Edoc. rewrite doc_orders_app, doc_orders_app in Hnd.
      assert (Hlt' : forall x, x ∈ doc_orders precs \/ x ∈ doc_orders (ct :: postcs) \/ x ∈ doc_orders ts -> x < st_next s).
      { intros x Hx. apply Hlt. rewrite !doc_orders_app, !elem_of_app. tauto. }
      simpl. rewrite <- app_assoc in *. simpl. constructor.
      * rewrite elem_of_app, elem_of_cons, elem_of_app. intros [Hx|[Hx|Hx]]; [|lia|]; apply Nat.lt_irrefl with (st_next s), Hlt'; tauto.
      * rewrite <- (Permutation_middle (doc_orders precs)).
        constructor; [|assumption]. rewrite !elem_of_app. intros Hx. apply Nat.lt_irrefl with (st_next s).
        apply Nat.lt_trans with (S (st_next s)); [lia|]. apply Hlt'. rewrite doc_orders_cons, elem_of_app. tauto.
    + intros x. rewrite Edoc, elem_of_cons, elem_of_app, elem_of_cons, doc_orders_app, elem_of_app. intros [->|[Hx|[->|Hx]]]; auto; right.
      * intros (m & Hm & Em). rewrite (wr_stmt _ _ _ _ _ _ _ W) in Hm. injection Hm as <-. discriminate.
      * intros (m & Hm & Em). rewrite Hv in Hm. injection Hm as <-. discriminate.
    + intros x m Hm Hne'. rewrite (wr_old _ _ _ _ _ _ _ W _ _ Hm), (decide_False (P := x = i)) by exact Hne'. eexists. split; [reflexivity|]. split; reflexivity.
    + intros x Hx. symmetry. eapply wrapped_class; eassumption.
    + rewrite Edoc, doc_orders_app. change (st_next s :: ?a ++ ?b :: ?c) with ([st_next s] ++ a ++ [b] ++ c). rewrite !weight_app.
      rewrite !(weight_same (st_heap s) (st_heap s1) (doc_orders _)) by (intros x Hx; symmetry; eapply wrapped_class; [exact Hg|exact W|apply Hcsome; rewrite doc_orders_app, elem_of_app; auto]).
      unfold weight at 1 3, step_weight, SpecTransform.is_step. cbn [map list_sum fold_right]. rewrite (wr_stmt _ _ _ _ _ _ _ W), Hv. cbn. lia.
  - symmetry in Hk. apply map_eq_app in Hk as (precs & postcs' & -> & Epre & Epost).
    destruct postcs' as [|ct [|]]; [discriminate| |discriminate]. injection Epost as Ec.
    assert (Hndk : NoDup (kids n)) by (eapply cons_nodup; [apply Hg|exact Hi]). rewrite <- Eks in Hndk.
    apply NoDup_app in Hndk as (_ & Hdk & _).
    assert (Hsubt : forall t, t ∈ precs ++ [ct] -> tree_at (st_heap s1)
       (if decide (root t ∈ pre) then Some (st_next s) else if decide (root t ∈ []) then Some i else Some i) t).
    { intros t Hin. rewrite list.Forall_forall in Hcs.
      eapply (wrapped_subtree s s1 i pre [] [c] i t (precs ++ [ct]) n); eauto.
      - rewrite <- Eks, map_app. simpl. congruence.
      - intros Hin'. apply Hnin. rewrite doc_orders_app. apply elem_of_app. left. apply elem_doc_orders. eauto.
      - intros x Hx. rewrite <- Eks. apply elem_of_app. auto.
      - intros x Hx. inversion Hx. }
    assert (Hpre1 : Forall (tree_at (st_heap s1) (Some (st_next s))) precs).
    { apply list.Forall_forall. intros t Hin. specialize (Hsubt t). rewrite decide_True in Hsubt.
      - apply Hsubt. apply elem_of_app. auto.
      - rewrite <- Epre. apply elem_of_list_fmap. eauto. }
    assert (Hct1 : tree_at (st_heap s1) (Some i) ct).
    { specialize (Hsubt ct). rewrite decide_False in Hsubt.
      - apply Hsubt. apply elem_of_app. right. constructor.
      - rewrite Ec. intros Hp'. apply (Hdk _ Hp'). constructor. }
    assert (Hst : Forall (tree_at (st_heap s1) (Some i)) [T (st_next s) precs; ct]).
    { constructor; [|constructor; [assumption|constructor]].
      econstructor; [apply W|reflexivity|exact (eq_sym Epre)|assumption]. }
    assert (Hts1 : forall t q, t ∈ ts -> tree_at (st_heap s) q t -> tree_at (st_heap s1) q t).
    { intros t q Hin Ht. eapply wrapped_other; eauto.
      - intros Hin'. apply Hnin. rewrite doc_orders_app. apply elem_of_app. right. apply elem_doc_orders. eauto.
      - intros x [Hx|Hx]; [|inversion Hx]. intros Hin'. destruct (Hkids_doc x) as [_ Hn]; [apply elem_of_app; auto|]. apply Hn. apply elem_doc_orders. eauto. }
    assert (Edoc : doc_orders [T (st_next s) precs; ct] = st_next s :: doc_orders (precs ++ [ct])).
    { rewrite doc_orders_app, doc_orders_cons, !doc_order_T. reflexivity. }
    eexists [T (st_next s) precs; ct], _. split; [apply (wr_old _ _ _ _ _ _ _ W _ _ Hi)|].
    split; [unfold kids; simpl; rewrite Estep; change (has_children CStep) with true; cbv iota; rewrite decide_True by reflexivity; rewrite Ec; reflexivity|].
    split; [apply W|]. split; [|split; [|split; [|split; [|split]]]].
    + apply list.Forall_app. split; [eapply roots_of_tree; exact Hst|]. rewrite list.Forall_forall in *. intros t Hin. destruct (Hts t Hin) as [q Hq]. eauto.
    + rewrite doc_orders_app, Edoc. simpl. rewrite <- doc_orders_app. constructor; [|assumption].
      intros Hin. apply Hlt in Hin. lia.
    + intros x. rewrite Edoc, elem_of_cons. intros [->|Hx]; [right|auto]. intros (m & Hm & Em). rewrite (wr_stmt _ _ _ _ _ _ _ W) in Hm. injection Hm as <-. discriminate.
    + intros x m Hm Hne'. rewrite (wr_old _ _ _ _ _ _ _ W _ _ Hm), (decide_False (P := x = i)) by exact Hne'. eexists. split; [reflexivity|]. split; reflexivity.
    + intros x Hx. symmetry. eapply wrapped_class; eassumption.
    + rewrite Edoc. change (st_next s :: ?a) with ([st_next s] ++ a). rewrite weight_app.
      rewrite (weight_same (st_heap s) (st_heap s1) (doc_orders _)) by (intros x Hx; symmetry; eapply wrapped_class; [exact Hg|exact W|apply Hcsome, Hx]).
      unfold weight at 1, step_weight, SpecTransform.is_step. cbn [map list_sum fold_right]. rewrite (wr_stmt _ _ _ _ _ _ _ W). cbn. lia.
Qed.

Definition steps_end (h : gmap id node) (l : list id) : Prop :=
  forall x n, x ∈ l -> h !! x = Some n -> n_cls n = CStep -> subs_last h (kids n).
Lemma step_class c : subclass c CStep = true -> c = CStep.
Proof. destruct c; intros H; (reflexivity || discriminate H). Qed.
Lemma class_in_of h h' x c : class_in h' x = class_in h x -> class_of h' x c <-> class_of h x c.
Proof.
  unfold class_in, class_of. intros H. split; intros (n & Hn & Ec); rewrite Hn in H; cbn in H.
  - destruct (h !! x) as [m|]; [|discriminate]. injection H as E. exists m. split; congruence.
  - destruct (h' !! x) as [m|]; [|discriminate]. injection H as E. exists m. split; congruence.
Qed.

Lemma sub_loop_total : forall N ts s, weight (st_heap s) (doc_orders ts) <= N -> good s -> parents_ok s -> rooted (st_heap s) ts ->
  NoDup (doc_orders ts) -> steps_end (st_heap s) (doc_orders ts) ->
  exists f s', trav_loop f (cond_class CStep) subproof_body tt (map root ts) s = (s', Ok tt).
Proof.
  induction N as [|N IH]; intros ts s Hw Hg Hpl Hts Hnd Hse.
  { destruct ts as [|[i cs] ts]; [exists 0, s; reflexivity|]. exfalso. rewrite doc_orders_cons, doc_order_T in Hw. cbn in Hw. unfold step_weight in Hw. destruct (SpecTransform.is_step (st_heap s) i); lia. }
  destruct ts as [|[i cs] ts]; [exists 0, s; reflexivity|].
  pose proof Hts as Hts0. apply list.Forall_cons in Hts as [[p Ht] Hts].
  pose proof Ht as Ht0. apply tree_at_inv in Ht as (n & Hi & Hp & Hk & Hcs). cbn [root] in Hi.
  assert (Ew : weight (st_heap s) (doc_orders (T i cs :: ts)) = step_weight (st_heap s) i + weight (st_heap s) (doc_orders (cs ++ ts))).
  { rewrite doc_orders_cons, doc_order_T, doc_orders_app. cbn [app]. rewrite weight_app. change (i :: doc_orders cs ++ doc_orders ts) with ([i] ++ doc_orders cs ++ doc_orders ts). rewrite !weight_app. unfold weight at 1. cbn. lia. }
  assert (Hnd0 := Hnd). rewrite doc_orders_cons, doc_order_T in Hnd. cbn [app] in Hnd. apply list.NoDup_cons in Hnd as [Hnin Hnd].
  rewrite <- doc_orders_app in Hnin, Hnd.
  assert (Hall : rooted (st_heap s) (cs ++ ts)).
  { apply list.Forall_app. split; [eapply roots_of_tree; eassumption|assumption]. }
  assert (Hsub : forall x, x ∈ doc_orders (cs ++ ts) -> x ∈ doc_orders (T i cs :: ts)).
  { intros x. rewrite doc_orders_cons, doc_order_T, doc_orders_app. set_solver. }
  destruct (subclass (n_cls n) CStep) eqn:Estep.
  - apply step_class in Estep.
    destruct (subproof_body_ends s i n Hg Hpl Hi Estep) as (s1 & [] & E & _).
    { eapply Hse; [|exact Hi|exact Estep]. rewrite doc_orders_cons, doc_order_T. set_solver. }
    destruct (body_trees s s1 i n p cs ts tt Hg Ht0 Hts Hnd0 Hi Estep E) as (us & n1 & Hi1 & Hk1 & Hg1 & Hr1 & Hnd1 & Hus & Hsame & Hcl & Hw1).
    assert (Hpl1 : parents_ok s1) by (pose proof (pl_sub_body tt i s Hpl) as K; rewrite E in K; exact K).
    destruct (IH (us ++ ts) s1) as (f & s' & Ef).
    + rewrite doc_orders_app, weight_app.
      rewrite (weight_same (st_heap s) (st_heap s1) (doc_orders ts)) by (intros x Hx; apply Hcl; apply (rooted_some _ ts _ Hts Hx)).
      rewrite Ew, doc_orders_app, weight_app in Hw. unfold step_weight, SpecTransform.is_step in Hw. rewrite Hi, Estep in Hw. cbn in Hw. lia.
    + exact Hg1.
    + exact Hpl1.
    + exact Hr1.
    + exact Hnd1.
    + intros x m Hx Hm Em.
      assert (Hx' : x ∈ doc_orders (cs ++ ts)).
      { rewrite doc_orders_app, elem_of_app in *. destruct Hx as [Hx|Hx]; [|auto]. destruct (Hus x Hx) as [H|H]; [auto|]. exfalso. apply H. exists m. auto. }
      destruct (rooted_some _ _ _ Hall Hx') as [m0 Hm0].
      destruct (Hsame x m0 Hm0) as (m1 & Hm1 & Ec & Ek); [intros ->; contradiction|].
      assert (m1 = m) as -> by congruence. rewrite Ek.
      specialize (Hse x m0 (Hsub x Hx') Hm0 ltac:(congruence)).
      assert (Hks : forall y, y ∈ kids m0 -> is_Some (st_heap s !! y)).
      { pose proof (kids_some _ _ _ (proj2 Hg) Hm0) as Ha. rewrite list.Forall_forall in Ha. exact Ha. }
      intros pre c post Epp Hno Hc. apply (Hse pre c post Epp).
      * intros y Hy Hss. apply (Hno y Hy). assert (Hiy : is_Some (st_heap s !! y)) by (apply Hks; rewrite Epp; set_solver).
        unfold step_or_sub in *. rewrite !(class_in_of _ _ _ _ (Hcl y Hiy)). exact Hss.
      * rewrite <- (class_in_of (st_heap s) (st_heap s1)); [exact Hc|]. apply Hcl, Hks. rewrite Epp. set_solver.
    + exists (S f), s'. cbn [map root trav_loop]. unfold bind at 1, get_node at 1. rewrite Hi. unfold cond_class at 1. rewrite Estep.
      change (subclass CStep CStep) with true. cbv iota. unfold bind at 1. rewrite E. cbv beta iota.
      assert (Ec : children_of i s1 = (s1, Ok (kids n1))) by (unfold children_of, bind, get_node; rewrite Hi1; reflexivity).
      unfold bind at 1. rewrite Ec. rewrite map_app, <- Hk1 in Ef. exact Ef.
  - destruct (IH (cs ++ ts) s) as (f & s' & Ef); try assumption.
    + rewrite Ew in Hw. unfold step_weight in Hw. destruct (SpecTransform.is_step (st_heap s) i); lia.
    + intros x m Hx. apply Hse. auto.
    + exists (S f), s'. cbn [map root trav_loop]. unfold bind at 1, get_node at 1. rewrite Hi. unfold cond_class at 1. rewrite Estep.
      assert (Ec : children_of i s = (s, Ok (kids n))) by (unfold children_of, bind, get_node; rewrite Hi; reflexivity).
      unfold bind at 1, ret at 1. unfold bind at 1. rewrite Ec. rewrite map_app, <- Hk in Ef. exact Ef.
Qed.
Lemma sub_total s t : manuscript s t -> parents_ok s -> steps_end (st_heap s) (doc_order t) ->
  exists F, ends (add_necessary_subproofs F (root t)) s (fun _ _ => True).
Proof.
  intros Hm Hpl Hse. destruct (ms_document _ _ Hm) as [Ht Hnd].
  assert (E : doc_orders [t] = doc_order t) by (rewrite doc_orders_cons; apply app_nil_r).
  destruct (sub_loop_total _ [t] s (le_n _)) as (f & s' & Ef); rewrite ?E; auto.
  - apply (manuscript_good _ _ Hm).
  - constructor; [eauto|constructor].
  - exists f, s', tt. split; [exact Ef|exact I].
Qed.
