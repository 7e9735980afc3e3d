(** Collecting labels and resolving references: both return. *)
From Verif Require Export SpecTotal TotalBase.
From Verif Require Import Stages Labels Resolve ResolveAll ResolvePrev EditTotal Queries Traverse NodeOps Monad.
Local Open Scope list_scope.

Lemma some_only P s s' x : only P s s' -> is_Some (st_heap s !! x) -> is_Some (st_heap s' !! x).
Proof. intros Ho [n Hn]. destruct (only_kids _ _ _ _ _ Ho Hn) as (n' & Hn' & _). eauto. Qed.

Lemma collect_total d t s : manuscript s t -> TI s -> (forall x, In x (map snd d) -> is_Some (st_heap s !! x)) ->
  exists f, ends (collect_labels f d (root t)) s (fun d' s' => TI s' /\ ex (map snd d') s').
Proof.
  intros Hm HT Hd. pose proof (ms_document _ _ Hm) as [Ht Hnd].
  destruct (attr_ends (fun _ a => a = a_label) (cond_attr a_label) (fun _ => collect_body)
    (fun seen d' s' => TI s' /\ ex (map snd d') s' /\ forall x, x ∈ doc_order t -> is_Some (st_heap s' !! x)) None t d s) as (f & s' & d' & E & H1 & H2 & _).
  - intros. apply mono_const.
  - intros f acc i s0. eapply only_weaken; [|apply only_collect_body]. simpl. tauto.
  - exact Ht.
  - intros seen x rem acc s1 El (J1 & J2 & J3). exists 0.
    assert (Hx : x ∈ doc_order t) by (rewrite El; set_solver). destruct (J3 x Hx) as [n Hn].
    assert (Hend : ends (collect_body acc x) s1 (fun d' s' => TI s' /\ ex (map snd d') s' /\ forall x, x ∈ doc_order t -> is_Some (st_heap s' !! x))).
    { destruct (ends_imp (collect_body acc x) s1 (fun _ _ => True) (fun _ _ => True)) as (s2 & d2 & E2 & _); [|auto|].
      - unfold collect_body. eapply ends_bind; [eapply (ends_get_str x a_label s1 n (fun _ s' => s' = s1)); [exact J1|exact Hn|apply always|intros v; destruct v; auto|reflexivity]|].
        intros l s' _ ->. destruct (lookup_label acc l); [|apply ends_ret; exact I].
          eapply ends_bind; [apply (ends_warn _ _ s1 (fun _ s' => st_heap s' = st_heap s1)); reflexivity|]. intros ? s' _ Eh.
          eapply ends_bind; [eapply (ends_setattr x a_label (VStr []) s' n (fun _ _ => True)); [rewrite Eh; exact Hn|exact I]|].
          intros ? ? ? ?. apply ends_ret. exact I.
      - exists s2, d2. split; [exact E2|]. assert (G := ok_TI (map snd acc) (collect_body acc x) tt_ (fun d => map snd d) s1 s2 d2).
        destruct G as (G1 & G2 & _ & G3); auto.
        + unfold collect_body. okw. apply ok_ret; [exact I|].
          intros y H. rewrite map_app in H. apply in_app_iff in H as [H|[<-|[]]]; [|left; reflexivity]. right. exact H.
        }
    eapply ends_visit; [exact Hn|auto|auto].
  - split; [exact HT|]. split; [exact Hd|]. intros x Hx. eapply manuscript_some; eassumption.
  - exists f, s', d'. auto.
Qed.

(** Transfer of the conditions on :prev: to the heap in which it is resolved. *)
Section transfer.
  Context (s0 : st) (d : labels) (seen : list id) (f : id -> id) (cites : list (list id)) (s : st).
  Hypothesis Hg0 : good s0.
  Hypothesis RI : rinv s0 d seen f cites s.
  Lemma back_closest ds x r : is_Some (st_heap s0 !! x) -> ~ settled s0 seen x ->
    closest_ancestor (st_heap s0) ds x r -> closest_ancestor (st_heap s) ds x r.
  Proof.
    intros Hx Hs.
    assert (TA : forall b, ancestor (st_heap s) x b <-> ancestor (st_heap s0) x b) by (intros b; eapply tr_ancestor; eassumption).
    assert (TC : forall y, is_Some (st_heap s0 !! y) -> has_class (st_heap s) ds y <-> has_class (st_heap s0) ds y) by (intros y Hy; eapply tr_class; eassumption).
    destruct r as [a|]; simpl.
    - intros (A & C & U). destruct (ancestor_some s0 seen Hg0 _ _ A) as [Ha Hsa].
      split; [apply TA, A|]. split; [apply TC; assumption|].
      intros b Hb Hba Hc. apply TA in Hb. destruct (ancestor_some s0 seen Hg0 _ _ Hb) as [Hb1 Hb2].
      apply (U b Hb); [|apply TC; assumption]. apply (tr_ancestor s0 d seen f cites s Hg0 RI b a Hb1 Hb2). exact Hba.
    - intros U b Hb Hc. apply TA in Hb. destruct (ancestor_some s0 seen Hg0 _ _ Hb) as [Hb1 Hb2]. apply (U b Hb). apply TC; assumption.
  Qed.
  Lemma back_before x l : SpecTransform.is_step (st_heap s0) x = true -> steps_before (st_heap s0) x l -> steps_before (st_heap s) x l.
  Proof.
    intros Hx Hl0.
    assert (exists n, st_heap s0 !! x = Some n) as [n Hn].
    { unfold SpecTransform.is_step in Hx. destruct (st_heap s0 !! x); [eauto|discriminate]. }
    assert (Hns : ~ settled s0 seen x).
    { intros [_ Hp]. apply pendingb_cases in Hp as (m & Hm & Hc). unfold SpecTransform.is_step in Hx. rewrite Hm in Hx.
      destruct Hc as [Hc|[Hc|Hc]]; rewrite Hc in Hx; discriminate. }
    destruct Hl0 as [(b & a & (q & nq & Hq & Hnq & Hk) & ->)|[Hno ->]].
    - left. exists (map f b), (map f a). split.
      + exists q. destruct (ri_old _ _ _ _ _ _ RI _ _ Hnq) as (nq' & H1 & H2 & H3 & _).
        exists nq'. split; [eapply tr_parent; eauto|]. split; [assumption|].
        rewrite H3, Hk, map_app. simpl. rewrite (ri_fix _ _ _ _ _ _ RI x) by assumption. reflexivity.
      + rewrite (filter_map_f s0 d seen f cites s RI); [reflexivity|]. intros z Hz.
        pose proof (kids_some _ _ _ (proj2 Hg0) Hnq) as Hall. rewrite list.Forall_forall in Hall. apply Hall.
        rewrite Hk. apply elem_of_app. auto.
    - right. split; [|reflexivity]. intros q Hq. apply (Hno q). apply (tr_parent s0 d seen f cites s RI x q); eauto.
  Qed.
End transfer.

Lemma replace_ends s i ni q reps : good s -> st_heap s !! i = Some ni -> n_parent ni = Some q ->
  (forall c, In c reps -> exists nc, st_heap s !! c = Some nc /\ possible_parents (n_cls nc) = []) ->
  ends (replace_self i reps) s (fun _ _ => True).
Proof.
  intros [_ Hc] Hi Hp Hr. assert (Hq : parent_is (st_heap s) i q) by (exists ni; auto).
  apply (cons_parent _ Hc) in Hq as (nq & Hnq & Hin). unfold kids in Hin.
  destruct (has_children (n_cls nq)) eqn:Eh; [|inversion Hin].
  destruct (replace_self_total i reps s ni q nq Hi Hp Hnq Eh Hin) as [s' E].
  - intros c H. destruct (Hr c H) as (nc & H1 & H2). exists nc. split; [exact H1|left; exact H2].
  - exists s', tt. auto.
Qed.
Lemma label_ends d l def s : ends (label_to_node d l def) s (fun _ _ => True).
Proof.
  unfold label_to_node. destruct (lookup_label d l); [apply ends_ret; exact I|].
  eapply ends_bind; [apply (ends_warn _ _ s (fun _ _ => True)); auto|]. intros _ s1 _ _. destruct def; apply ends_new; exact I.
Qed.

Lemma ref_ends d i s n q l : good s -> TI s -> ex (map snd d) s -> no_error_labels d (st_heap s) -> st_heap s !! i = Some n -> n_cls n = CPendingReference ->
  n_parent n = Some q -> value (st_heap s) i a_target = Some (VStr l) -> ends (resolve_reference d i) s (fun _ _ => True).
Proof.
  intros Hg HT Hex Hd Hi Hcl Hp Hv. unfold resolve_reference, get_str.
  eapply ends_bind; [eapply ends_bind; [eapply (ends_value _ _ _ _ (fun v s' => v = VStr l /\ s' = s)); eauto|]|].
  { intros v s' _ [-> ->]. apply (ends_ret _ _ (fun v s' => v = l /\ s' = s)). auto. }
  intros v s' _ [-> ->].
  eapply ends_bind; [apply label_ends|]. intros x s1 E _.
  destruct (label_to_node_ok _ _ _ _ _ _ Hg E) as [(Hg1 & _ & _ & Hext) Hm]. pose proof (Hext _ _ Hi) as Hi1.
  assert (HT1 : TI s1 /\ exists nx, st_heap s1 !! x = Some nx).
  { assert (G := ok_TI (map snd d) (label_to_node d l DefError) tt_ (fun i => [i]) s s1 x). destruct G as (G1 & G2 & _ & G3); auto.
    - apply t_label. auto.
    - split; [exact G1|]. apply G3. left. reflexivity. }
  destruct HT1 as [HT1 [nx Hx]].
  eapply ends_bind; [apply (ends_cls_of x s1 nx (fun c s' => c = n_cls nx /\ s' = s1)); auto|]. intros c s' _ [-> ->].
  destruct (subclass (n_cls nx) CError) eqn:Ec.
  - eapply replace_ends; eauto. intros c [<-|[]]. exists nx. split; [exact Hx|].
    destruct (n_cls nx); try discriminate Ec; reflexivity.
  - eapply ends_bind; [eapply (ends_getattr i a_overwrite_reftext s1 n (fun _ s' => s' = s1)); [exact HT1|exact Hi1|rewrite Hcl; vm_compute; tauto|reflexivity]|].
    intros o s' _ ->. eapply ends_bind; [eapply (ends_new _ _ s1 (fun r s' => r = st_next s1 /\ s' = new s1 (mk_node CReference [(a_target, VNode x); (a_overwrite_reftext, o)]))); auto|].
    intros r s' _ [-> ->]. destruct (ext_new s1 (mk_node CReference [(a_target, VNode x); (a_overwrite_reftext, o)])) as (Hg2 & _ & _ & Hx2); auto.
    eapply replace_ends; eauto. intros c [<-|[]]. eexists. split; [cbn; apply lookup_insert|reflexivity].
Qed.

Lemma ends_run {A B} (m : M A) (k : A -> M B) s s1 a Q : m s = (s1, Ok a) -> ends (k a) s1 Q -> ends (bind m k) s Q.
Proof. intros E (s2 & b & E2 & H). exists s2, b. split; [|exact H]. unfold bind. rewrite E. exact E2. Qed.
Lemma mapM_label_ends d ls : forall s, ends (mapM (fun l => label_to_node d l DefUnknownBibitem) ls) s (fun _ _ => True).
Proof.
  induction ls as [|l ls IH]; intros s; cbn [mapM]; [apply ends_ret; exact I|].
  eapply ends_bind; [apply label_ends|]. intros x s1 _ _. eapply ends_bind; [apply IH|]. intros xs s2 _ _. apply ends_ret. exact I.
Qed.
Lemma iter_backlink_ends label : forall ts s, TI s ->
  (forall x, In x ts -> exists n, st_heap s !! x = Some n /\ In a_backlinks (map fst (default_attrs (n_cls n)))) ->
  ends (iterM (add_backlink label) ts) s (fun _ _ => True).
Proof.
  induction ts as [|x ts IH]; intros s HT H; cbn [iterM]; [apply ends_ret; exact I|].
  destruct (H x (or_introl eq_refl)) as (n & Hn & Hin).
  assert (E : ends (add_backlink label x) s (fun _ s' => exists b, s' = upd s x (set_n_attr a_backlinks b n))).
  { unfold add_backlink. eapply ends_bind; [eapply (ends_get_strs x a_backlinks s n (fun _ s' => s' = s)); auto; intros v; destruct v; auto|].
    intros b s' _ ->. eapply ends_setattr; [exact Hn|]. eauto. }
  destruct (ends_imp _ _ _ (fun _ s' => TI s' /\ exists b, s' = upd s x (set_n_attr a_backlinks b n)) E) as (s1 & u & E1 & HT1 & b & ->).
  - intros u s' Er Hb. split; [|exact Hb]. assert (G := ok_TI [] (add_backlink label x) tt_ no_ s s' u). apply G; auto.
    + unfold add_backlink. okw.
    + intros y [].
  - eapply ends_run; [exact E1|]. apply IH; [exact HT1|].
    intros y Hy. destruct (H y (or_intror Hy)) as (m & Hm & Hmi). rewrite upd_lookup. destruct (decide (x = y)) as [->|Hne].
    + assert (m = n) as -> by congruence. eexists. split; [reflexivity|exact Hmi].
    + eauto.
Qed.
(** A :cite: is replaced; what remains is to record the back links. *)
Lemma cite_run d k i s n q : good s -> TI s -> ex (map snd d) s -> st_heap s !! i = Some n -> n_cls n = CPendingCite ->
  n_parent n = Some q ->
  exists ls ts s1 s4, value (st_heap s) i a_targetlabels = Some (VStrs ls) /\
    resolve_cite d k i s = iterM (add_backlink (lit "cite-" ++ str_of_nat k)) ts s4 /\ TI s4 /\ ext s s1 /\
    Forall2 (cite_target d (st_next s) (st_heap s1)) ls ts /\
    (forall x, In x ts -> is_Some (st_heap s1 !! x)) /\
    forall x m, st_heap s1 !! x = Some m -> exists m1, st_heap s4 !! x = Some m1 /\ n_cls m1 = n_cls m /\ n_attrs m1 = n_attrs m.
Proof.
  intros Hg HT Hex Hi Hcl Hp. unfold resolve_cite.
  assert (E0 : ends (get_strs i a_targetlabels) s (fun ls s' => s' = s /\ value (st_heap s) i a_targetlabels = Some (VStrs ls))).
  { eapply (ends_get_strs i a_targetlabels s n); [exact HT|exact Hi|rewrite Hcl; vm_compute; tauto|intros v; destruct v; auto|auto]. }
  destruct E0 as (s' & ls & E0 & -> & Hv).
  destruct (mapM_label_ends d ls s) as (s1 & ts & E & _).
  destruct (cite_targets_ok d ls s s1 ts Hg E) as [X1 Hts]. pose proof X1 as (Hg1 & _ & _ & Hext).
  assert (G := ok_TI (map snd d) (mapM (fun l => label_to_node d l DefUnknownBibitem) ls) tt_ (fun l => l) s s1 ts).
  destruct G as (HT1 & _ & _ & Hex1); auto.
  { eapply ok_mapM. intros. apply t_label. auto. }
  destruct (ext_new s1 (mk_node CCite [(a_targets, VNodes ts)])) as (Hg2 & _ & _ & Hx2); auto.
  assert (Er : new_node CCite [(a_targets, VNodes ts)] s1 = (new s1 (mk_node CCite [(a_targets, VNodes ts)]), Ok (st_next s1))) by reflexivity.
  set (s2 := new s1 _) in *.
  assert (Hr : st_heap s2 !! st_next s1 = Some (mk_node CCite [(a_targets, VNodes ts)])) by (cbn; apply lookup_insert).
  destruct (ends_setattr (st_next s1) a_label (VStr (lit "cite-" ++ str_of_nat k)) s2 _ (fun _ s' => s' = upd s2 (st_next s1) (set_n_attr a_label (VStr (lit "cite-" ++ str_of_nat k)) (mk_node CCite [(a_targets, VNodes ts)]))) Hr eq_refl) as (s' & [] & E3 & ->).
  set (nc := set_n_attr _ _ _) in *. set (s3 := upd s2 _ _) in *.
  assert (Hlt : forall j m, st_heap s1 !! j = Some m -> st_heap s3 !! j = Some m).
  { intros j m Hj. pose proof (proj1 Hg1 _ _ Hj). unfold s3, s2. rewrite upd_lookup, decide_False by lia. rewrite new_lookup, decide_False by lia. exact Hj. }
  assert (Hi3 : st_heap s3 !! i = Some n) by (apply Hlt, Hext, Hi).
  assert (Hr3 : st_heap s3 !! st_next s1 = Some nc) by (unfold s3; rewrite upd_lookup, decide_True; reflexivity).
  assert (Hg3 : good s3).
  { apply (only_good (fun j a => j = st_next s1 /\ a = a_label) s2); [|exact Hg2].
    eapply ch_run; [apply only_setattr; split; reflexivity|exact E3]. }
  destruct (replace_ends s3 i n q [st_next s1] Hg3 Hi3 Hp) as (s4 & [] & E4 & _).
  { intros c [<-|[]]. exists nc. split; [exact Hr3|reflexivity]. }
  destruct (replace_self_swap i (st_next s1) nc s3 s4 tt) as (_ & _ & _ & q' & _ & _ & Hold); auto.
  { pose proof (proj1 Hg1 _ _ (Hext _ _ Hi)). lia. }
  exists ls, ts, s1, s4. split; [exact Hv|]. split.
  { unfold bind at 1. rewrite E0. unfold bind at 1. rewrite E. unfold bind at 1. rewrite Er. unfold bind at 1. rewrite E3. unfold bind at 1. rewrite E4. reflexivity. }
  split; [|split; [exact X1|split; [exact Hts|split; [exact Hex1|]]]].
  - assert (G := ok_TI ts (let! c := new_node CCite [(a_targets, VNodes ts)] in do! setattr c a_label (VStr (lit "cite-" ++ str_of_nat k)) in replace_self i [c]) tt_ no_ s1 s4 tt).
    apply G; auto.
    + eapply ok_bind; [apply ok_new|intros c _; cbn [app]].
      { constructor; [|constructor]. split; [reflexivity|]. intros y Hy. exact Hy. }
      eapply ok_bind; [apply ok_setattr; [reflexivity|ins]|intros u _; cbn [app]]. okw.
    + unfold bind at 1. rewrite Er. unfold bind. rewrite E3. exact E4.
  - intros x m Hm. pose proof (proj1 Hg1 _ _ Hm). destruct (Hold x m ltac:(lia) (Hlt _ _ Hm)) as (m1 & M1 & M2 & _ & _ & M3). eauto.
Qed.
Lemma cite_ends d k i s n q : good s -> TI s -> ex (map snd d) s -> st_heap s !! i = Some n -> n_cls n = CPendingCite ->
  n_parent n = Some q ->
  (forall ls l x, value (st_heap s) i a_targetlabels = Some (VStrs ls) -> l ∈ ls -> lookup_label d l = Some x ->
     exists m, st_heap s !! x = Some m /\ n_cls m = CBibitem) ->
  ends (resolve_cite d k i) s (fun _ _ => True).
Proof.
  intros Hg HT Hex Hi Hcl Hp Hb.
  destruct (cite_run d k i s n q Hg HT Hex Hi Hcl Hp) as (ls & ts & s1 & s4 & Hv & E & HT4 & (_ & _ & _ & Hext) & Hts & _ & Hold).
  unfold ends. rewrite E. apply iter_backlink_ends; [exact HT4|].
  intros x Hx. apply elem_of_list_In in Hx. apply elem_of_list_lookup in Hx as [k0 Hx].
  destruct (Forall2_lookup_r _ _ _ _ _ Hts Hx) as (l & Hl & Hct). unfold cite_target in Hct.
  assert (exists m, st_heap s1 !! x = Some m /\ In a_backlinks (map fst (default_attrs (n_cls m)))) as (m & Hm & Hin).
  { destruct (lookup_label d l) as [y|] eqn:Ey.
    - subst y. destruct (Hb ls l x Hv) as (m & Hm & Hc); [eapply elem_of_list_lookup_2; eassumption|exact Ey|].
      exists m. split; [apply Hext, Hm|]. rewrite Hc. vm_compute. tauto.
    - destruct Hct as (_ & m & Hm & Hc & _). exists m. split; [exact Hm|]. rewrite Hc. vm_compute. tauto. }
  destruct (Hold x m Hm) as (m1 & M1 & M2 & _). exists m1. split; [exact M1|]. rewrite M2. exact Hin.
Qed.

Lemma prev_ends i s n q step v k l y : good s -> TI s -> st_heap s !! i = Some n -> n_cls n = CPendingPrev -> n_parent n = Some q ->
  closest_ancestor (st_heap s) [CStep] i (Some step) -> value (st_heap s) i a_target = Some v -> py_int (fmt_val v) = Some k ->
  steps_before (st_heap s) step l -> nth_error (step :: l) (Z.to_nat k) = Some y ->
  exists f, ends (resolve_prev f i) s (fun _ _ => True).
Proof.
  intros Hg HT Hi Hcl Hp Hanc Hv Hk Hl Hy. exists (size (st_heap s)). unfold resolve_prev.
  destruct (first_ancestor_total (size (st_heap s)) i [CStep] s n (proj2 Hg) Hi ltac:(lia)) as [r Er].
  assert (r = Some step) as ->.
  { apply (closest_unique _ _ _ _ _ (proj2 Hg)) with (2 := Hanc). eapply first_ancestor_ok; [apply Hg|exact Er]. }
  eapply ends_run; [exact Er|].
  eapply ends_bind; [eapply (ends_value _ _ _ _ (fun x s' => x = v /\ s' = s)); eauto|]. intros x s' _ [-> ->].
  rewrite Hk.
  assert (Hst : is_Some (st_heap s !! step)) by (destruct Hanc as (_ & (m & Hm & _) & _); eauto).
  pose proof (walk_prev_eq (fmt_val v) (Z.to_nat k) step l s (proj2 Hg) Hst Hl) as Ew. rewrite Hy in Ew.
  eapply ends_run; [exact Ew|].
  assert (exists ny, st_heap s !! y = Some ny) as [ny Hny].
  { destruct (Z.to_nat k) as [|k']; cbn [nth_error] in Hy.
    - injection Hy as <-. exact Hst.
    - apply nth_error_In in Hy. destruct Hl as [(b & a & _ & ->)|[_ ->]]; [|destruct Hy].
      apply in_rev, filter_In in Hy as [_ Hy]. unfold SpecTransform.is_step in Hy. destruct (st_heap s !! y) as [m|]; [eauto|discriminate]. }
  eapply ends_bind; [eapply (ends_getattr y a_label s ny (fun v s' => s' = s /\ attr_shape a_label v = true)); [exact HT|exact Hny|apply always|auto]|].
  intros lv s' _ [-> Hs]. destruct lv; try discriminate Hs.
  - eapply ends_bind; [apply (ends_ret _ s (fun _ s' => s' = s)); reflexivity|]. intros b s' _ ->.
    assert (Hi1 : exists s1, ends (if b then warn logger_tform (lit ":prev: references un-labeled step, link will not work") else ret tt) s (fun _ s' => s' = s1) /\ st_heap s1 = st_heap s /\ good s1 /\ TI s1).
    { destruct b.
      - eexists. split; [eexists _, tt; split; reflexivity|]. split; [reflexivity|]. split; [exact Hg|exact HT].
      - exists s. split; [apply ends_ret; reflexivity|]. auto. }
    destruct Hi1 as (s1 & He & Eh & Hg1 & HT1).
    eapply ends_bind; [exact He|]. intros [] s' _ ->. rewrite <- Eh in Hi.
    eapply ends_bind; [eapply (ends_getattr i a_overwrite_reftext s1 n (fun _ s' => s' = s1)); [exact HT1|exact Hi|rewrite Hcl; vm_compute; tauto|reflexivity]|].
    intros o s' _ ->. eapply ends_bind; [eapply (ends_new _ _ s1 (fun r s' => r = st_next s1 /\ s' = new s1 (mk_node CReference [(a_target, VNode y); (a_overwrite_reftext, o)]))); auto|].
    intros r s' _ [-> ->]. destruct (ext_new s1 (mk_node CReference [(a_target, VNode y); (a_overwrite_reftext, o)])) as (Hg2 & _ & _ & Hx2); auto.
    eapply replace_ends; eauto. intros c [<-|[]]. eexists. split; [cbn; apply lookup_insert|reflexivity].
Qed.

Lemma mono_resolve_body d k i : mono (fun F => resolve_body F d k i). Proof. unfold resolve_body. mn. Qed.
Lemma ends_post {A} (m : M A) s (Q Q' : A -> st -> Prop) : ends m s Q -> (forall a s', m s = (s', Ok a) -> Q' a s') -> ends m s Q'.
Proof. intros H I. eapply ends_imp; [exact H|]. auto. Qed.
Lemma t_resolve_visit fuel d k i X : (forall x, In x (map snd d) -> In x X) -> okM X (visit (cond_exact pending_classes) (resolve_body fuel d) k i) tt_ no_.
Proof.
  intros Hd. apply (ok_visit X _ _ _ _ (fun _ => [])). cbn [app]. unfold resolve_body. obsa. destruct (subclass _ _); [eapply ok_bind; [apply t_ref, Hd|intros; okw]|].
  destruct (subclass _ _); [eapply ok_bind; [apply t_cite, Hd|intros; okw]|].
  destruct (subclass _ _); [eapply ok_bind; [apply t_prev|intros; okw]|okw].
Qed.

(** What transform needs of the references in the document with labels [d] to resolve those of [l]. *)
Record resolvable_on (l : list id) (s : st) (t : tree) (d : labels) : Prop := {
  rv_manuscript : manuscript s t;
  rv_typed : TI s;
  rv_labels : ex (map snd d) s;
  rv_no_error : no_error_labels d (st_heap s);
  rv_root : forall n, st_heap s !! root t = Some n -> n_cls n = CManuscript;
  rv_refs : forall x, x ∈ doc_order t -> class_of (st_heap s) x CPendingReference ->
    exists l, value (st_heap s) x a_target = Some (VStr l);
  rv_cites : forall x keys k y, x ∈ l -> class_of (st_heap s) x CPendingCite ->
    value (st_heap s) x a_targetlabels = Some (VStrs keys) -> k ∈ keys -> lookup_label d k = Some y -> class_of (st_heap s) y CBibitem;
  rv_prevs : forall x, x ∈ l -> class_of (st_heap s) x CPendingPrev ->
    exists step v k y, closest_ancestor (st_heap s) [CStep] x (Some step) /\
      value (st_heap s) x a_target = Some v /\ py_int (fmt_val v) = Some k /\
      kth_previous (st_heap s) step (Z.to_nat k) y
}.
Definition resolvable (s : st) (t : tree) (d : labels) : Prop := resolvable_on (doc_order t) s t d.

Lemma resolve_visit_ends l s0 t d seen x rem f cites s : resolvable_on l s0 t d -> doc_order t = seen ++ x :: rem -> x ∈ l ->
  rinv s0 d seen f cites s -> TI s -> exists F, ends (visit (cond_exact pending_classes) (resolve_body F d) (length cites) x) s (fun _ _ => True).
Proof.
  intros RV El Hxl RI HT. pose proof (rv_manuscript _ _ _ _ RV) as Hm. pose proof (manuscript_good _ _ Hm) as Hg0.
  pose proof (ms_document _ _ Hm) as [Ht Hnd]. pose proof (ri_good _ _ _ _ _ _ RI) as Hg.
  assert (Hx : x ∈ doc_order t) by (rewrite El; set_solver). destruct (manuscript_some _ _ _ Hm Hx) as [n0 Hn0].
  assert (Hnin : x ∉ seen) by (rewrite El in Hnd; apply NoDup_app in Hnd as (_ & Hd & _); intros H; apply (Hd x H); constructor).
  assert (Hns : ~ settled s0 seen x) by (intros [? _]; contradiction).
  destruct (ri_old _ _ _ _ _ _ RI _ _ Hn0) as (n & Hn & Hc & _ & Hp & _). specialize (Hp Hns).
  assert (Hex : ex (map snd d) s).
  { intros y Hy. destruct (rv_labels _ _ _ _ RV y Hy) as [m Hy0]. destruct (ri_old _ _ _ _ _ _ RI _ _ Hy0) as (m' & Hm' & _). eauto. }
  pose proof (no_error_labels_old _ _ _ _ _ _ RI (rv_no_error _ _ _ _ RV)) as Hd.
  assert (Hroot : n_cls n0 <> CManuscript -> exists q, n_parent n = Some q).
  { intros Hne. rewrite Hp. destruct (tree_at_parent_in _ _ _ _ Ht Hx) as [->|(q & (m & Hm1 & Hm2) & _)].
    - destruct Hne. apply (rv_root _ _ _ _ RV). exact Hn0.
    - exists q. congruence. }
  destruct (cond_exact pending_classes n) eqn:Ec.
  2:{ exists 0. eapply ends_visit; [exact Hn|congruence|auto]. }
  assert (Hpc : pendingb (st_heap s0) x = true) by (unfold pendingb, holds; rewrite Hn0; unfold cond_exact in *; rewrite <- Hc; exact Ec).
  destruct (pendingb_cases _ _ Hpc) as (m & Hm0 & Hcases). assert (m = n0) as -> by congruence.
  assert (Hval : forall a, a <> a_backlinks -> value (st_heap s) x a = value (st_heap s0) x a) by (intros a Ha; eapply tr_value; eauto).
  destruct Hcases as [Hcl|[Hcl|Hcl]]; (destruct Hroot as [q Hq]; [rewrite Hcl; discriminate|]).
  - destruct (rv_refs _ _ _ _ RV x Hx ltac:(exists n0; auto)) as [l0 Hl].
    exists 0. eapply ends_visit; [exact Hn|intros _|auto]. unfold resolve_body.
    eapply ends_bind; [apply (ends_cls_of x s n (fun c s' => c = CPendingReference /\ s' = s)); auto; split; congruence|]. intros c s' _ [-> ->].
    change (subclass CPendingReference CPendingReference) with true. cbv iota.
    eapply ends_bind; [eapply ref_ends; eauto; [congruence|rewrite Hval by discriminate; exact Hl]|]. intros ? ? _ _. apply ends_ret. exact I.
  - exists 0. eapply ends_visit; [exact Hn|intros _|auto]. unfold resolve_body.
    eapply ends_bind; [apply (ends_cls_of x s n (fun c s' => c = CPendingCite /\ s' = s)); auto; split; congruence|]. intros c s' _ [-> ->].
    change (subclass CPendingCite CPendingReference) with false. change (subclass CPendingCite CPendingCite) with true. cbv iota.
    eapply ends_bind; [eapply cite_ends; eauto; [congruence|]|intros ? ? _ _; apply ends_ret; exact I].
    intros ls l0 y Hv Hl Hy. rewrite Hval in Hv by discriminate.
    destruct (rv_cites _ _ _ _ RV x ls l0 y Hxl ltac:(exists n0; auto) Hv Hl Hy) as (m & Hm1 & Hm2).
    destruct (ri_old _ _ _ _ _ _ RI _ _ Hm1) as (m' & H1 & H2 & _). exists m'. split; [exact H1|congruence].
  - destruct (rv_prevs _ _ _ _ RV x Hxl ltac:(exists n0; auto)) as (step & v & k & y & Ha & Hv & Hk & l0 & Hl & Hy).
    assert (Hstep : SpecTransform.is_step (st_heap s0) step = true).
    { destruct Ha as (_ & (m & Hm1 & Hc1) & _). unfold SpecTransform.is_step. rewrite Hm1. destruct Hc1 as [<-|[]]. reflexivity. }
    assert (Hv' : value (st_heap s) x a_target = Some v) by (rewrite Hval by discriminate; exact Hv).
    assert (HF : exists F, ends (resolve_prev F x) s (fun _ _ => True)).
    { apply (prev_ends x s n q step v k l0 y Hg HT Hn ltac:(congruence) Hq); [|exact Hv'|exact Hk| |exact Hy].
      - apply (back_closest s0 d seen f cites s Hg0 RI); eauto.
      - apply (back_before s0 d seen f cites s Hg0 RI); assumption. }
    destruct HF as [F HF].
    exists F. eapply ends_visit; [exact Hn|intros _|auto]. unfold resolve_body.
    eapply ends_bind; [apply (ends_cls_of x s n (fun c s' => c = CPendingPrev /\ s' = s)); auto; split; congruence|]. intros c s' _ [-> ->].
    change (subclass CPendingPrev CPendingReference) with false. change (subclass CPendingPrev CPendingCite) with false. change (subclass CPendingPrev CPendingPrev) with true. cbv iota.
    eapply ends_bind; [exact HF|]. intros ? ? _ _. apply ends_ret. exact I.
Qed.

Lemma resolve_fold_ends l s t d seen0 rem0 : resolvable_on l s t d -> doc_order t = seen0 ++ rem0 -> (forall x, x ∈ seen0 -> x ∈ l) ->
  exists F, ends (fun s => foldM (visit (cond_exact pending_classes) (resolve_body F d)) 0 seen0 s) s
    (fun k s' => TI s' /\ exists f cites, rinv s d seen0 f cites s' /\ k = length cites).
Proof.
  intros RV El0 Hl. pose proof (rv_manuscript _ _ _ _ RV) as Hm. pose proof (manuscript_good _ _ Hm) as Hg0.
  pose proof (ms_document _ _ Hm) as [Ht Hnd].
  apply (fold_ends (fun F => visit (cond_exact pending_classes) (resolve_body F d))
    (fun seen k s' => TI s' /\ exists f cites, rinv s d seen f cites s' /\ k = length cites)).
  - intros acc x. apply mono_visit. intros. apply mono_resolve_body.
  - intros seen x rem acc s1 El1 (HT & f & cites & RI & ->).
    assert (El : doc_order t = seen ++ x :: rem ++ rem0) by (rewrite El0, El1, <- app_assoc; reflexivity).
    destruct (resolve_visit_ends l s t d seen x (rem ++ rem0) f cites s1 RV El ltac:(apply Hl; rewrite El1; set_solver) RI HT) as [F HF]. exists F.
    eapply ends_post; [exact HF|]. intros k s2 E2.
    assert (Hex : ex (map snd d) s1).
    { intros y Hy. destruct (rv_labels _ _ _ _ RV y Hy) as [m Hy0]. destruct (ri_old _ _ _ _ _ _ RI _ _ Hy0) as (m' & Hm' & _). eauto. }
    split.
    + apply (ok_TI _ _ _ _ _ _ _ (t_resolve_visit F d (length cites) x (map snd d) ltac:(auto)) HT Hex E2).
    + eapply rinv_visit; [exact Hg0|exact RI|apply RV| | | |exact E2].
      * intros y Hy. eapply manuscript_some; [exact Hm|]. rewrite El. set_solver.
      * rewrite El in Hnd. apply NoDup_app in Hnd as (_ & Hd & _). intros H. apply (Hd x H). constructor.
      * eapply manuscript_some; [exact Hm|]. rewrite El. set_solver.
  - split; [apply RV|]. exists (fun x => x), []. split; [apply rinv_start, Hg0|reflexivity].
Qed.
Lemma resolve_total s t d : resolvable s t d ->
  exists F, ends (resolve_pending_references F d (root t)) s (fun _ s' => TI s' /\ exists f cites, rinv s d (doc_order t) f cites s').
Proof.
  intros RV. pose proof (rv_manuscript _ _ _ _ RV) as Hm. pose proof (manuscript_good _ _ Hm) as Hg0.
  pose proof (ms_document _ _ Hm) as [Ht Hnd].
  destruct (resolve_fold_ends (doc_order t) s t d (doc_order t) [] RV ltac:(rewrite app_nil_r; reflexivity) ltac:(auto)) as (f & s' & k & E & HT & f' & cites & RI & _).
  destruct (fold_loop (fun _ => trav_inv d) (cond_exact pending_classes) (fun F => resolve_body F d)) with (t := t) (acc := 0) (s := s) (f := f) (s' := s') (a := k) as [F HF]; auto.
    + intros. apply mono_resolve_body.
    + intros g s1 i rem acc s2 acc' n. apply resolve_trav_step.
    + intros _. split; [exact Hg0|]. split; [apply RV|]. split; [exact Hnd|]. split.
      * intros x Hx. eapply manuscript_some; eassumption.
      * intros l1 x l2 q El Hq. eapply document_parent_before; [split|..]; eassumption.
    + eapply tree_at_kid; eassumption.
    + pose proof (rinv_document _ _ _ _ _ _ Hm RI) as Hm'. pose proof (ms_document _ _ Hm') as [Ht' _].
      assert (Hroot : root (tmap f' t) = root t).
      { destruct t as [r cs]. cbn. apply (ri_fix _ _ _ _ _ _ RI). intros [_ Hp]. apply pendingb_cases in Hp as (n & Hn & Hc).
        rewrite (rv_root _ _ _ _ RV n Hn) in Hc. destruct Hc as [Hc|[Hc|Hc]]; discriminate. }
      destruct (attr_ends (fun _ _ => False) (cond_exact pending_classes) (fun _ _ _ => raise (ETransformer (lit "Found unresolved pending reference")))
        (fun _ (_ : unit) s2 => s2 = s') None (tmap f' t) tt s') as (F2 & s2 & u & E2 & ->).
      * intros. apply mono_const.
      * intros g acc i. apply ch_raise, only_refl.
      * exact Ht'.
      * intros seen x rem acc s1 El ->. exists 0.
        assert (Hx : x ∈ doc_order (tmap f' t)) by (rewrite El; set_solver).
        pose proof (rinv_no_pending _ _ _ _ _ _ x Hm RI Hx) as Hp. destruct (manuscript_some _ _ _ Hm' Hx) as [n Hn].
        unfold pendingb, holds in Hp. rewrite Hn in Hp. eapply ends_visit; [exact Hn|congruence|auto].
      * reflexivity.
      * rewrite Hroot in E2. exists (F + F2), s', tt. split; [|eauto]. unfold resolve_pending_references, bind.
        rewrite (mono_ok (fun f => for_traverse f (cond_exact pending_classes) (resolve_body f d) 0 (root t)) F (F + F2) s s' k); [|apply mono_traverse; intros; apply mono_resolve_body|lia|exact HF].
        rewrite (mono_ok (fun f => for_traverse f (cond_exact pending_classes) (fun _ _ => raise (ETransformer (lit "Found unresolved pending reference"))) tt (root t)) F2 (F + F2) s' s' u); [|mn|lia|exact E2]. reflexivity.
Qed.
