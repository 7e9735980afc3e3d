(** The last three passes return. *)
From Verif Require Export TotalBase SpecTotal.
From Verif Require Import TotalResolve Passes HandrailDepth ResolveAll TreeFacts Traverse NodeOps Monad.
Local Open Scope list_scope.

Lemma subtree_at h p t x : tree_at h p t -> x ∈ doc_order t -> exists q t', tree_at h q t' /\ root t' = x.
Proof.
  intros Ht. induction Ht as [p i n cs Hi Hp Hk Hcs IH] using tree_at_ind'. rewrite doc_order_T. intros Hx.
  apply elem_of_cons in Hx as [-> |Hx].
  - exists p, (T i cs). split; [|reflexivity]. econstructor; eassumption.
  - apply elem_doc_orders in Hx as (c & Hc & Hx). rewrite list.Forall_forall in IH. exact (IH c Hc Hx).
Qed.
Lemma ends_get_int i a s n (Q : Z -> st -> Prop) : TI s -> st_heap s !! i = Some n -> In a (map fst (default_attrs (n_cls n))) ->
  (forall v, attr_shape a v = true -> exists z, v = VInt z) ->
  (forall x, value (st_heap s) i a = Some (VInt x) -> Q x s) -> ends (get_int i a) s Q.
Proof.
  intros HT H Hin Hs HQ. unfold get_int. apply (ends_bind _ _ _ (fun v s' => s' = s /\ value (st_heap s) i a = Some v /\ attr_shape a v = true)).
  - eapply ends_getattr; eauto.
  - intros v s' _ (-> & Hv & Hsh). destruct (Hs v Hsh) as [z ->]. apply ends_ret, HQ, Hv.
Qed.
Lemma only_some P s s' x : only P s s' -> is_Some (st_heap s !! x) -> is_Some (st_heap s' !! x).
Proof. intros (_ & _ & H) [n Hn]. specialize (H x). rewrite Hn in H. destruct (st_heap s' !! x); [eauto|contradiction]. Qed.
Lemma only_class P s s' x : only P s s' -> constructb (st_heap s') x = constructb (st_heap s) x.
Proof.
  intros (_ & _ & H). specialize (H x). unfold constructb. destruct (st_heap s !! x), (st_heap s' !! x); try contradiction; [|reflexivity].
  destruct H as (-> & _). reflexivity.
Qed.
Lemma only_good P s s' : only P s s' -> good s -> good s'.
Proof.
  intros Ho [Hf Hc]. split; [|eapply same_structure_consistent; [eapply only_structure; exact Ho|exact Hc]].
  destruct Ho as (En & _ & H). intros j m Hj. specialize (H j). rewrite Hj in H. destruct (st_heap s !! j) as [n|] eqn:E; [|contradiction].
  rewrite En. eapply Hf. exact E.
Qed.

(** ** Constructs *)
Lemma t_construct_body u i X : okM X (construct_body u i) tt_ no_.
Proof. unfold construct_body. okw. Qed.
Lemma constructs_total s t : manuscript s t -> TI s ->
  (forall x, x ∈ doc_order t -> constructb (st_heap s) x = true -> exists kind, value (st_heap s) x a_kind = Some (VStr kind) /\ kind <> []) ->
  exists F, ends (add_keywords_to_constructs F (root t)) s (fun _ _ => True).
Proof.
  intros Hm HT Hk. destruct (ms_document _ _ Hm) as [Ht _].
  destruct (attr_ends construct_attr (cond_class CConstruct) (fun _ => construct_body) (fun _ _ s' => TI s' /\ only construct_attr s s') None t tt s) as [F HF].
  - intros. apply mono_const.
  - intros _ [] i s0. eapply only_weaken; [|apply construct_body_only]. intros j b [_ ->]. reflexivity.
  - exact Ht.
  - intros seen x rem [] s1 Ed (HT1 & Ho). exists 0.
    assert (Hx : x ∈ doc_order t) by (rewrite Ed; apply elem_of_app; right; constructor).
    destruct (only_some _ _ _ x Ho (manuscript_some _ _ _ Hm Hx)) as [n Hn].
    assert (Hrun : ends (visit (cond_class CConstruct) construct_body tt x) s1 (fun _ _ => True)).
    { eapply ends_visit; [exact Hn| |intros _; exact I]. intros Hc.
      destruct (Hk x Hx) as (kind & Hkind & Hne).
      { rewrite <- (only_class _ _ _ x Ho). unfold constructb. rewrite Hn. exact Hc. }
      assert (Hk1 : value (st_heap s1) x a_kind = Some (VStr kind)) by (rewrite (value_only _ _ _ _ _ Ho) by discriminate; exact Hkind).
      unfold construct_body. eapply ends_bind; [eapply (ends_value x a_kind s1 _ (fun v s' => v = VStr kind /\ s' = s1)); [exact Hk1|auto]|].
      intros v s' _ [-> ->]. assert (Et : truthy (VStr kind) = true) by (destruct kind; [contradiction|reflexivity]). rewrite Et. cbn [negb].
      eapply ends_bind; [eapply (ends_get_strs x a_types s1 n (fun _ s' => s' = s1)); auto; apply always|].
      intros ts s' _ ->. eapply ends_bind with (R := fun _ s2 => exists m, st_heap s2 !! x = Some m /\ n_attrs m !! a_types = Some (VStrs (ts ++ [kind]))).
      { eapply ends_setattr; [exact Hn|]. rewrite upd_lookup, decide_True by reflexivity. eexists. split; [reflexivity|]. cbn. apply lookup_insert. }
      intros [] s2 _ (m & Hm2 & Hts). destruct (str_mem kind not_assumption); [apply ends_ret; exact I|].
      eapply ends_bind with (R := fun _ s3 => s3 = s2).
      { unfold get_strs. eapply ends_bind; [eapply (ends_value x a_types s2 _ (fun v s' => v = VStrs (ts ++ [kind]) /\ s' = s2)); [unfold value; rewrite Hm2; exact Hts|auto]|].
        intros v s' _ [-> ->]. apply ends_ret. reflexivity. }
      intros ts2 s3 _ ->. eapply ends_setattr; [exact Hm2|exact I]. }
    destruct Hrun as (s2 & [] & E2 & _). exists s2, tt. split; [exact E2|]. split.
    + refine (proj1 (ok_TI [] _ tt_ no_ s1 s2 tt (ok_visit [] (cond_class CConstruct) construct_body tt x no_ _) HT1 _ E2)); [apply t_construct_body|intros y []].
    + eapply only_trans; [exact Ho|]. refine (ch_run _ _ _ _ _ (ch_visit _ (only_refl _) (only_trans _) _ _ tt x _) E2).
      intros s0. eapply only_weaken; [|apply construct_body_only]. intros j b [_ ->]. reflexivity.
  - split; [exact HT|apply only_refl].
  - exists F. eapply ends_imp; [exact HF|auto].
Qed.

(** ** Handrail depth *)
(** Comparing looks at two levels at most, since then the parents differ. *)
Lemma node_eq_two h x y nx ny : consistent h -> h !! x = Some nx -> h !! y = Some ny -> is_Some (node_eq 2 h x y).
Proof.
  intros Hc Hx Hy.
  assert (G : forall a na b nb, h !! a = Some na -> h !! b = Some nb -> forall l m,
    (forall u, u ∈ l -> parent_is h u a) -> (forall u, u ∈ m -> parent_is h u b) -> (a = b -> l = m) ->
    is_Some ((fix go (l m : list id) : option bool :=
                 match l, m with
                 | [], [] => Some true
                 | u :: l', v :: m' =>
                     if Nat.eqb u v then go l' m'
                     else match node_eq 1 h u v with
                          | Some true => go l' m'
                          | r => r
                          end
                 | _, _ => Some false
                 end) l m)).
  { intros a na b nb Ha Hb. induction l as [|u l IH]; intros [|v m] Hl Hm Hab; eauto.
    destruct (Nat.eqb u v) eqn:Euv.
    - apply IH; [intros; apply Hl; constructor; assumption|intros; apply Hm; constructor; assumption|]. intros E. specialize (Hab E). congruence.
    - destruct (Hl u ltac:(constructor)) as (nu & Hu & Epu). destruct (Hm v ltac:(constructor)) as (nv & Hv & Epv).
      assert (Hne : a <> b). { intros E. specialize (Hab E). injection Hab as -> _. rewrite Nat.eqb_refl in Euv. discriminate. }
      assert (E1 : node_eq 1 h u v = Some false).
      { cbn [node_eq]. rewrite Hu, Hv. destruct (_ && negb _).
        - replace (parent_eq nv nu) with false by (unfold parent_eq; rewrite Epu, Epv; symmetry; apply Nat.eqb_neq; auto). rewrite andb_false_r. reflexivity.
        - replace (parent_eq nu nv) with false by (unfold parent_eq; rewrite Epu, Epv; symmetry; apply Nat.eqb_neq; auto). rewrite andb_false_r. reflexivity. }
      rewrite E1. eauto. }
  assert (Hkid : forall z nz u, h !! z = Some nz -> u ∈ kids nz -> parent_is h u z).
  { intros z nz u Hz Hu. apply (cons_parent _ Hc). exists nz. auto. }
  remember 1 as one eqn:E1. cbn [node_eq]. rewrite Hx, Hy. subst one.
  destruct (subclass (n_cls ny) (n_cls nx) && negb (cls_eqb (n_cls ny) (n_cls nx))).
  - destruct (_ && _); [|eauto]. destruct (has_children _); [|eauto].
    apply (G y ny x nx Hy Hx); eauto. intros ->. congruence.
  - destruct (_ && _); [|eauto]. destruct (has_children _); [|eauto].
    apply (G x nx y ny Hx Hy); eauto. intros ->. congruence.
Qed.
Lemma t_depth_inner F nd u i X : okM X (depth_inner F nd u i) tt_ no_.
Proof.
  unfold depth_inner. eapply ok_bind; [apply ok_sa|].
  { intros s0 s Hs. unfold node_eqM. destruct (node_eq _ _ _ _); exact Hs. }
  intros b _. cbn [app]. okw.
Qed.
Lemma t_depth_outer F u i X : okM X (depth_outer F u i) tt_ no_.
Proof. apply (ok_traverse X _ _ (fun _ : unit => [])); [|intros x []]. intros u2 j2. cbn [app]. apply t_depth_inner. Qed.
Lemma t_depth_class F i c X : okM X (add_handrail_depth_for_class F i c) tt_ no_.
Proof. apply (ok_traverse X _ _ (fun _ : unit => [])); [|intros x []]. intros u j. cbn [app]. apply t_depth_outer. Qed.
Lemma mono_inner nd u i : mono (fun F => depth_inner F nd u i).
Proof. unfold depth_inner. mn. Qed.
Lemma mono_outer u i : mono (fun F => depth_outer F u i).
Proof. unfold depth_outer, depth_inner. mn. Qed.
Lemma inner_ends s nd x : good s -> TI s -> is_Some (st_heap s !! nd) -> is_Some (st_heap s !! x) ->
  ends (depth_inner 2 nd tt x) s (fun _ _ => True).
Proof.
  intros [_ Hc] HT [m Hm] [n Hn]. unfold depth_inner.
  destruct (node_eq_two _ _ _ _ _ Hc Hn Hm) as [b Eb].
  eapply ends_run; [unfold node_eqM; rewrite Eb; reflexivity|]. destruct b; [apply ends_ret; exact I|].
  eapply ends_bind; [eapply (ends_get_int x a_handrail_depth s n (fun _ s' => s' = s)); auto; [apply always|]|].
  { intros v Hv. destruct v; try discriminate Hv. eauto. }
  intros d s' _ ->. eapply ends_setattr; [exact Hn|exact I].
Qed.
Lemma outer_ends s p t : good s -> TI s -> tree_at (st_heap s) p t -> exists F, ends (depth_outer F tt (root t)) s (fun _ _ => True).
Proof.
  intros Hg HT Ht.
  destruct (attr_ends depth_attr cond_any (fun F => depth_inner F (root t)) (fun _ _ s' => TI s' /\ only depth_attr s s') p t tt s) as [F HF].
  - intros. apply mono_inner.
  - intros. apply depth_inner_depth.
  - exact Ht.
  - intros seen x rem [] s1 Ed (HT1 & Ho). exists 2.
    assert (Hx : x ∈ doc_order t) by (rewrite Ed; apply elem_of_app; right; constructor).
    destruct (tree_at_in _ _ _ _ Ht Hx) as (n0 & Hn0). destruct (tree_at_in _ _ _ _ Ht (root_in_doc_order t)) as (r0 & Hr0).
    destruct (only_some _ _ _ x Ho (ex_intro _ n0 Hn0)) as [n Hn]. pose proof (only_some _ _ _ (root t) Ho (ex_intro _ r0 Hr0)) as Hr.
    assert (Hrun : ends (visit cond_any (depth_inner 2 (root t)) tt x) s1 (fun _ _ => True)).
    { eapply ends_visit; [exact Hn| |intros _; exact I]. intros _. apply inner_ends; eauto. eapply only_good; eassumption. }
    destruct Hrun as (s2 & [] & E2 & _). exists s2, tt. split; [exact E2|]. split.
    + refine (proj1 (ok_TI [] _ tt_ no_ s1 s2 tt (ok_visit [] cond_any (depth_inner 2 (root t)) tt x no_ _) HT1 _ E2)); [apply t_depth_inner|intros y []].
    + eapply only_trans; [exact Ho|]. refine (ch_run _ _ _ _ _ (ch_visit _ (only_refl _) (only_trans _) _ _ tt x _) E2). apply depth_inner_depth.
  - split; [exact HT|apply only_refl].
  - exists F. eapply ends_imp; [exact HF|auto].
Qed.
Lemma class_ends s p t c : good s -> TI s -> tree_at (st_heap s) p t -> exists F, ends (add_handrail_depth_for_class F (root t) c) s (fun _ _ => True).
Proof.
  intros Hg HT Ht.
  destruct (attr_ends depth_attr (cond_class c) (fun F => depth_outer F) (fun _ _ s' => TI s' /\ only depth_attr s s') p t tt s) as [F HF].
  - intros. apply mono_outer.
  - intros. apply depth_outer_depth.
  - exact Ht.
  - intros seen x rem [] s1 Ed (HT1 & Ho).
    assert (Hx : x ∈ doc_order t) by (rewrite Ed; apply elem_of_app; right; constructor).
    assert (Ht1 : tree_at (st_heap s1) p t) by (eapply same_structure_tree; [eapply only_structure; exact Ho|exact Ht]).
    destruct (subtree_at _ _ _ _ Ht1 Hx) as (q & t' & Ht' & Er).
    destruct (outer_ends s1 q t' (only_good _ _ _ Ho Hg) HT1 Ht') as [F Hrun0]. rewrite Er in Hrun0. exists F.
    destruct (tree_at_in _ _ _ _ Ht1 Hx) as (n & Hn).
    assert (Hrun : ends (visit (cond_class c) (depth_outer F) tt x) s1 (fun _ _ => True)).
    { eapply ends_visit; [exact Hn|intros _; exact Hrun0|intros _; exact I]. }
    destruct Hrun as (s2 & [] & E2 & _). exists s2, tt. split; [exact E2|]. split.
    + refine (proj1 (ok_TI [] _ tt_ no_ s1 s2 tt (ok_visit [] (cond_class c) (depth_outer F) tt x no_ _) HT1 _ E2)); [apply t_depth_outer|intros y []].
    + eapply only_trans; [exact Ho|]. refine (ch_run _ _ _ _ _ (ch_visit _ (only_refl _) (only_trans _) _ _ tt x _) E2). apply depth_outer_depth.
  - split; [exact HT|apply only_refl].
  - exists F. eapply ends_imp; [exact HF|auto].
Qed.
Lemma classes_end p t : forall cs s, good s -> TI s -> tree_at (st_heap s) p t ->
  exists F, ends (iterM (add_handrail_depth_for_class F (root t)) cs) s (fun _ _ => True).
Proof.
  induction cs as [|c cs IH]; intros s Hg HT Ht.
  - exists 0. apply ends_ret. exact I.
  - destruct (class_ends s p t c Hg HT Ht) as (f1 & s1 & [] & E1 & _).
    pose proof (ch_run _ _ _ _ _ (depth_class_depth f1 (root t) c) E1) as Ho.
    assert (HT1 : TI s1) by (refine (proj1 (ok_TI [] _ tt_ no_ s s1 tt (t_depth_class f1 (root t) c []) HT _ E1)); intros y []).
    destruct (IH s1 (only_good _ _ _ Ho Hg) HT1) as (f2 & s2 & [] & E2 & _); [eapply same_structure_tree; [eapply only_structure; exact Ho|exact Ht]|].
    exists (f1 + f2), s2, tt. split; [|exact I]. cbn [iterM]. unfold bind.
    rewrite (mono_ok (fun f => add_handrail_depth_for_class f (root t) c) f1 (f1 + f2) s s1 tt (mono_depth_class _ _) ltac:(lia) E1).
    apply (mono_ok (fun f => iterM (add_handrail_depth_for_class f (root t)) cs) f2 (f1 + f2)); [|lia|exact E2]. mn.
Qed.
Lemma depth_total s t : manuscript s t -> TI s -> exists F, ends (add_handrail_depth F (root t)) s (fun _ _ => True).
Proof. intros Hm HT. apply (classes_end None t); [eapply manuscript_good; exact Hm|exact HT|apply Hm]. Qed.

(** ** Node ids *)
Lemma nodeids_total s t : manuscript s t -> exists F, ends (assign_node_ids F (root t)) s (fun _ _ => True).
Proof.
  intros Hm. destruct (ms_document _ _ Hm) as [Ht _].
  destruct (attr_ends id_attr cond_any (fun _ => nodeid_body) (fun _ _ s' => only id_attr s s') None t 0%Z s) as [F HF].
  - intros. apply mono_const.
  - intros. apply only_nodeid_body.
  - exact Ht.
  - intros seen x rem acc s1 Ed Ho. exists 0.
    assert (Hx : x ∈ doc_order t) by (rewrite Ed; apply elem_of_app; right; constructor).
    destruct (only_some _ _ _ x Ho (manuscript_some _ _ _ Hm Hx)) as [n Hn].
    assert (Hrun : ends (visit cond_any nodeid_body acc x) s1 (fun _ _ => True)).
    { eapply ends_visit; [exact Hn| |intros _; exact I]. intros _. unfold nodeid_body.
      eapply ends_bind with (R := fun _ _ => True); [eapply ends_setattr; [exact Hn|exact I]|]. intros. apply ends_ret. exact I. }
    destruct Hrun as (s2 & a & E2 & _). exists s2, a. split; [exact E2|].
    eapply only_trans; [exact Ho|]. refine (ch_run _ _ _ _ _ (ch_visit _ (only_refl _) (only_trans _) _ _ acc x _) E2). apply only_nodeid_body.
  - apply only_refl.
  - exists F. unfold assign_node_ids. eapply ends_bind with (R := fun _ _ => True); [eapply ends_imp; [exact HF|auto]|]. intros. apply ends_ret. exact I.
Qed.
