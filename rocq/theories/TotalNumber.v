(** Numbering returns. *)
From Verif Require Export TotalBase.
From Verif Require Import TotalResolve ResolveAll ResolvePrev Subproofs Autonumber Queries TreeFacts Traverse NodeOps Monad.
Local Open Scope list_scope.

Lemma t_number_body acc j X : okM X (autonumber_body acc j) tt_ no_.
Proof.
  unfold autonumber_body. obsa. destruct (subclass _ _); [okw|].
  destruct (subclass_any _ _); [eapply ok_bind with (R := tt_) (Y := no_); [unfold autonumber_steps; obsa; apply t_steps|intros; okw]|].
  destruct (subclass _ _); [okw|]. eapply ok_bind; [apply ok_getattr|intros nn _; cbn [app]]. destruct (_ && _); [|okw].
  destruct (counter_value _ _) as [v|] eqn:E; [|okw].
  assert (Hv : attr_shape a_number v = true /\ nodes_in v = []).
  { unfold counter_value in E. destruct (ck _); [injection E as <-; auto|]. destruct (nth_error _ _); [|discriminate E]. injection E as <-. auto. }
  eapply ok_bind; [apply ok_setattr; [apply Hv|rewrite (proj2 Hv); ins]|intros u _; cbn [app]].
  eapply ok_bind with (R := tt_) (Y := no_); [okw|intros; okw].
Qed.
Lemma number_steps_ends l : forall k s, (forall x, x ∈ l -> is_Some (st_heap s !! x)) -> ends (number_steps l k) s (fun _ _ => True).
Proof.
  induction l as [|x l IH]; intros k s H; cbn [number_steps]; [apply ends_ret; exact I|].
  destruct (H x ltac:(constructor)) as [n Hn].
  eapply ends_bind; [apply (ends_inst [CStep] x s n (fun _ s' => s' = s)); auto|]. intros b s' _ ->. destruct b.
  - eapply ends_bind; [apply (ends_setattr _ _ _ _ n (fun _ s' => s' = upd s x (set_n_attr a_number (VInt k) n))); auto|]. intros u s' _ ->.
    apply IH. intros y Hy. rewrite upd_lookup. destruct (decide (x = y)); [eauto|]. apply H. constructor. exact Hy.
  - apply IH. intros y Hy. apply H. constructor. exact Hy.
Qed.
Lemma number_body_gives s0 done a s i n : consistent (st_heap s0) -> only num_attr s0 s -> num_inv (st_heap s0) done a (st_heap s) -> TI s ->
  st_heap s !! i = Some n ->
  gives (is_numbered (st_heap s0) i = true /\ expected_number (st_heap s0) done i = None) EStopIteration (autonumber_body a i) s (fun _ _ => True).
Proof.
  intros Hcons Ho Hinv HT Hi. unfold autonumber_body.
  eapply gives_bind; [apply (ends_cls_of i s n (fun c s' => c = n_cls n /\ s' = s)); auto|]. intros c s' _ [-> ->].
  rewrite subclass_appendix, subclass_proofs, subclass_step.
  destruct (cls_eqb_spec (n_cls n) CAppendix) as [Eapp|Eapp]; [left; apply ends_ret; exact I|].
  destruct (cls_eqb (n_cls n) CProof || cls_eqb (n_cls n) CSubproof).
  { left. eapply ends_bind; [|intros; apply ends_ret; exact I]. unfold autonumber_steps.
    eapply ends_bind; [apply (ends_children i s n (fun cs s' => cs = kids n /\ s' = s)); auto|]. intros cs s' _ [-> ->].
    apply number_steps_ends. assert (Hc : consistent (st_heap s)) by (eapply same_structure_consistent; [eapply only_structure; exact Ho|exact Hcons]).
    pose proof (kids_some _ _ _ Hc Hi) as Ha. rewrite list.Forall_forall in Ha. exact Ha. }
  destruct (cls_eqb_spec (n_cls n) CStep) as [Es|Es]; [left; apply ends_ret; exact I|].
  eapply gives_bind; [eapply (ends_getattr i a_nonum s n (fun v s' => s' = s /\ value (st_heap s) i a_nonum = Some v)); auto; apply always|].
  intros v s' _ [-> Hv].
  destruct (st_heap s0 !! i) as [n0|] eqn:Hn0; [|rewrite (only_none _ _ _ _ Ho Hn0) in Hi; discriminate].
  destruct (only_lookup _ _ _ _ _ Ho Hn0) as (m & Hm & Ec & _ & _ & E3). assert (m = n) as -> by congruence.
  assert (Hnum : is_numbered (st_heap s0) i = autonumber (n_cls n) && negb (truthy v)).
  { unfold is_numbered. rewrite Hn0, <- Ec. rewrite (value_some _ _ _ _ Hi) in Hv. rewrite <- E3 by (intros [E|E]; discriminate). rewrite Hv.
    destruct (cls_eqb_spec (n_cls n) CStep); [contradiction|]. cbn. rewrite andb_true_r. reflexivity. }
  destruct (autonumber (n_cls n) && negb (truthy v)) eqn:Eauto; [|left; apply ends_ret; exact I].
  cbv zeta.
  assert (Hget : counters_get (counters_set (counts a) [n_cls n] fresh_count) (number_within (n_cls n))
                 = counters_get (counts a) (number_within (n_cls n))).
  { rewrite counters_get_set. destruct (cls_list_eqb_spec [n_cls n] (number_within (n_cls n))) as [E|]; [|reflexivity].
    exfalso. apply (scope_not_self (n_cls n)); [apply andb_true_iff in Eauto; tauto|congruence]. }
  rewrite Hget.
  assert (Hval : counter_value (counters_get (counts a) (number_within (n_cls n))) (number_as (n_cls n)) = expected_number (st_heap s0) done i).
  { destruct Hinv. unfold counter_value, expected_number, scope_of, sequence_of. rewrite Hn0, ni_kind, ni_taken, Ec.
    destruct (cls_list_eqb _ _ && existsb _ _); [|reflexivity].
    rewrite letter_value. unfold letter. destruct (Nat.ltb _ 26); reflexivity. }
  rewrite Hval. destruct (expected_number (st_heap s0) done i) as [num|] eqn:Eex; [left|right; split; [split; [exact Hnum|reflexivity]|eexists; reflexivity]].
  eapply ends_bind; [apply (ends_setattr _ _ _ _ n (fun _ s' => s' = upd s i (set_n_attr a_number num n))); auto|]. intros u s' _ ->.
  eapply ends_bind with (R := fun _ _ => True); [|intros; apply ends_ret; exact I].
  destruct (within_appendix a && subclass (n_cls n) CSection); [|apply ends_ret; exact I].
  destruct (has_attr s i n a_reftext_template HT Hi) as (w & Hw & Hsw & _); [apply always|].
  assert (Hw' : value (st_heap (upd s i (set_n_attr a_number num n))) i a_reftext_template = Some w).
  { erewrite value_upd by exact Hi. rewrite decide_False; [exact Hw|]. intros [_ E]. discriminate E. }
  destruct w; try discriminate Hsw. unfold get_str.
  eapply ends_bind; [eapply ends_bind; [eapply (ends_value _ _ _ _ (fun v' s' => v' = VStr s1 /\ s' = upd s i (set_n_attr a_number num n))); eauto|]|].
  - intros v' s' _ [-> ->]. apply (ends_ret _ _ (fun v' s' => s' = upd s i (set_n_attr a_number num n))). reflexivity.
  - intros v' s' _ ->. eapply ends_setattr; [rewrite upd_lookup, decide_True by reflexivity; reflexivity|exact I].
Qed.
Lemma number_body_ends s0 done a s i n : consistent (st_heap s0) -> only num_attr s0 s -> num_inv (st_heap s0) done a (st_heap s) -> TI s ->
  st_heap s !! i = Some n -> (is_numbered (st_heap s0) i = true -> is_Some (expected_number (st_heap s0) done i)) ->
  ends (autonumber_body a i) s (fun _ _ => True).
Proof.
  intros Hcons Ho Hinv HT Hi Hexp. destruct (number_body_gives s0 done a s i n Hcons Ho Hinv HT Hi) as [H|[[H1 H2] _]]; [exact H|].
  destruct (Hexp H1). congruence.
Qed.

(** Every numbered node gets a number. *)
Definition all_expected (h : gmap id node) (l : list id) : Prop :=
  forall p x q, l = p ++ x :: q -> is_numbered h x = true -> is_Some (expected_number h p x).
Lemma number_total s t : manuscript s t -> TI s -> all_expected (st_heap s) (doc_order t) ->
  exists F, ends (autonumber_nodes F (root t)) s (fun _ _ => True).
Proof.
  intros Hm HT He. destruct (ms_document _ _ Hm) as [Ht Hnd].
  destruct (attr_ends num_attr cond_any (fun _ => autonumber_body)
    (fun seen a s' => TI s' /\ only num_attr s s' /\ num_inv (st_heap s) seen a (st_heap s')) None t (MkNum [] false) s) as (f & s' & a & E & _).
  - intros acc i. apply mono_const.
  - intros _ acc i. apply only_autonumber_body.
  - exact Ht.
  - intros seen x rem acc s1 El (HT1 & Ho & Hi). exists 0.
    assert (Hx : x ∈ doc_order t) by (rewrite El; set_solver).
    destruct (manuscript_some _ _ _ Hm Hx) as [n0 Hn0]. destruct (only_lookup _ _ _ _ _ Ho Hn0) as (n & Hn & _).
    assert (Hseen : x ∉ seen) by (rewrite El in Hnd; apply NoDup_app in Hnd as (_ & Hd & _); intros Hs; apply (Hd x Hs); constructor).
    eapply ends_imp; [eapply ends_visit; [exact Hn| |intros; exact I]|].
    + intros _. eapply number_body_ends; [apply Hm|exact Ho|exact Hi|exact HT1|exact Hn|]. apply (He _ _ _ El).
    + intros a1 s2 Ev _. split; [|split].
      * refine (proj1 (ok_TI [] (visit cond_any autonumber_body acc x) tt_ no_ s1 s2 a1 (ok_visit [] cond_any autonumber_body acc x no_ _) HT1 _ Ev)); [apply t_number_body|intros y []].
      * eapply only_trans; [exact Ho|].
        exact (ch_run _ _ _ _ _ (ch_visit _ (only_refl _) (only_trans _) cond_any _ acc x (only_autonumber_body acc x)) Ev).
      * eapply num_inv_visit; [apply Hm|exact Ho|exact Hi|exact Hseen|exact Ev].
  - split; [exact HT|]. split; [apply only_refl|apply num_inv_start].
  - exists f, s', tt. split; [|exact I]. unfold autonumber_nodes, bind. rewrite E. reflexivity.
Qed.
