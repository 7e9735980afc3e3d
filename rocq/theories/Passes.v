(** The last three passes: constructs, handrail depth, node ids. *)
From Verif Require Export Autonumber.
From Verif Require Import Queries Sexp Built Meta NodeOps Monad.

(** *** Node ids *)
Definition id_attr (_ : id) (b : attr) : Prop := b = a_nodeid.
Lemma only_nodeid_body k i : changes (only id_attr) (nodeid_body k i).
Proof.
  unfold nodeid_body. apply ch_bind; [apply only_trans|apply only_setattr; reflexivity|].
  intros. apply ch_ret, only_refl.
Qed.
Lemma nodeid_fold : forall l k s s' r,
  NoDup l -> foldM (visit cond_any nodeid_body) k l s = (s', Ok r) ->
  only (fun j b => j ∈ l /\ b = a_nodeid) s s' /\
  forall j x, l !! j = Some x -> value (st_heap s') x a_nodeid = Some (VInt (k + Z.of_nat j)).
Proof.
  induction l as [|i l IH]; intros k s s' r Hnd H.
  - apply ret_ok in H as [-> ->]. split; [apply only_refl|]. intros j x. rewrite lookup_nil. discriminate.
  - apply list.NoDup_cons in Hnd as [Hi Hnd]. cbn [foldM] in H. apply bind_ok in H as (s1 & k1 & H1 & H).
    unfold visit in H1. apply bind_ok in H1 as (s2 & n & Hn & H1). apply get_node_ok in Hn as [-> Hn].
    cbn [cond_any] in H1. unfold nodeid_body in H1. apply bind_ok in H1 as (s2 & [] & H1 & H2).
    apply ret_ok in H2 as [-> ->].
    assert (Ho1 : only (fun j b => j = i /\ b = a_nodeid) s s2).
    { refine (ch_run _ _ _ _ _ (only_setattr _ i a_nodeid (VInt k) _) H1). auto. }
    apply setattr_ok in H1 as (m & Hm & ->). assert (m = n) as -> by congruence. clear Hm.
    destruct (IH _ _ _ _ Hnd H) as [Ho Hv]. split.
    + eapply only_trans; [eapply only_weaken; [|exact Ho1]|eapply only_weaken; [|exact Ho]].
      * intros j b [-> ->]. split; [constructor|reflexivity].
      * intros j b [Hj ->]. split; [constructor; assumption|reflexivity].
    + intros [|j] x E.
      * injection E as ->. rewrite (value_only _ _ _ _ _ Ho) by (intros [? _]; contradiction).
        erewrite value_upd by eassumption. rewrite decide_True by auto. do 2 f_equal. lia.
      * rewrite (Hv j x E). do 2 f_equal. lia.
Qed.
Theorem node_ids_ok fuel s t s' :
  manuscript s t -> assign_node_ids fuel (root t) s = (s', Ok tt) ->
  only id_attr s s' /\
  forall j x, doc_order t !! j = Some x -> value (st_heap s') x a_nodeid = Some (VInt (Z.of_nat j)).
Proof.
  intros Hm H. unfold assign_node_ids in H. apply bind_ok in H as (s1 & a & H & H'). apply ret_ok in H' as [<- _].
  apply (trav_attr id_attr _ _ _ None t) in H; [|apply only_nodeid_body|apply Hm].
  destruct (nodeid_fold _ _ _ _ _ (proj2 (ms_document _ _ Hm)) H) as [Ho Hv]. split; [|exact Hv].
  eapply only_weaken; [|exact Ho]. intros j b [_ ->]. reflexivity.
Qed.

(** *** Constructs *)
Definition constructb (h : gmap id node) (x : id) : bool :=
  match h !! x with Some n => subclass (n_cls n) CConstruct | None => false end.
Definition construct_attr (_ : id) (b : attr) : Prop := b = a_types.
Lemma construct_body_only i : changes (only (fun j b => j = i /\ b = a_types)) (construct_body tt i).
Proof.
  unfold construct_body.
  apply ch_bind; [apply only_trans|apply ch_getattr; [apply only_refl|apply only_trans]|]. intros kv.
  destruct (negb (truthy kv)); [apply ch_raise, only_refl|].
  destruct kv; try (apply ch_raise, only_refl).
  apply ch_bind; [apply only_trans|apply ch_get_strs; [apply only_refl|apply only_trans]|]. intros ts.
  apply ch_bind; [apply only_trans|apply only_setattr; auto|]. intros _.
  destruct (str_mem s not_assumption); [apply ch_ret, only_refl|].
  apply ch_bind; [apply only_trans|apply ch_get_strs; [apply only_refl|apply only_trans]|]. intros ts'.
  apply only_setattr; auto.
Qed.
Lemma construct_body_ok i s s' u :
  construct_body tt i s = (s', Ok u) ->
  exists kind ts, kind <> [] /\ value (st_heap s) i a_kind = Some (VStr kind) /\ value (st_heap s) i a_types = Some (VStrs ts) /\
    value (st_heap s') i a_types =
      Some (VStrs (ts ++ [kind] ++ if str_mem kind not_assumption then [] else [lit "assumption"])).
Proof.
  unfold construct_body. intros H. apply bind_ok in H as (s1 & kv & Hk & H).
  apply getattr_ok in Hk as (-> & n & Hn & Hk).
  destruct (negb (truthy kv)) eqn:Et; [discriminate|]. destruct kv; try discriminate; rename s0 into kind.
  apply bind_ok in H as (s1 & ts & Ht & H). apply get_strs_ok in Ht as (-> & m & Hm & Ht).
  assert (m = n) as -> by congruence. clear Hm.
  apply bind_ok in H as (s1 & [] & H1 & H). apply setattr_ok in H1 as (m & Hm & E1). assert (m = n) as -> by congruence. clear Hm.
  exists kind, ts. split; [intros ->; discriminate|]. rewrite !(value_some _ _ _ _ Hn). split; [assumption|]. split; [assumption|].
  assert (V1 : value (st_heap s1) i a_types = Some (VStrs (ts ++ [kind]))).
  { subst s1. erewrite value_upd by eassumption. rewrite decide_True by auto. reflexivity. }
  destruct (str_mem kind not_assumption).
  - apply ret_ok in H as [-> _]. rewrite app_nil_r. assumption.
  - apply bind_ok in H as (s2 & ts' & Ht' & H). apply get_strs_ok in Ht' as (-> & m & Hm & Ht').
    apply setattr_ok in H as (m' & Hm' & ->). assert (m' = m) as -> by congruence.
    erewrite value_upd by eassumption. rewrite decide_True by auto.
    rewrite (value_some _ _ _ _ Hm), Ht' in V1. injection V1 as ->. rewrite <- app_assoc. reflexivity.
Qed.
Lemma construct_fold : forall l s s',
  NoDup l -> foldM (visit (cond_class CConstruct) construct_body) tt l s = (s', Ok tt) ->
  only (fun j b => j ∈ l /\ constructb (st_heap s) j = true /\ b = a_types) s s' /\
  forall x, x ∈ l -> constructb (st_heap s) x = true ->
    exists kind ts, kind <> [] /\ value (st_heap s) x a_kind = Some (VStr kind) /\ value (st_heap s) x a_types = Some (VStrs ts) /\
      value (st_heap s') x a_types =
        Some (VStrs (ts ++ [kind] ++ if str_mem kind not_assumption then [] else [lit "assumption"])).
Proof.
  induction l as [|i l IH]; intros s s' Hnd H.
  - apply ret_ok in H as [-> _]. split; [apply only_refl|]. intros x Hx. inversion Hx.
  - apply list.NoDup_cons in Hnd as [Hi Hnd]. cbn [foldM] in H. apply bind_ok in H as (s1 & [] & H1 & H).
    destruct (IH _ _ Hnd H) as [Ho Hv]. clear IH H.
    unfold visit in H1. apply bind_ok in H1 as (s2 & n & Hn & H1). apply get_node_ok in Hn as [-> Hn].
    unfold cond_class in H1. destruct (subclass (n_cls n) CConstruct) eqn:Ec.
    + pose proof (ch_run _ _ _ _ _ (construct_body_only i) H1) as Ho1.
      assert (Hcb : forall x, constructb (st_heap s1) x = constructb (st_heap s) x).
      { intros x. destruct Ho1 as (_ & _ & Hs). specialize (Hs x). unfold constructb.
        destruct (st_heap s !! x), (st_heap s1 !! x); try contradiction; [|reflexivity]. destruct Hs as (-> & _). reflexivity. }
      split.
      * eapply only_trans; [eapply only_weaken; [|exact Ho1]|eapply only_weaken; [|exact Ho]].
        -- intros j b [-> ->]. split; [constructor|]. split; [|reflexivity]. unfold constructb. rewrite Hn. assumption.
        -- intros j b (Hj & Hc & ->). rewrite Hcb in Hc. split; [constructor; assumption|auto].
      * intros x Hx Hxc. apply elem_of_cons in Hx as [-> |Hx].
        -- destruct (construct_body_ok _ _ _ _ H1) as (kind & ts & ? & ? & ? & ?). exists kind, ts.
           rewrite (value_only _ _ _ _ _ Ho) by (intros [? _]; contradiction). auto.
        -- destruct (Hv x Hx) as (kind & ts & ? & Hk & Ht & ?); [rewrite Hcb; assumption|].
           exists kind, ts. rewrite (value_only _ _ _ _ _ Ho1) in Hk by (intros [_ E]; discriminate).
           rewrite (value_only _ _ _ _ _ Ho1) in Ht by (intros [-> _]; contradiction). auto.
    + apply ret_ok in H1 as [-> _]. split.
      * eapply only_weaken; [|exact Ho]. intros j b (Hj & ? & ?). split; [constructor; assumption|auto].
      * intros x Hx Hxc. apply elem_of_cons in Hx as [-> |Hx]; [|auto]. unfold constructb in Hxc. rewrite Hn in Hxc. congruence.
Qed.
Theorem constructs_ok fuel s t s' :
  manuscript s t -> add_keywords_to_constructs fuel (root t) s = (s', Ok tt) ->
  only (fun j b => j ∈ doc_order t /\ constructb (st_heap s) j = true /\ b = a_types) s s' /\
  forall x, x ∈ doc_order t -> constructb (st_heap s) x = true ->
    exists kind ts, kind <> [] /\ value (st_heap s) x a_kind = Some (VStr kind) /\ value (st_heap s) x a_types = Some (VStrs ts) /\
      value (st_heap s') x a_types =
        Some (VStrs (ts ++ [kind] ++ if str_mem kind not_assumption then [] else [lit "assumption"])).
Proof.
  intros Hm H. unfold add_keywords_to_constructs in H.
  apply (trav_attr construct_attr _ _ _ None t) in H; [| |apply Hm].
  - apply construct_fold; [apply (ms_document _ _ Hm)|assumption].
  - intros [] i st. eapply only_weaken; [|apply construct_body_only]. intros j b [_ ->]. reflexivity.
Qed.
