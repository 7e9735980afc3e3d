(** Proofs about [ingest_dict_as_meta]. *)
From Verif Require Export Sexp.

Lemma str_eqb_true a b : str_eqb a b = true <-> a = b.
Proof. destruct (str_eqb_spec a b); split; congruence. Qed.

Lemma attr_name_of_name s : attr_name (attr_of_name s) = s.
Proof.
  unfold attr_of_name. destruct (find _ known_attrs) eqn:E; [|reflexivity].
  apply find_some in E as [_ E]. apply str_eqb_true in E. assumption.
Qed.
Lemma attr_of_name_inj a b : attr_of_name a = attr_of_name b -> a = b.
Proof. intros E. rewrite <- (attr_name_of_name a), E. apply attr_name_of_name. Qed.

Lemma py_setattr_ok i k v s s' u :
  py_setattr i k v s = (s', Ok u) ->
  (exists n, st_heap s !! i = Some n /\ s' = upd s i (set_n_attr (attr_of_name k) v n)) /\
  ~ In k readonly_props /\ k <> lit "parent".
Proof.
  unfold py_setattr. intros H. destruct (str_mem k readonly_props) eqn:E; [discriminate|].
  destruct (str_eqb k (lit "parent")) eqn:E2; [discriminate|].
  split; [apply setattr_ok in H; assumption|]. split.
  - intros Hin. unfold str_mem in E. rewrite <- not_true_iff_false in E. apply E.
    apply existsb_exists. exists k. split; [assumption|]. apply str_eqb_true. reflexivity.
  - intros ->. rewrite str_eqb_refl in E2. discriminate.
Qed.

(** [only_attrs s s' i f]: nothing but the attributes of [i] changed, and those
    became [f] of the old ones. *)
Definition attrs_became (s s' : st) (i : id) (f : gmap attr val -> gmap attr val) : Prop :=
  exists n, st_heap s !! i = Some n /\
    st_heap s' !! i = Some (MkNode (n_cls n) (n_parent n) (n_children n) (f (n_attrs n))) /\
    (forall j, j <> i -> st_heap s' !! j = st_heap s !! j) /\
    st_next s' = st_next s /\ st_logs s' = st_logs s.

Definition set_all (d : list (str * val)) (m : gmap attr val) : gmap attr val :=
  fold_left (fun m p => <[attr_of_name p.1 := p.2]> m) d m.

Lemma ingest_go i d : forall s s' u,
  is_Some (st_heap s !! i) ->
  iterM (fun p => py_setattr i p.1 p.2) d s = (s', Ok u) -> attrs_became s s' i (set_all d).
Proof.
  induction d as [|[k v] d IH]; intros s s' u [n Hn] H.
  - apply ret_ok in H as [-> _]. exists n. destruct n. repeat split; auto.
  - apply iterM_cons_ok in H as (s1 & H1 & H). simpl in H1.
    apply py_setattr_ok in H1 as [(n' & Hn' & ->) _]. assert (n' = n) as -> by congruence.
    apply IH in H as (n1 & Hn1 & Hi & Hj & Hnx & Hl).
    + rewrite upd_lookup, decide_True in Hn1 by reflexivity. injection Hn1 as <-.
      exists n. split; [assumption|]. split; [exact Hi|]. split; [|split; assumption].
      intros j Hne. rewrite Hj by assumption. rewrite upd_lookup, decide_False by congruence. reflexivity.
    + rewrite upd_lookup, decide_True by reflexivity. eauto.
Qed.

Lemma set_all_other d m a : ~ In a (map (fun p => attr_of_name p.1) d) -> set_all d m !! a = m !! a.
Proof.
  revert m. induction d as [|[k v] d IH]; intros m Hn; [reflexivity|].
  simpl in *. rewrite IH by tauto. apply lookup_insert_ne. intros E. apply Hn. auto.
Qed.
Lemma set_all_given d m k v :
  List.NoDup (map fst d) -> In (k, v) d -> set_all d m !! attr_of_name k = Some v.
Proof.
  revert m. induction d as [|[k' v'] d IH]; intros m Hnd Hin; [destruct Hin|].
  simpl in *. inversion Hnd as [|? ? Hk Hnd']; subst. destruct Hin as [[= -> ->]|Hin].
  - rewrite set_all_other; [apply lookup_insert|].
    intros Hc. apply in_map_iff in Hc as ([k2 v2] & E & Hc). simpl in E. apply attr_of_name_inj in E.
    subst. apply Hk. apply in_map_iff. exists (k, v2). auto.
  - apply IH; assumption.
Qed.

(** What [reftext_to_template] does to the dictionary. *)
Lemma dict_get_in d k v : List.NoDup (map fst d) -> (dict_get d k = Some v <-> In (k, v) d).
Proof.
  unfold dict_get. induction d as [|[k' v'] d IH]; intros Hnd; simpl; [split; [discriminate|tauto]|].
  inversion Hnd as [|? ? Hk Hnd']; subst. destruct (str_eqb_spec k' k) as [->|Hne]; simpl.
  - split; [intros [= <-]; auto|]. intros [[= ->]|Hin]; [reflexivity|].
    destruct Hk. apply in_map_iff. exists (k, v). auto.
  - rewrite IH by assumption. split; [auto|]. intros [[= -> ->]|Hin]; [congruence|assumption].
Qed.
Lemma dict_get_none d k : dict_get d k = None <-> ~ In k (map fst d).
Proof.
  unfold dict_get. induction d as [|[k' v'] d IH]; simpl; [tauto|].
  destruct (str_eqb_spec k' k) as [->|Hne]; simpl.
  - split; [discriminate|]. intros H. destruct H. auto.
  - rewrite IH. split; [intros H [E|E]; auto|tauto].
Qed.
Lemma existsb_key d k : existsb (fun p : str * val => str_eqb p.1 k) d = true <-> In k (map fst d).
Proof.
  rewrite existsb_exists, in_map_iff. split.
  - intros (p & Hp & E). apply str_eqb_true in E. eauto.
  - intros (p & E & Hp). exists p. split; [assumption|]. apply str_eqb_true. assumption.
Qed.
Lemma dict_set_in d k v k' v' :
  In (k', v') (dict_set d k v) <-> (k' = k /\ v' = v) \/ (k' <> k /\ In (k', v') d).
Proof.
  unfold dict_set. destruct (existsb (fun p => str_eqb p.1 k) d) eqn:E.
  - apply existsb_key in E. rewrite in_map_iff. split.
    + intros ([k2 v2] & E2 & Hp). simpl in E2. destruct (str_eqb_spec k2 k) as [->|Hne].
      * injection E2 as <- <-. auto.
      * injection E2 as -> ->. auto.
    + intros [[-> ->]|[Hne Hp]].
      * apply in_map_iff in E as ([k2 v2] & E2 & Hp). simpl in E2. subst k2. exists (k, v2).
        simpl. rewrite str_eqb_refl. auto.
      * exists (k', v'). simpl. destruct (str_eqb_spec k' k); [contradiction|]. auto.
  - rewrite <- not_true_iff_false, existsb_key in E. rewrite in_app_iff. simpl. split.
    + intros [Hp|[[= -> ->]|[]]]; [|auto]. right. split; [|assumption].
      intros ->. apply E. apply in_map_iff. exists (k, v'). auto.
    + intros [[-> ->]|[_ Hp]]; auto.
Qed.
Lemma dict_set_nodup d k v : List.NoDup (map fst d) -> List.NoDup (map fst (dict_set d k v)).
Proof.
  unfold dict_set. destruct (existsb (fun p => str_eqb p.1 k) d) eqn:E; intros H.
  - rewrite map_map. erewrite map_ext; [exact H|]. intros [k2 v2]. simpl.
    destruct (str_eqb k2 k); reflexivity.
  - rewrite <- not_true_iff_false, existsb_key in E. rewrite map_app. simpl.
    clear -H E. induction (map fst d) as [|x l IH]; simpl; [repeat constructor; intros []|].
    inversion H; subst. simpl in E. constructor; [|apply IH; tauto].
    rewrite in_app_iff. simpl. intros [|[->|[]]]; tauto.
Qed.
Lemma dict_del_in d k p : In p (dict_del d k) <-> In p d /\ p.1 <> k.
Proof.
  unfold dict_del. rewrite filter_In. destruct (str_eqb_spec p.1 k); simpl; split; intros []; auto; congruence.
Qed.
Lemma dict_del_nodup d k : List.NoDup (map fst d) -> List.NoDup (map fst (dict_del d k)).
Proof.
  unfold dict_del. induction d as [|p d IH]; simpl; intros H; [constructor|].
  inversion H as [|? ? Hn Hd]; subst. destruct (negb (str_eqb p.1 k)); simpl; [|auto].
  constructor; [|auto]. intros Hc. apply Hn. apply in_map_iff in Hc as (q & E & Hq).
  apply filter_In in Hq as [Hq _]. apply in_map_iff. eauto.
Qed.


Lemma reftext_to_template_in d k v :
  List.NoDup (map fst d) ->
  In (k, v) (reftext_to_template d) <->
  (k = k_template /\ In (k_reftext, v) d) \/
  (k <> k_reftext /\ (k = k_template -> ~ In k_reftext (map fst d)) /\ In (k, v) d).
Proof.
  intros Hnd. unfold reftext_to_template. destruct (dict_get d (lit "reftext")) as [w|] eqn:E.
  - apply dict_get_in in E; [|assumption]. rewrite dict_del_in, dict_set_in. simpl.
    assert (Hin : In k_reftext (map fst d)) by (apply in_map_iff; exists (k_reftext, w); auto).
    assert (Hne : k_template <> k_reftext) by (vm_compute; discriminate).
    split.
    + intros [[[-> ->]|[H1 H2]] H3]; [left; auto|]. right. repeat split; [exact H3| |assumption].
      intros ->. destruct (H1 eq_refl).
    + intros [[-> H]|(H1 & H2 & H3)].
      * apply dict_get_in in E; [|assumption]. apply dict_get_in in H; [|assumption].
        unfold k_reftext in H. rewrite E in H. injection H as <-. auto.
      * split; [|assumption]. right. split; [|assumption]. intros ->. apply H2; auto.
  - apply dict_get_none in E. split.
    + intros H. right. repeat split; [|intros _; exact E|assumption].
      intros ->. apply E. apply in_map_iff. exists (k_reftext, v). auto.
    + intros [[-> H]|(H1 & H2 & H3)]; [|assumption]. destruct E. apply in_map_iff. exists (k_reftext, v). auto.
Qed.
Lemma reftext_to_template_nodup d :
  List.NoDup (map fst d) -> List.NoDup (map fst (reftext_to_template d)).
Proof.
  intros H. unfold reftext_to_template. destruct (dict_get d (lit "reftext")); [|assumption].
  apply dict_del_nodup, dict_set_nodup, H.
Qed.

Lemma ingest_ok i d s s' u :
  List.NoDup (map fst d) -> is_Some (st_heap s !! i) ->
  ingest_dict_as_meta i d s = (s', Ok u) ->
  exists n n', st_heap s !! i = Some n /\ st_heap s' !! i = Some n' /\
    n_cls n' = n_cls n /\ n_parent n' = n_parent n /\ n_children n' = n_children n /\
    (forall j, j <> i -> st_heap s' !! j = st_heap s !! j) /\
    (forall v, In (k_reftext, v) d -> n_attrs n' !! attr_of_name k_template = Some v) /\
    (forall k v, In (k, v) d -> k <> k_reftext ->
       (k = k_template -> ~ In k_reftext (map fst d)) -> n_attrs n' !! attr_of_name k = Some v) /\
    (forall k, (k = k_reftext \/ ~ In k (map fst d)) ->
       (k = k_template -> ~ In k_reftext (map fst d)) ->
       n_attrs n' !! attr_of_name k = n_attrs n !! attr_of_name k).
Proof.
  intros Hnd Hi H. unfold ingest_dict_as_meta in H.
  apply ingest_go in H as (n & Hn & Hn' & Hj & _); [|assumption].
  pose proof (reftext_to_template_nodup d Hnd) as Hnd'.
  exists n, (MkNode (n_cls n) (n_parent n) (n_children n) (set_all (reftext_to_template d) (n_attrs n))).
  do 2 (split; [assumption|]). do 3 (split; [reflexivity|]). split; [assumption|]. simpl.
  split; [|split].
  - intros v Hv. apply set_all_given; [assumption|]. apply reftext_to_template_in; auto.
  - intros k v Hv H1 H2. apply set_all_given; [assumption|]. apply reftext_to_template_in; auto.
  - intros k H1 H2. apply set_all_other. intros Hc. apply in_map_iff in Hc as ([k2 v2] & E & Hc).
    simpl in E. apply attr_of_name_inj in E. subst k2. apply reftext_to_template_in in Hc; [|assumption].
    destruct Hc as [[-> Hc]|(Ha & Hb & Hc)].
    + apply (H2 eq_refl). apply in_map_iff. exists (k_reftext, v2). auto.
    + destruct H1 as [H1|H1]; [contradiction|]. apply H1. apply in_map_iff. exists (k, v2). auto.
Qed.
Lemma ingest_go_total i d : forall s,
  is_Some (st_heap s !! i) ->
  (forall k v, In (k, v) d -> ~ In k readonly_props /\ k <> lit "parent") ->
  exists s', iterM (fun p => py_setattr i p.1 p.2) d s = (s', Ok tt).
Proof.
  induction d as [|[k v] d IH]; intros s Hi Hk; [eexists; reflexivity|].
  destruct Hi as [n Hn]. cbn [iterM fst snd]. unfold bind at 1. unfold py_setattr at 1.
  destruct (Hk k v (or_introl eq_refl)) as [H1 H2].
  assert (str_mem k readonly_props = false) as ->.
  { apply not_true_iff_false. intros E. unfold str_mem in E. apply existsb_exists in E as (y & Hy & E).
    apply str_eqb_true in E. subst. contradiction. }
  assert (str_eqb k (lit "parent") = false) as -> by (destruct (str_eqb_spec k (lit "parent")); congruence).
  unfold setattr. rewrite (mod_node_eq _ _ _ _ Hn).
  apply IH; [rewrite upd_lookup, decide_True by reflexivity; eauto|]. intros. apply (Hk k0 v0). right. assumption.
Qed.
Lemma ingest_total i d s :
  List.NoDup (map fst d) -> is_Some (st_heap s !! i) ->
  (forall k v, In (k, v) d -> k = k_reftext \/ (~ In k readonly_props /\ k <> lit "parent")) ->
  exists s', ingest_dict_as_meta i d s = (s', Ok tt).
Proof.
  intros Hnd Hi Hk. apply ingest_go_total; [assumption|]. intros k v Hin.
  apply reftext_to_template_in in Hin; [|assumption]. destruct Hin as [[-> _]|(H1 & _ & H3)].
  - split; [|vm_compute; discriminate]. intros Hc. vm_compute in Hc. intuition discriminate.
  - destruct (Hk _ _ H3); [contradiction|assumption].
Qed.
