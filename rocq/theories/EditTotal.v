(** When edits succeed, what a refused edit leaves behind, and undoing an edit. *)
From Verif Require Export Consistency.

Lemma set_parent_some_eq i p s n m :
  st_heap s !! i = Some n -> st_heap s !! p = Some m -> permitted (n_cls n) (n_cls m) ->
  set_parent i (Some p) s = (upd s i (set_n_parent (Some p) n), Ok tt).
Proof.
  intros Hi Hp Hperm. unfold set_parent, cls_of, bind. rewrite (get_node_eq _ _ _ Hi). cbn [ret].
  unfold ret. destruct (possible_parents (n_cls n)) as [|d ds] eqn:E.
  - apply mod_node_eq, Hi.
  - rewrite (get_node_eq _ _ _ Hp).
    destruct Hperm as [Hc|Hin]; [congruence|]. rewrite E in Hin.
    apply cls_mem_spec in Hin. rewrite Hin. apply mod_node_eq, Hi.
Qed.
Lemma set_parent_some_refused i p s n m :
  st_heap s !! i = Some n -> st_heap s !! p = Some m -> ~ permitted (n_cls n) (n_cls m) ->
  exists e, set_parent i (Some p) s = (s, Err (ENode e)).
Proof.
  intros Hi Hp Hperm. unfold set_parent, cls_of, bind. rewrite (get_node_eq _ _ _ Hi). cbn [ret].
  unfold ret. destruct (possible_parents (n_cls n)) as [|d ds] eqn:E.
  - destruct Hperm. left. assumption.
  - rewrite (get_node_eq _ _ _ Hp). destruct (cls_mem (n_cls m) (d :: ds)) eqn:Em.
    + apply cls_mem_spec in Em. destruct Hperm. right. rewrite E. assumption.
    + eexists. reflexivity.
Qed.
Lemma permitted_dec c d : {permitted c d} + {~ permitted c d}.
Proof.
  unfold permitted. destruct (possible_parents c) as [|x xs] eqn:E; [left; auto|].
  destruct (cls_mem d (x :: xs)) eqn:Em.
  - left. right. apply cls_mem_spec. assumption.
  - right. intros [H|H]; [discriminate|]. apply cls_mem_spec in H. congruence.
Qed.

(** [append] of one node: it succeeds exactly when it should. *)
Lemma append1_total p c s np nc :
  st_heap s !! p = Some np -> has_children (n_cls np) = true ->
  st_heap s !! c = Some nc -> n_parent nc = None -> permitted (n_cls nc) (n_cls np) ->
  exists s', append1 p c s = (s', Ok tt).
Proof.
  intros Hp Hhc Hc Hq Hperm. unfold append1, raw_children, parent_of, set_raw_children, bind.
  rewrite (get_node_eq _ _ _ Hp), Hhc. cbn [ret]. unfold ret.
  rewrite (get_node_eq _ _ _ Hc), Hq. rewrite (mod_node_eq _ _ _ _ Hp).
  destruct (decide (c = p)) as [->|Hne].
  - assert (nc = np) as -> by congruence.
    erewrite set_parent_some_eq; [eauto| | |].
    + rewrite upd_lookup, decide_True by reflexivity. reflexivity.
    + rewrite upd_lookup, decide_True by reflexivity. reflexivity.
    + exact Hperm.
  - erewrite set_parent_some_eq; [eauto| | |].
    + rewrite upd_lookup, decide_False by congruence. exact Hc.
    + rewrite upd_lookup, decide_True by reflexivity. reflexivity.
    + exact Hperm.
Qed.
(** What is left behind when the class of the new parent is refused: the child
    is listed by the parent but has no parent. *)
Lemma append1_refused p c s np nc :
  st_heap s !! p = Some np -> has_children (n_cls np) = true ->
  st_heap s !! c = Some nc -> n_parent nc = None -> ~ permitted (n_cls nc) (n_cls np) ->
  exists s' e, append1 p c s = (s', Err (ENode e)) /\
    edited (st_heap s) (st_heap s') (fun _ q => q)
      (fun j l => if decide (j = p) then l ++ [c] else l).
Proof.
  intros Hp Hhc Hc Hq Hperm. unfold append1, raw_children, parent_of, set_raw_children, bind.
  rewrite (get_node_eq _ _ _ Hp), Hhc. cbn [ret]. unfold ret.
  rewrite (get_node_eq _ _ _ Hc), Hq. rewrite (mod_node_eq _ _ _ _ Hp).
  assert (exists e, set_parent c (Some p) (upd s p (set_n_children (n_children np ++ [c]) np))
     = (upd s p (set_n_children (n_children np ++ [c]) np), Err (ENode e))) as [e He].
  { destruct (decide (c = p)) as [->|Hne].
    - assert (nc = np) as -> by congruence.
      eapply set_parent_some_refused.
      + rewrite upd_lookup, decide_True by reflexivity. reflexivity.
      + rewrite upd_lookup, decide_True by reflexivity. reflexivity.
      + exact Hperm.
    - eapply set_parent_some_refused.
      + rewrite upd_lookup, decide_False by congruence. exact Hc.
      + rewrite upd_lookup, decide_True by reflexivity. reflexivity.
      + exact Hperm. }
  rewrite He. do 2 eexists. split; [reflexivity|].
  intros j. rewrite upd_lookup. destruct (decide (p = j)) as [<-|Hne].
  - rewrite Hp, decide_True by reflexivity. destruct np; reflexivity.
  - destruct (st_heap s !! j) as [[]|]; [|reflexivity]. simpl. rewrite decide_False by congruence. reflexivity.
Qed.

(** [append] of a list of distinct detached nodes of permitted classes succeeds. *)
Lemma append_total p : forall (cs : list id) s np,
  st_heap s !! p = Some np -> has_children (n_cls np) = true -> NoDup cs ->
  (forall c, In c cs -> exists nc, st_heap s !! c = Some nc /\ n_parent nc = None /\
     permitted (n_cls nc) (n_cls np)) ->
  exists s', append p cs s = (s', Ok tt).
Proof.
  induction cs as [|c cs IH]; intros s np Hp Hhc Hnd Hall.
  - eexists. reflexivity.
  - apply list.NoDup_cons in Hnd as [Hnin Hnd].
    destruct (Hall c (or_introl eq_refl)) as (nc & Hc & Hq & Hperm).
    destruct (append1_total p c s np nc Hp Hhc Hc Hq Hperm) as [s1 H1].
    unfold append in *. cbn [iterM]. unfold bind. rewrite H1.
    apply append1_ok in H1 as (_ & He & _).
    eapply IH.
    + eapply edited_lookup; eassumption.
    + exact Hhc.
    + exact Hnd.
    + intros d Hd. destruct (Hall d (or_intror Hd)) as (nd & Hd1 & Hd2 & Hd3).
      exists (MkNode (n_cls nd) (if decide (d = c) then Some p else n_parent nd)
                     (if decide (d = p) then n_children nd ++ [c] else n_children nd) (n_attrs nd)).
      split; [exact (edited_lookup _ _ _ _ _ _ He Hd1)|].
      split; [|exact Hd3]. simpl. rewrite decide_False; [exact Hd2|].
      intros ->. apply Hnin. apply elem_of_list_In. assumption.
Qed.

Lemma remove_total p c s np nc :
  st_heap s !! p = Some np -> has_children (n_cls np) = true ->
  st_heap s !! c = Some nc -> c ∈ n_children np ->
  exists s', remove p c s = (s', Ok tt).
Proof.
  intros Hp Hhc Hc Hin. unfold remove, raw_children, set_raw_children, bind.
  rewrite (get_node_eq _ _ _ Hp), Hhc. cbn [ret]. unfold ret.
  destruct (index_of c (n_children np)) as [k|] eqn:E.
  - rewrite (mod_node_eq _ _ _ _ Hp). unfold set_parent.
    assert (exists m, st_heap (upd s p (set_n_children (delete_at k (n_children np)) np)) !! c = Some m) as [m Hm].
    { rewrite upd_lookup. destruct (decide (p = c)); eauto. }
    rewrite (mod_node_eq _ _ _ _ Hm). eauto.
  - apply index_of_none in E. contradiction.
Qed.

(** Removing a node that was just appended restores the tree. *)
Lemma append_remove p c s s1 u :
  consistent (st_heap s) -> append1 p c s = (s1, Ok u) ->
  exists s2, remove p c s1 = (s2, Ok tt) /\ st_heap s2 = st_heap s.
Proof.
  intros Hcons H. apply append1_ok in H as (_ & He & np & nc & Hp & Hc & Hhc & Hq & _).
  assert (Hnin : c ∉ n_children np).
  { intros Hin. assert (parent_is (st_heap s) c p) as (n & Hn & Hn').
    { apply (cons_parent _ Hcons). exists np. split; [assumption|]. unfold kids. rewrite Hhc. assumption. }
    congruence. }
  pose proof (edited_lookup _ _ _ _ _ _ He Hp) as Hp1.
  pose proof (edited_lookup _ _ _ _ _ _ He Hc) as Hc1.
  destruct (remove_total p c s1 _ _ Hp1 Hhc Hc1) as [s2 H2].
  { simpl. rewrite decide_True by reflexivity. apply elem_of_app. right. apply elem_of_list_singleton. reflexivity. }
  exists s2. split; [assumption|].
  apply remove_ok in H2 as (_ & np' & nc' & l1 & l2 & Hp' & _ & _ & El & Hl1 & He2).
  rewrite Hp1 in Hp'. injection Hp' as <-. simpl in El. rewrite decide_True in El by reflexivity.
  assert (l1 ++ l2 = n_children np) as Ell.
  { assert (Hi1 := index_of_app c l1 l2 Hl1). rewrite <- El in Hi1.
    rewrite (index_of_app c (n_children np) [] Hnin) in Hi1. injection Hi1 as Hlen.
    apply app_inj_1 in El as [E1 E2]; [|congruence]. injection E2 as <-. subst. apply app_nil_r. }
  apply map_eq. intros j. rewrite He2, He. destruct (st_heap s !! j) as [n|] eqn:Ej; [|reflexivity].
  simpl. f_equal. destruct n as [cl pa ch at_]. simpl. f_equal.
  - destruct (decide (j = c)) as [->|]; [|reflexivity]. assert (nc = MkNode cl pa ch at_) by congruence.
    subst nc. simpl in Hq. congruence.
  - destruct (decide (j = p)) as [->|]; [|reflexivity]. rewrite Ell.
    assert (np = MkNode cl pa ch at_) by congruence. subst. reflexivity.
Qed.

(** [replace_self] succeeds on a listed node with permitted replacements. *)
Lemma insert_all_total q : forall (reps : list id) k s nq,
  st_heap s !! q = Some nq -> has_children (n_cls nq) = true ->
  (forall c, In c reps -> exists nc, st_heap s !! c = Some nc /\ permitted (n_cls nc) (n_cls nq)) ->
  exists s', insert_all q k reps s = (s', Ok tt).
Proof.
  induction reps as [|r rs IH]; intros k s nq Hq Hhc Hall; [eexists; reflexivity|].
  cbn [insert_all]. unfold raw_children, set_raw_children, bind.
  rewrite (get_node_eq _ _ _ Hq), Hhc. cbn [ret]. unfold ret.
  rewrite (mod_node_eq _ _ _ _ Hq).
  set (s1 := upd s q (set_n_children (insert_at k r (n_children nq)) nq)).
  destruct (Hall r (or_introl eq_refl)) as (nr & Hr & Hperm).
  assert (Hq1 : st_heap s1 !! q = Some (set_n_children (insert_at k r (n_children nq)) nq)).
  { unfold s1. rewrite upd_lookup, decide_True by reflexivity. reflexivity. }
  assert (exists nr1, st_heap s1 !! r = Some nr1 /\ n_cls nr1 = n_cls nr) as (nr1 & Hr1 & Ecls).
  { unfold s1. rewrite upd_lookup. destruct (decide (q = r)) as [->|]; [|eauto].
    eexists. split; [reflexivity|]. simpl. congruence. }
  rewrite (set_parent_some_eq _ _ _ _ _ Hr1 Hq1) by (rewrite Ecls; exact Hperm).
  set (s2 := upd s1 r (set_n_parent (Some q) nr1)).
  assert (Hcls : forall j n, st_heap s !! j = Some n -> exists n', st_heap s2 !! j = Some n' /\ n_cls n' = n_cls n).
  { intros j n Hj. unfold s2. rewrite upd_lookup. destruct (decide (r = j)) as [<-|].
    - eexists. split; [reflexivity|]. simpl. congruence.
    - unfold s1. rewrite upd_lookup. destruct (decide (q = j)) as [<-|]; [|eauto].
      eexists. split; [reflexivity|]. simpl. congruence. }
  destruct (Hcls _ _ Hq) as (nq2 & Hq2 & E2).
  eapply IH; [exact Hq2|congruence|].
  intros c Hc. destruct (Hall c (or_intror Hc)) as (nc & Hnc & Hp).
  destruct (Hcls _ _ Hnc) as (nc' & Hnc' & E). exists nc'. split; [assumption|].
  rewrite E, E2. assumption.
Qed.
Lemma replace_self_total i (reps : list id) s ni q nq :
  st_heap s !! i = Some ni -> n_parent ni = Some q ->
  st_heap s !! q = Some nq -> has_children (n_cls nq) = true -> i ∈ n_children nq ->
  (forall c, In c reps -> exists nc, st_heap s !! c = Some nc /\ permitted (n_cls nc) (n_cls nq)) ->
  exists s', replace_self i reps s = (s', Ok tt).
Proof.
  intros Hi Hp Hq Hhc Hin Hall. unfold replace_self, parent_of, children_of, bind.
  rewrite (get_node_eq _ _ _ Hi). cbn [ret]. unfold ret. rewrite Hp, (get_node_eq _ _ _ Hq).
  unfold kids. rewrite Hhc.
  destruct (index_of i (n_children nq)) as [k|] eqn:E; [|apply index_of_none in E; contradiction].
  destruct (remove_total q i s nq ni Hq Hhc Hi Hin) as [s1 H1]. rewrite H1.
  apply remove_ok in H1 as (_ & np & nc & l1 & l2 & _ & _ & _ & _ & _ & He).
  eapply insert_all_total.
  - eapply edited_lookup; eassumption.
  - exact Hhc.
  - intros c Hc. destruct (Hall c Hc) as (n & Hn & Hperm).
    eexists. split; [eapply edited_lookup; eassumption|]. exact Hperm.
Qed.

(** A successful [append] may close a cycle, but never lists a node twice. *)
Lemma append_one_place p (cs : list id) s s' u :
  consistent (st_heap s) -> append p cs s = (s', Ok u) -> one_place (st_heap s').
Proof.
  intros Hc H. apply append_ok in H as (_ & He & Hnd & Hp & Hall).
  assert (Hdet : forall c, c ∈ cs -> exists nc, st_heap s !! c = Some nc /\ n_parent nc = None).
  { intros c Hin. apply elem_of_list_In in Hin. destruct (Hall c Hin) as (np & nc & _ & H1 & H2 & _). eauto. }
  destruct Hc as [Hpar Hnodup _].
  assert (Hpar' : forall x q, parent_is (st_heap s') x q <-> parent_is (st_heap s) x q \/ (x ∈ cs /\ q = p)).
  { intros x q. rewrite (parent_is_edited _ _ _ _ _ _ He). split.
    - intros (n & Hn & E). destruct (decide (x ∈ cs)); [right; split; [assumption|congruence]|].
      left. exists n. auto.
    - intros [(n & Hn & E)|[Hin ->]].
      + exists n. split; [assumption|]. destruct (decide (x ∈ cs)) as [Hin|]; [|assumption].
        destruct (Hdet _ Hin) as (nc & Hc & Hnone). congruence.
      + destruct (Hdet _ Hin) as (nc & Hc & Hnone). exists nc. split; [assumption|].
        rewrite decide_True by assumption. reflexivity. }
  split.
  - intros x q. rewrite Hpar', <- Hpar. rewrite (child_is_edited _ _ _ _ _ _ He), child_is_alt. split.
    + intros (n & Hn & Hhc & Hx). destruct (decide (q = p)) as [->|Hne]; [|left; eauto].
      apply elem_of_app in Hx as [Hx|Hx]; [left; eauto|auto].
    + intros [(n & Hn & Hhc & Hx)|[Hin ->]].
      * exists n. repeat split; try assumption. destruct (decide (q = p)); [|assumption].
        apply elem_of_app. auto.
      * destruct Hp as (np & Hp & Hhc); [intros ->; inversion Hin|].
        exists np. repeat split; try assumption. rewrite decide_True by reflexivity.
        apply elem_of_app. auto.
  - intros q n Hn. apply (edited_lookup_inv _ _ _ _ _ _ He) in Hn as (m & Hm & ->).
    unfold kids. simpl. pose proof (Hnodup _ _ Hm) as Hnd1. unfold kids in Hnd1.
    destruct (has_children (n_cls m)) eqn:Ehc; [|constructor]. destruct (decide (q = p)) as [->|]; [|assumption].
    apply NoDup_app. split; [assumption|]. split; [|assumption].
    intros x Hx Hin. destruct (Hdet _ Hin) as (nc & Hc & Hnone).
    assert (parent_is (st_heap s) x p) as (n' & Hn' & E).
    { apply Hpar. apply child_is_alt. eauto. }
    congruence.
Qed.

(** ** The effects, in the form used by the properties *)

Lemma remove_effect p x s s' :
  remove p x s = (s', Ok tt) ->
  exists np before after,
    st_heap s !! p = Some np /\ n_children np = before ++ x :: after /\ x ∉ before /\
    edited (st_heap s) (st_heap s')
      (fun j q => if decide (j = x) then None else q)
      (fun j l => if decide (j = p) then before ++ after else l).
Proof. intros H. apply remove_ok in H as (_ & np & nc & l1 & l2 & ? & _ & _ & ? & ? & ?). eauto 8. Qed.
Lemma remove_self_effect x s s' :
  remove_self x s = (s', Ok tt) ->
  (exists nx, st_heap s !! x = Some nx /\ n_parent nx = None /\ s' = s) \/
  (exists p np before after,
    parent_is (st_heap s) x p /\ st_heap s !! p = Some np /\
    n_children np = before ++ x :: after /\ x ∉ before /\
    edited (st_heap s) (st_heap s')
      (fun j q => if decide (j = x) then None else q)
      (fun j l => if decide (j = p) then before ++ after else l)).
Proof.
  intros H. apply remove_self_ok in H as (_ & nc & Hc & H). destruct (n_parent nc) as [p|] eqn:E.
  - right. destruct H as (np & l1 & l2 & ? & _ & ? & ? & ?). exists p, np, l1, l2.
    split; [exists nc; auto|auto].
  - left. eauto.
Qed.
Lemma clear_effect p s s' :
  clear p s = (s', Ok tt) ->
  exists np, st_heap s !! p = Some np /\
    edited (st_heap s) (st_heap s')
      (fun j q => if decide (j ∈ n_children np) then None else q)
      (fun j l => if decide (j = p) then [] else l).
Proof. intros H. apply clear_ok in H as (_ & np & ? & _ & ?). eauto. Qed.
Lemma replace_self_effect x (reps : list id) s s' :
  replace_self x reps s = (s', Ok tt) -> x ∉ reps ->
  exists p np before after,
    parent_is (st_heap s) x p /\ st_heap s !! p = Some np /\
    n_children np = before ++ x :: after /\ x ∉ before /\
    edited (st_heap s) (st_heap s')
      (fun j q => if decide (j ∈ reps) then Some p else if decide (j = x) then None else q)
      (fun j l => if decide (j = p) then before ++ reps ++ after else l).
Proof.
  intros H Hx. apply replace_self_ok in H as (q & s1 & ni & nq & l1 & l2 & Hi & Hp & Hq & Hhc & El & Hl1 & _ & _ & He1 & H).
  exists q, nq, l1, l2. split; [exists ni; auto|]. do 3 (split; [assumption|]).
  destruct H as (_ & He2 & _).
  eapply edited_ext; [exact (edited_trans _ _ _ _ _ _ _ He1 He2)| |]; intros j n Hj; simpl.
  - reflexivity.
  - destruct (decide (j = q)); reflexivity.
Qed.
