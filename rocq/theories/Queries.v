(** Proofs about the query methods of nodes.py. *)
From Verif Require Export Traverse.

Lemma chain_fuel_derives n c d : In d (chain_fuel n c) -> derives c d.
Proof.
  revert c. induction n as [|n IH]; intros c; simpl; [intros [->|[]]; constructor|].
  intros [->|H]; [constructor|]. destruct (base c) as [b|] eqn:E; [|destruct H].
  econstructor; [exact E|]. apply IH, H.
Qed.
Lemma derives_chain c d : derives c d -> In d (chain c).
Proof.
  induction 1 as [c|c b d E H IH].
  - left. reflexivity.
  - unfold chain in *. rewrite <- chain_complete. change (In d (c :: match base c with Some b => chain_fuel 8 b | None => [] end)).
    right. rewrite E. exact IH.
Qed.
Lemma subclass_derives c d : subclass c d = true <-> derives c d.
Proof.
  unfold subclass. rewrite existsb_exists. split.
  - intros (x & Hx & E). destruct (cls_eqb_spec d x) as [->|]; [|discriminate].
    eapply chain_fuel_derives, Hx.
  - intros H. exists d. split; [apply derives_chain, H|]. destruct (cls_eqb_spec d d); congruence.
Qed.
Lemma subclass_any_spec c ds : subclass_any c ds = true <-> exists d, In d ds /\ derives c d.
Proof.
  unfold subclass_any. rewrite existsb_exists. setoid_rewrite subclass_derives. reflexivity.
Qed.
Lemma is_instance_iff h ds x n :
  h !! x = Some n -> is_instance h ds x <-> subclass_any (n_cls n) ds = true.
Proof.
  intros Hx. rewrite subclass_any_spec. unfold is_instance. split.
  - intros (m & d & Hm & Hd & H). assert (m = n) as -> by congruence. eauto.
  - intros (d & Hd & H). eauto 6.
Qed.
Lemma inst_true_iff h ds x n b :
  h !! x = Some n -> b = subclass_any (n_cls n) ds -> b = true <-> is_instance h ds x.
Proof. intros Hx ->. symmetry. apply is_instance_iff. assumption. Qed.

(** ** first_of_type, last_of_type *)

Lemma first_of_type_go_ok ds l : forall k s s' r,
  first_of_type_go ds l k s = (s', Ok r) ->
  s' = s /\
  match r with
  | Some (c, k') => k <= k' /\ first_match (st_heap s) ds l (Some (c, k' - k))
  | None => first_match (st_heap s) ds l None
  end.
Proof.
  induction l as [|x l IH]; intros k s s' r H; simpl in H.
  - msteps. split; [reflexivity|]. intros x Hx. inversion Hx.
  - msteps. grab (st_heap _ !! x = Some _) as Hx.
    destruct (subclass_any (n_cls n) ds) eqn:E.
    + msteps. split; [reflexivity|]. split; [lia|]. rewrite Nat.sub_diag.
      split; [reflexivity|]. split; [apply (is_instance_iff _ _ _ _ Hx), E|]. intros; lia.
    + apply IH in H as [-> H]. split; [reflexivity|].
      assert (~ is_instance (st_heap s) ds x) as Hnx.
      { rewrite (is_instance_iff _ _ _ _ Hx), E. discriminate. }
      destruct r as [[c k']|].
      * destruct H as (Hle & H1 & H2 & H3). split; [lia|].
        replace (k' - k) with (S (k' - S k)) by lia. split; [exact H1|]. split; [assumption|].
        intros [|j] y Hj Hy; [injection Hy as <-; assumption|]. apply (H3 j); [lia|exact Hy].
      * intros y Hy. apply elem_of_cons in Hy as [->|Hy]; auto.
Qed.
Lemma first_of_type_ok i ds s s' r :
  first_of_type i ds s = (s', Ok r) ->
  s' = s /\ exists n, st_heap s !! i = Some n /\ first_match (st_heap s) ds (kids n) r.
Proof.
  unfold first_of_type. intros H. msteps. grab (st_heap _ !! i = Some _) as Hi.
  apply first_of_type_go_ok in H as [-> H]. split; [reflexivity|]. exists n. split; [assumption|].
  destruct r as [[c k]|]; [|exact H]. destruct H as [_ H]. rewrite Nat.sub_0_r in H. exact H.
Qed.

Lemma nth_error_rev {A} (l : list A) k :
  k < length l -> nth_error (rev l) k = nth_error l (length l - k - 1).
Proof.
  intros H. rewrite <- (rev_involutive l) at 2. rewrite <- (rev_length l) in *.
  generalize dependent (rev l). clear l. intros l H.
  induction l as [|x l IH] in k, H |- *; [simpl in H; lia|].
  simpl. destruct k as [|k].
  - rewrite nth_error_app2; rewrite rev_length; [|lia].
    replace (S (length l) - 0 - 1 - length l) with 0 by lia. reflexivity.
  - simpl in *. rewrite IH by lia. rewrite nth_error_app1 by (rewrite rev_length; lia).
    f_equal; lia.
Qed.
Lemma last_of_type_ok i ds s s' r :
  last_of_type i ds s = (s', Ok r) ->
  s' = s /\ exists n, st_heap s !! i = Some n /\ last_match (st_heap s) ds (kids n) r.
Proof.
  unfold last_of_type. intros H. msteps. grab (st_heap _ !! i = Some _) as Hi.
  grab (first_of_type_go _ _ _ _ = _) as Hf.
  apply first_of_type_go_ok in Hf as [-> Hf].
  destruct a as [[c k]|]; msteps; (split; [reflexivity|]); exists n; (split; [assumption|]).
  - destruct Hf as (_ & H1 & H2 & H3). rewrite Nat.sub_0_r in *.
    assert (k < length (kids n)) as Hk.
    { rewrite <- rev_length. apply nth_error_Some. congruence. }
    split; [rewrite <- nth_error_rev by assumption; assumption|]. split; [assumption|].
    intros j x Hj Hx. assert (j < length (kids n)) by (apply nth_error_Some; congruence).
    apply (H3 (length (kids n) - j - 1)); [lia|].
    rewrite nth_error_rev by lia. rewrite <- Hx. f_equal. lia.
  - intros x Hx. apply Hf. apply elem_of_list_In. apply -> in_rev. apply elem_of_list_In, Hx.
Qed.
Lemma first_of_type_go_total ds l : forall k s,
  Forall (fun c => is_Some (st_heap s !! c)) l -> exists r, first_of_type_go ds l k s = (s, Ok r).
Proof.
  induction l as [|x l IH]; intros k s Hl; [eexists; reflexivity|].
  apply list.Forall_cons in Hl as [[n Hx] Hl]. simpl. unfold bind, inst, cls_of, bind.
  rewrite (get_node_eq _ _ _ Hx). unfold ret. destruct (subclass_any _ _); [eexists; reflexivity|].
  apply IH, Hl.
Qed.
Lemma kids_some h i n : consistent h -> h !! i = Some n -> Forall (fun c => is_Some (h !! c)) (kids n).
Proof.
  intros Hc Hi. apply list.Forall_forall. intros c Hin.
  assert (parent_is h c i) as (m & Hm & _) by (apply (cons_parent _ Hc); exists n; auto). eauto.
Qed.
Lemma first_of_type_total i ds s n :
  consistent (st_heap s) -> st_heap s !! i = Some n -> exists r, first_of_type i ds s = (s, Ok r).
Proof.
  intros Hc Hi. unfold first_of_type, bind, children_of, bind. rewrite (get_node_eq _ _ _ Hi). unfold ret.
  apply first_of_type_go_total, (kids_some _ i); assumption.
Qed.
Lemma last_of_type_total i ds s n :
  consistent (st_heap s) -> st_heap s !! i = Some n -> exists r, last_of_type i ds s = (s, Ok r).
Proof.
  intros Hc Hi. unfold last_of_type, bind, children_of, bind. rewrite (get_node_eq _ _ _ Hi). unfold ret.
  destruct (first_of_type_go_total ds (rev (kids n)) 0 s) as [r ->].
  - apply list.Forall_forall. intros x Hx. apply elem_of_list_In in Hx. apply in_rev in Hx.
    apply elem_of_list_In in Hx. revert x Hx. apply list.Forall_forall, (kids_some _ i); assumption.
  - destruct r as [[]|]; eexists; reflexivity.
Qed.

(** ** Siblings *)

Lemma first_inst_ok d l : forall s s' r,
  first_inst d l s = (s', Ok r) ->
  s' = s /\
  match r with
  | Some y => exists l1 l2, l = l1 ++ y :: l2 /\ is_instance (st_heap s) [d] y /\
      forall x, x ∈ l1 -> ~ is_instance (st_heap s) [d] x
  | None => forall x, x ∈ l -> ~ is_instance (st_heap s) [d] x
  end.
Proof.
  induction l as [|x l IH]; intros s s' r H; simpl in H.
  - msteps. split; [reflexivity|]. intros x Hx. inversion Hx.
  - msteps. grab (st_heap _ !! x = Some _) as Hx.
    destruct (subclass_any (n_cls n) [d]) eqn:E.
    + msteps. split; [reflexivity|]. exists [], l. split; [reflexivity|].
      split; [apply (is_instance_iff _ _ _ _ Hx), E|]. intros y Hy. inversion Hy.
    + apply IH in H as [-> H]. split; [reflexivity|].
      assert (~ is_instance (st_heap s) [d] x) as Hnx.
      { rewrite (is_instance_iff _ _ _ _ Hx), E. discriminate. }
      destruct r as [y|].
      * destruct H as (l1 & l2 & -> & Hy & Hno). exists (x :: l1), l2. split; [reflexivity|].
        split; [assumption|]. intros z Hz. apply elem_of_cons in Hz as [->|Hz]; auto.
      * intros z Hz. apply elem_of_cons in Hz as [->|Hz]; auto.
Qed.
Lemma first_inst_total d l : forall s,
  Forall (fun c => is_Some (st_heap s !! c)) l -> exists r, first_inst d l s = (s, Ok r).
Proof.
  induction l as [|x l IH]; intros s Hl; [eexists; reflexivity|].
  apply list.Forall_cons in Hl as [[n Hx] Hl]. simpl. unfold bind, inst, cls_of, bind.
  rewrite (get_node_eq _ _ _ Hx). unfold ret. destruct (subclass_any _ _); [eexists; reflexivity|].
  apply IH, Hl.
Qed.


Lemma siblings_unique h x b a b' a' :
  consistent h -> siblings h x b a -> siblings h x b' a' -> b' = b /\ a' = a.
Proof.
  intros Hc (q & nq & Hp & Hq & Hk) (q' & nq' & Hp' & Hq' & Hk').
  rewrite (parent_unique _ _ _ _ Hp' Hp) in *. assert (nq' = nq) as -> by congruence.
  rewrite Hk in Hk'. pose proof (cons_nodup _ Hc _ _ Hq) as Hnd. rewrite Hk in Hnd.
  clear - Hnd Hk'. revert b' Hk' Hnd. induction b as [|y b IH]; intros [|y' b']; simpl.
  - intros [= <-] _. auto.
  - intros [= -> E] Hnd. inversion Hnd as [|? ? Hn _]; subst. exfalso. apply Hn.
    rewrite elem_of_app, elem_of_cons. auto.
  - intros [= <- E] Hnd. inversion Hnd as [|? ? Hn _]; subst. exfalso. apply Hn.
    rewrite elem_of_app, elem_of_cons. auto.
  - intros [= <- E] Hnd. inversion Hnd; subst. destruct (IH _ E); auto. subst. auto.
Qed.
Lemma siblings_exist h x q : consistent h -> parent_is h x q -> exists b a, siblings h x b a.
Proof.
  intros Hc Hp. pose proof Hp as (nq & Hq & Hin)%(cons_parent _ Hc).
  apply elem_of_list_split in Hin as (b & a & E). exists b, a, q, nq. auto.
Qed.
Lemma sibling_lookup s x b a :
  consistent (st_heap s) -> siblings (st_heap s) x b a ->
  exists q nx nq, st_heap s !! x = Some nx /\ n_parent nx = Some q /\ st_heap s !! q = Some nq /\
    kids nq = b ++ x :: a /\ index_of x (kids nq) = Some (length b).
Proof.
  intros Hc (q & nq & (nx & Hx & Hp) & Hq & Hk). exists q, nx, nq. repeat split; try assumption.
  rewrite Hk. apply index_of_app. pose proof (cons_nodup _ Hc _ _ Hq) as Hnd. rewrite Hk in Hnd.
  apply nodup_mid in Hnd as [? _]. assumption.
Qed.

Lemma prev_sibling_any s x b a :
  consistent (st_heap s) -> siblings (st_heap s) x b a ->
  prev_sibling x SibAny s = (s, Ok (list.last b)).
Proof.
  intros Hc Hs. destruct (sibling_lookup _ _ _ _ Hc Hs) as (q & nx & nq & Hx & Hp & Hq & Hk & Hix).
  unfold prev_sibling, parent_of, children_of, bind. rewrite (get_node_eq _ _ _ Hx). unfold ret.
  rewrite Hp, (get_node_eq _ _ _ Hq), Hix. f_equal. f_equal. rewrite Hk.
  destruct b as [|y b _] using rev_ind; [reflexivity|].
  rewrite last_snoc, app_length. simpl. replace (length b + 1) with (S (length b)) by lia.
  rewrite <- app_assoc. rewrite nth_error_app2 by lia. rewrite Nat.sub_diag. reflexivity.
Qed.
Lemma next_sibling_any s x b a :
  consistent (st_heap s) -> siblings (st_heap s) x b a ->
  next_sibling x SibAny s = (s, Ok (head a)).
Proof.
  intros Hc Hs. destruct (sibling_lookup _ _ _ _ Hc Hs) as (q & nx & nq & Hx & Hp & Hq & Hk & Hix).
  unfold next_sibling, parent_of, children_of, bind. rewrite (get_node_eq _ _ _ Hx). unfold ret.
  rewrite Hp, (get_node_eq _ _ _ Hq), Hix. f_equal. f_equal. rewrite Hk.
  rewrite nth_error_app2 by lia. replace (S (length b) - length b) with 1 by lia. destruct a; reflexivity.
Qed.
Lemma sibling_root s x n a :
  st_heap s !! x = Some n -> n_parent n = None ->
  prev_sibling x a s = (s, Ok None) /\ next_sibling x a s = (s, Ok None).
Proof.
  intros Hx Hp. unfold prev_sibling, next_sibling, parent_of, bind. rewrite (get_node_eq _ _ _ Hx).
  unfold ret. rewrite Hp. auto.
Qed.

Lemma sib_class_run s x arg d (l : list id) :
  sib_class (st_heap s) x arg d -> is_Some (st_heap s !! x) ->
  match arg with
  | SibAny => True
  | SibSelf => (let! c := cls_of x in first_inst c l) s = first_inst d l s
  | SibCls c => first_inst c l s = first_inst d l s
  end.
Proof.
  destruct arg; simpl.
  - auto.
  - intros (n & Hx & ->) _. unfold bind, cls_of, bind. rewrite (get_node_eq _ _ _ Hx). reflexivity.
  - intros -> _. reflexivity.
Qed.
Lemma first_inst_rev_nearest d l s s' r :
  first_inst d (rev l) s = (s', Ok r) -> s' = s /\ nearest_before (st_heap s) d l r.
Proof.
  intros H. apply first_inst_ok in H as [-> H]. split; [reflexivity|]. destruct r as [y|]; simpl.
  - destruct H as (l1 & l2 & E & Hy & Hno). exists (rev l2), (rev l1).
    split; [|split; [assumption|]].
    + rewrite <- (rev_involutive l), E, rev_app_distr. simpl. rewrite <- app_assoc. reflexivity.
    + intros z Hz. apply Hno. apply elem_of_list_In. apply in_rev. apply elem_of_list_In, Hz.
  - intros z Hz. apply H. apply elem_of_list_In. apply -> in_rev. apply elem_of_list_In, Hz.
Qed.
Lemma siblings_some h x b a :
  consistent h -> siblings h x b a ->
  Forall (fun c => is_Some (h !! c)) b /\ Forall (fun c => is_Some (h !! c)) a.
Proof.
  intros Hc (q & nq & Hp & Hq & Hk). pose proof (kids_some _ _ _ Hc Hq) as Hall. rewrite Hk in Hall.
  apply list.Forall_app in Hall as [? Hall]. apply list.Forall_cons in Hall as [_ ?]. auto.
Qed.
Lemma prev_sibling_class s x b a arg d :
  consistent (st_heap s) -> siblings (st_heap s) x b a -> sib_class (st_heap s) x arg d ->
  exists r, prev_sibling x arg s = (s, Ok r) /\ nearest_before (st_heap s) d b r.
Proof.
  intros Hc Hs Hd. destruct (sibling_lookup _ _ _ _ Hc Hs) as (q & nx & nq & Hx & Hp & Hq & Hk & Hix).
  assert (E : prev_sibling x arg s = first_inst d (rev b) s).
  { unfold prev_sibling, parent_of, children_of.
    unfold bind at 1. unfold bind at 1. rewrite (get_node_eq _ _ _ Hx). unfold ret at 1.
    rewrite Hp. unfold bind at 1. unfold bind at 1. rewrite (get_node_eq _ _ _ Hq). unfold ret at 1.
    rewrite Hix, Hk, take_app.
    pose proof (sib_class_run s x arg d (rev b) Hd (mk_is_Some _ _ Hx)) as Hrun.
    destruct arg; [destruct Hd|exact Hrun|exact Hrun]. }
  rewrite E. destruct (first_inst_total d (rev b) s) as [r Hr].
  - apply list.Forall_forall. intros y Hy. apply elem_of_list_In in Hy. apply in_rev in Hy.
    apply elem_of_list_In in Hy. revert y Hy. apply list.Forall_forall.
    apply (siblings_some _ x b a Hc Hs).
  - exists r. split; [assumption|]. apply first_inst_rev_nearest in Hr as [_ ?]. assumption.
Qed.
Lemma next_sibling_class s x b a arg d :
  consistent (st_heap s) -> siblings (st_heap s) x b a -> sib_class (st_heap s) x arg d ->
  exists r, next_sibling x arg s = (s, Ok r) /\ nearest_after (st_heap s) d a r.
Proof.
  intros Hc Hs Hd. destruct (sibling_lookup _ _ _ _ Hc Hs) as (q & nx & nq & Hx & Hp & Hq & Hk & Hix).
  assert (E : next_sibling x arg s = first_inst d a s).
  { unfold next_sibling, parent_of, children_of.
    unfold bind at 1. unfold bind at 1. rewrite (get_node_eq _ _ _ Hx). unfold ret at 1.
    rewrite Hp. unfold bind at 1. unfold bind at 1. rewrite (get_node_eq _ _ _ Hq). unfold ret at 1.
    rewrite Hix, Hk. rewrite drop_app_ge by lia. replace (S (length b) - length b) with 1 by lia.
    change (drop 1 (x :: a)) with (drop 0 a). rewrite drop_0.
    pose proof (sib_class_run s x arg d a Hd (mk_is_Some _ _ Hx)) as Hrun.
    destruct arg; [destruct Hd|exact Hrun|exact Hrun]. }
  rewrite E. destruct (first_inst_total d a s) as [r Hr].
  - apply (siblings_some _ x b a Hc Hs).
  - exists r. split; [assumption|]. apply first_inst_ok in Hr as [_ ?]. destruct r; assumption.
Qed.
(** next and prev are inverse. *)
Lemma next_prev_inverse s x y nx ny :
  consistent (st_heap s) -> st_heap s !! x = Some nx -> st_heap s !! y = Some ny ->
  next_sibling x SibAny s = (s, Ok (Some y)) <-> prev_sibling y SibAny s = (s, Ok (Some x)).
Proof.
  intros Hc Hx Hy. split; intros H.
  - destruct (n_parent nx) as [q|] eqn:Ep.
    2:{ destruct (sibling_root s x nx SibAny Hx Ep) as [_ E]. rewrite E in H. discriminate. }
    assert (parent_is (st_heap s) x q) as Hp by (exists nx; auto).
    destruct (siblings_exist _ _ _ Hc Hp) as (b & a & Hs).
    rewrite (next_sibling_any _ _ _ _ Hc Hs) in H. destruct a as [|y' a]; [discriminate|].
    injection H as ->. destruct Hs as (q' & nq & Hp' & Hq & Hk).
    assert (siblings (st_heap s) y (b ++ [x]) a) as Hs'.
    { exists q', nq. split; [|split; [assumption|rewrite <- app_assoc; exact Hk]].
      apply (cons_parent _ Hc). exists nq. split; [assumption|]. rewrite Hk.
      rewrite elem_of_app, !elem_of_cons. auto. }
    rewrite (prev_sibling_any _ _ _ _ Hc Hs'), last_snoc. reflexivity.
  - destruct (n_parent ny) as [q|] eqn:Ep.
    2:{ destruct (sibling_root s y ny SibAny Hy Ep) as [E _]. rewrite E in H. discriminate. }
    assert (parent_is (st_heap s) y q) as Hp by (exists ny; auto).
    destruct (siblings_exist _ _ _ Hc Hp) as (b & a & Hs).
    rewrite (prev_sibling_any _ _ _ _ Hc Hs) in H.
    destruct b as [|x' b _] using rev_ind; [discriminate|]. rewrite last_snoc in H.
    injection H as ->. destruct Hs as (q' & nq & Hp' & Hq & Hk). rewrite <- app_assoc in Hk. simpl in Hk.
    assert (siblings (st_heap s) x b (y :: a)) as Hs'.
    { exists q', nq. split; [|split; [assumption|exact Hk]].
      apply (cons_parent _ Hc). exists nq. split; [assumption|]. rewrite Hk.
      rewrite elem_of_app, !elem_of_cons. auto. }
    rewrite (next_sibling_any _ _ _ _ Hc Hs'). reflexivity.
Qed.

(** ** Ancestors *)

Lemma has_class_iff h ds x n : h !! x = Some n -> has_class h ds x <-> cls_mem (n_cls n) ds = true.
Proof.
  intros Hx. rewrite cls_mem_spec. unfold has_class. split; [|eauto].
  intros (m & Hm & H). assert (m = n) as -> by congruence. assumption.
Qed.
Lemma anc_loop_ok fuel ds : forall x p s s' r,
  consistent (st_heap s) -> (exists n, st_heap s !! x = Some n /\ n_parent n = p) ->
  anc_loop fuel ds p s = (s', Ok r) -> s' = s /\ closest_ancestor (st_heap s) ds x r.
Proof.
  induction fuel as [|fuel IH]; intros x p s s' r Hc (n & Hx & Hp) H.
  - destruct p as [q|]; [discriminate|]. simpl in H. msteps. split; [reflexivity|].
    intros b Hb. inversion Hb as [? ? (m & Hm & E)|? ? ? (m & Hm & E)]; subst; congruence.
  - destruct p as [q|].
    2:{ simpl in H. msteps. split; [reflexivity|].
        intros b Hb. inversion Hb as [? ? (m & Hm & E)|? ? ? (m & Hm & E)]; subst; congruence. }
    cbn [anc_loop] in H. msteps. grab (st_heap _ !! q = Some _) as Hq.
    assert (parent_is (st_heap s) x q) as Hpar by (exists n; auto).
    pose proof (has_class_iff _ ds _ _ Hq) as Hcls.
    destruct (cls_mem (n_cls n0) ds).
    + msteps. split; [reflexivity|]. split; [constructor; assumption|]. split; [tauto|].
      intros b Hb Hbq _. destruct (ancestor_parent _ _ _ _ Hpar Hb) as [->|Hqb].
      * exact (cons_acyclic _ Hc _ Hbq).
      * exact (cons_acyclic _ Hc _ (ancestor_trans _ _ _ _ Hbq Hqb)).
    + msteps. apply (IH q) in H as [-> H]; [|assumption|eauto]. split; [reflexivity|].
      assert (Hnq : ~ has_class (st_heap s) ds q) by (rewrite Hcls; discriminate).
      destruct r as [a|].
      * destruct H as (Ha & Hca & Hno). split; [eapply anc_step; eassumption|]. split; [assumption|].
        intros b Hb Hba. destruct (ancestor_parent _ _ _ _ Hpar Hb) as [->|Hqb]; auto.
      * intros b Hb. destruct (ancestor_parent _ _ _ _ Hpar Hb) as [->|Hqb]; auto.
Qed.
Lemma first_ancestor_ok fuel x ds s s' r :
  consistent (st_heap s) ->
  first_ancestor_of_type fuel x ds s = (s', Ok r) -> s' = s /\ closest_ancestor (st_heap s) ds x r.
Proof.
  intros Hc H. unfold first_ancestor_of_type in H. msteps. eapply anc_loop_ok; eauto.
Qed.
Lemma closest_unique h ds x r r' :
  consistent h -> closest_ancestor h ds x r -> closest_ancestor h ds x r' -> r = r'.
Proof.
  intros Hc H H'. destruct r as [a|], r' as [a'|]; simpl in *.
  - destruct H as (A1 & A2 & A3), H' as (B1 & B2 & B3). f_equal.
    destruct (ancestor_linear _ _ _ _ A1 B1) as [?|[Hl|Hl]]; [assumption| |].
    + destruct (B3 _ A1 Hl A2).
    + destruct (A3 _ B1 Hl B2).
  - destruct H as (A1 & A2 & _). destruct (H' _ A1 A2).
  - destruct H' as (A1 & A2 & _). destruct (H _ A1 A2).
  - reflexivity.
Qed.
(** Termination: the loop needs no more turns than there are nodes. *)
Lemma upchain_snoc h l q r :
  upchain h (l ++ [q]) -> parent_is h q r -> is_Some (h !! r) -> upchain h ((l ++ [q]) ++ [r]).
Proof.
  intros H Hp Hr. induction l as [|x l IH]; simpl in *.
  - constructor; [assumption|]. constructor. assumption.
  - destruct l as [|y l]; simpl in *; inversion H; subst; constructor; auto.
Qed.
Lemma anc_loop_total ds fuel : forall q l s,
  consistent (st_heap s) -> upchain (st_heap s) (l ++ [q]) -> size (st_heap s) <= fuel + length l ->
  exists r, anc_loop fuel ds (Some q) s = (s, Ok r).
Proof.
  induction fuel as [|fuel IH]; intros q l s Hc Hu Hlen.
  - pose proof (upchain_length _ _ Hc Hu) as H. rewrite app_length in H. simpl in *. lia.
  - cbn [anc_loop]. destruct (upchain_some _ _ q Hu) as [n Hq]; [rewrite elem_of_app, elem_of_list_singleton; auto|].
    unfold cls_of, parent_of, bind. rewrite (get_node_eq _ _ _ Hq). unfold ret.
    destruct (cls_mem (n_cls n) ds); [eexists; reflexivity|].
    rewrite (get_node_eq _ _ _ Hq).
    destruct (n_parent n) as [p|] eqn:Ep.
    + assert (parent_is (st_heap s) q p) as Hp by (exists n; auto).
      pose proof Hp as (np & Hnp & _)%(cons_parent _ Hc).
      apply (IH p (l ++ [q])); auto.
      * apply upchain_snoc; eauto.
      * rewrite app_length. simpl. lia.
    + destruct fuel; eexists; reflexivity.
Qed.
Lemma first_ancestor_total fuel x ds s n :
  consistent (st_heap s) -> st_heap s !! x = Some n -> size (st_heap s) <= fuel ->
  exists r, first_ancestor_of_type fuel x ds s = (s, Ok r).
Proof.
  intros Hc Hx Hf. unfold first_ancestor_of_type, parent_of, bind. rewrite (get_node_eq _ _ _ Hx).
  unfold ret. destruct (n_parent n) as [p|] eqn:Ep.
  - assert (parent_is (st_heap s) x p) as Hp by (exists n; auto).
    pose proof Hp as (np & Hnp & _)%(cons_parent _ Hc).
    apply (anc_loop_total ds fuel p [x] s); auto; [|simpl; lia].
    constructor; [assumption|]. constructor. eauto.
  - destruct fuel; eexists; reflexivity.
Qed.
