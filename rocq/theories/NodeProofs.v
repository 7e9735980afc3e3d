(** Proofs about the editing operations of nodes.py. *)
From Verif Require Export SpecNodes Monad.


Lemma cls_mem_spec c l : cls_mem c l = true <-> In c l.
Proof.
  unfold cls_mem. rewrite existsb_exists. split.
  - intros (x & Hx & E). destruct (cls_eqb_spec c x); [subst; assumption|discriminate].
  - intros H. exists c. split; [assumption|]. destruct (cls_eqb_spec c c); congruence.
Qed.

Lemma set_parent_none_ok i s s' u :
  set_parent i None s = (s', Ok u) ->
  exists n, st_heap s !! i = Some n /\ s' = upd s i (set_n_parent None n).
Proof. apply mod_node_ok. Qed.
Lemma set_parent_some_ok i p s s' u :
  set_parent i (Some p) s = (s', Ok u) ->
  exists n, st_heap s !! i = Some n /\ s' = upd s i (set_n_parent (Some p) n) /\
            (possible_parents (n_cls n) = [] \/
             exists m, st_heap s !! p = Some m /\ In (n_cls m) (possible_parents (n_cls n))).
Proof.
  unfold set_parent. intros H. msteps.
  destruct (possible_parents (n_cls n)) as [|d ds] eqn:E.
  - msteps. assert (n0 = n) as -> by congruence. eauto 6.
  - msteps. destruct (cls_mem (n_cls n0) (d :: ds)) eqn:E2; [|discriminate].
    msteps. assert (n1 = n) as -> by congruence. apply cls_mem_spec in E2.
    exists n. rewrite E. eauto 8.
Qed.

Lemma get_node_err i s s' e : get_node i s = (s', Err e) -> s' = s.
Proof. unfold get_node. destruct (st_heap s !! i); congruence. Qed.
Lemma mod_node_err i f s s' e : mod_node i f s = (s', Err e) -> s' = s.
Proof.
  unfold mod_node. intros H. apply bind_err in H as [H|(s1 & n & H1 & H)].
  - eapply get_node_err, H.
  - discriminate.
Qed.
Lemma cls_of_err i s s' e : cls_of i s = (s', Err e) -> s' = s.
Proof.
  unfold cls_of. intros H. apply bind_err in H as [H|(s1 & n & H1 & H)].
  - eapply get_node_err, H.
  - discriminate.
Qed.
(** The setter either sets the parent or leaves everything alone. *)
Lemma set_parent_err i p s s' e : set_parent i p s = (s', Err e) -> s' = s.
Proof.
  destruct p as [q|]; [|apply mod_node_err]. unfold set_parent. intros H.
  apply bind_err in H as [H|(s1 & c & H1 & H)]; [eapply cls_of_err, H|].
  apply cls_of_ok in H1 as (-> & n & Hn & ->).
  destruct (possible_parents (n_cls n)) as [|d ds]; [eapply mod_node_err, H|].
  apply bind_err in H as [H|(s1 & c & H1 & H)]; [eapply cls_of_err, H|].
  apply cls_of_ok in H1 as (-> & m & Hm & ->).
  destruct (cls_mem _ _); [eapply mod_node_err, H|]. injection H as <-. reflexivity.
Qed.

Definition same_rest (s s' : st) : Prop := st_next s' = st_next s /\ st_logs s' = st_logs s.
Lemma same_rest_refl s : same_rest s s. Proof. split; reflexivity. Qed.
Lemma same_rest_trans s1 s2 s3 : same_rest s1 s2 -> same_rest s2 s3 -> same_rest s1 s3.
Proof. intros [] []. split; congruence. Qed.
Lemma same_rest_upd s i n : same_rest s (upd s i n). Proof. split; reflexivity. Qed.
Global Hint Resolve same_rest_refl same_rest_upd : core.

(** ** append *)

Lemma append1_ok p c s s' u :
  append1 p c s = (s', Ok u) ->
  same_rest s s' /\
  edited (st_heap s) (st_heap s') (fun j q => if decide (j = c) then Some p else q)
    (fun j l => if decide (j = p) then l ++ [c] else l) /\
  exists np nc, st_heap s !! p = Some np /\ st_heap s !! c = Some nc /\
    has_children (n_cls np) = true /\ n_parent nc = None /\ permitted (n_cls nc) (n_cls np).
Proof.
  unfold append1. intros H. msteps. destruct (n_parent n0) eqn:Ep; [discriminate|].
  msteps. apply set_parent_some_ok in H as (m & Hm & -> & Hpp).
  assert (n1 = n) as -> by congruence.
  split; [|split].
  - eapply same_rest_trans; apply same_rest_upd.
  - intros j. rewrite upd_lookup. rewrite upd_lookup in Hm.
    destruct (decide (c = j)) as [<-|Hc].
    + destruct (decide (p = c)) as [->|Hne].
      * injection Hm as <-. rewrite H0. simpl. rewrite !decide_True by reflexivity. reflexivity.
      * rewrite Hm. rewrite decide_True by reflexivity.
        rewrite decide_False by congruence. reflexivity.
    + rewrite upd_lookup. destruct (decide (p = j)) as [<-|Hp].
      * rewrite H0. rewrite decide_False by congruence. rewrite decide_True by reflexivity.
        reflexivity.
      * destruct (st_heap s !! j) as [[]|]; [|reflexivity].
        rewrite !decide_False by congruence. reflexivity.
  - exists n, n0. repeat split; try assumption.
    unfold permitted. rewrite upd_lookup in Hm. rewrite upd_lookup in Hpp.
    rewrite decide_True in Hpp by reflexivity.
    assert (n_cls m = n_cls n0) as Hcm.
    { destruct (decide (p = c)) as [->|]; [|congruence].
      injection Hm as <-. simpl. congruence. }
    rewrite Hcm in Hpp. destruct Hpp as [Hpp|(m' & [= <-] & Hpp)]; auto.
Qed.

Lemma edited_refl h : edited h h (fun _ q => q) (fun _ l => l).
Proof. intros j. destruct (h !! j) as [[]|]; reflexivity. Qed.
Lemma edited_trans h1 h2 h3 fp gp fk gk :
  edited h1 h2 fp fk -> edited h2 h3 gp gk ->
  edited h1 h3 (fun j q => gp j (fp j q)) (fun j l => gk j (fk j l)).
Proof.
  intros H1 H2 j. rewrite H2, H1. destruct (h1 !! j); reflexivity.
Qed.
Lemma edited_ext h h' fp gp fk gk :
  edited h h' fp fk ->
  (forall j n, h !! j = Some n -> fp j (n_parent n) = gp j (n_parent n)) ->
  (forall j n, h !! j = Some n -> fk j (n_children n) = gk j (n_children n)) ->
  edited h h' gp gk.
Proof.
  intros H H1 H2 j. rewrite H. destruct (h !! j) eqn:E; [|reflexivity].
  rewrite (H1 _ _ E), (H2 _ _ E). reflexivity.
Qed.
Lemma edited_lookup h h' fp fk j n :
  edited h h' fp fk -> h !! j = Some n ->
  h' !! j = Some (MkNode (n_cls n) (fp j (n_parent n)) (fk j (n_children n)) (n_attrs n)).
Proof. intros H E. rewrite H, E. reflexivity. Qed.
Lemma edited_lookup_inv h h' fp fk j n' :
  edited h h' fp fk -> h' !! j = Some n' ->
  exists n, h !! j = Some n /\
    n' = MkNode (n_cls n) (fp j (n_parent n)) (fk j (n_children n)) (n_attrs n).
Proof. intros H E. rewrite H in E. destruct (h !! j); [|discriminate]. injection E as <-. eauto. Qed.

Lemma iterM_cons_ok {A} (f : A -> M unit) a r s s' u :
  iterM f (a :: r) s = (s', Ok u) ->
  exists s1, f a s = (s1, Ok tt) /\ iterM f r s1 = (s', Ok tt).
Proof. simpl. intros H. msteps. destruct a0, u. eauto. Qed.

Lemma append_ok p cs : forall s s' u,
  append p cs s = (s', Ok u) ->
  same_rest s s' /\
  edited (st_heap s) (st_heap s') (fun j q => if decide (j ∈ cs) then Some p else q)
    (fun j l => if decide (j = p) then l ++ cs else l) /\
  NoDup cs /\
  (cs <> [] -> exists np, st_heap s !! p = Some np /\ has_children (n_cls np) = true) /\
  (forall c, In c cs -> exists np nc, st_heap s !! p = Some np /\ st_heap s !! c = Some nc /\
    n_parent nc = None /\ permitted (n_cls nc) (n_cls np)).
Proof.
  unfold append. induction cs as [|c cs IH]; intros s s' u H.
  - simpl in H. msteps. split; [auto|]. split; [|split; [constructor|split; [done|intros ? []]]].
    eapply edited_ext; [apply edited_refl| |]; intros j n _.
    + rewrite decide_False; [reflexivity|]. inversion 1.
    + destruct (decide (j = p)); [rewrite app_nil_r|]; reflexivity.
  - apply iterM_cons_ok in H as (s1 & H1 & H).
    apply append1_ok in H1 as (Hr1 & He1 & np & nc & Hp & Hc & Hhc & Hpar & Hperm).
    apply IH in H as (Hr & He & Hnd & Hcs & Hall).
    split; [eapply same_rest_trans; eassumption|].
    assert (c ∉ cs) as Hnotin.
    { intros Hin. apply elem_of_list_In in Hin. destruct (Hall _ Hin) as (_ & nc' & _ & Hc' & Hp' & _).
      rewrite (edited_lookup _ _ _ _ _ _ He1 Hc) in Hc'. injection Hc' as <-. simpl in Hp'.
      rewrite decide_True in Hp' by reflexivity. discriminate. }
    split; [|split; [constructor; assumption|split]].
    + eapply edited_ext; [eapply edited_trans; eassumption| |]; intros j n Hj; simpl.
      * destruct (decide (j ∈ cs)) as [Hin|Hin].
        -- rewrite decide_True; [reflexivity|]. constructor. assumption.
        -- destruct (decide (j = c)) as [->|Hne].
           ++ rewrite decide_True; [reflexivity|]. constructor.
           ++ rewrite decide_False; [reflexivity|]. rewrite elem_of_cons. tauto.
      * destruct (decide (j = p)); [|reflexivity]. rewrite <- app_assoc. reflexivity.
    + intros _. eauto.
    + intros d [<-|Hd]; [eauto 8|].
      destruct (Hall _ Hd) as (np' & nd & Hp' & Hd' & Hdp & Hdperm).
      apply (edited_lookup_inv _ _ _ _ _ _ He1) in Hp' as (np1 & Hp1 & ->).
      apply (edited_lookup_inv _ _ _ _ _ _ He1) in Hd' as (nd1 & Hd1 & ->).
      exists np1, nd1. simpl in *. repeat split; try assumption.
      destruct (decide (d = c)); [discriminate|assumption].
Qed.

(** A child that already has a parent is refused and nothing changes. *)
Lemma append1_owned p c s np nc q :
  st_heap s !! p = Some np -> has_children (n_cls np) = true ->
  st_heap s !! c = Some nc -> n_parent nc = Some q ->
  exists m, append1 p c s = (s, Err (ENode m)).
Proof.
  intros Hp Hhc Hc Hq. unfold append1, raw_children, parent_of, bind.
  rewrite (get_node_eq _ _ _ Hp), Hhc. simpl. rewrite (get_node_eq _ _ _ Hc). simpl.
  rewrite Hq. eexists. reflexivity.
Qed.

(** ** prepend *)

Lemma prepend1_ok p c s s' u :
  prepend1 p c s = (s', Ok u) ->
  same_rest s s' /\
  edited (st_heap s) (st_heap s') (fun j q => if decide (j = c) then Some p else q)
    (fun j l => if decide (j = p) then c :: l else l) /\
  exists np nc, st_heap s !! p = Some np /\ st_heap s !! c = Some nc /\
    has_children (n_cls np) = true /\ (n_parent nc = None \/ n_parent nc = Some p) /\
    permitted (n_cls nc) (n_cls np).
Proof.
  unfold prepend1. intros H. msteps.
  assert (Hpar : n_parent n0 = None \/ n_parent n0 = Some p).
  { destruct (n_parent n0) as [q|]; [|auto]. destruct (Nat.eqb_spec q p); [subst; auto|discriminate]. }
  assert (H' : (do! set_raw_children p (c :: n_children n) in set_parent c (Some p)) s = (s', Ok u)).
  { destruct (n_parent n0) as [q|]; [|exact H]. destruct (Nat.eqb q p); [exact H|discriminate]. }
  clear H. rename H' into H. msteps.
  apply set_parent_some_ok in H as (m & Hm & -> & Hpp).
  assert (n1 = n) as -> by congruence.
  split; [|split].
  - eapply same_rest_trans; apply same_rest_upd.
  - intros j. rewrite upd_lookup. rewrite upd_lookup in Hm.
    destruct (decide (c = j)) as [<-|Hc].
    + destruct (decide (p = c)) as [->|Hne].
      * injection Hm as <-. rewrite H0. simpl. rewrite !decide_True by reflexivity. reflexivity.
      * rewrite Hm. rewrite decide_True by reflexivity.
        rewrite decide_False by congruence. reflexivity.
    + rewrite upd_lookup. destruct (decide (p = j)) as [<-|Hp].
      * rewrite H0. rewrite decide_False by congruence. rewrite decide_True by reflexivity.
        reflexivity.
      * destruct (st_heap s !! j) as [[]|]; [|reflexivity].
        rewrite !decide_False by congruence. reflexivity.
  - exists n, n0. repeat split; try assumption.
    unfold permitted. rewrite upd_lookup in Hm. rewrite upd_lookup in Hpp.
    rewrite decide_True in Hpp by reflexivity.
    assert (n_cls m = n_cls n0) as Hcm.
    { destruct (decide (p = c)) as [->|]; [|congruence].
      injection Hm as <-. simpl. congruence. }
    rewrite Hcm in Hpp. destruct Hpp as [Hpp|(m' & [= <-] & Hpp)]; auto.
Qed.

Lemma prepend_go_ok p cs : forall s s' u,
  iterM (prepend1 p) cs s = (s', Ok u) ->
  same_rest s s' /\
  edited (st_heap s) (st_heap s') (fun j q => if decide (j ∈ cs) then Some p else q)
    (fun j l => if decide (j = p) then rev cs ++ l else l) /\
  (cs <> [] -> exists np, st_heap s !! p = Some np /\ has_children (n_cls np) = true) /\
  (forall c, In c cs -> exists np nc, st_heap s !! p = Some np /\ st_heap s !! c = Some nc /\
    (n_parent nc = None \/ n_parent nc = Some p) /\ permitted (n_cls nc) (n_cls np)).
Proof.
  induction cs as [|c cs IH]; intros s s' u H.
  - simpl in H. msteps. split; [auto|]. split; [|split; [done|intros ? []]].
    eapply edited_ext; [apply edited_refl| |]; intros j n _.
    + rewrite decide_False; [reflexivity|]. inversion 1.
    + destruct (decide (j = p)); reflexivity.
  - apply iterM_cons_ok in H as (s1 & H1 & H).
    apply prepend1_ok in H1 as (Hr1 & He1 & np & nc & Hp & Hc & Hhc & Hpar & Hperm).
    apply IH in H as (Hr & He & Hcs & Hall).
    split; [eapply same_rest_trans; eassumption|].
    split; [|split].
    + eapply edited_ext; [eapply edited_trans; eassumption| |]; intros j n Hj; simpl.
      * destruct (decide (j ∈ cs)) as [Hin|Hin].
        -- rewrite decide_True; [reflexivity|]. constructor. assumption.
        -- destruct (decide (j = c)) as [->|Hne].
           ++ rewrite decide_True; [reflexivity|]. constructor.
           ++ rewrite decide_False; [reflexivity|]. rewrite elem_of_cons. tauto.
      * destruct (decide (j = p)); [|reflexivity]. rewrite <- app_assoc. reflexivity.
    + intros _. eauto.
    + intros d [<-|Hd]; [eauto 8|].
      destruct (Hall _ Hd) as (np' & nd & Hp' & Hd' & Hdp & Hdperm).
      apply (edited_lookup_inv _ _ _ _ _ _ He1) in Hp' as (np1 & Hp1 & ->).
      apply (edited_lookup_inv _ _ _ _ _ _ He1) in Hd' as (nd1 & Hd1 & ->).
      exists np1, nd1. simpl in *. repeat split; try assumption.
      destruct (decide (d = c)) as [->|]; [|assumption].
      assert (nd1 = nc) as -> by congruence. assumption.
Qed.
Lemma prepend_ok p cs s s' u :
  prepend p cs s = (s', Ok u) ->
  same_rest s s' /\
  edited (st_heap s) (st_heap s') (fun j q => if decide (j ∈ cs) then Some p else q)
    (fun j l => if decide (j = p) then cs ++ l else l) /\
  (cs <> [] -> exists np, st_heap s !! p = Some np /\ has_children (n_cls np) = true) /\
  (forall c, In c cs -> exists np nc, st_heap s !! p = Some np /\ st_heap s !! c = Some nc /\
    (n_parent nc = None \/ n_parent nc = Some p) /\ permitted (n_cls nc) (n_cls np)).
Proof.
  intros H. apply prepend_go_ok in H as (Hr & He & Hp & Hall).
  split; [assumption|]. split; [|split].
  - eapply edited_ext; [exact He| |]; intros j n _.
    + apply decide_ext. rewrite !elem_of_list_In, <- in_rev. reflexivity.
    + rewrite rev_involutive. reflexivity.
  - intros Hcs. apply Hp. intros E. apply Hcs.
    rewrite <- (rev_involutive cs), E. reflexivity.
  - intros c Hc. apply Hall. apply in_rev. rewrite rev_involutive. assumption.
Qed.
Lemma prepend1_owned p c s np nc q :
  st_heap s !! p = Some np -> has_children (n_cls np) = true ->
  st_heap s !! c = Some nc -> n_parent nc = Some q -> q <> p ->
  exists m, prepend1 p c s = (s, Err (ENode m)).
Proof.
  intros Hp Hhc Hc Hq Hne. unfold prepend1, raw_children, parent_of, bind.
  rewrite (get_node_eq _ _ _ Hp), Hhc. simpl. rewrite (get_node_eq _ _ _ Hc). simpl.
  rewrite Hq. apply Nat.eqb_neq in Hne. rewrite Hne. eexists. reflexivity.
Qed.

(** ** remove *)

Lemma index_of_some x l k :
  index_of x l = Some k ->
  exists l1 l2, l = l1 ++ x :: l2 /\ length l1 = k /\ x ∉ l1.
Proof.
  revert k. induction l as [|y r IH]; intros k; simpl; [discriminate|].
  destruct (Nat.eqb_spec x y) as [->|Hne].
  - intros [= <-]. exists [], r. repeat split. inversion 1.
  - destruct (index_of x r) as [k'|]; [|discriminate]. intros [= <-].
    destruct (IH _ eq_refl) as (l1 & l2 & -> & <- & Hnin).
    exists (y :: l1), l2. repeat split. rewrite elem_of_cons. tauto.
Qed.
Lemma index_of_app x l1 l2 : x ∉ l1 -> index_of x (l1 ++ x :: l2) = Some (length l1).
Proof.
  induction l1 as [|y r IH]; intros Hn; simpl.
  - rewrite Nat.eqb_refl. reflexivity.
  - rewrite elem_of_cons in Hn. destruct (Nat.eqb_spec x y) as [->|Hne]; [tauto|].
    rewrite IH by tauto. reflexivity.
Qed.
Lemma index_of_none x l : index_of x l = None <-> x ∉ l.
Proof.
  induction l as [|y r IH]; simpl; [split; [intros _; inversion 1|reflexivity]|].
  rewrite elem_of_cons. destruct (Nat.eqb_spec x y) as [->|Hne].
  - split; [discriminate|tauto].
  - destruct (index_of x r); split; try discriminate; try tauto.
    intros Hn. destruct IH as [_ IH]. assert (x ∉ r) as Hr by tauto. apply IH in Hr. discriminate.
Qed.
Lemma delete_at_app x l1 l2 : delete_at (length l1) (l1 ++ x :: l2) = l1 ++ l2.
Proof.
  unfold delete_at. rewrite take_app. f_equal.
  rewrite (drop_app_ge l1) by lia. replace (S (length l1) - length l1) with 1 by lia. reflexivity.
Qed.
Lemma insert_at_app x (l1 l2 : list id) : insert_at (length l1) x (l1 ++ l2) = l1 ++ x :: l2.
Proof. unfold insert_at. rewrite take_app, drop_app. reflexivity. Qed.

Lemma remove_ok p c s s' u :
  remove p c s = (s', Ok u) ->
  same_rest s s' /\
  exists np nc l1 l2, st_heap s !! p = Some np /\ st_heap s !! c = Some nc /\
    has_children (n_cls np) = true /\
    n_children np = l1 ++ c :: l2 /\ c ∉ l1 /\
    edited (st_heap s) (st_heap s') (fun j q => if decide (j = c) then None else q)
      (fun j l => if decide (j = p) then l1 ++ l2 else l).
Proof.
  unfold remove. intros H. msteps. destruct (index_of c (n_children n)) as [k|] eqn:E; [|discriminate].
  apply index_of_some in E as (l1 & l2 & El & <- & Hn). msteps.
  assert (n0 = n) as -> by congruence.
  apply set_parent_none_ok in H as (m & Hm & ->).
  split; [eapply same_rest_trans; apply same_rest_upd|].
  assert (exists nc, st_heap s !! c = Some nc) as [nc Hc].
  { rewrite upd_lookup in Hm. destruct (decide (p = c)) as [->|]; eauto. }
  exists n, nc, l1, l2. repeat split; try assumption.
  intros j. rewrite upd_lookup. rewrite upd_lookup in Hm. rewrite El, delete_at_app in *.
  destruct (decide (c = j)) as [<-|Hcj].
  - rewrite Hc. rewrite decide_True by reflexivity. destruct (decide (p = c)) as [->|Hne].
    + injection Hm as <-. rewrite H0 in Hc. injection Hc as <-.
      rewrite decide_True by reflexivity. reflexivity.
    + rewrite Hc in Hm. injection Hm as <-. rewrite decide_False by congruence. reflexivity.
  - rewrite upd_lookup. destruct (decide (p = j)) as [<-|Hp].
    + rewrite H0. rewrite decide_False by congruence. rewrite decide_True by reflexivity. reflexivity.
    + destruct (st_heap s !! j) as [[]|]; [|reflexivity].
      rewrite !decide_False by congruence. reflexivity.
Qed.
Lemma remove_absent p c s np :
  st_heap s !! p = Some np -> has_children (n_cls np) = true -> c ∉ n_children np ->
  remove p c s = (s, Err EValue).
Proof.
  intros Hp Hhc Hc. unfold remove, raw_children, bind. rewrite (get_node_eq _ _ _ Hp), Hhc. simpl.
  apply index_of_none in Hc. rewrite Hc. reflexivity.
Qed.

Lemma remove_self_ok c s s' u :
  remove_self c s = (s', Ok u) ->
  same_rest s s' /\
  exists nc, st_heap s !! c = Some nc /\
    match n_parent nc with
    | None => s' = s
    | Some p => exists np l1 l2, st_heap s !! p = Some np /\
        has_children (n_cls np) = true /\
        n_children np = l1 ++ c :: l2 /\ c ∉ l1 /\
        edited (st_heap s) (st_heap s') (fun j q => if decide (j = c) then None else q)
          (fun j l => if decide (j = p) then l1 ++ l2 else l)
    end.
Proof.
  unfold remove_self. intros H. msteps. destruct (n_parent n) as [p|] eqn:Ep.
  - msteps. apply remove_ok in H1 as (Hr & np & nc & l1 & l2 & Hp & Hc & Hhc & El & Hn & He).
    apply set_parent_none_ok in H as (m & Hm & ->).
    split; [eapply same_rest_trans; [eassumption|apply same_rest_upd]|].
    exists n. split; [assumption|]. rewrite Ep. exists np, l1, l2. repeat split; try assumption.
    intros j. rewrite upd_lookup. destruct (decide (c = j)) as [<-|Hne]; [|apply He].
    rewrite <- (He c), Hm. rewrite He, Hc in Hm. injection Hm as <-. simpl.
    rewrite !decide_True by reflexivity. reflexivity.
  - msteps. split; [auto|]. exists n. rewrite Ep. auto.
Qed.

(** ** clear *)

Lemma iter_detach_ok cs : forall s s' u,
  iterM (fun c => set_parent c None) cs s = (s', Ok u) ->
  same_rest s s' /\
  edited (st_heap s) (st_heap s') (fun j q => if decide (j ∈ cs) then None else q) (fun j l => l) /\
  Forall (fun c => is_Some (st_heap s !! c)) cs.
Proof.
  induction cs as [|c cs IH]; intros s s' u H.
  - simpl in H. msteps. split; [auto|]. split; [|constructor].
    eapply edited_ext; [apply edited_refl| |]; intros j n _; [|reflexivity].
    rewrite decide_False; [reflexivity|]. inversion 1.
  - apply iterM_cons_ok in H as (s1 & H1 & H).
    apply set_parent_none_ok in H1 as (n & Hc & ->).
    apply IH in H as (Hr & He & Hall).
    split; [eapply same_rest_trans; [apply same_rest_upd|eassumption]|]. split.
    + intros j. rewrite He, upd_lookup. destruct (decide (c = j)) as [<-|Hne].
      * rewrite Hc. simpl. rewrite (decide_True (P := c ∈ c :: cs)) by constructor.
        destruct (decide (c ∈ cs)); reflexivity.
      * destruct (st_heap s !! j) as [[]|]; [|reflexivity]. simpl.
        destruct (decide (j ∈ cs)) as [Hin|Hin].
        -- rewrite decide_True; [reflexivity|]. constructor. assumption.
        -- rewrite decide_False; [reflexivity|]. rewrite elem_of_cons. intros [->|?]; tauto.
    + constructor; [eauto|]. eapply Forall_impl; [|exact Hall]. intros x [m Hm].
      rewrite upd_lookup in Hm. destruct (decide (c = x)) as [<-|]; eauto.
Qed.
Lemma clear_ok p s s' u :
  clear p s = (s', Ok u) ->
  same_rest s s' /\
  exists np, st_heap s !! p = Some np /\ has_children (n_cls np) = true /\
    edited (st_heap s) (st_heap s')
      (fun j q => if decide (j ∈ n_children np) then None else q)
      (fun j l => if decide (j = p) then [] else l).
Proof.
  unfold clear. intros H. msteps. apply iter_detach_ok in H2 as (Hr & He & Hall).
  split; [eapply same_rest_trans; [eassumption|apply same_rest_upd]|].
  exists n. repeat split; try assumption.
  intros j. rewrite upd_lookup. rewrite He in H. destruct (decide (p = j)) as [<-|Hne].
  - rewrite H0 in *. injection H as <-. rewrite (decide_True (P := p = p)) by reflexivity. reflexivity.
  - rewrite He. destruct (st_heap s !! j); [|reflexivity]. rewrite (decide_False (P := j = p)) by congruence. reflexivity.
Qed.

(** ** replace_self *)

Lemma insert_all_ok q reps : forall k s s' u l1 l2 nq,
  insert_all q k reps s = (s', Ok u) ->
  st_heap s !! q = Some nq -> n_children nq = l1 ++ l2 -> length l1 = k ->
  same_rest s s' /\
  edited (st_heap s) (st_heap s') (fun j p => if decide (j ∈ reps) then Some q else p)
    (fun j l => if decide (j = q) then l1 ++ reps ++ l2 else l) /\
  (forall c, In c reps -> exists nc, st_heap s !! c = Some nc /\ permitted (n_cls nc) (n_cls nq)).
Proof.
  induction reps as [|r rs IH]; intros k s s' u l1 l2 nq H Hq El Hk.
  - simpl in H. msteps. split; [auto|]. split; [|intros ? []].
    eapply edited_ext; [apply edited_refl| |]; intros j n Hj.
    + rewrite decide_False; [reflexivity|]. inversion 1.
    + destruct (decide (j = q)) as [->|]; [|reflexivity]. simpl. congruence.
  - cbn [insert_all] in H. msteps. assert (n = nq) as -> by congruence. assert (n0 = nq) as -> by congruence.
    match goal with X : set_parent _ _ _ = _ |- _ => rename X into Hsp end.
    apply set_parent_some_ok in Hsp as (m & Hm & -> & Hpp).
    rewrite El, insert_at_app in *.
    rewrite upd_lookup in Hm. rewrite !upd_lookup in Hpp.
    assert (exists nr, st_heap s !! r = Some nr /\ n_cls m = n_cls nr) as (nr & Hnr & Hcm).
    { destruct (decide (q = r)) as [->|]; [|eauto]. injection Hm as <-. eauto. }
    assert (Hperm : permitted (n_cls nr) (n_cls nq)).
    { rewrite Hcm in Hpp. destruct Hpp as [?|(m' & Hm' & ?)]; [left; assumption|].
      rewrite decide_True in Hm' by reflexivity. injection Hm' as <-. right. assumption. }
    eapply (IH _ _ _ _ (l1 ++ [r]) l2 (if decide (r = q) then set_n_parent (Some q) m else set_n_children (l1 ++ r :: l2) nq)) in H as (Hr & He & Hall).
    2:{ rewrite upd_lookup. destruct (decide (r = q)) as [->|Hne].
        - reflexivity.
        - rewrite upd_lookup, decide_True by reflexivity. reflexivity. }
    2:{ destruct (decide (r = q)) as [->|].
        - simpl. rewrite decide_True in Hm by reflexivity. injection Hm as <-. simpl.
          rewrite <- app_assoc. reflexivity.
        - simpl. rewrite <- app_assoc. reflexivity. }
    2:{ rewrite app_length. simpl. lia. }
    split; [eapply same_rest_trans; [|eassumption]; split; reflexivity|].
    split.
    + intros j. rewrite He. rewrite upd_lookup. destruct (decide (r = j)) as [<-|Hrj].
      * rewrite Hnr. simpl. rewrite (decide_True (P := r ∈ r :: rs)) by constructor.
        destruct (decide (q = r)) as [->|Hne].
        -- injection Hm as <-. assert (nq = nr) as -> by congruence. simpl.
           rewrite !(decide_True (P := r = r)) by reflexivity. rewrite <- app_assoc. simpl.
           destruct (decide (r ∈ rs)); reflexivity.
        -- rewrite !(decide_False (P := r = q)) by congruence. simpl.
           assert (m = nr) as -> by congruence.
           destruct (decide (r ∈ rs)); reflexivity.
      * rewrite upd_lookup. destruct (decide (q = j)) as [<-|Hqj].
        -- rewrite Hq. simpl. rewrite !(decide_True (P := q = q)) by reflexivity.
           rewrite <- app_assoc. simpl.
           destruct (decide (q ∈ rs)) as [Hin|Hin].
           ++ rewrite decide_True by (constructor; assumption). reflexivity.
           ++ rewrite (decide_False (P := q ∈ r :: rs)); [reflexivity|]. rewrite elem_of_cons. intros [->|?]; tauto.
        -- destruct (st_heap s !! j) as [nj|]; [|reflexivity].
           rewrite !(decide_False (P := j = q)) by congruence.
           destruct (decide (j ∈ rs)) as [Hin|Hin].
           ++ rewrite decide_True by (constructor; assumption). reflexivity.
           ++ rewrite (decide_False (P := j ∈ r :: rs)); [reflexivity|]. rewrite elem_of_cons. intros [->|?]; tauto.
    + intros c [<-|Hc]; [eauto|]. destruct (Hall _ Hc) as (nc & Hnc & Hp).
      rewrite !upd_lookup in Hnc. 
      assert (n_cls (if decide (r = q) then set_n_parent (Some q) m else set_n_children (l1 ++ r :: l2) nq) = n_cls nq) as Hcq.
      { destruct (decide (r = q)) as [->|]; [|reflexivity]. simpl.
        rewrite decide_True in Hm by reflexivity. injection Hm as <-. reflexivity. }
      rewrite Hcq in Hp.
      destruct (decide (r = c)) as [<-|]; [exists nr; injection Hnc as <-; simpl in Hp; rewrite Hcm in Hp; auto|].
      destruct (decide (q = c)) as [<-|]; [|eauto].
      injection Hnc as <-. simpl in Hp. eauto.
Qed.

Lemma replace_self_ok i reps s s' u :
  replace_self i reps s = (s', Ok u) ->
  exists q s1 ni nq l1 l2,
    st_heap s !! i = Some ni /\ n_parent ni = Some q /\
    st_heap s !! q = Some nq /\ has_children (n_cls nq) = true /\
    n_children nq = l1 ++ i :: l2 /\ i ∉ l1 /\
    remove q i s = (s1, Ok tt) /\
    same_rest s s1 /\
    edited (st_heap s) (st_heap s1) (fun j p => if decide (j = i) then None else p)
      (fun j l => if decide (j = q) then l1 ++ l2 else l) /\
    same_rest s1 s' /\
    edited (st_heap s1) (st_heap s') (fun j p => if decide (j ∈ reps) then Some q else p)
      (fun j l => if decide (j = q) then l1 ++ reps ++ l2 else l) /\
    (forall c, In c reps -> exists nc, st_heap s !! c = Some nc /\ permitted (n_cls nc) (n_cls nq)).
Proof.
  unfold replace_self. intros H. msteps. destruct (n_parent n) as [q|] eqn:Ep; [|discriminate].
  msteps. destruct (index_of i (kids n0)) as [k|] eqn:E; [|discriminate].
  msteps. grab (remove _ _ _ = _) as HR. pose proof HR as Hrem. destruct a.
  apply remove_ok in HR as (Hr & np & nc & l1 & l2 & Hp & Hc & Hhc & El & Hn & He).
  assert (n0 = np) as -> by congruence. unfold kids in E. rewrite Hhc, El in E.
  rewrite index_of_app in E by assumption. injection E as <-.
  pose proof (edited_lookup _ _ _ _ _ _ He Hp) as Hp1. simpl in Hp1.
  rewrite (decide_True (P := q = q)) in Hp1 by reflexivity.
  eapply insert_all_ok in H as (Hr2 & He2 & Hall); [|exact Hp1|reflexivity|reflexivity].
  exists q, s0, n, np, l1, l2.
  split; [assumption|]. split; [assumption|]. split; [assumption|]. split; [assumption|].
  split; [assumption|]. split; [assumption|]. split; [assumption|]. split; [assumption|].
  split; [assumption|]. split; [assumption|]. split; [assumption|].
  intros c Hin. destruct (Hall _ Hin) as (m & Hm & Hperm).
  apply (edited_lookup_inv _ _ _ _ _ _ He) in Hm as (m0 & Hm0 & ->). simpl in Hperm. eauto.
Qed.
Lemma replace_self_root i reps s n :
  st_heap s !! i = Some n -> n_parent n = None ->
  exists m, replace_self i reps s = (s, Err (ENode m)).
Proof.
  intros H Hp. unfold replace_self, parent_of, bind. rewrite (get_node_eq _ _ _ H). simpl.
  rewrite Hp. eexists. reflexivity.
Qed.
