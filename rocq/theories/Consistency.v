(** Proofs that disciplined edits keep the tree consistent (C01, C13). *)
From Verif Require Export NodeProofs.

Lemma child_is_edited h h' fp fk x p :
  edited h h' fp fk ->
  child_is h' x p <->
  exists n, h !! p = Some n /\ has_children (n_cls n) = true /\ x ∈ fk p (n_children n).
Proof.
  intros He. unfold child_is, kids. split.
  - intros (n' & H & Hx). apply (edited_lookup_inv _ _ _ _ _ _ He) in H as (n & Hn & ->).
    simpl in Hx. destruct (has_children (n_cls n)) eqn:E; [eauto|inversion Hx].
  - intros (n & Hn & Hhc & Hx). eexists. split; [exact (edited_lookup _ _ _ _ _ _ He Hn)|].
    simpl. rewrite Hhc. assumption.
Qed.
Lemma parent_is_edited h h' fp fk x p :
  edited h h' fp fk ->
  parent_is h' x p <-> exists n, h !! x = Some n /\ fp x (n_parent n) = Some p.
Proof.
  intros He. unfold parent_is. split.
  - intros (n' & H & Hx). apply (edited_lookup_inv _ _ _ _ _ _ He) in H as (n & Hn & ->). eauto.
  - intros (n & Hn & Hx). eexists. split; [exact (edited_lookup _ _ _ _ _ _ He Hn)|assumption].
Qed.
Lemma child_is_alt h x p :
  child_is h x p <->
  exists n, h !! p = Some n /\ has_children (n_cls n) = true /\ x ∈ n_children n.
Proof. exact (child_is_edited h h _ _ x p (edited_refl h)). Qed.

Lemma ancestor_trans h x y z : ancestor h x y -> ancestor h y z -> ancestor h x z.
Proof. induction 1; intros; eapply anc_step; eauto. Qed.

(** Adding to [p] the nodes [cs], which have no parent. *)
Lemma consistent_link h h' p np (cs l' : list id) :
  consistent h ->
  h !! p = Some np -> has_children (n_cls np) = true ->
  edited h h' (fun j q => if decide (j ∈ cs) then Some p else q)
    (fun j l => if decide (j = p) then l' else l) ->
  NoDup l' ->
  (forall x, x ∈ l' <-> x ∈ n_children np \/ x ∈ cs) ->
  (forall c, c ∈ cs -> exists nc, h !! c = Some nc /\ n_parent nc = None) ->
  (forall c, c ∈ cs -> c <> p /\ ~ ancestor h p c) ->
  consistent h'.
Proof.
  intros [Hpar Hnd Hac] Hp Hhc He Hnd' Hl' Hdet Hanc.
  assert (Hpar' : forall x q, parent_is h' x q <-> parent_is h x q \/ (x ∈ cs /\ q = p)).
  { intros x q. rewrite (parent_is_edited _ _ _ _ _ _ He). split.
    - intros (n & Hn & E). destruct (decide (x ∈ cs)); [right; split; [assumption|congruence]|].
      left. exists n. auto.
    - intros [(n & Hn & E)|[Hin ->]].
      + exists n. split; [assumption|]. destruct (decide (x ∈ cs)) as [Hin|]; [|assumption].
        destruct (Hdet _ Hin) as (nc & Hc & Hnone). congruence.
      + destruct (Hdet _ Hin) as (nc & Hc & Hnone). exists nc. split; [assumption|].
        rewrite decide_True by assumption. reflexivity. }
  assert (Hancs : forall x y, ancestor h' x y ->
    ancestor h x y \/
    exists c, c ∈ cs /\ (x = c \/ ancestor h x c) /\ (p = y \/ ancestor h p y)).
  { intros x y H. induction H as [x q H|x q y H _ IH].
    - apply Hpar' in H as [H|[Hin ->]]; [left; constructor; assumption|right; eauto 6].
    - apply Hpar' in H as [H|[Hin ->]].
      + destruct IH as [IH|(c & Hin & Hqc & Hpy)].
        * left. eapply anc_step; eassumption.
        * right. exists c. split; [assumption|]. split; [|assumption]. right.
          destruct Hqc as [->|Hqc]; [constructor; assumption|eapply anc_step; eassumption].
      + destruct IH as [IH|(c & Hin' & Hqc & Hpy)].
        * right. eauto 8.
        * exfalso. destruct (Hanc _ Hin') as [H1 H2]. destruct Hqc; [congruence|auto]. }
  split.
  - intros x q. rewrite Hpar', <- Hpar. rewrite (child_is_edited _ _ _ _ _ _ He), child_is_alt.
    split.
    + intros (n & Hn & Hc & Hx). destruct (decide (q = p)) as [->|Hne]; [|left; eauto].
      apply Hl' in Hx as [Hx|Hx]; [left; assert (n = np) as -> by congruence; eauto|auto].
    + intros [(n & Hn & Hc & Hx)|[Hin ->]].
      * exists n. repeat split; try assumption. destruct (decide (q = p)) as [->|]; [|assumption].
        apply Hl'. left. congruence.
      * exists np. repeat split; try assumption. rewrite decide_True by reflexivity.
        apply Hl'. auto.
  - intros q n Hn. apply (edited_lookup_inv _ _ _ _ _ _ He) in Hn as (m & Hm & ->).
    unfold kids. simpl. specialize (Hnd _ _ Hm). unfold kids in Hnd.
    destruct (has_children (n_cls m)); [|constructor]. destruct (decide (q = p)); assumption.
  - intros x H. apply Hancs in H as [H|(c & Hin & Hx & Hy)]; [exact (Hac _ H)|].
    destruct (Hanc _ Hin) as [H1 H2].
    destruct Hx as [->|Hx], Hy as [->|Hy]; auto. apply H2. eapply ancestor_trans; eassumption.
Qed.

(** Detaching [cs] from [p]. *)
Lemma unlink_parents h h' p np (cs l' : list id) :
  edited h h' (fun j q => if decide (j ∈ cs) then None else q)
    (fun j l => if decide (j = p) then l' else l) ->
  h !! p = Some np ->
  forall x q, parent_is h' x q <-> parent_is h x q /\ x ∉ cs.
Proof.
  intros He Hp x q. rewrite (parent_is_edited _ _ _ _ _ _ He). split.
  - intros (n & Hn & E). destruct (decide (x ∈ cs)); [discriminate|]. split; [exists n|]; auto.
  - intros [(n & Hn & E) Hin]. exists n. rewrite decide_False by assumption. auto.
Qed.
Lemma unlink_ancestors h h' p np (cs l' : list id) :
  edited h h' (fun j q => if decide (j ∈ cs) then None else q)
    (fun j l => if decide (j = p) then l' else l) ->
  h !! p = Some np ->
  forall x y, ancestor h' x y -> ancestor h x y.
Proof.
  intros He Hp x y H. pose proof (unlink_parents _ _ _ _ _ _ He Hp) as Hpar.
  induction H as [x q H|x q y H _ IH].
  - constructor. apply Hpar, H.
  - eapply anc_step; [apply Hpar, H|assumption].
Qed.
Lemma consistent_unlink h h' p np (cs l' : list id) :
  consistent h ->
  h !! p = Some np -> has_children (n_cls np) = true ->
  edited h h' (fun j q => if decide (j ∈ cs) then None else q)
    (fun j l => if decide (j = p) then l' else l) ->
  NoDup l' ->
  (forall x, x ∈ l' <-> x ∈ n_children np /\ x ∉ cs) ->
  (forall c, c ∈ cs -> c ∈ n_children np) ->
  consistent h'.
Proof.
  intros [Hpar Hnd Hac] Hp Hhc He Hnd' Hl' Hcs.
  pose proof (unlink_parents _ _ _ _ _ _ He Hp) as Hpar'.
  assert (Hown : forall x q, x ∈ cs -> child_is h x q -> q = p).
  { intros x q Hin Hq. apply Hpar in Hq as (n & Hn & E).
    assert (child_is h x p) as Hc by (apply child_is_alt; eauto).
    apply Hpar in Hc as (n' & Hn' & E'). congruence. }
  split.
  - intros x q. rewrite Hpar', <- Hpar. rewrite (child_is_edited _ _ _ _ _ _ He).
    split.
    + intros (n & Hn & Hc & Hx). destruct (decide (q = p)) as [->|Hne].
      * apply Hl' in Hx as [Hx Hx']. assert (n = np) as -> by congruence.
        split; [apply child_is_alt; eauto|assumption].
      * assert (child_is h x q) as Hch by (apply child_is_alt; eauto).
        split; [assumption|]. intros Hin. apply Hne. eauto.
    + intros [Hch Hin]. pose proof Hch as (n & Hn & Hx)%child_is_alt. destruct Hx as [Hc Hx].
      exists n. repeat split; try assumption. destruct (decide (q = p)) as [->|]; [|assumption].
      apply Hl'. split; [congruence|assumption].
  - intros q n Hn. apply (edited_lookup_inv _ _ _ _ _ _ He) in Hn as (m & Hm & ->).
    unfold kids. simpl. specialize (Hnd _ _ Hm). unfold kids in Hnd.
    destruct (has_children (n_cls m)); [|constructor]. destruct (decide (q = p)); assumption.
  - intros x H. apply (unlink_ancestors _ _ _ _ _ _ He Hp) in H. exact (Hac _ H).
Qed.

Lemma nodup_mid (l1 l2 : list id) x :
  NoDup (l1 ++ x :: l2) <-> x ∉ l1 /\ x ∉ l2 /\ NoDup (l1 ++ l2).
Proof.
  rewrite !NoDup_app, list.NoDup_cons. split.
  - intros (H1 & H2 & H3 & H4). repeat split; try assumption.
    + intros H. apply (H2 _ H). constructor.
    + intros y Hy Hy'. apply (H2 _ Hy). constructor. assumption.
  - intros (H1 & H2 & H3 & H4 & H5). repeat split; try assumption.
    intros y Hy Hy'. apply elem_of_cons in Hy' as [->|Hy']; [auto|]. exact (H4 _ Hy Hy').
Qed.

Lemma edited_single_none h h' c (fk : id -> list id -> list id) :
  edited h h' (fun j q => if decide (j = c) then None else q) fk ->
  edited h h' (fun j q => if decide (j ∈ [c]) then None else q) fk.
Proof.
  intros He. eapply edited_ext; [exact He| |reflexivity].
  intros j n _. apply decide_ext. rewrite elem_of_list_singleton. reflexivity.
Qed.
Lemma consistent_unlink1 h h' p np c (l1 l2 : list id) :
  consistent h ->
  h !! p = Some np -> has_children (n_cls np) = true -> n_children np = l1 ++ c :: l2 ->
  edited h h' (fun j q => if decide (j = c) then None else q)
    (fun j l => if decide (j = p) then l1 ++ l2 else l) ->
  consistent h'.
Proof.
  intros Hc Hp Hhc El He. apply edited_single_none in He.
  pose proof (cons_nodup _ Hc _ _ Hp) as Hnd. unfold kids in Hnd. rewrite Hhc, El in Hnd.
  apply nodup_mid in Hnd as (H1 & H2 & Hnd).
  eapply consistent_unlink; eauto.
  - intros x. rewrite El, elem_of_list_singleton, !elem_of_app, elem_of_cons. split.
    + intros [H|H]; (split; [tauto|]); intros ->; auto.
    + intros [[H|[H|H]] Hne]; auto. contradiction.
  - intros x. rewrite El, elem_of_list_singleton, elem_of_app, elem_of_cons. auto.
Qed.

(** ** A history of edits *)




Lemma consistent_fresh s n :
  fresh_ok s -> consistent (st_heap s) -> n_parent n = None -> n_children n = [] ->
  consistent (st_heap (new s n)) /\ fresh_ok (new s n).
Proof.
  intros Hf Hc Hp Hch. split.
  - assert (Hnone : st_heap s !! st_next s = None).
    { destruct (st_heap s !! st_next s) eqn:E; [|reflexivity]. apply Hf in E. lia. }
    assert (Hpar : forall x q, parent_is (st_heap (new s n)) x q <-> parent_is (st_heap s) x q).
    { intros x q. unfold parent_is. setoid_rewrite new_lookup.
      destruct (decide (st_next s = x)) as [<-|]; [|reflexivity]. rewrite Hnone.
      split; intros (m & E & E'); congruence. }
    destruct Hc as [H1 H2 H3]. split.
    + intros x q. rewrite Hpar, <- H1. unfold child_is. setoid_rewrite new_lookup.
      destruct (decide (st_next s = q)) as [<-|]; [|reflexivity]. rewrite Hnone.
      split; intros (m & E & E'); [|discriminate]. injection E as <-.
      unfold kids in E'. rewrite Hch in E'. destruct (has_children _); inversion E'.
    + intros q m. rewrite new_lookup. destruct (decide (st_next s = q)); [|apply H2].
      intros [= <-]. unfold kids. rewrite Hch. destruct (has_children _); constructor.
    + intros x H. apply (H3 x). revert H. generalize x at 2 4. intros y H.
      induction H; [constructor; apply Hpar; assumption|eapply anc_step; [apply Hpar|]; eassumption].
  - intros i m. rewrite new_lookup. simpl. destruct (decide (st_next s = i)) as [<-|]; [lia|].
    intros H. apply Hf in H. lia.
Qed.

Lemma fresh_edited s s' fp fk :
  same_rest s s' -> edited (st_heap s) (st_heap s') fp fk -> fresh_ok s -> fresh_ok s'.
Proof.
  intros [Hn _] He Hf i n H. apply (edited_lookup_inv _ _ _ _ _ _ He) in H as (m & Hm & _).
  rewrite Hn. eauto.
Qed.

Lemma append_consistent p cs s s' u :
  consistent (st_heap s) -> usable (st_heap s) p cs ->
  append p cs s = (s', Ok u) -> consistent (st_heap s').
Proof.
  intros Hc [_ Hu] H. apply append_ok in H as (Hr & He & Hnd & Hp & Hall).
  destruct cs as [|c cs].
  - assert (same_heap (st_heap s) (st_heap s')) as Hsame.
    { intros j. rewrite He. destruct (st_heap s !! j) as [[]|]; [|reflexivity]. simpl.
      destruct (decide (j = p)); [rewrite app_nil_r|]; reflexivity. }
    apply map_eq in Hsame. rewrite Hsame. assumption.
  - destruct Hp as (np & Hp & Hhc); [discriminate|].
    eapply (consistent_link _ _ p np (c :: cs) (n_children np ++ c :: cs)); eauto.
    + eapply edited_ext; [exact He|reflexivity|]. intros j n Hj. simpl.
      destruct (decide (j = p)) as [->|]; [|reflexivity]. congruence.
    + apply NoDup_app. split; [|split; [|assumption]].
      * pose proof (cons_nodup _ Hc _ _ Hp) as H. unfold kids in H. rewrite Hhc in H. assumption.
      * intros x Hx Hx'. destruct (Hu _ Hx') as ((n & Hn & Hnone) & _).
        assert (child_is (st_heap s) x p) as Hch by (apply child_is_alt; eauto).
        apply (cons_parent _ Hc) in Hch as (n' & Hn' & E). congruence.
    + intros x. apply elem_of_app.
    + intros x Hx. apply Hu in Hx as [? _]. assumption.
    + intros x Hx. apply Hu in Hx as [_ ?]. assumption.
Qed.
Lemma prepend_consistent p cs s s' u :
  consistent (st_heap s) -> usable (st_heap s) p cs ->
  prepend p cs s = (s', Ok u) -> consistent (st_heap s').
Proof.
  intros Hc [Hnd Hu] H. apply prepend_ok in H as (Hr & He & Hp & Hall).
  destruct cs as [|c cs].
  - assert (same_heap (st_heap s) (st_heap s')) as Hsame.
    { intros j. rewrite He. destruct (st_heap s !! j) as [[]|]; [|reflexivity]. simpl.
      destruct (decide (j = p)); reflexivity. }
    apply map_eq in Hsame. rewrite Hsame. assumption.
  - destruct Hp as (np & Hp & Hhc); [discriminate|].
    eapply (consistent_link _ _ p np (c :: cs) ((c :: cs) ++ n_children np)); eauto.
    + eapply edited_ext; [exact He|reflexivity|]. intros j n Hj. simpl.
      destruct (decide (j = p)) as [->|]; [|reflexivity]. congruence.
    + apply NoDup_app. split; [assumption|split].
      * intros x Hx' Hx. destruct (Hu _ Hx') as ((n & Hn & Hnone) & _).
        assert (child_is (st_heap s) x p) as Hch by (apply child_is_alt; eauto).
        apply (cons_parent _ Hc) in Hch as (n' & Hn' & E). congruence.
      * pose proof (cons_nodup _ Hc _ _ Hp) as H. unfold kids in H. rewrite Hhc in H. assumption.
    + intros x. rewrite elem_of_app. tauto.
    + intros x Hx. apply Hu in Hx as [? _]. assumption.
    + intros x Hx. apply Hu in Hx as [_ ?]. assumption.
Qed.
Lemma remove_consistent p c s s' u :
  consistent (st_heap s) -> remove p c s = (s', Ok u) -> consistent (st_heap s').
Proof.
  intros Hc H. apply remove_ok in H as (Hr & np & nc & l1 & l2 & Hp & Hcc & Hhc & El & Hn & He).
  exact (consistent_unlink1 _ _ _ _ _ _ _ Hc Hp Hhc El He).
Qed.
Lemma remove_self_consistent c s s' u :
  consistent (st_heap s) -> remove_self c s = (s', Ok u) -> consistent (st_heap s').
Proof.
  intros Hc H. apply remove_self_ok in H as (Hr & nc & Hcc & H).
  destruct (n_parent nc) as [p|]; [|subst; assumption].
  destruct H as (np & l1 & l2 & Hp & Hhc & El & Hn & He).
  exact (consistent_unlink1 _ _ _ _ _ _ _ Hc Hp Hhc El He).
Qed.
Lemma clear_consistent p s s' u :
  consistent (st_heap s) -> clear p s = (s', Ok u) -> consistent (st_heap s').
Proof.
  intros Hc H. apply clear_ok in H as (Hr & np & Hp & Hhc & He).
  eapply (consistent_unlink _ _ p np (n_children np) []); eauto.
  - constructor.
  - intros x. split; [inversion 1|tauto].
Qed.
Lemma replace_self_consistent x rs s s' u :
  consistent (st_heap s) -> (forall p, parent_is (st_heap s) x p -> usable (st_heap s) p rs) ->
  replace_self x rs s = (s', Ok u) -> consistent (st_heap s').
Proof.
  intros Hc Hu H.
  apply replace_self_ok in H
    as (q & s1 & ni & nq & l1 & l2 & Hi & Hpi & Hq & Hhc & El & Hn & Hrem & Hr1 & He1 & Hr2 & He2 & Hall).
  assert (consistent (st_heap s1)) as Hc1 by (eapply remove_consistent; eassumption).
  destruct (Hu q) as [Hnd Hus]; [exists ni; auto|].
  pose proof (edited_lookup _ _ _ _ _ _ He1 Hq) as Hq1. simpl in Hq1.
  rewrite (decide_True (P := q = q)) in Hq1 by reflexivity.
  assert (Hdet : forall c, c ∈ rs -> exists nc, st_heap s1 !! c = Some nc /\ n_parent nc = None).
  { intros c Hin. destruct (Hus _ Hin) as ((n & Hcn & Hnone) & _).
    eexists. split; [exact (edited_lookup _ _ _ _ _ _ He1 Hcn)|]. simpl.
    destruct (decide (c = x)); auto. }
  eapply (consistent_link _ _ q _ rs (l1 ++ rs ++ l2)); eauto.
  - pose proof (cons_nodup _ Hc1 _ _ Hq1) as Hnd1. unfold kids in Hnd1. simpl in Hnd1.
    rewrite Hhc in Hnd1. apply NoDup_app in Hnd1 as (N1 & N2 & N3).
    assert (Hdisj : forall c, c ∈ rs -> c ∉ l1 ++ l2).
    { intros c Hin Hin'. destruct (Hdet _ Hin) as (nc & Hcn & Hnone).
      assert (child_is (st_heap s1) c q) as Hch by (apply child_is_alt; eauto).
      apply (cons_parent _ Hc1) in Hch as (n' & Hn' & E). congruence. }
    apply NoDup_app. split; [assumption|]. split.
    + intros y Hy. rewrite elem_of_app. intros [Hy'|Hy']; [|eapply N2; eassumption].
      apply (Hdisj _ Hy'). apply elem_of_app. auto.
    + apply NoDup_app. split; [assumption|]. split; [|assumption].
      intros y Hy Hy'. apply (Hdisj _ Hy). apply elem_of_app. auto.
  - intros y. simpl. rewrite !elem_of_app. tauto.
  - intros c Hin. destruct (Hus _ Hin) as (_ & Hne & Hna). split; [assumption|].
    intros Ha. apply Hna. eapply unlink_ancestors; [|exact Hq|exact Ha].
    eapply edited_single_none. exact He1.
Qed.

Lemma edit_fresh e s s' u :
  fresh_ok s -> run_edit e s = (s', Ok u) -> fresh_ok s'.
Proof.
  intros Hf H. destruct e; simpl in H.
  - msteps. intros i m. rewrite new_lookup. simpl. destruct (decide (st_next s = i)) as [<-|]; [lia|].
    intros H. apply Hf in H. lia.
  - apply append_ok in H as (Hr & He & _). eapply fresh_edited; eassumption.
  - apply prepend_ok in H as (Hr & He & _). eapply fresh_edited; eassumption.
  - apply remove_ok in H as (Hr & np & nc & l1 & l2 & Hp & Hcc & Hhc & El & Hn & He).
    eapply fresh_edited; eassumption.
  - apply remove_self_ok in H as (Hr & nc & Hcc & H).
    destruct (n_parent nc) as [p|]; [|subst; assumption].
    destruct H as (np & l1 & l2 & Hp & Hhc & El & Hn & He). eapply fresh_edited; eassumption.
  - apply clear_ok in H as (Hr & np & Hp & Hhc & He). eapply fresh_edited; eassumption.
  - apply replace_self_ok in H
      as (q & s1 & ni & nq & l1 & l2 & Hi & Hpi & Hq & Hhc & El & Hn & Hrem & Hr1 & He1 & Hr2 & He2 & Hall).
    eapply fresh_edited; [eassumption|eassumption|]. eapply fresh_edited; eassumption.
Qed.

Lemma edit_consistent e s s' u :
  fresh_ok s -> consistent (st_heap s) -> respects (st_heap s) e ->
  run_edit e s = (s', Ok u) -> consistent (st_heap s').
Proof.
  intros Hf Hc Hr H. destruct e; simpl in H, Hr.
  - msteps. apply consistent_fresh; auto.
  - eapply append_consistent; eassumption.
  - eapply prepend_consistent; eassumption.
  - eapply remove_consistent; eassumption.
  - eapply remove_self_consistent; eassumption.
  - eapply clear_consistent; eassumption.
  - eapply replace_self_consistent; eassumption.
Qed.

(** ** Permitted parents: every edit, successful or refused, disciplined or not *)

(** A stronger invariant: parents exist. *)
Definition parents_ok (s : st) : Prop :=
  fresh_ok s /\
  forall x n p, st_heap s !! x = Some n -> n_parent n = Some p ->
    exists m, st_heap s !! p = Some m /\ permitted (n_cls n) (n_cls m).
Lemma parents_ok_permitted s : parents_ok s -> parents_permitted (st_heap s).
Proof.
  intros [_ H] x n p m Hx Hp Hm. destruct (H _ _ _ Hx Hp) as (m' & Hm' & Hperm).
  assert (m' = m) as -> by congruence. exact Hperm.
Qed.

Definition keeps {A} (P : st -> Prop) (m : M A) : Prop := forall s, P s -> P (m s).1.
Lemma keeps_ret {A} P (a : A) : keeps P (ret a).
Proof. intros s H. exact H. Qed.
Lemma keeps_raise {A} P e : keeps P (raise (A := A) e).
Proof. intros s H. exact H. Qed.
Lemma keeps_bind {A B} P (m : M A) (k : A -> M B) :
  keeps P m -> (forall a, keeps P (k a)) -> keeps P (bind m k).
Proof.
  intros Hm Hk s H. unfold bind. specialize (Hm s H). destruct (m s) as [s1 [a|e]]; [|exact Hm].
  apply Hk. exact Hm.
Qed.
Lemma keeps_iterM {A} P (f : A -> M unit) l : (forall a, keeps P (f a)) -> keeps P (iterM f l).
Proof.
  intros Hf. induction l; [apply keeps_ret|]. simpl. apply keeps_bind; [apply Hf|intros _; assumption].
Qed.
Lemma keeps_get_node P i : keeps P (get_node i).
Proof. intros s H. unfold get_node. destruct (st_heap s !! i); exact H. Qed.

Lemma parents_ok_upd s i n n' :
  parents_ok s -> st_heap s !! i = Some n -> n_cls n' = n_cls n ->
  (forall p, n_parent n' = Some p -> n_parent n = Some p \/
     exists m, st_heap s !! p = Some m /\ permitted (n_cls n) (n_cls m)) ->
  parents_ok (upd s i n').
Proof.
  intros [Hf Hp] Hi Hc Hpar. split.
  - intros j m. rewrite upd_lookup. simpl. destruct (decide (i = j)) as [<-|]; eauto.
  - assert (Hkeep : forall q m, st_heap s !! q = Some m ->
      exists m', st_heap (upd s i n') !! q = Some m' /\ n_cls m' = n_cls m).
    { intros q m Hq. rewrite upd_lookup. destruct (decide (i = q)) as [<-|]; [|eauto].
      exists n'. split; [reflexivity|]. congruence. }
    assert (Hgoal : forall c p, (exists m, st_heap s !! p = Some m /\ permitted c (n_cls m)) ->
      exists m, st_heap (upd s i n') !! p = Some m /\ permitted c (n_cls m)).
    { intros c p (m & Hm & Hperm). destruct (Hkeep _ _ Hm) as (m' & Hm' & E).
      exists m'. rewrite E. auto. }
    intros x m p. rewrite upd_lookup. destruct (decide (i = x)) as [<-|].
    + intros [= <-] E. apply Hgoal. rewrite Hc.
      destruct (Hpar _ E) as [E'|?]; [exact (Hp _ _ _ Hi E')|assumption].
    + intros Hx E. apply Hgoal. exact (Hp _ _ _ Hx E).
Qed.
Lemma keeps_set_children i cs : keeps parents_ok (set_raw_children i cs).
Proof.
  intros s H. unfold set_raw_children, mod_node, bind, get_node.
  destruct (st_heap s !! i) as [n|] eqn:E; [|exact H]. simpl.
  apply (parents_ok_upd _ _ n); auto.
Qed.
Lemma keeps_detach i : keeps parents_ok (set_parent i None).
Proof.
  intros s H. unfold set_parent, mod_node, bind, get_node.
  destruct (st_heap s !! i) as [n|] eqn:E; [|exact H]. simpl.
  apply (parents_ok_upd _ _ n); auto. discriminate.
Qed.
Lemma parents_ok_set_parent s i p m :
  parents_ok s -> st_heap s !! p = Some m -> parents_ok (set_parent i (Some p) s).1.
Proof.
  intros H Hp. destruct (set_parent i (Some p) s) as [s' [[]|e]] eqn:E.
  - apply set_parent_some_ok in E as (n & Hn & -> & Hpp).
    apply (parents_ok_upd _ _ n); auto. intros q [= <-]. right. exists m. split; [assumption|].
    destruct Hpp as [?|(m' & Hm' & ?)]; [left; assumption|right; congruence].
  - apply set_parent_err in E as ->. exact H.
Qed.
Lemma parents_ok_set_parent_after s p cs i m :
  parents_ok s -> st_heap s !! p = Some m ->
  parents_ok ((do! set_raw_children p cs in set_parent i (Some p)) s).1.
Proof.
  intros H Hp. unfold bind. pose proof (keeps_set_children p cs s H) as H1.
  unfold set_raw_children in *. rewrite (mod_node_eq _ _ _ _ Hp) in *. simpl in H1.
  eapply parents_ok_set_parent; [exact H1|]. rewrite upd_lookup, decide_True by reflexivity. reflexivity.
Qed.
Lemma keeps_append1 p c : keeps parents_ok (append1 p c).
Proof.
  intros s H. unfold append1, raw_children, parent_of, bind, get_node.
  destruct (st_heap s !! p) as [np|] eqn:Ep; [|exact H].
  destruct (has_children (n_cls np)); [|exact H]. simpl.
  destruct (st_heap s !! c) as [nc|] eqn:Ec; [|exact H]. simpl.
  destruct (n_parent nc); [exact H|]. eapply parents_ok_set_parent_after; eassumption.
Qed.
Lemma keeps_prepend1 p c : keeps parents_ok (prepend1 p c).
Proof.
  intros s H. unfold prepend1, raw_children, parent_of, bind, get_node.
  destruct (st_heap s !! p) as [np|] eqn:Ep; [|exact H].
  destruct (has_children (n_cls np)); [|exact H]. simpl.
  destruct (st_heap s !! c) as [nc|] eqn:Ec; [|exact H]. simpl.
  destruct (n_parent nc); [destruct (Nat.eqb _ _); [|exact H]|];
    eapply parents_ok_set_parent_after; eassumption.
Qed.
Lemma keeps_remove p c : keeps parents_ok (remove p c).
Proof.
  unfold remove. apply keeps_bind.
  - unfold raw_children. apply keeps_bind; [apply keeps_get_node|]. intros n.
    destruct (has_children _); [apply keeps_ret|apply keeps_raise].
  - intros cs. destruct (index_of c cs); [|apply keeps_raise].
    apply keeps_bind; [apply keeps_set_children|]. intros _. apply keeps_detach.
Qed.
Lemma keeps_insert_all p reps : forall k, keeps parents_ok (insert_all p k reps).
Proof.
  induction reps as [|r rs IH]; intros k; [apply keeps_ret|].
  intros s H. cbn [insert_all]. unfold bind at 1. unfold raw_children, bind, get_node.
  destruct (st_heap s !! p) as [np|] eqn:Ep; [|exact H].
  destruct (has_children (n_cls np)); [|exact H]. simpl.
  pose proof (parents_ok_set_parent_after s p (insert_at k r (n_children np)) r np H Ep) as H1.
  unfold bind in H1. destruct (set_raw_children p _ s) as [s1 [[]|]]; [|exact H1].
  destruct (set_parent r (Some p) s1) as [s2 [[]|]]; [|exact H1].
  apply IH. exact H1.
Qed.
Lemma edit_parents_ok e : keeps parents_ok (run_edit e).
Proof.
  destruct e; simpl.
  - apply keeps_bind; [|intros; apply keeps_ret]. intros s [Hf Hp]. simpl. split.
    + intros i m. rewrite (new_lookup s (mk_node c kw)). simpl.
      destruct (decide (st_next s = i)) as [<-|]; [lia|].
      intros H. apply Hf in H. lia.
    + assert (Hkeep : forall q m, st_heap s !! q = Some m -> st_heap (new s (mk_node c kw)) !! q = Some m).
      { intros q m Hq. rewrite new_lookup. rewrite decide_False; [assumption|].
        apply Hf in Hq. lia. }
      intros x n p. rewrite (new_lookup s (mk_node c kw)). destruct (decide (st_next s = x)) as [<-|].
      * intros [= <-]. discriminate.
      * intros Hx E. destruct (Hp _ _ _ Hx E) as (m & Hm & Hperm). apply Hkeep in Hm. eauto.
  - apply keeps_iterM. intros. apply keeps_append1.
  - apply keeps_iterM. intros. apply keeps_prepend1.
  - apply keeps_remove.
  - unfold remove_self. apply keeps_bind.
    + unfold parent_of. apply keeps_bind; [apply keeps_get_node|intros; apply keeps_ret].
    + intros [p|]; [|apply keeps_ret]. apply keeps_bind; [apply keeps_remove|intros; apply keeps_detach].
  - unfold clear. apply keeps_bind.
    + unfold raw_children. apply keeps_bind; [apply keeps_get_node|]. intros n.
      destruct (has_children _); [apply keeps_ret|apply keeps_raise].
    + intros cs. apply keeps_bind; [apply keeps_iterM; intros; apply keeps_detach|].
      intros _. apply keeps_set_children.
  - unfold replace_self. apply keeps_bind.
    + unfold parent_of. apply keeps_bind; [apply keeps_get_node|intros; apply keeps_ret].
    + intros [p|]; [|apply keeps_raise]. apply keeps_bind.
      * unfold children_of. apply keeps_bind; [apply keeps_get_node|intros; apply keeps_ret].
      * intros cs. destruct (index_of x cs); [|apply keeps_raise].
        apply keeps_bind; [apply keeps_remove|]. intros _. apply keeps_insert_all.
Qed.


Lemma fresh_empty : fresh_ok empty_st.
Proof. intros i n H. simpl in H. rewrite lookup_empty in H. discriminate. Qed.
Lemma consistent_empty : consistent (∅ : gmap id node).
Proof.
  split.
  - intros x p. split; intros (n & H & _); rewrite lookup_empty in H; discriminate.
  - intros p n H. rewrite lookup_empty in H. discriminate.
  - intros x H. inversion H as [? ? (n & E & _)|? ? ? (n & E & _)]; rewrite lookup_empty in E; discriminate.
Qed.
Lemma history_consistent l s s' :
  fresh_ok s -> consistent (st_heap s) -> disciplined s l -> history s l s' ->
  fresh_ok s' /\ consistent (st_heap s').
Proof.
  intros Hf Hc Hd H. induction H as [s|s e s1 l s2 He H IH]; [auto|].
  inversion Hd as [|? ? s1' ? Hr He' Hd']; subst. rewrite He in He'. injection He' as <-.
  apply IH; [eapply edit_fresh; eassumption|eapply edit_consistent; eassumption|assumption].
Qed.
Lemma any_history_parents_ok l s s' : parents_ok s -> any_history s l s' -> parents_ok s'.
Proof.
  intros Hp H. induction H as [s|s e s1 r l s2 He H IH]; [assumption|].
  apply IH. pose proof (edit_parents_ok e s Hp) as Hk. rewrite He in Hk. exact Hk.
Qed.
Lemma parents_ok_empty : parents_ok empty_st.
Proof. split; [apply fresh_empty|]. intros x n p H. simpl in H. rewrite lookup_empty in H. discriminate. Qed.
