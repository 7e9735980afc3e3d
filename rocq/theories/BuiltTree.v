(** The nodes made by [build], one by one. *)
From Verif Require Export Built TreeFacts.
From Verif Require Import NodeOps Monad NodeProofs Consistency.

Fixpoint built_as (h : gmap id node) (p : option id) (b : bt) (t : tree) {struct b} : Prop :=
  match b, t with
  | BT c kw cs, T i ts =>
      h !! i = Some (MkNode c p (map root ts) (mk_attrs c kw)) /\
      (fix go (cs : list bt) (ts : list tree) {struct cs} : Prop :=
         match cs, ts with
         | [], [] => True
         | c :: cs, t :: ts => built_as h (Some i) c t /\ go cs ts
         | _, _ => False
         end) cs ts
  end.
Fixpoint built_all (h : gmap id node) (i : id) (cs : list bt) (ts : list tree) {struct cs} : Prop :=
  match cs, ts with
  | [], [] => True
  | c :: cs, t :: ts => built_as h (Some i) c t /\ built_all h i cs ts
  | _, _ => False
  end.
Lemma built_eq h p c kw cs i ts : built_as h p (BT c kw cs) (T i ts) <-> h !! i = Some (MkNode c p (map root ts) (mk_attrs c kw)) /\ built_all h i cs ts.
Proof.
  cbn [built_as]. match goal with |- _ /\ ?g cs ts <-> _ => assert (E : forall cs ts, g cs ts <-> built_all h i cs ts) end; [|rewrite E; reflexivity].
  clear. induction cs as [|c cs IH]; intros [|t ts]; cbn [built_all]; try reflexivity. rewrite IH. reflexivity.
Qed.
Lemma built_local h h' b : forall p t, (forall x, x ∈ doc_order t -> h' !! x = h !! x) -> built_as h p b t -> built_as h' p b t.
Proof.
  induction b as [c kw cs IH] using bt_ind'. intros p [i ts] He H. rewrite built_eq in *. destruct H as [H1 H2].
  split; [rewrite He; [assumption|rewrite doc_order_T; constructor]|].
  assert (He' : forall x, x ∈ doc_orders ts -> h' !! x = h !! x) by (intros x Hx; apply He; rewrite doc_order_T; constructor 2; assumption). clear He H1.
  revert ts H2 He'. induction cs as [|d cs IHcs]; intros [|t ts] H2 He'; cbn [built_all] in *; try exact H2. apply list.Forall_cons in IH as [IHd IH].
  destruct H2 as [H2 H3]. split; [apply IHd; [|assumption]|apply IHcs; [assumption..|]]; intros x Hx; apply He'; cbn [doc_orders flat_map]; apply elem_of_app; auto.
Qed.
Lemma built_all_local h h' i cs : forall ts, (forall x, x ∈ doc_orders ts -> h' !! x = h !! x) -> built_all h i cs ts -> built_all h' i cs ts.
Proof.
  induction cs as [|d cs IH]; intros [|t ts] He H; cbn [built_all] in *; try exact H. destruct H as [H1 H2].
  split; [eapply built_local; [|exact H1]|apply IH; [|exact H2]]; intros x Hx; apply He; cbn [doc_orders flat_map]; apply elem_of_app; auto.
Qed.
Lemma built_parent h h' b p q i ts : (forall x, x ∈ doc_orders ts -> h' !! x = h !! x) ->
  (forall n, h !! i = Some n -> h' !! i = Some (MkNode (n_cls n) q (n_children n) (n_attrs n))) -> built_as h p b (T i ts) -> built_as h' q b (T i ts).
Proof.
  destruct b as [c kw cs]. rewrite !built_eq. intros H1 H2 [H3 H4]. split; [|eapply built_all_local; eassumption]. rewrite (H2 _ H3). reflexivity.
Qed.

Lemma build_tree b : forall s s' i, good s -> build b s = (s', Ok i) ->
  exists t, root t = i /\ built_as (st_heap s') None b t /\ (NoDup (doc_order t) /\ forall x, x ∈ doc_order t -> st_next s <= x < st_next s').
Proof.
  induction b as [c kw cs IH] using bt_ind'. intros s s' i Hg H. destruct (build_ok _ _ _ _ (proj1 Hg) (proj2 Hg) H) as (_ & _ & Ei & _).
  cbn [build] in H. fold (build_kids) in H. apply bind_ok in H as (s1 & x & H1 & H). apply new_node_ok in H1 as [-> ->]. apply bind_ok in H as (s2 & u & H1 & H).
  apply ret_ok in H as [-> ->]. change (build_kids (st_next s) cs (new s (mk_node c kw)) = (s2, Ok u)) in H1. clear Ei.
  destruct (consistent_fresh s (mk_node c kw) (proj1 Hg) (proj2 Hg) eq_refl eq_refl) as [Hc1 Hf1].
  assert (Hn1 : st_heap (new s (mk_node c kw)) !! st_next s = Some (MkNode c None [] (mk_attrs c kw))) by (rewrite new_lookup, decide_True by reflexivity; reflexivity).
  assert (Hlt1 : st_next s < st_next (new s (mk_node c kw))) by (simpl; lia).
  set (i := st_next s) in *. set (s1 := new s (mk_node c kw)) in *.
  assert (G : forall s1 l, st_heap s1 !! i = Some (MkNode c None l (mk_attrs c kw)) -> i < st_next s1 -> good s1 -> build_kids i cs s1 = (s2, Ok u) ->
    exists ts, st_heap s2 !! i = Some (MkNode c None (l ++ map root ts) (mk_attrs c kw)) /\ built_all (st_heap s2) i cs ts /\
      (NoDup (doc_orders ts) /\ forall x, x ∈ doc_orders ts -> st_next s1 <= x < st_next s2) /\ st_next s1 <= st_next s2 /\
      forall j, j < st_next s1 -> j <> i -> st_heap s2 !! j = st_heap s1 !! j).
  { clear Hn1 Hlt1 H1 Hc1 Hf1 s1 Hg. induction cs as [|b cs IHcs]; intros s1 l Hn Hlt Hg H.
    - apply ret_ok in H as [-> _]. exists []. cbn. rewrite app_nil_r. repeat split; try assumption; try lia; try (constructor); try (intros; inversion H). all: inversion H.
    - apply list.Forall_cons in IH as [IHb IH]. cbn [build_kids] in H. apply bind_ok in H as (s3 & k & Hb & H). apply bind_ok in H as (s4 & u4 & Ha & H).
      destruct (IHb _ _ _ Hg Hb) as (t & Hr & Hbt & Hnd & Hrg). destruct (build_ok _ _ _ _ (proj1 Hg) (proj2 Hg) Hb) as (Hf3 & Hc3 & Ek & G3 & (nk & Hk & Hkp)).
      destruct G3 as [L3 G3]. assert (Hn3 : st_heap s3 !! i = Some (MkNode c None l (mk_attrs c kw))) by (rewrite G3 by assumption; assumption).
      assert (Hu : usable (st_heap s3) i [k]).
      { split; [apply NoDup_singleton|]. intros d Hd. apply elem_of_list_singleton in Hd. subst d. split; [eauto|]. split; [lia|]. intros Han.
        inversion Han as [? ? (m & Hm & E)|? ? ? (m & Hm & E)]; rewrite Hn3 in Hm; injection Hm as <-; discriminate E. }
      pose proof (append_consistent _ _ _ _ _ Hc3 Hu Ha) as Hc4. apply append_ok in Ha as (Hr4 & He & _).
      assert (Hg4 : good s4). { split; [|assumption]. eapply fresh_edited; eassumption. }
      destruct Hr4 as [N4 _].
      assert (Hki : k <> i) by lia.
      assert (Hn4 : st_heap s4 !! i = Some (MkNode c None (l ++ [k]) (mk_attrs c kw))).
      { rewrite He, Hn3. cbn. rewrite decide_False by (rewrite elem_of_list_singleton; lia). rewrite decide_True by reflexivity. reflexivity. }
      destruct (IHcs IH s4 (l ++ [k]) Hn4 ltac:(lia) Hg4 H) as (ts & H1 & H2 & (H3 & H4) & H5 & H6).
      assert (Ho : forall j, j <> i -> j <> k -> st_heap s4 !! j = st_heap s3 !! j).
      { intros j Hj Hjk. rewrite He. destruct (st_heap s3 !! j) as [[]|]; [|reflexivity]. cbn. rewrite decide_False by (rewrite elem_of_list_singleton; assumption). rewrite decide_False by assumption. reflexivity. }
      assert (Hik : i < st_next s1) by assumption.
      exists (t :: ts). cbn [map]. rewrite Hr. rewrite <- app_assoc in H1. split; [exact H1|]. split; [|split; [split|split]].
      + cbn [built_all]. split; [|assumption]. apply (built_local (st_heap s4)).
        { intros y Hy. apply Hrg in Hy. apply H6; lia. }
        destruct t as [k' kts]. cbn [root] in Hr. subst k'. rewrite doc_order_T in Hnd, Hrg. apply list.NoDup_cons in Hnd as [Hnk Hnd].
        eapply (built_parent (st_heap s3)); [| |exact Hbt].
        * intros y Hy. assert (y <> k) by congruence. specialize (Hrg y ltac:(constructor 2; assumption)). apply Ho; [lia|assumption].
        * intros m Hm. rewrite He, Hm. cbn. rewrite decide_True by (apply elem_of_list_singleton; reflexivity). rewrite decide_False by assumption. reflexivity.
      + cbn [doc_orders flat_map]. apply list.NoDup_app. split; [assumption|]. split; [|assumption]. intros y Hy Hy'. apply Hrg in Hy. apply H4 in Hy'. lia.
      + intros y Hy. cbn [doc_orders flat_map] in Hy. apply elem_of_app in Hy as [Hy|Hy]; [apply Hrg in Hy; lia|apply H4 in Hy; lia].
      + lia.
      + intros j Hj Hji. rewrite H6 by lia. rewrite Ho by lia. apply G3. assumption. }
  destruct (G s1 [] Hn1 Hlt1 (conj Hf1 Hc1) H1) as (ts & G1 & G2 & (G3 & G4) & G5 & _). exists (T i ts). split; [reflexivity|]. split; [apply built_eq; auto|].
  assert (N1 : st_next s1 = S i) by reflexivity.
  rewrite doc_order_T. split.
  - apply list.NoDup_cons. split; [|assumption]. intros Hin. apply G4 in Hin. lia.
  - intros y Hy. apply elem_of_cons in Hy as [->|Hy]; [lia|]. apply G4 in Hy. lia.
Qed.
