(** Resolution of :prev: references. *)
From Verif Require Export Resolve.
From Verif Require Import Queries NodeOps Monad.

Lemma subclass_step c : subclass c CStep = cls_eqb c CStep.
Proof. destruct c; reflexivity. Qed.
Lemma instance_step h x : is_instance h [CStep] x <-> is_step h x = true.
Proof.
  unfold is_instance, is_step. split.
  - intros (n & d & Hn & [<-|[]] & Hd). rewrite Hn. apply subclass_derives in Hd.
    rewrite subclass_step in Hd. assumption.
  - destruct (h !! x) as [n|] eqn:E; [|discriminate]. intros H. exists n, CStep. split; [reflexivity|].
    split; [left; reflexivity|]. apply subclass_derives. rewrite subclass_step. assumption.
Qed.
Lemma filter_none {A} (f : A -> bool) l : (forall z, z ∈ l -> f z = false) -> List.filter f l = [].
Proof.
  induction l as [|z l IH]; intros H; [reflexivity|]. simpl. rewrite H by constructor. apply IH.
  intros y Hy. apply H. constructor. assumption.
Qed.
Lemma steps_before_unique h x l l' : consistent h -> steps_before h x l -> steps_before h x l' -> l = l'.
Proof.
  intros Hc [(b & a & Hs & ->)|[Hn ->]] [(b' & a' & Hs' & ->)|[Hn' ->]].
  - destruct (siblings_unique _ _ _ _ _ _ Hc Hs Hs') as [-> _]. reflexivity.
  - destruct Hs as (q & _ & Hq & _). destruct (Hn' _ Hq).
  - destruct Hs' as (q & _ & Hq & _). destruct (Hn _ Hq).
  - reflexivity.
Qed.
Lemma steps_before_exists h x n : consistent h -> h !! x = Some n -> exists l, steps_before h x l.
Proof.
  intros Hc Hx. destruct (n_parent n) as [q|] eqn:E.
  - destruct (siblings_exist h x q Hc) as (b & a & Hs); [exists n; auto|].
    eexists. left. exists b, a. split; [assumption|reflexivity].
  - exists []. right. split; [|reflexivity]. intros q (m & Hm & Em). congruence.
Qed.
Definition no_previous (shown : str) : exn := ETransformer (lit "Did not find previous " ++ shown ++ lit " step(s)").
Lemma walk_prev_eq shown k : forall x l s,
  consistent (st_heap s) -> is_Some (st_heap s !! x) -> steps_before (st_heap s) x l ->
  walk_prev k shown x s =
  match nth_error (x :: l) k with Some y => (s, Ok y) | None => (s, Err (no_previous shown)) end.
Proof.
  induction k as [|k IH]; intros x l s Hc [n Hx] Hl; [reflexivity|]. cbn [walk_prev nth_error].
  destruct Hl as [(b & a & Hs & ->)|[Hroot ->]].
  - destruct (prev_sibling_class s x b a (SibCls CStep) CStep Hc Hs eq_refl) as (r & Hr & Hnear).
    unfold bind. rewrite Hr. destruct r as [y|].
    + destruct Hnear as (b1 & b2 & -> & Hy & Hno). pose proof (proj1 (instance_step _ _) Hy) as Hys.
      rewrite filter_app. cbn [List.filter]. rewrite Hys.
      rewrite (filter_none _ b2).
      2:{ intros z Hz. destruct (is_step (st_heap s) z) eqn:E; [|reflexivity].
          apply instance_step in E. destruct (Hno _ Hz E). }
      rewrite rev_app_distr. cbn [rev app].
      apply (IH y (rev (List.filter (is_step (st_heap s)) b1)) s); auto.
      * destruct Hy as (m & _ & Hm & _). eauto.
      * left. exists b1, (b2 ++ x :: a). split; [|reflexivity].
        destruct Hs as (q & nq & Hp & Hq & Hk). exists q, nq.
        assert (Hk' : kids nq = b1 ++ y :: b2 ++ x :: a) by (rewrite Hk, <- app_assoc; reflexivity).
        split; [|auto]. apply (cons_parent _ Hc). exists nq. split; [assumption|]. rewrite Hk'.
        apply elem_of_app. right. constructor.
    + rewrite (filter_none _ b); [destruct k; reflexivity|].
      intros z Hz. destruct (is_step (st_heap s) z) eqn:E; [|reflexivity].
      apply instance_step in E. destruct (Hnear _ Hz E).
  - assert (n_parent n = None) as Hp.
    { destruct (n_parent n) as [q|] eqn:E; [|reflexivity]. destruct (Hroot q). exists n. auto. }
    unfold bind. rewrite (proj1 (sibling_root s x n _ Hx Hp)). destruct k; reflexivity.
Qed.

(** What a :prev: is replaced by, in terms of the heap. *)
Definition prev_target (h : gmap id node) (i y : id) : Prop :=
  exists step tv k, closest_ancestor h [CStep] i (Some step) /\ value h i a_target = Some tv /\
    py_int (fmt_val tv) = Some k /\ kth_previous h step (Z.to_nat k) y.
Lemma resolve_prev_ok fuel i s s' u :
  good s -> resolve_prev fuel i s = (s', Ok u) ->
  exists r y ov, swapped s s' i r (mk_node CReference [(a_target, VNode y); (a_overwrite_reftext, ov)]) (fun _ => []) /\
    value (st_heap s) i a_overwrite_reftext = Some ov /\ prev_target (st_heap s) i y.
Proof.
  intros Hg H. unfold resolve_prev in H. apply bind_ok in H as (s0 & st & Ha & H).
  apply (first_ancestor_ok _ _ _ _ _ _ (proj2 Hg)) in Ha as [-> Ha].
  destruct st as [step|]; [|discriminate].
  apply bind_ok in H as (s0 & tv & Ht & H). apply getattr_ok in Ht as (-> & n & Hi & Ht).
  destruct (py_int (fmt_val tv)) as [k|] eqn:Ek; [|discriminate].
  apply bind_ok in H as (s0 & y & Hw & H).
  assert (is_Some (st_heap s !! step)) as Hstep.
  { destruct Ha as (_ & (m & Hm & _) & _). eauto. }
  destruct Hstep as [ns Hns].
  destruct (steps_before_exists _ step ns (proj2 Hg) Hns) as [l Hl].
  rewrite (walk_prev_eq _ _ step l s (proj2 Hg) (mk_is_Some _ _ Hns) Hl) in Hw.
  destruct (nth_error (step :: l) (Z.to_nat k)) as [y'|] eqn:Ey; [|discriminate].
  injection Hw as <- <-.
  apply bind_ok in H as (s0 & lv & Hlv & H). apply getattr_ok in Hlv as (-> & _).
  apply bind_ok in H as (s1 & b & Hb & H). assert (s1 = s) as ->.
  { destruct lv; try discriminate Hb; apply ret_ok in Hb as [-> _]; reflexivity. }
  apply bind_ok in H as (s1 & u1 & Hw & H).
  assert (He : ext s s1).
  { destruct b; [apply warn_ok in Hw; subst; apply ext_log; assumption|].
    apply ret_ok in Hw as [-> _]. apply ext_refl. assumption. }
  apply bind_ok in H as (s2 & ov & Ho & H). apply getattr_ok in Ho as (-> & n1 & Hn1 & Ho).
  assert (n1 = n) as -> by (destruct He as (_ & _ & _ & O); rewrite (O _ _ Hi) in Hn1; congruence).
  apply bind_ok in H as (s2 & r & Hnew & H). apply new_node_ok in Hnew as [-> ->].
  eexists _, y', ov. split; [|split; [rewrite (value_some _ _ _ _ Hi); assumption|]].
  - pose proof (ext_new s1 (mk_node CReference [(a_target, VNode y'); (a_overwrite_reftext, ov)]) (proj1 He) eq_refl eq_refl) as He2.
    eapply (swapped_intro s (new s1 _) (st_next s1) _ i s' u Hg); [eapply ext_trans; [exact He|exact He2]|eauto| |
      rewrite new_lookup, decide_True; reflexivity| | |exact H]; try reflexivity.
    destruct He as (_ & ? & _). assumption.
  - exists step, tv, k. split; [assumption|]. split; [rewrite (value_some _ _ _ _ Hi); assumption|].
    split; [assumption|]. exists l. auto.
Qed.
(** Too few steps, or no enclosing step: RSMTransformerError. *)
Lemma resolve_prev_no_step fuel i s n :
  good s -> st_heap s !! i = Some n -> size (st_heap s) <= fuel ->
  closest_ancestor (st_heap s) [CStep] i None ->
  resolve_prev fuel i s = (s, Err (ETransformer (lit "Found :prev: tag outside proof step"))).
Proof.
  intros [_ Hc] Hi Hf Ha. unfold resolve_prev, bind.
  destruct (first_ancestor_total fuel i [CStep] s n Hc Hi Hf) as [r Hr]. rewrite Hr.
  apply (first_ancestor_ok _ _ _ _ _ _ Hc) in Hr as [_ Hr].
  rewrite (closest_unique _ _ _ _ _ Hc Hr Ha). reflexivity.
Qed.
Lemma resolve_prev_too_few fuel i s n step tv k l :
  good s -> st_heap s !! i = Some n -> size (st_heap s) <= fuel ->
  closest_ancestor (st_heap s) [CStep] i (Some step) ->
  value (st_heap s) i a_target = Some tv -> py_int (fmt_val tv) = Some k ->
  steps_before (st_heap s) step l -> (Z.of_nat (length l) < k)%Z ->
  resolve_prev fuel i s = (s, Err (no_previous (fmt_val tv))).
Proof.
  intros [_ Hc] Hi Hf Ha Ht Hk Hl Hlt. unfold resolve_prev, bind.
  destruct (first_ancestor_total fuel i [CStep] s n Hc Hi Hf) as [r Hr]. rewrite Hr.
  apply (first_ancestor_ok _ _ _ _ _ _ Hc) in Hr as [_ Hr].
  rewrite (closest_unique _ _ _ _ _ Hc Hr Ha).
  unfold getattr at 1, bind. rewrite (get_node_eq _ _ _ Hi). rewrite (value_some _ _ _ _ Hi) in Ht.
  rewrite Ht. unfold ret at 1. rewrite Hk.
  assert (is_Some (st_heap s !! step)) as Hstep by (destruct Ha as (_ & (m & Hm & _) & _); eauto).
  rewrite (walk_prev_eq _ _ step l s Hc Hstep Hl).
  destruct (nth_error (step :: l) (Z.to_nat k)) as [y|] eqn:E; [|reflexivity].
  assert (nth_error (step :: l) (Z.to_nat k) <> None) as Hne by congruence.
  apply nth_error_Some in Hne. simpl in Hne. lia.
Qed.
