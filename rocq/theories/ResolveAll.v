(** Resolution of pending references: the whole pass. *)
From Verif Require Export ResolvePrev.
From Verif Require Import Queries NodeOps Monad.

Definition class_in (h : gmap id node) (i : id) : option cls := option_map n_cls (h !! i).
Definition pendingb (h : gmap id node) (i : id) : bool := holds (cond_exact pending_classes) h i.
Definition citeb (h : gmap id node) (i : id) : bool := holds (cond_exact [CPendingCite]) h i.
Lemma pendingb_cases h i :
  pendingb h i = true -> exists n, h !! i = Some n /\
    (n_cls n = CPendingReference \/ n_cls n = CPendingCite \/ n_cls n = CPendingPrev).
Proof.
  unfold pendingb, holds. destruct (h !! i) as [n|]; [|discriminate]. unfold cond_exact.
  intros H. apply cls_mem_spec in H. exists n. split; [reflexivity|].
  destruct H as [<-|[<-|[<-|[]]]]; auto.
Qed.
Lemma pendingb_leaf h i n : pendingb h i = true -> h !! i = Some n -> kids n = [].
Proof.
  intros Hp Hi. apply pendingb_cases in Hp as (m & Hm & H). assert (m = n) as -> by congruence.
  unfold kids. destruct H as [->|[->| ->]]; reflexivity.
Qed.

(** [n'] is [nr], up to position and backlinks. *)
Definition like (nr n' : node) : Prop :=
  n_cls n' = n_cls nr /\ kids n' = [] /\ forall a, a <> a_backlinks -> n_attrs n' !! a = n_attrs nr !! a.
Lemma like_trans nr n n' : like nr n -> n_cls n' = n_cls n -> kids n' = [] ->
  (forall a, a <> a_backlinks -> n_attrs n' !! a = n_attrs n !! a) -> like nr n'.
Proof.
  intros (H1 & H2 & H3) E1 E2 E3. split; [congruence|]. split; [assumption|]. intros a Ha. rewrite E3, H3; auto.
Qed.

(** What became of the pending node [j]: [cites] are the targets of the
    citations resolved so far, [seen] the nodes visited so far. *)
Definition resolved (s0 : st) (d : labels) (seen : list id) (cites : list (list id)) (s : st) (j : id) (n' : node) : Prop :=
  match class_in (st_heap s0) j with
  | Some CPendingReference => exists lbl nr,
      value (st_heap s0) j a_target = Some (VStr lbl) /\
      ref_node d lbl (value (st_heap s0) j a_overwrite_reftext) nr /\ like nr n' /\
      (lookup_label d lbl = None -> warned s (lit "Reference to nonexistent label """ ++ lbl ++ lit """"))
  | Some CPendingCite => exists k ls ts,
      nth_error (List.filter (citeb (st_heap s0)) seen) k = Some j /\
      value (st_heap s0) j a_targetlabels = Some (VStrs ls) /\
      nth_error cites k = Some ts /\
      Forall2 (cite_target d (st_next s0) (st_heap s)) ls ts /\ like (cite_node k ts) n'
  | Some CPendingPrev => exists y ov,
      value (st_heap s0) j a_overwrite_reftext = Some ov /\ prev_target (st_heap s0) j y /\
      like (mk_node CReference [(a_target, VNode y); (a_overwrite_reftext, ov)]) n'
  | _ => False
  end.
Definition backs (cites : list (list id)) (j : id) : list str :=
  concat (imap (fun k ts => repeat (cite_label k) (occurrences j ts)) cites).
Lemma backs_snoc cites ts j : backs (cites ++ [ts]) j = backs cites j ++ repeat (cite_label (length cites)) (occurrences j ts).
Proof.
  unfold backs. rewrite imap_app, concat_app. simpl. rewrite app_nil_r, Nat.add_0_r. reflexivity.
Qed.

Record rinv (s0 : st) (d : labels) (seen : list id) (f : id -> id) (cites : list (list id)) (s : st) : Prop := {
  ri_good : good s;
  ri_next : st_next s0 <= st_next s;
  ri_logs : logs_grow s0 s;
  ri_cites : length cites = length (List.filter (citeb (st_heap s0)) seen);
  ri_fix : forall j, ~ (j ∈ seen /\ pendingb (st_heap s0) j = true) -> f j = j;
  ri_inj : forall i j, i ∈ seen -> j ∈ seen -> f i = f j -> i = j;
  ri_old : forall j n, st_heap s0 !! j = Some n -> exists n', st_heap s !! j = Some n' /\
    n_cls n' = n_cls n /\ kids n' = map f (kids n) /\
    (~ (j ∈ seen /\ pendingb (st_heap s0) j = true) -> n_parent n' = n_parent n) /\
    (forall a, a <> a_backlinks -> n_attrs n' !! a = n_attrs n !! a) /\
    backlinks_of (st_heap s) j = backlinks_of (st_heap s0) j ++ backs cites j;
  ri_res : forall j, j ∈ seen -> pendingb (st_heap s0) j = true ->
    st_next s0 <= f j /\ exists n n' , st_heap s0 !! j = Some n /\ st_heap s !! f j = Some n' /\
      n_parent n' = n_parent n /\ n_cls n' ∈ [CReference; CError; CCite] /\ resolved s0 d seen cites s j n'
}.

Lemma rinv_start s0 d : good s0 -> rinv s0 d [] (fun x => x) [] s0.
Proof.
  intros Hg. constructor; auto.
  - apply logs_grow_same. reflexivity.
  - intros j n Hn. exists n. split; [assumption|]. split; [reflexivity|]. split; [rewrite map_id; reflexivity|].
    split; [auto|]. split; [auto|]. unfold backs. simpl. rewrite app_nil_r. reflexivity.
  - intros j Hj. inversion Hj.
Qed.

(** *** What the invariant says about the original heap *)
Section transfer.
  Context (s0 : st) (d : labels) (seen : list id) (f : id -> id) (cites : list (list id)) (s : st).
  Hypothesis Hg0 : good s0.
  Hypothesis RI : rinv s0 d seen f cites s.
  Definition settled (j : id) : Prop := j ∈ seen /\ pendingb (st_heap s0) j = true.

  Lemma tr_parent x q :
    is_Some (st_heap s0 !! x) -> ~ settled x -> parent_is (st_heap s) x q <-> parent_is (st_heap s0) x q.
  Proof.
    intros [n Hn] Hs. destruct (ri_old _ _ _ _ _ _ RI _ _ Hn) as (n' & H1 & H2 & H3 & H4 & _).
    specialize (H4 Hs). split; intros (m & Hm & E).
    - exists n. split; [assumption|]. congruence.
    - exists n'. split; [assumption|]. congruence.
  Qed.
  Lemma parent_not_settled x q : parent_is (st_heap s0) x q -> is_Some (st_heap s0 !! q) /\ ~ settled q.
  Proof.
    intros Hq. apply (cons_parent _ (proj2 Hg0)) in Hq as (m & Hm & Hin). split; [eauto|].
    intros [_ Hp]. rewrite (pendingb_leaf _ _ _ Hp Hm) in Hin. inversion Hin.
  Qed.
  Lemma tr_ancestor x a :
    is_Some (st_heap s0 !! x) -> ~ settled x -> ancestor (st_heap s) x a <-> ancestor (st_heap s0) x a.
  Proof.
    intros Hx Hs. split.
    - intros Ha. revert Hx Hs. induction Ha as [x p Hp|x p y Hp Ha IH]; intros Hx Hs.
      + constructor. apply tr_parent; assumption.
      + apply tr_parent in Hp; [|assumption|assumption]. destruct (parent_not_settled _ _ Hp).
        eapply anc_step; [eassumption|]. auto.
    - intros Ha. revert Hx Hs. induction Ha as [x p Hp|x p y Hp Ha IH]; intros Hx Hs.
      + constructor. apply tr_parent; assumption.
      + destruct (parent_not_settled _ _ Hp).
        eapply anc_step; [apply tr_parent; eassumption|]. auto.
  Qed.
  Lemma ancestor_some x a : ancestor (st_heap s0) x a -> is_Some (st_heap s0 !! a) /\ ~ settled a.
  Proof. induction 1 as [x p Hp|]; [eapply parent_not_settled; eassumption|assumption]. Qed.
  Lemma tr_class ds x : is_Some (st_heap s0 !! x) -> has_class (st_heap s) ds x <-> has_class (st_heap s0) ds x.
  Proof.
    intros [n Hn]. destruct (ri_old _ _ _ _ _ _ RI _ _ Hn) as (n' & H1 & H2 & _).
    split; intros (m & Hm & E).
    - exists n. split; [assumption|]. replace (n_cls n) with (n_cls m) by congruence. assumption.
    - exists n'. split; [assumption|]. replace (n_cls n') with (n_cls m) by congruence. assumption.
  Qed.
  Lemma tr_closest ds x r :
    is_Some (st_heap s0 !! x) -> ~ settled x ->
    closest_ancestor (st_heap s) ds x r -> closest_ancestor (st_heap s0) ds x r.
  Proof.
    intros Hx Hs. destruct r as [a|]; simpl.
    - intros (A & C & U). apply tr_ancestor in A; [|assumption|assumption].
      destruct (ancestor_some _ _ A) as [Ha Hsa].
      split; [assumption|]. split; [apply tr_class; assumption|].
      intros b Hb Hba. destruct (ancestor_some _ _ Hb) as [Hb1 Hb2].
      intros Hc. apply (U b); [apply tr_ancestor; assumption|apply tr_ancestor; assumption|].
      apply tr_class; assumption.
    - intros U b Hb Hc. destruct (ancestor_some _ _ Hb) as [Hb1 Hb2].
      apply (U b); [apply tr_ancestor; assumption|apply tr_class; assumption].
  Qed.
  Lemma tr_value j a : is_Some (st_heap s0 !! j) -> a <> a_backlinks -> value (st_heap s) j a = value (st_heap s0) j a.
  Proof.
    intros [n Hn] Ha. destruct (ri_old _ _ _ _ _ _ RI _ _ Hn) as (n' & H1 & _ & _ & _ & H5 & _).
    unfold value. rewrite Hn, H1. auto.
  Qed.
  Lemma tr_is_step x : is_Some (st_heap s0 !! x) -> is_step (st_heap s) (f x) = is_step (st_heap s0) x.
  Proof.
    intros [n Hn]. unfold is_step. rewrite Hn.
    destruct (decide (x ∈ seen)) as [Hin|Hnin]; [destruct (pendingb (st_heap s0) x) eqn:Ep|].
    - destruct (ri_res _ _ _ _ _ _ RI x Hin Ep) as (_ & n1 & n' & Hn1 & Hn' & _ & Hcl & _).
      rewrite Hn'. apply pendingb_cases in Ep as (m & Hm & Hc). assert (m = n) as -> by congruence.
      transitivity false.
      + rewrite !elem_of_cons in Hcl. destruct Hcl as [->|[->|[->|Hcl]]]; [reflexivity|reflexivity|reflexivity|inversion Hcl].
      + destruct Hc as [->|[->| ->]]; reflexivity.
    - rewrite (ri_fix _ _ _ _ _ _ RI) by (intros [_ ?]; congruence).
      destruct (ri_old _ _ _ _ _ _ RI _ _ Hn) as (n' & H1 & H2 & _). rewrite H1, H2. reflexivity.
    - rewrite (ri_fix _ _ _ _ _ _ RI) by (intros [? _]; contradiction).
      destruct (ri_old _ _ _ _ _ _ RI _ _ Hn) as (n' & H1 & H2 & _). rewrite H1, H2. reflexivity.
  Qed.
  Lemma filter_map_f (l : list id) :
    (forall x, x ∈ l -> is_Some (st_heap s0 !! x)) ->
    List.filter (is_step (st_heap s)) (map f l) = List.filter (is_step (st_heap s0)) l.
  Proof.
    induction l as [|x l IH]; intros Hl; [reflexivity|]. simpl.
    rewrite tr_is_step by (apply Hl; constructor).
    destruct (is_step (st_heap s0) x) eqn:E; [|apply IH; intros; apply Hl; constructor; assumption].
    f_equal; [|apply IH; intros; apply Hl; constructor; assumption].
    apply (ri_fix _ _ _ _ _ _ RI). intros [_ Hp]. apply pendingb_cases in Hp as (n & Hn & Hc).
    unfold is_step in E. rewrite Hn in E. destruct Hc as [->|[->| ->]] in E; discriminate.
  Qed.
  Lemma tr_kth x k y :
    is_step (st_heap s0) x = true -> kth_previous (st_heap s) x k y -> kth_previous (st_heap s0) x k y.
  Proof.
    intros Hx (l & Hl & Hy).
    assert (exists n, st_heap s0 !! x = Some n) as [n Hn].
    { unfold is_step in Hx. destruct (st_heap s0 !! x); [eauto|discriminate]. }
    assert (Hns : ~ settled x).
    { intros [_ Hp]. apply pendingb_cases in Hp as (m & Hm & Hc). unfold is_step in Hx. rewrite Hm in Hx.
      destruct Hc as [->|[->| ->]] in Hx; discriminate. }
    destruct (steps_before_exists _ x n (proj2 Hg0) Hn) as [l0 Hl0].
    exists l0. split; [assumption|].
    assert (l = l0) as <-; [|assumption].
    apply (steps_before_unique _ x _ _ (proj2 (ri_good _ _ _ _ _ _ RI)) Hl).
    destruct Hl0 as [(b & a & (q & nq & Hq & Hnq & Hk) & ->)|[Hno ->]].
    - left. exists (map f b), (map f a). split.
      + exists q. destruct (ri_old _ _ _ _ _ _ RI _ _ Hnq) as (nq' & H1 & H2 & H3 & _).
        exists nq'. split; [apply tr_parent; eauto|]. split; [assumption|].
        rewrite H3, Hk, map_app. simpl. rewrite (ri_fix _ _ _ _ _ _ RI x) by assumption. reflexivity.
      + rewrite filter_map_f; [reflexivity|]. intros z Hz.
        pose proof (kids_some _ _ _ (proj2 Hg0) Hnq) as Hall. rewrite list.Forall_forall in Hall. apply Hall.
        rewrite Hk. apply elem_of_app. auto.
    - right. split; [|reflexivity]. intros q Hq. apply (Hno q). apply tr_parent in Hq; eauto.
  Qed.
  Lemma tr_prev_target i y :
    is_Some (st_heap s0 !! i) -> ~ settled i -> prev_target (st_heap s) i y -> prev_target (st_heap s0) i y.
  Proof.
    intros Hi Hs (step & tv & k & Ha & Ht & Hk & Hy). exists step, tv, k.
    assert (Ha0 := tr_closest _ _ _ Hi Hs Ha). split; [assumption|].
    split; [rewrite <- tr_value by (assumption || discriminate); assumption|]. split; [assumption|].
    apply tr_kth; [|assumption]. destruct Ha0 as (_ & (m & Hm & [E|[]]) & _).
    unfold is_step. rewrite Hm, <- E. reflexivity.
  Qed.
End transfer.

(** *** Steps of the invariant *)
Lemma nth_error_snoc {A} (l : list A) x k y : nth_error l k = Some y -> nth_error (l ++ [x]) k = Some y.
Proof. intros H. rewrite nth_error_app1; [assumption|]. apply nth_error_Some. congruence. Qed.
Lemma resolved_mono s0 d seen seen' cites cites' s s' j n n' :
  resolved s0 d seen cites s j n ->
  (forall k x, nth_error (List.filter (citeb (st_heap s0)) seen) k = Some x ->
               nth_error (List.filter (citeb (st_heap s0)) seen') k = Some x) ->
  (forall k ts, nth_error cites k = Some ts -> nth_error cites' k = Some ts) ->
  logs_grow s s' ->
  (forall x m, st_heap s !! x = Some m -> exists m', st_heap s' !! x = Some m' /\ n_cls m' = n_cls m /\
     n_attrs m' !! a_number = n_attrs m !! a_number) ->
  n_cls n' = n_cls n -> kids n' = [] -> (forall a, a <> a_backlinks -> n_attrs n' !! a = n_attrs n !! a) ->
  resolved s0 d seen' cites' s' j n'.
Proof.
  unfold resolved. destruct (class_in (st_heap s0) j) as [c|]; [|auto]. intros H Hseen Hc Hl Hh E1 E2 E3.
  destruct c; auto.
  - destruct H as (lbl & nr & H1 & H2 & H3 & H4). exists lbl, nr. split; [assumption|]. split; [assumption|].
    split; [eapply like_trans; eassumption|]. intros E. eapply warned_grow; eauto.
  - destruct H as (y & ov & H1 & H2 & H3). exists y, ov. split; [assumption|]. split; [assumption|].
    eapply like_trans; eassumption.
  - destruct H as (k & ls & ts & H1 & H2 & H3 & H4 & H5). exists k, ls, ts. split; [auto|]. split; [assumption|].
    split; [auto|]. split; [|eapply like_trans; eassumption].
    eapply Forall2_impl; [exact H4|]. intros l x Hx. eapply cite_target_mono; [exact Hx|lia|assumption].
Qed.
Lemma resolved_like s0 d seen cites s j n : resolved s0 d seen cites s j n -> kids n = [].
Proof.
  unfold resolved. destruct (class_in (st_heap s0) j) as [c|]; [|contradiction]. destruct c; try contradiction.
  - intros (? & ? & _ & _ & (_ & H & _) & _). assumption.
  - intros (? & ? & _ & _ & (_ & H & _)). assumption.
  - intros (? & ? & ? & _ & _ & _ & _ & (_ & H & _)). assumption.
Qed.
Lemma filter_snoc {A} (g : A -> bool) l x : List.filter g (l ++ [x]) = List.filter g l ++ (if g x then [x] else []).
Proof. rewrite filter_app. reflexivity. Qed.
Lemma cite_pending h i : citeb h i = true -> pendingb h i = true.
Proof.
  unfold citeb, pendingb, holds. destruct (h !! i) as [n|]; [|discriminate]. unfold cond_exact.
  destruct (n_cls n); try discriminate; reflexivity.
Qed.
Lemma in_snoc_pending s0 seen i j :
  pendingb (st_heap s0) i = false ->
  (j ∈ seen ++ [i] /\ pendingb (st_heap s0) j = true) <-> (j ∈ seen /\ pendingb (st_heap s0) j = true).
Proof.
  intros Hi. rewrite elem_of_app, elem_of_list_singleton. split; [|tauto].
  intros [[H| ->] Hp]; [auto|congruence].
Qed.

Lemma rinv_skip s0 d seen f cites s i :
  rinv s0 d seen f cites s -> i ∉ seen -> is_Some (st_heap s0 !! i) -> good s0 ->
  pendingb (st_heap s0) i = false -> rinv s0 d (seen ++ [i]) f cites s.
Proof.
  intros RI Hnin [ni Hni] [Hf0 _] Hp.
  assert (citeb (st_heap s0) i = false) as Hci.
  { destruct (citeb (st_heap s0) i) eqn:E; [apply cite_pending in E; congruence|reflexivity]. }
  assert (f i = i) as Hfi by (apply (ri_fix _ _ _ _ _ _ RI); intros [? _]; contradiction).
  destruct RI as [R1 R2 R3 R4 R5 R6 R7 R8]. constructor; auto.
  - rewrite filter_snoc, Hci, app_nil_r. assumption.
  - intros j Hj. apply R5. rewrite <- (in_snoc_pending s0 seen i j Hp). assumption.
  - intros x y Hx Hy E. rewrite elem_of_app, elem_of_list_singleton in Hx, Hy.
    destruct (pendingb (st_heap s0) x) eqn:Ex, (pendingb (st_heap s0) y) eqn:Ey.
    + destruct Hx as [Hx| ->]; [|congruence]. destruct Hy as [Hy| ->]; [auto|congruence].
    + destruct Hx as [Hx| ->]; [|congruence]. destruct Hy as [Hy| ->]; [auto|].
      destruct (R8 x Hx Ex) as [Hge _]. apply Hf0 in Hni. rewrite E, Hfi in Hge. lia.
    + destruct Hy as [Hy| ->]; [|congruence]. destruct Hx as [Hx| ->]; [auto|].
      destruct (R8 y Hy Ey) as [Hge _]. apply Hf0 in Hni. rewrite <- E, Hfi in Hge. lia.
    + rewrite !R5 in E by (intros [_ ?]; congruence). assumption.
  - intros j n Hj. destruct (R7 j n Hj) as (n' & H1 & H2 & H3 & H4 & H5). exists n'.
    split; [assumption|]. split; [assumption|]. split; [assumption|]. split; [|assumption].
    intros Hs. apply H4. rewrite <- (in_snoc_pending s0 seen i j Hp). assumption.
  - intros j Hj Hpj. destruct (proj1 (in_snoc_pending s0 seen i j Hp) (conj Hj Hpj)) as [Hj' _].
    destruct (R8 j Hj' Hpj) as (H1 & n & n' & H2 & H3 & H4 & H5 & H6). split; [assumption|].
    exists n, n'. split; [assumption|]. split; [assumption|]. split; [assumption|]. split; [assumption|].
    eapply resolved_mono; [exact H6| |auto|apply logs_grow_same; reflexivity|eauto|reflexivity|eapply resolved_like; eassumption|auto].
    intros k x Hx. rewrite filter_snoc, Hci, app_nil_r. assumption.
Qed.

Lemma rinv_swap s0 d seen f cites s i s' r nr bl cites' :
  good s0 -> rinv s0 d seen f cites s -> (forall x, x ∈ seen -> is_Some (st_heap s0 !! x)) ->
  i ∉ seen -> pendingb (st_heap s0) i = true ->
  swapped s s' i r nr bl ->
  length cites' = length (List.filter (citeb (st_heap s0)) (seen ++ [i])) ->
  (forall j, is_Some (st_heap s0 !! j) -> backs cites' j = backs cites j ++ bl j) ->
  (forall k ts, nth_error cites k = Some ts -> nth_error cites' k = Some ts) ->
  n_cls nr ∈ [CReference; CError; CCite] ->
  (forall n', like nr n' -> resolved s0 d (seen ++ [i]) cites' s' i n') ->
  rinv s0 d (seen ++ [i]) (fun x => if decide (x = i) then r else f x) cites' s'.
Proof.
  intros Hg0 RI Hex Hnin Hp SW Hlen Hbacks Hpre Hcls Hres.
  pose proof (pendingb_cases _ _ Hp) as (n0 & Hn0 & Hpc).
  assert (Hilt : i < st_next s0) by (apply (proj1 Hg0) in Hn0; assumption).
  assert (Hfi : f i = i) by (apply (ri_fix _ _ _ _ _ _ RI); intros [? _]; contradiction).
  assert (Hfne : forall x, x <> i -> f x <> i).
  { intros x Hx E. destruct (decide (x ∈ seen)) as [Hin|Hn]; [destruct (pendingb (st_heap s0) x) eqn:Ex|].
    - destruct (ri_res _ _ _ _ _ _ RI x Hin Ex) as [Hge _]. lia.
    - rewrite (ri_fix _ _ _ _ _ _ RI) in E by (intros [_ ?]; congruence). contradiction.
    - rewrite (ri_fix _ _ _ _ _ _ RI) in E by (intros [? _]; contradiction). contradiction. }
  assert (Hswap : forall l, map (swap i r) (map f l) = map (fun x => if decide (x = i) then r else f x) l).
  { intros l. rewrite map_map. apply map_ext. intros x. destruct (decide (x = i)) as [-> |Hx].
    - rewrite Hfi. apply swap_same.
    - apply swap_other. auto. }
  destruct (sw_fresh _ _ _ _ _ _ SW) as [Hr1 Hr2]. pose proof (ri_next _ _ _ _ _ _ RI) as Hnx.
  assert (Hflt : forall x, x ∈ seen -> f x < st_next s).
  { intros x Hx. destruct (pendingb (st_heap s0) x) eqn:Ex.
    - destruct (ri_res _ _ _ _ _ _ RI x Hx Ex) as (_ & m & m' & _ & Hm' & _).
      apply (proj1 (ri_good _ _ _ _ _ _ RI)) in Hm'. assumption.
    - rewrite (ri_fix _ _ _ _ _ _ RI) by (intros [_ ?]; congruence).
      destruct (Hex x Hx) as [nx Hnxx]. apply (proj1 Hg0) in Hnxx. lia. }
  assert (Hset : forall j, ~ (j ∈ seen ++ [i] /\ pendingb (st_heap s0) j = true) ->
                 j <> i /\ ~ (j ∈ seen /\ pendingb (st_heap s0) j = true)).
  { intros j Hj. split.
    - intros ->. apply Hj. split; [|assumption]. apply elem_of_app. right. constructor.
    - intros [H1 H2]. apply Hj. split; [|assumption]. apply elem_of_app. auto. }
  assert (Hkeep : forall x m, st_heap s !! x = Some m -> exists m', st_heap s' !! x = Some m' /\ n_cls m' = n_cls m /\
     n_attrs m' !! a_number = n_attrs m !! a_number).
  { intros x m Hm. destruct (sw_old _ _ _ _ _ _ SW _ _ Hm) as (m' & E1 & E2 & _ & _ & E3 & _). exists m'.
    split; [assumption|]. split; [assumption|]. apply E3. discriminate. }
  constructor.
  - apply SW.
  - lia.
  - eapply logs_grow_trans; [apply RI|apply SW].
  - assumption.
  - intros j Hj. apply Hset in Hj as [Hj1 Hj2]. rewrite decide_False by assumption.
    apply (ri_fix _ _ _ _ _ _ RI). assumption.
  - intros x y Hx Hy. rewrite elem_of_app, elem_of_list_singleton in Hx, Hy.
    destruct (decide (x = i)) as [-> |Hxi], (decide (y = i)) as [-> |Hyi]; intros E.
    + reflexivity.
    + destruct Hy as [Hy|Hy]; [|contradiction]. apply Hflt in Hy. lia.
    + destruct Hx as [Hx|Hx]; [|contradiction]. apply Hflt in Hx. lia.
    + destruct Hx as [Hx|Hx]; [|contradiction]. destruct Hy as [Hy|Hy]; [|contradiction].
      eapply (ri_inj _ _ _ _ _ _ RI); assumption.
  - intros j n Hj. destruct (ri_old _ _ _ _ _ _ RI _ _ Hj) as (n1 & A1 & A2 & A3 & A4 & A5 & A6).
    destruct (sw_old _ _ _ _ _ _ SW _ _ A1) as (n2 & B1 & B2 & B3 & B4 & B5 & B6).
    exists n2. split; [assumption|]. split; [congruence|]. split; [rewrite B4, A3; apply Hswap|].
    split; [|split].
    + intros Hs. apply Hset in Hs as [Hs1 Hs2]. rewrite B3, decide_False by assumption. auto.
    + intros a Ha. rewrite B5, A5; auto.
    + rewrite B6, A6, Hbacks by eauto. rewrite app_assoc. reflexivity.
  - intros j Hj Hpj. destruct (decide (j = i)) as [-> |Hji].
    + split; [lia|]. destruct (sw_new _ _ _ _ _ _ SW) as (q & (m & Hm & Em) & Hq).
      destruct (ri_old _ _ _ _ _ _ RI _ _ Hn0) as (n1 & A1 & A2 & A3 & A4 & _).
      exists n0, (set_n_parent (Some q) nr). split; [assumption|]. split; [assumption|].
      split; [simpl; rewrite <- A4, <- Em; [congruence|intros [? _]; contradiction]|].
      split; [simpl; assumption|]. apply Hres. split; [reflexivity|]. split.
      * unfold kids. simpl. rewrite (sw_leaf _ _ _ _ _ _ SW). destruct (has_children _); reflexivity.
      * reflexivity.
    + rewrite elem_of_app, elem_of_list_singleton in Hj. destruct Hj as [Hj|Hj]; [|contradiction].
      destruct (ri_res _ _ _ _ _ _ RI j Hj Hpj) as (A0 & m & m1 & A1 & A2 & A3 & A4 & A5). split; [assumption|].
      destruct (sw_old _ _ _ _ _ _ SW _ _ A2) as (n2 & B1 & B2 & B3 & B4 & B5 & B6).
      exists m, n2. split; [assumption|]. split; [assumption|].
      split; [rewrite B3, decide_False by auto; assumption|]. split; [rewrite B2; assumption|].
      eapply resolved_mono; [exact A5| |exact Hpre|apply SW|exact Hkeep|assumption| |assumption].
      * intros k x Hx. rewrite filter_snoc. destruct (citeb (st_heap s0) i); [apply nth_error_snoc|rewrite app_nil_r]; assumption.
      * rewrite B4, (resolved_like _ _ _ _ _ _ _ A5). reflexivity.
Qed.

(** *** One visit *)
Lemma no_error_labels_old s0 d seen f cites s :
  rinv s0 d seen f cites s -> no_error_labels d (st_heap s0) -> no_error_labels d (st_heap s).
Proof.
  intros RI H l x Hl. destruct (H l x Hl) as (n & Hn & Hc).
  destruct (ri_old _ _ _ _ _ _ RI _ _ Hn) as (n' & E1 & E2 & _). exists n'. split; [assumption|congruence].
Qed.
Lemma like_refl nr : n_children nr = [] -> like nr nr.
Proof. intros H. split; [reflexivity|]. split; [|reflexivity]. unfold kids. rewrite H. destruct (has_children _); reflexivity. Qed.

Definition same_or_swapped (s s' : st) (i : id) : Prop := s' = s \/ exists r nr bl, swapped s s' i r nr bl.

Lemma resolve_visit_swaps fuel d k i s s' k' :
  good s -> no_error_labels d (st_heap s) ->
  visit (cond_exact pending_classes) (resolve_body fuel d) k i s = (s', Ok k') -> same_or_swapped s s' i.
Proof.
  intros Hg Hd H. unfold visit in H. apply bind_ok in H as (s1 & n & Hi & H).
  apply get_node_ok in Hi as [-> Hi].
  destruct (cond_exact pending_classes n); [|msteps; left; reflexivity].
  unfold resolve_body in H. apply bind_ok in H as (s1 & c & Hc & H). apply cls_of_ok in Hc as (-> & m & Hm & ->).
  destruct (subclass (n_cls m) CPendingReference).
  { apply bind_ok in H as (s1 & u & H1 & H). msteps. right.
    destruct (resolve_reference_ok _ _ _ _ _ Hg Hd H1) as (r & nr & lbl & SW & _). eauto. }
  destruct (subclass (n_cls m) CPendingCite).
  { apply bind_ok in H as (s1 & u & H1 & H). msteps. right.
    destruct (resolve_cite_ok d k i s s1 u Hg) as (r & ls & ts & SW & _); [|eassumption|eauto].
    intros l x Hl. destruct (Hd l x Hl) as (nx & Hx & _). eauto. }
  destruct (subclass (n_cls m) CPendingPrev).
  { apply bind_ok in H as (s1 & u & H1 & H). msteps. right.
    destruct (resolve_prev_ok _ _ _ _ _ Hg H1) as (r & y & ov & SW & _). eauto. }
  msteps. left. reflexivity.
Qed.

Lemma rinv_visit fuel s0 d seen f cites s i s' k' :
  good s0 -> rinv s0 d seen f cites s -> no_error_labels d (st_heap s0) ->
  (forall x, x ∈ seen -> is_Some (st_heap s0 !! x)) -> i ∉ seen -> is_Some (st_heap s0 !! i) ->
  visit (cond_exact pending_classes) (resolve_body fuel d) (length cites) i s = (s', Ok k') ->
  exists f' cites', rinv s0 d (seen ++ [i]) f' cites' s' /\ k' = length cites'.
Proof.
  intros Hg0 RI Hd0 Hex Hnin [n0 Hn0] H.
  pose proof (ri_good _ _ _ _ _ _ RI) as Hg.
  pose proof (no_error_labels_old _ _ _ _ _ _ RI Hd0) as Hd.
  destruct (ri_old _ _ _ _ _ _ RI _ _ Hn0) as (n & Hi & Ec & Ek & Ep & Ea & _).
  assert (Hval : forall a, a <> a_backlinks -> value (st_heap s) i a = value (st_heap s0) i a).
  { intros a Ha. rewrite (value_some _ _ _ _ Hi), (value_some _ _ _ _ Hn0). auto. }
  unfold visit in H. apply bind_ok in H as (s1 & m & Hm & H).
  apply get_node_ok in Hm as [-> Hm]. rewrite Hi in Hm. injection Hm as <-.
  assert (Epend : cond_exact pending_classes n = pendingb (st_heap s0) i).
  { unfold pendingb, holds. rewrite Hn0. unfold cond_exact. rewrite Ec. reflexivity. }
  rewrite Epend in H. destruct (pendingb (st_heap s0) i) eqn:Hp.
  2:{ msteps. exists f, cites. split; [|reflexivity]. eapply rinv_skip; eauto. }
  unfold resolve_body in H. apply bind_ok in H as (s1 & c & Hc & H). apply cls_of_ok in Hc as (-> & m & Hm & ->).
  rewrite Hi in Hm. injection Hm as <-.
  destruct (pendingb_cases _ _ Hp) as (n1 & Hn1 & Hcases). rewrite Hn0 in Hn1. injection Hn1 as <-.
  assert (Hnp : ~ settled s0 seen i) by (intros [? _]; contradiction).
  assert (Hlen : length cites = length (List.filter (citeb (st_heap s0)) seen)) by apply RI.
  destruct Hcases as [Hcl|[Hcl|Hcl]].
  - rewrite Ec, Hcl in H. change (subclass CPendingReference CPendingReference) with true in H. cbv iota in H.
    apply bind_ok in H as (s1 & u & H1 & H). msteps.
    destruct (resolve_reference_ok _ _ _ _ _ Hg Hd H1) as (r & nr & lbl & SW & Hv & Hr & Hw).
    rewrite Hval in Hv, Hr by discriminate.
    assert (Hci : citeb (st_heap s0) i = false) by (unfold citeb, holds, cond_exact; rewrite Hn0, Hcl; reflexivity).
    exists (fun x => if decide (x = i) then r else f x), cites. split; [|reflexivity].
    eapply rinv_swap; try eassumption.
    + rewrite filter_snoc, Hci, app_nil_r. assumption.
    + intros j _. rewrite app_nil_r. reflexivity.
    + auto.
    + unfold ref_node in Hr. destruct (lookup_label d lbl); [destruct Hr as (ov & _ & ->)|rewrite Hr];
        change (n_cls (mk_node ?c _)) with c; set_solver.
    + intros n' Hlike. unfold resolved, class_in. rewrite Hn0. simpl. rewrite Hcl. exists lbl, nr. auto.
  - rewrite Ec, Hcl in H. change (subclass CPendingCite CPendingReference) with false in H.
    change (subclass CPendingCite CPendingCite) with true in H. cbv iota in H.
    apply bind_ok in H as (s1 & u & H1 & H). msteps.
    destruct (resolve_cite_ok d (length cites) i s s1 u Hg) as (r & ls & ts & SW & Hv & Hts); [|assumption|].
    { intros l x Hl. destruct (Hd l x Hl) as (nx & Hx & _). eauto. }
    rewrite Hval in Hv by discriminate.
    assert (Hci : citeb (st_heap s0) i = true) by (unfold citeb, holds, cond_exact; rewrite Hn0, Hcl; reflexivity).
    exists (fun x => if decide (x = i) then r else f x), (cites ++ [ts]).
    split; [|rewrite app_length; simpl; lia].
    eapply rinv_swap; try eassumption.
    + rewrite filter_snoc, Hci, !app_length. simpl. lia.
    + intros j _. apply backs_snoc.
    + intros k ts'. apply nth_error_snoc.
    + change (n_cls (cite_node _ _)) with CCite. set_solver.
    + intros n' Hlike. unfold resolved, class_in. rewrite Hn0. simpl. rewrite Hcl. exists (length cites), ls, ts.
      split; [rewrite filter_snoc, Hci, nth_error_app2, Hlen, Nat.sub_diag by lia; reflexivity|].
      split; [assumption|]. split; [rewrite nth_error_app2, Nat.sub_diag by lia; reflexivity|].
      split; [|assumption]. eapply Forall2_impl; [exact Hts|]. intros l x Hx.
      eapply cite_target_mono; [exact Hx|apply RI|eauto].
  - rewrite Ec, Hcl in H. change (subclass CPendingPrev CPendingReference) with false in H.
    change (subclass CPendingPrev CPendingCite) with false in H.
    change (subclass CPendingPrev CPendingPrev) with true in H. cbv iota in H.
    apply bind_ok in H as (s1 & u & H1 & H). msteps.
    destruct (resolve_prev_ok _ _ _ _ _ Hg H1) as (r & y & ov & SW & Hv & Hy).
    rewrite Hval in Hv by discriminate.
    assert (Hci : citeb (st_heap s0) i = false) by (unfold citeb, holds, cond_exact; rewrite Hn0, Hcl; reflexivity).
    exists (fun x => if decide (x = i) then r else f x), cites. split; [|reflexivity].
    eapply rinv_swap; try eassumption.
    + rewrite filter_snoc, Hci, app_nil_r. assumption.
    + intros j _. rewrite app_nil_r. reflexivity.
    + auto.
    + change (n_cls (mk_node ?c _)) with c. set_solver.
    + intros n' Hlike. unfold resolved, class_in. rewrite Hn0. simpl. rewrite Hcl. exists y, ov.
      split; [assumption|]. split; [|assumption]. eapply tr_prev_target; eauto.
Qed.

(** *** The whole pass *)
Lemma rinv_fold fuel s0 d : good s0 -> no_error_labels d (st_heap s0) ->
  forall l seen f cites s s' k',
  NoDup (seen ++ l) -> (forall x, x ∈ seen ++ l -> is_Some (st_heap s0 !! x)) ->
  rinv s0 d seen f cites s ->
  foldM (visit (cond_exact pending_classes) (resolve_body fuel d)) (length cites) l s = (s', Ok k') ->
  exists f' cites', rinv s0 d (seen ++ l) f' cites' s' /\ k' = length cites'.
Proof.
  intros Hg0 Hd. induction l as [|i l IH]; intros seen f cites s s' k' Hnd Hex RI H.
  - simpl in H. msteps. exists f, cites. rewrite app_nil_r. auto.
  - simpl in H. apply bind_ok in H as (s1 & k1 & H1 & H).
    destruct (rinv_visit fuel s0 d seen f cites s i s1 k1) as (f1 & c1 & RI1 & ->); auto.
    + intros x Hx. apply Hex. apply elem_of_app. auto.
    + apply NoDup_app in Hnd as (_ & Hn & _). intros Hin. apply (Hn i Hin). constructor.
    + apply Hex. apply elem_of_app. right. constructor.
    + specialize (IH (seen ++ [i]) f1 c1 s1 s' k'). rewrite <- app_assoc in IH. simpl in IH. eauto.
Qed.

Definition trav_inv (d : labels) (s : st) (rem : list id) : Prop :=
  good s /\ no_error_labels d (st_heap s) /\ NoDup rem /\ (forall x, x ∈ rem -> is_Some (st_heap s !! x)) /\
  (forall l1 x l2 q, rem = l1 ++ x :: l2 -> parent_is (st_heap s) x q -> q ∉ x :: l2).
Lemma resolve_trav_step fuel d s i rem acc s' acc' n :
  trav_inv d s (i :: rem) -> st_heap s !! i = Some n ->
  visit (cond_exact pending_classes) (resolve_body fuel d) acc i s = (s', Ok acc') ->
  trav_inv d s' rem /\ forall j, j ∈ i :: rem -> kids_same (st_heap s) (st_heap s') j.
Proof.
  intros (Hg & Hd & Hnd & Hex & Hpar) Hi H.
  apply list.NoDup_cons in Hnd as [Hnin Hnd].
  destruct (resolve_visit_swaps _ _ _ _ _ _ _ Hg Hd H) as [-> |(r & nr & bl & SW)].
  - split.
    + split; [assumption|]. split; [assumption|]. split; [assumption|]. split.
      * intros x Hx. apply Hex. constructor. assumption.
      * intros l1 x l2 q E Hq. apply (Hpar (i :: l1) x l2 q); [simpl; congruence|assumption].
    + intros j _ m Hm. eauto.
  - split.
    + split; [apply SW|]. split; [|split; [assumption|split]].
      * intros l x Hl. destruct (Hd l x Hl) as (m & Hm & Hc).
        destruct (sw_old _ _ _ _ _ _ SW _ _ Hm) as (m' & E1 & E2 & _). exists m'. split; [assumption|congruence].
      * intros x Hx. destruct (Hex x) as [m Hm]; [constructor; assumption|].
        destruct (sw_old _ _ _ _ _ _ SW _ _ Hm) as (m' & E1 & _). eauto.
      * intros l1 x l2 q E (m & Hm & Em).
        assert (Hx : x ∈ rem) by (rewrite E; apply elem_of_app; right; constructor).
        destruct (Hex x) as [m0 Hm0]; [constructor; assumption|].
        destruct (sw_old _ _ _ _ _ _ SW _ _ Hm0) as (m' & E1 & _ & E2 & _).
        rewrite decide_False in E2 by (intros ->; contradiction).
        apply (Hpar (i :: l1) x l2 q); [simpl; congruence|]. exists m0. split; [assumption|congruence].
    + intros j Hj m Hm. destruct (sw_old _ _ _ _ _ _ SW _ _ Hm) as (m' & E1 & _ & _ & E3 & _).
      exists m'. split; [assumption|]. rewrite E3. apply map_swap_other. intros Hin.
      apply (Hpar [] i rem j eq_refl); [|assumption].
      apply (cons_parent _ (proj2 Hg)). exists m. auto.
Qed.

Lemma manuscript_good s t : manuscript s t -> good s.
Proof. intros []. split; assumption. Qed.
Lemma manuscript_some s t x : manuscript s t -> x ∈ doc_order t -> is_Some (st_heap s !! x).
Proof. intros [_ _ [Ht _]] Hx. eapply tree_at_some; eassumption. Qed.

Lemma resolve_pass fuel d t s s' k' :
  manuscript s t -> no_error_labels d (st_heap s) ->
  for_traverse fuel (cond_exact pending_classes) (resolve_body fuel d) 0 (root t) s = (s', Ok k') ->
  exists f cites, rinv s d (doc_order t) f cites s'.
Proof.
  intros Hms Hd H. pose proof (manuscript_good _ _ Hms) as Hg. pose proof (ms_document _ _ Hms) as [Ht Hnd].
  apply (trav_ok (trav_inv d)) in H.
  - change 0 with (length (@nil (list id))) in H.
    apply (rinv_fold fuel s d Hg Hd (doc_order t) [] (fun x => x)) in H; simpl; auto using rinv_start.
    + destruct H as (f & cites & H & _). eauto.
    + intros x Hx. eapply manuscript_some; eassumption.
  - intros. eapply resolve_trav_step; eassumption.
  - split; [assumption|]. split; [assumption|]. split; [assumption|]. split.
    + intros x Hx. eapply manuscript_some; eassumption.
    + intros l1 x l2 q E Hq. eapply document_parent_before; [split|..]; eassumption.
  - eapply tree_at_kid; eassumption.
Qed.

(** The tree afterwards: every pending node replaced in place. *)
Lemma rinv_document s t d f cites s' :
  manuscript s t -> rinv s d (doc_order t) f cites s' -> manuscript s' (tmap f t).
Proof.
  intros Hms RI. pose proof (manuscript_good _ _ Hms) as Hg. pose proof (ms_document _ _ Hms) as [Ht Hnd].
  split; [apply RI|apply RI|]. split.
  - change None with (option_map f None). eapply tree_at_tmap; [exact Ht|].
    intros x n Hx Hn.
    assert (Hpar : n_parent n = option_map f (n_parent n)).
    { destruct (n_parent n) as [q|] eqn:Eq; [|reflexivity]. simpl. f_equal. symmetry.
      apply (ri_fix _ _ _ _ _ _ RI). intros [_ Hp].
      assert (Hq : parent_is (st_heap s) x q) by (exists n; auto).
      apply (cons_parent _ (proj2 Hg)) in Hq as (m & Hm & Hin).
      rewrite (pendingb_leaf _ _ _ Hp Hm) in Hin. inversion Hin. }
    destruct (pendingb (st_heap s) x) eqn:Hp.
    + destruct (ri_res _ _ _ _ _ _ RI x Hx Hp) as (_ & m & n' & H1 & H2 & H3 & _ & H4).
      rewrite Hn in H1. injection H1 as <-. exists n'. split; [assumption|]. split; [congruence|].
      rewrite (resolved_like _ _ _ _ _ _ _ H4), (pendingb_leaf _ _ _ Hp Hn). reflexivity.
    + destruct (ri_old _ _ _ _ _ _ RI x n Hn) as (n' & H1 & _ & H3 & H4 & _).
      rewrite (ri_fix _ _ _ _ _ _ RI) by (intros [_ ?]; congruence).
      exists n'. split; [assumption|]. split; [|assumption]. rewrite H4; [assumption|]. intros [_ ?]. congruence.
  - rewrite tmap_doc_order. apply (NoDup_fmap_2_strong f); [|assumption].
    intros x y Hx Hy. apply (ri_inj _ _ _ _ _ _ RI); assumption.
Qed.

(** No pending node is left. *)
Lemma rinv_no_pending s t d f cites s' x :
  manuscript s t -> rinv s d (doc_order t) f cites s' -> x ∈ doc_order (tmap f t) -> pendingb (st_heap s') x = false.
Proof.
  intros Hms RI. rewrite tmap_doc_order, elem_of_list_fmap. intros (y & -> & Hy).
  destruct (pendingb (st_heap s) y) eqn:Hp.
  - destruct (ri_res _ _ _ _ _ _ RI y Hy Hp) as (_ & m & n' & H1 & H2 & _ & H3 & _).
    unfold pendingb, holds. rewrite H2. unfold cond_exact.
    rewrite !elem_of_cons in H3. destruct H3 as [-> |[-> |[-> |H3]]]; try reflexivity. inversion H3.
  - rewrite (ri_fix _ _ _ _ _ _ RI) by (intros [_ ?]; congruence).
    destruct (manuscript_some _ _ _ Hms Hy) as [n Hn].
    destruct (ri_old _ _ _ _ _ _ RI y n Hn) as (n' & H1 & H2 & _).
    unfold pendingb, holds in *. rewrite Hn in Hp. rewrite H1. unfold cond_exact in *. rewrite H2. assumption.
Qed.
