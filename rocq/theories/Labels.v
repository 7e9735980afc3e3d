(** The passes that only write attributes: labels. *)
From Verif Require Export Frames SpecTransform Transformer.
From Verif Require Import Meta NodeOps Monad.

Lemma value_only P s s' i a : only P s s' -> ~ P i a -> value (st_heap s') i a = value (st_heap s) i a.
Proof.
  intros (_ & _ & H) Hp. specialize (H i). unfold value.
  destruct (st_heap s !! i), (st_heap s' !! i); auto; try contradiction. apply H. assumption.
Qed.
Lemma value_some h i n a : h !! i = Some n -> value h i a = n_attrs n !! a.
Proof. unfold value. intros ->. reflexivity. Qed.
Lemma value_upd s i a v b j n :
  st_heap s !! i = Some n ->
  value (st_heap (upd s i (set_n_attr a v n))) j b =
  if decide (j = i /\ b = a) then Some v else value (st_heap s) j b.
Proof.
  intros Hi. unfold value. rewrite upd_lookup. destruct (decide (i = j)) as [<-|Hne].
  - simpl. destruct (decide (i = i /\ b = a)) as [[_ ->]|Hn].
    + apply lookup_insert.
    + rewrite Hi. apply lookup_insert_ne. intros ->. apply Hn. auto.
  - destruct (decide (j = i /\ b = a)) as [[-> _]|]; [congruence|reflexivity].
Qed.

Lemma lookup_label_app d d' l :
  lookup_label (d ++ d') l = match lookup_label d l with Some x => Some x | None => lookup_label d' l end.
Proof.
  unfold lookup_label. induction d as [|[k v] d IH]; simpl; [reflexivity|].
  destruct (str_eqb k l); simpl; [reflexivity|exact IH].
Qed.

(** Is the label already taken by the dictionary or by a node of [p]? *)
Definition taken_label (d : labels) (h : gmap id node) (p : list id) (lbl : str) : bool :=
  match lookup_label d lbl with
  | Some _ => true
  | None => existsb (fun j => str_eqb (label_of h j) lbl) p
  end.
Definition find_label (h : gmap id node) (l : list id) (lbl : str) : option id :=
  find (fun i => str_eqb (label_of h i) lbl) l.

Lemma only_collect_body d i : changes (only (fun j a => j = i /\ a = a_label)) (collect_body d i).
Proof.
  unfold collect_body. apply ch_bind; [apply only_trans|apply ch_get_str; [apply only_refl|apply only_trans]|].
  intros l. destruct (lookup_label d l); [|apply ch_ret, only_refl].
  apply ch_bind; [apply only_trans|apply only_log|]. intros _.
  apply ch_bind; [apply only_trans|apply only_setattr; auto|]. intros _. apply ch_ret, only_refl.
Qed.
Lemma find_label_ext h h' l lbl :
  (forall j, j ∈ l -> label_of h' j = label_of h j) -> find_label h' l lbl = find_label h l lbl.
Proof.
  unfold find_label. induction l as [|i l IH]; intros He; simpl; [reflexivity|].
  rewrite He by constructor. destruct (str_eqb _ _); [reflexivity|]. apply IH.
  intros j Hj. apply He. constructor. assumption.
Qed.
Lemma existsb_ext_in {A} (f g : A -> bool) (l : list A) :
  (forall j, j ∈ l -> f j = g j) -> existsb f l = existsb g l.
Proof.
  induction l as [|i l IH]; intros He; simpl; [reflexivity|]. rewrite He by constructor. rewrite IH; auto.
  intros j Hj. apply He. constructor. assumption.
Qed.

Lemma collect_fold : forall (l : list id) d s s' d',
  NoDup l -> foldM (visit (cond_attr a_label) collect_body) d l s = (s', Ok d') ->
  only (fun j a => j ∈ l /\ a = a_label) s s' /\
  (forall lbl, lookup_label d' lbl =
     match lookup_label d lbl with
     | Some x => Some x
     | None => match lbl with [] => None | _ => find_label (st_heap s) l lbl end
     end) /\
  (forall p i q, l = p ++ i :: q ->
     value (st_heap s') i a_label =
     match label_of (st_heap s) i with
     | [] => value (st_heap s) i a_label
     | lbl => if taken_label d (st_heap s) p lbl then Some (VStr []) else value (st_heap s) i a_label
     end).
Proof.
  induction l as [|i l IH]; intros d s s' d' Hnd H.
  - cbn [foldM] in H. apply ret_ok in H as [-> ->]. split; [apply only_refl|]. split.
    + intros lbl. destruct (lookup_label d lbl); [reflexivity|]. destruct lbl; reflexivity.
    + intros [|? ?] ? ?; discriminate.
  - cbn [foldM] in H. apply bind_ok in H as (s1 & d1 & Hv & H).
    apply list.NoDup_cons in Hnd as [Hi Hnd].
    pose proof (ch_run _ _ _ _ _ (ch_visit _ (only_refl _) (only_trans _) (cond_attr a_label) _ d i
                  (only_collect_body d i)) Hv) as Ho.
    destruct (IH _ _ _ _ Hnd H) as (Ho1 & Hd & Hval). clear IH.
    assert (Hlab : forall j, j <> i -> label_of (st_heap s1) j = label_of (st_heap s) j).
    { intros j Hj. unfold label_of. rewrite (value_only _ _ _ _ _ Ho); [reflexivity|]. tauto. }
    assert (Hl : forall j, j ∈ l -> label_of (st_heap s1) j = label_of (st_heap s) j).
    { intros j Hj. apply Hlab. intros ->. contradiction. }
    (* what the visit of i did *)
    assert (Hstep : (forall lbl, lookup_label d1 lbl =
                match lookup_label d lbl with
                | Some x => Some x
                | None => match lbl with [] => None | _ => if str_eqb (label_of (st_heap s) i) lbl then Some i else None end
                end) /\
              value (st_heap s1) i a_label =
                match label_of (st_heap s) i with
                | [] => value (st_heap s) i a_label
                | lbl => match lookup_label d lbl with Some _ => Some (VStr []) | None => value (st_heap s) i a_label end
                end).
    { unfold visit in Hv. apply bind_ok in Hv as (s0 & n & Hn & Hv). apply get_node_ok in Hn as [-> Hn].
      assert (Hvi : value (st_heap s) i a_label = n_attrs n !! a_label) by (apply value_some; assumption).
      unfold cond_attr in Hv. destruct (n_attrs n !! a_label) as [v|] eqn:Ev.
      2:{ apply ret_ok in Hv as [-> ->]. unfold label_of. rewrite Hvi. split; [|reflexivity].
          intros [|x lbl]; destruct (lookup_label d _); auto. }
      destruct (truthy v) eqn:Et.
      2:{ apply ret_ok in Hv as [-> ->].
          assert (label_of (st_heap s) i = []) as ->.
          { unfold label_of. rewrite Hvi. destruct v; try reflexivity. destruct s0; [reflexivity|discriminate]. }
          split; [|reflexivity]. intros [|x lbl]; destruct (lookup_label d _); auto. }
      unfold collect_body in Hv. apply bind_ok in Hv as (s0 & lb & Hg & Hv).
      apply get_str_ok in Hg as (-> & n1 & Hn1 & Hg). assert (n1 = n) as -> by congruence.
      assert (v = VStr lb) as -> by congruence.
      assert (label_of (st_heap s) i = lb) as El by (unfold label_of; rewrite Hvi; reflexivity).
      rewrite El. destruct lb as [|x0 lb]; [discriminate|].
      destruct (lookup_label d (x0 :: lb)) as [y|] eqn:Ed.
      - msteps. split.
        + intros lbl. destruct (lookup_label d lbl) eqn:E; [reflexivity|]. destruct lbl as [|x lbl]; [reflexivity|].
          destruct (str_eqb_spec (x0 :: lb) (x :: lbl)); congruence.
        + erewrite value_upd by eassumption. rewrite decide_True; auto.
      - apply ret_ok in Hv as [-> ->]. split; [|rewrite Hvi; reflexivity].
        intros lbl. rewrite lookup_label_app. destruct (lookup_label d lbl) eqn:E; [reflexivity|].
        unfold lookup_label. cbn [find fst snd]. destruct lbl as [|x lbl].
        + destruct (str_eqb_spec (x0 :: lb) []); [discriminate|reflexivity].
        + destruct (str_eqb (x0 :: lb) (x :: lbl)); reflexivity. }
    destruct Hstep as [Hd1 Hv1]. split; [|split].
    + eapply only_trans.
      * eapply only_weaken; [|exact Ho]. intros j a [-> ->]. split; [constructor|reflexivity].
      * eapply only_weaken; [|exact Ho1]. intros j a [Hj ->]. split; [constructor; assumption|reflexivity].
    + intros lbl. rewrite Hd, Hd1. destruct (lookup_label d lbl); [reflexivity|].
      destruct lbl as [|x lbl]; [reflexivity|].
      change (find_label (st_heap s) (i :: l) (x :: lbl)) with
        (if str_eqb (label_of (st_heap s) i) (x :: lbl) then Some i else find_label (st_heap s) l (x :: lbl)).
      destruct (str_eqb (label_of (st_heap s) i) (x :: lbl)); [reflexivity|].
      apply find_label_ext. assumption.
    + intros [|i' p] j q [= -> Eq].
      * rewrite (value_only _ _ _ _ _ Ho1) by (intros [? _]; contradiction). rewrite Hv1.
        destruct (label_of (st_heap s) j) as [|x lbl]; [reflexivity|].
        unfold taken_label. destruct (lookup_label d (x :: lbl)); reflexivity.
      * rewrite (Hval _ _ _ Eq).
        assert (Hj : j ∈ l) by (rewrite Eq; apply elem_of_app; right; constructor).
        rewrite (Hl j Hj).
        assert (value (st_heap s1) j a_label = value (st_heap s) j a_label) as ->.
        { apply (value_only _ _ _ _ _ Ho). intros [-> _]. contradiction. }
        destruct (label_of (st_heap s) j) as [|x lbl]; [reflexivity|].
        assert (taken_label d1 (st_heap s1) p (x :: lbl) = taken_label d (st_heap s) (i' :: p) (x :: lbl)) as ->; [|reflexivity].
        unfold taken_label. rewrite Hd1. destruct (lookup_label d (x :: lbl)); [reflexivity|].
        cbn [existsb]. destruct (str_eqb (label_of (st_heap s) i') (x :: lbl)); cbn [orb]; [reflexivity|].
        apply existsb_ext_in. intros k Hk. rewrite Hl; [reflexivity|]. rewrite Eq. apply elem_of_app. auto.
Qed.

Lemma collect_labels_ok fuel d t s s' d' :
  document (st_heap s) t ->
  collect_labels fuel d (root t) s = (s', Ok d') ->
  only (fun j a => j ∈ doc_order t /\ a = a_label) s s' /\
  (forall lbl, lookup_label d' lbl =
     match lookup_label d lbl with
     | Some x => Some x
     | None => match lbl with [] => None | _ => find_label (st_heap s) (doc_order t) lbl end
     end) /\
  (forall p i q, doc_order t = p ++ i :: q ->
     value (st_heap s') i a_label =
     match label_of (st_heap s) i with
     | [] => value (st_heap s) i a_label
     | lbl => if taken_label d (st_heap s) p lbl then Some (VStr []) else value (st_heap s) i a_label
     end).
Proof.
  intros [Ht Hnd] H. unfold collect_labels in H.
  apply (trav_attr (fun _ a => a = a_label) _ _ _ None) in H; [| |exact Ht].
  - eapply collect_fold; eassumption.
  - intros acc i s0. eapply only_weaken; [|apply only_collect_body]. simpl. tauto.
Qed.

Lemma find_label_first h l lbl x :
  lbl <> [] -> find_label h l lbl = Some x <-> first_labelled h l lbl x.
Proof.
  intros Hne. unfold find_label, first_labelled. induction l as [|i l IH]; simpl.
  - split; [discriminate|]. intros (_ & _ & [|] & l2 & E & _); discriminate.
  - destruct (str_eqb_spec (label_of h i) lbl) as [E|E].
    + split.
      * intros [= <-]. split; [assumption|]. split; [assumption|]. exists [], l.
        split; [reflexivity|]. intros y Hy. inversion Hy.
      * intros (_ & Hx & [|j l1] & l2 & El & Hl1); [simpl in El; congruence|]. injection El as -> _.
        exfalso. apply (Hl1 j); [constructor|assumption].
    + rewrite IH. split; intros (_ & Hx & l1 & l2 & El & Hl1).
      * split; [assumption|]. split; [assumption|]. exists (i :: l1), l2. rewrite El. split; [reflexivity|].
        intros y Hy. apply elem_of_cons in Hy as [->|Hy]; auto.
      * split; [assumption|]. split; [assumption|]. destruct l1 as [|j l1]; [simpl in El; congruence|].
        injection El as -> ->. exists l1, l2. split; [reflexivity|]. intros y Hy. apply Hl1. constructor. assumption.
Qed.
Lemma find_label_none h l lbl : find_label h l lbl = None <-> unlabelled h l lbl.
Proof.
  unfold find_label, unlabelled. induction l as [|i l IH]; simpl.
  - split; [intros _ y Hy; inversion Hy|reflexivity].
  - destruct (str_eqb_spec (label_of h i) lbl) as [E|E].
    + split; [discriminate|]. intros Hl. exfalso. apply (Hl i); [constructor|assumption].
    + rewrite IH. split.
      * intros Hl y Hy. apply elem_of_cons in Hy as [->|Hy]; auto.
      * intros Hl y Hy. apply Hl. constructor. assumption.
Qed.
