(** What one iteration of the parser does to the heap. *)
From Verif Require Import TreeFacts Meta TocBuild.
From Verif Require Export SpecParse.
From Verif Require Import Consistency NodeProofs NodeOps Monad.
Local Open Scope string_scope.
Local Open Scope list_scope.

Lemma attrs_became_refl s i : is_Some (st_heap s !! i) -> attrs_became s s i (fun m => m).
Proof. intros [n Hn]. exists n. destruct n. repeat split; auto. Qed.
Lemma attrs_became_trans s1 s2 s3 i f g :
  attrs_became s1 s2 i f -> attrs_became s2 s3 i g -> attrs_became s1 s3 i (fun m => g (f m)).
Proof.
  intros (n & H1 & H2 & H3 & H4 & H5) (n' & K1 & K2 & K3 & K4 & K5).
  rewrite H2 in K1. injection K1 as <-. exists n. split; [assumption|]. split; [exact K2|].
  split; [intros j Hj; rewrite K3, H3 by assumption; reflexivity|]. split; congruence.
Qed.
Lemma attrs_became_set s i a v n :
  st_heap s !! i = Some n -> attrs_became s (upd s i (set_n_attr a v n)) i (fun m => <[a := v]> m).
Proof.
  intros Hn. exists n. split; [assumption|]. split; [rewrite upd_lookup, decide_True; reflexivity|].
  split; [|split; reflexivity]. intros j Hj. rewrite upd_lookup, decide_False by congruence. reflexivity.
Qed.
Lemma attrs_became_ext s s' i f g : (forall n, st_heap s !! i = Some n -> f (n_attrs n) = g (n_attrs n)) ->
  attrs_became s s' i f -> attrs_became s s' i g.
Proof. intros E (n & H1 & H2 & H). exists n. rewrite <- (E n H1). auto. Qed.
Lemma attrs_became_some s s' i f : attrs_became s s' i f -> is_Some (st_heap s' !! i).
Proof. intros (n & _ & H & _). eauto. Qed.

Lemma ingest_meta_ok i c s s' u :
  is_Some (st_heap s !! i) -> ingest_meta i c s = (s', Ok u) -> attrs_became s s' i (with_meta c).
Proof.
  intros Hi H. unfold ingest_meta in H. unfold with_meta, meta_data.
  destruct (field_child "meta" c) as [m|].
  - msteps. unfold lift in H0. destruct (parse_meta (pl_node m)) as [d|]; [|discriminate]. msteps.
    unfold ingest_dict_as_meta in H. apply ingest_go in H; assumption.
  - msteps. apply attrs_became_refl. assumption.
Qed.

Lemma type_in_true l t : type_in l t = true -> exists x, In x l /\ t = lit x.
Proof.
  unfold type_in, str_mem. intros H. apply existsb_exists in H as (y & Hy & E).
  apply in_map_iff in Hy as (x & <- & Hx). apply str_eqb_true in E. eauto.
Qed.
Lemma nth_named_ok k c s s' p :
  nth_named k c s = (s', Ok p) -> s' = s /\ nth_error (named_children c) k = Some p.
Proof. unfold nth_named. destruct (nth_error _ _); intros H; msteps. auto. Qed.

(** Lines 612-638. *)
Definition set_parts (t : str) (i : id) (c : cst) : M (list nat) :=
  do! set_kind t i c in
  let! s1 := set_target t i c in
  do! set_prev t i in
  let! s2 := set_cite t i c in
  ret (s1 ++ s2).
Ltac type_case H := apply type_in_true in H as (? & [<-|H] & ->); [|].
Lemma set_parts_ok t i c s s' l :
  is_Some (st_heap s !! i) -> set_parts t i c s = (s', Ok l) ->
  attrs_became s s' i (with_parts t c) /\ l = skipped_parts t c.
Proof.
  intros [n Hn] H. unfold set_parts in H.
  apply bind_ok in H as (s3 & u0 & H0 & H). apply bind_ok in H as (s2 & a0 & H1 & H).
  apply bind_ok in H as (s4 & u1 & H2 & H). apply bind_ok in H as (s1 & a2 & H3 & H). apply ret_ok in H as [-> ->].
  unfold with_parts, skipped_parts.
  destruct (type_in ["ref"; "previous"; "url"] t) eqn:E1.
  { assert (s3 = s) as ->.
    { apply type_in_true in E1 as (z & [<-|[<-|[<-|[]]]] & ->); vm_compute in H0; injection H0 as <-; reflexivity. }
    unfold set_target in H1. rewrite E1 in H1. msteps. grab (nth_named _ _ _ = _) as HN. apply nth_named_ok in HN as (-> & Hp).
    assert (s4 = s2 /\ s1 = s4 /\ a2 = []) as (-> & -> & ->).
    { apply type_in_true in E1 as (z & [<-|[<-|[<-|[]]]] & ->);
        vm_compute in H2; injection H2 as <-; vm_compute in H3; injection H3 as <- <-; auto. }
    rewrite Hp. rewrite app_nil_r. simpl text_at.
    destruct (nth_error (named_children c) 2) as [q|]; msteps.
    - split; [|reflexivity]. eapply attrs_became_trans; [apply attrs_became_set; eassumption|].
      apply attrs_became_set. eassumption.
    - split; [|reflexivity]. apply attrs_became_set. assumption. }
  assert (s2 = s3 /\ a0 = []) as [-> ->].
  { unfold set_target in H1. rewrite E1 in H1. msteps. auto. }
  destruct (type_in ["cite"] t) eqn:E2.
  { apply type_in_true in E2 as (z & [<-|[]] & ->). vm_compute in H0. injection H0 as <-.
    vm_compute in H2. injection H2 as <-. unfold set_cite in H3.
    change (type_in ["cite"] (lit "cite")) with true in H3. cbv iota in H3. msteps.
    grab (nth_named _ _ _ = _) as HN. apply nth_named_ok in HN as (-> & Hp). rewrite Hp. split; [|reflexivity].
    simpl text_at. eapply attrs_became_set. eassumption. }
  assert (s1 = s4 /\ a2 = []) as [-> ->].
  { unfold set_cite in H3. rewrite E2 in H3. msteps. auto. }
  split; [|reflexivity]. clear H1 H3 E1 E2.
  destruct (type_in ["prev"] t) eqn:E3.
  { apply type_in_true in E3 as (z & [<-|[]] & ->). vm_compute in H0. injection H0 as <-.
    unfold set_prev in H2. change (str_eqb (lit "prev") (lit "prev")) with true in H2. cbv iota in H2. msteps.
    apply attrs_became_set. assumption. }
  destruct (type_in ["prev2"] t) eqn:E4.
  { apply type_in_true in E4 as (z & [<-|[]] & ->). vm_compute in H0. injection H0 as <-.
    unfold set_prev in H2. change (str_eqb (lit "prev2") (lit "prev")) with false in H2.
    change (str_eqb (lit "prev2") (lit "prev2")) with true in H2. cbv iota in H2. msteps.
    apply attrs_became_set. assumption. }
  destruct (type_in ["prev3"] t) eqn:E5.
  { apply type_in_true in E5 as (z & [<-|[]] & ->). vm_compute in H0. injection H0 as <-.
    unfold set_prev in H2. change (str_eqb (lit "prev3") (lit "prev")) with false in H2.
    change (str_eqb (lit "prev3") (lit "prev2")) with false in H2.
    change (str_eqb (lit "prev3") (lit "prev3")) with true in H2. cbv iota in H2. msteps.
    apply attrs_became_set. assumption. }
  assert (s4 = s3) as ->.
  { unfold type_in, str_mem in E3, E4, E5. cbn -[lit str_eqb] in E3, E4, E5.
    rewrite orb_false_r in E3, E4, E5. unfold set_prev in H2. rewrite E3, E4, E5 in H2. msteps. reflexivity. }
  unfold set_kind in H0. destruct (type_in _ t).
  - destruct (field_child "tag" c); msteps; [apply attrs_became_set; assumption|].
    apply attrs_became_refl. eauto.
  - msteps. apply attrs_became_refl. eauto.
Qed.

Lemma pad_text_ok t i x s s' u :
  is_Some (st_heap s !! i) -> pad_text t i x (pl_node x) s = (s', Ok u) ->
  attrs_became s s' i (fun m => if type_in ["text"] t then on_text (padded x) m else m).
Proof.
  intros Hi H. unfold pad_text in H. destruct (type_in ["text"] t).
  2:{ msteps. apply attrs_became_refl. assumption. }
  msteps. rename H0 into HA, H into HB. unfold padded, below.
  assert (Hid : forall m, on_text (fun s => s) m = m).
  { intros m. unfold on_text. destruct (m !! a_text) as [[]|] eqn:E; try reflexivity. apply insert_id. assumption. }
  set (A := fun r : str => r ++ match pl_next x with
     Some q => if ((c_end (pl_node x)).1 <? (c_start q).1)%Z then lit " " else [] | None => [] end).
  set (B := fun r : str => match pl_prev x with
     Some q => if ((c_end q).1 <? (c_start (pl_node x)).1)%Z then lit " " else [] | None => [] end ++ r).
  assert (H1 : attrs_became s s0 i (on_text A)).
  { destruct (pl_next x) as [q|] eqn:En.
    - destruct (_ <? _)%Z eqn:El.
      + msteps. assert (n0 = n) as -> by congruence. eapply attrs_became_ext; [|apply attrs_became_set; eassumption].
        intros n' Hn'. assert (n' = n) as -> by congruence. unfold on_text.
        match goal with E : n_attrs n !! a_text = Some _ |- _ => rewrite E end. unfold A. reflexivity.
      + msteps. eapply attrs_became_ext; [|apply attrs_became_refl; assumption]. intros n _. symmetry.
        rewrite <- (Hid (n_attrs n)) at 2. unfold on_text, A.
        destruct (n_attrs n !! a_text) as [[]|]; try reflexivity. rewrite app_nil_r. reflexivity.
    - msteps. eapply attrs_became_ext; [|apply attrs_became_refl; assumption]. intros n _. symmetry.
      rewrite <- (Hid (n_attrs n)) at 2. unfold on_text, A.
      destruct (n_attrs n !! a_text) as [[]|]; try reflexivity. rewrite app_nil_r. reflexivity. }
  pose proof (attrs_became_some _ _ _ _ H1) as Hi0.
  assert (H2 : attrs_became s0 s' i (on_text B)).
  { destruct (pl_prev x) as [q|] eqn:En.
    - destruct (_ <? _)%Z eqn:El.
      + msteps. assert (n0 = n) as -> by congruence. eapply attrs_became_ext; [|apply attrs_became_set; eassumption].
        intros n' Hn'. assert (n' = n) as -> by congruence. unfold on_text.
        match goal with E : n_attrs n !! a_text = Some _ |- _ => rewrite E end. unfold B. reflexivity.
      + msteps. eapply attrs_became_ext; [|apply attrs_became_refl; assumption]. intros n _. symmetry. unfold B. apply Hid.
    - msteps. eapply attrs_became_ext; [|apply attrs_became_refl; assumption]. intros n _. symmetry. unfold B. apply Hid. }
  eapply attrs_became_ext; [|eapply attrs_became_trans; eassumption].
  intros n _. unfold on_text at 1 2 3. destruct (n_attrs n !! a_text) as [[| | | |str| | | |]|] eqn:E; try (rewrite E; reflexivity).
  rewrite lookup_insert, insert_insert. reflexivity.
Qed.

(** ** Good states *)

Lemma attrs_became_structure s s' i f : attrs_became s s' i f -> same_structure (st_heap s) (st_heap s').
Proof.
  intros (n & H1 & H2 & H3 & _) j. destruct (decide (j = i)) as [->|Hj].
  - rewrite H1, H2. auto.
  - rewrite H3 by assumption. destruct (st_heap s !! j); auto.
Qed.
Lemma attrs_became_good s s' i f : good s -> attrs_became s s' i f -> good s'.
Proof.
  intros [Hf Hc] Ha. pose proof (attrs_became_structure _ _ _ _ Ha) as HS. split.
  - intros j n Hj. destruct Ha as (_ & _ & _ & _ & -> & _). specialize (HS j). rewrite Hj in HS.
    destruct (st_heap s !! j) eqn:E; [eapply Hf, E|destruct HS].
  - eapply same_structure_consistent; eassumption.
Qed.
(** The parents of old nodes are old. *)
Definition closed (lo : nat) (h : gmap id node) : Prop :=
  forall j n q, j < lo -> h !! j = Some n -> n_parent n = Some q -> q < lo.
Lemma good_closed s : good s -> closed (st_next s) (st_heap s).
Proof.
  intros [Hf Hc] j n q _ Hj Hq. assert (parent_is (st_heap s) j q) as Hp by (exists n; auto).
  apply (cons_parent _ Hc) in Hp as (m & Hm & _). eapply Hf, Hm.
Qed.
Lemma closed_ancestor lo h x y : closed lo h -> ancestor h x y -> x < lo -> y < lo.
Proof. intros Hc. induction 1 as [x p (n & Hn & Hp)|x p y (n & Hn & Hp) _ IH]; intros Hx; [|apply IH]; eapply Hc; eauto. Qed.
Lemma orphan_ancestor h x y n : h !! x = Some n -> n_parent n = None -> ~ ancestor h x y.
Proof. intros Hn Hp H. inversion H as [? ? (m & Hm & Hq)|? ? ? (m & Hm & Hq)]; congruence. Qed.
Lemma childless_ancestor h x y n : consistent h -> h !! y = Some n -> n_children n = [] -> ~ ancestor h x y.
Proof.
  intros Hc Hn Hk H. apply ancestor_last in H as (c & Hp & _). apply (cons_parent _ Hc) in Hp as (m & Hm & Hin).
  assert (m = n) as -> by congruence. unfold kids in Hin. rewrite Hk in Hin. destruct (has_children _); inversion Hin.
Qed.

(** ** Patches *)

(** The new nodes and the changed ones. *)
Definition patch (s s' : st) (l : list (id * node)) : Prop :=
  forall j, st_heap s' !! j = match find (fun e => Nat.eqb (fst e) j) l with Some e => Some (snd e) | None => st_heap s !! j end.
Definition first_attrs (t : str) (c : cst) : gmap attr val :=
  let m := match ast_type t with
           | Some (k, kw) => mk_attrs k (kw ++ span_attrs c)
           | None => mk_attrs CError ((a_text, VStr (error_text c)) :: span_attrs c)
           end in
  if subclass (node_class t) CText && negb (str_eqb t (lit "ERROR")) then <[a_text := VStr (c_text c)]> m else m.
Definition reported (t : str) (c : cst) : list request := if str_eqb t (lit "ERROR") then [RErr c] else [].

Lemma make_node_ok t c s s' i b :
  good s -> make_node t c s = (s', Ok i) ->
  i = st_next s /\ st_next s' = S (st_next s) /\ good s' /\
  st_logs s' = st_logs s ++ warnings b (reported t c) /\
  patch s s' [(i, MkNode (node_class t) None [] (first_attrs t c))].
Proof.
  intros Hg H. unfold make_node in H. unfold patch, node_class, first_attrs, reported, node_class.
  destruct (ast_type t) as [[k kw]|] eqn:Et.
  - assert (str_eqb t (lit "ERROR") = false) as Ee.
    { destruct (str_eqb_spec t (lit "ERROR")) as [->|]; [vm_compute in Et; discriminate|reflexivity]. }
    rewrite Ee. simpl. rewrite app_nil_r, andb_true_r. msteps. destruct (subclass k CText); msteps.
    + rewrite new_lookup, decide_True in H0 by reflexivity. injection H0 as <-.
      split; [reflexivity|]. split; [reflexivity|]. split; [|split; [reflexivity|]].
      * eapply attrs_became_good; [apply good_new, Hg|]. apply attrs_became_set.
        rewrite new_lookup, decide_True by reflexivity. reflexivity.
      * intros j. rewrite upd_lookup, new_lookup. destruct (Nat.eqb_spec (st_next s) j) as [<-|Hj].
        -- rewrite decide_True by reflexivity. reflexivity.
        -- rewrite !decide_False by assumption. reflexivity.
    + split; [reflexivity|]. split; [reflexivity|]. split; [apply good_new, Hg|]. split; [reflexivity|].
      intros j. rewrite new_lookup. destruct (Nat.eqb_spec (st_next s) j) as [<-|Hj].
      * rewrite decide_True by reflexivity. reflexivity.
      * rewrite !decide_False by assumption. reflexivity.
  - destruct (str_eqb t (lit "ERROR")) eqn:Ee; [|discriminate]. rewrite andb_false_r.
    msteps. apply log_rec_ok in H0 as ->. split; [reflexivity|]. split; [reflexivity|].
    split; [apply good_new; exact Hg|]. split; [reflexivity|].
    intros j. rewrite new_lookup. simpl. destruct (Nat.eqb_spec (st_next s) j) as [<-|Hj].
    + rewrite decide_True by reflexivity. reflexivity.
    + rewrite !decide_False by assumption. reflexivity.
Qed.
