(** Full numbers and reference texts. *)
From Verif Require Export Autonumber.
From Verif Require Import Queries Built Meta Subproofs NodeOps Monad.

Lemma subclass_manuscript c : subclass c CManuscript = cls_eqb c CManuscript.
Proof. destruct c; reflexivity. Qed.

Lemma closest_unique h ds x r r' :
  consistent h -> closest_ancestor h ds x r -> closest_ancestor h ds x r' -> r = r'.
Proof.
  intros Hc. destruct r as [a|], r' as [b|]; simpl.
  - intros (Ha & Hca & Hna) (Hb & Hcb & Hnb). f_equal.
    destruct (ancestor_linear _ _ _ _ Ha Hb) as [?|[Hab|Hba]]; [assumption| |].
    + exfalso. apply (Hnb a); assumption.
    + exfalso. apply (Hna b); assumption.
  - intros (Ha & Hca & _) Hn. exfalso. apply (Hn a); assumption.
  - intros Hn (Ha & Hca & _). exfalso. apply (Hn b); assumption.
  - reflexivity.
Qed.
Lemma scope_unique h x r r' : consistent h -> scope_node h x r -> scope_node h x r' -> r = r'.
Proof.
  intros Hc [(a & -> & Ha)|[Hn Ha]] [(b & -> & Hb)|[Hn' Hb]].
  - apply (closest_unique h (scope_of h x) x); assumption.
  - exfalso. assert (Some a = None) by (eapply closest_unique; eassumption). discriminate.
  - exfalso. assert (Some b = None) by (eapply closest_unique; eassumption). discriminate.
  - apply (closest_unique h [CManuscript] x); assumption.
Qed.
Lemma scope_ancestor h x a : scope_node h x (Some a) -> ancestor h x a.
Proof. intros [(b & [= <-] & Ha)|[_ Ha]]; apply Ha. Qed.

(** What the code computes, as a relation. *)
Definition plain_number (v : val) : str := if truthy v then fmt_val v else [].
Inductive full_is (h : gmap id node) : id -> option str -> Prop :=
| fi_manuscript x : class_of h x CManuscript -> full_is h x (Some [])
| fi_nonum x : is_Some (h !! x) -> ~ class_of h x CManuscript -> unnumbered h x -> full_is h x None
| fi_plain x v w r :
    ~ class_of h x CManuscript -> value h x a_nonum = Some w -> truthy w = false -> value h x a_number = Some v ->
    scope_node h x r -> (r = None \/ exists a o, r = Some a /\ (o = None \/ o = Some []) /\ full_is h a o) ->
    full_is h x (Some (plain_number v))
| fi_within x v w a c p :
    ~ class_of h x CManuscript -> value h x a_nonum = Some w -> truthy w = false -> value h x a_number = Some v ->
    scope_node h x (Some a) -> full_is h a (Some (c :: p)) ->
    full_is h x (Some ((c :: p) ++ lit "." ++ fmt_val v)).

Lemma ancestors_shorter h x l a : ancestors h x l -> ancestor h x a -> exists l', ancestors h a l' /\ length l' < length l.
Proof.
  intros Hl. revert a. induction Hl as [x n Hx Hp|x n p l Hx Hp Hl IHl]; intros a Ha;
      [exfalso; eapply root_no_ancestor; eassumption|].
  assert (Hpar : parent_is h x p) by (exists n; auto).
  destruct (ancestor_parent _ _ _ _ Hpar Ha) as [-> |Ha']; [exists l; simpl; auto with lia|].
  destruct (IHl a Ha') as (l' & ? & ?). exists l'. simpl. split; [assumption|lia].
Qed.
Lemma full_is_fun_aux h : consistent h -> forall l x, ancestors h x l -> forall r r', full_is h x r -> full_is h x r' -> r = r'.
Proof.
  intros Hc l x Hl.
  assert (G : forall m (l : list id) x, length l <= m -> ancestors h x l -> forall r r', full_is h x r -> full_is h x r' -> r = r').
  2:{ eapply G; [reflexivity|eassumption]. }
  clear l x Hl. induction m as [|m IH]; intros l x Hm Hl.
  all: assert (Hanc : forall a, ancestor h x a -> exists l', ancestors h a l' /\ length l' < length l).
  1,3: intros a Ha; eapply ancestors_shorter; eassumption.
  all: intros r r' H H'; inversion H as [y Hy|y Hsy Hy Hu|y v w ro Hy Hw Htw Hv Hs Ho|y v w a c p Hy Hw Htw Hv Hs Ho]; subst;
       inversion H' as [y' Hy'|y' Hsy' Hy' Hu'|y' v' w' ro' Hy' Hw' Htw' Hv' Hs' Ho'|y' v' w' a' c' p' Hy' Hw' Htw' Hv' Hs' Ho'];
       subst; try reflexivity; try contradiction;
       try (destruct Hu as (w0 & E0 & T0); congruence); try (destruct Hu' as (w0 & E0 & T0); congruence);
       try (assert (v' = v) as -> by congruence); try reflexivity.
  - exfalso. assert (ro = Some a') as -> by (eapply scope_unique; eassumption).
    destruct (Hanc a' (scope_ancestor _ _ _ Hs')) as (l' & _ & ?). lia.
  - exfalso. assert (ro' = Some a) as -> by (eapply scope_unique; eassumption).
    destruct (Hanc a (scope_ancestor _ _ _ Hs)) as (l' & _ & ?). lia.
  - exfalso. destruct (Hanc a (scope_ancestor _ _ _ Hs)) as (l' & _ & ?). lia.
  - exfalso. assert (ro = Some a') as -> by (eapply scope_unique; eassumption).
    destruct (Hanc a' (scope_ancestor _ _ _ Hs')) as (l' & Hl' & Hlen).
    destruct Ho as [?|(a0 & o & [= <-] & Eo & Ho)]; [discriminate|].
    assert (E := IH l' a' ltac:(lia) Hl' _ _ Ho Ho'). destruct Eo; congruence.
  - exfalso. assert (ro' = Some a) as -> by (eapply scope_unique; eassumption).
    destruct (Hanc a (scope_ancestor _ _ _ Hs)) as (l' & Hl' & Hlen).
    destruct Ho' as [?|(a0 & o & [= <-] & Eo & Ho')]; [discriminate|].
    assert (E := IH l' a ltac:(lia) Hl' _ _ Ho Ho'). destruct Eo; congruence.
  - assert (Some a' = Some a) as [= ->] by (eapply scope_unique; eassumption).
    destruct (Hanc a (scope_ancestor _ _ _ Hs)) as (l' & Hl' & Hlen).
    assert (E := IH l' a ltac:(lia) Hl' _ _ Ho Ho'). congruence.
Qed.
Lemma ancestors_exist h : consistent h -> forall k q l,
  upchain h (l ++ [q]) -> size h <= k + length l -> exists l', ancestors h q l'.
Proof.
  intros Hc. induction k as [|k IH]; intros q l Hu Hlen.
  - pose proof (upchain_length _ _ Hc Hu) as H. rewrite app_length in H. simpl in *. lia.
  - destruct (upchain_some _ _ q Hu) as [n Hq]; [rewrite elem_of_app, elem_of_list_singleton; auto|].
    destruct (n_parent n) as [p|] eqn:Ep.
    + assert (parent_is h q p) as Hp by (exists n; auto).
      pose proof Hp as (np & Hnp & _)%(cons_parent _ Hc).
      destruct (IH p (l ++ [q])) as (l' & Hl').
      * apply upchain_snoc; eauto.
      * rewrite app_length. simpl. lia.
      * exists (p :: l'). econstructor; eauto.
    + exists []. econstructor; eauto.
Qed.
Lemma ancestors_of h x : consistent h -> is_Some (h !! x) -> exists l, ancestors h x l.
Proof.
  intros Hc Hx. apply (ancestors_exist h Hc (size h) x []); [constructor; assumption|simpl; lia].
Qed.
Lemma full_is_some h x r : full_is h x r -> is_Some (h !! x).
Proof.
  destruct 1 as [x (n & Hn & _)|x Hx|x v w r _ Hw|x v w a c p _ Hw]; eauto;
    unfold value in Hw; destruct (h !! x); eauto; discriminate.
Qed.
Lemma full_is_fun h x r r' : consistent h -> full_is h x r -> full_is h x r' -> r = r'.
Proof.
  intros Hc H. destruct (ancestors_of h x Hc (full_is_some _ _ _ H)) as (l & Hl). revert H.
  eapply full_is_fun_aux; eassumption.
Qed.

(** *** The code *)
Definition log_only (s s' : st) : Prop := st_heap s' = st_heap s /\ st_next s' = st_next s /\ logs_grow s s'.
Lemma log_only_refl s : log_only s s.
Proof. split; [reflexivity|]. split; [reflexivity|]. apply logs_grow_same. reflexivity. Qed.
Lemma log_only_trans s1 s2 s3 : log_only s1 s2 -> log_only s2 s3 -> log_only s1 s3.
Proof.
  intros (E1 & E2 & E3) (F1 & F2 & F3). split; [congruence|]. split; [congruence|].
  eapply logs_grow_trans; eassumption.
Qed.
Lemma warn_log_only nm m s s' u : warn nm m s = (s', Ok u) -> log_only s s'.
Proof. intros H. apply warn_ok in H. subst. split; [reflexivity|]. split; [reflexivity|]. eexists. reflexivity. Qed.

Lemma full_number_ok fuel : forall x s s' r,
  consistent (st_heap s) -> full_number fuel x s = (s', Ok r) -> log_only s s' /\ full_is (st_heap s) x r.
Proof.
  induction fuel as [|fuel IH]; intros x s s' r Hc H; [discriminate|].
  cbn [full_number] in H. apply bind_ok in H as (s0 & c & Hcl & H). apply cls_of_ok in Hcl as (-> & n & Hn & ->).
  rewrite subclass_manuscript in H. destruct (cls_eqb_spec (n_cls n) CManuscript) as [Em|Em].
  { apply ret_ok in H as [-> ->]. split; [apply log_only_refl|]. apply fi_manuscript. exists n. auto. }
  assert (Hnm : ~ class_of (st_heap s) x CManuscript) by (intros (m & Hm & ?); congruence).
  apply bind_ok in H as (s0 & w & Hw & H). apply getattr_ok in Hw as (-> & m & Hm & Hw).
  assert (m = n) as -> by congruence. clear Hm.
  assert (Hw' : value (st_heap s) x a_nonum = Some w) by (rewrite (value_some _ _ _ _ Hn); assumption).
  destruct (truthy w) eqn:Etw.
  { apply ret_ok in H as [-> ->]. split; [apply log_only_refl|]. apply fi_nonum; eauto. exists w. auto. }
  apply bind_ok in H as (s0 & anc & Ha & H). apply first_ancestor_ok in Ha as [-> Ha]; [|assumption].
  apply bind_ok in H as (s1 & anc' & Ha' & H).
  assert (Hsc : log_only s s1 /\ scope_node (st_heap s) x anc').
  { assert (Es : scope_of (st_heap s) x = number_within (n_cls n)) by (unfold scope_of; rewrite Hn; reflexivity).
    destruct anc as [a|].
    - apply ret_ok in Ha' as [-> ->]. split; [apply log_only_refl|]. left. exists a. rewrite Es. auto.
    - apply bind_ok in Ha' as (s2 & u & Hwn & Ha'). apply warn_log_only in Hwn as Hlo.
      assert (Hh : st_heap s2 = st_heap s) by apply Hlo.
      apply first_ancestor_ok in Ha' as [-> Ha']; [|rewrite Hh; assumption]. rewrite Hh in Ha'.
      split; [assumption|]. right. rewrite Es. auto. }
  destruct Hsc as [Hlo Hsc]. assert (Hh : st_heap s1 = st_heap s) by apply Hlo.
  apply bind_ok in H as (s2 & v & Hv & H). apply getattr_ok in Hv as (-> & m & Hm & Hv).
  assert (m = n) as -> by congruence. clear Hm.
  assert (Hv' : value (st_heap s) x a_number = Some v) by (rewrite (value_some _ _ _ _ Hn); assumption).
  destruct anc' as [a|].
  2:{ apply ret_ok in H as [-> ->]. split; [assumption|]. eapply fi_plain; eauto. }
  apply bind_ok in H as (s2 & f & Hf & H). rewrite <- Hh in Hc. destruct (IH _ _ _ _ Hc Hf) as [Hlo2 Hfi].
  rewrite Hh in *.
  destruct f as [[|c p]|].
  - apply ret_ok in H as [-> ->]. split; [eapply log_only_trans; eassumption|]. eapply fi_plain; eauto 10.
  - apply bind_ok in H as (s3 & f2 & Hf2 & H).
    assert (Hh2 : st_heap s2 = st_heap s) by (destruct Hlo2 as (E & _); congruence).
    rewrite <- Hh2 in Hc. destruct (IH _ _ _ _ Hc Hf2) as [Hlo3 Hfi2]. rewrite Hh2 in *.
    assert (f2 = Some (c :: p)) as -> by (eapply full_is_fun; eassumption).
    apply ret_ok in H as [-> ->]. split.
    + eapply log_only_trans; [eassumption|]. eapply log_only_trans; eassumption.
    + eapply fi_within; eassumption.
  - apply ret_ok in H as [-> ->]. split; [eapply log_only_trans; eassumption|]. eapply fi_plain; eauto 10.
Qed.

(** *** Termination *)
Definition numberable (h : gmap id node) : Prop :=
  forall x n, h !! x = Some n -> is_Some (n_attrs n !! a_nonum) /\ is_Some (n_attrs n !! a_number).
Lemma ancestor_some h x a : consistent h -> ancestor h x a -> is_Some (h !! a).
Proof.
  intros Hc Ha. induction Ha as [x p Hp|x p a Hp Ha IH]; [|assumption].
  apply (cons_parent _ Hc) in Hp as (n & Hn & _). eauto.
Qed.
Lemma getattr_eq i a s n v : st_heap s !! i = Some n -> n_attrs n !! a = Some v -> getattr i a s = (s, Ok v).
Proof. intros Hi Ha. unfold getattr, bind. rewrite (get_node_eq _ _ _ Hi), Ha. reflexivity. Qed.
Lemma full_number_total_aux fuel : forall x l s,
  consistent (st_heap s) -> numberable (st_heap s) -> is_Some (st_heap s !! x) ->
  ancestors (st_heap s) x l -> size (st_heap s) + length l < fuel ->
  exists s' r, full_number fuel x s = (s', Ok r).
Proof.
  induction fuel as [|fuel IH]; intros x l s Hc Hn [n Hx] Hl Hf; [lia|].
  cbn [full_number]. unfold bind at 1. unfold cls_of, bind at 1. rewrite (get_node_eq _ _ _ Hx). cbn [ret]. unfold ret at 1.
  rewrite subclass_manuscript. destruct (cls_eqb_spec (n_cls n) CManuscript) as [Em|Em]; [eauto|].
  destruct (Hn x n Hx) as [[w Hw] [v Hv]].
  unfold bind at 1. rewrite (getattr_eq _ _ _ _ _ Hx Hw). destruct (truthy w) eqn:Etw; [unfold ret; eauto|].
  destruct (first_ancestor_total fuel x (number_within (n_cls n)) s n Hc Hx) as (anc & Ha); [lia|].
  unfold bind at 1. rewrite Ha.
  assert (Hstep : exists s1 anc', st_heap s1 = st_heap s /\
     (match anc with
      | Some a => ret (Some a)
      | None => do! warn logger_nodes (cls_name (n_cls n) ++ lit " numbered within " ++ fmt_within (number_within (n_cls n))
                   ++ lit " but no such ancestor was found; using root node instead") in
                first_ancestor_of_type fuel x [CManuscript]
      end) s = (s1, Ok anc') /\ match anc' with Some a => ancestor (st_heap s) x a | None => True end).
  { destruct anc as [a|].
    - exists s, (Some a). split; [reflexivity|]. split; [reflexivity|].
      apply first_ancestor_ok in Ha as [_ Ha]; [|assumption]. apply Ha.
    - unfold bind at 1. unfold warn, log_rec. set (s1 := MkSt _ _ _).
      assert (Hh1 : st_heap s1 = st_heap s) by reflexivity.
      destruct (first_ancestor_total fuel x [CManuscript] s1 n) as (a & Ha'); [rewrite Hh1; assumption|rewrite Hh1; assumption|rewrite Hh1; lia|].
      exists s1, a. split; [reflexivity|]. split; [exact Ha'|].
      apply first_ancestor_ok in Ha' as [_ Ha']; [|rewrite Hh1; assumption]. destruct a; [apply Ha'|exact I]. }
  destruct Hstep as (s1 & anc' & Hh & E & Hanc). unfold bind at 1. rewrite E.
  unfold bind at 1. rewrite <- Hh in Hx. rewrite (getattr_eq _ _ _ _ _ Hx Hv).
  destruct anc' as [a|]; [|unfold ret; eauto].
  destruct (ancestors_shorter _ _ _ _ Hl Hanc) as (l' & Hl' & Hlen).
  assert (Hrec : forall s2, st_heap s2 = st_heap s -> exists s3 r, full_number fuel a s2 = (s3, Ok r)).
  { intros s2 E2. eapply (IH a l'); rewrite ?E2; auto; [eapply ancestor_some; eassumption|lia]. }
  destruct (Hrec s1 Hh) as (s2 & f & Hf1). unfold bind at 1. rewrite Hf1.
  destruct f as [[|c p]|]; [unfold ret; eauto| |unfold ret; eauto].
  assert (Hh2 : st_heap s2 = st_heap s).
  { apply full_number_ok in Hf1 as [(E2 & _) _]; [congruence|]. rewrite Hh. assumption. }
  destruct (Hrec s2 Hh2) as (s3 & f2 & Hf2). unfold bind at 1. rewrite Hf2. unfold ret. eauto.
Qed.
Theorem full_number_total fuel x s :
  consistent (st_heap s) -> numberable (st_heap s) -> is_Some (st_heap s !! x) -> 2 * size (st_heap s) < fuel ->
  exists s' r, full_number fuel x s = (s', Ok r).
Proof.
  intros Hc Hn Hx Hf. destruct (ancestors_of _ _ Hc Hx) as (l & Hl).
  eapply full_number_total_aux; eauto.
  assert (length l <= size (st_heap s)); [|lia].
  assert (Hu : forall x l, ancestors (st_heap s) x l -> upchain (st_heap s) (x :: l)).
  { clear -Hc. intros x l Hl. induction Hl as [x n Hx Hp|x n p l Hx Hp Hl IH]; [constructor; eauto|].
    constructor; [exists n; auto|assumption]. }
  pose proof (upchain_length _ _ Hc (Hu _ _ Hl)) as H. simpl in H. lia.
Qed.

(** *** The dotted path *)
Lemma join_snoc sep l t : l <> [] -> join sep (l ++ [t]) = join sep l ++ sep ++ t.
Proof.
  induction l as [|x [|y l] IH]; intros Hl; [congruence|reflexivity|].
  change (x ++ sep ++ join sep ((y :: l) ++ [t]) = (x ++ sep ++ join sep (y :: l)) ++ sep ++ t).
  rewrite IH by discriminate. rewrite <- !app_assoc. reflexivity.
Qed.
Lemma str_of_N_nonempty k : str_of_N k <> [].
Proof.
  intros E. change (@nil N) with (uint_str Decimal.Nil) in E. unfold str_of_N in E. apply uint_str_inj in E.
  destruct k as [|p]; [discriminate|]. cbn [N.to_uint] in E.
  apply (f_equal (fun u => N.of_uint u)) in E. change (Pos.to_uint p) with (N.to_uint (Npos p)) in E.
  rewrite DecimalN.Unsigned.of_to in E. discriminate.
Qed.
Lemma number_text_ok v t : number_text v t -> truthy v = true /\ fmt_val v = t /\ t <> [].
Proof.
  destruct 1 as [z Hz|c s].
  - split; [destruct z; [congruence|reflexivity|reflexivity]|]. split; [reflexivity|].
    destruct z; [congruence| |]; unfold str_of_Z; [apply str_of_N_nonempty|discriminate].
  - auto.
Qed.
Lemma numbers_nonempty h x l : numbers_to h x l -> Forall (fun t => t <> []) l.
Proof.
  induction 1 as [x Hx|x v w t ? ? ? ? Ht ?|x v w t a l ? ? ? ? Ht ? ? IH].
  - constructor.
  - repeat constructor. apply (number_text_ok _ _ Ht).
  - apply list.Forall_app. split; [assumption|]. repeat constructor. apply (number_text_ok _ _ Ht).
Qed.
Lemma join_empty sep l : Forall (fun t => t <> []) l -> join sep l = [] -> l = [].
Proof.
  destruct l as [|x [|y l]]; intros H E; [reflexivity| |]; apply list.Forall_cons in H as [Hx _]; exfalso.
  - apply Hx. exact E.
  - simpl in E. destruct x; [contradiction|discriminate].
Qed.
Lemma numbers_full h x l : numbers_to h x l -> full_is h x (Some (join (lit ".") l)).
Proof.
  induction 1 as [x Hx|x v w t Hx Hw Htw Hv Ht Hs|x v w t a l Hx Hw Htw Hv Ht Hs Ha IH].
  - apply fi_manuscript. assumption.
  - destruct (number_text_ok _ _ Ht) as (T1 & T2 & _). cbn [join].
    assert (E : t = plain_number v) by (unfold plain_number; rewrite T1; auto). rewrite E.
    destruct Hs as [Hs|(a & Hs & Hna & Hu)].
    + eapply fi_plain; eauto.
    + eapply fi_plain; eauto. right. exists a, None. split; [reflexivity|]. split; [auto|]. apply fi_nonum; auto. destruct Hu as (w' & Hu & _). unfold value in Hu.
      destruct (h !! a); eauto; discriminate.
  - destruct (number_text_ok _ _ Ht) as (T1 & T2 & _).
    destruct l as [|y l].
    + cbn [app join] in *. assert (E : t = plain_number v) by (unfold plain_number; rewrite T1; auto). rewrite E.
      eapply fi_plain; eauto 10.
    + rewrite join_snoc by discriminate. destruct (join (lit ".") (y :: l)) as [|c p] eqn:Ej.
      * apply join_empty in Ej; [discriminate|]. eapply numbers_nonempty. exact Ha.
      * rewrite <- T2. eapply fi_within; eauto.
Qed.
Theorem full_number_path fuel x s s' r l :
  consistent (st_heap s) -> full_number fuel x s = (s', Ok r) -> numbers_to (st_heap s) x l -> r = Some (join (lit ".") l).
Proof.
  intros Hc H Hl. apply full_number_ok in H as [_ H]; [|assumption].
  eapply full_is_fun; [exact Hc|exact H|]. apply numbers_full. assumption.
Qed.
Theorem full_number_nonum fuel x s s' r :
  consistent (st_heap s) -> full_number fuel x s = (s', Ok r) -> ~ class_of (st_heap s) x CManuscript ->
  unnumbered (st_heap s) x -> r = None.
Proof.
  intros Hc H Hm Hu. apply full_number_ok in H as [_ H]; [|assumption].
  eapply full_is_fun; [exact Hc|exact H|]. apply fi_nonum; auto. destruct Hu as (w' & Hu & _). unfold value in Hu.
  destruct (st_heap s !! x); eauto; discriminate.
Qed.
