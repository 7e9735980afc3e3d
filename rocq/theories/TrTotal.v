(** Translation always ends: the steps of the visit and leave methods. *)
From Verif Require Export SpecFinish TotalBase TrBase RefText.
From Verif Require Import Queries FullNumber EditTotal Traverse NodeOps Monad.
Local Open Scope list_scope.

Definition flags : list attr := [a_must_close_p_tag; a_followed_by_dot].
(** Attributes have values of their types, but for the private flags, which are set during translation. *)
Definition wtyped (s : st) : Prop :=
  forall i n a v, st_heap s !! i = Some n -> n_attrs n !! a = Some v ->
    (a ∈ flags \/ attr_shape a v = true) /\ forall y, y ∈ nodes_in v -> is_Some (st_heap s !! y).

Section Steps.
Context (A : list attr) (s0 : st).

(** States met during a translation that starts in [s0]. *)
Record during (s : st) : Prop := {
  du_good : good s;
  du_typed : wtyped s;
  du_complete : complete s;
  (* the flag of nodes around displayed formulas *)
  du_flag : forall i n v, st_heap s !! i = Some n -> n_attrs n !! a_must_close_p_tag = Some v -> n_cls n = CParagraph;
  du_old : forall i n, st_heap s0 !! i = Some n ->
    exists n', st_heap s !! i = Some n' /\ n_cls n' = n_cls n /\ n_parent n' = n_parent n /\
      n_children n' = n_children n /\ forall a, a ∉ A -> n_attrs n' !! a = n_attrs n !! a
}.
Definition returns {X} (m : M X) (R : X -> Prop) : Prop :=
  forall s, during s -> exists s' a, m s = (s', Ok a) /\ during s' /\ R a.

Lemma t_ret {X} (x : X) (R : X -> Prop) : R x -> returns (ret x) R.
Proof. intros H s Hs. exists s, x. auto. Qed.
Lemma t_bind {X Y} (m : M X) (k : X -> M Y) (R : X -> Prop) Q : returns m R -> (forall x, R x -> returns (k x) Q) -> returns (bind m k) Q.
Proof.
  intros Hm Hk s Hs. destruct (Hm s Hs) as (s1 & x & E & H1 & HR). destruct (Hk x HR s1 H1) as (s2 & y & E2 & H2 & HQ).
  exists s2, y. unfold bind. rewrite E. auto.
Qed.
Lemma t_imp {X} (m : M X) (R Q : X -> Prop) : returns m R -> (forall x, R x -> Q x) -> returns m Q.
Proof. intros H I s Hs. destruct (H s Hs) as (s' & a & E & H1 & H2). exists s', a. auto. Qed.
Lemma t_mapM {X Y} (f : X -> M Y) l (R : Y -> Prop) : (forall x, In x l -> returns (f x) R) -> returns (mapM f l) (Forall R).
Proof.
  induction l as [|x l IH]; intros H; cbn [mapM]; [apply t_ret; constructor|].
  eapply t_bind; [apply H; left; reflexivity|]. intros y Hy. eapply t_bind; [apply IH; intros z Hz; apply H; right; exact Hz|].
  intros ys Hys. apply t_ret. constructor; assumption.
Qed.
Lemma during_heap s s' : st_heap s' = st_heap s -> st_next s' = st_next s -> during s -> during s'.
Proof.
  intros E1 E2 [H1 H2 H3 H4 H5]. constructor; [eapply good_heap; eassumption| | | |]; unfold wtyped, complete; rewrite E1; assumption.
Qed.
(** Queries. *)
Lemma t_quiet {X} (m : M X) (R : X -> Prop) : quiet m -> (forall s, during s -> exists s' a, m s = (s', Ok a) /\ R a) -> returns m R.
Proof.
  intros Hq H s Hs. destruct (H s Hs) as (s' & a & E & Ha). exists s', a. split; [exact E|]. split; [|exact Ha].
  destruct (quiet_heap _ _ _ _ Hq E). eapply during_heap; eassumption.
Qed.
Lemma t_log r : returns (log_rec r) (fun _ => True).
Proof. apply t_quiet; [apply q_log|]. intros s _. eexists _, tt. split; [reflexivity|exact I]. Qed.
Lemma t_get_node i n (R : node -> Prop) : st_heap s0 !! i = Some n ->
  (forall n', n_cls n' = n_cls n -> n_parent n' = n_parent n -> n_children n' = n_children n -> (forall a, a ∉ A -> n_attrs n' !! a = n_attrs n !! a) -> R n') ->
  returns (get_node i) R.
Proof.
  intros Hi HR. apply t_quiet; [apply q_get_node|]. intros s Hs. destruct (du_old _ Hs _ _ Hi) as (n' & Hn & H1 & H2 & H3 & H4).
  exists s, n'. split; [apply get_node_eq, Hn|auto].
Qed.
Lemma t_cls_of i n : st_heap s0 !! i = Some n -> returns (cls_of i) (fun c => c = n_cls n).
Proof. intros Hi. unfold cls_of. eapply t_bind; [apply (t_get_node _ _ (fun m => n_cls m = n_cls n) Hi); auto|]. intros m Hm. apply t_ret, Hm. Qed.
Lemma t_parent_of i n : st_heap s0 !! i = Some n -> returns (parent_of i) (fun p => p = n_parent n).
Proof. intros Hi. unfold parent_of. eapply t_bind; [apply (t_get_node _ _ (fun m => n_parent m = n_parent n) Hi); auto|]. intros m Hm. apply t_ret, Hm. Qed.
Lemma t_children_of i n : st_heap s0 !! i = Some n -> returns (children_of i) (fun l => l = kids n).
Proof.
  intros Hi. unfold children_of. eapply t_bind; [apply (t_get_node _ _ (fun m => kids m = kids n) Hi)|].
  - intros n' H1 _ H3 _. unfold kids. rewrite H1, H3. reflexivity.
  - intros m Hm. apply t_ret, Hm.
Qed.
Lemma t_getattr i a n : st_heap s0 !! i = Some n -> In a (map fst (default_attrs (n_cls n))) ->
  returns (getattr i a) (fun v => (a ∈ flags \/ attr_shape a v = true) /\ (a ∉ A -> n_attrs n !! a = Some v)).
Proof.
  intros Hi Ha. apply t_quiet; [apply q_getattr|]. intros s Hs. destruct (du_old _ Hs _ _ Hi) as (n' & Hn & H1 & _ & _ & H4).
  destruct (du_complete _ Hs i n' a Hn) as [v Hv]; [rewrite H1; exact Ha|]. exists s, v. split; [eapply getattr_eq; eassumption|].
  split; [apply (du_typed _ Hs _ _ _ _ Hn Hv)|]. intros HA. rewrite <- H4 by assumption. exact Hv.
Qed.
Lemma t_get_strs i a n : st_heap s0 !! i = Some n -> In a (map fst (default_attrs (n_cls n))) -> a ∉ flags ->
  (forall v, attr_shape a v = true -> is_strs v = true) -> returns (get_strs i a) (fun _ => True).
Proof.
  intros Hi Ha Hf Hs. unfold get_strs. eapply t_bind; [eapply t_getattr; eassumption|]. intros v [[H|H] _]; [contradiction|].
  apply Hs in H. destruct v; try discriminate H. apply t_ret, I.
Qed.
Lemma t_get_str i a n : st_heap s0 !! i = Some n -> In a (map fst (default_attrs (n_cls n))) -> a ∉ flags ->
  (forall v, attr_shape a v = true -> is_str v = true) -> returns (get_str i a) (fun x => a ∉ A -> n_attrs n !! a = Some (VStr x)).
Proof.
  intros Hi Ha Hf Hs. unfold get_str. eapply t_bind; [eapply t_getattr; eassumption|]. intros v [[H|H] H2]; [contradiction|].
  apply Hs in H. destruct v; try discriminate H. apply t_ret, H2.
Qed.
Lemma t_depth i n : st_heap s0 !! i = Some n -> returns (depth_of i) (fun _ => True).
Proof.
  intros Hi. unfold depth_of, get_int. eapply t_bind; [eapply t_getattr; [exact Hi|apply always]|]. intros v [[H|H] _]; [set_solver|].
  destruct v; try discriminate H. apply t_ret, I.
Qed.
Lemma t_inst ds i n : st_heap s0 !! i = Some n -> returns (inst ds i) (fun b => b = subclass_any (n_cls n) ds).
Proof. intros Hi. unfold inst. eapply t_bind; [eapply t_cls_of, Hi|]. intros c ->. apply t_ret. reflexivity. Qed.
Lemma t_flag i a n : st_heap s0 !! i = Some n -> returns (flag i a) (fun _ => True).
Proof. intros Hi. unfold flag. eapply t_bind; [apply (t_get_node _ _ (fun _ => True) Hi); auto|]. intros m _. apply t_ret, I. Qed.
Lemma t_setattr i a v n : st_heap s0 !! i = Some n -> a ∈ A -> a ∈ flags \/ attr_shape a v = true -> nodes_in v = [] ->
  (a = a_must_close_p_tag -> n_cls n = CParagraph) -> returns (setattr i a v) (fun _ => True).
Proof.
  intros Hi HA Hv Hn Hpar s Hs. destruct (du_old _ Hs _ _ Hi) as (m & Hm & Ecm & _).
  exists (upd s i (set_n_attr a v m)), tt. assert (E : setattr i a v s = (upd s i (set_n_attr a v m), Ok tt)).
  { unfold setattr, mod_node, bind, get_node. rewrite Hm. reflexivity. }
  split; [exact E|]. split; [|exact I].
  destruct (tp_setattr A i a v HA _ _ _ E (du_good _ Hs)) as (G & _ & _ & F).
  assert (Gr : forall x, is_Some (st_heap s !! x) -> is_Some (st_heap (upd s i (set_n_attr a v m)) !! x)).
  { intros x Hx. rewrite upd_lookup. destruct (decide (i = x)); [eauto|exact Hx]. }
  constructor; [exact G| | | |].
  - intros j k b w Hj Hw. rewrite upd_lookup in Hj. destruct (decide (i = j)) as [<-|Hij].
    + injection Hj as <-. unfold set_n_attr in Hw. cbn [n_attrs] in Hw. destruct (decide (a = b)) as [<-|Hab].
      * rewrite lookup_insert in Hw. injection Hw as <-. split; [exact Hv|]. rewrite Hn. intros y Hy. inversion Hy.
      * rewrite lookup_insert_ne in Hw by assumption. destruct (du_typed _ Hs _ _ _ _ Hm Hw) as [H1 H2]. split; [exact H1|]. intros y Hy. apply Gr, H2, Hy.
    + destruct (du_typed _ Hs _ _ _ _ Hj Hw) as [H1 H2]. split; [exact H1|]. intros y Hy. apply Gr, H2, Hy.
  - intros j k b Hj Hb. rewrite upd_lookup in Hj. destruct (decide (i = j)) as [<-|Hij]; [|eapply (du_complete _ Hs); eassumption].
    injection Hj as <-. unfold set_n_attr in *. cbn [n_attrs n_cls] in *. destruct (decide (a = b)) as [<-|Hab]; [rewrite lookup_insert; eauto|].
    rewrite lookup_insert_ne by assumption. eapply (du_complete _ Hs); eassumption.
  - intros j k w Hj Hw. rewrite upd_lookup in Hj. destruct (decide (i = j)) as [<-|Hij]; [|eapply (du_flag _ Hs); eassumption].
    injection Hj as <-. unfold set_n_attr in *. cbn [n_attrs n_cls] in *. destruct (decide (a = a_must_close_p_tag)) as [->|Hab]; [rewrite Ecm; auto|].
    rewrite lookup_insert_ne in Hw by assumption. eapply (du_flag _ Hs); eassumption.
  - intros j nj Hj. destruct (du_old _ Hs _ _ Hj) as (n1 & Hn1 & E1 & E2 & E3 & E4). destruct (F _ _ Hn1) as (n2 & Hn2 & D1 & D2 & D3 & D4).
    exists n2. split; [exact Hn2|]. repeat split; try congruence. intros b Hb. rewrite D4, E4; auto.
Qed.

(** Numbers. *)
Context (Hg0 : good s0).
Lemma anc_loop_short ds h : forall x l, ancestors h x l -> forall fuel n s, st_heap s = h -> h !! x = Some n -> length l <= fuel ->
  exists r, anc_loop fuel ds (n_parent n) s = (s, Ok r).
Proof using.
  intros x l Hl. induction Hl as [x n Hx Hp|x n p l Hx Hp Hl IH]; intros fuel m s Hs Hm Hf; assert (m = n) as -> by congruence; rewrite Hp.
  - destruct fuel; eexists; reflexivity.
  - cbn [length] in Hf. destruct fuel as [|fuel]; [lia|]. cbn [anc_loop].
    assert (exists np, h !! p = Some np) as [np Hnp] by (inversion Hl; eauto).
    unfold cls_of, parent_of, bind. assert (Hnp' : st_heap s !! p = Some np) by (rewrite Hs; exact Hnp). rewrite (get_node_eq _ _ _ Hnp'). unfold ret.
    destruct (cls_mem (n_cls np) ds); [eexists; reflexivity|]. rewrite (get_node_eq _ _ _ Hnp'). eapply IH; eauto. lia.
Qed.
Lemma first_ancestor_short fuel x ds s n l : ancestors (st_heap s) x l -> st_heap s !! x = Some n -> length l <= fuel ->
  exists r, first_ancestor_of_type fuel x ds s = (s, Ok r).
Proof using.
  intros Hl Hx Hf. unfold first_ancestor_of_type, parent_of, bind. rewrite (get_node_eq _ _ _ Hx). unfold ret.
  eapply anc_loop_short; eauto.
Qed.
Lemma full_number_short fuel : forall x l s,
  consistent (st_heap s) -> numberable (st_heap s) -> is_Some (st_heap s !! x) ->
  ancestors (st_heap s) x l -> length l < fuel ->
  exists s' r, full_number fuel x s = (s', Ok r).
Proof using.
  induction fuel as [|fuel IH]; intros x l s Hc Hn [n Hx] Hl Hf; [lia|].
  cbn [full_number]. unfold bind at 1. unfold cls_of, bind at 1. rewrite (get_node_eq _ _ _ Hx). cbn [ret]. unfold ret at 1.
  rewrite subclass_manuscript. destruct (cls_eqb_spec (n_cls n) CManuscript) as [Em|Em]; [eauto|].
  destruct (Hn x n Hx) as [[w Hw] [v Hv]].
  unfold bind at 1. rewrite (getattr_eq _ _ _ _ _ Hx Hw). destruct (truthy w) eqn:Etw; [unfold ret; eauto|].
  destruct (first_ancestor_short fuel x (number_within (n_cls n)) s n l Hl Hx) as (anc & Ha); [lia|].
  unfold bind at 1. rewrite Ha.
  assert (Hstep : exists s1 anc', st_heap s1 = st_heap s /\
     (match anc with
      | Some a => ret (Some a)
      | None => do! warn logger_nodes (cls_name (n_cls n) ++ lit " numbered within " ++ fmt_within (number_within (n_cls n))
                   ++ lit " but no such ancestor was found; using root node instead") in
                first_ancestor_of_type fuel x [CManuscript]
      end) s = (s1, Ok anc') /\ match anc' with Some a => ancestor (st_heap s) x a | None => True end).
  { destruct anc as [a|].
    - exists s, (Some a). split; [reflexivity|]. split; [reflexivity|].
      apply first_ancestor_ok in Ha as [_ Ha]; [|assumption]. apply Ha.
    - unfold bind at 1. unfold warn, log_rec. set (s1 := MkSt _ _ _).
      assert (Hh1 : st_heap s1 = st_heap s) by reflexivity.
      destruct (first_ancestor_short fuel x [CManuscript] s1 n l) as (a & Ha'); [rewrite Hh1; assumption|rewrite Hh1; assumption|lia|].
      exists s1, a. split; [reflexivity|]. split; [exact Ha'|].
      apply first_ancestor_ok in Ha' as [_ Ha']; [|rewrite Hh1; assumption]. destruct a; [apply Ha'|exact I]. }
  destruct Hstep as (s1 & anc' & Hh & E & Hanc). unfold bind at 1. rewrite E.
  unfold bind at 1. rewrite <- Hh in Hx. rewrite (getattr_eq _ _ _ _ _ Hx Hv).
  destruct anc' as [a|]; [|unfold ret; eauto].
  destruct (ancestors_shorter _ _ _ _ Hl Hanc) as (l' & Hl' & Hlen).
  assert (Hrec : forall s2, st_heap s2 = st_heap s -> exists s3 r, full_number fuel a s2 = (s3, Ok r)).
  { intros s2 E2. eapply (IH a l'); rewrite ?E2; auto; [eapply ancestor_some; eassumption|lia]. }
  destruct (Hrec s1 Hh) as (s2 & f & Hf1). unfold bind at 1. rewrite Hf1.
  destruct f as [[|c p]|]; [unfold ret; eauto| |unfold ret; eauto].
  assert (Hh2 : st_heap s2 = st_heap s).
  { apply full_number_ok in Hf1 as [(E2 & _) _]; [congruence|]. rewrite Hh. assumption. }
  destruct (Hrec s2 Hh2) as (s3 & f2 & Hf2). unfold bind at 1. rewrite Hf2. unfold ret. eauto.
Qed.
Lemma ancestors_length h x l : consistent h -> ancestors h x l -> length l < size h.
Proof using.
  intros Hc Hl. assert (Hu : upchain h (x :: l)).
  { induction Hl as [x n Hx Hp|x n p l Hx Hp Hl IH]; [constructor; eauto|]. constructor; [exists n; auto|assumption]. }
  pose proof (upchain_length _ _ Hc Hu) as H. cbn in H. lia.
Qed.
Context (f : nat) (Hf : size (st_heap s0) <= f).
Lemma t_full_number i n : st_heap s0 !! i = Some n -> returns (full_number f i) (fun _ => True).
Proof using Hg0 Hf.
  intros Hi. apply t_quiet; [apply q_full_number|]. intros s Hs.
  destruct (ancestors_of (st_heap s0) i (proj2 Hg0)) as [l Hl]; [eauto|].
  assert (Hl' : ancestors (st_heap s) i l).
  { clear Hi n. induction Hl as [x n Hx Hp|x n p l Hx Hp Hl IH]; destruct (du_old _ Hs _ _ Hx) as (n' & Hn & _ & H2 & _).
    - eapply ancs_root; [exact Hn|congruence].
    - eapply ancs_up; [exact Hn|congruence|exact IH]. }
  destruct (full_number_short f i l s) as (s' & r & E).
  - apply (du_good _ Hs).
  - intros x m Hx. split; apply (du_complete _ Hs x m _ Hx); apply always.
  - destruct (du_old _ Hs _ _ Hi) as (m & Hm & _). eauto.
  - exact Hl'.
  - pose proof (ancestors_length _ _ _ (proj2 Hg0) Hl). lia.
  - exists s', r. auto.
Qed.
Lemma t_reftext i n : a_reftext_template ∉ A -> st_heap s0 !! i = Some n ->
  (forall tmpl, n_attrs n !! a_reftext_template = Some (VStr tmpl) -> fillable tmpl) -> returns (reftext f i) (fun _ => True).
Proof using Hg0 Hf.
  intros HA Hi Ht. unfold reftext. eapply t_bind; [eapply (t_get_str i a_reftext_template n Hi); [apply always|set_solver|intros v H; exact H]|].
  intros tmpl Hv. specialize (Ht tmpl (Hv HA)). eapply t_bind; [eapply t_cls_of, Hi|]. intros c _. eapply t_bind; [eapply t_full_number, Hi|]. intros fn _.
  destruct (Ht (cls_name c) (match fn with Some y => y | None => lit "None" end)) as [o Ho]. apply py_format_iff in Ho. rewrite Ho. apply t_ret, I.
Qed.

(** Queries on the children. *)
Lemma t_first_of_type i ds n : st_heap s0 !! i = Some n -> returns (first_of_type i ds) (fun r => forall k j, r = Some (k, j) -> k ∈ kids n).
Proof using.
  intros Hi. apply t_quiet; [apply q_first_of_type|]. intros s Hs. destruct (du_old _ Hs _ _ Hi) as (m & Hm & E1 & _ & E3 & _).
  destruct (first_of_type_total i ds s m (proj2 (du_good _ Hs)) Hm) as [r E]. exists s, r. split; [exact E|]. intros k j ->.
  unfold first_of_type in E. apply bind_ok in E as (s1 & l & El & E). apply children_of_ok in El as (-> & m' & Hm' & ->). assert (m' = m) as -> by congruence.
  replace (kids n) with (kids m) by (unfold kids; rewrite E1, E3; reflexivity).
  revert E. generalize 0. induction (kids m) as [|x l IH]; intros z E; cbn [first_of_type_go] in E; [discriminate E|].
  apply bind_ok in E as (s1 & b & Eb & E). apply inst_ok in Eb as (-> & _). destruct b.
  - apply ret_ok in E as [_ E]. injection E as <- <-. left.
  - right. eapply IH, E.
Qed.
Lemma t_last_of_type i ds n : st_heap s0 !! i = Some n -> returns (last_of_type i ds) (fun r => forall k j, r = Some (k, j) -> k ∈ kids n).
Proof using.
  intros Hi. apply t_quiet; [apply q_last_of_type|]. intros s Hs. destruct (du_old _ Hs _ _ Hi) as (m & Hm & E1 & _ & E3 & _).
  destruct (last_of_type_total i ds s m (proj2 (du_good _ Hs)) Hm) as [r E]. exists s, r. split; [exact E|]. intros k j ->.
  unfold last_of_type in E. apply bind_ok in E as (s1 & l & El & E). apply children_of_ok in El as (-> & m' & Hm' & ->). assert (m' = m) as -> by congruence.
  replace (kids n) with (kids m) by (unfold kids; rewrite E1, E3; reflexivity).
  apply bind_ok in E as (s1 & q & Eq & E). assert (Hin : forall k j, q = Some (k, j) -> k ∈ rev (kids m)).
  { clear E. revert Eq. generalize 0. induction (rev (kids m)) as [|x l IH]; intros z E k0 j0 ->; cbn [first_of_type_go] in E; [discriminate E|].
    apply bind_ok in E as (s2 & b & Eb & E). apply inst_ok in Eb as (-> & _). destruct b.
    - apply ret_ok in E as [_ E]. injection E as <- <-. left.
    - right. eapply IH; [exact E|reflexivity]. }
  destruct q as [[k' j']|]; [|discriminate E]. apply ret_ok in E as [_ E]. injection E as E _. subst k.
  specialize (Hin _ _ eq_refl). apply elem_of_list_In, in_rev, elem_of_list_In. exact Hin.
Qed.
Lemma kid_old i n k : st_heap s0 !! i = Some n -> k ∈ kids n -> exists m, st_heap s0 !! k = Some m.
Proof using Hg0. intros Hi Hk. pose proof (kids_some _ _ _ (proj2 Hg0) Hi) as H. rewrite list.Forall_forall in H. destruct (H _ Hk) as [m Hm]. eauto. Qed.
Lemma parent_old i n p : st_heap s0 !! i = Some n -> n_parent n = Some p -> exists m, st_heap s0 !! p = Some m /\ i ∈ kids m.
Proof using Hg0. intros Hi Hp. assert (H : parent_is (st_heap s0) i p) by (exists n; auto). apply (cons_parent _ (proj2 Hg0)) in H as (m & Hm & Hk). eauto. Qed.
Lemma t_next_sibling i n : st_heap s0 !! i = Some n -> returns (next_sibling i SibAny) (fun r => forall k, r = Some k -> is_Some (st_heap s0 !! k)).
Proof using Hg0.
  intros Hi. unfold next_sibling. eapply t_bind; [eapply t_parent_of, Hi|]. intros p ->. destruct (n_parent n) as [p|] eqn:Ep; [|apply t_ret; discriminate].
  destruct (parent_old _ _ _ Hi Ep) as (m & Hm & Hk). eapply t_bind; [eapply t_children_of, Hm|]. intros l ->.
  destruct (index_of i (kids m)) as [k|] eqn:E.
  - apply t_ret. intros y Hy. destruct (kid_old _ _ y Hm) as [ny Hny]; [|eauto]. apply nth_error_In in Hy. apply elem_of_list_In, Hy.
  - exfalso. clear -E Hk. induction (kids m) as [|x l IH]; [inversion Hk|]. cbn [index_of] in E.
    destruct (Nat.eqb_spec i x) as [->|Hne]; [discriminate E|]. apply elem_of_cons in Hk as [->|Hk]; [congruence|].
    destruct (index_of i l); [discriminate E|]. apply IH; auto.
Qed.
End Steps.
