(** Translation always ends: visit methods of the base translator. *)
From Verif Require Export TrTotal.
From Verif Require Import Queries FullNumber EditTotal Traverse NodeOps Monad.
Local Open Scope list_scope.

(** *** Title nodes *)
Lemma piece_returns (para : id) cl x s np : st_heap s !! para = Some np -> n_cls np = CParagraph -> para < st_next s ->
  exists s' np', (let! span := new_node CSpan [(a_types, VStrs [cl])] in
    let! t := new_node CText [(a_text, VStr x)] in do! append span [t] in append para [span]) s = (s', Ok tt) /\
    st_heap s' !! para = Some np' /\ n_cls np' = CParagraph /\ para < st_next s'.
Proof.
  intros Hp Hc Hlt.
  set (s1 := new s (mk_node CSpan [(a_types, VStrs [cl])])).
  assert (E1 : new_node CSpan [(a_types, VStrs [cl])] s = (s1, Ok (st_next s))) by reflexivity.
  set (s2 := new s1 (mk_node CText [(a_text, VStr x)])).
  assert (E2 : new_node CText [(a_text, VStr x)] s1 = (s2, Ok (st_next s1))) by reflexivity.
  assert (N1 : st_next s1 = S (st_next s)) by reflexivity. assert (N2 : st_next s2 = S (S (st_next s))) by reflexivity.
  assert (Ht2 : st_heap s2 !! st_next s1 = Some (mk_node CText [(a_text, VStr x)])) by (unfold s2; rewrite new_lookup, decide_True; reflexivity).
  assert (Hs2 : st_heap s2 !! st_next s = Some (mk_node CSpan [(a_types, VStrs [cl])])).
  { unfold s2. rewrite new_lookup, decide_False by lia. unfold s1. rewrite new_lookup, decide_True; reflexivity. }
  assert (Hp2 : st_heap s2 !! para = Some np).
  { unfold s2. rewrite new_lookup, decide_False by lia. unfold s1. rewrite new_lookup, decide_False by lia. exact Hp. }
  destruct (append_total (st_next s) [st_next s1] s2 _ Hs2 eq_refl) as [s3 E3].
  { constructor; [intros H; inversion H|constructor]. }
  { intros c [<-|[]]. eexists. split; [exact Ht2|]. split; [reflexivity|left; reflexivity]. }
  apply append_ok in E3 as E3'. destruct E3' as ([N3 _] & Hed & _).
  pose proof (edited_lookup _ _ _ _ _ _ Hed Hs2) as Hs3. pose proof (edited_lookup _ _ _ _ _ _ Hed Hp2) as Hp3.
  cbv beta in Hs3. destruct (decide (st_next s ∈ [st_next s1])) as [Hin|_]; [apply elem_of_list_singleton in Hin; lia|].
  destruct (append_total para [st_next s] s3 _ Hp3) as [s4 E4].
  { cbn. rewrite Hc. reflexivity. }
  { constructor; [intros H; inversion H|constructor]. }
  { intros c [<-|[]]. eexists. split; [exact Hs3|]. split; [reflexivity|left; reflexivity]. }
  apply append_ok in E4 as E4'. destruct E4' as ([N4 _] & Hed' & _).
  pose proof (edited_lookup _ _ _ _ _ _ Hed' Hp3) as Hp4.
  eexists s4, _. split; [unfold bind at 1; rewrite E1; unfold bind at 1; rewrite E2; unfold bind at 1; rewrite E3; exact E4|].
  split; [exact Hp4|]. split; [exact Hc|]. rewrite N4, N3, N2. lia.
Qed.
Lemma title_returns label desc s : exists s' j, make_title_node label desc s = (s', Ok j).
Proof.
  unfold make_title_node. set (s1 := new s (mk_node CParagraph [(a_types, VStrs [lit "hr-label"])])).
  assert (E1 : new_node CParagraph [(a_types, VStrs [lit "hr-label"])] s = (s1, Ok (st_next s))) by reflexivity.
  assert (Hp : st_heap s1 !! st_next s = Some (mk_node CParagraph [(a_types, VStrs [lit "hr-label"])])) by (unfold s1; rewrite new_lookup, decide_True; reflexivity).
  assert (Hl : st_next s < st_next s1) by (cbn; lia).
  unfold bind at 1. rewrite E1. cbv zeta.
  assert (G : forall cl x u np, st_heap u !! st_next s = Some np -> n_cls np = CParagraph -> st_next s < st_next u ->
    exists u' np', (match x with [] => ret tt | _ :: _ => let! span := new_node CSpan [(a_types, VStrs [cl])] in
      let! t := new_node CText [(a_text, VStr x)] in do! append span [t] in append (st_next s) [span] end) u = (u', Ok tt) /\
      st_heap u' !! st_next s = Some np' /\ n_cls np' = CParagraph /\ st_next s < st_next u').
  { intros cl x s2 np H1 H2 H3. destruct x as [|c x]; [exists s2, np; auto|]. eapply piece_returns; eassumption. }
  destruct (G (lit "label") label s1 _ Hp eq_refl Hl) as (s2 & n2 & E2 & H2 & C2 & L2). unfold bind at 1. rewrite E2.
  destruct (G (lit "desc") desc s2 _ H2 C2 L2) as (s3 & n3 & E3 & _). unfold bind at 1. rewrite E3. eexists s3, _. reflexivity.
Qed.

Lemma during_trans A s0 s1 s2 : during A s0 s1 -> during A s1 s2 -> during A s0 s2.
Proof.
  intros [_ _ _ _ H1] [G2 T2 C2 P2 H2]. constructor; [assumption..|]. intros i n Hi. destruct (H1 _ _ Hi) as (n1 & Hn1 & E1 & E2 & E3 & E4).
  destruct (H2 _ _ Hn1) as (n2 & Hn2 & D1 & D2 & D3 & D4). exists n2. split; [exact Hn2|]. repeat split; try congruence. intros a Ha. rewrite D4, E4; auto.
Qed.
Lemma during_refl A s : good s -> wtyped s -> complete s ->
  (forall i n v, st_heap s !! i = Some n -> n_attrs n !! a_must_close_p_tag = Some v -> n_cls n = CParagraph) -> during A s s.
Proof. intros. constructor; auto. eauto 10. Qed.
Lemma wtyped_typed s : typed s -> wtyped s.
Proof. intros H i n a v Hi Hv. destruct (H _ _ _ _ Hi Hv). auto. Qed.

Lemma t_title A s0 label desc : returns A s0 (make_title_node label desc) (fun _ => True).
Proof.
  intros s Hs. destruct (title_returns label desc s) as (s' & j & E). exists s', j. split; [exact E|]. split; [|exact I].
  destruct (tp_make_title A label desc _ _ _ E (du_good _ _ _ Hs)) as (G & _ & _ & F).
  set (P := fun (c : cls) (m : gmap attr val) => (forall a, In a (map fst (default_attrs c)) -> is_Some (m !! a)) /\
    (forall a v, m !! a = Some v -> attr_shape a v = true /\ nodes_in v = [])).
  assert (HP : forall c kw, (forall a v, In (a, v) kw -> attr_shape a v = true /\ nodes_in v = []) -> P c (mk_attrs c kw)).
  { intros c kw Hkw. split; [intros a Ha; apply mk_attrs_default, Ha|]. intros a v Hv. apply mk_attrs_in, in_app_iff in Hv as [Hv|Hv].
    - apply defaults_simple in Hv. exact Hv.
    - apply Hkw, Hv. }
  assert (N : changes (nn P) (make_title_node label desc)).
  { apply nn_title; intros; apply HP; intros a v [[= <- <-]|[]]; split; reflexivity. }
  specialize (N s). rewrite E in N. cbn [fst] in N. constructor; [exact G| | | |].
  - intros i n a v Hi Hv. destruct (N _ _ Hi) as [[_ H]|(m & Hm & _ & Ea)].
    + destruct (H _ _ Hv) as [H1 H2]. split; [right; exact H1|]. rewrite H2. intros y Hy. inversion Hy.
    + rewrite Ea in Hv. destruct (du_typed _ _ _ Hs _ _ _ _ Hm Hv) as [H1 H2]. split; [exact H1|]. intros y Hy. destruct (H2 y Hy) as [ny Hny].
      destruct (F _ _ Hny) as (ny' & Hny' & _). eauto.
  - intros i n a Hi Ha. destruct (N _ _ Hi) as [[H _]|(m & Hm & Ec & Ea)]; [apply H, Ha|]. rewrite Ea. apply (du_complete _ _ _ Hs i m a Hm). rewrite <- Ec. exact Ha.
  - intros i n v Hi Hv. destruct (N _ _ Hi) as [[_ H]|(m & Hm & Ec & Ea)]; [destruct (H _ _ Hv) as [H1 _]; discriminate H1|].
    rewrite Ec. rewrite Ea in Hv. eapply (du_flag _ _ _ Hs); eassumption.
  - intros i n Hi. destruct (du_old _ _ _ Hs _ _ Hi) as (n1 & Hn1 & E1 & E2 & E3 & E4). destruct (F _ _ Hn1) as (n2 & Hn2 & D1 & D2 & D3 & D4).
    exists n2. split; [exact Hn2|]. repeat split; try congruence. intros a Ha. rewrite D4, E4; auto.
Qed.
