(** The parser builds the manuscript that the specification describes. *)
From Verif Require Import TreeFacts Meta TocBuild.
From Verif Require Export ParseHead.
From Verif Require Import Consistency NodeProofs NodeOps Monad.
Local Open Scope string_scope.
Local Open Scope list_scope.

Notation event := (atree + request)%type.
Definition trees (l : list event) : list atree := flat_map (fun e => match e with inl t => [t] | inr _ => [] end) l.
Definition reqs (l : list event) : list request := flat_map (fun e => match e with inl _ => [] | inr q => [q] end) l.
Lemma trees_app l1 l2 : trees (l1 ++ l2) = trees l1 ++ trees l2. Proof. apply flat_map_app. Qed.
Lemma reqs_app l1 l2 : reqs (l1 ++ l2) = reqs l1 ++ reqs l2. Proof. apply flat_map_app. Qed.
Definition events_of (o : outcome) : list event := map inl (fst o) ++ map inr (snd o).
Lemma trees_inl l : trees (map inl l) = l. Proof. induction l; simpl; congruence. Qed.
Lemma trees_inr l : trees (map inr l) = []. Proof. induction l; simpl; congruence. Qed.
Lemma reqs_inl l : reqs (map inl l) = []. Proof. induction l; simpl; congruence. Qed.
Lemma reqs_inr l : reqs (map inr l) = l. Proof. induction l; simpl; congruence. Qed.
Lemma trees_events o : trees (events_of o) = fst o.
Proof. unfold events_of. rewrite trees_app, trees_inl, trees_inr. apply app_nil_r. Qed.
Lemma reqs_events o : reqs (events_of o) = snd o.
Proof. unfold events_of. rewrite reqs_app, reqs_inl, reqs_inr. reflexivity. Qed.
Lemma trees_outcomes l : trees (flat_map events_of l) = nodes_of l.
Proof. induction l as [|o l IH]; [reflexivity|]. simpl. rewrite trees_app, trees_events, IH. reflexivity. Qed.
Lemma reqs_outcomes l : reqs (flat_map events_of l) = requests_of l.
Proof. induction l as [|o l IH]; [reflexivity|]. simpl. rewrite reqs_app, reqs_events, IH. reflexivity. Qed.

(** ** The log of the nodes added *)

Definition no_bib (h : gmap id node) (u : tree) : Prop :=
  forall x n, In x (doc_order u) -> h !! x = Some n -> n_cls n <> CBibliography.
Definition within (lo hi : nat) (u : tree) : Prop := forall x, In x (doc_order u) -> lo <= x /\ x < hi.

(** [log_ok h lo hi p r b es l b']: the events [es] happened, the nodes they made have identities
    from [lo] to [hi]; nodes go below [p], or nowhere, bibliographies below [r]; [b] and [b'] are
    the current bibliography before and after. *)
Inductive log_ok (h : gmap id node) (lo hi : nat) (p : option id) (r : id) :
    option id -> list event -> list (id * id) -> option id -> Prop :=
| lg_nil b : log_ok h lo hi p r b [] [] b
| lg_tree b p0 t u es l b' :
    p = Some p0 -> holds h (Some p0) u t -> within lo hi u -> no_bib h u ->
    log_ok h lo hi p r b es l b' -> log_ok h lo hi p r b (inl t :: es) ((p0, root u) :: l) b'
| lg_drop b t es l b' :
    p = None -> log_ok h lo hi p r b es l b' -> log_ok h lo hi p r b (inl t :: es) l b'
| lg_err b c es l b' :
    log_ok h lo hi p r b es l b' -> log_ok h lo hi p r b (inr (RErr c) :: es) l b'
| lg_none c es l b' :
    log_ok h lo hi p r None es l b' -> log_ok h lo hi p r None (inr (RTex c) :: es) l b'
| lg_tex k c us es l b' :
    Forall2 (holds h (Some k)) us (entries c) -> Forall (within lo hi) us -> Forall (no_bib h) us ->
    log_ok h lo hi p r (Some k) es l b' ->
    log_ok h lo hi p r (Some k) (inr (RTex c) :: es) (map (fun u => (k, root u)) us ++ l) b'
| lg_bib b k n es l b' :
    h !! k = Some n -> n_cls n = CBibliography -> n_attrs n = mk_attrs CBibliography [] -> n_parent n = Some r ->
    lo <= k -> k < hi -> (forall b0, b = Some b0 -> b0 < k) ->
    log_ok h lo hi p r (Some k) es l b' -> log_ok h lo hi p r b (inr RBib :: es) ((r, k) :: l) b'.

Lemma log_ok_app h lo hi p r b1 es1 l1 b2 es2 l2 b3 :
  log_ok h lo hi p r b1 es1 l1 b2 -> log_ok h lo hi p r b2 es2 l2 b3 -> log_ok h lo hi p r b1 (es1 ++ es2) (l1 ++ l2) b3.
Proof.
  induction 1; intros K; [exact K| | | | | | ].
  - simpl. eapply lg_tree; eauto.
  - simpl. apply lg_drop; auto.
  - simpl. apply lg_err; auto.
  - simpl. apply lg_none; auto.
  - simpl. rewrite <- app_assoc. apply lg_tex; auto.
  - simpl. eapply lg_bib; eauto.
Qed.
Lemma within_weaken lo hi lo' hi' u : lo' <= lo -> hi <= hi' -> within lo hi u -> within lo' hi' u.
Proof. intros H1 H2 H x Hx. apply H in Hx. lia. Qed.
Lemma log_ok_weaken h lo hi lo' hi' p r b es l b' :
  lo' <= lo -> hi <= hi' -> log_ok h lo hi p r b es l b' -> log_ok h lo' hi' p r b es l b'.
Proof.
  intros H1 H2. assert (Hw : forall u, within lo hi u -> within lo' hi' u) by (intros; eapply within_weaken; eassumption).
  induction 1; [constructor| | | | | | ].
  - eapply lg_tree; eauto.
  - apply lg_drop; auto.
  - apply lg_err; auto.
  - apply lg_none; auto.
  - apply lg_tex; auto. eapply Forall_impl; eassumption.
  - eapply lg_bib; eauto; lia.
Qed.
(** Later changes do not touch what was made. *)
Lemma log_ok_frame h h' lo hi p r b es l b' :
  (forall x n, lo <= x -> x < hi -> h !! x = Some n -> n_cls n <> CBibliography -> h' !! x = Some n) ->
  (forall x n, lo <= x -> x < hi -> h !! x = Some n ->
     exists n', h' !! x = Some n' /\ n_cls n' = n_cls n /\ n_attrs n' = n_attrs n /\ n_parent n' = n_parent n) ->
  log_ok h lo hi p r b es l b' -> log_ok h' lo hi p r b es l b'.
Proof.
  intros H1 H2.
  assert (Hd : forall q u t x, holds h q u t -> In x (doc_order u) -> is_Some (h !! x)).
  { intros q u. revert q. induction u as [i us IH] using tree_ind'. intros q t x Hh Hx.
    inversion Hh as [? ? n ? ts Hn _ _ Hts]; subst. destruct Hx as [<-|Hx]; [eauto|].
    clear Hn Hh. induction Hts as [|u a us ts Hu Hts IHl]; [destruct Hx|].
    apply list.Forall_cons in IH as [IHu IH]. simpl in Hx. apply in_app_iff in Hx as [Hx|Hx]; eauto. }
  assert (HF : forall q u t, holds h q u t -> within lo hi u -> no_bib h u -> holds h' q u t /\ no_bib h' u).
  { intros q u t Hh Hw Hn. assert (Hs : forall x, In x (doc_order u) -> h' !! x = h !! x).
    { intros x Hx. destruct (Hd _ _ _ _ Hh Hx) as [n Hxn]. rewrite Hxn.
      destruct (Hw _ Hx). eapply H1; eauto. }
    split; [eapply holds_frame; eassumption|]. intros x n Hx Hxn. rewrite Hs in Hxn by assumption. eapply Hn; eassumption. }
  induction 1; [constructor| | | | | | ].
  - destruct (HF _ _ _ H0 H3 H4). eapply lg_tree; eauto.
  - apply lg_drop; auto.
  - apply lg_err; auto.
  - apply lg_none; auto.
  - assert (Forall2 (holds h' (Some k)) us (entries c) /\ Forall (no_bib h') us) as [Ha Hb].
    { clear IHlog_ok H4. revert H0 H3. induction H as [|u t us ts Hu Hus IH]; intros Hw Hn; [split; constructor|].
      apply list.Forall_cons in Hw as [Hw1 Hw]. apply list.Forall_cons in Hn as [Hn1 Hn].
      destruct (HF _ _ _ Hu Hw1 Hn1). destruct (IH Hw Hn). split; constructor; assumption. }
    apply lg_tex; auto.
  - destruct (H2 k n) as (n' & Hn' & E1 & E2 & E3); try assumption.
    eapply lg_bib; eauto; congruence.
Qed.
(** Who the new nodes and their parents are. *)
Lemma log_ok_ids h lo hi p r b es l b' :
  log_ok h lo hi p r b es l b' -> forall q k, In (q, k) l ->
  (lo <= k /\ k < hi) /\ (Some q = p \/ q = r \/ Some q = b \/ (lo <= q /\ q < hi)).
Proof.
  induction 1; intros q x Hin.
  - destruct Hin.
  - destruct Hin as [[= <- <-]|Hin]; [|eauto]. split; [|auto]. apply H1. apply elem_of_list_In, root_in_doc_order.
  - eauto.
  - eauto.
  - eauto.
  - apply in_app_iff in Hin as [Hin|Hin]; [|eauto]. apply in_map_iff in Hin as (u & [= <- <-] & Hu).
    rewrite List.Forall_forall in H0. split; [|auto]. apply (H0 u Hu). apply elem_of_list_In, root_in_doc_order.
  - destruct Hin as [[= <- <-]|Hin]; [split; [lia|auto]|].
    apply IHlog_ok in Hin as [Hk Hq]. split; [exact Hk|]. destruct Hq as [?|[?|[[= ->]|?]]]; auto.
Qed.
Definition is_bib (q : request) : bool := match q with RBib => true | _ => false end.
Definition is_some {A} (o : option A) : bool := match o with Some _ => true | None => false end.
Lemma log_ok_bib h lo hi p r b es l b' :
  log_ok h lo hi p r b es l b' -> is_some b' = is_some b || existsb is_bib (reqs es).
Proof.
  induction 1; simpl in *; try assumption; try (rewrite orb_false_r; reflexivity).
  rewrite IHlog_ok. destruct b; reflexivity.
Qed.
Lemma log_ok_bib_class h lo hi p r b es l b' :
  log_ok h lo hi p r b es l b' -> forall k, b' = Some k ->
  b = Some k \/ (lo <= k /\ k < hi /\ exists n, h !! k = Some n /\ n_cls n = CBibliography).
Proof.
  induction 1; intros k' E; auto.
  destruct (IHlog_ok k' E) as [[= <-]|?]; [|auto]. right. eauto.
Qed.
Lemma warnings_app b l1 l2 : warnings b (l1 ++ l2) = warnings b l1 ++ warnings (b || existsb is_bib l1) l2.
Proof.
  revert b. induction l1 as [|[|c|c] l1 IH]; intros b; simpl.
  - rewrite orb_false_r. reflexivity.
  - rewrite IH. rewrite orb_true_r. reflexivity.
  - rewrite IH. rewrite app_assoc. reflexivity.
  - rewrite IH. reflexivity.
Qed.

(** ** From the children of a node to the node *)

Lemma proj_none l j : (forall q k, In (q, k) l -> q <> j) -> proj l j = [].
Proof.
  unfold proj. induction l as [|[q k] l IH]; intros H; [reflexivity|]. simpl.
  destruct (Nat.eqb_spec q j) as [->|]; [destruct (H j k); [left|]; reflexivity|].
  apply IH. intros q' k' Hin. apply (H q' k'). right. assumption.
Qed.
Definition others (i : id) (l : list (id * id)) : list (id * id) := List.filter (fun e => negb (Nat.eqb (fst e) i)) l.
Lemma proj_others i l j : j <> i -> proj (others i l) j = proj l j.
Proof.
  intros Hj. unfold proj, others. induction l as [|[q k] l IH]; [reflexivity|]. simpl.
  destruct (Nat.eqb_spec q i) as [->|]; simpl.
  - destruct (Nat.eqb_spec i j); [congruence|]. assumption.
  - destruct (Nat.eqb_spec q j); simpl; rewrite IH; reflexivity.
Qed.
Lemma others_in i l e : In e (others i l) -> In e l.
Proof. unfold others. intros H. apply filter_In in H as [H _]. assumption. Qed.
Lemma others_cons_same i k l : others i ((i, k) :: l) = others i l.
Proof. unfold others. simpl. rewrite Nat.eqb_refl. reflexivity. Qed.
Lemma others_cons_other i q k l : q <> i -> others i ((q, k) :: l) = (q, k) :: others i l.
Proof. unfold others. simpl. intros H. apply Nat.eqb_neq in H. rewrite H. reflexivity. Qed.
Lemma others_map i q us l : q <> i -> others i (map (fun u => (q, root u)) us ++ l) = map (fun u => (q, root u)) us ++ others i l.
Proof. intros H. induction us as [|u us IH]; [reflexivity|]. cbn [map app]. rewrite others_cons_other, IH by assumption. reflexivity. Qed.
Lemma proj_map_other i q (us : list tree) l : q <> i -> proj (map (fun u => (q, root u)) us ++ l) i = proj l i.
Proof.
  intros H. rewrite proj_app, (proj_none (map _ _)); [reflexivity|].
  intros q' k Hin. apply in_map_iff in Hin as (u & [= <- <-] & _). assumption.
Qed.
Lemma proj_cons_other i q k l : q <> i -> proj ((q, k) :: l) i = proj l i.
Proof. unfold proj. simpl. intros H. apply Nat.eqb_neq in H. rewrite H. reflexivity. Qed.
Lemma proj_cons_same i k l : proj ((i, k) :: l) i = k :: proj l i.
Proof. unfold proj. simpl. rewrite Nat.eqb_refl. reflexivity. Qed.

Lemma log_extract h lo hi p r b es l b' i p' :
  log_ok h lo hi p r b es l b' -> p = None \/ p = Some i -> i <> r -> (forall b0, b = Some b0 -> b0 <> i) -> i < lo ->
  (exists us, proj l i = map root us /\ Forall2 (holds h (Some i)) us (match p with None => [] | Some _ => trees es end) /\
     Forall (within lo hi) us /\ Forall (no_bib h) us) /\
  log_ok h lo hi p' r b (map inr (reqs es)) (others i l) b'.
Proof.
  intros H Hp Hr Hb Hi. induction H.
  - split; [|constructor]. exists []. destruct p; repeat split; constructor.
  - destruct Hp as [?|Hp]; [congruence|]. assert (p0 = i) as -> by congruence.
    destruct (IHlog_ok Hb) as [(us & E1 & E2 & E3 & E4) IH]. split.
    + exists (u :: us). rewrite proj_cons_same, E1. subst p. repeat split; constructor; assumption.
    + rewrite others_cons_same. exact IH.
  - destruct (IHlog_ok Hb) as [(us & E1 & E2 & E3 & E4) IH]. split; [|exact IH].
    exists us. subst p. auto.
  - destruct (IHlog_ok Hb) as [Hus IH]. split; [exact Hus|]. simpl. apply lg_err. exact IH.
  - destruct (IHlog_ok Hb) as [Hus IH]. split; [exact Hus|]. simpl. apply lg_none. exact IH.
  - destruct (IHlog_ok Hb) as [Hus IH]. pose proof (Hb k eq_refl) as Hk.
    rewrite proj_map_other, others_map by assumption. split; [exact Hus|]. simpl. apply lg_tex; assumption.
  - destruct IHlog_ok as [Hus IH]; [intros b0 [= <-]; lia|].
    rewrite proj_cons_other, others_cons_other by congruence. split; [exact Hus|]. simpl. eapply lg_bib; eauto.
Qed.

(** ** The simulation *)

Definition out (x : place) : outcome := mirror (pl_prev x) (pl_next x) (pl_node x).
Definition bib_at (s : st) (k : id) : Prop := exists n, st_heap s !! k = Some n /\ n_cls n = CBibliography.
Definition other_at (s : st) (k : id) : Prop := exists n, st_heap s !! k = Some n /\ n_cls n <> CBibliography.

(** The variables of the loop and the parent on the stack. *)
Record ready (s : st) (v : pst) (r : id) : Prop := {
  rd_good : good s;
  rd_root : ps_root v = Some r;
  rd_rootc : other_at s r;
  rd_bib : forall b, ps_bib v = Some b -> bib_at s b;
}.
Record sim (s s' : st) (v v' : pst) (r : id) (p : option id) (es : list event) (l : list (id * id)) : Prop := {
  sm_ready : ready s' v' r;
  sm_delta : delta s s' l;
  sm_log : log_ok (st_heap s') (st_next s) (st_next s') p r (ps_bib v) es l (ps_bib v');
  sm_bibs : forall k n, In (r, k) l -> st_heap s' !! k = Some n -> n_cls n = CBibliography -> n_children n = proj l k;
  sm_logs : st_logs s' = st_logs s ++ warnings (is_some (ps_bib v)) (reqs es);
}.
Lemma delta_class s s' l k n : good s -> delta s s' l -> st_heap s !! k = Some n ->
  exists n', st_heap s' !! k = Some n' /\ n_cls n' = n_cls n /\ n_attrs n' = n_attrs n /\ n_parent n' = n_parent n.
Proof.
  intros [Hf _] [_ Hd] Hk. rewrite (Hd k) by (eapply Hf, Hk). rewrite Hk. simpl. eexists. split; [reflexivity|]. auto.
Qed.
Lemma delta_other s s' l k : good s -> delta s s' l -> other_at s k -> other_at s' k.
Proof. intros Hg Hd (n & Hn & Hc). destruct (delta_class _ _ _ _ _ Hg Hd Hn) as (n' & ? & ? & _). exists n'. split; congruence. Qed.
Lemma delta_bib s s' l k : good s -> delta s s' l -> bib_at s k -> bib_at s' k.
Proof. intros Hg Hd (n & Hn & Hc). destruct (delta_class _ _ _ _ _ Hg Hd Hn) as (n' & ? & ? & _). exists n'. split; congruence. Qed.
Lemma delta_attached s s' l p : good s -> delta s s' l -> is_Some (st_heap s !! p) -> attached (st_heap s') (Some p) = attached (st_heap s) (Some p).
Proof.
  intros Hg Hd [n Hn]. destruct (delta_class _ _ _ _ _ Hg Hd Hn) as (n' & Hn' & E & _).
  unfold attached. rewrite Hn, Hn', E. reflexivity.
Qed.

Lemma sim_nil s v r p : ready s v r -> sim s s v v r p [] [].
Proof.
  intros Hr. split; [assumption| |constructor| |].
  - apply delta_same; auto.
  - intros k n [].
  - simpl. rewrite app_nil_r. reflexivity.
Qed.
Lemma sim_trans s s1 s2 v v1 v2 r p e1 l1 e2 l2 :
  ready s v r -> (forall q, p = Some q -> other_at s q) ->
  sim s s1 v v1 r p e1 l1 -> sim s1 s2 v1 v2 r p e2 l2 -> sim s s2 v v2 r p (e1 ++ e2) (l1 ++ l2).
Proof.
  intros Hr Hp [R1 D1 G1 B1 L1] [R2 D2 G2 B2 L2].
  pose proof (rd_good _ _ _ Hr) as [Hf _]. pose proof (rd_good _ _ _ R1) as Hg1.
  assert (Hpar : forall q k, In (q, k) l2 -> q < st_next s1 -> st_next s <= q -> bib_at s1 q).
  { intros q k Hin Hq Hlo. destruct (log_ok_ids _ _ _ _ _ _ _ _ _ G2 q k Hin) as [_ [E|[->|[E|?]]]].
    - destruct (Hp q (eq_sym E)) as (n & Hn & _). apply Hf in Hn. lia.
    - destruct (rd_rootc _ _ _ Hr) as (n & Hn & _). apply Hf in Hn. lia.
    - apply (rd_bib _ _ _ R1). auto.
    - lia. }
  split; [assumption|eapply delta_trans; eassumption| | |].
  - eapply log_ok_app.
    + eapply log_ok_frame; [| |eapply log_ok_weaken; [| |eapply log_ok_frame; [| |exact G1]]].
      * intros x n ? ? Hx _. exact Hx.
      * intros x n ? ? Hx. exists n. auto.
      * lia.
      * apply D2.
      * intros x n Hlo Hhi Hx Hc. destruct D2 as [_ D2]. rewrite D2, Hx by assumption. simpl.
        rewrite proj_none, add_kids_nil; [reflexivity|]. intros q k Hin ->.
        destruct (Hpar x k Hin Hhi Hlo) as (n' & Hn' & Hc'). congruence.
      * intros x n _ _ Hx. eapply delta_class; eassumption.
    + eapply log_ok_weaken; [|reflexivity|exact G2]. apply D1.
  - intros k n Hin Hk Hc. rewrite proj_app. apply in_app_iff in Hin as [Hin|Hin].
    + destruct (log_ok_ids _ _ _ _ _ _ _ _ _ G1 _ _ Hin) as [[_ Hhi] _].
      pose proof D2 as [_ D2']. rewrite D2' in Hk by assumption.
      destruct (st_heap s1 !! k) as [n1|] eqn:E; [|discriminate]. injection Hk as <-. simpl in *.
      rewrite (B1 k n1 Hin E Hc). reflexivity.
    + destruct (log_ok_ids _ _ _ _ _ _ _ _ _ G2 _ _ Hin) as [[Hlo _] _].
      rewrite (proj_none l1); [apply (B2 k n Hin Hk Hc)|]. intros q x Hx ->.
      destruct (log_ok_ids _ _ _ _ _ _ _ _ _ G1 _ _ Hx) as [_ [E|[->|[E|[_ ?]]]]].
      * destruct (Hp k (eq_sym E)) as (n' & Hn' & _). apply Hf in Hn'. destruct D1. lia.
      * destruct (rd_rootc _ _ _ Hr) as (n' & Hn' & _). apply Hf in Hn'. destruct D1. lia.
      * destruct (rd_bib _ _ _ Hr k (eq_sym E)) as (n' & Hn' & _). apply Hf in Hn'. destruct D1. lia.
      * lia.
  - rewrite L2, L1, <- app_assoc. f_equal. rewrite reqs_app, warnings_app. f_equal.
    rewrite (log_ok_bib _ _ _ _ _ _ _ _ _ G1). reflexivity.
Qed.

(** A node with what its children became. *)
Fixpoint nobib (t : atree) : bool :=
  match t with A c _ ts => negb (cls_mem c [CBibliography]) && forallb nobib ts end.
Lemma nobib_holds h u : forall p t, holds h p u t -> nobib t = true -> no_bib h u.
Proof.
  induction u as [i us IH] using tree_ind'. intros p t H Hn x n Hx Hxn.
  inversion H as [? ? n0 ? ts Hn0 _ _ Hts]; subst. simpl in Hn. apply andb_prop in Hn as [Hc Hn].
  destruct Hx as [<-|Hx].
  - assert (n = n0) as -> by congruence. intros E. rewrite E in Hc. discriminate.
  - clear Hc H Hn0. revert IH Hn Hx. induction Hts as [|u a us ts Hu Hts IHl]; intros IH Hn Hx; [destruct Hx|].
    apply list.Forall_cons in IH as [IHu IH]. simpl in Hn, Hx. apply andb_prop in Hn as [Hn1 Hn].
    apply in_app_iff in Hx as [Hx|Hx]; [eapply IHu; eassumption|eapply IHl; eassumption].
Qed.
Lemma nobib_holds_list h p us ts : Forall2 (holds h p) us ts -> forallb nobib ts = true -> Forall (no_bib h) us.
Proof.
  induction 1 as [|u t us ts Hu Hus IH]; intros Hn; [constructor|]. simpl in Hn. apply andb_prop in Hn as [H1 H2].
  constructor; [eapply nobib_holds; eassumption|auto].
Qed.
Lemma in_doc_orders x us : In x (doc_orders us) <-> exists u, In u us /\ In x (doc_order u).
Proof. apply in_flat_map. Qed.

Lemma sim_node s s1 s2 v v2 r p i cl m us own es l rq :
  ready s v r -> (forall q, p = Some q -> other_at s q) ->
  placed s s1 p i cl m us own -> st_logs s1 = st_logs s ++ warnings (is_some (ps_bib v)) rq ->
  (rq = [] \/ exists c, rq = [RErr c]) -> cl <> CBibliography -> forallb nobib own = true ->
  sim s1 s2 v v2 r (attached (st_heap s1) (Some i)) es l ->
  sim s s2 v v2 r p (inl (A cl m (own ++ if has_children cl then trees es else [])) :: map inr (rq ++ reqs es))
    (link p i ++ others i l).
Proof.
  intros Hr Hp [hd_good0 hd_lo0 hd_hi0 hd_delta0 hd_node0 hd_own0 hd_ids0 hd_leaf0] Hlog Hrq Hcl Hown [R D G B L].
  pose proof (rd_good _ _ _ Hr) as [Hf _].
  assert (Hrlt : r < st_next s) by (destruct (rd_rootc _ _ _ Hr) as (n & Hn & _); eapply Hf, Hn).
  assert (Hblt : forall b, ps_bib v = Some b -> b < st_next s).
  { intros b Eb. destruct (rd_bib _ _ _ Hr b Eb) as (n & Hn & _). eapply Hf, Hn. }
  assert (Hplt : forall q, p = Some q -> q < st_next s).
  { intros q Eq. destruct (Hp q Eq) as (n & Hn & _). eapply Hf, Hn. }
  assert (Hatt : attached (st_heap s1) (Some i) = if has_children cl then Some i else None).
  { unfold attached. rewrite hd_node0. reflexivity. }
  destruct (log_extract _ _ _ _ _ _ _ _ _ i p G) as [(us' & E1 & E2 & E3 & E4) G'].
  { rewrite Hatt. destruct (has_children cl); auto. }
  { lia. }
  { intros b0 Eb. apply Hblt in Eb. lia. }
  { assumption. }
  assert (E2' : Forall2 (holds (st_heap s2) (Some i)) us' (if has_children cl then trees es else [])).
  { rewrite Hatt in E2. destruct (has_children cl); exact E2. }
  clear E2. destruct hd_delta0 as [D1 D1']. pose proof D as [D2 D2'].
  assert (Hi2 : st_heap s2 !! i = Some (MkNode cl p (map root (us ++ us')) m)).
  { rewrite D2', hd_node0 by assumption. simpl. unfold add_kids. simpl. rewrite E1, map_app. reflexivity. }
  assert (Hus : forall x, In x (doc_orders us) -> st_heap s2 !! x = st_heap s1 !! x).
  { intros x Hx. apply hd_ids0 in Hx as (H1 & H2 & H3). rewrite D2' by assumption.
    rewrite proj_none; [destruct (st_heap s1 !! x); [simpl; rewrite add_kids_nil|]; reflexivity|].
    intros q k Hin ->. destruct (log_ok_ids _ _ _ _ _ _ _ _ _ G _ _ Hin) as [_ [E|[->|[E|[? _]]]]].
    - rewrite Hatt in E. destruct (has_children cl); congruence.
    - lia.
    - symmetry in E. apply Hblt in E. lia.
    - lia. }
  assert (Hkids : Forall2 (holds (st_heap s2) (Some i)) (us ++ us') (own ++ (if has_children cl then trees es else []))).
  { apply Forall2_app; [eapply holds_frames; eassumption|assumption]. }
  assert (Hh : holds (st_heap s2) p (T i (us ++ us')) (A cl m (own ++ (if has_children cl then trees es else [])))).
  { change cl with (n_cls (MkNode cl p (map root (us ++ us')) m)) at 1.
    change m with (n_attrs (MkNode cl p (map root (us ++ us')) m)) at 2.
    apply holds_node; [assumption|reflexivity| |exact Hkids].
    unfold kids. simpl. destruct (has_children cl) eqn:Ehc; [reflexivity|].
    destruct hd_leaf0 as [?|Hnil]; [congruence|]. inversion E2'. subst. reflexivity. }
  assert (Hw : within (st_next s) (st_next s2) (T i (us ++ us'))).
  { intros x [<-|Hx]; [lia|]. fold (doc_orders (us ++ us')) in Hx. rewrite doc_orders_app in Hx.
    apply in_app_iff in Hx as [Hx|Hx].
    - apply hd_ids0 in Hx. lia.
    - apply in_doc_orders in Hx as (u & Hu & Hx). rewrite List.Forall_forall in E3. apply (E3 u Hu) in Hx. lia. }
  assert (Hnb : no_bib (st_heap s2) (T i (us ++ us'))).
  { intros x n [<-|Hx] Hn; [rewrite Hi2 in Hn; injection Hn as <-; exact Hcl|].
    fold (doc_orders (us ++ us')) in Hx. rewrite doc_orders_app in Hx. apply in_app_iff in Hx as [Hx|Hx].
    - rewrite Hus in Hn by assumption. apply in_doc_orders in Hx as (u & Hu & Hx).
      pose proof (nobib_holds_list _ _ _ _ hd_own0 Hown) as Hn'. rewrite List.Forall_forall in Hn'.
      eapply (Hn' u Hu); eassumption.
    - apply in_doc_orders in Hx as (u & Hu & Hx). rewrite List.Forall_forall in E4. eapply (E4 u Hu); eassumption. }
  assert (Hrqb : existsb is_bib rq = false) by (destruct Hrq as [->|[c ->]]; reflexivity).
  split.
  - assumption.
  - split; [lia|]. intros j Hj. rewrite D2', D1' by lia. destruct (st_heap s !! j); [|reflexivity]. simpl.
    rewrite add_kids_app, proj_app, proj_others by lia. reflexivity.
  - assert (G2 : log_ok (st_heap s2) (st_next s) (st_next s2) p r (ps_bib v) (map inr (rq ++ reqs es)) (others i l) (ps_bib v2)).
    { eapply log_ok_weaken in G'; [|exact D1|reflexivity].
      destruct Hrq as [->|[c ->]]; [exact G'|]. simpl. apply lg_err. exact G'. }
    destruct p as [q|]; simpl.
    + change i with (root (T i (us ++ us'))) at 1. eapply lg_tree; try eassumption. reflexivity.
    + apply lg_drop; [reflexivity|assumption].
  - intros k n Hin Hk Hc. apply in_app_iff in Hin as [Hin|Hin].
    + destruct p as [q|]; [|destruct Hin]. destruct Hin as [[= -> <-]|[]]. rewrite Hi2 in Hk. injection Hk as <-.
      destruct (Hcl Hc).
    + apply others_in in Hin. destruct (log_ok_ids _ _ _ _ _ _ _ _ _ G _ _ Hin) as [[Hlo _] _].
      rewrite (B k n Hin Hk Hc), proj_app, proj_others by lia.
      rewrite (proj_none (link p i)); [reflexivity|]. intros q x Hx ->. destruct p as [q|]; [|destruct Hx].
      destruct Hx as [[= -> _]|[]]. specialize (Hplt k eq_refl). lia.
  - rewrite L, Hlog, <- app_assoc. f_equal. simpl. rewrite reqs_inr, warnings_app, Hrqb, orb_false_r. reflexivity.
Qed.

(** ** The tables *)

Lemma ast_type_in t k kw : ast_type t = Some (k, kw) -> exists z, In (z, (k, kw)) ast_types /\ t = lit z.
Proof.
  unfold ast_type. destruct (find _ ast_types) as [[z [k' kw']]|] eqn:E; [|discriminate]. intros [= <- <-].
  apply find_some in E as [Hin E]. apply str_eqb_true in E. eauto.
Qed.
Lemma table_check (P : string -> cls -> bool) :
  forallb (fun e => P e.1 e.2.1) ast_types = true ->
  forall t k kw, ast_type t = Some (k, kw) -> exists z, t = lit z /\ P z k = true.
Proof.
  intros H t k kw E. apply ast_type_in in E as (z & Hin & ->). rewrite forallb_forall in H.
  exists z. split; [reflexivity|]. exact (H _ Hin).
Qed.
Lemma node_class_bib t : node_class t <> CBibliography.
Proof.
  unfold node_class. destruct (ast_type t) as [[k kw]|] eqn:E; [|discriminate].
  destruct (table_check (fun _ k => negb (cls_mem k [CBibliography])) ltac:(vm_compute; reflexivity) _ _ _ E) as (_ & _ & H).
  intros ->. discriminate.
Qed.
Lemma node_class_manuscript t : subclass (node_class t) CManuscript = true -> t = lit "source_file".
Proof.
  unfold node_class. destruct (ast_type t) as [[k kw]|] eqn:E; [|intros H; vm_compute in H; discriminate].
  intros Hs. destruct (table_check (fun z k => implb (subclass k CManuscript) (String.eqb z "source_file")) ltac:(vm_compute; reflexivity) _ _ _ E) as (z & -> & H).
  rewrite Hs in H. apply String.eqb_eq in H as ->. reflexivity.
Qed.
Lemma section_class t k kw : ast_type t = Some (k, kw) -> suffixb (lit "section") t = true -> has_children k = true.
Proof.
  intros E Hs. destruct (table_check (fun z k => implb (suffixb (lit "section") (lit z)) (has_children k)) ltac:(vm_compute; reflexivity) _ _ _ E) as (z & -> & H).
  rewrite Hs in H. exact H.
Qed.
Lemma shaped_nobib t x c : nobib (shaped t x c []) = true.
Proof.
  unfold shaped. assert (Hv : forall m, forallb nobib (verbatim t m c) = true).
  { intros m. unfold verbatim. destruct (type_in ["code"; "codeblock"] t); [reflexivity|].
    destruct (type_in ["math"; "mathblock"; "algorithm"] t); reflexivity. }
  destruct (_ && _).
  - simpl. rewrite Hv. reflexivity.
  - pose proof (node_class_bib t) as H. destruct (cls_mem (node_class t) [CBibliography]) eqn:E.
    + apply cls_mem_spec in E as [E|[]]. congruence.
    + cbn [nobib]. rewrite E. cbn [negb andb]. rewrite app_nil_r. destruct (has_children _); [apply Hv|reflexivity].
Qed.

(** ** The specification, one level at a time *)

Lemma mirror_all c k prev :
  (fix go (k : nat) (prev : option cst) (l : list cst) : list (place * outcome) :=
     match l with
     | [] => []
     | d :: r => (MkPlace k prev d (hd_error r), mirror prev (hd_error r) d) :: go (S k) (Some d) r
     end) k prev c = map (fun x => (x, out x)) (places_from k prev c).
Proof. revert k prev. induction c as [|d c IH]; intros k prev; [reflexivity|]. simpl. rewrite IH. reflexivity. Qed.
Definition mirror_at (x : place) : outcome :=
  let c := pl_node x in
  let all := places_and_outcomes c in
  let t := c_type c in
  if is_type "comment" c then ([], [])
  else if is_type "specialblock" c && match c_children c with b :: _ => is_type "bibliography" b | [] => false end
  then ([], [RBib])
  else if is_type "bibtex" c then ([], [RTex c])
  else if is_type "bibitem" c then ([bibitem c], [])
  else if is_type "source_file" c || suffixb (lit "section") t then
    let l := handed_on (skipped_title c) all in
    ([A (node_class t) (section_attrs c) (nodes_of l)], requests_of l)
  else if type_in ["specialblock"; "specialinline"] t then
    match first_named all with
    | None => ([], [])
    | Some (f, o) => if is_type "table" (pl_node f) then o else as_node (c_type (pl_node f)) x [] all
    end
  else if is_type "td" c then match first_named all with None => ([], []) | Some (_, o) => o end
  else if is_type "paragraph" c then
    match first_named all with
    | None => ([], [])
    | Some (f, o) => if type_in ["item"; "caption"] (c_type (pl_node f)) then o else as_node t x [] all
    end
  else if type_in ["block"; "inline"] t then
    match field_child "tag" c with
    | None => ([], [])
    | Some g => as_node (c_type (pl_node g)) x [pl_pos g] all
    end
  else as_node t x [] all.
Lemma out_eq x : out x = mirror_at x.
Proof.
  unfold out, mirror_at. destruct x as [k prev c next]. cbn [pl_prev pl_next pl_node].
  destruct c as [ty fd nm tx sp ep cs]. cbn [mirror c_children].
  rewrite (mirror_all cs 0 None). reflexivity.
Qed.
