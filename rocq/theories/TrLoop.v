(** The loop of [translate] as a recursion over the tree. *)
From Verif Require Export TrFrame.
From Verif Require Import NodeOps Monad.

(** ** Commands *)

(** Commands whose text is known without translating another tree. *)
Fixpoint static (c : cmd) : bool :=
  match c with
  | KText _ | KOpenClose _ _ | KOpenManual _ _ => true
  | KBatch l => forallb static l
  | _ => false
  end.
Fixpoint static_toks (c : cmd) : list tok :=
  match c with
  | KText t => t
  | KOpenClose g content =>
      nl_if (tg_outer g) ++ [start_tag g] ++ nl_if (tg_inner g) ++ content
      ++ nl_if (tg_inner g) ++ [TClose (tg_tag g)] ++ nl_if (tg_outer g)
  | KOpenManual g content => nl_if (tg_outer g) ++ [start_tag g] ++ nl_if (tg_inner g) ++ content
  | KBatch l => flat_map static_toks l
  | _ => []
  end.
Lemma execute_batch ext l : forall u, execute ext (KBatch l) u =
  (fix go (l : list cmd) (ts : tst) : M tst :=
     match l with [] => ret ts | x :: r => let! ts := execute ext x ts in go r ts end) l u.
Proof. reflexivity. Qed.
Lemma cmd_ind' (P : cmd -> Prop) :
  (forall t, P (KText t)) -> (forall t d, P (KTextDefer t d)) -> (forall g ct, P (KOpenClose g ct)) ->
  (forall g ct, P (KOpenManual g ct)) -> (forall g, P (KOpen g)) -> (forall r, P (KExternal r)) ->
  (forall l, P (KBatchDefer l)) -> (forall l, Forall P l -> P (KBatch l)) -> forall c, P c.
Proof.
  intros H1 H2 H3 H4 H5 H6 H7 H8. fix IH 1. destruct c as [| | | | | | |items]; [apply H1|apply H2|apply H3|apply H4|apply H5|apply H6|apply H7|].
  apply H8. induction items as [|c l IHl]; constructor; [apply IH|assumption].
Qed.
Lemma emit_app a b u : emit b (emit a u) = emit (a ++ b) u.
Proof. unfold emit. cbn. rewrite <- app_assoc. reflexivity. Qed.
Lemma emit_nil u : emit [] u = u.
Proof. destruct u. unfold emit. cbn. rewrite app_nil_r. reflexivity. Qed.
Lemma execute_static ext c : static c = true -> forall u s, execute ext c u s = (s, Ok (emit (static_toks c) u)).
Proof.
  induction c as [| | | | | | |l IH] using cmd_ind'; intros Hs; try discriminate Hs; try reflexivity.
  intros u s. rewrite execute_batch. revert Hs u s. induction IH as [|c l Hc _ IHl]; intros Hs u s.
  - cbn. unfold ret. rewrite emit_nil. reflexivity.
  - cbn in Hs. apply andb_prop in Hs as [Hs1 Hs2]. unfold bind. rewrite Hc by assumption.
    rewrite IHl by assumption. cbn. rewrite emit_app. reflexivity.
Qed.

(** Items of the batches made by visit methods. *)
Definition item (c : cmd) : bool := match c with KBatchDefer _ | KBatch _ => false | _ => true end.
Definition shape_ok (c : cmd) : bool :=
  match c with KText _ | KOpen _ => true | KBatchDefer l => forallb item l | _ => false end.
Definition closers (l : list cmd) : list (list tok) := omap deferred_text l.
(** The command left for later by [c]. *)
Definition closer (c : cmd) : option cmd :=
  match c with
  | KOpen g => Some (KText (close_text g))
  | KBatchDefer l => Some (KBatch (rev (map KText (closers l))))
  | _ => None
  end.
Lemma defers_closer c : shape_ok c = true -> defers c = match closer c with Some _ => true | None => false end.
Proof. destruct c; cbn; intros; congruence. Qed.
Lemma closer_static c d : closer c = Some d -> static d = true.
Proof.
  destruct c; cbn; intros H; inversion H; subst; [reflexivity|]. cbn. apply forallb_forall. intros x Hx.
  apply in_rev in Hx. apply in_map_iff in Hx as (y & <- & _). reflexivity.
Qed.
(** The text written when [c] is executed. *)
Fixpoint item_toks (ext : id -> M (list tok)) (l : list cmd) : M (list tok) :=
  match l with
  | [] => ret []
  | c :: r => let! a := make_text ext c in let! b := item_toks ext r in ret (a ++ b)
  end.
Definition open_toks (ext : id -> M (list tok)) (c : cmd) : M (list tok) :=
  match c with KBatchDefer l => item_toks ext l | _ => make_text ext c end.
Lemma exec_items_toks ext l : forall ds u s,
  exec_items ext l ds u s =
  match item_toks ext l s with
  | (s', Ok t) => (s', Ok (ds ++ map KText (closers l), emit t u))
  | (s', Err e) => (s', Err e)
  end.
Proof.
  induction l as [|c l IH]; intros ds u s; cbn [exec_items item_toks].
  - unfold ret. rewrite emit_nil. cbn. rewrite app_nil_r. reflexivity.
  - unfold bind. destruct (make_text ext c s) as [s1 [t|e]]; [|reflexivity]. rewrite IH.
    destruct (item_toks ext l s1) as [s2 [t'|e]]; [|reflexivity]. unfold ret. rewrite emit_app.
    destruct (deferred_text c) eqn:E; cbn; rewrite E; [|reflexivity]. cbn. rewrite <- app_assoc. reflexivity.
Qed.
Lemma execute_visit ext c u s : shape_ok c = true ->
  execute ext c u s =
  match open_toks ext c s with
  | (s', Ok t) => (s', Ok (MkT (body u ++ t) (match closer c with Some d => d :: deferred u | None => deferred u end)))
  | (s', Err e) => (s', Err e)
  end.
Proof.
  destruct c; cbn [shape_ok]; intros H; try discriminate H; try reflexivity.
  cbn [execute open_toks closer]. unfold bind. rewrite exec_items_toks.
  destruct (item_toks ext items s) as [s1 [t|e]]; reflexivity.
Qed.

(** ** Translator classes *)

Record tc_ok (A : list attr) (tc : tclass) : Prop := {
  ok_visit_frame : forall f i, tpres A (tc_visit tc f i);
  ok_leave_frame : forall f i u, tpres A (tc_leave tc f i u);
  ok_visit_shape : forall f i s s' c, tc_visit tc f i s = (s', Ok c) -> shape_ok c = true;
  (* a leave method takes one deferred command, its own, and looks at nothing else *)
  ok_leave : forall f i u s s' k u', tc_leave tc f i u s = (s', Ok (k, u')) ->
    exists d r, deferred u = d :: r /\ u' = MkT (body u) r /\
      tc_leave tc f i (MkT [] [d]) s = (s', Ok (k, MkT [] [])) /\ (static d = true -> static k = true)
}.

Section Renders.
Context (tc : tclass) (ext : id -> M (list tok)) (f0 : nat).

(** What the leave action of [i] writes. *)
Definition closes (i : id) (d : option cmd) (s : st) (cl : list tok) (s' : st) : Prop :=
  match d with
  | None => cl = [] /\ s' = s
  | Some d => exists k, tc_leave tc f0 i (MkT [] [d]) s = (s', Ok (k, MkT [] [])) /\ static k = true /\ cl = static_toks k
  end.
(** [renders s t h s']: the translation of [t] from [s] writes [h] and ends in [s'].  The
    text of a node is made of that of its visit, of its children in order, and of its leave. *)
Inductive renders : st -> tree -> list tok -> st -> Prop :=
| rn_node s i cs c sv n s1 op ins s2 cl s3 :
    tc_visit tc f0 i s = (sv, Ok c) ->
    st_heap sv !! i = Some n -> kids n = map root cs ->
    open_toks ext c sv = (s1, Ok op) ->
    renders_all s1 cs ins s2 ->
    closes i (closer c) s2 cl s3 ->
    renders s (T i cs) (op ++ ins ++ cl) s3
with renders_all : st -> list tree -> list tok -> st -> Prop :=
| rn_nil s : renders_all s [] [] s
| rn_cons s t ts a b s1 s2 : renders s t a s1 -> renders_all s1 ts b s2 -> renders_all s (t :: ts) (a ++ b) s2.

Context (A : list attr) (Htc : tc_ok A tc).

Lemma loop_renders fuel : forall l rest u s s' u',
  tr_loop tc ext f0 fuel (map Visit l ++ rest) u s = (s', Ok u') ->
  exists ts toks s1 fuel', map root ts = l /\ renders_all s ts toks s1 /\ fuel' <= fuel /\
    tr_loop tc ext f0 fuel' rest (emit toks u) s1 = (s', Ok u').
Proof using Htc.
  induction fuel as [fuel IHf] using lt_wf_ind. intros l. destruct l as [|i l]; intros rest u s s' u' H.
  { exists [], [], s, fuel. rewrite emit_nil. split; [reflexivity|]. split; [constructor|]. split; [lia|assumption]. }
  destruct fuel as [|fuel]; [discriminate H|]. cbn [map app tr_loop] in H.
  apply bind_ok in H as (sv & c & Hv & H). apply bind_ok in H as (s1' & cs & Hc & H).
  apply children_of_ok in Hc as (-> & n & Hn & ->).
  pose proof (ok_visit_shape _ _ Htc _ _ _ _ _ Hv) as Hsh.
  apply bind_ok in H as (s1 & u1 & He & H). rewrite execute_visit in He by assumption.
  destruct (open_toks ext c sv) as [s1' [op|e]] eqn:Eo; [|discriminate He]. injection He as <- <-.
  rewrite defers_closer in H by assumption.
  destruct (closer c) as [d|] eqn:Ed.
  - apply IHf in H as (ts & ins & s2 & f2 & Hr & Hts & Hf2 & H); [|lia].
    destruct f2 as [|f2]; [discriminate H|]. cbn [app tr_loop] in H.
    apply bind_ok in H as (s3 & [k u2] & Hl & H). cbn [fst snd] in H.
    apply (ok_leave _ _ Htc) in Hl as (d' & r & Hd' & -> & Hl & Hst). cbn [emit deferred body] in Hd', H.
    injection Hd' as <- <-. pose proof (closer_static _ _ Ed) as Hds. specialize (Hst Hds).
    apply bind_ok in H as (s4 & u3 & He & H). rewrite execute_static in He by assumption. injection He as <- <-.
    apply IHf in H as (ts' & toks & s5 & f5 & Hr' & Hts' & Hf5 & H); [|lia].
    exists (T i ts :: ts'), ((op ++ ins ++ static_toks k) ++ toks), s5, f5. cbn [map root]. rewrite Hr'.
    split; [reflexivity|]. split.
    + econstructor; [|eassumption]. econstructor; try eassumption; [congruence|]. rewrite Ed. exists k. auto.
    + split; [lia|]. rewrite <- H. f_equal. unfold emit. cbn. rewrite <- !app_assoc. reflexivity.
  - cbn [app] in H. apply IHf in H as (ts & ins & s2 & f2 & Hr & Hts & Hf2 & H); [|lia].
    apply IHf in H as (ts' & toks & s5 & f5 & Hr' & Hts' & Hf5 & H); [|lia].
    exists (T i ts :: ts'), ((op ++ ins ++ []) ++ toks), s5, f5. cbn [map root]. rewrite Hr'.
    split; [reflexivity|]. split.
    + econstructor; [|eassumption]. econstructor; try eassumption; [congruence|]. rewrite Ed. split; reflexivity.
    + split; [lia|]. rewrite <- H. f_equal. unfold emit. cbn. rewrite app_nil_r, <- !app_assoc. reflexivity.
Qed.

Theorem run_renders fuel i s s' h :
  f0 = fuel -> run_translator tc ext fuel i s = (s', Ok h) -> exists t, root t = i /\ renders s t h s'.
Proof using Htc.
  intros <- H. unfold run_translator in H. apply bind_ok in H as (s1 & u & H & H2).
  change [Visit i] with (map Visit [i] ++ []) in H.
  apply loop_renders in H as (ts & toks & s2 & f' & Hr & Hts & _ & H).
  assert (E : (s1, u) = (s2, emit toks (MkT [] []))) by (destruct f'; cbn in H; unfold ret in H; congruence).
  injection E as -> ->. cbn in H2. apply ret_ok in H2 as [-> ->].
  destruct ts as [|t [|? ?]]; try discriminate Hr. exists t. split; [injection Hr as ->; reflexivity|].
  inversion Hts as [|? ? ? a b ? ? Ha Hb]; subst. inversion Hb; subst. rewrite app_nil_r. assumption.
Qed.

Scheme renders_mut := Induction for renders Sort Prop
  with renders_all_mut := Induction for renders_all Sort Prop.

(** Induction over a rendering. *)
Lemma renders_ind2 (P : st -> tree -> list tok -> st -> Prop) (Q : st -> list tree -> list tok -> st -> Prop) :
  (forall s i cs c sv n s1 op ins s2 cl s3,
    tc_visit tc f0 i s = (sv, Ok c) -> st_heap sv !! i = Some n -> kids n = map root cs ->
    open_toks ext c sv = (s1, Ok op) -> renders_all s1 cs ins s2 -> Q s1 cs ins s2 ->
    closes i (closer c) s2 cl s3 -> P s (T i cs) (op ++ ins ++ cl) s3) ->
  (forall s, Q s [] [] s) ->
  (forall s t ts a b s1 s2, renders s t a s1 -> P s t a s1 -> renders_all s1 ts b s2 -> Q s1 ts b s2 ->
     Q s (t :: ts) (a ++ b) s2) ->
  (forall s t h s', renders s t h s' -> P s t h s') /\ (forall s ts h s', renders_all s ts h s' -> Q s ts h s').
Proof using.
  intros H1 H2 H3. split.
  - intros s t h s' H. induction H using renders_mut with (P0 := fun s ts h s' _ => Q s ts h s'); eauto.
  - intros s t h s' H. induction H using renders_all_mut with (P := fun s ts h s' _ => P s ts h s'); eauto.
Qed.

Context (Hext : forall i, tpres A (ext i)).
Lemma tp_make_text c : tpres A (make_text ext c).
Proof using Hext. destruct c; cbn [make_text]; try apply tp_ret; try apply tp_raise. apply Hext. Qed.
Lemma tp_open_toks c : tpres A (open_toks ext c).
Proof using Hext.
  destruct c; cbn [open_toks]; try apply tp_make_text. induction items as [|c l IH]; cbn [item_toks]; [apply tp_ret|].
  apply tp_bind; [apply tp_make_text|]. intros a. apply tp_bind; [apply IH|]. intros b. apply tp_ret.
Qed.
Lemma tfr_closes i d s cl s' : closes i d s cl s' -> tfr A s s'.
Proof using Htc.
  destruct d as [d|]; cbn; [|intros [_ ->]; apply tfr_refl]. intros (k & Hk & _). eapply ok_leave_frame; eassumption.
Qed.
Lemma renders_frame :
  (forall s t h s', renders s t h s' -> tfr A s s') /\ (forall s ts h s', renders_all s ts h s' -> tfr A s s').
Proof using Htc Hext.
  apply renders_ind2.
  - intros s i cs c sv n s1 op ins s2 cl s3 Hv _ _ Ho _ IH Hcl.
    eapply tfr_trans; [eapply ok_visit_frame; eassumption|]. eapply tfr_trans; [eapply tp_open_toks; eassumption|].
    eapply tfr_trans; [exact IH|]. eapply tfr_closes; eassumption.
  - intros. apply tfr_refl.
  - intros. eapply tfr_trans; eassumption.
Qed.

Lemma tfr_kids s s' i n' : good s -> tfr A s s' -> is_Some (st_heap s !! i) -> st_heap s' !! i = Some n' ->
  exists n, st_heap s !! i = Some n /\ kids n' = kids n /\ n_cls n' = n_cls n /\ n_parent n' = n_parent n /\
    forall a, a ∉ A -> n_attrs n' !! a = n_attrs n !! a.
Proof using.
  intros Hg Hf [n Hn] Hn'. destruct (Hf Hg) as (_ & _ & _ & F). destruct (F _ _ Hn) as (m & Hm & E1 & E2 & E3 & E4).
  exists n. assert (m = n') as -> by congruence. unfold kids. rewrite E1, E3. auto.
Qed.
(** The rendered tree is the tree of the document. *)
Lemma renders_tree :
  (forall s t h s', renders s t h s' -> good s -> forall p t0, tree_at (st_heap s) p t0 -> root t0 = root t -> t0 = t) /\
  (forall s ts h s', renders_all s ts h s' -> good s -> forall p ts0, Forall (tree_at (st_heap s) p) ts0 ->
     map root ts0 = map root ts -> ts0 = ts).
Proof using Htc Hext.
  assert (Hstab : forall s s' p t, good s -> tfr A s s' -> tree_at (st_heap s) p t -> tree_at (st_heap s') p t).
  { intros s s' p t Hg Hf Ht. destruct (Hf Hg) as (_ & _ & _ & F).
    induction Ht as [p i n cs Hi Hp Hk Hcs IH] using tree_at_ind'. destruct (F _ _ Hi) as (m & Hm & E1 & E2 & E3 & _).
    econstructor; [exact Hm|congruence| |exact IH]. unfold kids in *. rewrite E1, E3. assumption. }
  apply renders_ind2.
  - intros s i cs c sv n s1 op ins s2 cl s3 Hv Hn Hk Ho _ IH Hcl Hg p t0 Ht0 Er. destruct t0 as [i0 cs0]. cbn in Er. subst i0.
    pose proof (ok_visit_frame _ _ Htc _ _ _ _ _ Hv) as Fv. pose proof (tp_open_toks _ _ _ _ Ho) as Fo.
    assert (Hgv : good sv) by (apply Fv; assumption). assert (Hg1 : good s1) by (apply Fo; assumption).
    apply (Hstab _ sv) in Ht0; [|assumption..]. apply tree_at_inv in Ht0 as (m & Hm & _ & Hk0 & Hcs0).
    assert (m = n) as -> by congruence. f_equal. eapply (IH Hg1 (Some i)); [|congruence].
    eapply list.Forall_impl; [exact Hcs0|]. intros t Ht. eapply Hstab; [| |exact Ht]; assumption.
  - intros s Hg p ts0 _ E. destruct ts0; [reflexivity|discriminate].
  - intros s t ts a b s1 s2 Ht IHt Hts IHts Hg p ts0 Hall E. destruct ts0 as [|t0 ts0]; [discriminate|].
    injection E as E1 E2. apply list.Forall_cons in Hall as [H0 H1]. f_equal; [eapply IHt; eassumption|].
    pose proof (proj1 renders_frame _ _ _ _ Ht) as Ft. eapply IHts; [apply Ft; assumption| |assumption].
    eapply list.Forall_impl; [exact H1|]. intros x Hx. eapply Hstab; [| |exact Hx]; assumption.
Qed.
End Renders.
