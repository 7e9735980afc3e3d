(** Translation always ends: the loop. *)
From Verif Require Export TrTotal3.
From Verif Require Import Fuel Queries Traverse NodeOps Monad.
Local Open Scope list_scope.

(** The leave methods of a translator depend on their own deferred command only. *)
Definition tuniform (tc : tclass) : Prop := forall f i, uniform (tc_leave tc f i).
Lemma base_uniform hl : tuniform (base_tc hl).
Proof. intros f i. apply (uniform_dispatch leave_method leave_defined i); [|reflexivity]. intros m. apply uniform_method. Qed.
Lemma hr_uniform hl src root : tuniform (hr_tc hl src root).
Proof. intros f i. apply (uniform_dispatch (hleave_method f) hleave_defined i); [|reflexivity]. intros m. apply uniform_hmethod. Qed.

Definition nodes_of (ts : list tree) : nat := length (flat_map doc_order ts).
Lemma nodes_cons t ts : nodes_of (t :: ts) = length (doc_order t) + nodes_of ts.
Proof. unfold nodes_of. cbn. apply app_length. Qed.
Lemma nodes_node i cs : length (doc_order (T i cs)) = S (nodes_of cs).
Proof. reflexivity. Qed.

(** What is rendered is what the loop writes. *)
Section Loop.
Context (tc : tclass) (ext : id -> M (list tok)) (f0 : nat) (A : list attr) (Htc : tc_ok A tc) (Hu : tuniform tc).
Definition run_of (l : list id) (s : st) (h : list tok) (s1 : st) (b : nat) : Prop :=
  exists k, k <= b /\ forall g rest u, tr_loop tc ext f0 (k + g) (map Visit l ++ rest) u s = tr_loop tc ext f0 g rest (emit h u) s1.
Lemma renders_loop :
  (forall s t h s', renders tc ext f0 s t h s' -> run_of [root t] s h s' (2 * length (doc_order t))) /\
  (forall s ts h s', renders_all tc ext f0 s ts h s' -> run_of (map root ts) s h s' (2 * nodes_of ts)).
Proof using Htc Hu.
  apply renders_ind2.
  - intros s i cs c sv n s1 op ins s2 cl s3 Hv Hn Hk Ho _ (k & Hkb & Hl) Hcl. cbn [root].
    pose proof (ok_visit_shape _ _ Htc _ _ _ _ _ Hv) as Hsh. rewrite nodes_node.
    assert (Hstep : forall g rest u, tr_loop tc ext f0 (S (k + g)) (map Visit [i] ++ rest) u s =
      tr_loop tc ext f0 g ((if defers c then [Leave i] else []) ++ rest) (emit ins (MkT (body u ++ op) (match closer c with Some d => d :: deferred u | None => deferred u end))) s2).
    { intros g rest u. cbn [map app tr_loop]. unfold bind at 1. rewrite Hv. unfold bind at 1. unfold children_of, bind at 1. rewrite (get_node_eq _ _ _ Hn). unfold ret at 1.
      unfold bind at 1. rewrite execute_visit by exact Hsh. rewrite Ho. rewrite Hk. apply Hl. }
    rewrite defers_closer in Hstep by exact Hsh. destruct (closer c) as [d|] eqn:Ed.
    + destruct Hcl as (kk & Hlv & Hst & ->). exists (S (k + 1)). split; [lia|]. intros g rest u.
      replace (S (k + 1) + g) with (S (k + S g)) by lia. rewrite Hstep. cbn [app tr_loop]. unfold bind at 1.
      destruct (Hu f0 i) as (_ & U & _). unfold emit; cbn [body deferred]. rewrite U, Hlv. cbn [fst snd]. unfold bind at 1. rewrite execute_static by exact Hst.
      f_equal. unfold emit. cbn. rewrite <- !app_assoc. reflexivity.
    + destruct Hcl as [-> ->]. exists (S k). split; [lia|]. intros g rest u. cbn [Nat.add]. rewrite Hstep. cbn [app]. f_equal.
      unfold emit. cbn. rewrite app_nil_r, <- !app_assoc. reflexivity.
  - intros s. exists 0. split; [lia|]. intros g rest u. rewrite emit_nil. reflexivity.
  - intros s t ts a b s1 s2 _ (k1 & B1 & H1) _ (k2 & B2 & H2). exists (k1 + k2). rewrite nodes_cons. split; [lia|]. intros g rest u.
    replace (k1 + k2 + g) with (k1 + (k2 + g)) by lia. change (map Visit (map root (t :: ts)) ++ rest) with (map Visit [root t] ++ (map Visit (map root ts) ++ rest)).
    rewrite H1, H2, emit_app. reflexivity.
Qed.
Lemma renders_run s t h s' : renders tc ext f0 s t h s' -> 2 * length (doc_order t) <= f0 -> run_translator tc ext f0 (root t) s = (s', Ok h).
Proof using Htc Hu.
  intros H Hb. apply (proj1 renders_loop) in H as (k & Hk & Hl). unfold run_translator, bind. specialize (Hl (f0 - k) [] (MkT [] [])).
  rewrite app_nil_r in Hl. replace (k + (f0 - k)) with f0 in Hl by lia. cbn [map] in Hl. rewrite Hl.
  destruct (f0 - k); reflexivity.
Qed.
End Loop.

(** Commands without other trees. *)
Lemma open_plain c : shape_ok c = true -> exts c = [] -> exists op, forall ext s, open_toks ext c s = (s, Ok op).
Proof.
  destruct c; cbn [shape_ok]; intros Hs He; try discriminate Hs; try (eexists; reflexivity). cbn [open_toks].
  induction items as [|c l IH]; [eexists; reflexivity|]. cbn in Hs. apply andb_prop in Hs as [Hc Hs].
  destruct IH as [b Hb]; [exact Hs|cbn in He |- *; destruct c; try discriminate He; exact He|].
  destruct c; try discriminate Hc; cbn in He; try discriminate He; eexists; intros ext s; cbn [item_toks make_text]; unfold bind, ret; rewrite Hb; reflexivity.
Qed.
Lemma open_ext c j : shape_ok c = true -> exts c = [j] -> exists a b, forall ext s s' h, ext j s = (s', Ok h) -> open_toks ext c s = (s', Ok (a ++ h ++ b)).
Proof.
  destruct c; cbn [shape_ok]; intros Hs He; try discriminate Hs; try discriminate He. cbn [open_toks].
  induction items as [|c l IH]; [discriminate He|]. cbn in Hs. apply andb_prop in Hs as [Hc Hs]. destruct c; try discriminate Hc.
  6: { cbn in He. injection He as -> Hn. destruct (open_plain (KBatchDefer l) Hs Hn) as [op Hop]. exists [], op. intros ext s s' h H.
    cbn [item_toks make_text]. unfold bind. rewrite H. cbn [open_toks] in Hop. rewrite Hop. reflexivity. }
  all: destruct (IH Hs He) as (a & b & H); eexists (_ ++ a), b; intros ext s s' h Hj; cbn [item_toks make_text]; unfold bind, ret; rewrite (H _ _ _ _ Hj); symmetry; rewrite <- (app_assoc _ a); reflexivity.
Qed.

(** *** The recursion *)
Section Rec.
Context (A : list attr) (s0 : st) (tc : tclass) (ext : nat -> id -> M (list tok)) (Htc : tc_ok A tc) (F0 : nat) (V : id -> Prop).
Definition from {X} (m : nat -> X) (x : X) (F : nat) : Prop := forall f, F <= f -> m f = x.
Context (Hvisit : forall i n s, st_heap s0 !! i = Some n -> V i -> during A s0 s ->
  exists sv c, from (fun f => tc_visit tc f i s) (sv, Ok c) F0 /\ during A s0 sv /\
    (exists F s1 op, from (fun f => open_toks (ext f) c sv) (s1, Ok op) F /\ during A s0 s1) /\
    (forall d s2, closer c = Some d -> during A s0 s2 ->
      exists s3 r, from (fun f => tc_leave tc f i (MkT [] [d]) s2) (s3, Ok r) F0 /\ during A s0 s3)).
Lemma renders_from t : forall p, tree_at (st_heap s0) p t -> (forall x, x ∈ doc_order t -> V x) -> forall s, during A s0 s ->
  exists F h s', (forall f, F <= f -> renders tc (ext f) f s t h s') /\ during A s0 s'.
Proof using Htc Hvisit.
  induction t as [i cs IH] using tree_ind'. intros p Ht HV s Hs. apply tree_at_inv in Ht as (n & Hn & _ & Hk & Hcs).
  destruct (Hvisit i n s Hn) as (sv & c & Hv & Dv & (F1 & s1 & op & Ho & D1) & Hl); [apply HV; apply elem_of_list_here|exact Hs|].
  assert (Hall : exists F h s2, (forall f, F <= f -> renders_all tc (ext f) f s1 cs h s2) /\ during A s0 s2).
  { assert (HVs : forall x, x ∈ flat_map doc_order cs -> V x) by (intros x Hx; apply HV; apply elem_of_list_further; exact Hx).
    clear Hk HV Ho Hv Hl Dv. revert s1 D1 HVs. induction Hcs as [|t cs Ht Hcs IHcs]; intros s1 D1 HVs.
    - exists 0, [], s1. split; [|exact D1]. intros f _. constructor.
    - apply list.Forall_cons in IH as [IHt IHr].
      destruct (IHt _ Ht) with (s := s1) as (Fa & a & sa & Ha & Da); [intros x Hx; apply HVs; cbn; apply elem_of_app; left; exact Hx|exact D1|].
      destruct (IHcs IHr sa Da) as (Fb & b & sb & Hb & Db); [intros x Hx; apply HVs; cbn; apply elem_of_app; right; exact Hx|].
      exists (Fa + Fb), (a ++ b), sb. split; [|exact Db]. intros f Hf. econstructor; [apply Ha; lia|apply Hb; lia]. }
  destruct Hall as (F2 & ins & s2 & Hr & D2).
  assert (Hc : exists cl s3, (forall f, F0 <= f -> closes tc f i (closer c) s2 cl s3) /\ during A s0 s3).
  { destruct (closer c) as [d|] eqn:Ed; [|exists [], s2; split; [intros; split; reflexivity|exact D2]].
    destruct (Hl d s2 eq_refl D2) as (s3 & [k u'] & Hlv & D3). pose proof (Hlv F0 (le_n _)) as H0. cbv beta in H0.
    apply (ok_leave _ _ Htc) in H0 as (d' & r & E & -> & E2 & Hst). cbn in E. injection E as <- <-.
    exists (static_toks k), s3. split; [|exact D3]. intros f Hf. exists k. split; [exact (Hlv f Hf)|]. split; [|reflexivity]. apply Hst. eapply closer_static, Ed. }
  destruct Hc as (cl & s3 & Hc & D3). exists (F0 + F1 + F2), (op ++ ins ++ cl), s3. split; [|exact D3]. intros f Hf.
  destruct (du_old _ _ _ Dv _ _ Hn) as (nv & Hnv & E1 & _ & E3 & _).
  econstructor; [apply Hv; lia|exact Hnv|unfold kids in *; rewrite E1, E3; exact Hk|apply Ho; lia|apply Hr; lia|apply Hc; lia].
Qed.
Lemma run_from t p s : tuniform tc -> tree_at (st_heap s0) p t -> (forall x, x ∈ doc_order t -> V x) -> during A s0 s ->
  exists F h s', from (fun f => run_translator tc (ext f) f (root t) s) (s', Ok h) F /\ during A s0 s'.
Proof using Htc Hvisit.
  intros Hu Ht HV Hs. destruct (renders_from t p Ht HV s Hs) as (F & h & s' & Hr & D). exists (F + 2 * length (doc_order t)), h, s'. split; [|exact D].
  intros f Hf. eapply renders_run; [exact Htc|exact Hu|apply Hr; lia|lia].
Qed.
End Rec.
