(** Translation always ends: the base translator. *)
From Verif Require Export TrTotal4.
From Verif Require Import Fuel Queries Traverse NodeOps Monad.
Local Open Scope list_scope.

Definition batch (c : cmd) : Prop := exists l, c = KBatchDefer l.
Definition needs_batch (m : cls) : bool := match m with CMathBlock | CProof => true | _ => false end.
Lemma batch_closer c d : batch c -> closer c = Some d -> exists l, d = KBatch l.
Proof. intros [l ->] H. injection H as <-. eauto. Qed.
Lemma leave_visit c m : dispatch leave_defined c = Some m -> needs_batch m = true -> dispatch visit_defined c = Some m.
Proof. intros H Hm. destruct c; vm_compute in H; injection H as <-; try discriminate Hm; reflexivity. Qed.
Ltac pb := repeat first [apply post_raise | (eapply post_ret; eexists; reflexivity) | (apply post_skip; intros) | match goal with |- post (if ?b then _ else _) _ => destruct b end].
Lemma visit_batch_par i : post (visit_paragraph i) batch.
Proof. unfold visit_paragraph. pb. Qed.
Lemma visit_batch hl f m i : needs_batch m = true -> post (visit_method hl f m i) batch.
Proof.
  intros H. destruct m; try discriminate H; cbn [visit_method].
  - unfold visit_mathblock. pb.
  - unfold visit_proof. pb.
Qed.
Lemma used_leave c : dispatch leave_defined c = Some CAbstract -> used_ok CAbstract c = true.
Proof. intros H. destruct c; vm_compute in H; try discriminate H; vm_compute; reflexivity. Qed.

Section Leaves.
Context (A : list attr) (s0 : st) (Hg0 : good s0) (HAm : a_must_close_p_tag ∈ A).
Notation ret_s := (returns A s0).
Lemma r_leave_node d : ret_s (leave_node (MkT [] [d])) (fun r => r.1 = d).
Proof using. unfold leave_node. cbn [deferred]. apply t_ret. reflexivity. Qed.
Lemma r_items l : ret_s (items_of (KBatch l)) (fun _ => True).
Proof using. apply t_ret, I. Qed.
Lemma r_leave_paragraph i n l : st_heap s0 !! i = Some n -> ret_s (leave_paragraph i (MkT [] [KBatch l])) (fun r => exists l', r.1 = KBatch l').
Proof using.
  intros Hi. unfold leave_paragraph. eapply t_bind; [apply r_leave_node|]. intros [k u] E. cbn in E. subst k. eapply t_bind; [eapply t_flag, Hi|]. intros [] _.
  - eapply t_bind; [apply r_items|]. intros it _. apply t_ret. eexists; reflexivity.
  - apply t_ret. eexists; reflexivity.
Qed.
(** Other classes whose leave method is that of paragraphs. *)
Lemma r_leave_other i n d : st_heap s0 !! i = Some n -> n_cls n <> CParagraph -> ret_s (leave_paragraph i (MkT [] [d])) (fun r => r.1 = d).
Proof using.
  intros Hi Hc. unfold leave_paragraph. eapply t_bind; [apply r_leave_node|]. intros [k u] E. cbn in E. subst k.
  eapply t_bind with (R := fun b => b = false); [|intros b ->; apply t_ret; reflexivity].
  apply t_quiet; [apply q_flag|]. intros s Hs. destruct (du_old _ _ _ Hs _ _ Hi) as (m & Hm & E1 & _). exists s, false. split; [|reflexivity].
  unfold flag, bind. rewrite (get_node_eq _ _ _ Hm). unfold ret. destruct (n_attrs m !! a_must_close_p_tag) eqn:E; [|reflexivity].
  exfalso. apply Hc. rewrite <- E1. eapply (du_flag _ _ _ Hs); eassumption.
Qed.
Lemma r_leave_mathblock i n l : st_heap s0 !! i = Some n -> (forall p np, n_parent n = Some p -> st_heap s0 !! p = Some np -> n_cls np = CParagraph) -> ret_s (leave_mathblock i (MkT [] [KBatch l])) (fun r => exists l', r.1 = KBatch l').
Proof using Hg0 HAm.
  intros Hi Hpar. unfold leave_mathblock. eapply t_bind; [apply r_leave_node|]. intros [k u] E. cbn in E. subst k. eapply t_bind; [eapply t_parent_of, Hi|]. intros p ->.
  destruct (n_parent n) as [q|] eqn:Ep.
  - destruct (parent_old _ Hg0 _ _ _ Hi Ep) as (m & Hm & _). eapply t_bind; [eapply t_inst, Hm|]. intros b _. destruct (negb b); [apply t_ret; eexists; reflexivity|].
    eapply t_bind; [eapply (t_next_sibling _ _ Hg0), Hi|]. intros [nx|] _; [|apply t_ret; eexists; reflexivity].
    eapply t_bind; [eapply (t_setattr _ _ _ _ _ _ Hm HAm); [left; left|reflexivity|intros _; eapply Hpar; [reflexivity|exact Hm]]|]. intros _ _. eapply t_bind; [apply r_items|]. intros it _. apply t_ret. eexists; reflexivity.
  - eapply t_bind with (R := fun b => b = false); [apply t_ret; reflexivity|]. intros b ->. apply t_ret. eexists; reflexivity.
Qed.
Lemma r_leave_method m i n d : st_heap s0 !! i = Some n -> dispatch leave_defined (n_cls n) = Some m -> (needs_batch m = true -> exists l, d = KBatch l) ->
  (n_cls n = CParagraph -> exists l, d = KBatch l) -> (n_cls n = CMathBlock -> forall p np, n_parent n = Some p -> st_heap s0 !! p = Some np -> n_cls np = CParagraph) ->
  ret_s (leave_method m i (MkT [] [d])) (fun _ => True).
Proof using Hg0 HAm.
  intros Hi Hd Hb Hb2 Hpar. assert (G : ret_s (leave_node (MkT [] [d])) (fun _ => True)) by (eapply t_imp; [apply r_leave_node|auto]).
  destruct m; cbn [leave_method needs_batch] in *; try exact G; try destruct (Hb eq_refl) as [l ->]; clear Hb.
  - pose proof (used_leave _ Hd) as Hu. unfold leave_abstract.
    eapply t_bind; [eapply (t_get_strs _ _ _ _ _ Hi); [apply (used_in _ _ _ Hu); cbn; tauto|notin|auto]|]. intros kw _.
    eapply t_bind; [eapply (t_get_strs _ _ _ _ _ Hi); [apply (used_in _ _ _ Hu); cbn; tauto|notin|auto]|]. intros ms _.
    eapply t_bind; [exact G|]. intros r _. apply t_ret, I.
  - destruct (decide (n_cls n = CParagraph)) as [E|E]; [destruct (Hb2 E) as [l ->]; eapply t_imp; [eapply r_leave_paragraph, Hi|auto]|].
    eapply t_imp; [eapply r_leave_other; eassumption|auto].
  - eapply t_imp; [eapply (r_leave_mathblock _ _ _ Hi)|auto]. apply Hpar. apply dispatch_leave_mb, Hd.
  - unfold leave_proof. eapply t_bind; [apply r_leave_node|]. intros [k u] E. cbn in E. subst k. eapply t_bind; [apply r_items|]. intros it _. apply t_ret, I.
Qed.
End Leaves.

(** A computation that does not run out of fuel gives the same result with more fuel. *)
Lemma from_mono {X} (m : nat -> M X) s F s' a : mono m -> m F s = (s', Ok a) -> from (fun f => m f s) (s', Ok a) F.
Proof. intros Hm E f Hf. rewrite <- E. apply Hm; [exact Hf|]. unfold enough. rewrite E. discriminate. Qed.
Lemma dispatch_leave_some c : exists m, dispatch leave_defined c = Some m.
Proof. destruct c; vm_compute; eexists; reflexivity. Qed.
Lemma dispatch_visit_some c : exists m, dispatch visit_defined c = Some m.
Proof. destruct c; vm_compute; eexists; reflexivity. Qed.

Lemma base_visit_at hl f i n s m : st_heap s !! i = Some n -> dispatch visit_defined (n_cls n) = Some m -> base_visit hl f i s = visit_method hl f m i s.
Proof. intros Hi Hd. unfold base_visit, cls_of, bind. rewrite (get_node_eq _ _ _ Hi). unfold ret. rewrite Hd. reflexivity. Qed.
Lemma base_leave_at f i n s u m : st_heap s !! i = Some n -> dispatch leave_defined (n_cls n) = Some m -> base_leave f i u s = leave_method m i u s.
Proof. intros Hi Hd. unfold base_leave, cls_of, bind. rewrite (get_node_eq _ _ _ Hi). unfold ret. rewrite Hd. reflexivity. Qed.

Section Base.
Context (A : list attr) (hl : str -> str -> str) (HAt : a_types ∈ A) (HAm : a_must_close_p_tag ∈ A).
Lemma base_closes s0 i n s m sv c d s2 : good s0 -> st_heap s0 !! i = Some n -> during A s0 s -> dispatch visit_defined (n_cls n) = Some m -> forall f F0,
  visit_method hl f m i s = (sv, Ok c) -> closer c = Some d -> during A s0 s2 ->
  (n_cls n = CMathBlock -> forall p np, n_parent n = Some p -> st_heap s0 !! p = Some np -> n_cls np = CParagraph) ->
  exists s3 r, from (fun f => tc_leave (base_tc hl) f i (MkT [] [d]) s2) (s3, Ok r) F0 /\ during A s0 s3.
Proof using HAm.
  intros Hg0 Hi Ds Hd f F0 Hv Hc D2 Hpar. destruct (dispatch_leave_some (n_cls n)) as [ml Hml].
  destruct (r_leave_method A s0 Hg0 HAm ml i n d Hi Hml) with (s := s2) as (s3 & r & E & D3 & _); [| |exact Hpar|exact D2|].
  - intros Hb. pose proof (leave_visit _ _ Hml Hb) as Hd'. assert (ml = m) as -> by congruence. eapply batch_closer; [|exact Hc]. eapply (visit_batch hl f m i Hb), Hv.
  - intros Ep. rewrite Ep in Hd. vm_compute in Hd. injection Hd as <-. eapply batch_closer; [|exact Hc]. eapply visit_batch_par, Hv.
  - exists s3, r. split; [|exact D3]. intros g _. destruct (du_old _ _ _ D2 _ _ Hi) as (n2 & Hn2 & E2 & _).
    cbn [base_tc tc_leave]. erewrite base_leave_at; [exact E|exact Hn2|rewrite E2; exact Hml].
Qed.

(** *** Title trees *)
Lemma title_runs ext0 s0 j : during A s0 s0 -> titled s0 s0 j \/ (exists sb, titled sb s0 j) ->
  exists F h s', from (fun f => run_translator (base_tc hl) (ext0 f) f j s0) (s', Ok h) F /\ during A s0 s'.
Proof using HAt HAm.
  intros D0 Ht. assert (Htt : exists sb, titled sb s0 j) by (destruct Ht; eauto). destruct Htt as (sb & t & <- & [Ht0 _] & Hn). clear Ht.
  pose proof (du_good _ _ _ D0) as Hg0.
  eapply (run_from A s0 (base_tc hl) ext0 (base_tc_ok hl A HAt HAm) 0 (fun x => exists n, st_heap s0 !! x = Some n /\ title_node (n_cls n) (n_attrs n))); [|apply base_uniform|exact Ht0| |exact D0].
  - intros i n s Hi (n' & Hn' & Ht) Ds. assert (n' = n) as -> by congruence. destruct Ht as [Hc _].
    assert (Hd : exists m, dispatch visit_defined (n_cls n) = Some m /\ (m = CParagraph \/ m = CSpan \/ m = CText)) by (destruct Hc as [-> |[-> | ->]]; vm_compute; eauto).
    destruct Hd as (m & Hd & Hm). pose proof (used_visit _ _ Hd) as Hu.
    assert (Hr : returns A s0 (visit_method hl 0 m i) (fun _ => True)).
    { destruct Hm as [-> |[-> | ->]]; cbn [visit_method].
      - eapply r_paragraph; eassumption.
      - eapply r_span; eassumption.
      - unfold visit_text. eapply t_bind; [eapply (t_get_str _ _ _ _ _ Hi); [apply (used_in _ _ _ Hu); cbn; tauto|notin|auto]|]. intros; apply t_ret, I. }
    destruct (Hr s Ds) as (sv & c & Hv & Dv & _). exists sv, c.
    destruct (du_old _ _ _ Ds _ _ Hi) as (ns & Hns & Ec & _).
    split; [|split; [exact Dv|split]].
    + apply (from_mono (fun f => base_visit hl f i)); [apply mono_base_visit|]. erewrite base_visit_at; [exact Hv|exact Hns|rewrite Ec; exact Hd].
    + assert (Hx : exts c = []) by (destruct Hm as [-> |[-> | ->]]; eapply (x_visit_method hl 0 _ i); try exact Hv; discriminate).
      destruct (open_plain c) as [op Hop]; [|exact Hx|].
      * eapply (sh_visit_method hl 0 m i), Hv.
      * exists 0, sv, op. split; [|exact Dv]. intros f _. apply Hop.
    + intros d s2 Hcl D2. eapply (base_closes s0 i n s m sv c d s2 Hg0 Hi Ds Hd _ _ Hv Hcl D2). intros E. destruct Hc as [Hc|[Hc|Hc]]; congruence.
  - intros x Hx. destruct (Hn x Hx) as [_ H]. exact H.
Qed.
Lemma ext_runs s0 sv j : during A s0 sv -> (exists sb, titled sb sv j) ->
  exists F h s1, from (fun f => translate_ext hl f f j sv) (s1, Ok h) F /\ during A s0 s1.
Proof using HAt HAm.
  intros Dv Ht. destruct (title_runs (fun f => translate_ext hl (pred f) f) sv j) as (F & h & s1 & H & D1).
  - apply during_refl; apply Dv.
  - right. exact Ht.
  - exists (S F), h, s1. split; [|eapply during_trans; eassumption]. intros f Hf. destruct f as [|f]; [lia|].
    cbn [translate_ext]. apply (H (S f)). lia.
Qed.
Lemma open_runs s0 sv s c : during A s0 sv -> shape_ok c = true -> exts_fine s sv c ->
  exists F s1 op, from (fun f => open_toks (translate_ext hl f f) c sv) (s1, Ok op) F /\ during A s0 s1.
Proof using HAt HAm.
  intros Dv Hsh [Hx|(j & Hx & Ht)].
  - destruct (open_plain c Hsh Hx) as [op Hop]. exists 0, sv, op. split; [|exact Dv]. intros f _. apply Hop.
  - destruct (open_ext c j Hsh Hx) as (a & b & Ho). destruct (ext_runs s0 sv j Dv) as (F & h & s1 & H & D1); [eauto|].
    exists F, s1, (a ++ h ++ b). split; [|exact D1]. intros f Hf. apply Ho, (H f Hf).
Qed.

Lemma base_runs s0 t p (HA : forall a, a ∈ A -> a ∈ trh_attrs) :
  good s0 -> wtyped s0 -> complete s0 -> (forall x, fillable_at s0 x) -> tree_at (st_heap s0) p t ->
  (forall x n, x ∈ doc_order t -> st_heap s0 !! x = Some n -> visitable s0 x n) -> forall s, during A s0 s ->
  exists F h s', from (fun f => run_translator (base_tc hl) (translate_ext hl f f) f (root t) s) (s', Ok h) F /\ during A s0 s'.
Proof using HAt HAm.
  intros Hg0 Hty Hco Hfl Ht HV s Hs.
  eapply (run_from A s0 (base_tc hl) (fun f => translate_ext hl f f) (base_tc_ok hl A HAt HAm) (size (st_heap s0)) (fun x => forall n, st_heap s0 !! x = Some n -> visitable s0 x n));
    [|apply base_uniform|exact Ht|intros x Hx n Hn; apply HV; assumption|exact Hs].
  clear s Hs. intros i n s Hi HVi Ds. specialize (HVi n Hi). destruct (dispatch_visit_some (n_cls n)) as [m Hd].
  destruct (r_visit_method A s0 Hg0 (size (st_heap s0)) (le_n _) HA HAt Hty Hco Hfl hl m i n Hi Hd HVi s Ds) as (sv & c & Hv & Dv & _).
  destruct (du_old _ _ _ Ds _ _ Hi) as (ns & Hns & Ec & _). exists sv, c. split; [|split; [exact Dv|split]].
  - apply (from_mono (fun f => base_visit hl f i)); [apply mono_base_visit|]. erewrite base_visit_at; [exact Hv|exact Hns|rewrite Ec; exact Hd].
  - eapply open_runs; [exact Dv|eapply (sh_visit_method hl _ m i), Hv|eapply exts_visit; [apply Ds|exact Hv]].
  - intros d s2 Hcl D2. eapply (base_closes s0 i n s m sv c d s2 Hg0 Hi Ds Hd _ _ Hv Hcl D2). intros E p' np Hp Hnp. destruct (vb_math _ _ _ HVi E) as (q & nq & Hq & Hnq & Hcq). congruence.
Qed.
End Base.

Lemma root_of_tree h p t : tree_at h p t -> forall x n, x ∈ doc_order t -> h !! x = Some n -> n_parent n = None -> x = root t.
Proof.
  intros Ht. induction Ht as [p i n0 cs Hi Hp Hk Hcs IH] using tree_at_ind'. intros x n Hx Hn Hpn.
  apply elem_of_cons in Hx as [->|Hx]; [reflexivity|]. exfalso. apply elem_of_list_In, in_flat_map in Hx as (t & Ht & Hx).
  rewrite list.Forall_forall in IH, Hcs. apply elem_of_list_In in Ht, Hx. specialize (IH _ Ht x n Hx Hn Hpn). subst x.
  specialize (Hcs _ Ht). destruct t as [j cs']. apply tree_at_inv in Hcs as (m & Hm & Hp' & _). cbn in Hn. congruence.
Qed.
(** The conditions on the document are those that the methods need. *)
Lemma td_visitable s t : translatable_doc s t -> forall x n, x ∈ doc_order t -> st_heap s !! x = Some n -> visitable s x n.
Proof.
  intros [M R T C Hm Hr Hb Hu He Htp] x n Hx Hn. assert (V : forall a, value (st_heap s) x a = n_attrs n !! a) by (intros a; unfold value; rewrite Hn; reflexivity).
  constructor.
  - intros E. destruct (Hm x Hx) as (p & (m & Hm' & Hp) & (np & Hnp & Hc)); [exists n; auto|]. assert (m = n) as -> by congruence. eauto.
  - intros E. destruct (Hr x Hx) as (y & Hy); [exists n; auto|]. rewrite V in Hy. eauto.
  - intros E y Hy. apply (Hb x (n_cls n) y Hx); [exists n; auto|exact E|]. rewrite V. exact Hy.
  - intros E. destruct (Hu x Hx) as (u & Hy & Hne); [exists n; auto|]. rewrite V in Hy. eauto.
  - intros E. apply (He x (n_cls n) Hx); [exists n; auto|exact E].
  - intros E. destruct M as [_ _ [Ht Hnd]]. destruct (n_parent n) as [p|] eqn:Ep; [eauto|]. exfalso.
    assert (x = root t) as ->.
    { eapply root_of_tree; eassumption. }
    destruct R as (m & Hm' & Hc). congruence.
Qed.

(** *** Translation returns *)
Definition translates_to (hl : str -> str -> str) (s : st) (t : tree) (h : list tok) (s' : st) : Prop :=
  exists F, forall f, F <= f -> translate hl f (root t) s = (s', Ok h).
Theorem translate_total hl s t : translatable_doc s t -> exists h s', translates_to hl s t h s'.
Proof.
  intros TD. pose proof TD as [[Hf Hc [Ht Hnd]] R T C _ _ _ _ _ Htp].
  set (s1 := (info logger_tlate (lit "Translating...") s).1).
  assert (E1 : info logger_tlate (lit "Translating...") s = (s1, Ok tt)) by reflexivity.
  assert (D1 : during tr_attrs s s1).
  { apply (during_heap _ _ s); [reflexivity..|]. apply during_refl; [split; assumption|apply wtyped_typed, T|exact C|].
    intros i n v Hi Hv. destruct (T _ _ _ _ Hi Hv) as [H _]. discriminate H. }
  destruct (base_runs tr_attrs hl ltac:(left) ltac:(right; left) s t None) with (s := s1) as (F & h & s' & H & _).
  - intros a Ha. apply elem_of_cons in Ha as [->|Ha]; [left|]. apply elem_of_cons in Ha as [->|Ha]; [right; left|inversion Ha].
  - split; assumption.
  - apply wtyped_typed, T.
  - exact C.
  - intros x n tmpl Hn Hv. apply (Htp x). unfold value. rewrite Hn. exact Hv.
  - exact Ht.
  - intros x n Hx Hn. eapply td_visitable; eassumption.
  - exact D1.
  - exists h, s', F. intros f Hle. unfold translate, bind. rewrite E1. apply (H f Hle).
Qed.
