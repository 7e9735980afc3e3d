(** Translate returns, or raises the exception of the first mistake. *)
From Verif Require Export Stuck.
From Verif Require Import Queries Traverse NodeOps Monad.
Local Open Scope list_scope.

Lemma minded_or s t x n : presented s t -> x ∈ doc_order t -> st_heap s !! x = Some n -> (exists e, minded (st_heap s) x e) \/ visitable s x n.
Proof.
  intros P Hx Hn. assert (V : forall a, value (st_heap s) x a = n_attrs n !! a) by (intros a; unfold value; rewrite Hn; reflexivity).
  assert (Hcap : n_cls n = CCaption -> is_Some (n_parent n)).
  { intros E. destruct (pr_manuscript _ _ P) as [_ _ [Ht Hnd]]. destruct (n_parent n) as [p|] eqn:Ep; [eauto|]. exfalso.
    assert (x = root t) as -> by (eapply root_of_tree; eassumption). destruct (pr_root _ _ P) as (m & Hm' & Hc). congruence. }
  assert (Hbase : In (n_cls n) [CBaseReference; CPendingReference; CPendingPrev] -> forall y, n_attrs n !! a_target <> Some (VNode y)).
  { intros E y. rewrite <- V. eapply (pr_resolved _ _ P x (n_cls n)); [exact Hx|exists n; auto|exact E]. }
  assert (Hother : forall (H1 : n_cls n = CMathBlock -> exists p np, n_parent n = Some p /\ st_heap s !! p = Some np /\ n_cls np = CParagraph)
    (H2 : n_cls n = CReference -> exists y, n_attrs n !! a_target = Some (VNode y))
    (H3 : n_cls n = CURL -> exists u, n_attrs n !! a_target = Some (VStr u) /\ u <> [])
    (H4 : subclass (n_cls n) CBibitem = true -> proper_entry (st_heap s) x), visitable s x n) by (intros; constructor; assumption).
  destruct (subclass (n_cls n) CBibitem) eqn:Eb.
  { destruct (proper_entryb (st_heap s) x) eqn:Ep.
    - right. apply proper_entryb_ok in Ep. apply Hother; [intros E; rewrite E in Eb; discriminate Eb..|auto].
    - left. exists EAttribute. eapply (minded_entry _ _ (n_cls n)); [exists n; auto|exact Eb|]. intros H. apply proper_entryb_ok in H. congruence. }
  destruct (decide (n_cls n = CMathBlock)) as [Em|Nm].
  { assert (Hp : (exists p np, n_parent n = Some p /\ st_heap s !! p = Some np /\ n_cls np = CParagraph) \/ forall p, parent_is (st_heap s) x p -> ~ class_of (st_heap s) p CParagraph).
    { destruct (n_parent n) as [p|] eqn:Ep.
      - destruct (st_heap s !! p) as [np|] eqn:Enp.
        + destruct (decide (n_cls np = CParagraph)); [left; eauto 6|]. right. intros q (m & Hm & Hq) (mq & Hmq & Hc). congruence.
        + right. intros q (m & Hm & Hq) (mq & Hmq & Hc). congruence.
      - right. intros q (m & Hm & Hq). congruence. }
    destruct Hp as [Hp|Hp].
    - right. apply Hother; [auto|intros E; congruence..].
    - left. exists EAssert. apply minded_formula; [exists n; auto|exact Hp]. }
  destruct (decide (n_cls n = CReference)) as [Er|Nr].
  { destruct (n_attrs n !! a_target) as [v|] eqn:Ev.
    - destruct v; try (left; exists EAttribute; apply minded_reference; [exists n; auto|intros y; rewrite V, Ev; congruence]).
      right. apply Hother; [congruence|eauto|congruence..].
    - left. exists EAttribute. apply minded_reference; [exists n; auto|]. intros y. rewrite V, Ev. discriminate. }
  destruct (decide (n_cls n = CURL)) as [Eu|Nu].
  { assert (Hin : In a_target (map fst (default_attrs (n_cls n)))) by (rewrite Eu; vm_compute; tauto).
    destruct (pr_complete _ _ P _ _ _ Hn Hin) as [v Hv]. rewrite <- V in Hv.
    destruct (pr_addresses _ _ P x v Hx) as [->|[u ->]]; [exists n; auto|exact Hv| |].
    - left. eexists. apply minded_link; [exists n; auto|left; exact Hv].
    - destruct u as [|c u]; [left; eexists; apply minded_link; [exists n; auto|right; exact Hv]|].
      right. rewrite V in Hv. apply Hother; [congruence..|eexists; split; [exact Hv|discriminate]|congruence]. }
  right. apply Hother; congruence.
Qed.
Lemma in_doc_node s t x : presented s t -> x ∈ doc_order t -> exists n, st_heap s !! x = Some n.
Proof.
  intros P Hx. destruct (pr_manuscript _ _ P) as [_ _ [Ht _]]. clear P. revert x Hx. induction Ht as [p i n0 cs Hi Hp Hk Hcs IH] using tree_at_ind'.
  intros x Hx. apply elem_of_cons in Hx as [->|Hx]; [eauto|]. apply elem_of_list_In, in_flat_map in Hx as (t & Ht & Hx).
  rewrite list.Forall_forall in IH. apply elem_of_list_In in Ht, Hx. exact (IH _ Ht x Hx).
Qed.

Theorem first_raises hl s t x e : presented s t -> first_minded s t x e -> translate_raises hl s t e.
Proof.
  intros P (Hm & l & r & Hdoc & Hl). destruct (pr_manuscript _ _ P) as [Hf Hc [Ht Hnd]].
  set (s1 := (info logger_tlate (lit "Translating...") s).1).
  assert (E1 : info logger_tlate (lit "Translating...") s = (s1, Ok tt)) by reflexivity.
  assert (HA : forall a, a ∈ tr_attrs -> a ∈ trh_attrs).
  { intros a Ha. apply elem_of_cons in Ha as [->|Ha]; [left|]. apply elem_of_cons in Ha as [->|Ha]; [right; left|inversion Ha]. }
  assert (D1 : during tr_attrs s s1).
  { apply (during_heap _ _ s); [reflexivity..|]. apply during_refl; [split; assumption|apply wtyped_typed, (pr_typed _ _ P)|apply (pr_complete _ _ P)|].
    intros i n v Hi Hv. destruct (pr_typed _ _ P _ _ _ _ Hi Hv) as [H _]. discriminate H. }
  assert (Hx : x ∈ doc_order t) by (rewrite Hdoc; apply elem_of_app; right; left).
  assert (HAt : a_types ∈ tr_attrs) by left. assert (HAm : a_must_close_p_tag ∈ tr_attrs) by (right; left).
  assert (Hg : good s) by (split; assumption).
  destruct (stuck_run tr_attrs s (base_tc hl) (fun f => translate_ext hl f f) (base_tc_ok hl tr_attrs HAt HAm) (base_uniform hl) (size (st_heap s))
    (fun y => y ∈ doc_order t /\ forall n, st_heap s !! y = Some n -> visitable s y n)) with (x := x) (e := e) (t := t) (p := @None id) (l := l) (r := r) (s := s1) as (F & H).
  - intros i n s2 Hi [_ HVi] Ds. specialize (HVi n Hi). destruct (dispatch_visit_some (n_cls n)) as [m Hd].
    assert (Hfl : forall y, fillable_at s y) by (intros y ny tmpl Hny Hv; apply (pr_templates _ _ P y); unfold value; rewrite Hny; exact Hv).
    destruct (r_visit_method tr_attrs s Hg (size (st_heap s)) (le_n _) HA HAt (wtyped_typed _ (pr_typed _ _ P)) (pr_complete _ _ P) Hfl hl m i n Hi Hd HVi s2 Ds) as (sv & c & Hv & Dv & _).
    destruct (du_old _ _ _ Ds _ _ Hi) as (ns & Hns & Ec & _). exists sv, c. split; [|split; [exact Dv|split]].
    + apply (from_mono (fun f => base_visit hl f i)); [apply mono_base_visit|]. erewrite base_visit_at; [exact Hv|exact Hns|rewrite Ec; exact Hd].
    + eapply open_runs; [exact HAt|exact HAm|exact Dv|eapply (sh_visit_method hl _ m i), Hv|eapply exts_visit; [apply Ds|exact Hv]].
    + intros d s3 Hcl D2. eapply (base_closes tr_attrs hl HAm s i n s2 m sv c d s3 Hg Hi Ds Hd _ _ Hv Hcl D2). intros E p' np Hp Hnp. destruct (vb_math _ _ _ HVi E) as (q & nq & Hq & Hnq & Hcq). congruence.
  - intros n s2 Hn Ds f _. destruct (dispatch_visit_some (n_cls n)) as [m Hd].
    destruct (f_visit tr_attrs s Hg HA hl t x n e P Hx Hn Hm f m Hd s2 Ds) as (s3 & H3).
    destruct (du_old _ _ _ Ds _ _ Hn) as (ns & Hns & Ec & _).
    exists s3. cbn [base_tc tc_visit]. erewrite base_visit_at; [exact H3|exact Hns|rewrite Ec; exact Hd].
  - exact Ht.
  - exact Hdoc.
  - intros y Hy. assert (Hyd : y ∈ doc_order t) by (rewrite Hdoc; apply elem_of_app; left; exact Hy). split; [exact Hyd|]. intros n Hn.
    destruct (minded_or s t y n P Hyd Hn) as [[e' He']|H]; [|exact H]. exfalso. eapply Hl; eassumption.
  - exact D1.
  - exists F. intros f Hle. unfold translate, bind. rewrite E1. apply (H f Hle).
Qed.

Lemma no_mistake_fine s t : presented s t -> (forall x e, x ∈ doc_order t -> ~ minded (st_heap s) x e) -> translatable_doc s t.
Proof.
  intros P H.
  assert (G : forall x n, x ∈ doc_order t -> st_heap s !! x = Some n -> visitable s x n).
  { intros x n Hx Hn. destruct (minded_or s t x n P Hx Hn) as [[e He]|G]; [|exact G]. exfalso. eapply H; eassumption. }
  assert (V : forall x n a, st_heap s !! x = Some n -> value (st_heap s) x a = n_attrs n !! a) by (intros x n a Hn; unfold value; rewrite Hn; reflexivity).
  destruct P as [P1 P2 P3 P4 P5 P6 P7 P8]. constructor; try assumption.
  - intros x Hx (n & Hn & Hc). destruct (vb_math _ _ _ (G x n Hx Hn) Hc) as (p & np & E1 & E2 & E3). exists p. split; [exists n; auto|exists np; auto].
  - intros x Hx (n & Hn & Hc). rewrite (V x n _ Hn). apply (vb_ref _ _ _ (G x n Hx Hn) Hc).
  - intros x Hx (n & Hn & Hc). rewrite (V x n _ Hn). apply (vb_url _ _ _ (G x n Hx Hn) Hc).
  - intros x c Hx (n & Hn & Hc) Hs. apply (vb_entry _ _ _ (G x n Hx Hn)). rewrite Hc. exact Hs.
Qed.
Lemma first_or_none s t : presented s t -> (exists x e, first_minded s t x e) \/ forall x e, x ∈ doc_order t -> ~ minded (st_heap s) x e.
Proof.
  intros P. assert (G : forall q p, doc_order t = p ++ q -> (forall y e, y ∈ p -> ~ minded (st_heap s) y e) ->
    (exists x e, first_minded s t x e) \/ forall x e, x ∈ doc_order t -> ~ minded (st_heap s) x e).
  { induction q as [|x q IH]; intros p Hd Hp.
    - right. intros x e Hx. rewrite app_nil_r in Hd. rewrite Hd in Hx. apply Hp, Hx.
    - assert (Hx : x ∈ doc_order t) by (rewrite Hd; apply elem_of_app; right; left). destruct (in_doc_node s t x P Hx) as [n Hn].
      assert (Hdec : (exists e, minded (st_heap s) x e) \/ forall e, ~ minded (st_heap s) x e).
      { destruct (minded_or s t x n P Hx Hn) as [H|H]; [left; exact H|right]. intros e He.
        assert (V : forall a, value (st_heap s) x a = n_attrs n !! a) by (intros a; unfold value; rewrite Hn; reflexivity).
        destruct He as [(n' & Hn' & Hc) Hq|(n' & Hn' & Hc) Hq|(n' & Hn' & Hc) Hq|c (n' & Hn' & Hc) Hs Hq]; assert (n' = n) as -> by congruence.
        - destruct (vb_math _ _ _ H Hc) as (r & nr & E1 & E2 & E3). apply (Hq r); [exists n; auto|exists nr; auto].
        - destruct (vb_ref _ _ _ H Hc) as (y & Hy). apply (Hq y). rewrite V. exact Hy.
        - destruct (vb_url _ _ _ H Hc) as (u & Hu & Hne). rewrite V in Hq. destruct Hq; congruence.
        - apply Hq, (vb_entry _ _ _ H). rewrite Hc. exact Hs. }
      destruct Hdec as [[e He]|Hno].
      + left. exists x, e. split; [exact He|]. exists p, q. auto.
      + apply (IH (p ++ [x])); [rewrite <- app_assoc; exact Hd|]. intros y e Hy. apply elem_of_app in Hy as [Hy|Hy]; [apply Hp, Hy|].
        apply elem_of_list_singleton in Hy as ->. apply Hno. }
  apply (G (doc_order t) []); [reflexivity|]. intros y e Hy. inversion Hy.
Qed.
Theorem outcomes hl s t : presented s t -> (exists h s', translates_to hl s t h s') \/ exists x e, first_minded s t x e /\ translate_raises hl s t e.
Proof.
  intros P. destruct (first_or_none s t P) as [(x & e & H)|H].
  - right. exists x, e. split; [exact H|]. eapply first_raises; eassumption.
  - left. apply translate_total, no_mistake_fine; assumption.
Qed.
Theorem translated_iff hl s t : presented s t -> (exists h s', translates_to hl s t h s') <-> forall x e, x ∈ doc_order t -> ~ minded (st_heap s) x e.
Proof.
  intros P. split; [|intros H; apply translate_total, no_mistake_fine; assumption].
  intros (h & s' & F & H) x e Hx Hm. destruct (first_or_none s t P) as [(y & e' & Hf)|Hn]; [|eapply Hn; eassumption].
  destruct (first_raises hl s t y e' P Hf) as (F' & H'). destruct (H' (F + F') ltac:(lia)) as (s2 & E). rewrite H in E by lia. discriminate E.
Qed.
