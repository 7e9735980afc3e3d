(** The first mistake decides the exception of the translator with handrails. *)
From Verif Require Export Stuck2 TrTotal6.
From Verif Require Import ResultSteps TrHand Fuel Queries Traverse NodeOps Monad.
Local Open Scope list_scope.

Section Hand.
Context (A : list attr) (s0 : st) (Hg0 : good s0) (f : nat) (Hf : size (st_heap s0) <= f).
Context (HA : forall a, a ∈ A -> a ∈ trh_attrs) (Htp : forall t, fillable_at s0 t).
Lemma f_hv_author i n : st_heap s0 !! i = Some n -> used_ok CAuthor (n_cls n) = true ->
  (forall a v, In a [a_name; a_affiliation; a_email] -> n_attrs n !! a = Some v -> truthy v = false) -> fails A s0 (hv_author f i) EAttribute.
Proof using All.
  intros Hi Hu Hno. unfold hv_author. eapply Stuck.f_bind with (R := fun c => exists g, c = KOpen g).
  { unfold visit_author.
    eapply t_bind; [eapply (r_used _ _ _ _ _ _ Hi Hu); cbn; tauto|]. intros v1 H1. specialize (H1 (notA _ HA a_name ltac:(notin))).
    eapply t_bind; [eapply (r_used _ _ _ _ _ _ Hi Hu); cbn; tauto|]. intros v2 H2. specialize (H2 (notA _ HA a_affiliation ltac:(notin))).
    eapply t_bind; [eapply (r_used _ _ _ _ _ _ Hi Hu); cbn; tauto|]. intros v3 H3. specialize (H3 (notA _ HA a_email ltac:(notin))).
    rewrite (Hno a_name v1), (Hno a_affiliation v2), (Hno a_email v3) by (cbn; tauto || assumption). cbn [orb].
    eapply t_bind with (R := fun c => exists g, c = KOpen g); [|intros nt Hnt; apply t_ret, Hnt].
    unfold node_tag, node_tag_full. eapply t_bind; [eapply t_cls_of, Hi|]. intros c _.
    eapply t_bind; [eapply (t_get_strs _ _ _ _ _ Hi); [apply always|notin|auto]|]. intros types _.
    eapply t_bind; [eapply (t_getattr _ _ _ _ _ Hi); apply always|]. intros l _.
    eapply t_bind; [eapply (t_getattr _ _ _ _ _ Hi)|]; [destruct (n_cls n); vm_compute; tauto|]. intros nid _. apply t_ret. eexists; reflexivity. }
  intros c [g ->]. eapply Stuck.f_bind; [eapply (r_replace A s0 Hg0 f Hf HA Htp), Hi|]. intros hr _. apply Stuck.f_bind_l, Stuck.f_raise.
Qed.
Lemma f_hvisit hl src root t i n e : presented_rails s0 t -> i ∈ doc_order t -> st_heap s0 !! i = Some n -> minded_rails (st_heap s0) i e -> forall m, dispatch visit_defined (n_cls n) = Some m ->
  fails A s0 (hvisit_method hl src root f m i) e.
Proof using All.
  intros P Hd Hi Hm m Hdis. pose proof (used_visit _ _ Hdis) as Hu.
  assert (V : forall a, value (st_heap s0) i a = n_attrs n !! a) by (intros a; unfold value; rewrite Hi; reflexivity).
  destruct Hm as [e Hm|(n' & Hn' & Hc) Hp].
  - pose proof (f_visit A s0 Hg0 HA hl t i n e (prr_doc _ _ P) Hd Hi Hm f m Hdis) as G.
    destruct Hm as [(n' & Hn' & Hc) Hp|(n' & Hn' & Hc) Hp|(n' & Hn' & Hc) Hp|c (n' & Hn' & Hc) Hs Hp]; assert (n' = n) as -> by congruence.
    + exfalso. destruct (prr_formulas _ _ P i Hd) as (p & Hpi & Hpc); [exists n; auto|]. exact (Hp p Hpi Hpc).
    + rewrite Hc in Hdis. vm_compute in Hdis. injection Hdis as <-. exact G.
    + rewrite Hc in Hdis. vm_compute in Hdis. injection Hdis as <-. exact G.
    + assert (m = CBibitem) as -> by (rewrite Hc in Hdis; destruct c; try discriminate Hs; vm_compute in Hdis; congruence).
      cbn [hvisit_method]. unfold hv_bibitem. apply Stuck.f_bind_l, (f_bibitem_parts A s0 HA i n Hi Hu).
      destruct (proper_entryb (st_heap s0) i) eqn:E; [|reflexivity]. apply proper_entryb_ok in E. contradiction.
  - assert (n' = n) as -> by congruence. rewrite Hc in Hdis. vm_compute in Hdis. injection Hdis as <-. cbn [hvisit_method]. apply (f_hv_author i n Hi Hu).
    intros a v Ha Hv. apply (Hp a v Ha). rewrite V. exact Hv.
Qed.
End Hand.

Lemma below_in s t : manuscript s t -> forall c x, c ∈ doc_order t -> ancestor (st_heap s) x c -> x ∈ doc_order t.
Proof.
  intros [Hf Hc [Ht Hnd]] c x Hct Hanc. induction Hanc as [x q Hp|x q y Hp Hanc IH].
  - assert (Hpi : parent_is (st_heap s) x q) by exact Hp. apply (cons_parent _ Hc) in Hpi as (m & Hm & Hk). eapply doc_order_closed; eassumption.
  - specialize (IH Hct). assert (Hpi : parent_is (st_heap s) x q) by exact Hp. apply (cons_parent _ Hc) in Hpi as (m & Hm & Hk). eapply doc_order_closed; eassumption.
Qed.
Lemma rails_or s t x n : presented_rails s t -> x ∈ doc_order t -> st_heap s !! x = Some n -> (exists e, minded_rails (st_heap s) x e) \/ hvisitable s x n.
Proof.
  intros P Hx Hn. pose proof (prr_doc _ _ P) as P0. destruct (minded_or s t x n P0 Hx Hn) as [[e He]|Hv]; [left; exists e; apply minded_same, He|].
  assert (V : forall a, value (st_heap s) x a = n_attrs n !! a) by (intros a; unfold value; rewrite Hn; reflexivity).
  assert (Htoc : forall c m, c ∈ doc_order t -> st_heap s !! c = Some m -> n_cls m = CContents -> toc_fine s c).
  { intros c m Hct Hm Hcm y ny Hanc Hny Hcy. destruct (prr_contents _ _ P c y Hct) as (z & k & Hz & Hk & nz & Hnz & Hcz); [exists m; auto|exact Hanc|exists ny; auto|].
    exists z, nz. unfold value in Hz. rewrite Hny in Hz. rewrite Hcz. auto. }
  assert (Hrest : (n_cls n = CAuthor -> exists a v, In a [a_name; a_affiliation; a_email] /\ n_attrs n !! a = Some v /\ truthy v = true) -> hvisitable s x n).
  { intros Hau. constructor; [exact Hv|exact Hau|intros E; eapply Htoc; eassumption|].
    intros E k m Hk Hm Hcm. eapply Htoc; [|exact Hm|exact Hcm]. destruct (pr_manuscript _ _ P0) as [Hf Hc [Ht Hnd]]. eapply doc_order_closed; eassumption. }
  destruct (decide (n_cls n = CAuthor)) as [Ea|Na]; [|right; apply Hrest; congruence].
  set (said := fun a => match n_attrs n !! a with Some v => truthy v | None => false end).
  assert (Hs : forall a, said a = true -> In a [a_name; a_affiliation; a_email] -> hvisitable s x n).
  { intros a Hs Ha. apply Hrest. intros _. unfold said in Hs. destruct (n_attrs n !! a) as [v|] eqn:E; [|discriminate]. eauto. }
  destruct (said a_name) eqn:E1; [right; apply (Hs _ E1); cbn; tauto|].
  destruct (said a_affiliation) eqn:E2; [right; apply (Hs _ E2); cbn; tauto|].
  destruct (said a_email) eqn:E3; [right; apply (Hs _ E3); cbn; tauto|].
  left. exists EAttribute. apply minded_author; [exists n; auto|]. intros a v Ha Hv'. rewrite V in Hv'. unfold said in *.
  destruct Ha as [<-|[<-|[<-|[]]]]; rewrite Hv' in *; assumption.
Qed.
Lemma rails_not s t x n : presented_rails s t -> st_heap s !! x = Some n -> hvisitable s x n -> forall e, ~ minded_rails (st_heap s) x e.
Proof.
  intros P Hn [H HAu _ _] e He. assert (V : forall a, value (st_heap s) x a = n_attrs n !! a) by (intros a; unfold value; rewrite Hn; reflexivity).
  destruct He as [e He|(n' & Hn' & Hc) Hq].
  - destruct He as [(n' & Hn' & Hc) Hq|(n' & Hn' & Hc) Hq|(n' & Hn' & Hc) Hq|c (n' & Hn' & Hc) Hs Hq]; assert (n' = n) as -> by congruence.
    + destruct (vb_math _ _ _ H Hc) as (r & nr & E1 & E2 & E3). apply (Hq r); [exists n; auto|exists nr; auto].
    + destruct (vb_ref _ _ _ H Hc) as (y & Hy). apply (Hq y). rewrite V. exact Hy.
    + destruct (vb_url _ _ _ H Hc) as (u & Hu & Hne). rewrite V in Hq. destruct Hq; congruence.
    + apply Hq, (vb_entry _ _ _ H). rewrite Hc. exact Hs.
  - assert (n' = n) as -> by congruence. destruct (HAu Hc) as (a & v & Ha & Hv & Ht). rewrite <- V in Hv. rewrite (Hq a v Ha Hv) in Ht. discriminate Ht.
Qed.

Theorem first_raises_rails hl src s t x e : presented_rails s t -> first_minded_rails s t x e -> handrails_raises hl src s t e.
Proof.
  intros P (Hm & l & r & Hdoc & Hl). pose proof (prr_doc _ _ P) as P0. destruct (pr_manuscript _ _ P0) as [Hf Hc [Ht Hnd]].
  set (s1 := (info logger_tlate (lit "Translating...") s).1).
  assert (E1 : info logger_tlate (lit "Translating...") s = (s1, Ok tt)) by reflexivity.
  assert (D1 : during trh_attrs s s1).
  { apply (during_heap _ _ s); [reflexivity..|]. apply during_refl; [split; assumption|apply wtyped_typed, (pr_typed _ _ P0)|apply (pr_complete _ _ P0)|].
    intros i n v Hi Hv. destruct (pr_typed _ _ P0 _ _ _ _ Hi Hv) as [H _]. discriminate H. }
  assert (Hx : x ∈ doc_order t) by (rewrite Hdoc; apply elem_of_app; right; left).
  pose proof trh1 as T1. pose proof trh2 as T2. pose proof trh3 as T3. pose proof trh4 as T4.
  assert (Hg : good s) by (split; assumption).
  assert (Hfl : forall y, fillable_at s y) by (intros y ny tmpl Hny Hv; apply (pr_templates _ _ P0 y); unfold value; rewrite Hny; exact Hv).
  destruct (pr_root _ _ P0) as (nr & Hr & Hcr).
  destruct (stuck_run trh_attrs s (hr_tc hl src (root t)) (fun f => translate_ext hl f f) (hr_tc_ok hl src (root t) _ T1 T2 T3 T4) (hr_uniform hl src (root t)) (size (st_heap s))
    (fun y => forall n, st_heap s !! y = Some n -> hvisitable s y n)) with (x := x) (e := e) (t := t) (p := @None id) (l := l) (r := r) (s := s1) as (F & H).
  - intros i n s2 Hi HVi Ds. specialize (HVi n Hi). destruct (dispatch_visit_some (n_cls n)) as [m Hd].
    destruct (r_hvisit_method trh_attrs s Hg (size (st_heap s)) (le_n _) (fun a Ha => Ha) T1 T2 T3 T4 (wtyped_typed _ (pr_typed _ _ P0)) (pr_complete _ _ P0) Hfl hl src (root t) nr m i n Hr Hcr Hi Hd HVi s2 Ds) as (sv & c & Hv & Dv & _).
    destruct (du_old _ _ _ Ds _ _ Hi) as (ns & Hns & Ec & _). exists sv, c. split; [|split; [exact Dv|split]].
    + apply (from_mono (fun f => hr_visit hl src (root t) f i)); [apply mono_hr_visit|]. erewrite hr_visit_at; [exact Hv|exact Hns|rewrite Ec; exact Hd].
    + eapply open_runs; [exact T1|exact T2|exact Dv|eapply (sh_hvisit_method hl src (root t) _ m i), Hv|eapply exts_hvisit; [apply Ds|exact Hv]].
    + intros d s3 Hcl D2. destruct (dispatch_hleave_some (n_cls n)) as [ml Hml].
      destruct (r_hleave_method trh_attrs s Hg (size (st_heap s)) (le_n _) T2 ml i n d Hi Hml) with (s := s3) as (s4 & r' & E & D3 & _).
      * intros Hb. destruct (hleave_visit _ _ Hml Hb) as (m' & Hd' & Hb'). assert (m' = m) as -> by congruence.
        eapply batch_closer; [|exact Hcl]. eapply (hvisit_batch hl src (root t) _ m i Hb'), Hv.
      * intros E p' np Hp Hnp. destruct (vb_math _ _ _ (hb_base _ _ _ HVi) E) as (q & nq & Hq & Hnq & Hcq). congruence.
      * exact D2.
      * exists s4, r'. split; [|exact D3]. destruct (du_old _ _ _ D2 _ _ Hi) as (n2 & Hn2 & E2 & _).
        apply (from_mono (fun f => hr_leave f i (MkT [] [d]))); [apply mono_hr_leave|]. erewrite hr_leave_at; [exact E|exact Hn2|rewrite E2; exact Hml].
  - intros n s2 Hn Ds f Hle. destruct (dispatch_visit_some (n_cls n)) as [m Hd].
    destruct (f_hvisit trh_attrs s Hg f Hle (fun a Ha => Ha) Hfl hl src (root t) t x n e P Hx Hn Hm m Hd s2 Ds) as (s3 & H3).
    destruct (du_old _ _ _ Ds _ _ Hn) as (ns & Hns & Ec & _).
    exists s3. cbn [hr_tc tc_visit]. erewrite hr_visit_at; [exact H3|exact Hns|rewrite Ec; exact Hd].
  - exact Ht.
  - exact Hdoc.
  - intros y Hy n Hn. assert (Hyd : y ∈ doc_order t) by (rewrite Hdoc; apply elem_of_app; left; exact Hy).
    destruct (rails_or s t y n P Hyd Hn) as [[e' He']|H]; [|exact H]. exfalso. eapply Hl; eassumption.
  - exact D1.
  - exists F. intros f Hle. unfold translate_handrails, bind. rewrite E1. apply (H f Hle).
Qed.
Lemma first_or_none_rails s t : presented_rails s t -> (exists x e, first_minded_rails s t x e) \/ forall x e, x ∈ doc_order t -> ~ minded_rails (st_heap s) x e.
Proof.
  intros P. assert (G : forall q p, doc_order t = p ++ q -> (forall y e, y ∈ p -> ~ minded_rails (st_heap s) y e) ->
    (exists x e, first_minded_rails s t x e) \/ forall x e, x ∈ doc_order t -> ~ minded_rails (st_heap s) x e).
  { induction q as [|x q IH]; intros p Hd Hp.
    - right. intros x e Hx. rewrite app_nil_r in Hd. rewrite Hd in Hx. apply Hp, Hx.
    - assert (Hx : x ∈ doc_order t) by (rewrite Hd; apply elem_of_app; right; left). destruct (in_doc_node s t x (prr_doc _ _ P) Hx) as [n Hn].
      destruct (rails_or s t x n P Hx Hn) as [[e He]|Hv].
      + left. exists x, e. split; [exact He|]. exists p, q. auto.
      + apply (IH (p ++ [x])); [rewrite <- app_assoc; exact Hd|]. intros y e Hy. apply elem_of_app in Hy as [Hy|Hy]; [apply Hp, Hy|].
        apply elem_of_list_singleton in Hy as ->. eapply rails_not; eassumption. }
  apply (G (doc_order t) []); [reflexivity|]. intros y e Hy. inversion Hy.
Qed.
Lemma no_mistake_rails s t : presented_rails s t -> (forall x e, x ∈ doc_order t -> ~ minded_rails (st_heap s) x e) -> handrails_doc s t.
Proof.
  intros P H. constructor.
  - apply no_mistake_fine; [apply P|]. intros x e Hx Hm. eapply H; [exact Hx|apply minded_same, Hm].
  - intros x Hx (n & Hn & Hc). destruct (rails_or s t x n P Hx Hn) as [[e He]|Hv]; [exfalso; eapply H; eassumption|].
    destruct (hb_author _ _ _ Hv Hc) as (a & v & Ha & Hav & Ht). exists a, v. split; [exact Ha|]. split; [|exact Ht]. unfold value. rewrite Hn. exact Hav.
  - intros c x y Hct Hcc Hanc Hxc Hy. destruct (prr_contents _ _ P c x Hct Hcc Hanc Hxc) as (z & k & Hz & Hk & Hzc). assert (z = y) as -> by congruence. eauto.
Qed.
Theorem outcomes_rails hl src s t : presented_rails s t ->
  (exists h s', translates_handrails_to hl src s t h s') \/ exists x e, first_minded_rails s t x e /\ handrails_raises hl src s t e.
Proof.
  intros P. destruct (first_or_none_rails s t P) as [(x & e & H)|H].
  - right. exists x, e. split; [exact H|]. eapply first_raises_rails; eassumption.
  - left. apply handrails_total, no_mistake_rails; assumption.
Qed.
Theorem translated_rails_iff hl src s t : presented_rails s t ->
  (exists h s', translates_handrails_to hl src s t h s') <-> forall x e, x ∈ doc_order t -> ~ minded_rails (st_heap s) x e.
Proof.
  intros P. split; [|intros H; apply handrails_total, no_mistake_rails; assumption].
  intros (h & s' & F & H) x e Hx Hm. destruct (first_or_none_rails s t P) as [(y & e' & Hf)|Hn]; [|eapply Hn; eassumption].
  destruct (first_raises_rails hl src s t y e' P Hf) as (F' & H'). destruct (H' (F + F') ltac:(lia)) as (s2 & E). rewrite H in E by lia. discriminate E.
Qed.
