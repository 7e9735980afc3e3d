(** The first mistake in a reference decides the exception that transform raises. *)
From Verif Require Export SpecMistakes TransformTotal.
From Verif Require Import ResultAll ResultRefs Labels Queries Built Traverse Stages ResolveAll ResolvePrev Resolve EditTotal NodeOps Monad.
Local Open Scope string_scope.
Local Open Scope list_scope.

(** ** Runs that raise *)

Definition fails {A} (m : M A) (s : st) (e : exn) : Prop := exists s', m s = (s', Err e).
Lemma fails_run {A B} (m : M A) (k : A -> M B) s s1 a e : m s = (s1, Ok a) -> fails (k a) s1 e -> fails (bind m k) s e.
Proof. intros E (s2 & E2). exists s2. unfold bind. rewrite E. exact E2. Qed.
Lemma fails_bind {A B} (m : M A) (k : A -> M B) s e : fails m s e -> fails (bind m k) s e.
Proof. intros (s2 & E2). exists s2. unfold bind. rewrite E2. reflexivity. Qed.
Lemma fails_raise {A} s e : fails (@raise A e) s e. Proof. exists s. reflexivity. Qed.
Lemma mono_fails {A} (m : nat -> M A) f f' s e : mono m -> e <> EOutOfFuel -> f <= f' -> fails (m f) s e -> fails (m f') s e.
Proof. intros Hm He Hf (s' & E). exists s'. rewrite (Hm f f' s Hf); [exact E|]. unfold enough. rewrite E. cbn. congruence. Qed.

(** ** Nodes without back links *)

Section backlinks.
  Context (y : id).
  Definition bare_links (s : st) : Prop := y < st_next s /\ exists n, st_heap s !! y = Some n /\ n_attrs n !! a_backlinks = None.
  Lemma bl_mod i f : (forall n, n_attrs (f n) = n_attrs n) -> keeps bare_links (mod_node i f).
  Proof using.
    intros Hf s [Hy (n & Hn & Ha)]. unfold mod_node, bind, get_node. destruct (st_heap s !! i) as [m|] eqn:E; [|split; eauto]. cbn [fst put_node].
    change (bare_links (upd s i (f m))). split; [exact Hy|]. rewrite upd_lookup. destruct (decide (i = y)) as [->|]; [|eauto].
    exists (f m). split; [reflexivity|]. rewrite Hf. congruence.
  Qed.
  Lemma bl_setattr i a v : a <> a_backlinks -> keeps bare_links (setattr i a v).
  Proof using.
    intros Hf s [Hy (n & Hn & Ha)]. unfold setattr, mod_node, bind, get_node. destruct (st_heap s !! i) as [m|] eqn:E; [|split; eauto]. cbn [fst put_node].
    change (bare_links (upd s i (set_n_attr a v m))). split; [exact Hy|]. rewrite upd_lookup. destruct (decide (i = y)) as [->|]; [|eauto].
    eexists. split; [reflexivity|]. unfold set_n_attr. cbn [n_attrs]. rewrite lookup_insert_ne by congruence. congruence.
  Qed.
  Lemma bl_new c kw : keeps bare_links (new_node c kw).
  Proof using.
    intros s [Hy (n & Hn & Ha)]. change (bare_links (new s (mk_node c kw))). split; [cbn; lia|]. exists n. rewrite new_lookup, decide_False by lia. auto.
  Qed.
  Lemma bl_log l m : keeps bare_links (warn l m). Proof using. intros s H. exact H. Qed.
  Lemma bl_backlink l i : keeps bare_links (add_backlink l i).
  Proof using.
    intros s Hs. destruct (decide (i = y)) as [->|Hne].
    - destruct Hs as [Hy (n & Hn & Ha)]. unfold add_backlink, get_strs, getattr, bind, get_node. rewrite Hn, Ha. split; eauto.
    - unfold add_backlink. unfold bind. destruct (get_strs i a_backlinks s) as [s1 r] eqn:E.
      assert (Hs1 : bare_links s1).
      { assert (K : keeps bare_links (get_strs i a_backlinks)).
        { unfold get_strs, getattr. repeat first [apply keeps_bind; [|intros]|apply keeps_get_node|apply keeps_ret|apply keeps_raise|match goal with |- keeps _ (match ?x with _ => _ end) => destruct x end]. }
        specialize (K s Hs). rewrite E in K. exact K. }
      destruct r as [b|]; [|exact Hs1]. destruct Hs1 as [Hy (n & Hn & Ha)]. unfold setattr, mod_node, bind, get_node.
      destruct (st_heap s1 !! i) as [m|] eqn:Em; [|split; eauto]. cbn [fst put_node].
      match goal with |- bare_links ?u => change (bare_links (upd s1 i (set_n_attr a_backlinks (VStrs (b ++ [l])) m))) end.
      split; [exact Hy|]. rewrite upd_lookup, decide_False by exact Hne. eauto.
  Qed.
  Ltac bl := repeat first
    [ apply keeps_ret | apply keeps_raise | apply keeps_get_node | apply keeps_children_of | apply keeps_parent_of | apply keeps_raw_children
    | apply bl_new | apply bl_log | apply bl_backlink | apply keeps_anc_loop
    | (apply bl_setattr; discriminate) | (apply bl_mod; reflexivity)
    | apply keeps_mapM; intros | apply keeps_iterM; intros
    | apply keeps_bind; [|intros]
    | match goal with
      | |- keeps _ (if ?b then _ else _) => destruct b
      | |- keeps _ (match ?x with _ => _ end) => destruct x
      | |- keeps _ (getattr _ _) => unfold getattr
      | |- keeps _ (get_str _ _) => unfold get_str
      | |- keeps _ (get_strs _ _) => unfold get_strs
      | |- keeps _ (cls_of _) => unfold cls_of
      | |- keeps _ (inst _ _) => unfold inst
      | |- keeps _ (set_parent _ _) => unfold set_parent
      | |- keeps _ (set_raw_children _ _) => unfold set_raw_children
      | |- keeps _ (remove _ _) => unfold remove
      | |- keeps _ (prev_sibling _ _) => unfold prev_sibling
      | |- keeps _ (first_ancestor_of_type _ _ _) => unfold first_ancestor_of_type
      end ].
  Lemma bl_insert_all p reps : forall k, keeps bare_links (insert_all p k reps).
  Proof using. induction reps as [|r reps IH]; intros k; cbn [insert_all]; bl; apply IH. Qed.
  Lemma bl_first_inst c l : keeps bare_links (first_inst c l). Proof using. apply keeps_first_inst. Qed.
  Lemma bl_replace i reps : keeps bare_links (replace_self i reps).
  Proof using. unfold replace_self. bl. apply bl_insert_all. Qed.
  Lemma bl_walk shown : forall n t, keeps bare_links (walk_prev n shown t).
  Proof using. induction n as [|n IH]; intros t; cbn [walk_prev]; bl; try apply IH; apply bl_first_inst. Qed.
  Lemma bl_visit F d k i : keeps bare_links (visit (cond_exact pending_classes) (resolve_body F d) k i).
  Proof using. unfold visit, resolve_body, resolve_reference, resolve_cite, resolve_prev, label_to_node. bl; try apply bl_replace; apply bl_walk. Qed.
  Lemma bl_fold F d l : forall k, keeps bare_links (foldM (visit (cond_exact pending_classes) (resolve_body F d)) k l).
  Proof using. induction l as [|x l IH]; intros k; cbn [foldM]; [apply keeps_ret|]. apply keeps_bind; [apply bl_visit|intros; apply IH]. Qed.
End backlinks.

(** ** The references *)

Lemma prev_outside i s n : good s -> st_heap s !! i = Some n -> closest_ancestor (st_heap s) [CStep] i None ->
  exists f, fails (resolve_prev f i) s (ETransformer (lit "Found :prev: tag outside proof step")).
Proof.
  intros Hg Hi Ha. exists (size (st_heap s)). unfold resolve_prev.
  destruct (first_ancestor_total (size (st_heap s)) i [CStep] s n (proj2 Hg) Hi ltac:(lia)) as [r Er].
  assert (r = None) as ->.
  { apply (closest_unique _ _ _ _ _ (proj2 Hg)) with (2 := Ha). eapply first_ancestor_ok; [apply Hg|exact Er]. }
  eapply fails_run; [exact Er|]. apply fails_raise.
Qed.
Lemma prev_fails i s n step v e : good s -> st_heap s !! i = Some n ->
  closest_ancestor (st_heap s) [CStep] i (Some step) -> value (st_heap s) i a_target = Some v ->
  match py_int (fmt_val v) with
  | None => e = EValue
  | Some k => e = ETransformer (lit "Did not find previous " ++ fmt_val v ++ lit " step(s)") /\
              exists l, steps_before (st_heap s) step l /\ nth_error (step :: l) (Z.to_nat k) = None
  end ->
  exists f, fails (resolve_prev f i) s e.
Proof.
  intros Hg Hi Ha Hv He. exists (size (st_heap s)). unfold resolve_prev.
  destruct (first_ancestor_total (size (st_heap s)) i [CStep] s n (proj2 Hg) Hi ltac:(lia)) as [r Er].
  assert (r = Some step) as ->.
  { apply (closest_unique _ _ _ _ _ (proj2 Hg)) with (2 := Ha). eapply first_ancestor_ok; [apply Hg|exact Er]. }
  eapply fails_run; [exact Er|].
  destruct (ends_value i a_target s v (fun x s' => x = v /\ s' = s) Hv (conj eq_refl eq_refl)) as (s' & x & Ev & -> & ->).
  eapply fails_run; [exact Ev|].
  destruct (py_int (fmt_val v)) as [k|]; [|subst e; apply fails_raise].
  destruct He as (-> & l & Hl & Hn).
  assert (Hst : is_Some (st_heap s !! step)) by (destruct Ha as (_ & (m & Hm & _) & _); eauto).
  pose proof (walk_prev_eq (fmt_val v) (Z.to_nat k) step l s (proj2 Hg) Hst Hl) as Ew. rewrite Hn in Ew.
  apply fails_bind. exists s. exact Ew.
Qed.

Lemma iter_backlink_fails label : forall ts s y, TI s -> (forall x, In x ts -> is_Some (st_heap s !! x)) -> In y ts ->
  value (st_heap s) y a_backlinks = None -> fails (iterM (add_backlink label) ts) s EAttribute.
Proof.
  induction ts as [|x ts IH]; intros s y HT H Hy Hv; [destruct Hy|]. cbn [iterM].
  destruct (H x (or_introl eq_refl)) as [n Hn]. destruct (n_attrs n !! a_backlinks) as [v|] eqn:Ev.
  - destruct (proj1 HT x n a_backlinks v Hn Ev) as [Hs _]. destruct v as [| | | | |b| | |]; try discriminate Hs.
    assert (E : add_backlink label x s = (upd s x (set_n_attr a_backlinks (VStrs (b ++ [label])) n), Ok tt)).
    { unfold add_backlink, get_strs, getattr, setattr, mod_node, bind, get_node. rewrite Hn, Ev. cbn. rewrite Hn. reflexivity. }
    eapply fails_run; [exact E|]. assert (Hne : x <> y) by (intros ->; unfold value in Hv; rewrite Hn in Hv; congruence).
    apply (IH _ y).
    + assert (G := ok_TI [] (add_backlink label x) tt_ no_ s (upd s x (set_n_attr a_backlinks (VStrs (b ++ [label])) n)) tt).
      apply G; [|exact HT|intros z []|exact E]. unfold add_backlink. okw.
    + intros z Hz. rewrite upd_lookup. destruct (decide (x = z)); [eauto|]. apply H. right. exact Hz.
    + destruct Hy as [->|Hy]; [congruence|exact Hy].
    + unfold value. rewrite upd_lookup, decide_False by exact Hne. exact Hv.
  - apply fails_bind. unfold add_backlink. apply fails_bind. unfold get_strs. apply fails_bind. exists s.
    unfold getattr, bind, get_node. rewrite Hn, Ev. reflexivity.
Qed.
Lemma cite_fails d k i s n q ls l y : good s -> TI s -> ex (map snd d) s -> st_heap s !! i = Some n -> n_cls n = CPendingCite ->
  n_parent n = Some q -> value (st_heap s) i a_targetlabels = Some (VStrs ls) -> l ∈ ls -> lookup_label d l = Some y ->
  bare_links y s -> fails (resolve_cite d k i) s EAttribute.
Proof.
  intros Hg HT Hex Hi Hcl Hp Hv Hl Hy [_ (m & Hm & Ha)].
  destruct (cite_run d k i s n q Hg HT Hex Hi Hcl Hp) as (ls' & ts & s1 & s4 & Hv' & E & HT4 & (_ & _ & _ & Hext) & Hts & Hex1 & Hold).
  assert (ls' = ls) as -> by congruence.
  destruct (Hold y m (Hext _ _ Hm)) as (m1 & M1 & _ & M3).
  destruct (iter_backlink_fails (lit "cite-" ++ str_of_nat k) ts s4 y) as [s5 E5]; [exact HT4| | | |exists s5; rewrite E; exact E5].
  - intros x Hx. destruct (Hex1 x Hx) as [n1 Hn1]. destruct (Hold x n1 Hn1) as (n2 & Hn2 & _). eauto.
  - apply elem_of_list_lookup in Hl as [k0 Hl]. destruct (Forall2_lookup_l _ _ _ _ _ Hts Hl) as (x & Hx & Hct).
    unfold cite_target in Hct. rewrite Hy in Hct. subst x. apply elem_of_list_In. eapply elem_of_list_lookup_2, Hx.
  - unfold value. rewrite M1, M3. exact Ha.
Qed.

Lemma kth_none h step k l : consistent h -> steps_before h step l -> (forall y, ~ kth_previous h step k y) -> nth_error (step :: l) k = None.
Proof. intros Hc Hl Hn. destruct (nth_error (step :: l) k) as [y|] eqn:E; [|reflexivity]. destruct (Hn y). exists l. auto. Qed.

(** The mistakes, with the labels in a table. *)
Inductive mistake_by (d : labels) (h : gmap id node) (x : id) : exn -> Prop :=
| mb_outside : class_of h x CPendingPrev -> closest_ancestor h [CStep] x None ->
    mistake_by d h x (ETransformer (lit "Found :prev: tag outside proof step"))
| mb_number step v : class_of h x CPendingPrev -> closest_ancestor h [CStep] x (Some step) ->
    value h x a_target = Some v -> py_int (fmt_val v) = None -> mistake_by d h x EValue
| mb_far step v k : class_of h x CPendingPrev -> closest_ancestor h [CStep] x (Some step) ->
    value h x a_target = Some v -> py_int (fmt_val v) = Some k ->
    (forall y, ~ kth_previous h step (Z.to_nat k) y) ->
    mistake_by d h x (ETransformer (lit "Did not find previous " ++ fmt_val v ++ lit " step(s)"))
| mb_cite keys k y : class_of h x CPendingCite -> value h x a_targetlabels = Some (VStrs keys) -> k ∈ keys ->
    lookup_label d k = Some y -> is_Some (h !! y) -> value h y a_backlinks = None -> mistake_by d h x EAttribute.

(** The reference [x], after those of [p] were resolved. *)
Lemma visit_fails p q s0 t d x e f cites s : resolvable_on p s0 t d -> doc_order t = p ++ x :: q ->
  rinv s0 d p f cites s -> TI s ->
  (forall y, bare_links y s0 -> bare_links y s) ->
  mistake_by d (st_heap s0) x e ->
  exists F, fails (visit (cond_exact pending_classes) (resolve_body F d) (length cites) x) s e.
Proof.
  intros RV El RI HT Hbl Hmi. pose proof (rv_manuscript _ _ _ _ RV) as Hm. pose proof (manuscript_good _ _ Hm) as Hg0.
  pose proof (ms_document _ _ Hm) as [Ht Hnd]. pose proof (ri_good _ _ _ _ _ _ RI) as Hg.
  assert (Hx : x ∈ doc_order t) by (rewrite El; set_solver). destruct (manuscript_some _ _ _ Hm Hx) as [n0 Hn0].
  assert (Hnin : x ∉ p) by (rewrite El in Hnd; apply NoDup_app in Hnd as (_ & Hd & _); intros H; apply (Hd x H); constructor).
  assert (Hns : ~ settled s0 p x) by (intros [? _]; contradiction).
  destruct (ri_old _ _ _ _ _ _ RI _ _ Hn0) as (n & Hn & Hc & _ & Hp & _). specialize (Hp Hns).
  assert (Hex : ex (map snd d) s).
  { intros y Hy. destruct (rv_labels _ _ _ _ RV y Hy) as [m Hy0]. destruct (ri_old _ _ _ _ _ _ RI _ _ Hy0) as (m' & Hm' & _). eauto. }
  assert (Hval : forall a, a <> a_backlinks -> value (st_heap s) x a = value (st_heap s0) x a) by (intros a Ha; eapply tr_value; eauto).
  assert (Hroot : n_cls n0 <> CManuscript -> exists q, n_parent n = Some q).
  { intros Hne. rewrite Hp. destruct (tree_at_parent_in _ _ _ _ Ht Hx) as [->|(r & (m & Hm1 & Hm2) & _)].
    - destruct Hne. apply (rv_root _ _ _ _ RV). exact Hn0.
    - exists r. congruence. }
  assert (Hprev : n_cls n0 = CPendingPrev -> (exists F, fails (resolve_prev F x) s e) ->
    exists F, fails (visit (cond_exact pending_classes) (resolve_body F d) (length cites) x) s e).
  { intros Hcl (F & HF). exists F. unfold visit. eapply fails_run; [unfold get_node; rewrite Hn; reflexivity|].
    assert (cond_exact pending_classes n = true) as -> by (unfold cond_exact; rewrite Hc, Hcl; reflexivity).
    unfold resolve_body. eapply fails_run; [unfold cls_of, bind, get_node; rewrite Hn; reflexivity|]. rewrite Hc, Hcl.
    change (subclass CPendingPrev CPendingReference) with false. change (subclass CPendingPrev CPendingCite) with false. change (subclass CPendingPrev CPendingPrev) with true. cbv iota.
    apply fails_bind. exact HF. }
  destruct Hmi as [(m & Hm0 & Hcl) Ha|step v (m & Hm0 & Hcl) Ha Hv Hk|step v k (m & Hm0 & Hcl) Ha Hv Hk Hno|keys k y (m & Hm0 & Hcl) Hv Hk Hf [my Hmy] Hb]; assert (m = n0) as -> by congruence.
  - apply Hprev; [exact Hcl|]. eapply prev_outside; [exact Hg|exact Hn|]. apply (back_closest s0 d p f cites s Hg0 RI); eauto.
  - apply Hprev; [exact Hcl|]. eapply (prev_fails x s n step v); [exact Hg|exact Hn| |rewrite Hval by discriminate; exact Hv|rewrite Hk; reflexivity].
    apply (back_closest s0 d p f cites s Hg0 RI); eauto.
  - assert (Hstep : SpecTransform.is_step (st_heap s0) step = true).
    { destruct Ha as (_ & (m & Hm1 & Hc1) & _). unfold SpecTransform.is_step. rewrite Hm1. destruct Hc1 as [<-|[]]. reflexivity. }
    apply Hprev; [exact Hcl|]. eapply (prev_fails x s n step v); [exact Hg|exact Hn| |rewrite Hval by discriminate; exact Hv|rewrite Hk].
    + apply (back_closest s0 d p f cites s Hg0 RI); eauto.
    + split; [reflexivity|]. destruct Ha as (_ & (m & Hm1 & _) & _).
      destruct (steps_before_exists _ step m (proj2 Hg0) Hm1) as [l Hl]. exists l.
      split; [apply (back_before s0 d p f cites s Hg0 RI); assumption|]. eapply kth_none; [apply Hg0|exact Hl|exact Hno].
  - destruct Hroot as [r Hr]; [rewrite Hcl; discriminate|]. exists 0. unfold visit. eapply fails_run; [unfold get_node; rewrite Hn; reflexivity|].
    assert (cond_exact pending_classes n = true) as -> by (unfold cond_exact; rewrite Hc, Hcl; reflexivity).
    unfold resolve_body. eapply fails_run; [unfold cls_of, bind, get_node; rewrite Hn; reflexivity|]. rewrite Hc, Hcl.
    change (subclass CPendingCite CPendingReference) with false. change (subclass CPendingCite CPendingCite) with true. cbv iota.
    apply fails_bind. eapply (cite_fails d (length cites) x s n r keys k y); [exact Hg|exact HT|exact Hex|exact Hn|congruence|exact Hr|rewrite Hval by discriminate; exact Hv|exact Hk|exact Hf|].
    apply Hbl. split; [apply (proj1 Hg0 _ _ Hmy)|].
    exists my. split; [exact Hmy|]. unfold value in Hb. rewrite Hmy in Hb. exact Hb.
Qed.

Lemma resolve_fails p q s t d x e : resolvable_on p s t d -> doc_order t = p ++ x :: q -> e <> EOutOfFuel ->
  mistake_by d (st_heap s) x e ->
  exists F, fails (resolve_pending_references F d (root t)) s e.
Proof.
  intros RV El He Hmi. pose proof (rv_manuscript _ _ _ _ RV) as Hm. pose proof (manuscript_good _ _ Hm) as Hg0.
  pose proof (ms_document _ _ Hm) as [Ht Hnd].
  destruct (resolve_fold_ends p s t d p (x :: q) RV El ltac:(auto)) as (F1 & s1 & k & E1 & HT1 & f & cites & RI & ->).
  destruct (visit_fails p q s t d x e f cites s1 RV El RI HT1) as (F2 & HF2); [|exact Hmi|].
  { intros y Hy. pose proof (bl_fold y F1 d p 0 s Hy) as G. rewrite E1 in G. exact G. }
  set (F := F1 + F2 + length (doc_order t)). exists F. unfold resolve_pending_references. apply fails_bind.
  assert (G : fails (foldM (visit (cond_exact pending_classes) (resolve_body F d)) 0 (doc_order t)) s e).
  { rewrite El. assert (K : forall (g : nat -> id -> M nat) l1 l2 a s s' a' , foldM g a l1 s = (s', Ok a') -> fails (foldM g a' l2) s' e -> fails (foldM g a (l1 ++ l2)) s e).
    { clear. intros g l1. induction l1 as [|z l1 IH]; intros l2 a s s' a' H1 H2; cbn [foldM app] in *.
      - injection H1 as -> ->. exact H2.
      - apply bind_ok in H1 as (s2 & b & H1 & H3). eapply fails_run; [exact H1|]. eapply IH; eassumption. }
    eapply K.
    - apply (mono_ok (fun f => foldM (visit (cond_exact pending_classes) (resolve_body f d)) 0 p) F1 F); [|unfold F; lia|exact E1].
      apply mono_foldM. intros. apply mono_visit. intros. apply mono_resolve_body.
    - cbn [foldM]. apply fails_bind. apply (mono_fails (fun f => visit (cond_exact pending_classes) (resolve_body f d) (length cites) x) F2 F); [|exact He|unfold F; lia|exact HF2].
      apply mono_visit. intros. apply mono_resolve_body. }
  destruct G as [s' G]. exists s'.
  rewrite (trav_eq (trav_inv d) (cond_exact pending_classes) (resolve_body F d)); [exact G| | |eapply tree_at_kid; eassumption|unfold F; lia].
  - intros. eapply resolve_trav_step; eassumption.
  - split; [exact Hg0|]. split; [apply RV|]. split; [exact Hnd|]. split.
    + intros z Hz. eapply manuscript_some; eassumption.
    + intros l1 z l2 r Ez Hr. eapply document_parent_before; [split|..]; eassumption.
Qed.

(** ** Transform *)

Section plausible.
  Context (s : st) (t : tree) (PL : plausible s t).
  Notation h := (st_heap s).
  Let Hm : manuscript s t := proj1 (pl_ready _ _ PL).
  Lemma prev_cases x : x ∈ doc_order t -> class_of h x CPendingPrev ->
    (exists e, mistake h t x e) \/
    exists step v k y, closest_ancestor h [CStep] x (Some step) /\ value h x a_target = Some v /\ py_int (fmt_val v) = Some k /\ kth_previous h step (Z.to_nat k) y.
  Proof using PL.
    intros Hx Hc. pose proof (manuscript_good _ _ Hm) as Hg. pose proof Hc as (n & Hn & Ec).
    destruct (first_ancestor_total (size h) x [CStep] s n (proj2 Hg) Hn ltac:(lia)) as [r Er].
    destruct (first_ancestor_ok _ _ _ _ _ _ (proj2 Hg) Er) as [_ Ha]. destruct r as [step|].
    2:{ left. eexists. apply mistake_outside; assumption. }
    destruct (has_attr s x n a_target) as (v & Hv & _); [split; apply PL|exact Hn|rewrite Ec; vm_compute; tauto|].
    destruct (py_int (fmt_val v)) as [k|] eqn:Ek; [|left; eexists; eapply mistake_number; eassumption].
    pose proof Ha as (_ & (m & Hm1 & _) & _). destruct (steps_before_exists _ step m (proj2 Hg) Hm1) as [l Hl].
    destruct (nth_error (step :: l) (Z.to_nat k)) as [y|] eqn:Ey.
    - right. exists step, v, k, y. split; [exact Ha|]. split; [exact Hv|]. split; [exact Ek|]. exists l. auto.
    - left. eexists. eapply mistake_far; [exact Hc|exact Ha|exact Hv|exact Ek|]. intros y (l' & Hl' & Ey').
      rewrite (steps_before_unique _ _ _ _ (proj2 Hg) Hl' Hl) in Ey'. congruence.
  Qed.
  Lemma cite_cases x : x ∈ doc_order t -> class_of h x CPendingCite ->
    (exists e, mistake h t x e) \/
    forall keys k y, value h x a_targetlabels = Some (VStrs keys) -> k ∈ keys -> first_labelled h (doc_order t) k y -> class_of h y CBibitem.
  Proof using PL.
    intros Hx Hc. destruct (value h x a_targetlabels) as [v|] eqn:Ev; [|right; discriminate].
    destruct v as [| | | | |keys| | |]; try (right; discriminate).
    assert (G : forall l : list str, (forall k, k ∈ l -> k ∈ keys) -> (exists e, mistake h t x e) \/
      forall k y, k ∈ l -> first_labelled h (doc_order t) k y -> class_of h y CBibitem).
    { induction l as [|k l IH]; intros Hl; [right; intros k y Hk; inversion Hk|].
      destruct IH as [H|H]; [intros k' Hk'; apply Hl; constructor; exact Hk'|left; exact H|].
      assert (D : (exists e, mistake h t x e) \/ forall y, first_labelled h (doc_order t) k y -> class_of h y CBibitem).
      { destruct k as [|c k]; [right; intros y [Hk _]; destruct Hk; reflexivity|].
        destruct (find_label h (doc_order t) (c :: k)) as [y|] eqn:Ef.
        - apply find_label_first in Ef; [|discriminate]. pose proof (first_in _ _ _ _ Ef) as [Hy _].
          destruct (value h y a_backlinks) as [b|] eqn:Eb.
          + right. intros z Hz. apply find_label_first in Hz; [|discriminate]. apply find_label_first in Ef; [|discriminate].
            assert (z = y) as -> by congruence. eapply (pl_backlinks _ _ PL); eassumption.
          + left. eexists. eapply (mistake_cite _ _ _ keys (c :: k) y); auto. apply Hl. constructor.
        - right. intros z Hz. apply find_label_first in Hz; [|discriminate]. congruence. }
      destruct D as [D|D]; [left; exact D|]. right. intros k' y Hk'. inversion Hk'; subst; [apply D|apply H; assumption]. }
    destruct (G keys) as [H|H]; [auto|left; exact H|]. right. intros keys' k y [= <-]. apply H.
  Qed.
  Lemma mistake_dec x : x ∈ doc_order t -> (exists e, mistake h t x e) \/ (forall e, ~ mistake h t x e).
  Proof using PL.
    intros Hx. pose proof (manuscript_good _ _ Hm) as Hg. destruct (manuscript_some _ _ _ Hm Hx) as [n Hn].
    assert (K : (forall e, mistake h t x e -> n_cls n = CPendingPrev \/ n_cls n = CPendingCite)).
    { intros e [(m & Hm0 & Hc) ?|? ? (m & Hm0 & Hc) ?|? ? ? (m & Hm0 & Hc) ?|? ? ? (m & Hm0 & Hc) ?]; assert (m = n) as -> by congruence; auto. }
    destruct (decide (n_cls n = CPendingPrev)) as [Hc|Hc1]; [|destruct (decide (n_cls n = CPendingCite)) as [Hc|Hc2]; [|right; intros e H; destruct (K e H); contradiction]].
    - destruct (prev_cases x Hx ltac:(exists n; auto)) as [H|(step & v & k & y & Ha & Hv & Hk & Hy)]; [left; exact H|right].
      intros e [Hcl Ha'|step' v' Hcl Ha' Hv' Hk'|step' v' k' Hcl Ha' Hv' Hk' Hno|keys k' y' (m & Hm0 & Hcl) ?].
      + pose proof (closest_unique _ _ _ _ _ (proj2 Hg) Ha Ha'). discriminate.
      + congruence.
      + pose proof (closest_unique _ _ _ _ _ (proj2 Hg) Ha Ha') as [= <-]. assert (v' = v) as -> by congruence. assert (k' = k) as -> by congruence. exact (Hno y Hy).
      + congruence.
    - destruct (cite_cases x Hx ltac:(exists n; auto)) as [H|H]; [left; exact H|right].
      intros e [(m & Hm0 & Hcl) ?|? ? (m & Hm0 & Hcl) ?|? ? ? (m & Hm0 & Hcl) ?|keys k y Hcl Hv Hk Hf Hb]; [congruence..|].
      destruct (H keys k y Hv Hk Hf) as (m & Hm0 & Ec). destruct (pl_complete _ _ PL y m a_backlinks Hm0) as [b Eb]; [rewrite Ec; vm_compute; tauto|].
      unfold value in Hb. rewrite Hm0 in Hb. congruence.
  Qed.
  Lemma mistake_first : (exists x e, first_mistake s t x e) \/ forall x e, x ∈ doc_order t -> ~ mistake h t x e.
  Proof using PL.
    assert (G : forall q p, doc_order t = p ++ q -> (forall y e, y ∈ p -> ~ mistake h t y e) -> (exists x e, first_mistake s t x e) \/ forall x e, x ∈ doc_order t -> ~ mistake h t x e).
    { induction q as [|x q IH]; intros p El Hp; [right; intros x e Hx; apply Hp; rewrite El, app_nil_r in Hx; exact Hx|].
      destruct (mistake_dec x) as [[e He]|He]; [rewrite El; set_solver| |].
      - left. exists x, e. split; [exact He|]. exists p, q. auto.
      - apply (IH (p ++ [x])); [rewrite <- app_assoc; exact El|]. intros y e Hy. apply elem_of_app in Hy as [Hy|Hy]; [apply Hp, Hy|].
        apply elem_of_list_singleton in Hy as ->. apply He. }
    apply (G (doc_order t) []); [reflexivity|]. intros y e Hy. inversion Hy.
  Qed.
  Lemma good_cites x keys k y : (forall e, ~ mistake h t x e) -> class_of h x CPendingCite ->
    value h x a_targetlabels = Some (VStrs keys) -> k ∈ keys -> first_labelled h (doc_order t) k y -> class_of h y CBibitem.
  Proof using PL.
    intros Hn Hc Hv Hk Hf. destruct (value h y a_backlinks) as [b|] eqn:Eb.
    - eapply (pl_backlinks _ _ PL); [apply (first_in _ _ _ _ Hf)|exact Eb].
    - destruct (Hn EAttribute). eapply mistake_cite; eassumption.
  Qed.
End plausible.

Theorem mistake_raises s t x e : plausible s t -> first_mistake s t x e -> transform_raises s t e.
Proof.
  intros PL [Hmi (p & q & El & Hp)].
  destruct (pl_ready _ _ PL) as (Hm & Hbu & Herr). assert (HT : TI s) by (split; apply PL).
  set (s0 := (info logger_tform (lit "Transforming...") s).1).
  assert (E0 : info logger_tform (lit "Transforming...") s = (s0, Ok tt)) by reflexivity.
  assert (Hm0 : manuscript s0 t) by (eapply (only_manuscript (fun _ _ => True)); [|exact Hm]; exact (ch_run _ _ _ _ _ (only_log _ _) E0)).
  assert (HT0 : TI s0) by exact HT.
  destruct (collect_total [] t s0 Hm0 HT0) as (f1 & s1 & d & E1 & HT1 & Hex1); [intros z []|].
  assert (LP : label_pass [] d s s1 t).
  { destruct (collect_labels_ok _ _ _ _ _ _ (ms_document _ _ Hm0) E1) as (Ho & Hk & Hv).
    unfold label_pass. split; [|split; assumption].
    destruct Ho as (On & Ol & Oh). split; [exact On|]. split; [|exact Oh].
    eapply logs_grow_trans; [|exact Ol]. eexists. reflexivity. }
  assert (Hpin : forall z, z ∈ p -> z ∈ doc_order t) by (intros z Hz; rewrite El; set_solver).
  assert (Hx : x ∈ doc_order t) by (rewrite El; set_solver).
  assert (RV : resolvable_on p s1 t d).
  { apply (lp_resolvable s s1 t d (pl_ready _ _ PL) LP HT1 Hex1 p (pl_root _ _ PL) (pl_refs _ _ PL) Hpin).
    - intros z keys k y Hz. apply (good_cites s t PL). intros e'. apply Hp, Hz.
    - intros z Hz Hc. destruct (prev_cases s t PL z (Hpin z Hz) Hc) as [[e' He']|H]; [destruct (Hp z e' Hz He')|exact H]. }
  pose proof (lp_structure _ _ _ _ LP) as HS. pose proof (lp_carried _ _ _ _ LP) as HC.
  assert (Hval : forall z b, z ∈ doc_order t -> b <> a_label -> value (st_heap s1) z b = value (st_heap s) z b) by (intros; eapply lp_value; [apply PL|exact LP|assumption..]).
  assert (Hcl : forall z c, class_of (st_heap s) z c -> class_of (st_heap s1) z c) by (intros z c; apply (carried_class _ _ _ _ _ HC)).
  assert (Hmb : mistake_by d (st_heap s1) x e).
  { destruct Hmi as [Hc Ha|step v Hc Ha Hv Hk|step v k Hc Ha Hv Hk Hno|keys k y Hc Hv Hk Hf Hb].
    - apply mb_outside; [apply Hcl, Hc|eapply same_closest; eassumption].
    - eapply mb_number; [apply Hcl, Hc|eapply same_closest; eassumption|rewrite Hval by (assumption || discriminate); exact Hv|exact Hk].
    - eapply mb_far; [apply Hcl, Hc|eapply same_closest; eassumption|rewrite Hval by (assumption || discriminate); exact Hv|exact Hk|].
      intros y Hy. apply (Hno y). eapply same_kth; [apply same_structure_sym, HS|exact Hy].
    - pose proof (first_in _ _ _ _ Hf) as [Hy _].
      eapply (mb_cite _ _ _ keys k y); [apply Hcl, Hc|rewrite Hval by (assumption || discriminate); exact Hv|exact Hk| |eapply manuscript_some; [exact (lp_manuscript1 _ _ _ _ (pl_ready _ _ PL) LP)|exact Hy]|rewrite Hval by (assumption || discriminate); exact Hb].
      destruct LP as (_ & Hlk & _). rewrite Hlk. cbn. pose proof Hf as (Hne & _). destruct k as [|c k]; [destruct Hne; reflexivity|]. apply find_label_first; assumption. }
  assert (He : e <> EOutOfFuel) by (destruct Hmi; discriminate).
  destruct (resolve_fails p q s1 t d x e RV El He Hmb) as [f2 HF2].
  exists (f1 + f2). intros f' Hf'.
  assert (G : fails (transform (f1 + f2) [] (root t)) s e).
  { unfold transform. eapply fails_run; [exact E0|].
    eapply fails_run.
    - apply (mono_ok (fun f => collect_labels f [] (root t)) f1 (f1 + f2)); [apply mono_collect|lia|exact E1].
    - apply fails_bind. apply (mono_fails (fun f => resolve_pending_references f d (root t)) f2 (f1 + f2)); [apply mono_resolve|exact He|lia|exact HF2]. }
  apply (mono_fails (fun f => transform f [] (root t)) (f1 + f2) f'); [apply mono_transform|exact He|exact Hf'|exact G].
Qed.

Theorem outcomes s t : fine_otherwise s t ->
  (exists s', transforms_to s t s') \/ exists x e, first_mistake s t x e /\ transform_raises s t e.
Proof.
  intros FO. pose proof (fo_plausible _ _ FO) as PL. destruct (mistake_first s t PL) as [(x & e & H)|H].
  - right. exists x, e. split; [exact H|]. apply (mistake_raises s t x e PL H).
  - left. apply transform_total. constructor; try apply PL; try apply FO.
    + intros x keys k y Hx. apply (good_cites s t PL). intros e. apply H, Hx.
    + intros x Hx Hc. destruct (prev_cases s t PL x Hx Hc) as [[e He]|G]; [destruct (H x e Hx He)|exact G].
Qed.
Lemma only_reported s t : fine_otherwise s t ->
  (forall x step v, x ∈ doc_order t -> class_of (st_heap s) x CPendingPrev -> closest_ancestor (st_heap s) [CStep] x (Some step) ->
     value (st_heap s) x a_target = Some v -> py_int (fmt_val v) <> None) ->
  (forall x keys k y, x ∈ doc_order t -> class_of (st_heap s) x CPendingCite -> value (st_heap s) x a_targetlabels = Some (VStrs keys) ->
     k ∈ keys -> first_labelled (st_heap s) (doc_order t) k y -> class_of (st_heap s) y CBibitem) ->
  (exists s', transforms_to s t s') \/ exists m, transform_raises s t (ETransformer m).
Proof.
  intros FO H1 H2. destruct (outcomes s t FO) as [H|(x & e & [Hm (p & q & El & _)] & H)]; [left; exact H|right].
  assert (Hx : x ∈ doc_order t) by (rewrite El; set_solver).
  destruct Hm as [Hc Ha|step v Hc Ha Hv Hk|step v k Hc Ha Hv Hk Hno|keys k y Hc Hv Hk Hf Hb]; eauto.
  - destruct (H1 x step v Hx Hc Ha Hv Hk).
  - exfalso. destruct (H2 x keys k y Hx Hc Hv Hk Hf) as (n & Hn & Ec).
    destruct (pl_complete _ _ (fo_plausible _ _ FO) y n a_backlinks Hn) as [b Eb]; [rewrite Ec; vm_compute; tauto|].
    unfold value in Hb. rewrite Hn in Hb. congruence.
Qed.
