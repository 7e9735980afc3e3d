(** The first mistake decides the exception of translate. *)
From Verif Require Export SpecStuck TrTotal5.
From Verif Require Import Queries Traverse NodeOps Monad.
Local Open Scope list_scope.

(** *** Programs that raise [e] *)
Section Fails.
Context (A : list attr) (s0 : st).
Definition fails {X} (m : M X) (e : exn) : Prop := forall s, during A s0 s -> exists s', m s = (s', Err e).
Lemma f_raise {X} e : fails (@raise X e) e.
Proof. intros s _. exists s. reflexivity. Qed.
Lemma f_bind {X Y} (m : M X) (k : X -> M Y) R e : returns A s0 m R -> (forall x, R x -> fails (k x) e) -> fails (bind m k) e.
Proof.
  intros Hm Hk s Hs. destruct (Hm s Hs) as (s1 & x & E & H1 & HR). destruct (Hk x HR s1 H1) as (s2 & E2). exists s2. unfold bind. rewrite E. exact E2.
Qed.
Lemma f_bind_l {X Y} (m : M X) (k : X -> M Y) e : fails m e -> fails (bind m k) e.
Proof. intros Hm s Hs. destruct (Hm s Hs) as (s1 & E). exists s1. unfold bind. rewrite E. reflexivity. Qed.
Lemma f_mapM {X Y} (f : X -> M Y) (ok : X -> bool) e l : (forall x, ok x = true -> returns A s0 (f x) (fun _ => True)) ->
  (forall x, ok x = false -> fails (f x) e) -> forallb ok l = false -> fails (mapM f l) e.
Proof.
  intros H1 H2. induction l as [|x l IH]; [discriminate|]. cbn [forallb mapM]. destruct (ok x) eqn:E; intros Hl.
  - eapply f_bind; [apply H1, E|]. intros y _. apply f_bind_l, IH, Hl.
  - apply f_bind_l, H2, E.
Qed.
End Fails.

(** *** The loop *)
Section Rec.
Context (A : list attr) (s0 : st) (tc : tclass) (ext : nat -> id -> M (list tok)) (Htc : tc_ok A tc) (Hu : tuniform tc) (F0 : nat) (V : id -> Prop).
Context (Hvisit : forall i n s, st_heap s0 !! i = Some n -> V i -> during A s0 s ->
  exists sv c, from (fun f => tc_visit tc f i s) (sv, Ok c) F0 /\ during A s0 sv /\
    (exists F s1 op, from (fun f => open_toks (ext f) c sv) (s1, Ok op) F /\ during A s0 s1) /\
    (forall d s2, closer c = Some d -> during A s0 s2 ->
      exists s3 r, from (fun f => tc_leave tc f i (MkT [] [d]) s2) (s3, Ok r) F0 /\ during A s0 s3)).
Context (x : id) (e : exn).
Context (Hbad : forall n s, st_heap s0 !! x = Some n -> during A s0 s -> forall f, F0 <= f -> exists s', tc_visit tc f x s = (s', Err e)).

Lemma stuck_tree t : forall p l r, tree_at (st_heap s0) p t -> doc_order t = l ++ x :: r -> (forall y, y ∈ l -> V y) -> forall s, during A s0 s ->
  exists F, forall f, F <= f -> forall g rest u, 2 * length (doc_order t) <= g -> exists s', tr_loop tc (ext f) f g (Visit (root t) :: rest) u s = (s', Err e).
Proof using All.
  induction t as [i cs IH] using tree_ind'. intros p l r Ht Hdoc HV s Hs. apply tree_at_inv in Ht as (n & Hn & _ & Hk & Hcs).
  destruct l as [|i' l].
  { injection Hdoc as -> _. exists F0. intros f Hle g rest u Hg. destruct (Hbad n s Hn Hs f Hle) as (s' & Hf). exists s'.
    rewrite nodes_node in Hg. destruct g as [|g]; [lia|]. cbn [root tr_loop]. unfold bind at 1. rewrite Hf. reflexivity. }
  injection Hdoc as -> Hdoc.
  destruct (Hvisit i' n s Hn) as (sv & c & Hv & Dv & (F1 & s1 & op & Ho & D1) & Hl); [apply HV; left|exact Hs|].
  assert (Hall : exists F, forall f, F <= f -> forall g rest u, 2 * nodes_of cs <= g -> exists s', tr_loop tc (ext f) f g (map Visit (map root cs) ++ rest) u s1 = (s', Err e)).
  { assert (HVs : forall y, y ∈ l -> V y) by (intros y Hy; apply HV; right; exact Hy).
    clear Hk HV Ho Hv Hl Dv. revert l Hdoc HVs s1 D1. induction Hcs as [|t cs Ht Hcs IHcs]; intros l Hdoc HVs s1 D1.
    { cbn in Hdoc. destruct l; discriminate Hdoc. }
    apply list.Forall_cons in IH as [IHt IHr]. cbn [flat_map] in Hdoc.
    apply app_eq_app in Hdoc as (k & [[E1 E2]|[E1 E2]]).
    - (* the mistake is in the first tree, or the first tree ends before it *)
      destruct k as [|x' k].
      + rewrite app_nil_r in E1. cbn in E2.
        destruct (renders_from A s0 tc ext Htc F0 V Hvisit t _ Ht) with (s := s1) as (Fa & a & sa & Ha & Da); [intros y Hy; apply HVs; rewrite <- E1; exact Hy|exact D1|].
        destruct (IHcs IHr [] (eq_sym E2)) with (s1 := sa) as (Fb & Hb); [intros y Hy; inversion Hy|exact Da|].
        exists (Fa + Fb). intros f Hf g rest u Hg. rewrite nodes_cons in Hg.
        destruct (proj1 (renders_loop tc (ext f) f A Htc Hu) _ _ _ _ (Ha f ltac:(lia))) as (k & Hkb & Hk).
        replace g with (k + (g - k)) by lia. change (map Visit (map root (t :: cs)) ++ rest) with (map Visit [root t] ++ (map Visit (map root cs) ++ rest)).
        rewrite Hk. apply Hb; lia.
      + injection E2 as <- E2. destruct (IHt _ l k Ht E1 HVs s1 D1) as (F & H). exists F. intros f Hf g rest u Hg. rewrite nodes_cons in Hg.
        change (map Visit (map root (t :: cs)) ++ rest) with (Visit (root t) :: (map Visit (map root cs) ++ rest)). apply H; lia.
    - destruct (renders_from A s0 tc ext Htc F0 V Hvisit t _ Ht) with (s := s1) as (Fa & a & sa & Ha & Da); [intros y Hy; apply HVs; rewrite E1; apply elem_of_app; left; exact Hy|exact D1|].
      destruct (IHcs IHr k E2) with (s1 := sa) as (Fb & Hb); [intros y Hy; apply HVs; rewrite E1; apply elem_of_app; right; exact Hy|exact Da|].
      exists (Fa + Fb). intros f Hf g rest u Hg. rewrite nodes_cons in Hg.
      destruct (proj1 (renders_loop tc (ext f) f A Htc Hu) _ _ _ _ (Ha f ltac:(lia))) as (k' & Hkb & Hk).
      replace g with (k' + (g - k')) by lia. change (map Visit (map root (t :: cs)) ++ rest) with (map Visit [root t] ++ (map Visit (map root cs) ++ rest)).
      rewrite Hk. apply Hb; lia. }
  destruct Hall as (F2 & H). exists (F0 + F1 + F2). intros f Hf g rest u Hg. rewrite nodes_node in Hg. destruct g as [|g]; [lia|].
  destruct (du_old _ _ _ Dv _ _ Hn) as (nv & Hnv & E1 & _ & E3 & _).
  cbn [root tr_loop]. unfold bind at 1. rewrite (Hv f) by lia. unfold bind at 1. unfold children_of, bind at 1. rewrite (get_node_eq _ _ _ Hnv). unfold ret at 1.
  unfold bind at 1. rewrite execute_visit by (eapply (ok_visit_shape _ _ Htc), (Hv F0 (le_n _))). rewrite (Ho f) by lia.
  unfold kids in *. rewrite E1, E3, Hk. apply H; lia.
Qed.
Lemma stuck_run t p l r s : tree_at (st_heap s0) p t -> doc_order t = l ++ x :: r -> (forall y, y ∈ l -> V y) -> during A s0 s ->
  exists F, forall f, F <= f -> exists s', run_translator tc (ext f) f (root t) s = (s', Err e).
Proof using All.
  intros Ht Hdoc HV Hs. destruct (stuck_tree t p l r Ht Hdoc HV s Hs) as (F & H). exists (F + 2 * length (doc_order t)). intros f Hf.
  destruct (H f ltac:(lia) f [] (MkT [] []) ltac:(lia)) as (s' & E). exists s'. unfold run_translator, bind. rewrite E. reflexivity.
Qed.
End Rec.

(** *** The visits *)
Section Visits.
Context (A : list attr) (s0 : st) (Hg0 : good s0) (HA : forall a, a ∈ A -> a ∈ trh_attrs).
Notation fails_s := (fails A s0).
Ltac infd := cbn; tauto.
Lemma f_mathblock i n : st_heap s0 !! i = Some n -> (forall p np, n_parent n = Some p -> st_heap s0 !! p = Some np -> subclass_any (n_cls np) [CParagraph] = false) ->
  fails_s (visit_mathblock i) EAssert.
Proof using Hg0.
  intros Hi Hp. unfold visit_mathblock. eapply f_bind; [eapply t_parent_of, Hi|]. intros p ->.
  eapply f_bind with (R := fun b => b = false).
  - destruct (n_parent n) as [q|] eqn:Eq; [|apply t_ret; reflexivity]. destruct (parent_old _ Hg0 _ _ _ Hi Eq) as (np & Hnp & _).
    eapply t_imp; [eapply t_inst, Hnp|]. intros b ->. eapply Hp; [reflexivity|exact Hnp].
  - intros b ->. apply f_raise.
Qed.
Lemma f_reference f i n : st_heap s0 !! i = Some n -> used_ok CReference (n_cls n) = true -> (forall y, n_attrs n !! a_target <> Some (VNode y)) ->
  fails_s (visit_reference f i) EAttribute.
Proof using HA.
  intros Hi Hu Ht. unfold visit_reference. eapply f_bind; [eapply (r_used _ _ _ _ _ a_target Hi Hu); infd|]. intros v Hv.
  specialize (Hv (notA A HA a_target ltac:(notin))). destruct v; try apply f_raise. exfalso. eapply Ht, Hv.
Qed.
Lemma f_url f i n : st_heap s0 !! i = Some n -> used_ok CURL (n_cls n) = true -> (n_attrs n !! a_target = Some VNone \/ n_attrs n !! a_target = Some (VStr [])) ->
  fails_s (visit_url f i) (ETranslator (lit "Found a node without a target")).
Proof using HA.
  intros Hi Hu Ht. unfold visit_url. eapply f_bind; [eapply (r_used _ _ _ _ _ a_target Hi Hu); infd|]. intros v Hv.
  rewrite Hv in Ht by (apply (notA A HA); notin). destruct Ht as [[= ->]|[= ->]]; [apply f_raise|].
  apply f_bind_l. unfold make_ahref. eapply f_bind; [eapply t_cls_of, Hi|]. intros c _. apply f_bind_l, f_raise.
Qed.
(** The items of an entry that are not texts. *)
Definition proper_entryb (h : gmap id node) (x : id) : bool :=
  let ok a := match value h x a with Some v => negb (truthy v) || is_str v | None => true end in
  let is k := match value h x a_kind with Some v => val_eqb v (VStr (lit k)) | None => false end in
  match value h x a_author with Some v => is_str v | None => false end && ok a_year &&
  (if is "article"%string then ok a_journal else true) && (if is "book"%string then ok a_publisher else true).
Lemma proper_entryb_ok h x : proper_entryb h x = true <-> proper_entry h x.
Proof using.
  unfold proper_entryb. cbv zeta. rewrite !andb_true_iff.
  assert (Hok : forall a, (match value h x a with Some v => negb (truthy v) || is_str v | None => true end = true) <->
    forall v, value h x a = Some v -> truthy v = true -> exists y, v = VStr y).
  { intros a. destruct (value h x a) as [v|]; [|split; [discriminate|reflexivity]]. split.
    - intros H w [= <-] Ht. rewrite Ht in H. destruct v; try discriminate H. eauto.
    - intros H. destruct (truthy v) eqn:Ht; [|reflexivity]. destruct (H v eq_refl Ht) as [y ->]. reflexivity. }
  assert (His : forall k, (match value h x a_kind with Some v => val_eqb v (VStr (lit k)) | None => false end = true) <-> value h x a_kind = Some (VStr (lit k))).
  { intros k. destruct (value h x a_kind) as [v|]; [|split; discriminate]. split.
    - intros E. destruct v; try discriminate E. cbn in E. apply str_eqb_eq in E. subst. reflexivity.
    - intros [= ->]. cbn. apply str_eqb_eq. reflexivity. }
  split.
  - intros [[[H1 H2] H3] H4]. constructor.
    + destruct (value h x a_author) as [v|]; [|discriminate]. destruct v; try discriminate. eauto.
    + apply Hok, H2.
    + intros v Hk. apply His in Hk. rewrite Hk in H3. apply (proj1 (Hok _) H3).
    + intros v Hk. apply His in Hk. rewrite Hk in H4. apply (proj1 (Hok _) H4).
  - intros [P1 P2 P3 P4]. split; [split; [split|]|].
    + destruct P1 as [a ->]. reflexivity.
    + apply Hok, P2.
    + destruct (match value h x a_kind with Some v => val_eqb v (VStr (lit "article")) | None => false end) eqn:E; [|reflexivity]. apply His in E. apply Hok. intros v. apply P3, E.
    + destruct (match value h x a_kind with Some v => val_eqb v (VStr (lit "book")) | None => false end) eqn:E; [|reflexivity]. apply His in E. apply Hok. intros v. apply P4, E.
Qed.
Lemma f_bibitem_parts i n : st_heap s0 !! i = Some n -> used_ok CBibitem (n_cls n) = true -> proper_entryb (st_heap s0) i = false ->
  fails_s (bibitem_parts i) EAttribute.
Proof using HA.
  intros Hi Hu Hp. unfold bibitem_parts.
  assert (V : forall a, value (st_heap s0) i a = n_attrs n !! a) by (intros a; unfold value; rewrite Hi; reflexivity).
  unfold proper_entryb in Hp. cbv zeta in Hp. rewrite !V in Hp.
  eapply f_bind; [eapply (r_used _ _ _ _ _ a_author Hi Hu); infd|]. intros author Hauth. rewrite (Hauth (notA A HA a_author ltac:(notin))) in Hp.
  eapply f_bind; [eapply (r_used _ _ _ _ _ a_title Hi Hu); infd|]. intros title _.
  eapply f_bind; [eapply (r_always _ _ _ _ _ Hi); infd|]. intros number _.
  eapply f_bind; [eapply (r_used _ _ _ _ _ a_kind Hi Hu); infd|]. intros kind Hkind. rewrite (Hkind (notA A HA a_kind ltac:(notin))) in Hp.
  eapply f_bind; [eapply r_label, Hi|]. intros label _. cbv zeta.
  eapply f_bind with (R := fun l => forallb is_str l = (if val_eqb kind (VStr (lit "article")) then match n_attrs n !! a_journal with Some v => negb (truthy v) || is_str v | None => true end else true) &&
    (if val_eqb kind (VStr (lit "book")) then match n_attrs n !! a_publisher with Some v => negb (truthy v) || is_str v | None => true end else true)).
  { destruct (val_eqb kind (VStr (lit "article"))) eqn:Ek.
    - assert (Eb : val_eqb kind (VStr (lit "book")) = false).
      { destruct kind; try discriminate Ek. cbn in Ek. apply str_eqb_eq in Ek. subst. reflexivity. }
      rewrite Eb. eapply t_bind; [eapply (r_used _ _ _ _ _ a_journal Hi Hu); infd|]. intros j Hj. rewrite (Hj (notA A HA a_journal ltac:(notin))).
      destruct (truthy j) eqn:Tj; [apply t_ret; cbn; rewrite ?andb_true_r; reflexivity|]. eapply t_bind; [apply t_log|]. intros _ _. apply t_ret. reflexivity.
    - destruct (val_eqb kind (VStr (lit "book"))) eqn:Eb; [|apply t_ret; reflexivity].
      eapply t_bind; [eapply (r_used _ _ _ _ _ a_publisher Hi Hu); infd|]. intros j Hj. rewrite (Hj (notA A HA a_publisher ltac:(notin))).
      destruct (truthy j) eqn:Tj; [apply t_ret; cbn; rewrite ?andb_true_r; reflexivity|]. eapply t_bind; [apply t_log|]. intros _ _. apply t_ret. reflexivity. }
  intros venue Hvenue. eapply f_bind; [eapply (r_used _ _ _ _ _ a_year Hi Hu); infd|]. intros year Hyear. rewrite (Hyear (notA A HA a_year ltac:(notin))) in Hp.
  eapply f_bind with (R := fun l => forallb is_str l = negb (truthy year) || is_str year).
  { destruct (truthy year) eqn:Ty; [apply t_ret; cbn; rewrite ?andb_true_r; reflexivity|]. eapply t_bind; [apply t_log|]. intros _ _. apply t_ret. reflexivity. }
  intros y Hy. apply f_bind_l. apply (f_mapM _ _ _ is_str).
  - intros v Hv. destruct v; try discriminate Hv. apply t_ret, I.
  - intros v Hv. destruct v; try discriminate Hv; apply f_raise.
  - rewrite !forallb_app, Hvenue, Hy. clear -Hp.
    assert (Hitems : forallb is_str (if truthy number then VStr (fmt_val number ++ lit ".") :: [author; VStr (lit """" ++ fmt_val title ++ lit """")] else [author; VStr (lit """" ++ fmt_val title ++ lit """")]) = is_str author).
    { destruct (truthy number); cbn [forallb is_str andb]; apply andb_true_r. }
    rewrite Hitems. clear Hitems. revert Hp.
    match goal with |- ?a && ?b && ?c && ?d = false -> ?a' && (?c' && ?d' && ?b') = false =>
      change (a && b && c && d = false -> a && (c && d && b) = false); generalize a b c d end.
    intros a b c d. destruct a, b, c, d; cbn; congruence.
Qed.
Lemma f_visit hl t i n e : presented s0 t -> i ∈ doc_order t -> st_heap s0 !! i = Some n -> minded (st_heap s0) i e -> forall f m, dispatch visit_defined (n_cls n) = Some m ->
  fails_s (visit_method hl f m i) e.
Proof using All.
  intros P Hd Hi Hm f m Hdis. pose proof (used_visit _ _ Hdis) as Hu.
  assert (V : forall a, value (st_heap s0) i a = n_attrs n !! a) by (intros a; unfold value; rewrite Hi; reflexivity).
  destruct Hm as [(n' & Hn' & Hc) Hp|(n' & Hn' & Hc) Hp|(n' & Hn' & Hc) Hp|c (n' & Hn' & Hc) Hs Hp]; assert (n' = n) as -> by congruence.
  - rewrite Hc in Hdis. vm_compute in Hdis. injection Hdis as <-. cbn [visit_method]. apply (f_mathblock i n Hi). intros p np Ep Hnp.
    assert (Hpi : parent_is (st_heap s0) i p) by (exists n; auto).
    destruct (pr_formulas _ _ P i p Hd) as [G1 G2]; [exists n; auto|exact Hpi|]. specialize (Hp p Hpi).
    destruct (n_cls np) eqn:Ec; try reflexivity; exfalso; [apply Hp|apply G1|apply G2]; exists np; auto.
  - rewrite Hc in Hdis. vm_compute in Hdis. injection Hdis as <-. cbn [visit_method]. apply (f_reference f i n Hi Hu). intros y. rewrite <- V. apply Hp.
  - rewrite Hc in Hdis. vm_compute in Hdis. injection Hdis as <-. cbn [visit_method]. apply (f_url f i n Hi Hu). rewrite <- V. exact Hp.
  - assert (m = CBibitem) as -> by (rewrite Hc in Hdis; destruct c; try discriminate Hs; vm_compute in Hdis; congruence).
    cbn [visit_method]. unfold visit_bibitem. apply f_bind_l, (f_bibitem_parts i n Hi Hu).
    destruct (proper_entryb (st_heap s0) i) eqn:E; [|reflexivity]. apply proper_entryb_ok in E. contradiction.
Qed.
End Visits.
