(** The loop that fills the table of contents, over a heap that grows. *)
From Verif Require Export TocBuild.
From Verif Require Import Queries Built Meta Subproofs ResolveAll Resolve NodeOps Monad.

(** [yields cond h stack l]: the traversal with the given stack yields [l]. *)
Inductive yields (cond : node -> bool) (h : gmap id node) : list id -> list id -> Prop :=
| y_nil : yields cond h [] []
| y_node i n rest l :
    h !! i = Some n -> yields cond h (kids n ++ rest) l ->
    yields cond h (i :: rest) (if cond n then i :: l else l).
Lemma y_skip cond h i n rest l :
  h !! i = Some n -> cond n = false -> yields cond h (kids n ++ rest) l -> yields cond h (i :: rest) l.
Proof. intros Hi Hc H. pose proof (y_node _ _ _ _ _ _ Hi H) as G. rewrite Hc in G. exact G. Qed.
Lemma yields_app cond h a b : forall l1 l2, yields cond h a l1 -> yields cond h b l2 -> yields cond h (a ++ b) (l1 ++ l2).
Proof.
  intros l1 l2 H1 H2. induction H1 as [|i n rest l Hi H IH]; [assumption|].
  assert (E : (if cond n then i :: l else l) ++ l2 = if cond n then i :: (l ++ l2) else l ++ l2) by (destruct (cond n); reflexivity).
  rewrite E. cbn [app]. apply y_node; [assumption|]. rewrite app_assoc. exact IH.
Qed.
Lemma yields_split cond h st l : yields cond h st l -> forall a b, st = a ++ b ->
  exists l1 l2, l = l1 ++ l2 /\ yields cond h a l1 /\ yields cond h b l2.
Proof.
  induction 1 as [|i n rest l Hi H IH]; intros a b E.
  - destruct a, b; try discriminate. exists [], []. repeat split; constructor.
  - destruct a as [|i' a].
    + cbn [app] in E. subst b. eexists [], _. split; [reflexivity|]. split; [constructor|]. apply y_node; assumption.
    + injection E as <- ->. destruct (IH (kids n ++ a) b) as (l1 & l2 & -> & H1 & H2); [apply app_assoc|].
      exists (if cond n then i :: l1 else l1), l2. split; [destruct (cond n); reflexivity|]. split; [|assumption].
      apply y_node; assumption.
Qed.
Lemma yields_tree cond h p t : tree_at h p t -> yields cond h [root t] (List.filter (holds cond h) (doc_order t)).
Proof.
  intros Ht. induction Ht as [p i n cs Hi Hp Hk Hcs IH] using tree_at_ind'.
  rewrite doc_order_T. cbn [List.filter root]. unfold holds at 1. rewrite Hi. apply y_node; [assumption|].
  rewrite app_nil_r, Hk. clear Hk Hi Hcs. induction IH as [|c cs Hc _ IH]; [constructor|].
  rewrite doc_orders_cons, List.filter_app. apply (yields_app _ _ [root c]); assumption.
Qed.
Lemma yields_loop {A} cond (body : A -> id -> M A) (Inv : A -> st -> Prop) :
  (forall acc i s s' acc' n, Inv acc s -> st_heap s !! i = Some n -> cond n = true -> body acc i s = (s', Ok acc') ->
     Inv acc' s' /\ (exists n', st_heap s' !! i = Some n' /\ cond n' = true) /\
     forall stk l, yields cond (st_heap s) stk l -> yields cond (st_heap s') stk l) ->
  forall fuel stk l acc s s' a, yields cond (st_heap s) stk l -> Inv acc s ->
  trav_loop fuel cond body acc stk s = (s', Ok a) -> foldM body acc l s = (s', Ok a).
Proof.
  intros Hstep. induction fuel as [|fuel IH]; intros stk l acc s s' a Hy HI H.
  - destruct stk; [|discriminate]. inversion Hy; subst. exact H.
  - destruct stk as [|i rest]; [inversion Hy; subst; exact H|].
    apply trav_loop_cons_ok in H as (n & s1 & a1 & n1 & Hn & Hv & Hn1 & H).
    destruct (cond n) eqn:Ec.
    + destruct (Hstep _ _ _ _ _ _ HI Hn Ec Hv) as (HI1 & (n' & Hn' & Ec') & Hmono).
      assert (n1 = n') as -> by congruence.
      inversion Hy as [|? m ? l0 Hm Hy0]; subst. assert (m = n) as -> by congruence. rewrite Ec in *.
      apply Hmono in Hy. inversion Hy as [|? m ? l1 Hm1 Hy1 E1 E2]; subst. assert (m = n') as -> by congruence.
      rewrite Ec' in E2. injection E2 as E2. subst. rewrite Ec'. cbn [foldM]. unfold bind. rewrite Hv. eapply IH; eassumption.
    + apply ret_ok in Hv as [-> ->]. assert (n1 = n) as -> by congruence.
      inversion Hy as [|? m ? l0 Hm Hy0]; subst. assert (m = n) as -> by congruence. rewrite Ec in *.
      eapply IH; eassumption.
Qed.

(** The nodes added for one section are not visited. *)
Definition sec_cond : node -> bool := cond_class CSection.
Lemma added_yields s s' p x sub text stk l :
  good s -> added s s' p x sub text -> yields sec_cond (st_heap s) stk l -> yields sec_cond (st_heap s') stk l.
Proof.
  intros Hg A H.
  assert (Y : yields sec_cond (st_heap s') [st_next s] []).
  { apply (y_skip _ _ _ _ _ _ (ad_item _ _ _ _ _ _ A)); [reflexivity|]. cbn [app kids]. rewrite app_nil_r.
    assert (Yr : forall l, yields sec_cond (st_heap s') l [] -> yields sec_cond (st_heap s') (S (st_next s) :: l) []).
    { intros l0 H0. apply (y_skip _ _ _ _ _ _ (ad_ref _ _ _ _ _ _ A)); [reflexivity|]. exact H0. }
    destruct sub; apply Yr; [|constructor].
    apply (y_skip _ _ _ _ _ _ (ad_sub _ _ _ _ _ _ A eq_refl)); [reflexivity|]. constructor. }
  induction H as [|i n rest l Hi H IH]; [constructor|].
  pose proof (ad_old _ _ _ _ _ _ A i (proj1 Hg _ _ Hi)) as Hi'. rewrite Hi in Hi'.
  destruct (decide (i = p)) as [-> |Hne].
  - change (sec_cond n) with (sec_cond (add_kids [st_next s] n)). apply y_node; [assumption|].
    destruct (ad_parent _ _ _ _ _ _ A) as (np & Hp & Hhc & Hhi). assert (np = n) as -> by congruence.
    assert (Ek : kids (add_kids [st_next s] n) = kids n ++ [st_next s]).
    { unfold kids, add_kids. cbn [n_cls n_children]. rewrite Hhc. reflexivity. }
    rewrite Ek, <- app_assoc. destruct (yields_split _ _ _ _ IH (kids n) rest eq_refl) as (l1 & l2 & -> & H1 & H2).
    apply yields_app; [assumption|]. apply (yields_app _ _ [st_next s] rest [] l2); assumption.
  - apply y_node; assumption.
Qed.

(** The heap after some iterations. *)
Definition toc_class (c : cls) : Prop := c = CItem \/ c = CReference \/ c = CItemize.
Record extends (s s' : st) : Prop := {
  ex_good : good s';
  ex_next : st_next s <= st_next s';
  ex_logs : logs_grow s s';
  ex_old : forall j n, st_heap s !! j = Some n -> exists n', st_heap s' !! j = Some n' /\
    n_cls n' = n_cls n /\ n_parent n' = n_parent n /\ n_attrs n' = n_attrs n /\
    exists l, kids n' = kids n ++ l /\ (forall c, c ∈ l -> st_next s <= c) /\ (l <> [] -> holds_items (n_cls n));
  ex_none : forall j, j < st_next s -> st_heap s !! j = None -> st_heap s' !! j = None;
  ex_new : forall j n, st_next s <= j -> st_heap s' !! j = Some n ->
    toc_class (n_cls n) /\ forall c, c ∈ kids n -> st_next s <= c;
}.
Lemma extends_refl s : good s -> extends s s.
Proof.
  intros Hg. constructor; auto.
  - apply logs_grow_same. reflexivity.
  - intros j n Hj. exists n. do 4 (split; [auto|]). exists []. rewrite app_nil_r. split; [reflexivity|]. split; [intros c Hc; inversion Hc|congruence].
  - intros j n Hj Hn. apply (proj1 Hg) in Hn. lia.
Qed.
Lemma kids_below s j n c : good s -> st_heap s !! j = Some n -> c ∈ kids n -> c < st_next s.
Proof.
  intros [Hf Hc] Hj Hk. assert (Hp : parent_is (st_heap s) c j) by (apply (cons_parent _ Hc); exists n; auto).
  destruct Hp as (m & Hm & _). eapply Hf; eassumption.
Qed.
Lemma extends_added s0 s s' p x sub text : extends s0 s -> added s s' p x sub text -> extends s0 s'.
Proof.
  intros E A. pose proof (ex_next _ _ E) as Hle. pose proof (ex_good _ _ E) as Hg.
  assert (Hn' : st_next s < st_next s') by (rewrite (ad_next _ _ _ _ _ _ A); destruct sub; lia).
  assert (Hkids : forall j n n', st_heap s !! j = Some n -> st_heap s' !! j = Some n' ->
     n_cls n' = n_cls n /\ n_parent n' = n_parent n /\ n_attrs n' = n_attrs n /\
     (kids n' = kids n \/ kids n' = kids n ++ [st_next s] /\ holds_items (n_cls n))).
  { intros j n n' Hj Hj'. rewrite (ad_old _ _ _ _ _ _ A), Hj in Hj' by (eapply (proj1 Hg); eassumption).
    injection Hj' as <-. destruct (decide (j = p)) as [-> |]; [|auto].
    do 3 (split; [reflexivity|]). destruct (ad_parent _ _ _ _ _ _ A) as (np & Hp & Hhc & Hhi). assert (np = n) as -> by congruence.
    right. split; [|assumption]. unfold kids, add_kids. cbn [n_cls n_children]. rewrite Hhc. reflexivity. }
  constructor.
  - apply A.
  - lia.
  - eapply logs_grow_trans; [apply E|apply A].
  - intros j n Hj. destruct (ex_old _ _ E _ _ Hj) as (n1 & Hn1 & E1 & E2 & E3 & l & E4 & E5).
    destruct (added_some _ _ _ _ _ _ j A Hg) as [n2 Hn2]; [eauto|].
    destruct (Hkids _ _ _ Hn1 Hn2) as (F1 & F2 & F3 & F4). exists n2. split; [assumption|].
    split; [congruence|]. split; [congruence|]. split; [congruence|].
    destruct F4 as [F4|[F4 F5]].
    + exists l. split; [congruence|]. split; [apply E5|]. apply E5.
    + exists (l ++ [st_next s]). rewrite F4, E4, app_assoc. split; [reflexivity|]. destruct E5 as [E5 _]. split; [|intros _; congruence].
      intros c Hc. apply elem_of_app in Hc as [Hc|Hc]; [auto|]. apply elem_of_list_singleton in Hc. subst c. assumption.
  - intros j Hj Hnone. rewrite (ad_old _ _ _ _ _ _ A) by lia. rewrite (ex_none _ _ E) by assumption. reflexivity.
  - intros j n Hj Hn. destruct (decide (j < st_next s)) as [Hlt|Hge].
    + destruct (st_heap s !! j) as [n0|] eqn:E0.
      * destruct (ex_new _ _ E _ _ Hj E0) as [C1 C2]. destruct (Hkids _ _ _ E0 Hn) as (F1 & _ & _ & F4).
        split; [rewrite F1; assumption|]. intros c Hc. destruct F4 as [F4|[F4 _]]; rewrite F4 in Hc; [auto|].
        apply elem_of_app in Hc as [Hc|Hc]; [auto|]. apply elem_of_list_singleton in Hc. subst c. assumption.
      * rewrite (ad_old _ _ _ _ _ _ A), E0 in Hn by assumption. discriminate.
    + pose proof (proj1 (ad_good _ _ _ _ _ _ A) _ _ Hn) as Hlt. rewrite (ad_next _ _ _ _ _ _ A) in Hlt.
      assert (Hj3 : j = st_next s \/ j = S (st_next s) \/ (sub = true /\ j = S (S (st_next s)))).
      { destruct sub; [|lia]. destruct (decide (j = S (S (st_next s)))); [auto|]. lia. }
      destruct Hj3 as [-> |[-> |[-> ->]]].
      * rewrite (ad_item _ _ _ _ _ _ A) in Hn. injection Hn as <-. split; [left; reflexivity|].
        intros c Hc. cbn in Hc. destruct sub; repeat (apply elem_of_cons in Hc as [-> |Hc]; [lia|]); inversion Hc.
      * rewrite (ad_ref _ _ _ _ _ _ A) in Hn. injection Hn as <-. split; [right; left; reflexivity|].
        intros c Hc. inversion Hc.
      * rewrite (ad_sub _ _ _ _ _ _ A eq_refl) in Hn. injection Hn as <-. split; [right; right; reflexivity|].
        intros c Hc. inversion Hc.
Qed.

(** ** The tree afterwards *)
Lemma extends_new_tree s s' p t : extends s s' -> tree_at (st_heap s') p t -> st_next s <= root t ->
  forall x, x ∈ doc_order t -> st_next s <= x.
Proof.
  intros E Ht. induction Ht as [p i n cs Hi Hp Hk Hcs IH] using tree_at_ind'. cbn [root]. intros Hr x Hx.
  rewrite doc_order_T in Hx. apply elem_of_cons in Hx as [-> |Hx]; [assumption|].
  apply elem_doc_orders in Hx as (c & Hc & Hx). rewrite list.Forall_forall in IH. apply (IH c Hc); [|assumption].
  apply (proj2 (ex_new _ _ E _ _ Hr Hi)). rewrite Hk. apply elem_of_list_fmap. eauto.
Qed.
Lemma extends_tree s s' p t t' : good s -> extends s s' -> tree_at (st_heap s) p t -> tree_at (st_heap s') p t' -> root t' = root t ->
  forall xs, (forall x, x ∈ doc_order t' -> x ∈ xs <-> st_next s <= x) -> prune xs t' = t.
Proof.
  intros Hg E Ht. revert t'. induction Ht as [p i n cs Hi Hp Hk Hcs IH] using tree_at_ind'.
  intros [i' cs'] Ht' Er xs Hxs. cbn [root] in Er. subst i'. inversion Ht' as [? ? n' ? Hi' Hp' Hk' Hcs']; subst.
  destruct (ex_old _ _ E _ _ Hi) as (n2 & Hn2 & _ & _ & _ & l & El & Hl & _). assert (n2 = n') as -> by congruence.
  rewrite Hk, Hk' in El. symmetry in El.
  assert (Hr : forall c, c ∈ cs -> root c < st_next s).
  { intros c Hc. eapply kids_below; [exact Hg|exact Hi|]. rewrite Hk. apply elem_of_list_fmap. eauto. }
  assert (Hxs' : forall c, c ∈ cs' -> forall x, x ∈ doc_order c -> x ∈ xs <-> st_next s <= x).
  { intros c Hc x Hx. apply Hxs. rewrite doc_order_T. constructor. apply elem_doc_orders. eauto. }
  cbn [prune]. f_equal. clear Ht' Hk Hk' Hi Hi' Hn2 Hxs.
  induction cs as [|c cs IHcs] in cs', El, IH, Hcs, Hcs', Hr, Hxs' |- *.
  - cbn [map app] in El. subst l. clear Hcs'. induction cs' as [|c cs' IHcs] in Hl, Hxs' |- *; [reflexivity|].
    cbn [flat_map]. rewrite decide_True.
    + apply IHcs.
      * intros c0 Hc0. apply Hl. cbn [map]. constructor. assumption.
      * intros c0 Hc0. apply Hxs'. constructor. assumption.
    + apply (Hxs' c); [constructor|apply root_in_doc_order|]. apply Hl. constructor.
  - destruct cs' as [|c' cs']; [discriminate|]. cbn [map app] in El. injection El as E1 E2.
    apply list.Forall_cons in IH as [IHc IH]. apply list.Forall_cons in Hcs as [Hc Hcs]. apply list.Forall_cons in Hcs' as [Hc' Hcs'].
    cbn [flat_map]. rewrite decide_False.
    + cbn [app]. f_equal.
      * apply IHc; [assumption|congruence|]. apply Hxs'. constructor.
      * apply IHcs; auto; intros c0 Hc0; [apply Hr|apply Hxs']; constructor; assumption.
    + intros Hin. apply (Hxs' c') in Hin; [|constructor|apply root_in_doc_order].
      pose proof (Hr c ltac:(constructor)). congruence || lia.
Qed.

(** ** The whole pass *)
Definition added_ids (s : st) (t : tree) : list id := List.filter (fun x => Nat.leb (st_next s) x) (doc_order t).
Lemma extends_manuscript s s' t : manuscript s t -> extends s s' ->
  exists t', manuscript s' t' /\ root t' = root t /\ prune (added_ids s t') t' = t /\
    forall x, x ∈ added_ids s t' -> exists n, st_heap s' !! x = Some n /\ toc_class (n_cls n).
Proof.
  intros Hm E. pose proof (manuscript_good _ _ Hm) as Hg. destruct (ms_document _ _ Hm) as [Ht Hnd].
  destruct (ex_good _ _ E) as [Hf' Hc'].
  inversion Ht as [? i n cs Hi Hp Hk Hcs]; subst.
  destruct (ex_old _ _ E _ _ Hi) as (n' & Hn' & _ & Ep & _).
  destruct (tree_exists _ _ _ Hc' Hn') as (t' & Er & Ht').
  rewrite Ep, Hp in Ht'. exists t'.
  assert (Hxs : forall x, x ∈ doc_order t' -> x ∈ added_ids s t' <-> st_next s <= x).
  { intros x Hx. unfold added_ids. rewrite elem_of_list_In, filter_In, Nat.leb_le, <- elem_of_list_In. tauto. }
  split; [|split; [assumption|split]].
  - split; [assumption|assumption|]. split; [assumption|]. eapply tree_at_nodup; eassumption.
  - eapply extends_tree; eassumption.
  - intros x Hx. assert (Hd : x ∈ doc_order t').
    { unfold added_ids in Hx. rewrite elem_of_list_In, filter_In, <- elem_of_list_In in Hx. tauto. }
    destruct (tree_at_in _ _ _ _ Ht' Hd) as (m & Hm'). exists m. split; [assumption|].
    apply (ex_new _ _ E x m); [|assumption]. apply Hxs; assumption.
Qed.

Definition toc_inv (toc : id) (s0 : st) (cur : option id) (s : st) : Prop :=
  extends s0 s /\ is_Some (st_heap s !! toc) /\ forall p, cur = Some p -> is_Some (st_heap s !! p).
Lemma toc_step fuel toc s0 acc i s s' acc' n :
  toc_inv toc s0 acc s -> st_heap s !! i = Some n -> sec_cond n = true -> toc_body fuel toc acc i s = (s', Ok acc') ->
  toc_inv toc s0 acc' s' /\ (exists n', st_heap s' !! i = Some n' /\ sec_cond n' = true) /\
  forall stk l, yields sec_cond (st_heap s) stk l -> yields sec_cond (st_heap s') stk l.
Proof.
  intros (E & Ht & Hcur) Hi Hsec H. pose proof (ex_good _ _ E) as Hg.
  destruct (toc_body_ok _ _ _ _ _ _ _ _ Hg Ht Hcur Hi Hsec H) as (p & sub & text & A & B).
  split; [|split].
  - split; [eapply extends_added; eassumption|]. split; [eapply added_some; eassumption|].
    intros q Hq. eapply body_case_some; eassumption.
  - pose proof (ad_old _ _ _ _ _ _ A i (proj1 Hg _ _ Hi)) as Hi'. rewrite Hi in Hi'.
    eexists. split; [exact Hi'|]. destruct (decide (i = p)); exact Hsec.
  - intros stk l. eapply added_yields; eassumption.
Qed.
Lemma toc_fold_inv fuel toc s0 : forall l acc s s' acc',
  toc_inv toc s0 acc s -> (forall x, x ∈ l -> is_section (st_heap s0) x = true) ->
  foldM (toc_body fuel toc) acc l s = (s', Ok acc') -> toc_inv toc s0 acc' s'.
Proof.
  induction l as [|x l IH]; intros acc s s' acc' HI Hsec H; [apply ret_ok in H as [-> ->]; assumption|].
  cbn [foldM] in H. apply bind_ok in H as (s1 & a1 & H1 & H).
  assert (Hx : is_section (st_heap s0) x = true) by (apply Hsec; constructor).
  unfold is_section in Hx. destruct (st_heap s0 !! x) as [n0|] eqn:E0; [|discriminate].
  destruct (ex_old _ _ (proj1 HI) _ _ E0) as (n & Hn & Ec & _).
  eapply IH; [| |exact H].
  - eapply toc_step; [exact HI|exact Hn| |exact H1]. unfold sec_cond, cond_class. congruence.
  - intros y Hy. apply Hsec. constructor. assumption.
Qed.

Definition sections_in (h : gmap id node) (l : list id) : list id := List.filter (is_section h) l.
(** The first marker is kept, the others are cut off, and the section entries are
    computed one after the other in document order. *)
Theorem make_toc_ok fuel s t s' (u : unit) :
  manuscript s t -> make_toc fuel (root t) s = (s', Ok u) ->
  let xs := tail (contents_in (st_heap s) (doc_order t)) in
  exists s1, pruned s s1 xs /\ manuscript s1 (prune xs t) /\ extends s1 s' /\
  match head (contents_in (st_heap s) (doc_order t)) with
  | None => s' = s1
  | Some toc => is_Some (st_heap s1 !! toc) /\ exists cur,
      foldM (toc_body fuel toc) (Some toc) (sections_in (st_heap s1) (doc_order (prune xs t))) s1 = (s', Ok cur)
  end.
Proof.
  intros Hm H xs. unfold make_toc in H. apply bind_ok in H as (s1 & toc & H1 & H).
  destruct (toc_pick_ok _ _ _ _ _ Hm H1) as (-> & P & Hm1). fold xs in P, Hm1. exists s1.
  split; [assumption|]. split; [assumption|].
  assert (Hg1 : good s1) by apply P.
  destruct (head (contents_in (st_heap s) (doc_order t))) as [toc|] eqn:Eh.
  - apply bind_ok in H as (s2 & cur & H2 & H). apply ret_ok in H as [-> _].
    assert (Htoc : is_Some (st_heap s1 !! toc)).
    { assert (Hin : toc ∈ doc_order t).
      { destruct (contents_in (st_heap s) (doc_order t)) as [|y ys] eqn:Ec; [discriminate|]. injection Eh as ->.
        assert (Hi : In toc (contents_in (st_heap s) (doc_order t))) by (rewrite Ec; left; reflexivity).
        apply filter_In in Hi as [Hi _]. apply elem_of_list_In. assumption. }
      destruct (manuscript_some _ _ _ Hm Hin) as [m Hm0]. destruct (pr_old _ _ _ P _ _ Hm0) as (m' & ? & _). eauto. }
    unfold for_traverse in H2. rewrite <- (prune_root xs t) in H2.
    assert (HI : toc_inv toc s1 (Some toc) s1).
    { split; [apply extends_refl; assumption|]. split; [assumption|]. intros p [= <-]. assumption. }
    apply (yields_loop _ _ (toc_inv toc s1)) with (l := sections_in (st_heap s1) (doc_order (prune xs t))) in H2.
    + split; [|split; [assumption|eauto]].
      assert (HI2 : toc_inv toc s1 cur s2).
      { eapply toc_fold_inv; [exact HI| |exact H2]. intros x Hx. unfold sections_in in Hx.
        rewrite elem_of_list_In, filter_In in Hx. tauto. }
      apply HI2.
    + intros acc i s3 s3' acc' n HI3 Hn Hc Hb. eapply toc_step; eassumption.
    + destruct (ms_document _ _ Hm1) as [Ht1 _].
      pose proof (yields_tree sec_cond _ _ _ Ht1) as Y.
      replace (sections_in (st_heap s1) (doc_order (prune xs t))) with (List.filter (holds sec_cond (st_heap s1)) (doc_order (prune xs t))); [exact Y|].
      apply filter_ext. intros x. reflexivity.
    + assumption.
  - apply ret_ok in H as [-> _]. split; [apply extends_refl; assumption|reflexivity].
Qed.
