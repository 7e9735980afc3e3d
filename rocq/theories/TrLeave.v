(** External trees and leave methods. *)
From Verif Require Export TrMain.
From Verif Require Import NodeOps Monad.

Lemma quiet_heap {X} (m : M X) s s' r : quiet m -> m s = (s', r) -> st_heap s' = st_heap s /\ st_next s' = st_next s.
Proof.
  intros H E. destruct (ch_run _ _ _ _ _ (H (fun _ _ => False)) E) as (Hn & _ & Hh). split; [|assumption].
  apply map_eq. intros j. specialize (Hh j). destruct (st_heap s !! j) as [n|], (st_heap s' !! j) as [n'|]; try contradiction; [|reflexivity].
  destruct Hh as (E1 & E2 & E3 & E4). f_equal. destruct n as [c p cs m0], n' as [c' p' cs' m']. cbn in *. subst. f_equal.
  apply map_eq. intros a. apply E4. auto.
Qed.
Lemma good_heap s s' : st_heap s' = st_heap s -> st_next s' = st_next s -> good s -> good s'.
Proof. intros E1 E2 [H1 H2]. split; [unfold fresh_ok; rewrite E1, E2; exact H1|rewrite E1; assumption]. Qed.

(** ** Externals *)

Definition titled (s0 s : st) (j : id) : Prop :=
  exists t, root t = j /\ document (st_heap s) t /\
    forall x, x ∈ doc_order t -> st_heap s0 !! x = None /\ exists n, st_heap s !! x = Some n /\ title_node (n_cls n) (n_attrs n).
Lemma titled_heap s0 s s' j : st_heap s' = st_heap s -> titled s0 s j -> titled s0 s' j.
Proof. intros E (t & H). exists t. rewrite E. assumption. Qed.
Lemma title_mb h x n : h !! x = Some n -> title_node (n_cls n) (n_attrs n) -> is_mb h x = false.
Proof. intros Hx [[E|[E|E]] _]; unfold is_mb; rewrite Hx; apply bool_decide_eq_false_2; congruence. Qed.
Lemma titled_clean s0 s j : good s -> titled s0 s j ->
  exists t, root t = j /\ tree_at (st_heap s) None t /\ NoDup (doc_order t) /\ clean s t /\ mbt s t = false /\
    forall x, x ∈ doc_order t -> st_heap s0 !! x = None.
Proof.
  intros Hg (t & Hr & [Ht Hnd] & H). exists t. split; [assumption|]. split; [assumption|]. split; [assumption|].
  assert (Hk : forall x n y, x ∈ doc_order t -> st_heap s !! x = Some n -> y ∈ kids n -> is_mb (st_heap s) y = false).
  { intros x n y Hx Hn Hy. assert (Hyt : y ∈ doc_order t).
    { clear - Ht Hx Hn Hy. induction Ht as [p i m cs Hi Hp Hk Hcs IH] using tree_at_ind'. rewrite doc_order_T in *. apply elem_of_cons in Hx as [->|Hx].
      - assert (m = n) as -> by congruence. rewrite Hk in Hy. apply elem_of_list_fmap in Hy as (u & -> & Hu). constructor 2.
        apply elem_doc_orders. exists u. split; [assumption|]. destruct u. constructor.
      - apply elem_doc_orders in Hx as (u & Hu & Hx). constructor 2. apply elem_doc_orders. exists u. split; [assumption|].
        rewrite list.Forall_forall in IH. apply IH; assumption. }
    destruct (H y Hyt) as (_ & m & Hm & Htn). exact (title_mb _ _ _ Hm Htn). }
  split.
  - intros x Hx. destruct (H x Hx) as (_ & n & Hn & Htn). unfold fl. rewrite Hn. destruct Htn as (_ & -> & -> & _).
    split; [reflexivity|]. split; [reflexivity|]. exists n. split; [reflexivity|]. split.
    + intros _. apply list.Forall_forall. intros y Hy. exact (Hk x n y Hx Hn Hy).
    + intros _. assert (E : map (is_mb (st_heap s)) (kids n) = map (fun _ => false) (kids n)).
      { apply map_ext_in. intros y Hy. apply elem_of_list_In in Hy. exact (Hk x n y Hx Hn Hy). }
      rewrite E. unfold mb_alone. intros Hl. exfalso. clear - Hl. induction (kids n) as [|y l IH]; [discriminate|].
      destruct l; [discriminate|]. apply IH. exact Hl.
  - split; [|intros x Hx; apply H; assumption]. unfold mbt. destruct (H (root t)) as (_ & n & Hn & Htn); [destruct t; constructor|].
    exact (title_mb _ _ _ Hn Htn).
Qed.
(** What we need of the translation of external trees. *)
Definition ext_fine (ext : id -> M (list tok)) : Prop := forall s0 s j s' e,
  good s -> (forall y, old s0 y -> old s y) -> titled s0 s j -> ext j s = (s', Ok e) ->
  bal e /\ forall y, old s0 y -> must s' y = must s y /\ dot s' y = dot s y.
Lemma nest_ext A tc ext f : tc_ok A tc -> (forall i, tpres A (ext i)) -> nest_ok A tc ext f ->
  ext_fine (run_translator tc ext f).
Proof.
  intros Htc Hext HN s0 s j s' e Hg Ho Ht H. apply (run_renders tc ext f A Htc) in H as (t & Hr & H); [|reflexivity].
  apply titled_clean in Ht as (t' & Hr' & Hta & Hnd & Hcl & Hmb & Hnew); [|assumption].
  assert (t' = t) as ->. { eapply (proj1 (renders_tree tc ext f A Htc Hext)); [exact H|exact Hg|exact Hta|congruence]. }
  apply (proj1 (nest_main A tc ext f Htc Hext HN)) in H. destruct (H None) as (H1 & H2 & H3 & _); try assumption; [discriminate|].
  split; [exact (H3 Hmb)|]. intros y Hy. assert (y ∉ doc_order t) by (intros Hin; apply Hnew in Hin; destruct Hy; congruence).
  split; [apply H2|apply H1]; auto.
Qed.
Lemma omap_ext_app l : forall r, omap (fun x => match x with KExternal j => Some j | _ => None end) (l ++ r) =
  omap (fun x => match x with KExternal j => Some j | _ => None end) l ++ omap (fun x => match x with KExternal j => Some j | _ => None end) r.
Proof. intros r. apply omap_app. Qed.
Lemma item_toks_none ext l : forall s s' t, item_toks ext l s = (s', Ok t) -> exts (KBatchDefer l) = [] -> s' = s.
Proof.
  induction l as [|c l IH]; intros s s' t H E; cbn [item_toks] in H.
  - apply ret_ok in H as [-> _]. reflexivity.
  - apply bind_ok in H as (s1 & a & Ha & H). apply bind_ok in H as (s2 & b & Hb & H). apply ret_ok in H as [-> _].
    destruct c; cbn [make_text] in Ha; try discriminate Ha; try discriminate E; apply ret_ok in Ha as [-> _]; eapply IH; eassumption.
Qed.
Lemma item_toks_one ext l j : forall s s' t, item_toks ext l s = (s', Ok t) -> exts (KBatchDefer l) = [j] -> exists e, ext j s = (s', Ok e).
Proof.
  induction l as [|c l IH]; intros s s' t H E; [discriminate E|]. cbn [item_toks] in H.
  apply bind_ok in H as (s1 & a & Ha & H). apply bind_ok in H as (s2 & b & Hb & H). apply ret_ok in H as [-> _].
  destruct c; cbn [make_text] in Ha; try discriminate Ha; try (apply ret_ok in Ha as [-> _]; eapply IH; eassumption).
  cbn in E. injection E as -> E. apply item_toks_none in Hb; [|exact E]. subst s2. eauto.
Qed.
Lemma open_none ext c s s1 op : shape_ok c = true -> open_toks ext c s = (s1, Ok op) -> exts c = [] -> s1 = s.
Proof.
  intros Hs H E. destruct c; try discriminate Hs; cbn [open_toks make_text] in H; try (apply ret_ok in H as [-> _]; reflexivity).
  eapply item_toks_none; eassumption.
Qed.
Lemma open_one ext c s s1 op j : shape_ok c = true -> open_toks ext c s = (s1, Ok op) -> exts c = [j] -> exists e, ext j s = (s1, Ok e).
Proof.
  intros Hs H E. destruct c; try discriminate Hs; cbn [open_toks make_text] in H; try discriminate E.
  eapply item_toks_one; eassumption.
Qed.
(** The externals of a command are titles made since [s0]. *)
Definition exts_fine (s0 s : st) (c : cmd) : Prop := exts c = [] \/ exists j, exts c = [j] /\ titled s0 s j.
Lemma open_fine ext s0 sv c s1 op : ext_fine ext -> good sv -> (forall y, old s0 y -> old sv y) ->
  shape_ok c = true -> exts_fine s0 sv c -> open_toks ext c sv = (s1, Ok op) ->
  (forall S, run op S = ceff c S) /\ (forall y, old s0 y -> must s1 y = must sv y /\ dot s1 y = dot sv y).
Proof.
  intros He Hg Ho Hs Hx H. split.
  - eapply (ceff_toks (fun x => x = sv)); [exact Hs|exact H|reflexivity| |].
    + destruct Hx as [->|(j & -> & _)]; cbn; lia.
    + intros j Hj sa sb e -> Hj'. destruct Hx as [E|(j' & E & Ht)]; rewrite E in Hj; [inversion Hj|]. apply elem_of_list_singleton in Hj as ->.
      eapply (He s0 sv j' sb e); eassumption.
  - destruct Hx as [E|(j & E & Ht)].
    + apply open_none in H; [subst; auto|assumption..].
    + destruct (open_one _ _ _ _ _ _ Hs H E) as [e Hj]. eapply (He s0 sv j s1 e); eassumption.
Qed.

(** ** Leave methods *)

Definition mild (lv : tst -> M (cmd * tst)) : Prop := forall d s s' k u',
  lv (MkT [] [d]) s = (s', Ok (k, u')) -> st_heap s' = st_heap s /\ forall S, run (static_toks k) S = run (static_toks d) S.
Lemma leave_node_inv d s s' k u : leave_node (MkT [] [d]) s = (s', Ok (k, u)) -> s' = s /\ k = d /\ u = MkT [] [].
Proof. unfold leave_node. cbn. intros H. injection H as <- <- <-. auto. Qed.
Lemma mild_node : mild leave_node.
Proof. intros d s s' k u H. apply leave_node_inv in H as (-> & -> & _). auto. Qed.
Lemma flat_insert k x l S : bal (static_toks x) -> run (flat_map static_toks (insert_nth k x l)) S = run (flat_map static_toks l) S.
Proof.
  intros H. unfold insert_nth. rewrite flat_map_app. cbn [flat_map]. rewrite bal_insert by assumption.
  rewrite <- flat_map_app, take_drop. reflexivity.
Qed.
Lemma flat_insert_last x l S : bal (static_toks x) -> run (flat_map static_toks (insert_before_last x l)) S = run (flat_map static_toks l) S.
Proof.
  intros H. unfold insert_before_last. destruct (rev l) as [|y r] eqn:E.
  - apply (f_equal (@rev _)) in E. rewrite rev_involutive in E. subst l. cbn. rewrite app_nil_r. apply H.
  - apply (f_equal (@rev _)) in E. rewrite rev_involutive in E. subst l. cbn [rev]. rewrite !flat_map_app. cbn [flat_map].
    rewrite app_nil_r. apply bal_insert. assumption.
Qed.
Lemma items_of_inv c s s' l : items_of c s = (s', Ok l) -> s' = s /\ (c = KBatch l \/ c = KBatchDefer l).
Proof. destruct c; cbn; intros H; try discriminate H; injection H as <- <-; auto. Qed.
Lemma insert_info_inv k x r s s' k' u' :
  insert_info k x r s = (s', Ok (k', u')) -> static r.1 = true -> bal (static_toks x) ->
  s' = s /\ u' = r.2 /\ forall S, run (static_toks k') S = run (static_toks r.1) S.
Proof.
  unfold insert_info. intros H Hst Hb. apply bind_ok in H as (s1 & l & Hl & H). apply items_of_inv in Hl as [-> [E|E]]; rewrite E in Hst |- *; [|discriminate Hst].
  apply ret_ok in H as [-> H]. injection H as -> ->. split; [reflexivity|]. split; [reflexivity|]. intros S. cbn [static_toks]. destruct k; [apply flat_insert|apply flat_insert_last]; assumption.
Qed.
Lemma bal_icon ic : bal (static_toks (hr_info_zone_icon ic)).
Proof. exact (eff_icon ic). Qed.
Lemma bal_number x y : bal (static_toks (hr_info_zone_number x y)).
Proof. exact (eff_number x y). Qed.
Lemma bal_halmos : bal (static_toks halmos).
Proof. intros S. lazy. reflexivity. Qed.
Lemma leave_abstract_mild i d s s' k u' : leave_abstract i (MkT [] [d]) s = (s', Ok (k, u')) ->
  st_heap s' = st_heap s /\ forall S, run (static_toks k) S = run (static_toks d) S.
Proof.
  unfold leave_abstract. intros H. apply bind_ok in H as (s1 & kw & H1 & H). apply bind_ok in H as (s2 & ms & H2 & H).
  apply bind_ok in H as (s3 & [d' u] & H3 & H). apply leave_node_inv in H3 as (-> & -> & ->). apply ret_ok in H as [-> H]. injection H as -> ->.
  apply (quiet_heap _ _ _ _ (q_get_strs _ _)) in H1 as [H1 _]. apply (quiet_heap _ _ _ _ (q_get_strs _ _)) in H2 as [H2 _].
  split; [congruence|]. intros S. cbn [fst]. cbn [static_toks]. rewrite !flat_map_app. cbn [flat_map]. rewrite app_nil_r.
  rewrite run_app. replace (run _ S) with (Some S); [rewrite run_app; replace (run _ S) with (Some S); [reflexivity|]|].
  - destruct ms; [reflexivity|]. cbn [flat_map]. rewrite app_nil_r. symmetry. apply bal_openclose; [reflexivity|apply bal_raw].
  - destruct kw; [reflexivity|]. cbn [flat_map]. rewrite app_nil_r. symmetry. apply bal_openclose; [reflexivity|apply bal_raw].
Qed.
Lemma leave_proof_mild d s s' k u' : static d = true -> leave_proof (MkT [] [d]) s = (s', Ok (k, u')) ->
  st_heap s' = st_heap s /\ forall S, run (static_toks k) S = run (static_toks d) S.
Proof.
  unfold leave_proof. intros Hst H. apply bind_ok in H as (s1 & [d' u] & H1 & H). apply leave_node_inv in H1 as (-> & -> & ->).
  apply bind_ok in H as (s2 & l & Hl & H). apply items_of_inv in Hl as [-> [E|E]]; cbn in E; subst d; [|discriminate Hst].
  apply ret_ok in H as [-> H]. injection H as -> ->. split; [reflexivity|]. intros S. cbn [static_toks]. apply flat_insert_last, bal_halmos.
Qed.
Lemma flag_inv i a s s' b : flag i a s = (s', Ok b) -> s' = s /\ b = fl a s i.
Proof.
  unfold flag, fl. intros H. apply bind_ok in H as (s1 & n & H1 & H). apply get_node_ok in H1 as [-> H1]. apply ret_ok in H as [-> ->].
  rewrite H1. auto.
Qed.
Lemma leave_paragraph_inv i d s s' k u' : static d = true -> leave_paragraph i (MkT [] [d]) s = (s', Ok (k, u')) ->
  s' = s /\ u' = MkT [] [] /\ static k = true /\ forall S, run (static_toks k) S = run ((if must s i then [TClose pt] else []) ++ static_toks d) S.
Proof.
  unfold leave_paragraph. intros Hst H. apply bind_ok in H as (s1 & [d' u] & H1 & H). apply leave_node_inv in H1 as (-> & -> & ->).
  apply bind_ok in H as (s2 & m & Hm & H). apply flag_inv in Hm as [-> ->]. destruct (must s i).
  - apply bind_ok in H as (s3 & l & Hl & H). apply items_of_inv in Hl as [-> [E|E]]; cbn in E; subst d; [|discriminate Hst].
    apply ret_ok in H as [-> H]. injection H as -> ->. split; [reflexivity|]. split; [reflexivity|]. split; [exact Hst|]. intros S. reflexivity.
  - apply ret_ok in H as [-> H]. injection H as -> ->. auto.
Qed.
Lemma mild_icon lv i k : (forall d s s' k u', static d = true -> lv (MkT [] [d]) s = (s', Ok (k, u')) ->
    static k = true /\ st_heap s' = st_heap s /\ forall S, run (static_toks k) S = run (static_toks d) S) ->
  forall d s s' kk u', static d = true ->
  (let! r := lv (MkT [] [d]) in let! ic := icon_of i in insert_info k (hr_info_zone_icon ic) r) s = (s', Ok (kk, u')) ->
  st_heap s' = st_heap s /\ forall S, run (static_toks kk) S = run (static_toks d) S.
Proof.
  intros Hl d s s' kk u' Hst H. apply bind_ok in H as (s1 & [d' u] & H1 & H). apply (Hl _ _ _ _ _ Hst) in H1 as (Hk & E1 & R1).
  apply bind_ok in H as (s2 & ic & H2 & H). apply (quiet_heap _ _ _ _ (q_icon_of _)) in H2 as [E2 _].
  apply insert_info_inv in H as (-> & _ & R2); [|exact Hk|apply bal_icon]. split; [congruence|]. intros S. rewrite R2. apply R1.
Qed.
Lemma node_static d s s' k u' : static d = true -> leave_node (MkT [] [d]) s = (s', Ok (k, u')) ->
  static k = true /\ st_heap s' = st_heap s /\ forall S, run (static_toks k) S = run (static_toks d) S.
Proof. intros Hst H. apply leave_node_inv in H as (-> & -> & _). auto. Qed.
(** Base leave methods of nodes other than paragraphs and math blocks. *)
Lemma leave_mild m i d s s' k u' : static d = true -> m <> CMathBlock -> must s i = false ->
  leave_method m i (MkT [] [d]) s = (s', Ok (k, u')) -> st_heap s' = st_heap s /\ forall S, run (static_toks k) S = run (static_toks d) S.
Proof.
  intros Hst Hne Hm H. destruct m; try congruence; cbn [leave_method] in H;
  lazymatch type of H with
  | leave_node _ _ = _ => exact (mild_node _ _ _ _ _ H)
  | leave_abstract _ _ _ = _ => eapply leave_abstract_mild; exact H
  | leave_proof _ _ = _ => exact (leave_proof_mild _ _ _ _ _ Hst H)
  | leave_paragraph _ _ _ = _ => apply leave_paragraph_inv in H as (-> & _ & _ & R); [|assumption]; rewrite Hm in R; auto
  end.
Qed.
Lemma hleave_mild f m i d s s' k u' : static d = true -> m <> CMathBlock -> m <> CMath -> must s i = false ->
  hleave_method f m i (MkT [] [d]) s = (s', Ok (k, u')) -> st_heap s' = st_heap s /\ forall S, run (static_toks k) S = run (static_toks d) S.
Proof.
  intros Hst Hne Hne2 Hm H. destruct m; try congruence; cbn [hleave_method] in H;
  lazymatch type of H with
  | leave_method ?m _ _ _ = _ => apply (leave_mild m i d s s' k u'); auto; discriminate
  | hl_author _ _ _ = _ => eapply (mild_icon _ _ _ node_static); [exact Hst|exact H]
  | hl_icon1 _ _ _ = _ => eapply (mild_icon _ _ _ node_static); [exact Hst|exact H]
  | hl_paragraph _ _ _ = _ => idtac
  | hl_step _ _ _ _ = _ => idtac
  end.
  - unfold hl_paragraph in H. apply bind_ok in H as (s1 & [d' u] & H1 & H). apply leave_paragraph_inv in H1 as (-> & -> & Hk & R1); [|assumption].
    rewrite Hm in R1. apply bind_ok in H as (s2 & ic & H2 & H). apply (quiet_heap _ _ _ _ (q_icon_of _)) in H2 as [E2 _].
    apply insert_info_inv in H as (-> & _ & R2); [|exact Hk|apply bal_icon]. split; [congruence|]. intros S. rewrite R2. apply R1.
  - unfold hl_step in H. apply bind_ok in H as (s1 & [d' u] & H1 & H). apply leave_node_inv in H1 as (-> & -> & ->).
    apply bind_ok in H as (s2 & ic & H2 & H). apply (quiet_heap _ _ _ _ (q_full_number _ _)) in H2 as [E2 _].
    apply insert_info_inv in H as (-> & _ & R2); [|exact Hst|apply bal_number]. auto.
Qed.
