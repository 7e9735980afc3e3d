(** The marks of a whole document. *)
From Verif Require Export TrMarks.
From Verif Require Import NodeOps Monad.

(** ** The whole output *)

(** Texts of nodes that are not in [ob] (those of the titles made by the translator) are left out. *)
Definition kept (ob : id -> bool) (m : mark) : bool := match m with MText i _ => ob i | _ => true end.
Definition keep (ob : id -> bool) (l : list mark) : list mark := List.filter (kept ob) l.
Lemma keep_app ob a b : keep ob (a ++ b) = keep ob a ++ keep ob b.
Proof. apply List.filter_app. Qed.
Definition ext_marks (ext : id -> M (list tok)) : Prop := forall ob s0 s j s' e,
  good s -> (forall y, old s0 y -> old s y) -> (forall y, ob y = true -> old s0 y) -> titled s0 s j -> ext j s = (s', Ok e) -> keep ob (marks e) = [].
Lemma item_none_marks ext l : forall s s' t, item_toks ext l s = (s', Ok t) -> exts (KBatchDefer l) = [] -> marks t = flat_map mk1 l.
Proof.
  induction l as [|c l IH]; intros s s' t H E; cbn [item_toks] in H.
  - apply ret_ok in H as [_ ->]. reflexivity.
  - apply bind_ok in H as (s1 & a & Ha & H). apply bind_ok in H as (s2 & b & Hb & H). apply ret_ok in H as [_ ->].
    assert (Hc : forall j, c <> KExternal j) by (intros j ->; discriminate E).
    rewrite marks_app. cbn [flat_map]. rewrite (mk1_text _ _ _ _ _ Ha Hc). f_equal. eapply IH; [exact Hb|].
    cbn in E |- *. destruct c; try exact E. destruct (Hc root eq_refl).
Qed.
Lemma item_marks ext ob l : forall s s' t j, item_toks ext l s = (s', Ok t) -> exts (KBatchDefer l) = [j] ->
  (forall s2 e, ext j s = (s2, Ok e) -> keep ob (marks e) = []) -> keep ob (marks t) = keep ob (flat_map mk1 l).
Proof.
  induction l as [|c l IH]; intros s s' t j H E Hj; cbn [item_toks] in H.
  - discriminate E.
  - apply bind_ok in H as (s1 & a & Ha & H). apply bind_ok in H as (s2 & b & Hb & H). apply ret_ok in H as [_ ->].
    rewrite marks_app, keep_app. cbn [flat_map]. rewrite keep_app.
    assert (Hc : (exists x, c = KExternal x) \/ ~ exists x, c = KExternal x).
    { destruct c; try (right; intros (x & E'); discriminate E'). left. eauto. }
    destruct Hc as [[x ->]|Hc].
    + cbn in E. injection E as -> E. cbn [make_text] in Ha. rewrite (Hj _ _ Ha). cbn [mk1 app].
      change (keep ob (@nil mark)) with (@nil mark). cbn [app]. f_equal. eapply item_none_marks; [exact Hb|exact E].
    + rewrite (mk1_text _ _ _ _ _ Ha) by (intros x ->; eauto). f_equal.
      assert (s1 = s) as ->.
      { destruct c; cbn [make_text] in Ha; try discriminate Ha; try (apply ret_ok in Ha as [-> _]; reflexivity). destruct Hc; eauto. }
      eapply IH; [exact Hb| |exact Hj]. cbn in E |- *. destruct c; try exact E. destruct Hc; eauto.
Qed.
Lemma open_marks ext ob s sv c s1 op : ext_marks ext -> good sv -> (forall y, old s y -> old sv y) -> (forall y, ob y = true -> old s y) ->
  shape_ok c = true -> exts_fine s sv c -> open_toks ext c sv = (s1, Ok op) -> keep ob (marks op) = keep ob (cmarks c).
Proof.
  intros He Hg Hold Ho Hs Hx H. destruct c; try discriminate Hs; cbn [open_toks cmarks] in *.
  all: lazymatch type of H with make_text _ _ _ = _ => f_equal; eapply mk1_text; [exact H|discriminate] | _ => idtac end.
  destruct Hx as [E|(j & E & Ht)].
  + f_equal. eapply item_none_marks; eassumption.
  + eapply item_marks; [exact H|exact E|]. intros s2 e Hj. eapply He; eassumption.
Qed.
(** Node [i] is a reference or a citation of [t]. *)
Definition refers (h : gmap id node) (i t : id) : Prop := exists n, h !! i = Some n /\
  (dispatch visit_defined (n_cls n) = Some CReference /\ aval h i a_target = VNode t \/
   dispatch visit_defined (n_cls n) = Some CCite /\ exists ts, aval h i a_targets = VNodes ts /\ t ∈ ts).
Lemma cite_marks_eq h h' l ts : (forall t, t ∈ ts -> aval h' t a_label = aval h t a_label) -> forall k, cite_marks h' l ts k = cite_marks h l ts k.
Proof.
  induction ts as [|t ts IH]; intros H k; [reflexivity|]. cbn [cite_marks]. unfold link, anchor. rewrite (H t) by constructor.
  rewrite IH; [reflexivity|]. intros x Hx. apply H. constructor 2. assumption.
Qed.
Lemma node_marks_eq hl h h' i : (n_cls <$> h' !! i) = (n_cls <$> h !! i) -> (forall a, a ∉ trh_attrs \/ a = a_text -> aval h' i a = aval h i a) ->
  (forall t, refers h i t -> aval h' t a_label = aval h t a_label) ->
  node_marks hl h' i = node_marks hl h i.
Proof.
  intros Hc Ha H1. unfold node_marks. destruct (h !! i) as [n|] eqn:En, (h' !! i) as [n'|] eqn:En'; try discriminate Hc; [|reflexivity].
  cbn in Hc. injection Hc as ->.
  assert (A1 : aval h' i a_text = aval h i a_text) by (apply Ha; auto).
  assert (A2 : forall a, a <> a_text -> a ∉ trh_attrs -> aval h' i a = aval h i a) by (intros; apply Ha; auto).
  unfold own_id, link, anchor, text_of. rewrite A1.
  rewrite (A2 a_label) by set_solver. rewrite (A2 a_lang) by set_solver. rewrite (A2 a_target) by set_solver. rewrite (A2 a_targets) by set_solver.
  rewrite (A2 a_email) by set_solver. rewrite (A2 a_doi) by set_solver. rewrite (A2 a_backlinks) by set_solver.
  destruct (dispatch visit_defined (n_cls n)) as [m|] eqn:Ed; [|reflexivity]. destruct m; try reflexivity.
  - destruct (aval h i a_target) eqn:Et; try reflexivity. rewrite H1; [reflexivity|]. exists n. auto.
  - destruct (aval h i a_targets) eqn:Et; try reflexivity.
    assert (H2 : forall t, t ∈ l -> aval h' t a_label = aval h t a_label) by (intros; apply H1; exists n; eauto 6).
    rewrite !(cite_marks_eq h h') by assumption.
    destruct l as [|x [|y l]]; try reflexivity. rewrite (H2 x) by constructor. reflexivity.
Qed.

(** The nodes that the links of a tree refer to exist. *)
Definition aimed (s : st) (t : tree) : Prop := forall x, x ∈ doc_order t ->
  old s x /\ forall y, refers (st_heap s) x y -> old s y.
Lemma aimed_tfr A s s' t : good s -> tfr A s s' -> a_target ∉ A -> a_targets ∉ A -> aimed s t -> aimed s' t.
Proof.
  intros Hg F H1 H2 H x Hx. destruct (H x Hx) as (Ho & T).
  split; [eapply tfr_old; eassumption|]. intros y (n' & Hn' & R). eapply tfr_old; [exact Hg|exact F|]. apply T.
  rewrite (tfr_aval A s s') in R by assumption. rewrite (tfr_aval A s s') in R by assumption.
  destruct Ho as [n Hn]. destruct (tfr_node _ _ _ _ _ Hg F Hn) as (n0 & Hn0 & C & _). assert (n0 = n') as -> by congruence.
  rewrite C in R. exists n. auto.
Qed.
Lemma marks_tfr hl A s s' t x : good s -> tfr A s s' -> aimed s t -> x ∈ doc_order t -> A ⊆ tr_attrs ->
  node_marks hl (st_heap s') x = node_marks hl (st_heap s) x.
Proof.
  intros Hg F H Hx HA. destruct (H x Hx) as (Ho & T). apply node_marks_eq.
  - destruct Ho as [n Hn]. destruct (tfr_node _ _ _ _ _ Hg F Hn) as (n' & Hn' & C & _). rewrite Hn, Hn'. cbn. congruence.
  - intros a Ha. eapply tfr_aval; try eassumption. intros Hin. apply HA in Hin. destruct Ha as [Ha| ->].
    + apply Ha. revert Hin. unfold tr_attrs, trh_attrs. set_solver.
    + revert Hin. unfold tr_attrs. set_solver.
  - intros y Hy. eapply tfr_aval; eauto. intros Hin. apply HA in Hin. revert Hin. unfold tr_attrs. set_solver.
Qed.

Section Main.
Context (hl : str -> str -> str) (ext : id -> M (list tok)) (f : nat).
Context (Hext : forall i, tpres tr_attrs (ext i)) (He : ext_marks ext).
Let tc := base_tc hl.
Let Htc : tc_ok tr_attrs tc.
Proof. apply base_tc_ok; set_solver. Qed.
Definition nm (s : st) (l : list id) : list mark := flat_map (node_marks hl (st_heap s)) l.
Lemma nm_tfr s s' ts l : good s -> tfr tr_attrs s s' -> Forall (aimed s) ts -> (forall x, x ∈ l -> x ∈ doc_orders ts) -> nm s' l = nm s l.
Proof using.
  intros Hg F H Hl. unfold nm. induction l as [|x l IH]; [reflexivity|]. cbn [flat_map]. f_equal; [|apply IH; intros; apply Hl; constructor 2; assumption].
  assert (Hx : x ∈ doc_orders ts) by (apply Hl; constructor). apply elem_doc_orders in Hx as (t & Ht & Hx).
  rewrite list.Forall_forall in H. eapply marks_tfr; eauto.
Qed.
Lemma marks_main :
  (forall s t h s', renders tc ext f s t h s' -> forall ob, good s -> aimed s t -> (forall y, ob y = true -> old s y) ->
     keep ob (marks h) = keep ob (nm s (doc_order t))) /\
  (forall s ts h s', renders_all tc ext f s ts h s' -> forall ob, good s -> Forall (aimed s) ts -> (forall y, ob y = true -> old s y) ->
     keep ob (marks h) = keep ob (nm s (doc_orders ts))).
Proof using Hext He Htc.
  apply renders_ind2.
  - intros s i cs c sv n s1 op ins s2 cl s3 Hv Hn Hk Ho Hrs IH Hcl ob Hg Ha Hob.
    assert (Hi : old s i) by (apply Ha; constructor). destruct Hi as [ni Hi].
    pose proof (base_visit_shape _ _ _ _ _ _ Hv) as Hsh.
    cbn [tc tc_visit base_tc] in Hv. unfold base_visit in Hv. apply bind_ok in Hv as (s0 & cc & Hc & Hv). apply cls_of_ok in Hc as (-> & n0 & Hn0 & ->).
    assert (n0 = ni) as -> by congruence. destruct (dispatch visit_defined (n_cls ni)) as [m|] eqn:Ed; [|discriminate Hv].
    pose proof (tp_visit_method tr_attrs ltac:(set_solver) hl f _ _ _ _ _ Hv) as Fv. pose proof (exts_visit _ _ _ _ _ _ _ Hg Hv) as Hx.
    destruct (visit_says hl f m i s sv c ni Hg Hi Ed Hv) as [S1 S2].
    assert (Hgv : good sv) by (apply Fv; assumption).
    pose proof (tp_open_toks ext tr_attrs Hext _ _ _ _ Ho) as Fo. pose proof (tfr_trans _ _ _ _ Fv Fo) as F1.
    assert (Hg1 : good s1) by (apply F1; assumption).
    pose proof (proj2 (renders_frame tc ext f tr_attrs Htc Hext) _ _ _ _ Hrs) as F12.
    assert (Hg2 : good s2) by (apply F12; assumption).
    assert (Hacs : Forall (aimed s) cs).
    { apply list.Forall_forall. intros t Ht x Hxt. apply Ha. rewrite doc_order_T. constructor 2. apply elem_doc_orders. eauto. }
    rewrite !marks_app, !keep_app. rewrite (open_marks ext ob s sv c s1 op He Hgv (fun y => tfr_old tr_attrs s sv y Hg Fv) Hob Hsh Hx Ho). rewrite S1.
    rewrite (IH ob Hg1).
    + rewrite (nm_tfr s s1 cs) by auto. rewrite doc_order_T. unfold nm at 2. cbn [flat_map]. rewrite keep_app. f_equal.
      rewrite <- app_nil_r. f_equal. replace (marks cl) with (@nil mark); [reflexivity|]. symmetry.
      destruct (closer c) as [d|] eqn:Ec.
      * pose proof (closer_static _ _ Ec) as Hds. apply closes_some in Hcl as (k & Hl & ->).
        cbn [tc_leave base_tc tc] in Hl. unfold base_leave in Hl. apply bind_ok in Hl as (s4 & c4 & Hc4 & Hl). apply cls_of_ok in Hc4 as (-> & n4 & Hn4 & ->).
        destruct (dispatch leave_defined (n_cls n4)) as [m'|] eqn:Ed'; [|discriminate Hl].
        rewrite (leave_marks _ _ _ _ _ _ _ Hds Hl). pose proof (mute_closer c S2) as Hmc. unfold closer_toks in Hmc. rewrite Ec in Hmc. exact Hmc.
      * cbn [closes] in Hcl. destruct Hcl as [-> _]. reflexivity.
    + eapply list.Forall_impl; [exact Hacs|]. intros t Ht. eapply (aimed_tfr tr_attrs s s1); try eassumption; unfold tr_attrs; set_solver.
    + intros y Hy. eapply (tfr_old tr_attrs s s1); eauto.
  - reflexivity.
  - intros s t ts a b s1 s2 Ht IHt Hts IHts ob Hg Ha Hob. apply list.Forall_cons in Ha as [H0 H1].
    pose proof (proj1 (renders_frame tc ext f tr_attrs Htc Hext) _ _ _ _ Ht) as Ft. assert (Hg1 : good s1) by (apply Ft; assumption).
    rewrite marks_app, keep_app. rewrite (IHt ob Hg H0 Hob). rewrite (IHts ob Hg1).
    + rewrite (nm_tfr s s1 ts) by auto. rewrite <- keep_app. f_equal. unfold nm. rewrite <- flat_map_app. reflexivity.
    + eapply list.Forall_impl; [exact H1|]. intros x Hx. eapply (aimed_tfr tr_attrs s s1); try eassumption; unfold tr_attrs; set_solver.
    + intros y Hy. eapply (tfr_old tr_attrs s s1); eauto.
Qed.
End Main.

Lemma keep_nil ob l : Forall (fun m => kept ob m = false) l -> keep ob l = [].
Proof. unfold keep. induction 1 as [|m l Hm Hl IH]; [reflexivity|]. cbn. rewrite Hm. exact IH. Qed.
Lemma title_marks hl ob h x n : h !! x = Some n -> title_node (n_cls n) (n_attrs n) -> ob x = false -> Forall (fun m => kept ob m = false) (node_marks hl h x).
Proof.
  intros Hx ([E|[E|E]] & _ & _ & El) Ho; unfold node_marks; rewrite Hx, E.
  1,2: change (dispatch visit_defined CParagraph) with (Some CParagraph); change (dispatch visit_defined CSpan) with (Some CSpan); cbv beta iota;
       unfold own_id, aval; rewrite Hx, El; constructor.
  change (dispatch visit_defined CText) with (Some CText). cbv beta iota. constructor; [exact Ho|constructor].
Qed.
Lemma ext_marks_run hl ext f : (forall i, tpres tr_attrs (ext i)) -> ext_marks ext -> ext_marks (run_translator (base_tc hl) ext f).
Proof.
  intros Hext He ob s0 s j s' e Hg Hold Hob (t & Hr & [Ht Hnd] & HT) H.
  assert (Htc : tc_ok tr_attrs (base_tc hl)) by (apply base_tc_ok; set_solver).
  apply (run_renders (base_tc hl) ext f tr_attrs Htc) in H as (t' & Hr' & H); [|reflexivity].
  assert (t = t') as <-. { eapply (proj1 (renders_tree _ _ f tr_attrs Htc Hext)); [exact H|exact Hg|exact Ht|congruence]. }
  assert (Hx : forall x, x ∈ doc_order t -> ob x = false).
  { intros x Hx. apply HT in Hx as [Hx _]. destruct (ob x) eqn:E; [|reflexivity]. apply Hob in E as [n E]. congruence. }
  rewrite (proj1 (marks_main hl ext f Hext He) _ _ _ _ H ob); [|assumption| |auto].
  - apply keep_nil. unfold nm. apply list.Forall_forall. intros m Hm. apply elem_of_list_In in Hm. apply in_flat_map in Hm as (x & Hxt & Hm).
    apply elem_of_list_In in Hxt, Hm. destruct (HT x Hxt) as (_ & n & Hn & Htn). pose proof (title_marks hl ob _ _ _ Hn Htn (Hx x Hxt)) as HF.
    rewrite list.Forall_forall in HF. auto.
  - intros x Hxt. destruct (HT x Hxt) as (_ & n & Hn & Htn). split; [exists n; assumption|]. intros y (n' & Hn' & R).
    assert (n' = n) as -> by congruence. destruct Htn as ([E|[E|E]] & _); rewrite E in R; destruct R as [[R _]|[R _]]; discriminate R.
Qed.
Lemma ext_marks_translate hl f d : ext_marks (translate_ext hl d f).
Proof.
  induction d as [|d IH].
  - intros ob s0 s j s' e _ _ _ _ H. discriminate H.
  - apply (ext_marks_run hl (translate_ext hl d f) f); [|exact IH]. apply tp_translate_ext; set_solver.
Qed.
(** The marks of the output: those of the nodes of the document, in order. *)
Lemma translate_marks hl f i s s' h t ob :
  good s -> tree_at (st_heap s) None t -> root t = i -> aimed s t -> (forall y, ob y = true -> old s y) ->
  translate hl f i s = (s', Ok h) -> keep ob (marks h) = keep ob (flat_map (node_marks hl (st_heap s)) (doc_order t)).
Proof.
  intros Hg Ht Hr Ha Hob H. unfold translate in H. apply bind_ok in H as (s1 & u & H1 & H). apply info_ok in H1. subst s1.
  match type of H with run_translator _ _ _ _ ?s1 = _ => set (s1' := s1) in * end.
  apply (run_renders (base_tc hl) _ f tr_attrs) in H as (t' & Hr' & H); [|apply base_tc_ok; set_solver|reflexivity].
  assert (Hext : forall j, tpres tr_attrs (translate_ext hl f f j)) by (apply tp_translate_ext; set_solver).
  assert (Htc : tc_ok tr_attrs (base_tc hl)) by (apply base_tc_ok; set_solver).
  assert (Hg1 : good s1') by exact Hg.
  assert (t = t') as <-. { eapply (proj1 (renders_tree _ _ f tr_attrs Htc Hext)); [exact H|exact Hg1|exact Ht|congruence]. }
  exact (proj1 (marks_main hl _ f Hext (ext_marks_translate hl f f)) _ _ _ _ H ob Hg1 Ha Hob).
Qed.
