(** The handrails translator writes well nested elements. *)
From Verif Require Export TrBase.
From Verif Require Import NodeOps Monad.

Lemma tp_hvisit A hl src root f m i : a_types ∈ A -> m <> CMath -> tpres A (hvisit_method hl src root f m i).
Proof.
  intros HA Hm. destruct m; try congruence; cbn [hvisit_method]; try (apply tp_visit_method; assumption);
    unfold hv_manuscript, hv_author, hv_section, hv_abstract, hv_contents, hv_bibliography, hv_paragraph, hv_labeled, hv_subproof,
      hv_step, hv_mathblock, hv_bibitem; cbv zeta;
    repeat first [ tpstep
    | match goal with
      | |- tpres _ (visit_manuscript _) => apply tp_visit_manuscript; assumption
      | |- tpres _ (visit_author _) => apply tp_visit_author
      | |- tpres _ (visit_abstract _) => apply tp_visit_abstract
      | |- tpres _ (visit_section _ _) => apply tp_visit_section; assumption
      | |- tpres _ (visit_contents _) => apply tp_visit_contents
      | |- tpres _ (visit_bibliography _) => apply tp_visit_bibliography
      | |- tpres _ (visit_paragraph _) => apply tp_visit_paragraph
      | |- tpres _ (visit_theorem _ _) => apply tp_visit_theorem
      | |- tpres _ (visit_sketch _) => apply tp_visit_sketch
      | |- tpres _ (visit_proof _) => apply tp_visit_proof; assumption
      end ].
Qed.

(** Externals. *)
Lemma exts_batch_app a b : exts (KBatchDefer (a ++ b)) = exts (KBatchDefer a) ++ exts (KBatchDefer b).
Proof. apply omap_app. Qed.
Lemma noext_flat a mm b : noext (KBatchDefer (a ++ b)) -> flat_minimap mm -> noext (KBatchDefer (a ++ mm ++ b)).
Proof.
  unfold noext. rewrite !exts_batch_app. intros H (_ & _ & _ & ->). exact H.
Qed.
Lemma x_hv_section f i : post (hv_section f i) noext.
Proof. unfold hv_section, visit_section, wrap_heading. repeat hstep; reflexivity. Qed.
Lemma x_hv_manuscript src root f i : post (hv_manuscript src root f i) noext.
Proof.
  unfold hv_manuscript, visit_manuscript, source_div. do 4 hstep. destruct (truthy x) eqn:Ex; cbn [app]; hstep; hstep; hstep; hstep;
  destruct src; repeat first [
    match goal with
    | |- post (bind (make_minimap _ _ _ _) _) _ => eapply post_bind; [apply minimap_flat; auto|intros mm Hmm; apply post_ret; cbn [take drop app insert_nth]]
    end | hstep].
  all: try reflexivity.
  all: match goal with |- noext (KBatchDefer (?a :: ?b :: ?c :: ?d :: ?m ++ ?r)) => apply (noext_flat [a; b; c; d] m r); [reflexivity|assumption] end.
Qed.
Lemma x_hv_author f i : post (hv_author f i) noext.
Proof.
  unfold hv_author, visit_author, replace_node_with_handrails. cbv zeta. do 9 hstep; [|repeat hstep].
  destruct (truthy x), (truthy x0), (truthy x1); cbn [app]; repeat hstep; reflexivity.
Qed.
Lemma x_hv_abstract f i : post (hv_abstract f i) noext.
Proof. unfold hv_abstract, visit_abstract, wrap_heading. repeat hstep; reflexivity. Qed.
Lemma x_hv_contents f i : post (hv_contents f i) noext.
Proof.
  unfold hv_contents, visit_contents, wrap_heading. do 9 hstep.
  eapply post_bind; [apply minimap_flat; auto|]. intros mm Hmm. apply post_ret.
  apply noext_flat; [|assumption]. reflexivity.
Qed.
Lemma x_hv_bibliography f i : post (hv_bibliography f i) noext.
Proof. unfold hv_bibliography, visit_bibliography, wrap_heading. repeat hstep; cbn [insert list_insert]; repeat hstep; reflexivity. Qed.
Lemma x_hv_subproof i : post (hv_subproof i) noext.
Proof. unfold hv_subproof, subproof_handrails. repeat hstep; reflexivity. Qed.
Lemma x_hv_step f i : post (hv_step f i) noext.
Proof. unfold hv_step, step_handrails. repeat hstep; reflexivity. Qed.
Lemma x_hv_bibitem f i : post (hv_bibitem f i) noext.
Proof.
  unfold hv_bibitem. apply post_skip. intros [[text dt] back]. hstep. cbv zeta. hstep. destruct dt as [|a dt].
  - repeat hstep. reflexivity.
  - apply post_ret. reflexivity.
Qed.
Lemma replace_cmd f i add l b ca : post (replace_node_with_handrails f i add l b ca)
  (fun hr => noext (KBatchDefer hr)).
Proof. unfold replace_node_with_handrails. repeat hstep; reflexivity. Qed.
Lemma q_replace f i add l b ca : quiet (replace_node_with_handrails f i add l b ca).
Proof. unfold replace_node_with_handrails. qs. Qed.
Lemma para_items i : post (visit_paragraph i) (fun c => exists nt l, c = KBatchDefer (nt :: l) /\ noext (KBatchDefer l)).
Proof.
  unfold visit_paragraph. apply post_skip. intros nt. apply post_skip. intros f. apply post_skip. intros t. apply post_ret.
  cbn [app]. eexists _, _. split; [reflexivity|]. destruct (truthy t), f; reflexivity.
Qed.
Lemma noext_first g hr : noext (KBatchDefer hr) -> noext (KBatchDefer (map_first_classes g hr)).
Proof. destruct hr as [|[] hr]; intros H; exact H. Qed.
Lemma x_hv_paragraph f i : post (hv_paragraph f i) noext.
Proof.
  unfold hv_paragraph. cbv zeta. eapply post_bind; [apply para_items|]. intros ? (nt & l & -> & Hl). eapply post_bind; [apply replace_cmd|].
  intros hr Hr. apply post_bind_ret. apply post_ret. unfold noext. rewrite exts_batch_app, (noext_first _ _ Hr). exact Hl.
Qed.
Lemma x_hv_mathblock f i : post (hv_mathblock f i) noext.
Proof. unfold hv_mathblock, replace_node_with_handrails. cbv zeta. repeat hstep; reflexivity. Qed.
Lemma x_hv_math i : post (hv_math i) noext.
Proof. unfold hv_math, visit_math. repeat hstep; reflexivity. Qed.
Lemma labeled_fine f base ca i s sv c : (forall s', base i s = (s', Ok c) -> True) ->
  (forall sb c', base i s = (sb, Ok c') -> title_cmd s sb c') -> hv_labeled f base ca i s = (sv, Ok c) -> exts_fine s sv c.
Proof.
  intros _ Hb H. unfold hv_labeled in H. apply bind_ok in H as (s1 & c1 & H1 & H). apply Hb in H1 as (g & t & -> & Ht).
  apply bind_ok in H as (s2 & hr & H2 & H). pose proof (replace_cmd _ _ _ _ _ _ _ _ _ H2) as Hx.
  pose proof (quiet_heap _ _ _ _ (q_replace _ _ _ _ _ _) H2) as [E2 N2].
  apply bind_ok in H as (s3 & l & H3 & H). apply items_of_inv in H3 as [-> [E|E]]; [discriminate E|]. injection E as <-.
  apply ret_ok in H as [-> ->]. right. exists t. split; [|apply (titled_heap s s1); assumption].
  rewrite exts_batch_app, Hx. reflexivity.
Qed.
Lemma exts_hvisit hl src root f m i s sv c : good s -> hvisit_method hl src root f m i s = (sv, Ok c) -> exts_fine s sv c.
Proof.
  intros Hg H. destruct m; cbn [hvisit_method] in H;
  lazymatch type of H with
  | visit_method _ _ _ _ _ = _ => eapply exts_visit; eassumption
  | hv_labeled _ (visit_theorem _) _ _ _ = _ => eapply labeled_fine; [| |exact H]; [auto|]; intros; eapply title_theorem; eassumption
  | hv_labeled _ visit_sketch _ _ _ = _ => eapply labeled_fine; [| |exact H]; [auto|]; intros; eapply title_sketch; eassumption
  | hv_labeled _ visit_proof _ _ _ = _ => eapply labeled_fine; [| |exact H]; [auto|]; intros; eapply title_proof; eassumption
  | hv_section _ _ _ = _ => left; exact (x_hv_section _ _ _ _ _ H)
  | hv_manuscript _ _ _ _ _ = _ => left; exact (x_hv_manuscript _ _ _ _ _ _ _ H)
  | hv_author _ _ _ = _ => left; exact (x_hv_author _ _ _ _ _ H)
  | hv_abstract _ _ _ = _ => left; exact (x_hv_abstract _ _ _ _ _ H)
  | hv_contents _ _ _ = _ => left; exact (x_hv_contents _ _ _ _ _ H)
  | hv_bibliography _ _ _ = _ => left; exact (x_hv_bibliography _ _ _ _ _ H)
  | hv_subproof _ _ = _ => left; exact (x_hv_subproof _ _ _ _ H)
  | hv_step _ _ _ = _ => left; exact (x_hv_step _ _ _ _ _ H)
  | hv_bibitem _ _ _ = _ => left; exact (x_hv_bibitem _ _ _ _ _ H)
  | hv_paragraph _ _ _ = _ => left; exact (x_hv_paragraph _ _ _ _ _ H)
  | hv_mathblock _ _ _ = _ => left; exact (x_hv_mathblock _ _ _ _ _ H)
  | hv_math _ _ = _ => left; exact (x_hv_math _ _ _ _ H)
  end.
Qed.

(** ** Paragraphs, math blocks and math *)

Lemma hr_paragraph_cmd f i s sv c ni : hv_paragraph f i s = (sv, Ok c) -> st_heap s !! i = Some ni ->
  para_cmd (existsb (is_mb (st_heap s)) (kids ni)) c.
Proof.
  unfold hv_paragraph, visit_paragraph. intros H Hi. apply bind_ok in H as (s9 & c9 & H9 & H).
  apply bind_ok in H9 as (s1 & nt & H1 & H9). qinv H1. apply tag_node_tag_full in H1 as (id_ & cl & a & b & e & d & ->).
  apply bind_ok in H9 as (s2 & r & H2 & H9). rewrite <- E in Hi |- *. rewrite (first_mb _ _ _ _ _ H2 Hi).
  apply bind_ok in H9 as (s3 & t & H3 & H9). apply ret_ok in H9 as [-> ->].
  cbv zeta in H.
  apply bind_ok in H as (s4 & hr & H4 & H). apply bind_ok in H as (s5 & l & H5 & H). apply items_of_inv in H5 as [-> [E5|E5]]; [discriminate E5|]. injection E5 as <-.
  apply ret_ok in H as [-> ->]. cbn [app drop].
  assert (P : post (replace_node_with_handrails f i [] [] false Off) (fun hr => 
     para_cmd (match r with Some _ => true | None => false end) (KBatchDefer (map_first_classes (fun cl => if str_mem (lit "hr-hidden") cl then cl else cl ++ [lit "hr-hidden"]) hr ++
       (match r with Some _ => open_manual "p" [] false true | None => open_tag "p" [] false true end ::
       (if truthy t then [open_close "span" [lit "pg-label"] true true [TRaw (fmt_val t ++ lit ".")]] else [])))))).
  { unfold replace_node_with_handrails. destruct r, (truthy t); cbn [app]; repeat hstep; cbn [map_first_classes app drop].
    all: exists [lit "div"; lit "div"]; split; [intros S|split; [intros S|eexists; reflexivity]].
    all: try (cbn [ceff]; ieffs).
    all: repeat match goal with b : bool |- _ => destruct b end; lazy; reflexivity. }
  exact (P _ _ _ H4).
Qed.
Lemma hr_mathblock_cmd f i : post (hv_mathblock f i) mb_cmd.
Proof.
  unfold hv_mathblock, replace_node_with_handrails. cbv zeta. repeat hstep; cbn [map_first_classes app].
  all: exists [lit "div"; lit "div"]; split; [intros S; cbn [ceff]; ieffs|split; [intros S|eexists; reflexivity]].
  all: repeat match goal with b : bool |- _ => destruct b end; lazy; reflexivity.
Qed.
Lemma neat_hvisit hl src root f m i : m <> CParagraph -> m <> CMathBlock -> m <> CMath -> post (hvisit_method hl src root f m i) neat.
Proof.
  intros H1 H2 H3. destruct m; try congruence; clear H1 H2 H3; cbn [hvisit_method];
  lazymatch goal with
  | |- post (visit_method _ _ _ _) _ => apply neat_visit_method; discriminate
  | |- post (hv_labeled _ (visit_theorem _) _ _) _ => apply neat_hv_labeled, two_theorem
  | |- post (hv_labeled _ visit_sketch _ _) _ => apply neat_hv_labeled, two_sketch
  | |- post (hv_labeled _ visit_proof _ _) _ => apply neat_hv_labeled, two_proof
  | |- post (hv_section _ _) _ => apply neat_hv_section
  | |- post (hv_manuscript _ _ _ _) _ => apply neat_hv_manuscript
  | |- post (hv_author _ _) _ => apply neat_hv_author
  | |- post (hv_abstract _ _) _ => apply neat_hv_abstract
  | |- post (hv_contents _ _) _ => apply neat_hv_contents
  | |- post (hv_bibliography _ _) _ => apply neat_hv_bibliography
  | |- post (hv_subproof _) _ => apply neat_hv_subproof
  | |- post (hv_step _ _) _ => apply neat_hv_step
  | |- post (hv_bibitem _ _) _ => apply neat_hv_bibitem
  end.
Qed.
Lemma inst_fl ds s s' x b : inst ds x s = (s', Ok b) -> s' = s.
Proof. intros H. apply inst_ok in H as (-> & _). reflexivity. Qed.
Definition spans (k : nat) : list str := repeat (lit "span") k.
(** What [visit_math] does: nothing to the flags of the other nodes, and one more element is open when
    the flag is set. *)
Lemma hv_math_inv i s sv c : hv_math i s = (sv, Ok c) -> dot s i = false ->
  (forall y, must sv y = must s y) /\ (forall y, y <> i -> dot sv y = dot s y) /\ exists d, closer c = Some d /\ (exists l, d = KBatch l) /\
  if dot sv i then (forall S, ceff c S = Some (spans 2 ++ S)) /\ moves (closer_toks c) (spans 2) (spans 1)
  else (forall S, ceff c S = Some (spans 1 ++ S)) /\ moves (closer_toks c) (spans 1) [].
Proof.
  unfold hv_math, visit_math. intros H Hd. apply bind_ok in H as (s9 & c9 & H9 & H). apply bind_ok in H9 as (s1 & nt & H1 & H9). qinv H1.
  apply tag_node_tag_full in H1 as (id_ & cl & a & b & e & d & ->). apply ret_ok in H9 as [-> ->].
  apply bind_ok in H as (s2 & nx & H2 & H). apply (quiet_heap _ _ _ _ (q_next_sibling _ _)) in H2 as [E2 _].
  assert (E12 : st_heap s2 = st_heap s) by congruence.
  assert (Plain : forall s', st_heap s' = st_heap s -> (s', Ok (KBatchDefer [KOpen (MkTag (lit "span") id_ cl a b e d); KTextDefer [raw "\("] [raw "\)"]])) = (sv, Ok c) ->
     (forall y, must sv y = must s y) /\ (forall y, y <> i -> dot sv y = dot s y) /\ exists d, closer c = Some d /\ (exists l, d = KBatch l) /\
     if dot sv i then (forall S, ceff c S = Some (spans 2 ++ S)) /\ moves (closer_toks c) (spans 2) (spans 1)
     else (forall S, ceff c S = Some (spans 1 ++ S)) /\ moves (closer_toks c) (spans 1) []).
  { intros s' E' X. injection X as <- <-. split; [intros; apply fl_heap; assumption|]. split; [intros; apply fl_heap; assumption|].
    eexists. split; [reflexivity|]. split; [eexists; reflexivity|]. rewrite (fl_heap _ _ _ _ E'), Hd. split; intros S; [lazy; reflexivity|]. destruct a, b; lazy; reflexivity. }
  destruct nx as [sb|]; [|exact (Plain _ E12 H)]. apply bind_ok in H as (s3 & istext & H3 & H). apply inst_fl in H3 as ->.
  destruct istext; cbn [negb] in H; [|exact (Plain _ E12 H)]. apply bind_ok in H as (s4 & text & H4 & H). apply (quiet_heap _ _ _ _ (q_get_str _ _)) in H4 as [E4 _].
  assert (E14 : st_heap s4 = st_heap s) by congruence. clear E12 E2 E4.
  destruct text as [|ch rest]; [exact (Plain _ E14 H)|]. destruct (N.eqb ch 46); [|exact (Plain _ E14 H)]. clear Plain.
  apply bind_ok in H as (s5 & u & H5 & H). cbn [bind] in H. apply bind_ok in H as (s6 & l & H6 & H). apply items_of_inv in H6 as [-> [X|X]]; [discriminate X|]. injection X as <-.
  apply bind_ok in H as (s7 & u' & H7 & H). apply ret_ok in H as [-> ->].
  split; [|split].
  - intros y. rewrite (fl_setattr _ _ _ _ _ _ _ _ H7) by (left; discriminate). rewrite (fl_setattr _ _ _ _ _ _ _ _ H5) by (left; discriminate). apply fl_heap. assumption.
  - intros y Hy. rewrite (fl_setattr _ _ _ _ _ _ _ _ H7) by (left; discriminate). rewrite (fl_setattr _ _ _ _ _ _ _ _ H5) by (right; assumption). apply fl_heap. assumption.
  - eexists. split; [reflexivity|]. split; [eexists; reflexivity|]. rewrite (fl_setattr _ _ _ _ _ _ _ _ H7) by (left; discriminate). rewrite (fl_setattr_same _ _ _ _ _ _ H5).
    cbn [truthy]. split; intros S; [lazy; reflexivity|]. destruct a, b; lazy; reflexivity.
Qed.
Lemma q_hleave f m i u : m <> CMathBlock -> quiet (hleave_method f m i u).
Proof.
  intros Hm. destruct m; try congruence; clear Hm; cbn [hleave_method leave_method];
    unfold hl_author, hl_paragraph, hl_icon1, hl_step, hl_math, leave_paragraph, leave_abstract, leave_proof, insert_info; qs.
Qed.
Lemma dispatch_visit_math c : dispatch visit_defined c = Some CMath <-> c = CMath.
Proof. destruct c; split; intros H; try reflexivity; discriminate H. Qed.
Lemma dispatch_hleave_mb c : dispatch hleave_defined c = Some CMathBlock <-> c = CMathBlock.
Proof. destruct c; split; intros H; try reflexivity; discriminate H. Qed.
Lemma dispatch_hleave_math c : dispatch hleave_defined c = Some CMath <-> c = CMath.
Proof. destruct c; split; intros H; try reflexivity; discriminate H. Qed.
Lemma hr_leave_inv i d s s' k u n f : hr_leave f i (MkT [] [d]) s = (s', Ok (k, u)) -> st_heap s !! i = Some n ->
  exists m, dispatch hleave_defined (n_cls n) = Some m /\ hleave_method f m i (MkT [] [d]) s = (s', Ok (k, u)).
Proof.
  intros Hl Hn. unfold hr_leave in Hl. apply bind_ok in Hl as (s4 & c4 & Hc4 & Hl). apply cls_of_ok in Hc4 as (-> & n4 & Hn4 & ->).
  assert (n4 = n) as -> by congruence. destruct (dispatch hleave_defined (n_cls n)) as [m|]; [eauto|discriminate Hl].
Qed.
Lemma nest_hand hl src root ext f : (forall j, tpres trh_attrs (ext j)) -> ext_fine ext -> nest_ok trh_attrs (hr_tc hl src root) ext f.
Proof.
  intros Hext He. constructor. intros s i ni sv c s1 op Hg Hi Hv Ho Hd.
  cbn [tc_visit hr_tc] in Hv. pose proof (hr_visit_shape _ _ _ _ _ _ _ _ Hv) as Hsh.
  unfold hr_visit in Hv. apply bind_ok in Hv as (s0 & cc & Hc & Hv). apply cls_of_ok in Hc as (-> & n0 & Hn0 & ->).
  assert (n0 = ni) as -> by congruence. destruct (dispatch visit_defined (n_cls ni)) as [m|] eqn:Ed; [|discriminate Hv].
  pose proof (exts_hvisit _ _ _ _ _ _ _ _ _ Hg Hv) as Hx.
  assert (Fv : tfr trh_attrs s sv). { eapply tp_hvisit_method; [| | |exact Hv]; set_solver. }
  assert (Hgv : good sv) by (apply Fv; assumption).
  destruct (open_fine ext s sv c s1 op He Hgv) as [Hrun Hfl]; try assumption.
  { intros y Hy. eapply (tfr_old _ s); eassumption. }
  assert (Hvf : (forall y, old s y -> must sv y = must s y) /\ (forall y, old s y -> y <> i -> dot sv y = dot s y)).
  { destruct (decide (m = CMath)) as [->|Nm].
    - cbn [hvisit_method] in Hv. destruct (hv_math_inv _ _ _ _ Hv Hd) as (V1 & V2 & _). auto.
    - pose proof (tp_hvisit [a_types] hl src root f m i ltac:(set_solver) Nm _ _ _ Hv) as F.
      split; intros y Hy; [|intros _]; eapply tfr_fl; [exact Hg|exact F|set_solver|assumption|exact Hg|exact F|set_solver|assumption]. }
  destruct Hvf as [V1 V2].
  split; [|split].
  { intros y Hy. rewrite (proj1 (Hfl y Hy)). auto. }
  { intros y Hy Hne. rewrite (proj2 (Hfl y Hy)). auto. }
  intros s2 cl s3 Hg2 F12 Hcl Hdot.
  assert (Hdv : dot s2 i = dot sv i). { rewrite Hdot. apply Hfl. exists ni. assumption. }
  assert (Fs2 : tfr trh_attrs s s2).
  { eapply tfr_trans; [exact Fv|]. eapply tfr_trans; [|exact F12]. eapply tp_open_toks; [exact Hext|exact Ho]. }
  destruct (tfr_node _ _ _ _ _ Hg Fs2 Hi) as (n2 & Hn2 & C2 & P2 & K2).
  destruct (decide (n_cls ni = CMathBlock)) as [Emb|Nmb].
  { apply dispatch_visit_mb in Emb as Ed'. rewrite Ed in Ed'. injection Ed' as ->.
    destruct (hr_mathblock_cmd f i _ _ _ Hv) as (T & O1 & O2 & l & Ecl). pose proof (closer_static _ _ Ecl) as Hst.
    rewrite Ecl in Hcl. apply closes_some in Hcl as (k & Hl & ->).
    cbn [tc_leave hr_tc] in Hl. destruct (hr_leave_inv _ _ _ _ _ _ _ _ Hl Hn2) as (m' & Em' & Hl'). rewrite C2, Emb in Em'. injection Em' as <-.
    cbn [hleave_method] in Hl'. unfold hl_mathblock in Hl'. apply bind_ok in Hl' as (s4 & [k4 u4] & Hl4 & Hl').
    apply bind_ok in Hl' as (s5 & fn & H5 & Hl'). apply (quiet_heap _ _ _ _ (q_full_number _ _)) in H5 as [E5 _].
    assert (Hins : static k4 = true -> s3 = s5 /\ forall S, run (static_toks k) S = run (static_toks k4) S).
    { intros Hs4. destruct (insert_info_inv _ _ _ _ _ _ _ Hl' Hs4 (bal_number _ _)) as (-> & _ & R). auto. }
    assert (H3 : st_heap s3 = st_heap s4).
    { unfold insert_info in Hl'. apply bind_ok in Hl' as (s6 & l6 & H6 & Hl'). apply items_of_inv in H6 as [-> _]. apply ret_ok in Hl' as [-> _]. assumption. }
    split; [|split; [|split; [congruence|split; [|congruence]]]].
    - intros y. rewrite (fl_heap _ _ _ _ H3). apply (leave_mathblock_inv i l s2 s4 k4 _ n2 0 n2 [] [] Hg2 Hl4).
    - intros y Hy. rewrite (fl_heap _ _ _ _ H3). apply (leave_mathblock_inv i l s2 s4 k4 _ n2 0 n2 [] [] Hg2 Hl4); [assumption|]. rewrite P2. auto.
    - intros _ q nq pre post Hp Hq Hk Hcq. exists T. destruct (tfr_node _ _ _ _ _ Hg Fs2 Hq) as (nq2 & Hnq2 & Cq2 & Pq2 & Kq2).
      destruct (leave_mathblock_inv i l s2 s4 k4 _ n2 q nq2 pre post Hg2 Hl4) as (_ & _ & L).
      specialize (L Hn2 ltac:(congruence) Hnq2 ltac:(congruence) ltac:(congruence)).
      assert (Ecl' : closer_toks c = flat_map static_toks l) by (unfold closer_toks; rewrite Ecl; reflexivity). rewrite Ecl' in O2.
      split; [intros S; rewrite Hrun; exact (O1 S)|]. rewrite (fl_heap _ _ _ _ H3). destruct post as [|z post].
      + destruct L as [-> L]. destruct (Hins Hst) as [_ R]. split; [intros S; rewrite R; exact (O2 S)|assumption].
      + destruct L as [-> L]. assert (Hst' : static (KBatch (l ++ [KText [otag "p" []]])) = true).
        { cbn [static]. rewrite forallb_app. cbn [static] in Hst. rewrite Hst. reflexivity. }
        destruct (Hins Hst') as [_ R]. split; [|assumption]. intros S. rewrite R. revert S. cbn [static_toks]. rewrite flat_map_app. eapply moves_app; [exact O2|]. intros S. lazy. reflexivity. }
  assert (Hq : forall y, dot s3 y = dot s2 y /\ must s3 y = must s2 y).
  { destruct (closer c) as [d|] eqn:Ec.
    - apply closes_some in Hcl as (k & Hl & ->). cbn [tc_leave hr_tc] in Hl. destruct (hr_leave_inv _ _ _ _ _ _ _ _ Hl Hn2) as (m' & Em' & Hl').
      assert (m' <> CMathBlock) by (intros ->; apply dispatch_hleave_mb in Em'; congruence).
      apply (quiet_heap _ _ _ _ (q_hleave _ _ _ _ ltac:(eassumption))) in Hl' as [E3 _]. intros y. rewrite !(fl_heap _ _ _ _ E3). auto.
    - destruct Hcl as [-> ->]. auto. }
  split; [apply Hq|]. split; [intros; apply Hq|]. split; [|split; [congruence|]].
  - intros Ep. rewrite Ep in Ed. injection Ed as <-. cbn [hvisit_method] in Hv. destruct (hr_paragraph_cmd _ _ _ _ _ _ Hv Hi) as (T & O1 & O2 & d & Ed').
    pose proof (closer_static _ _ Ed') as Hst. rewrite Ed' in Hcl. apply closes_some in Hcl as (k & Hl & ->). cbn [tc_leave hr_tc] in Hl.
    destruct (hr_leave_inv _ _ _ _ _ _ _ _ Hl Hn2) as (m' & Em' & Hl'). rewrite C2, Ep in Em'. injection Em' as <-.
    cbn [hleave_method] in Hl'. unfold hl_paragraph in Hl'. apply bind_ok in Hl' as (s4 & [k4 u4] & Hl4 & Hl').
    apply leave_paragraph_inv in Hl4 as (-> & -> & Hk4 & R4); [|assumption].
    apply bind_ok in Hl' as (s5 & ic & H5 & Hl'). apply insert_info_inv in Hl' as (-> & _ & R2); [|exact Hk4|apply bal_icon].
    assert (L4 : forall S, run (static_toks k) S = run ((if must s2 i then [TClose pt] else []) ++ closer_toks c) S).
    { intros S. rewrite R2. unfold closer_toks. rewrite Ed'. apply R4. }
    exists T. split; [intros S; rewrite Hrun; apply O1|].
    destruct (existsb _ _).
    + destruct (must s2 i); intros S; rewrite L4; [|apply O2]. rewrite run_app. replace (run [TClose pt] ((pt :: T) ++ S)) with (Some (T ++ S)) by (lazy; reflexivity). apply O2.
    + intros Em S. rewrite L4, Em. apply O2.
  - intros Np _ Em. destruct (decide (m = CMath)) as [->|Nm].
    + cbn [hvisit_method] in Hv. destruct (hv_math_inv _ _ _ _ Hv Hd) as (_ & _ & d & Ec & (l & ->) & R). rewrite <- Hdv in R.
      apply dispatch_visit_math in Ed. rewrite Ec in Hcl. apply closes_some in Hcl as (k & Hl & ->). cbn [tc_leave hr_tc] in Hl.
      destruct (hr_leave_inv _ _ _ _ _ _ _ _ Hl Hn2) as (m' & Em' & Hl'). rewrite C2, Ed in Em'. injection Em' as <-.
      cbn [hleave_method] in Hl'. unfold hl_math in Hl'. apply bind_ok in Hl' as (s4 & [k4 u4] & Hl4 & Hl').
      apply leave_node_inv in Hl4 as (-> & -> & ->). apply bind_ok in Hl' as (s5 & b & H5 & Hl'). apply flag_inv in H5 as [-> ->].
      destruct (dot s2 i).
      * apply bind_ok in Hl' as (s5 & l' & H5 & Hl'). apply items_of_inv in H5 as [-> [X|X]]; [|discriminate X]. cbn in X. injection X as <-.
        apply ret_ok in Hl' as [-> Hl']. injection Hl' as ->. exists (spans 2). destruct R as [R1 R2]. split; [intros S; rewrite Hrun; apply R1|].
        unfold closer_toks in R2. rewrite Ec in R2. cbn [static_toks] in R2 |- *. rewrite flat_map_app. eapply moves_app; [exact R2|]. intros S. lazy. reflexivity.
      * apply ret_ok in Hl' as [-> Hl']. injection Hl' as ->. exists (spans 1). destruct R as [R1 R2]. split; [intros S; rewrite Hrun; apply R1|].
        unfold closer_toks in R2. rewrite Ec in R2. exact R2.
    + assert (m <> CParagraph) by (intros ->; apply dispatch_visit_para in Ed; congruence).
      assert (m <> CMathBlock) by (intros ->; apply dispatch_visit_mb in Ed; congruence).
      assert (n_cls ni <> CMath) by (intros X; apply dispatch_visit_math in X; congruence).
      destruct (neat_hvisit hl src root f m i ltac:(assumption) ltac:(assumption) Nm _ _ _ Hv) as (T & O1 & O2). exists T. split; [intros S; rewrite Hrun; apply (O1 S)|].
      unfold closer_toks in O2. destruct (closer c) as [d|] eqn:Ec.
      * pose proof (closer_static _ _ Ec) as Hst. apply closes_some in Hcl as (k & Hl & ->). cbn [tc_leave hr_tc] in Hl. destruct (hr_leave_inv _ _ _ _ _ _ _ _ Hl Hn2) as (m' & Em' & Hl').
        assert (m' <> CMathBlock) by (intros ->; apply dispatch_hleave_mb in Em'; congruence).
        assert (m' <> CMath) by (intros ->; apply dispatch_hleave_math in Em'; congruence).
        destruct (hleave_mild _ _ _ _ _ _ _ _ Hst ltac:(eassumption) ltac:(assumption) Em Hl') as [_ R]. intros S. rewrite R. apply O2.
      * destruct Hcl as [-> ->]. exact O2.
Qed.
Lemma translate_handrails_run hl src f i s s' h t :
  good s -> tree_at (st_heap s) None t -> NoDup (doc_order t) -> root t = i -> clean s t -> is_mb (st_heap s) i = false ->
  translate_handrails hl src f i s = (s', Ok h) -> moves h [] [].
Proof.
  intros Hg Ht Hnd Hr Hc Hb H. unfold translate_handrails in H. apply bind_ok in H as (s1 & u & H1 & H). apply info_ok in H1. subst s1.
  match type of H with run_translator _ _ _ _ ?s1 = _ => set (s1' := s1) in * end.
  assert (Htc : tc_ok trh_attrs (hr_tc hl src i)) by (apply hr_tc_ok; set_solver).
  apply (run_renders (hr_tc hl src i) _ f trh_attrs) in H as (t' & Hr' & H); [|exact Htc|reflexivity].
  assert (Hext : forall j, tpres trh_attrs (translate_ext hl f f j)) by (apply tp_translate_ext; set_solver).
  assert (Hg1 : good s1') by exact Hg.
  assert (t = t') as <-. { eapply (proj1 (renders_tree _ _ f trh_attrs Htc Hext)); [exact H|exact Hg1|exact Ht|congruence]. }
  apply (proj1 (nest_main trh_attrs _ _ f Htc Hext (nest_hand hl src i _ f Hext (ext_fine_translate hl f f)))) in H.
  destruct (H None Hg1 Ht Hnd Hc ltac:(intros; discriminate)) as (_ & _ & M & _). apply M. unfold mbt. subst i. exact Hb.
Qed.
