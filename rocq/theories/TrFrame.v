(** What the translators may change in the heap. *)
From Verif Require Export Handrails Built TreeFacts Frames.
From Verif Require Import NodeOps Monad.

(** Existing nodes keep their place, class and the attributes outside [A]. *)
Definition tfr (A : list attr) (s s' : st) : Prop :=
  good s ->
  good s' /\ st_next s <= st_next s' /\ logs_grow s s' /\
  forall i n, st_heap s !! i = Some n ->
    exists n', st_heap s' !! i = Some n' /\ n_cls n' = n_cls n /\ n_parent n' = n_parent n /\
      n_children n' = n_children n /\ forall a, a ∉ A -> n_attrs n' !! a = n_attrs n !! a.
Definition tpres (A : list attr) {X} (m : M X) : Prop := forall s s' a, m s = (s', Ok a) -> tfr A s s'.

Lemma tfr_refl A s : tfr A s s.
Proof. intros H. split; [assumption|]. split; [lia|]. split; [apply logs_grow_same; reflexivity|]. eauto 10. Qed.
Lemma tfr_trans A s1 s2 s3 : tfr A s1 s2 -> tfr A s2 s3 -> tfr A s1 s3.
Proof.
  intros H1 H2 Hg. destruct (H1 Hg) as (G1 & N1 & L1 & F1). destruct (H2 G1) as (G2 & N2 & L2 & F2).
  split; [assumption|]. split; [lia|]. split; [eapply logs_grow_trans; eassumption|]. intros i n Hi.
  destruct (F1 _ _ Hi) as (n1 & Hn1 & E1 & E2 & E3 & E4). destruct (F2 _ _ Hn1) as (n2 & Hn2 & D1 & D2 & D3 & D4).
  exists n2. split; [assumption|]. repeat split; try congruence. intros a Ha. rewrite D4, E4; auto.
Qed.
Lemma tfr_weaken A B s s' : (forall a, a ∈ A -> a ∈ B) -> tfr A s s' -> tfr B s s'.
Proof.
  intros HAB H Hg. destruct (H Hg) as (G1 & N1 & L1 & F1). repeat (split; [assumption|]). intros i n Hi.
  destruct (F1 _ _ Hi) as (n1 & Hn1 & E1 & E2 & E3 & E4). exists n1. repeat (split; [assumption|]). intros a Ha. apply E4. auto.
Qed.
Lemma only_tfr A s s' : only (fun _ a => a ∈ A) s s' -> tfr A s s'.
Proof.
  intros Ho [Hf Hc]. split.
  { split; [eapply only_fresh; eassumption|]. eapply same_structure_consistent; [eapply only_structure; eassumption|assumption]. }
  destruct Ho as (E & L & H). split; [lia|]. split; [assumption|]. intros i n Hi. specialize (H i). rewrite Hi in H.
  destruct (st_heap s' !! i) as [n'|]; [|contradiction]. exists n'. tauto.
Qed.
Lemma tp_changes A {X} (m : M X) : changes (only (fun _ a => a ∈ A)) m -> tpres A m.
Proof. intros H s s' a E. apply only_tfr. eapply ch_run; eassumption. Qed.
Lemma tp_ret A {X} (x : X) : tpres A (ret x).
Proof. intros s s' a H. apply ret_ok in H as [-> _]. apply tfr_refl. Qed.
Lemma tp_raise A {X} e : tpres A (raise (A := X) e).
Proof. intros s s' a H. discriminate. Qed.
Lemma tp_bind A {X Y} (m : M X) (k : X -> M Y) : tpres A m -> (forall x, tpres A (k x)) -> tpres A (bind m k).
Proof.
  intros Hm Hk s s' a H. apply bind_ok in H as (s1 & x & H1 & H2). eapply tfr_trans; [eapply Hm, H1|eapply Hk, H2].
Qed.
Lemma tp_mapM A {X Y} (f : X -> M Y) l : (forall x, tpres A (f x)) -> tpres A (mapM f l).
Proof.
  intros Hf. induction l; cbn; [apply tp_ret|]. apply tp_bind; [apply Hf|]. intros b.
  apply tp_bind; [assumption|]. intros bs. apply tp_ret.
Qed.

(** Queries change nothing; numbers may log. *)
Definition quiet {X} (m : M X) : Prop := forall P, changes (only P) m.
Lemma tp_quiet A {X} (m : M X) : quiet m -> tpres A m.
Proof. intros H. apply tp_changes, H. Qed.
Lemma q_ret {X} (x : X) : quiet (ret x). Proof. intros P. apply ch_ret, only_refl. Qed.
Lemma q_raise {X} e : quiet (raise (A := X) e). Proof. intros P. apply ch_raise, only_refl. Qed.
Lemma q_bind {X Y} (m : M X) (k : X -> M Y) : quiet m -> (forall x, quiet (k x)) -> quiet (bind m k).
Proof. intros H1 H2 P. apply ch_bind; [apply only_trans|apply H1|]. intros a. apply H2. Qed.
Lemma q_log r : quiet (log_rec r). Proof. intros P. apply only_log. Qed.
Lemma q_get_node i : quiet (get_node i). Proof. intros P. apply ch_get_node, only_refl. Qed.
Lemma q_getattr i a : quiet (getattr i a). Proof. intros P. apply ch_getattr; [apply only_refl|apply only_trans]. Qed.
Lemma q_cls_of i : quiet (cls_of i). Proof. intros P. apply ch_cls_of; [apply only_refl|apply only_trans]. Qed.
Lemma q_children_of i : quiet (children_of i). Proof. intros P. apply ch_children_of; [apply only_refl|apply only_trans]. Qed.
Lemma q_parent_of i : quiet (parent_of i). Proof. intros P. apply ch_parent_of; [apply only_refl|apply only_trans]. Qed.
Lemma q_get_str i a : quiet (get_str i a). Proof. intros P. apply ch_get_str; [apply only_refl|apply only_trans]. Qed.
Lemma q_get_strs i a : quiet (get_strs i a). Proof. intros P. apply ch_get_strs; [apply only_refl|apply only_trans]. Qed.
Lemma q_get_int i a : quiet (get_int i a). Proof. intros P. apply ch_get_int; [apply only_refl|apply only_trans]. Qed.
Lemma q_inst ds i : quiet (inst ds i). Proof. intros P. apply ch_inst; [apply only_refl|apply only_trans]. Qed.
Lemma q_first_of_type i ds : quiet (first_of_type i ds). Proof. intros P. apply ch_first_of_type; [apply only_refl|apply only_trans]. Qed.
Lemma q_last_of_type i ds : quiet (last_of_type i ds). Proof. intros P. apply ch_last_of_type; [apply only_refl|apply only_trans]. Qed.
Lemma q_first_ancestor f i ds : quiet (first_ancestor_of_type f i ds). Proof. intros P. apply ch_first_ancestor; [apply only_refl|apply only_trans]. Qed.
Lemma q_mapM {X Y} (f : X -> M Y) l : (forall x, quiet (f x)) -> quiet (mapM f l).
Proof. intros H P. apply ch_mapM; [apply only_refl|apply only_trans|]. intros a. apply H. Qed.
Lemma q_first_inst d l : quiet (first_inst d l).
Proof. intros P. apply ch_first_inst; [apply only_refl|apply only_trans]. Qed.
Lemma q_next_sibling i a : quiet (next_sibling i a).
Proof.
  unfold next_sibling. apply q_bind; [apply q_parent_of|]. intros [q|]; [|apply q_ret].
  apply q_bind; [apply q_children_of|]. intros cs. destruct (index_of i cs); [|apply q_raise].
  destruct a; [apply q_ret| |apply q_first_inst]. apply q_bind; [apply q_cls_of|]. intros c. apply q_first_inst.
Qed.
Lemma q_traverse fuel cond i : quiet (traverse fuel cond i).
Proof.
  unfold traverse. apply q_bind; [|intros; apply q_ret].
  intros P. apply ch_for_traverse; [apply only_refl|apply only_trans|]. intros acc j. apply ch_ret, only_refl.
Qed.
Ltac qstep :=
  match goal with
  | |- quiet (bind _ _) => apply q_bind; [|intros ?]
  | |- quiet (ret _) => apply q_ret
  | |- quiet (raise _) => apply q_raise
  | |- quiet (get_node _) => apply q_get_node
  | |- quiet (getattr _ _) => apply q_getattr
  | |- quiet (cls_of _) => apply q_cls_of
  | |- quiet (children_of _) => apply q_children_of
  | |- quiet (parent_of _) => apply q_parent_of
  | |- quiet (get_str _ _) => apply q_get_str
  | |- quiet (get_strs _ _) => apply q_get_strs
  | |- quiet (get_int _ _) => apply q_get_int
  | |- quiet (inst _ _) => apply q_inst
  | |- quiet (first_of_type _ _) => apply q_first_of_type
  | |- quiet (last_of_type _ _) => apply q_last_of_type
  | |- quiet (first_ancestor_of_type _ _ _) => apply q_first_ancestor
  | |- quiet (next_sibling _ _) => apply q_next_sibling
  | |- quiet (traverse _ _ _) => apply q_traverse
  | |- quiet (warn _ _) => apply q_log
  | |- quiet (info _ _) => apply q_log
  | |- quiet (mapM _ _) => apply q_mapM; intros ?
  | |- quiet (match ?x with _ => _ end) => destruct x
  | |- quiet (if ?x then _ else _) => destruct x
  end.
Lemma q_full_number fuel : forall i, quiet (full_number fuel i).
Proof.
  induction fuel as [|fuel IH]; intros i; cbn [full_number]; repeat first [qstep|apply IH]; cbv zeta; repeat first [qstep|apply IH].
Qed.
Lemma q_reftext fuel i : quiet (reftext fuel i).
Proof. unfold reftext. repeat first [qstep|apply q_full_number]. Qed.
Lemma q_label_text i : quiet (label_text i).
Proof. unfold label_text. repeat qstep. Qed.
Lemma q_flag i a : quiet (flag i a).
Proof. unfold flag. repeat qstep. Qed.
Lemma q_items_of c : quiet (items_of c).
Proof. unfold items_of. repeat qstep. Qed.
Lemma q_node_tag_full i tag add a b c : quiet (node_tag_full i tag add a b c).
Proof. unfold node_tag_full. repeat qstep. Qed.
Lemma q_repr_attr i a : quiet (repr_attr i a).
Proof. unfold repr_attr. repeat qstep. Qed.
Lemma q_repr_node i : quiet (repr_node i).
Proof. unfold repr_node. repeat first [qstep|apply q_repr_attr]. Qed.
Lemma q_leave_node u : quiet (leave_node u).
Proof. unfold leave_node. repeat qstep. Qed.
Lemma q_strip_dots v : quiet (strip_dots v).
Proof. unfold strip_dots. repeat qstep. Qed.
Lemma q_depth_of i : quiet (depth_of i).
Proof. apply q_get_int. Qed.
Lemma q_link_of i : quiet (link_of i).
Proof. unfold link_of. repeat qstep. Qed.
Lemma q_icon_of i : quiet (icon_of i).
Proof. unfold icon_of. repeat qstep. Qed.
Lemma q_source_div i : quiet (source_div i).
Proof. unfold source_div. repeat qstep. Qed.
Lemma q_hr_from_node i add sel : quiet (hr_from_node i add sel).
Proof. unfold hr_from_node. repeat first [qstep|apply q_depth_of|apply q_node_tag_full]. Qed.
Ltac qstep2 :=
  match goal with
  | |- quiet (full_number _ _) => apply q_full_number
  | |- quiet (reftext _ _) => apply q_reftext
  | |- quiet (label_text _) => apply q_label_text
  | |- quiet (flag _ _) => apply q_flag
  | |- quiet (items_of _) => apply q_items_of
  | |- quiet (node_tag_full _ _ _ _ _ _) => apply q_node_tag_full
  | |- quiet (node_tag _ _) => apply q_node_tag_full
  | |- quiet (node_tag_inline _ _) => apply q_node_tag_full
  | |- quiet (repr_node _) => apply q_repr_node
  | |- quiet (leave_node _) => apply q_leave_node
  | |- quiet (strip_dots _) => apply q_strip_dots
  | |- quiet (depth_of _) => apply q_depth_of
  | |- quiet (link_of _) => apply q_link_of
  | |- quiet (icon_of _) => apply q_icon_of
  | |- quiet (source_div _) => apply q_source_div
  | |- quiet (hr_from_node _ _ _) => apply q_hr_from_node
  end.
Ltac qs := repeat first [qstep|qstep2].
Lemma q_bibitem_parts i : quiet (bibitem_parts i).
Proof. unfold bibitem_parts. cbv zeta. qs. Qed.
Lemma q_replace fuel i add lbl b t : quiet (replace_node_with_handrails fuel i add lbl b t).
Proof. unfold replace_node_with_handrails. qs. Qed.
Lemma q_subproof_handrails i : quiet (subproof_handrails i).
Proof. unfold subproof_handrails. qs. Qed.
Lemma q_step_handrails fuel i : quiet (step_handrails fuel i).
Proof. unfold step_handrails. qs. Qed.
Lemma q_wrap_item k items cl ic b l t : quiet (wrap_item k items cl ic b l t).
Proof. unfold wrap_item. cbv zeta. qs. Qed.
Lemma q_minimap_circles w n r : quiet (minimap_circles w n r).
Proof. unfold minimap_circles. cbv zeta. qs. Qed.
Lemma q_minimap_all w refs : forall n, quiet (minimap_all w n refs).
Proof. induction refs as [|r refs IH]; intros n; cbn [minimap_all]; repeat first [qstep|apply q_minimap_circles|apply IH]. Qed.
Lemma q_make_minimap fuel i fo w : quiet (make_minimap fuel i fo w).
Proof. unfold make_minimap. repeat first [qstep|apply q_minimap_all]. Qed.
Lemma q_wrap_heading fuel i ic items : quiet (wrap_heading fuel i ic items).
Proof. unfold wrap_heading. repeat first [qstep|apply q_reftext|apply q_link_of|apply q_wrap_item]. Qed.
Lemma q_insert_info k x r : quiet (insert_info k x r).
Proof. unfold insert_info. qs. Qed.

(** *** Title nodes *)
Definition title_bt (label desc : str) : bt :=
  let piece (cl s : str) : list bt := match s with [] => [] | _ => [BT CSpan [(a_types, VStrs [cl])] [BT CText [(a_text, VStr s)] []]] end in
  BT CParagraph [(a_types, VStrs [lit "hr-label"])] (piece (lit "label") label ++ piece (lit "desc") desc).
Lemma make_title_build label desc s : make_title_node label desc s = build (title_bt label desc) s.
Proof.
  unfold make_title_node, title_bt.
  destruct label as [|x l], desc as [|y d]; cbn [build app]; unfold bind, new_node, alloc, ret; try reflexivity;
    repeat match goal with
    | |- context [match append ?a ?b ?c with _ => _ end] => destruct (append a b c) as [? []]; try reflexivity
    end.
Qed.
Lemma grows_tfr A s s' : good s' -> grows s s' -> logs_grow s s' -> tfr A s s'.
Proof.
  intros Hg [G1 G2] L [Hf _]. split; [assumption|]. split; [assumption|]. split; [assumption|]. intros i n Hi.
  exists n. rewrite G2 by (eapply Hf; eassumption). auto.
Qed.
Lemma ch_build b : forall R : st -> st -> Prop, (forall s, R s s) -> (forall a b c : st, R a b -> R b c -> R a c) ->
  (forall c kw, changes R (new_node c kw)) -> (forall p cs, changes R (append p cs)) -> changes R (build b).
Proof.
  induction b as [c kw cs IH] using bt_ind'. intros R Hr Ht Hn Ha. cbn [build]. fold build_kids.
  apply ch_bind; [assumption|apply Hn|]. intros i. apply ch_bind; [assumption| |intros ?; apply ch_ret; assumption].
  change (changes R (build_kids i cs)). induction cs as [|x cs IHcs]; cbn [build_kids]; [apply ch_ret; assumption|].
  apply list.Forall_cons in IH as [IHx IH]. apply ch_bind; [assumption|apply IHx; assumption|]. intros k.
  apply ch_bind; [assumption|apply Ha|]. intros _. apply IHcs, IH.
Qed.
Lemma build_logs b s s' i : build b s = (s', Ok i) -> logs_grow s s'.
Proof.
  intros H. assert (G : changes (grown (fun _ _ => True)) (build b)).
  { apply ch_build; [apply grown_refl|apply grown_trans|apply grown_new|apply grown_append]. }
  specialize (G s). rewrite H in G. apply G.
Qed.
Lemma tp_make_title A label desc : tpres A (make_title_node label desc).
Proof.
  intros s s' i H Hg. rewrite make_title_build in H. pose proof (build_logs _ _ _ _ H) as L.
  apply build_ok in H as (Hf & Hc & _ & G & _); [|apply Hg|apply Hg]. apply grows_tfr; auto. split; assumption.
Qed.
Lemma tp_setattr A i a v : a ∈ A -> tpres A (setattr i a v).
Proof. intros H. apply tp_changes. apply only_setattr. assumption. Qed.
Ltac qhead :=
  match goal with
  | |- quiet (wrap_item _ _ _ _ _ _ _) => apply q_wrap_item
  | |- quiet (make_minimap _ _ _ _) => apply q_make_minimap
  | |- quiet (replace_node_with_handrails _ _ _ _ _ _) => apply q_replace
  | |- quiet (wrap_heading _ _ _ _) => apply q_wrap_heading
  | |- quiet (subproof_handrails _) => apply q_subproof_handrails
  | |- quiet (step_handrails _ _) => apply q_step_handrails
  | |- quiet (bibitem_parts _) => apply q_bibitem_parts
  | |- quiet (insert_info _ _ _) => apply q_insert_info
  end.
Ltac tpstep :=
  match goal with
  | |- tpres _ (bind _ _) => apply tp_bind; [|intros ?]
  | |- tpres _ (ret _) => apply tp_ret
  | |- tpres _ (raise _) => apply tp_raise
  | |- tpres _ (setattr _ _ _) => apply tp_setattr; set_solver
  | |- tpres _ (make_title_node _ _) => apply tp_make_title
  | |- tpres _ (match ?x with _ => _ end) => destruct x
  | |- tpres _ (if ?x then _ else _) => destruct x
  | |- tpres _ (mapM _ _) => apply tp_mapM; intros ?
  | |- tpres _ _ => apply tp_quiet; first [qstep|qstep2|qhead]
  end.
Ltac tps := repeat tpstep.
Lemma tp_make_ahref A f i t h x l : a_types ∈ A -> tpres A (make_ahref f i t h x l).
Proof. intros HA. unfold make_ahref. cbv zeta. tps. Qed.
Lemma tp_cite_tags A f i l ts : a_types ∈ A -> forall n, tpres A (cite_tags f i l ts n).
Proof.
  intros HA. induction ts as [|t ts IH]; intros n; cbn [cite_tags]; repeat first [tpstep|apply tp_make_ahref; assumption|apply IH].
Qed.
Ltac tpall := repeat first [tpstep
  | match goal with
    | |- tpres _ (make_ahref _ _ _ _ _ _) => apply tp_make_ahref; assumption
    | |- tpres _ (cite_tags _ _ _ _ _) => apply tp_cite_tags; assumption
    end].
Section FixA.
Context (A : list attr) (HA : a_types ∈ A).
Lemma tp_visit_node i : tpres A (visit_node i).
Proof. unfold visit_node. tpall. Qed.
Lemma tp_visit_manuscript i : tpres A (visit_manuscript i).
Proof. unfold visit_manuscript. tpall. Qed.
Lemma tp_visit_author i : tpres A (visit_author i).
Proof. unfold visit_author. cbv zeta. tpall. Qed.
Lemma tp_visit_abstract i : tpres A (visit_abstract i).
Proof. unfold visit_abstract. tpall. Qed.
Lemma tp_visit_paragraph i : tpres A (visit_paragraph i).
Proof. unfold visit_paragraph. tpall. Qed.
Lemma tp_visit_section f i : tpres A (visit_section f i).
Proof using HA. unfold visit_section. tpall. Qed.
Lemma tp_visit_contents i : tpres A (visit_contents i).
Proof. unfold visit_contents. tpall. Qed.
Lemma tp_visit_note f i : tpres A (visit_note f i).
Proof. unfold visit_note. tpall. Qed.
Lemma tp_visit_math i : tpres A (visit_math i).
Proof. unfold visit_math. tpall. Qed.
Lemma tp_visit_mathblock i : tpres A (visit_mathblock i).
Proof. unfold visit_mathblock. tpall. Qed.
Lemma tp_visit_theorem f i : tpres A (visit_theorem f i).
Proof. unfold visit_theorem. tpall. Qed.
Lemma tp_visit_sketch i : tpres A (visit_sketch i).
Proof. unfold visit_sketch. tpall. Qed.
Lemma tp_visit_proof i : tpres A (visit_proof i).
Proof using HA. unfold visit_proof. tpall. Qed.
Lemma tp_visit_bibliography i : tpres A (visit_bibliography i).
Proof. unfold visit_bibliography. tpall. Qed.
Lemma tp_visit_method hl f m i : tpres A (visit_method hl f m i).
Proof using HA.
  destruct m; cbn [visit_method];
  first [apply tp_visit_node|apply tp_visit_manuscript|apply tp_visit_author|apply tp_visit_abstract|apply tp_visit_paragraph
    |apply tp_visit_section|apply tp_visit_contents|apply tp_visit_note|apply tp_visit_math|apply tp_visit_mathblock
    |apply tp_visit_theorem|apply tp_visit_sketch|apply tp_visit_proof|apply tp_visit_bibliography
    | unfold visit_step, visit_sourcecode, visit_code, visit_codeblock, visit_algorithm, visit_text, visit_error, visit_span,
      visit_construct, visit_reference, visit_url, visit_subproof, visit_cite, visit_bibitem, visit_draft,
      visit_figure, visit_caption; tpall].
Qed.
Lemma tp_leave_mathblock i u : a_must_close_p_tag ∈ A -> tpres A (leave_mathblock i u).
Proof. intros HM. unfold leave_mathblock. tpall. Qed.
Lemma tp_leave_paragraph i u : tpres A (leave_paragraph i u).
Proof. unfold leave_paragraph. tpall. Qed.
Lemma tp_leave_method m i u : a_must_close_p_tag ∈ A -> tpres A (leave_method m i u).
Proof.
  intros HM. destruct m; cbn [leave_method];
    first [apply tp_leave_mathblock; assumption|apply tp_leave_paragraph|unfold leave_abstract, leave_proof; tpall].
Qed.
Lemma tp_hvisit_method hl src root f m i : a_text ∈ A -> a_followed_by_dot ∈ A ->
  tpres A (hvisit_method hl src root f m i).
Proof using HA.
  intros HB HC. destruct m; cbn [hvisit_method]; try apply tp_visit_method;
    unfold hv_manuscript, hv_author, hv_section, hv_abstract, hv_contents, hv_bibliography, hv_paragraph, hv_labeled, hv_subproof,
      hv_step, hv_math, hv_mathblock, hv_bibitem; cbv zeta;
    repeat first [ tpstep
    | match goal with
      | |- tpres _ (visit_manuscript _) => apply tp_visit_manuscript
      | |- tpres _ (visit_author _) => apply tp_visit_author
      | |- tpres _ (visit_abstract _) => apply tp_visit_abstract
      | |- tpres _ (visit_section _ _) => apply tp_visit_section
      | |- tpres _ (visit_contents _) => apply tp_visit_contents
      | |- tpres _ (visit_bibliography _) => apply tp_visit_bibliography
      | |- tpres _ (visit_paragraph _) => apply tp_visit_paragraph
      | |- tpres _ (visit_theorem _ _) => apply tp_visit_theorem
      | |- tpres _ (visit_sketch _) => apply tp_visit_sketch
      | |- tpres _ (visit_proof _) => apply tp_visit_proof
      | |- tpres _ (visit_math _) => apply tp_visit_math
      end ].
Qed.
Lemma tp_hleave_method f m i u : a_must_close_p_tag ∈ A -> tpres A (hleave_method f m i u).
Proof.
  intros HM. destruct m; cbn [hleave_method]; try (apply tp_leave_method; assumption);
    unfold hl_author, hl_paragraph, hl_icon1, hl_step, hl_math, hl_mathblock;
    repeat first [tpstep|match goal with
      | |- tpres _ (leave_mathblock _ _) => apply tp_leave_mathblock; assumption
      | |- tpres _ (leave_paragraph _ _) => apply tp_leave_paragraph
      end].
Qed.
End FixA.
