(** The errors a translator does not raise. *)
From Verif Require Export TrShape.
From Verif Require Import NodeOps Monad.

(** The three complaints of a translator about its own bookkeeping
    (translator.py:574, 590-593, 487). *)
Definition lost (e : exn) : Prop :=
  e = ETranslator (lit "Something went wrong") \/
  e = ETranslator (lit "Cannot finish translation; did you forget to write a visit_* or leave_* method?") \/
  e = ETranslator (lit "Why are we here?").
Definition calm {X} (m : M X) : Prop := forall s s' e, m s = (s', Err e) -> ~ lost e.

Lemma c_ret {X} (x : X) : calm (ret x). Proof. intros s s' e H. discriminate H. Qed.
Lemma c_raise {X} e : ~ lost e -> calm (raise (A := X) e). Proof. intros Hl s s' e' H. injection H as _ <-. assumption. Qed.
Lemma c_bind {X Y} (m : M X) (k : X -> M Y) : calm m -> (forall x, calm (k x)) -> calm (bind m k).
Proof. intros H1 H2 s s' e H. unfold bind in H. destruct (m s) as [s1 [x|e1]] eqn:E; [eapply H2, H|]. injection H as _ <-. eapply H1, E. Qed.
Lemma c_bind_post {X Y} (m : M X) (k : X -> M Y) (P : X -> Prop) : calm m -> post m P -> (forall x, P x -> calm (k x)) -> calm (bind m k).
Proof.
  intros H1 Hp H2 s s' e H. unfold bind in H. destruct (m s) as [s1 [x|e1]] eqn:E; [eapply H2, H; eapply Hp, E|].
  injection H as _ <-. eapply H1, E.
Qed.
Ltac unlost := let H := fresh in intros [H|[H|H]]; discriminate H.
Lemma c_get_node i : calm (get_node i).
Proof. intros s s' e H. unfold get_node in H. destruct (st_heap s !! i); [discriminate H|]. injection H as _ <-. unlost. Qed.
Lemma c_mod_node i f : calm (mod_node i f).
Proof. intros s s' e H. unfold mod_node, bind in H. destruct (get_node i s) as [s1 [n|e1]] eqn:E; [discriminate H|]. injection H as _ <-. eapply c_get_node, E. Qed.
Lemma c_log r : calm (log_rec r). Proof. intros s s' e H. discriminate H. Qed.
Lemma c_alloc n : calm (alloc n). Proof. intros s s' e H. discriminate H. Qed.
Lemma c_mapM {X Y} (f : X -> M Y) l : (forall x, calm (f x)) -> calm (mapM f l).
Proof. intros Hf. induction l; cbn [mapM]; [apply c_ret|]. apply c_bind; [apply Hf|]. intros b. apply c_bind; [assumption|]. intros bs. apply c_ret. Qed.
Lemma c_iterM {X} (f : X -> M unit) l : (forall x, calm (f x)) -> calm (iterM f l).
Proof. intros Hf. induction l; cbn [iterM]; [apply c_ret|]. apply c_bind; [apply Hf|]. intros _. assumption. Qed.
Ltac cstep0 :=
  match goal with
  | |- calm (bind _ _) => apply c_bind; [|intros ?]
  | |- calm (ret _) => apply c_ret
  | |- calm (raise _) => apply c_raise; unlost
  | |- calm (get_node _) => apply c_get_node
  | |- calm (mod_node _ _) => apply c_mod_node
  | |- calm (log_rec _) => apply c_log
  | |- calm (warn _ _) => apply c_log
  | |- calm (info _ _) => apply c_log
  | |- calm (alloc _) => apply c_alloc
  | |- calm (new_node _ _) => apply c_alloc
  | |- calm (mapM _ _) => apply c_mapM; intros ?
  | |- calm (iterM _ _) => apply c_iterM; intros ?
  | |- calm (match ?x with _ => _ end) => destruct x
  | |- calm (if ?x then _ else _) => destruct x
  end.
Ltac cs0 := repeat cstep0.
Lemma c_getattr i a : calm (getattr i a). Proof. unfold getattr. cs0. Qed.
Lemma c_setattr i a v : calm (setattr i a v). Proof. unfold setattr. cs0. Qed.
Lemma c_cls_of i : calm (cls_of i). Proof. unfold cls_of. cs0. Qed.
Lemma c_children_of i : calm (children_of i). Proof. unfold children_of. cs0. Qed.
Lemma c_parent_of i : calm (parent_of i). Proof. unfold parent_of. cs0. Qed.
Lemma c_raw_children i : calm (raw_children i). Proof. unfold raw_children. cs0. Qed.
Lemma c_set_raw_children i l : calm (set_raw_children i l). Proof. unfold set_raw_children. cs0. Qed.
Lemma c_get_str i a : calm (get_str i a). Proof. unfold get_str. apply c_bind; [apply c_getattr|intros ?]. cs0. Qed.
Lemma c_get_strs i a : calm (get_strs i a). Proof. unfold get_strs. apply c_bind; [apply c_getattr|intros ?]. cs0. Qed.
Lemma c_get_int i a : calm (get_int i a). Proof. unfold get_int. apply c_bind; [apply c_getattr|intros ?]. cs0. Qed.
Lemma c_inst ds i : calm (inst ds i). Proof. unfold inst. apply c_bind; [apply c_cls_of|intros ?]. cs0. Qed.
Ltac cstep :=
  match goal with
  | |- calm (getattr _ _) => apply c_getattr
  | |- calm (setattr _ _ _) => apply c_setattr
  | |- calm (cls_of _) => apply c_cls_of
  | |- calm (children_of _) => apply c_children_of
  | |- calm (parent_of _) => apply c_parent_of
  | |- calm (raw_children _) => apply c_raw_children
  | |- calm (set_raw_children _ _) => apply c_set_raw_children
  | |- calm (get_str _ _) => apply c_get_str
  | |- calm (get_strs _ _) => apply c_get_strs
  | |- calm (get_int _ _) => apply c_get_int
  | |- calm (inst _ _) => apply c_inst
  | |- _ => cstep0
  end.
Ltac cs1 := repeat cstep.
Lemma c_first_inst d l : calm (first_inst d l).
Proof. induction l; cbn [first_inst]; cs1. assumption. Qed.
Lemma c_next_sibling i a : calm (next_sibling i a).
Proof. unfold next_sibling. cs1; apply c_first_inst. Qed.
Lemma c_set_parent i p : calm (set_parent i p). Proof. unfold set_parent. cs1. Qed.
Lemma c_append p l : calm (append p l). Proof. unfold append. cs1. unfold append1. cs1. apply c_set_parent. Qed.
Lemma c_first_of_type_go ds l : forall k, calm (first_of_type_go ds l k).
Proof. induction l; intros k; cbn [first_of_type_go]; cs1; auto. Qed.
Lemma c_first_of_type i ds : calm (first_of_type i ds).
Proof. unfold first_of_type. cs1. apply c_first_of_type_go. Qed.
Lemma c_last_of_type i ds : calm (last_of_type i ds).
Proof. unfold last_of_type. cs1; try apply c_first_of_type_go. Qed.
Lemma c_anc_loop ds fuel : forall cur, calm (anc_loop fuel ds cur).
Proof. induction fuel; intros [q|]; cbn [anc_loop]; cs1; auto. Qed.
Lemma c_first_ancestor f i ds : calm (first_ancestor_of_type f i ds).
Proof. unfold first_ancestor_of_type. cs1. apply c_anc_loop. Qed.
Lemma c_trav {X} cond (b : X -> id -> M X) fuel : (forall a i, calm (b a i)) -> forall a st, calm (trav_loop fuel cond b a st).
Proof. intros Hb. induction fuel; intros a [|i l]; cbn [trav_loop]; cs1; auto. Qed.
Lemma c_traverse f cond i : calm (traverse f cond i).
Proof. unfold traverse, for_traverse. cs1. apply c_trav. intros. cs1. Qed.
Ltac cstep2 :=
  match goal with
  | |- calm (next_sibling _ _) => apply c_next_sibling
  | |- calm (append _ _) => apply c_append
  | |- calm (first_of_type _ _) => apply c_first_of_type
  | |- calm (last_of_type _ _) => apply c_last_of_type
  | |- calm (first_ancestor_of_type _ _ _) => apply c_first_ancestor
  | |- calm (traverse _ _ _) => apply c_traverse
  | |- _ => cstep
  end.
Ltac cs2 := repeat cstep2.
Lemma c_full_number fuel : forall i, calm (full_number fuel i).
Proof. induction fuel as [|f IH]; intros i; cbn [full_number]; cbv zeta; repeat first [cstep2|apply IH]. Qed.
Lemma c_reftext f i : calm (reftext f i).
Proof. unfold reftext. repeat first [cstep2|match goal with |- calm (full_number _ _) => apply c_full_number end]. Qed.
Lemma c_node_tag_full i t add a b c : calm (node_tag_full i t add a b c).
Proof. unfold node_tag_full. cs2. Qed.
Lemma c_items_of c : calm (items_of c).
Proof. unfold items_of. cs2. Qed.
Lemma c_label_text i : calm (label_text i). Proof. unfold label_text. cs2. Qed.
Lemma c_flag i a : calm (flag i a). Proof. unfold flag. cs2. Qed.
Lemma c_strip_dots v : calm (strip_dots v). Proof. unfold strip_dots. cs2. Qed.
Lemma c_depth_of i : calm (depth_of i). Proof. apply c_get_int. Qed.
Lemma c_link_of i : calm (link_of i). Proof. unfold link_of. cs2. Qed.
Lemma c_icon_of i : calm (icon_of i). Proof. unfold icon_of. cs2. Qed.
Lemma c_source_div i : calm (source_div i). Proof. unfold source_div. cs2. Qed.
Lemma c_hr_from_node i add sel : calm (hr_from_node i add sel).
Proof. unfold hr_from_node. repeat first [cstep2|apply c_depth_of]. apply c_node_tag_full. Qed.
Ltac cstep3 :=
  match goal with
  | |- calm (full_number _ _) => apply c_full_number
  | |- calm (reftext _ _) => apply c_reftext
  | |- calm (node_tag_full _ _ _ _ _ _) => apply c_node_tag_full
  | |- calm (node_tag _ _) => apply c_node_tag_full
  | |- calm (node_tag_inline _ _) => apply c_node_tag_full
  | |- calm (items_of _) => apply c_items_of
  | |- calm (label_text _) => apply c_label_text
  | |- calm (flag _ _) => apply c_flag
  | |- calm (strip_dots _) => apply c_strip_dots
  | |- calm (depth_of _) => apply c_depth_of
  | |- calm (link_of _) => apply c_link_of
  | |- calm (icon_of _) => apply c_icon_of
  | |- calm (source_div _) => apply c_source_div
  | |- calm (hr_from_node _ _ _) => apply c_hr_from_node
  | |- _ => cstep2
  end.
Ltac cs3 := repeat cstep3.
Lemma c_repr_node i : calm (repr_node i). Proof. unfold repr_node, repr_attr. cs3. Qed.
Lemma c_bibitem_parts i : calm (bibitem_parts i). Proof. unfold bibitem_parts. cbv zeta. cs3. Qed.
Lemma c_make_title l d : calm (make_title_node l d). Proof. unfold make_title_node. cbv zeta. cs3. Qed.
Lemma c_make_ahref f i t h x l : calm (make_ahref f i t h x l). Proof. unfold make_ahref. cbv zeta. cs3. Qed.
Lemma c_cite_tags f i l ts : forall n, calm (cite_tags f i l ts n).
Proof. induction ts; intros n; cbn [cite_tags]; repeat first [cstep3|apply c_make_ahref|auto]. Qed.
Lemma c_replace f i add lbl b t : calm (replace_node_with_handrails f i add lbl b t). Proof. unfold replace_node_with_handrails. cs3. Qed.
Lemma c_wrap_item k items cl ic b l t : calm (wrap_item k items cl ic b l t). Proof. unfold wrap_item. cbv zeta. cs3. Qed.
Lemma c_minimap_all w refs : forall n, calm (minimap_all w n refs).
Proof. induction refs; intros n; cbn [minimap_all]; unfold minimap_circles; cbv zeta; cs3; auto. Qed.
Lemma c_make_minimap f i fo w : calm (make_minimap f i fo w). Proof. unfold make_minimap. cbv zeta. cs3. apply c_minimap_all. Qed.
Lemma c_insert_info k x r : calm (insert_info k x r). Proof. unfold insert_info. cs3. Qed.
Ltac cstep4 :=
  match goal with
  | |- calm (repr_node _) => apply c_repr_node
  | |- calm (bibitem_parts _) => apply c_bibitem_parts
  | |- calm (make_title_node _ _) => apply c_make_title
  | |- calm (make_ahref _ _ _ _ _ _) => apply c_make_ahref
  | |- calm (cite_tags _ _ _ _ _) => apply c_cite_tags
  | |- calm (replace_node_with_handrails _ _ _ _ _ _) => apply c_replace
  | |- calm (wrap_item _ _ _ _ _ _ _) => apply c_wrap_item
  | |- calm (make_minimap _ _ _ _) => apply c_make_minimap
  | |- calm (insert_info _ _ _) => apply c_insert_info
  | |- _ => cstep3
  end.
Ltac cs4 := repeat cstep4.
Lemma c_visit_manuscript i : calm (visit_manuscript i). Proof. unfold visit_manuscript. cs4. Qed.
Lemma c_visit_author i : calm (visit_author i). Proof. unfold visit_author. cbv zeta. cs4. Qed.
Lemma c_visit_abstract i : calm (visit_abstract i). Proof. unfold visit_abstract. cs4. Qed.
Lemma c_visit_section f i : calm (visit_section f i). Proof. unfold visit_section. cs4. Qed.
Lemma c_visit_contents i : calm (visit_contents i). Proof. unfold visit_contents. cs4. Qed.
Lemma c_visit_bibliography i : calm (visit_bibliography i). Proof. unfold visit_bibliography. cs4. Qed.
Lemma c_visit_paragraph i : calm (visit_paragraph i). Proof. unfold visit_paragraph. cs4. Qed.
Lemma c_visit_theorem f i : calm (visit_theorem f i). Proof. unfold visit_theorem. cs4. Qed.
Lemma c_visit_sketch i : calm (visit_sketch i). Proof. unfold visit_sketch. cs4. Qed.
Lemma c_visit_proof i : calm (visit_proof i). Proof. unfold visit_proof. cs4. Qed.
Lemma c_visit_math i : calm (visit_math i). Proof. unfold visit_math. cs4. Qed.
Ltac cstep5 :=
  match goal with
  | |- calm (visit_manuscript _) => apply c_visit_manuscript
  | |- calm (visit_author _) => apply c_visit_author
  | |- calm (visit_abstract _) => apply c_visit_abstract
  | |- calm (visit_section _ _) => apply c_visit_section
  | |- calm (visit_contents _) => apply c_visit_contents
  | |- calm (visit_bibliography _) => apply c_visit_bibliography
  | |- calm (visit_paragraph _) => apply c_visit_paragraph
  | |- calm (visit_theorem _ _) => apply c_visit_theorem
  | |- calm (visit_sketch _) => apply c_visit_sketch
  | |- calm (visit_proof _) => apply c_visit_proof
  | |- calm (visit_math _) => apply c_visit_math
  | |- _ => cstep4
  end.
Ltac cs5 := repeat cstep5.
Lemma c_visit_method hl f m i : calm (visit_method hl f m i).
Proof.
  destruct m; cbn [visit_method]; unfold visit_node, visit_step, visit_note, visit_mathblock, visit_sourcecode, visit_code, visit_codeblock,
    visit_algorithm, visit_text, visit_error, visit_span, visit_construct, visit_reference, visit_url, visit_subproof, visit_cite,
    visit_bibitem, visit_draft, visit_figure, visit_caption; cs5.
Qed.
Lemma c_hvisit_method hl src root f m i : calm (hvisit_method hl src root f m i).
Proof.
  destruct m; cbn [hvisit_method]; try apply c_visit_method;
    unfold hv_manuscript, hv_author, hv_section, hv_abstract, hv_contents, hv_bibliography, hv_paragraph, hv_labeled, hv_subproof,
      hv_step, hv_math, hv_mathblock, hv_bibitem, wrap_heading, subproof_handrails, step_handrails; cbv zeta; cs5.
Qed.

(** With a deferred command left. *)
Definition calm_leave (lv : tst -> M (cmd * tst)) : Prop := forall u, deferred u <> [] -> calm (lv u).
Lemma cl_node : calm_leave leave_node.
Proof. intros [B [|d r]] Hu; [contradiction Hu; reflexivity|]. apply c_ret. Qed.
Ltac cls5 := repeat first [cstep5|match goal with |- calm (leave_node _) => apply cl_node; assumption end].
Lemma cl_mathblock i : calm_leave (leave_mathblock i).
Proof. intros u Hu. unfold leave_mathblock. cls5. Qed.
Lemma cl_paragraph i : calm_leave (leave_paragraph i).
Proof. intros u Hu. unfold leave_paragraph. cls5. Qed.
Lemma cl_method m i : calm_leave (leave_method m i).
Proof.
  intros u Hu. destruct m; cbn [leave_method];
    lazymatch goal with
    | |- calm (leave_mathblock _ _) => apply cl_mathblock; assumption
    | |- calm (leave_paragraph _ _) => apply cl_paragraph; assumption
    | |- _ => unfold leave_abstract, leave_proof; cls5
    end.
Qed.
Lemma cl_hmethod f m i : calm_leave (hleave_method f m i).
Proof.
  intros u Hu. destruct m; cbn [hleave_method]; try (apply cl_method; assumption);
    unfold hl_author, hl_paragraph, hl_icon1, hl_step, hl_math, hl_mathblock;
    repeat first [cstep5|match goal with
      | |- calm (leave_node _) => apply cl_node; assumption
      | |- calm (leave_mathblock _ _) => apply cl_mathblock; assumption
      | |- calm (leave_paragraph _ _) => apply cl_paragraph; assumption
      end].
Qed.

(** ** The loop *)

Record tc_calm (tc : tclass) : Prop := {
  calm_visit : forall f i, calm (tc_visit tc f i);
  calm_leaves : forall f i, calm_leave (tc_leave tc f i)
}.
Lemma base_calm hl : tc_calm (base_tc hl).
Proof.
  split.
  - intros f i. unfold base_tc, tc_visit, base_visit. apply c_bind; [apply c_cls_of|]. intros c.
    destruct (dispatch _ _); [apply c_visit_method|apply c_raise; unlost].
  - intros f i u Hu. unfold base_tc, tc_leave, base_leave. apply c_bind; [apply c_cls_of|]. intros c.
    destruct (dispatch _ _); [apply cl_method; assumption|apply c_raise; unlost].
Qed.
Lemma hr_calm hl src root : tc_calm (hr_tc hl src root).
Proof.
  split.
  - intros f i. unfold hr_tc, tc_visit, hr_visit. apply c_bind; [apply c_cls_of|]. intros c.
    destruct (dispatch _ _); [apply c_hvisit_method|apply c_raise; unlost].
  - intros f i u Hu. unfold hr_tc, tc_leave, hr_leave. apply c_bind; [apply c_cls_of|]. intros c.
    destruct (dispatch _ _); [apply cl_hmethod; assumption|apply c_raise; unlost].
Qed.

Definition pending_leaves (l : list action) : nat := length (List.filter (fun a => match a with Leave _ => true | _ => false end) l).
Lemma pending_app l m : pending_leaves (l ++ m) = pending_leaves l + pending_leaves m.
Proof. unfold pending_leaves. rewrite List.filter_app, app_length. reflexivity. Qed.
Lemma pending_visits l : pending_leaves (map Visit l) = 0.
Proof. unfold pending_leaves. induction l; cbn; auto. Qed.
Lemma c_make_text ext c : (forall j, calm (ext j)) -> item c = true -> calm (make_text ext c).
Proof. intros He Hc. destruct c; try discriminate Hc; cbn [make_text]; try apply c_ret. apply He. Qed.
Lemma c_item_toks ext l : (forall j, calm (ext j)) -> items_ok l -> calm (item_toks ext l).
Proof.
  intros He. induction l as [|c l IH]; intros Hl; cbn [item_toks]; [apply c_ret|]. apply items_ok_cons in Hl as [Hc Hl].
  apply c_bind; [apply c_make_text; assumption|]. intros a. apply c_bind; [apply IH; assumption|]. intros b. apply c_ret.
Qed.
Lemma c_open_toks ext c : (forall j, calm (ext j)) -> shape_ok c = true -> calm (open_toks ext c).
Proof. intros He Hc. destruct c; try discriminate Hc; cbn [open_toks]; [apply c_ret|apply c_ret|apply c_item_toks; assumption]. Qed.
Lemma c_loop A tc ext f0 : tc_ok A tc -> tc_calm tc -> (forall j, calm (ext j)) ->
  forall fuel l u, pending_leaves l = length (deferred u) -> Forall (fun d => static d = true) (deferred u) ->
  calm (tr_loop tc ext f0 fuel l u).
Proof.
  intros Hok Hc He. induction fuel as [|fuel IH]; intros l u Hl Hd; destruct l as [|a l]; cbn [tr_loop];
    try apply c_ret; try (apply c_raise; unlost). destruct a as [i|i].
  - eapply c_bind_post; [apply Hc|intros s s' c E; eapply (ok_visit_shape _ _ Hok), E|]. intros c Hsh.
    apply c_bind; [apply c_children_of|]. intros cs.
    intros s s' e H. unfold bind in H. rewrite execute_visit in H by assumption.
    destruct (open_toks ext c s) as [s1 [t|e1]] eqn:Eo.
    + revert H. apply IH.
      * rewrite !pending_app, pending_visits, defers_closer by assumption. destruct (closer c); cbn in *; unfold pending_leaves in *; cbn in *; lia.
      * cbn. destruct (closer c) eqn:Ec; [|assumption]. constructor; [eapply closer_static; eassumption|assumption].
    + injection H as _ <-. revert Eo. apply c_open_toks; assumption.
  - destruct u as [B [|d r]]; [discriminate Hl|]. apply list.Forall_cons in Hd as [Hd1 Hd].
    intros s s' e H. unfold bind in H. destruct (tc_leave tc f0 i (MkT B (d :: r)) s) as [s1 [[k u1]|e1]] eqn:El.
    + cbn [fst snd] in H. apply (ok_leave _ _ Hok) in El as (d' & r' & Ed & -> & El & Hs). injection Ed as <- <-.
      rewrite execute_static in H by auto. revert H. apply IH; [|assumption]. cbn. unfold pending_leaves in *. cbn in *. lia.
    + injection H as _ <-. revert El. apply (calm_leaves _ Hc). discriminate.
Qed.
Lemma c_run A tc ext fuel i : tc_ok A tc -> tc_calm tc -> (forall j, calm (ext j)) -> calm (run_translator tc ext fuel i).
Proof.
  intros Hok Hc He s s' e H. unfold run_translator, bind in H.
  destruct (tr_loop tc ext fuel fuel [Visit i] (MkT [] []) s) as [s1 [u|e1]] eqn:E.
  - change [Visit i] with (map Visit [i] ++ []) in E. eapply loop_renders in E as (ts & toks & s2 & f' & _ & _ & _ & E); [|exact Hok].
    assert (u = emit toks (MkT [] [])) as -> by (destruct f'; cbn in E; unfold ret in E; congruence). discriminate H.
  - injection H as _ <-. revert E. eapply c_loop; try eassumption; [reflexivity|constructor].
Qed.
Lemma c_translate_ext hl fuel : forall d i, calm (translate_ext hl d fuel i).
Proof.
  induction d as [|d IH]; intros i; cbn [translate_ext]; [apply c_raise; unlost|].
  apply (c_run tr_attrs); [apply base_tc_ok; unfold tr_attrs; set_solver|apply base_calm|exact IH].
Qed.
Lemma c_translate hl fuel i : calm (translate hl fuel i).
Proof.
  unfold translate. apply c_bind; [apply c_log|]. intros _.
  apply (c_run tr_attrs); [apply base_tc_ok; unfold tr_attrs; set_solver|apply base_calm|apply c_translate_ext].
Qed.
Lemma c_translate_handrails hl src fuel i : calm (translate_handrails hl src fuel i).
Proof.
  unfold translate_handrails. apply c_bind; [apply c_log|]. intros _.
  apply (c_run trh_attrs); [apply hr_tc_ok; unfold trh_attrs; set_solver|apply hr_calm|apply c_translate_ext].
Qed.
