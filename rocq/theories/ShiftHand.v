(** The translator with handrails, in a memory which holds other nodes. *)
From Verif Require Export ShiftTranslate.
Local Open Scope list_scope.

Section Hand.
Context (b : shiftby).
Notation sh := (sh b).
Notation moves := (moves b).
Notation sh_cmd := (sh_cmd b).
Notation sh_tok := (sh_tok b).
Notation sh_tst := (sh_tst b).
Notation sh_pair := (sh_pair b).
(** ** What does not depend on nodes *)
Lemma z_collapse c : sh_cmd (hr_collapse_zone c) = hr_collapse_zone c.
Proof. destruct c; reflexivity. Qed.
Lemma z_menu l x y z : sh_cmd (hr_menu_zone l x y z) = hr_menu_zone l x y z.
Proof. destruct l, x, y, z; reflexivity. Qed.
Lemma z_icon i : sh_cmd (hr_info_zone_icon i) = hr_info_zone_icon i.
Proof. destruct i; reflexivity. Qed.
Lemma z_number n st : sh_cmd (hr_info_zone_number n st) = hr_info_zone_number n st.
Proof. destruct n, st; reflexivity. Qed.
Lemma z_close g : sh_cmd (KText (close_text g)) = KText (close_text g).
Proof. cbn [ShiftTranslate.sh_cmd]. rewrite close_text_sh. reflexivity. Qed.
Lemma insert_nth_sh k x l : insert_nth k (sh_cmd x) (map sh_cmd l) = map sh_cmd (insert_nth k x l).
Proof. unfold insert_nth. rewrite map_app. cbn [map]. rewrite firstn_map, skipn_map. reflexivity. Qed.
Lemma map_first_sh f l : map_first_classes f (map sh_cmd l) = map sh_cmd (map_first_classes f l).
Proof. destruct l as [|[] r]; reflexivity. Qed.

Lemma moves_depth i : moves (fun x => x) (depth_of i) (depth_of (sh i)).
Proof. apply moves_get_int. Qed.
Lemma moves_hr_from i add sel : moves sh_cmd (hr_from_node i add sel) (hr_from_node (sh i) add sel).
Proof. unfold hr_from_node. mv1; [mv|]. mv1; [apply moves_depth|]. apply moves_node_tag_full. Qed.
Lemma moves_link i : moves (fun x => x) (link_of i) (link_of (sh i)).
Proof. unfold link_of. eapply moves_bind; [apply moves_getattr|]. intros l. rewrite truthy_sh. apply moves_ret. reflexivity. Qed.
Lemma moves_replace fuel i add label c ca : moves (map sh_cmd) (replace_node_with_handrails fuel i add label c ca) (replace_node_with_handrails fuel (sh i) add label c ca).
Proof.
  unfold replace_node_with_handrails. eapply moves_bind; [apply moves_hr_from|]. intros h. eapply (moves_bind b (fun x : str => x)); [destruct label; [apply moves_reftext|apply moves_ret; reflexivity]|]. intros l.
  eapply moves_bind; [apply moves_link|]. intros k. apply moves_ret. cbn [map]. rewrite z_collapse, z_menu. reflexivity.
Qed.
Lemma moves_subproof_hr i : moves (map sh_cmd) (subproof_handrails i) (subproof_handrails (sh i)).
Proof. unfold subproof_handrails. eapply moves_bind; [apply moves_hr_from|]. intros h. apply moves_ret. reflexivity. Qed.
Lemma moves_step_hr fuel i : moves (map sh_cmd) (step_handrails fuel i) (step_handrails fuel (sh i)).
Proof.
  unfold step_handrails. eapply moves_bind; [mv|]. intros sub. eapply moves_bind; [apply moves_link|]. intros k. eapply (moves_bind b (fun x : str => x)); [apply moves_reftext|]. intros l.
  eapply (moves_bind b sh_cmd).
  { destruct sub as [[s n]|]; cbn [option_map sh_idx fst snd]; [|apply moves_ret; rewrite z_menu; reflexivity]. eapply moves_bind; [mv|]. intros st. destruct st as [[x y]|]; cbn [option_map]; apply moves_ret; rewrite z_menu; reflexivity. }
  intros menu. eapply moves_bind; [apply moves_hr_from|]. intros h. apply moves_ret. reflexivity.
Qed.
Lemma moves_wrap k items cl ic c l lk : moves (map sh_cmd) (wrap_item k items cl ic c l lk) (wrap_item k (map sh_cmd items) cl ic c l lk).
Proof.
  unfold wrap_item. change (map sh_cmd items !! k) with ((sh_cmd <$> items) !! k). rewrite list_lookup_fmap. destruct (items !! k) as [x|]; cbn [fmap option_fmap option_map]; [|apply moves_raise].
  apply moves_ret. rewrite !map_app. cbn [map]. rewrite z_collapse, z_menu, z_icon, !z_close, firstn_map, skipn_map. reflexivity.
Qed.
Lemma moves_source_div i : moves sh_cmd (source_div i) (source_div (sh i)).
Proof.
  unfold source_div. eapply moves_bind; [apply moves_get_node|]. intros n. cbn [sh_node n_attrs]. rewrite lookup_fmap. destruct (n_attrs n !! a_src) as [v|]; cbn [fmap option_fmap option_map]; [|apply moves_raise].
  apply moves_ret. rewrite fmt_sh. reflexivity.
Qed.
Lemma moves_circles w n r : moves (map (map sh_tok)) (minimap_circles w n r) (minimap_circles w n (sh r)).
Proof.
  unfold minimap_circles. eapply moves_bind; [apply moves_getattr|]. intros t. destruct t as [| | | | | |t| |]; try apply moves_raise. cbn [sh_val].
  eapply (moves_bind b (fun x : cls => x)); [apply moves_cls_of|]. intros c. destruct (radius c); [|apply moves_raise]. eapply (moves_bind b (fun x : str => x)); [apply moves_label_text|]. intros l. apply moves_ret. destruct w; reflexivity.
Qed.
Lemma moves_minimap_all w refs : forall n, moves (map (map sh_tok)) (minimap_all w n refs) (minimap_all w n (map sh refs)).
Proof.
  induction refs as [|r rs IH]; intros n; cbn [minimap_all map]; [apply moves_ret; reflexivity|]. eapply moves_bind; [apply moves_circles|]. intros x. eapply moves_bind; [apply IH|]. intros xs.
  apply moves_ret. rewrite map_app. reflexivity.
Qed.
Lemma moves_minimap fuel i f w : moves (map sh_cmd) (make_minimap fuel i f w) (make_minimap fuel (sh i) f w).
Proof.
  unfold make_minimap. eapply moves_bind; [mv|]. intros refs. eapply moves_bind; [apply moves_minimap_all|]. intros cs. apply moves_ret. rewrite map_length. cbn [map]. rewrite z_close. cbn [ShiftTranslate.sh_cmd map].
  rewrite !map_app, tok_join_sh. reflexivity.
Qed.
Lemma moves_icon i : moves (fun x => x) (icon_of i) (icon_of (sh i)).
Proof.
  unfold icon_of. eapply moves_bind; [apply moves_get_node|]. intros n. cbn [sh_node n_attrs]. rewrite lookup_fmap. apply moves_ret. destruct (n_attrs n !! a_icon) as [[]|]; reflexivity.
Qed.
(** ** Visit methods *)
Lemma removelast_sh (l : list cmd) : removelast (map sh_cmd l) = map sh_cmd (removelast l).
Proof. induction l as [|x [|y l] IH]; try reflexivity. cbn [map removelast] in *. rewrite IH. reflexivity. Qed.
Lemma moves_hv_manuscript add root fuel i : moves sh_cmd (hv_manuscript add root fuel i) (hv_manuscript add (sh root) fuel (sh i)).
Proof.
  unfold hv_manuscript. eapply moves_bind; [apply moves_visit_manuscript|]. intros c. eapply moves_bind; [apply moves_items_of|]. intros items. eapply moves_bind; [apply moves_getattr|]. intros title. rewrite truthy_sh.
  eapply (moves_bind b (map sh_cmd)); [apply moves_if; [apply moves_wrap|apply moves_ret; reflexivity]|]. clear items. intros items.
  eapply (moves_bind b (map sh_cmd)). { apply moves_if; [|apply moves_ret; reflexivity]. eapply moves_bind; [apply moves_source_div|]. intros d. apply moves_ret. apply insert_nth_sh. }
  clear items. intros items. eapply moves_bind; [mv|]. intros toc. destruct toc as [[t k]|]; cbn [option_map sh_idx fst snd]; [|apply moves_ret; reflexivity].
  eapply moves_bind; [apply moves_minimap|]. intros mm. apply moves_ret. cbn [ShiftTranslate.sh_cmd]. rewrite !map_app, firstn_map, skipn_map. reflexivity.
Qed.
Lemma moves_hv_author fuel i : moves sh_cmd (hv_author fuel i) (hv_author fuel (sh i)).
Proof.
  unfold hv_author. eapply moves_bind; [apply moves_visit_author|]. intros c. eapply moves_bind; [apply moves_replace|]. intros hr. eapply moves_bind; [apply moves_items_of|]. intros items.
  apply moves_ret. cbn [ShiftTranslate.sh_cmd]. rewrite removelast_sh, skipn_map, map_app. reflexivity.
Qed.
Lemma moves_heading fuel i ic items : moves (map sh_cmd) (wrap_heading fuel i ic items) (wrap_heading fuel (sh i) ic (map sh_cmd items)).
Proof. unfold wrap_heading. eapply (moves_bind b (fun x : str => x)); [apply moves_reftext|]. intros l. eapply moves_bind; [apply moves_link|]. intros k. apply moves_wrap. Qed.
Lemma moves_hv_section fuel i : moves sh_cmd (hv_section fuel i) (hv_section fuel (sh i)).
Proof.
  unfold hv_section. eapply moves_bind; [apply moves_visit_section|]. intros c. eapply moves_bind; [apply moves_items_of|]. intros items. eapply moves_bind; [apply moves_icon|]. intros ic.
  eapply moves_bind; [apply moves_heading|]. intros l. apply moves_ret. reflexivity.
Qed.
Lemma moves_hv_abstract fuel i : moves sh_cmd (hv_abstract fuel i) (hv_abstract fuel (sh i)).
Proof.
  unfold hv_abstract. eapply moves_bind; [apply moves_visit_abstract|]. intros c. eapply moves_bind; [apply moves_items_of|]. intros items.
  eapply moves_bind; [apply moves_heading|]. intros l. apply moves_ret. reflexivity.
Qed.
Lemma moves_hv_contents fuel i : moves sh_cmd (hv_contents fuel i) (hv_contents fuel (sh i)).
Proof.
  unfold hv_contents. eapply moves_bind; [apply moves_visit_contents|]. intros c. eapply moves_bind; [apply moves_items_of|]. intros items.
  eapply moves_bind; [apply moves_heading|]. intros l. eapply moves_bind; [apply moves_minimap|]. intros mm. apply moves_ret. cbn [ShiftTranslate.sh_cmd]. rewrite removelast_sh, <- map_rev, !map_app. destruct (rev l); reflexivity.
Qed.
Lemma moves_hv_bibliography fuel i : moves sh_cmd (hv_bibliography fuel i) (hv_bibliography fuel (sh i)).
Proof.
  unfold hv_bibliography. eapply moves_bind; [apply moves_visit_bibliography|]. intros c. eapply moves_bind; [apply moves_items_of|]. intros items. eapply moves_bind; [apply moves_node_tag|]. intros nt.
  change (<[2:=sh_cmd nt]> (map sh_cmd items)) with (<[2:=sh_cmd nt]> (sh_cmd <$> items)). rewrite <- list_fmap_insert.
  eapply moves_bind; [apply moves_heading|]. intros l. apply moves_ret. reflexivity.
Qed.
Lemma moves_hv_paragraph fuel i : moves sh_cmd (hv_paragraph fuel i) (hv_paragraph fuel (sh i)).
Proof.
  unfold hv_paragraph. eapply moves_bind; [apply moves_visit_paragraph|]. intros c. eapply moves_bind; [apply moves_replace|]. intros hr. cbv zeta. eapply moves_bind; [apply moves_items_of|]. intros items.
  apply moves_ret. cbn [ShiftTranslate.sh_cmd]. rewrite map_first_sh, map_app, skipn_map. reflexivity.
Qed.
Lemma moves_hv_labeled fuel v ca i : moves sh_cmd (v i) (v (sh i)) -> moves sh_cmd (hv_labeled fuel v ca i) (hv_labeled fuel v ca (sh i)).
Proof.
  intros Hv. unfold hv_labeled. eapply moves_bind; [exact Hv|]. intros c. eapply moves_bind; [apply moves_replace|]. intros hr. eapply moves_bind; [apply moves_items_of|]. intros items.
  apply moves_ret. cbn [ShiftTranslate.sh_cmd]. rewrite map_app, skipn_map. reflexivity.
Qed.
Lemma moves_hv_subproof i : moves sh_cmd (hv_subproof i) (hv_subproof (sh i)).
Proof. unfold hv_subproof. eapply moves_bind; [apply moves_subproof_hr|]. intros hr. apply moves_ret. rewrite map_first_sh. reflexivity. Qed.
Lemma moves_hv_step fuel i : moves sh_cmd (hv_step fuel i) (hv_step fuel (sh i)).
Proof. unfold hv_step. eapply moves_bind; [apply moves_step_hr|]. intros hr. apply moves_ret. reflexivity. Qed.
Lemma moves_hv_math i : moves sh_cmd (hv_math i) (hv_math (sh i)).
Proof.
  unfold hv_math. eapply moves_bind; [apply moves_visit_math|]. intros c. eapply (moves_bind b (option_map sh)); [mv|]. intros nx. destruct nx as [s|]; cbn [option_map]; [|apply moves_ret; reflexivity].
  eapply (moves_bind b (fun x : bool => x)); [mv|]. intros t. apply moves_if; [apply moves_ret; reflexivity|]. eapply (moves_bind b (fun x : str => x)); [mv|]. intros text. destruct text as [|ch rest]; [apply moves_ret; reflexivity|].
  apply moves_if; [|apply moves_ret; reflexivity]. eapply (moves_bind b (fun x : unit => x)); [apply moves_setattr; reflexivity|]. intros _. eapply moves_bind; [apply moves_items_of|]. intros items. eapply (moves_bind b (fun x : unit => x)); [apply moves_setattr; reflexivity|]. intros _.
  apply moves_ret. reflexivity.
Qed.
Lemma moves_hv_mathblock fuel i : moves sh_cmd (hv_mathblock fuel i) (hv_mathblock fuel (sh i)).
Proof.
  unfold hv_mathblock. eapply moves_bind; [apply moves_getattr|]. intros nonum. rewrite truthy_sh. eapply (moves_bind b (fun x : str => x)).
  { apply moves_if; [apply moves_ret; reflexivity|]. eapply (moves_bind b (fun x : str => x)); [apply moves_reftext|]. intros r. apply moves_ret. reflexivity. }
  intros l. eapply moves_bind; [apply moves_replace|]. intros hr. cbv zeta. apply moves_ret. cbn [ShiftTranslate.sh_cmd map]. rewrite map_first_sh, map_app. reflexivity.
Qed.
Lemma info_icon_sh ic : map sh_tok (info_icon ic) = info_icon ic.
Proof. reflexivity. Qed.
Lemma insert_sh k x (l : list cmd) : <[k := sh_cmd x]> (map sh_cmd l) = map sh_cmd (<[k := x]> l).
Proof. symmetry. apply (list_fmap_insert sh_cmd). Qed.
Lemma moves_hv_bibitem fuel i : moves sh_cmd (hv_bibitem fuel i) (hv_bibitem fuel (sh i)).
Proof.
  unfold hv_bibitem. eapply moves_bind; [apply moves_bibitem_parts|]. intros [[text dt] back]. unfold sh_parts. cbn [fst snd]. eapply moves_bind; [apply moves_node_tag|]. intros nt. cbv zeta.
  change (map sh_tok text, map sh_tok dt, map sh_tok back) with (sh_parts b (text, dt, back)). rewrite bibitem_text_sh.
  eapply moves_bind; [exact (moves_wrap 1 [nt; KText (bibitem_text (text, dt, back))] [lit "hr-hidden"] (Some (lit "ext")) false [] Off)|]. intros hr.
  destruct dt as [|a r]; cbn [map].
  - eapply (moves_bind b (fun x : unit => x)); [apply moves_warn|]. intros _. apply moves_ret. reflexivity.
  - apply moves_ret. cbn [ShiftTranslate.sh_cmd]. rewrite <- !insert_nth_sh, <- !insert_sh. cbn [ShiftTranslate.sh_cmd]. rewrite !map_app. reflexivity.
Qed.
(** ** Leave methods *)
Lemma moves_insert_info k x r : sh_cmd x = x -> moves sh_pair (insert_info k x r) (insert_info k x (sh_pair r)).
Proof.
  intros Hx. unfold insert_info. eapply moves_bind; [apply (moves_items_of b r.1)|]. intros items. apply moves_ret. unfold ShiftTranslate.sh_pair. cbn [fst snd ShiftTranslate.sh_cmd].
  destruct k; [rewrite <- insert_nth_sh, Hx|rewrite <- insert_before_last_sh, Hx]; reflexivity.
Qed.
Lemma moves_hl_author i ts : moves sh_pair (hl_author i ts) (hl_author (sh i) (sh_tst ts)).
Proof. unfold hl_author. eapply moves_bind; [apply moves_leave_node|]. intros r. eapply moves_bind; [apply moves_icon|]. intros ic. apply moves_insert_info, z_icon. Qed.
Lemma moves_hl_paragraph i ts : moves sh_pair (hl_paragraph i ts) (hl_paragraph (sh i) (sh_tst ts)).
Proof. unfold hl_paragraph. eapply moves_bind; [apply moves_leave_paragraph|]. intros r. eapply moves_bind; [apply moves_icon|]. intros ic. apply moves_insert_info, z_icon. Qed.
Lemma moves_hl_icon1 i ts : moves sh_pair (hl_icon1 i ts) (hl_icon1 (sh i) (sh_tst ts)).
Proof. unfold hl_icon1. eapply moves_bind; [apply moves_leave_node|]. intros r. eapply moves_bind; [apply moves_icon|]. intros ic. apply moves_insert_info, z_icon. Qed.
Lemma moves_hl_step fuel i ts : moves sh_pair (hl_step fuel i ts) (hl_step fuel (sh i) (sh_tst ts)).
Proof. unfold hl_step. eapply moves_bind; [apply moves_leave_node|]. intros r. eapply (moves_bind b (fun x : option str => x)); [apply moves_full_number|]. intros f. apply moves_insert_info, z_number. Qed.
Lemma moves_hl_math i ts : moves sh_pair (hl_math i ts) (hl_math (sh i) (sh_tst ts)).
Proof.
  unfold hl_math. eapply moves_bind; [apply moves_leave_node|]. intros r. eapply (moves_bind b (fun x : bool => x)); [apply moves_flag|]. intros fl. apply moves_if; [|apply moves_ret; reflexivity].
  eapply moves_bind; [apply (moves_items_of b r.1)|]. intros items. apply moves_ret. unfold ShiftTranslate.sh_pair. cbn [fst snd ShiftTranslate.sh_cmd]. rewrite map_app. reflexivity.
Qed.
Lemma moves_hl_mathblock fuel i ts : moves sh_pair (hl_mathblock fuel i ts) (hl_mathblock fuel (sh i) (sh_tst ts)).
Proof. unfold hl_mathblock. eapply moves_bind; [apply moves_leave_mathblock|]. intros r. eapply (moves_bind b (fun x : option str => x)); [apply moves_full_number|]. intros f. apply moves_insert_info, z_number. Qed.
Lemma hr_moves hl add root : tc_moves b (hr_tc hl add root) (hr_tc hl add (sh root)).
Proof.
  split; cbn [hr_tc tc_visit tc_leave]; intros.
  - unfold hr_visit. eapply (moves_bind b (fun x : cls => x)); [apply moves_cls_of|]. intros c. destruct (dispatch visit_defined c) as [m|]; [|apply moves_raise].
    destruct m; cbn [hvisit_method]; try exact (moves_visit_method b hl fuel _ i).
    all: first [apply moves_hv_manuscript|apply moves_hv_author|apply moves_hv_section|apply moves_hv_abstract|apply moves_hv_contents|apply moves_hv_bibliography|apply moves_hv_paragraph
      |apply moves_hv_subproof|apply moves_hv_step|apply moves_hv_math|apply moves_hv_mathblock|apply moves_hv_bibitem|apply moves_hv_labeled].
    all: first [apply moves_visit_theorem|apply moves_visit_sketch|apply moves_visit_proof].
  - unfold hr_leave. eapply (moves_bind b (fun x : cls => x)); [apply moves_cls_of|]. intros c. destruct (dispatch hleave_defined c) as [m|]; [|apply moves_raise].
    destruct m; cbn [hleave_method]; try exact (moves_leave_method b _ i ts).
    all: first [apply moves_hl_author|apply moves_hl_paragraph|apply moves_hl_icon1|apply moves_hl_step|apply moves_hl_math|apply moves_hl_mathblock].
Qed.
Theorem moves_translate_handrails hl add fuel i : moves (map sh_tok) (translate_handrails hl add fuel i) (translate_handrails hl add fuel (sh i)).
Proof. unfold translate_handrails. eapply (moves_bind b (fun x : unit => x)); [apply moves_info|]. intros _. apply moves_run; [apply hr_moves|apply ext_base]. Qed.
End Hand.
