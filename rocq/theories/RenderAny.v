(** The properties of render in any process, whatever nodes are in memory. *)
From Verif Require Export RenderProps Isolation.
From Verif Require Import TreeFacts AppProofs Rendered BuildProofs.
Local Open Scope string_scope.
Local Open Scope list_scope.

Lemma empty_sane : sane empty_st.
Proof.
  split; [split|split; [|split]].
  - intros i n. cbn. rewrite lookup_empty. discriminate.
  - exact consistent_empty.
  - intros i n. cbn. rewrite lookup_empty. discriminate.
  - intros i n. cbn. rewrite lookup_empty. discriminate.
  - intros i n. cbn. rewrite lookup_empty. discriminate.
Qed.
Section Any.
Context (ts : str -> cst) (hl : str -> str -> str) (pkg : list (str * str)) (fuel : nat).
Notation render_rsm := (render_rsm ts hl pkg fuel).
Lemma text_alone source path hr add c w w' out : fresh_ok (w_mem w) -> render_rsm source path hr add c w = (w', Ok (PObj (OText out))) ->
  exists w0', render_rsm source path hr add c (new_process (w_fs w)) = (w0', Ok (PObj (OText out))) /\
    memory_beside (st_heap (w_mem w)) (st_heap (w_mem w')) (st_heap (w_mem w0')) (st_next (w_mem w)).
Proof.
  intros Hf H. destruct (call_alone ts hl pkg fuel (CallRender source path hr add c) w Hf) as (H1 & _ & _ & H4). cbn [do_call] in *. rewrite H in *. cbn [fst snd] in *.
  destruct (render_rsm source path hr add c (new_process (w_fs w))) as [w0' r]. cbn [fst snd] in *. exists w0'. split; [|exact H4]. f_equal.
  destruct r as [[| | |[]]|]; cbn [same_answer] in H1; congruence.
Qed.
Lemma any_nested source path hr add c w w' out : fresh_ok (w_mem w) ->
  (forall text, given source path (w_fs w) text -> clean_source (ts text) /\ formulas_placed (manuscript_of (ts text))) ->
  render_rsm source path hr add c w = (w', Ok (PObj (OText out))) -> out <> [] ->
  exists text h m i, given source path (w_fs w) text /\ pieces ts hl fuel hr (hr && add) text h m i /\ out = Html.render h /\ nested h.
Proof. intros Hf Hc H Ho. destruct (text_alone _ _ _ _ _ _ _ _ Hf H) as (w0' & H0 & _). destruct (rendered_nested ts hl pkg fuel _ _ _ _ _ (new_process (w_fs w)) _ _ empty_sane Hc eq_refl H0 Ho) as (text & h & i & G). exists text, h, (w_mem w0'), i; exact G. Qed.
(** The pieces show exactly the texts of the manuscript, and the note for each unknown label. *)
Lemma any_texts source path add c w w' out : fresh_ok (w_mem w) ->
  (forall text, given source path (w_fs w) text -> clean_source (ts text) /\ contents_empty (manuscript_of (ts text))) ->
  render_rsm source path false add c w = (w', Ok (PObj (OText out))) -> out <> [] ->
  exists text h m t, given source path (w_fs w) text /\ pieces ts hl fuel false false text h m (root t) /\ out = Html.render h /\
    tree_at (st_heap m) None t /\ texts_shown hl (manuscript_of (ts text)) (map snd (shown_of t h)).
Proof.
  intros Hf Hc H Ho. destruct (text_alone _ _ _ _ _ _ _ _ Hf H) as (w0' & H0 & _).
  destruct (rendered_texts ts hl pkg fuel _ _ _ _ (new_process (w_fs w)) _ _ empty_sane Hc eq_refl H0 Ho) as (text & h & t & Hg & Hp & He & Ht & Hs). exists text, h, (w_mem w0'), t. auto.
Qed.
Lemma any_links source path add c w w' out : fresh_ok (w_mem w) ->
  (forall text, given source path (w_fs w) text -> clean_source (ts text) /\ contents_empty (manuscript_of (ts text))) ->
  render_rsm source path false add c w = (w', Ok (PObj (OText out))) -> out <> [] ->
  exists text h m i, given source path (w_fs w) text /\ pieces ts hl fuel false false text h m i /\ out = Html.render h /\
    forall b lbl x, In b (a_preorder (manuscript_of (ts text))) -> a_class b = CPendingReference -> a_attrs b !! a_target = Some (VStr lbl) ->
      first_carrier (manuscript_of (ts text)) lbl x -> a_class x ∉ CContents :: CCite :: bare ->
      lit "#" ++ lbl ∈ SpecHtml.hrefs h /\ lbl ∈ SpecHtml.ids h.
Proof. intros Hf Hc H Ho. destruct (text_alone _ _ _ _ _ _ _ _ Hf H) as (w0' & H0 & _). destruct (rendered_links ts hl pkg fuel _ _ _ _ (new_process (w_fs w)) _ _ empty_sane Hc eq_refl H0 Ho) as (text & h & i & G). exists text, h, (w_mem w0'), i; exact G. Qed.
(** What render returns, from both sides. *)
Lemma render_pieces source path hr add c w w' out : fresh_ok (w_mem w) -> render_rsm source path hr add c w = (w', Ok (PObj (OText out))) -> out <> [] ->
  exists text h m i, given source path (w_fs w) text /\ pieces ts hl fuel hr (hr && add) text h m i /\ out = Html.render h.
Proof.
  intros Hf H Ho. destruct (text_alone _ _ _ _ _ _ _ _ Hf H) as (w0' & H0 & _). apply render_does in H0 as (_ & [E|(text & s1 & i & s2 & d & h & Hg & Hp & Ht & Htr & E)]); injection E as ->; [congruence|].
  exists text, h, (w_mem w0'), i. split; [exact Hg|]. split; [|reflexivity]. exists s1, s2, d. auto.
Qed.
Lemma render_returns source path hr add c w text h m i : fresh_ok (w_mem w) -> given source path (w_fs w) text -> In (lc_format c) formats ->
  pieces ts hl fuel hr (hr && add) text h m i -> snd (render_rsm source path hr add c w) = Ok (PObj (OText (Html.render h))).
Proof.
  intros Hf Hg Hc (s1 & s2 & d & Hp & Ht & Htr). destruct (call_alone ts hl pkg fuel (CallRender source path hr add c) w Hf) as (H1 & _ & _ & _). cbn [do_call] in H1.
  enough (E : snd (render_rsm source path hr add c (new_process (w_fs w))) = Ok (PObj (OText (Html.render h)))) by (rewrite E in H1; exact H1). clear H1.
  assert (Ef : str_mem (lc_format c) formats = true) by (apply str_mem_In, Hc).
  unfold Render.render_rsm, run_app, render_app, processor_app, parser_app.
  destruct Hg as [(Hs & -> & ->)|(-> & Hp0 & Hpl & Hfs)].
  - destruct source as [|x source]; [congruence|]. cbn [truthy_path truthy_str negb andb orb]. unfold rsm_app, config_rsm_logger. rewrite Ef. cbv zeta. cbn [map app].
    unfold app_run, pipeline_run, new_pipeline. rewrite new_pipeline_tasks. cbn [p_tasks app run_tasks call_task task_of t_run exec]. unfold act. cbn [w_mem new_process]. rewrite Hp. cbn [give run_tasks call_task task_of t_run exec w_mem w_dict].
    unfold act. cbn [w_mem]. rewrite Ht. cbn [run_tasks call_task task_of t_run exec w_mem]. unfold act. cbn [w_mem]. rewrite Htr. reflexivity.
  - destruct path as [|x path]; [congruence|]. cbn [truthy_path truthy_str negb andb orb]. unfold rsm_app, config_rsm_logger. rewrite Ef. cbv zeta. cbn [map app].
    unfold app_run, pipeline_run, new_pipeline. rewrite new_pipeline_tasks. cbn [p_tasks app run_tasks call_task task_of t_run exec]. unfold read_file. rewrite Hpl. cbv zeta. cbn [w_fs set_log new_process]. rewrite Hfs.
    cbn [give run_tasks call_task task_of t_run exec]. unfold act. cbn [w_mem set_log new_process]. rewrite Hp. cbn [give run_tasks call_task task_of t_run exec w_mem w_dict].
    unfold act. cbn [w_mem w_dict set_log new_process]. rewrite Ht. cbn [run_tasks call_task task_of t_run exec w_mem]. unfold act. cbn [w_mem]. rewrite Htr. reflexivity.
Qed.
Lemma any_make source path hr lnt c w w' r : fresh_ok (w_mem w) -> make_rsm ts hl pkg fuel source path hr lnt c w = (w', r) ->
  (w_fs w' = w_fs w /\ (r = Ok (PObj (OText [])) \/ exists e, r = Err e)) \/
  (r = Ok PNone /\ exists text h m i p, given source path (w_fs w) text /\ pieces ts hl fuel lnt lnt text h m i /\ full_build pkg (w_fs w) (Html.render h) = Ok p /\ w_fs w' = write p (w_fs w)).
Proof.
  intros Hf H. destruct (call_alone ts hl pkg fuel (CallMake source path hr lnt c) w Hf) as (H1 & H2 & _ & _). cbn [do_call] in H1, H2. rewrite H in H1, H2. cbn [fst snd] in H1, H2.
  destruct (make_rsm ts hl pkg fuel source path hr lnt c (new_process (w_fs w))) as [w0 r0] eqn:E. cbn [fst snd] in *.
  apply make_does in E as [(E1 & E2)|(E1 & text & s1 & i & s2 & d & h & p & Hg & Hp & Ht & Htr & Hb & Hw)].
  - left. split; [rewrite H2; exact E1|]. destruct E2 as [->|[e ->]]; cbn [same_answer] in H1; eauto.
  - right. subst r0. split; [exact H1|]. exists text, h, (w_mem w0), i, p. split; [exact Hg|]. split; [exists s1, s2, d; auto|]. split; [exact Hb|]. rewrite H2. exact Hw.
Qed.
Lemma make_touches source path hr lnt c w w' r f : fresh_ok (w_mem w) -> make_rsm ts hl pkg fuel source path hr lnt c w = (w', r) -> f <> lit "index.html" -> (forall n, f <> lit "static/" ++ n) -> w_fs w' !! f = w_fs w !! f.
Proof.
  intros Hf H H1 H2. apply any_make in H as [(-> & _)|(_ & text & h & m & i & p & _ & _ & Hb & ->)]; [reflexivity| |exact Hf]. exact (write_touches _ _ _ _ _ Hb H1 H2).
Qed.
End Any.
