(** The mistakes in a source, and what render does. *)
From Verif Require Import PresentDoc RenderTotal.
From Verif Require Export StuckDec Stuck5 RenderAny.
From Verif Require Import ParseShape TreeFacts AppProofs Rendered BuildProofs.
Local Open Scope string_scope.
Local Open Scope list_scope.

Lemma parsed_printable fuel c s t : clean_source c -> parse fuel c empty_st = (s, Ok (root t)) -> tree_at (st_heap s) None t ->
  (put_down s t -> printable s t) /\ (put_down_rails s t -> printable_rails s t).
Proof.
  intros C H Ht. assert (K : forall i n, st_heap empty_st !! i = Some n -> False) by (intros i n; cbn; rewrite lookup_empty; discriminate).
  destruct (parse_from _ _ _ _ _ (cl_source _ C) (cl_errors _ C) (cl_keys _ C) empty_sane H) as (t' & Hr & R & (Hg & Hb & Hty & Hco) & Hh & _ & _).
  assert (t' = t) as ->. { apply (tree_at_unique (st_heap s) None); [exact (proj1 (ms_document _ _ (proj1 R)))|exact Ht|exact Hr]. }
  assert (Hq : pending_inv s).
  { assert (H0 : pending_inv empty_st) by (intros i n Hi; destruct (K _ _ Hi)). pose proof (parse_pending fuel c empty_st H0) as G. rewrite H in G. exact G. }
  assert (Hm : class_of (st_heap s) (root t) CManuscript).
  { rewrite <- (manuscript_class c). eapply holds_class, Hh. }
  assert (W : put_down s t -> printable s t).
  { intros [W1 W2 W3]. split; try assumption.
    - intros x _ (n & Hn & E). destruct (Hq _ _ Hn) as [G _]. congruence.
    - intros x _ (n & Hn & E). destruct (Hq _ _ Hn) as [_ G]. congruence. }
  split; [exact W|]. intros [W1 W2 W3]. split; auto.
Qed.
Lemma minded_kind h x e : minded_rails h x e -> forall m, e <> EParser m.
Proof. intros [e' []|]; discriminate. Qed.

Section Raise.
Context (ts : str -> cst) (hl : str -> str -> str) (pkg : list (str * str)) (fuel : nat).
Notation render_rsm := (render_rsm ts hl pkg fuel).
Lemma render_raises source path hr add c w text s1 s2 d m i e : fresh_ok (w_mem w) -> given source path (w_fs w) text -> In (lc_format c) formats ->
  parse fuel (ts text) empty_st = (s1, Ok i) -> transform fuel [] i s1 = (s2, Ok d) ->
  (if hr : bool then translate_handrails hl (hr && add) fuel i else translate hl fuel i) s2 = (m, Err e) -> (forall x, e <> EParser x) ->
  snd (render_rsm source path hr add c w) = Err e.
Proof.
  intros Hf Hg Hc Hp Ht Htr He. destruct (call_alone ts hl pkg fuel (CallRender source path hr add c) w Hf) as (H1 & _ & _ & _). cbn [do_call] in H1.
  enough (E : snd (render_rsm source path hr add c (new_process (w_fs w))) = Err e) by (rewrite E in H1; exact H1). clear H1.
  assert (Ef : str_mem (lc_format c) formats = true) by (apply str_mem_In, Hc).
  assert (Hend : forall (v v' : world), snd (match e with EParser msg => (say ERROR_LVL (lit "There was an error: " ++ msg) v, Ok (PObj (OText []))) | _ => (v', Err e) end) = Err e) by (intros v v'; destruct e; try reflexivity; destruct (He _ eq_refl)).
  unfold Render.render_rsm, run_app, render_app, processor_app, parser_app.
  destruct Hg as [(Hs & -> & ->)|(-> & Hp0 & Hpl & Hfs)].
  - destruct source as [|x source]; [congruence|]. cbn [truthy_path truthy_str negb andb orb]. unfold rsm_app, config_rsm_logger. rewrite Ef. cbv zeta. cbn [map app].
    unfold app_run, pipeline_run, new_pipeline. rewrite new_pipeline_tasks. cbn [p_tasks app run_tasks call_task task_of t_run exec]. unfold act. cbn [w_mem new_process]. rewrite Hp. cbn [give run_tasks call_task task_of t_run exec w_mem w_dict].
    unfold act. cbn [w_mem]. rewrite Ht. cbn [run_tasks call_task task_of t_run exec w_mem]. unfold act. cbn [w_mem]. rewrite Htr. cbn [give]. destruct e; try reflexivity; destruct (He _ eq_refl).
  - destruct path as [|x path]; [congruence|]. cbn [truthy_path truthy_str negb andb orb]. unfold rsm_app, config_rsm_logger. rewrite Ef. cbv zeta. cbn [map app].
    unfold app_run, pipeline_run, new_pipeline. rewrite new_pipeline_tasks. cbn [p_tasks app run_tasks call_task task_of t_run exec]. unfold read_file. rewrite Hpl. cbv zeta. cbn [w_fs set_log new_process]. rewrite Hfs.
    cbn [give run_tasks call_task task_of t_run exec]. unfold act. cbn [w_mem set_log new_process]. rewrite Hp. cbn [give run_tasks call_task task_of t_run exec w_mem w_dict].
    unfold act. cbn [w_mem w_dict set_log new_process]. rewrite Ht. cbn [run_tasks call_task task_of t_run exec w_mem]. unfold act. cbn [w_mem]. rewrite Htr. cbn [give]. destruct e; try reflexivity; destruct (He _ eq_refl).
Qed.
End Raise.

Theorem render_first ts hl pkg source path hr add c w text s t s' x e : fresh_ok (w_mem w) -> given source path (w_fs w) text -> In (lc_format c) formats ->
  reads_as (ts text) s t -> clean_source (ts text) -> (if hr : bool then put_down_rails s t else put_down s t) -> transforms_to s t s' ->
  (if hr then first_minded_rails s (prune (later_contents (st_heap s) t) t) x e else first_minded s (prune (later_contents (st_heap s) t) t) x e) ->
  exists F, forall fuel, F <= fuel -> snd (render_rsm ts hl pkg fuel source path hr add c w) = Err e.
Proof.
  intros Hf Hg Hc Hp C W Ht Hm. destruct (parses_mono _ _ _ Hp) as [F1 H1]. destruct (transforms_mono _ _ _ Ht) as (F2 & d & H2).
  destruct Hp as [[F0 Hp] Htree]. destruct (parsed_printable _ _ _ _ C Hp Htree) as [P1 P2].
  assert (G : exists F3, forall fuel, F3 <= fuel -> exists m, (if hr then translate_handrails hl (hr && add) fuel (root t) else translate hl fuel (root t)) s' = (m, Err e)).
  { destruct hr.
    - exact (source_first_rails hl (true && add) s t s' x e (P2 W) Ht Hm).
    - exact (source_first hl s t s' x e (P1 W) Ht Hm). }
  assert (He : forall y, e <> EParser y) by (destruct hr; [exact (minded_kind _ _ _ (proj1 Hm))|exact (minded_kind _ _ _ (minded_same _ _ _ (proj1 Hm)))]).
  destruct G as [F3 H3]. exists (F1 + F2 + F3). intros fuel Hfu. destruct (H3 fuel ltac:(lia)) as [m Hm3].
  eapply render_raises; [exact Hf|exact Hg|exact Hc|apply H1; lia|apply H2; lia|exact Hm3|exact He].
Qed.
Theorem render_iff ts hl pkg source path hr add c w text s t s' : fresh_ok (w_mem w) -> given source path (w_fs w) text -> In (lc_format c) formats ->
  reads_as (ts text) s t -> clean_source (ts text) -> (if hr : bool then put_down_rails s t else put_down s t) -> transforms_to s t s' ->
  (exists F html, forall fuel, F <= fuel -> snd (render_rsm ts hl pkg fuel source path hr add c w) = Ok (PObj (OText html))) <->
  forall x e, x ∈ doc_order (prune (later_contents (st_heap s) t) t) -> ~ (if hr then minded_rails (st_heap s) x e else minded (st_heap s) x e).
Proof.
  intros Hf Hg Hc Hp C W Ht. split.
  - intros (F & html & H) x e Hx Hm.
    assert (K : exists y e', if hr then first_minded_rails s (prune (later_contents (st_heap s) t) t) y e' else first_minded s (prune (later_contents (st_heap s) t) t) y e').
    { destruct hr; [exact (first_exists_rails _ _ _ _ Hx Hm)|exact (StuckDec.first_exists _ _ _ _ Hx Hm)]. }
    destruct K as (y & e' & K). destruct (render_first ts hl pkg source path hr add c w text s t s' y e' Hf Hg Hc Hp C W Ht K) as [F' H'].
    specialize (H (F + F') ltac:(lia)). specialize (H' (F + F') ltac:(lia)). congruence.
  - intros N. destruct (parses_mono _ _ _ Hp) as [F1 H1]. destruct (transforms_mono _ _ _ Ht) as (F2 & d & H2).
    destruct Hp as [[F0 Hp] Htree]. destruct (parsed_printable _ _ _ _ C Hp Htree) as [P1 P2].
    assert (G : exists h m F3, forall fuel, F3 <= fuel -> (if hr then translate_handrails hl (hr && add) fuel (root t) else translate hl fuel (root t)) s' = (m, Ok h)).
    { destruct hr.
      - exact (proj2 (source_iff_rails hl (true && add) s t s' (P2 W) Ht) N).
      - exact (proj2 (source_iff hl s t s' (P1 W) Ht) N). }
    destruct G as (h & m & F3 & H3). exists (F1 + F2 + F3), (Html.render h). intros fuel Hfu.
    eapply render_returns; [exact Hf|exact Hg|exact Hc|]. exists s, s', d. split; [apply H1; lia|]. split; [apply H2; lia|]. apply H3. lia.
Qed.
