(** All that render may do with a source without syntax errors. *)
From Verif Require Import PresentDoc RenderTotal Late.
From Verif Require Export Stuck6.
From Verif Require Import ParseShape TreeFacts AppProofs Rendered BuildProofs.
Local Open Scope string_scope.
Local Open Scope list_scope.

Section Raise.
Context (ts : str -> cst) (hl : str -> str -> str) (pkg : list (str * str)) (fuel : nat).
Notation render_rsm := (render_rsm ts hl pkg fuel).
Lemma render_raises_early source path hr add c w text s1 s2 i e : fresh_ok (w_mem w) -> given source path (w_fs w) text -> In (lc_format c) formats ->
  parse fuel (ts text) empty_st = (s1, Ok i) -> transform fuel [] i s1 = (s2, Err e) -> (forall x, e <> EParser x) ->
  snd (render_rsm source path hr add c w) = Err e.
Proof.
  intros Hf Hg Hc Hp Ht He. destruct (call_alone ts hl pkg fuel (CallRender source path hr add c) w Hf) as (H1 & _ & _ & _). cbn [do_call] in H1.
  enough (E : snd (render_rsm source path hr add c (new_process (w_fs w))) = Err e) by (rewrite E in H1; exact H1). clear H1.
  assert (Ef : str_mem (lc_format c) formats = true) by (apply str_mem_In, Hc).
  unfold Render.render_rsm, run_app, render_app, processor_app, parser_app.
  destruct Hg as [(Hs & -> & ->)|(-> & Hp0 & Hpl & Hfs)].
  - destruct source as [|x source]; [congruence|]. cbn [truthy_path truthy_str negb andb orb]. unfold rsm_app, config_rsm_logger. rewrite Ef. cbv zeta. cbn [map app].
    unfold app_run, pipeline_run, new_pipeline. rewrite new_pipeline_tasks. cbn [p_tasks app run_tasks call_task task_of t_run exec]. unfold act. cbn [w_mem new_process]. rewrite Hp. cbn [give run_tasks call_task task_of t_run exec w_mem w_dict].
    unfold act. cbn [w_mem]. rewrite Ht. destruct e; try reflexivity; destruct (He _ eq_refl).
  - destruct path as [|x path]; [congruence|]. cbn [truthy_path truthy_str negb andb orb]. unfold rsm_app, config_rsm_logger. rewrite Ef. cbv zeta. cbn [map app].
    unfold app_run, pipeline_run, new_pipeline. rewrite new_pipeline_tasks. cbn [p_tasks app run_tasks call_task task_of t_run exec]. unfold read_file. rewrite Hpl. cbv zeta. cbn [w_fs set_log new_process]. rewrite Hfs.
    cbn [give run_tasks call_task task_of t_run exec]. unfold act. cbn [w_mem set_log new_process]. rewrite Hp. cbn [give run_tasks call_task task_of t_run exec w_mem w_dict].
    unfold act. cbn [w_mem w_dict set_log new_process]. rewrite Ht. destruct e; try reflexivity; destruct (He _ eq_refl).
Qed.
End Raise.
Lemma parsed_placed fuel c s i : parse fuel c empty_st = (s, Ok i) -> parents_permitted (st_heap s).
Proof.
  intros H. assert (K : forall i n, st_heap empty_st !! i = Some n -> False) by (intros j n; cbn; rewrite lookup_empty; discriminate).
  assert (H0 : placed_inv empty_st) by (split; [intros j n Hi|intros j n p Hi]; destruct (K _ _ Hi)). pose proof (parse_placed fuel c empty_st H0) as G. rewrite H in G.
  apply placed_permitted, G.
Qed.
Lemma mistake_kind h t x e : mistake h t x e -> forall m, e <> EParser m.
Proof. intros []; discriminate. Qed.
Lemma blamed_kind_of hr s t e : blamed hr s t e -> forall m, e <> EParser m.
Proof.
  intros []; try discriminate.
  - exact (mistake_kind _ _ _ _ (proj1 H)).
  - exact (minded_kind _ _ _ (minded_same _ _ _ (proj1 H0))).
  - exact (minded_kind _ _ _ (proj1 H0)).
Qed.

Theorem render_outcomes ts hl pkg source path hr add c w text s t : fresh_ok (w_mem w) -> given source path (w_fs w) text -> In (lc_format c) formats ->
  reads_as (ts text) s t -> clean_source (ts text) -> (if hr : bool then put_down_rails s t else put_down s t) -> arranged s t ->
  (exists F html, forall fuel, F <= fuel -> snd (render_rsm ts hl pkg fuel source path hr add c w) = Ok (PObj (OText html))) \/
  exists F e, blamed hr s t e /\ forall fuel, F <= fuel -> snd (render_rsm ts hl pkg fuel source path hr add c w) = Err e.
Proof.
  intros Hf Hg Hc Hp C W A. pose proof Hp as Hp1. destruct Hp1 as [[F0 Hp0] Htree]. destruct (parsed_printable _ _ _ _ C Hp0 Htree) as [P1 P2].
  assert (P : printable s t) by (destruct hr; [exact (ptr_doc _ _ (P2 W))|exact (P1 W)]).
  assert (PL : plausible s t) by (split; [apply P|apply P|apply P|apply P|apply A|apply A]).
  assert (Early : forall e, blamed hr s t e -> transform_raises s t e -> exists F e, blamed hr s t e /\ forall fuel, F <= fuel -> snd (render_rsm ts hl pkg fuel source path hr add c w) = Err e).
  { intros e B [F2 H2]. destruct (parses_mono _ _ _ Hp) as [F1 H1]. exists (F1 + F2), e. split; [exact B|]. intros fuel Hfu. destruct (H2 fuel ltac:(lia)) as [s2 H3].
    eapply render_raises_early; [exact Hf|exact Hg|exact Hc|apply H1; lia|exact H3|exact (blamed_kind_of _ _ _ _ B)]. }
  destruct (Late.all_outcomes s t PL (parsed_placed _ _ _ _ Hp0) (ar_nested _ _ A)) as [[s' Ht]|[(x & e & Hx & G)|[((x & Hx & Hb) & G)|[((x & Hx & Hb) & G)|((x & Hx & Hb) & G)]]]].
  - assert (D : (exists x e, x ∈ doc_order (prune (later_contents (st_heap s) t) t) /\ (if hr then minded_rails (st_heap s) x e else minded (st_heap s) x e)) \/
      forall x e, x ∈ doc_order (prune (later_contents (st_heap s) t) t) -> ~ (if hr then minded_rails (st_heap s) x e else minded (st_heap s) x e)).
    { generalize (doc_order (prune (later_contents (st_heap s) t) t)). intros l. induction l as [|y l [(x & e & Hx & Hm)|IH]]; [right; intros x e Hx; inversion Hx|left; exists x, e; split; [apply elem_of_cons; auto|exact Hm]|].
      assert (D : (exists e, if hr then minded_rails (st_heap s) y e else minded (st_heap s) y e) \/ forall e, ~ (if hr then minded_rails (st_heap s) y e else minded (st_heap s) y e)).
      { destruct hr.
        - destruct (mindedrb (st_heap s) y) as [e|] eqn:E; [left; exists e; apply mindedrb_spec, E|right; intros e Hm; apply mindedrb_spec in Hm; congruence].
        - destruct (mindedb (st_heap s) y) as [e|] eqn:E; [left; exists e; apply mindedb_spec, E|right; intros e Hm; apply mindedb_spec in Hm; congruence]. }
      destruct D as [[e D]|D]; [left; exists y, e; split; [apply elem_of_cons; auto|exact D]|right]. intros x e Hx. apply elem_of_cons in Hx as [->|Hx]; [apply D|apply IH, Hx]. }
    destruct D as [(x & e & Hx & Hm)|D].
    + right. assert (K : exists y e', if hr then first_minded_rails s (prune (later_contents (st_heap s) t) t) y e' else first_minded s (prune (later_contents (st_heap s) t) t) y e').
      { destruct hr; [exact (first_exists_rails _ _ _ _ Hx Hm)|exact (StuckDec.first_exists _ _ _ _ Hx Hm)]. }
      destruct K as (y & e' & K). destruct (render_first ts hl pkg source path hr add c w text s t s' y e' Hf Hg Hc Hp C W Ht K) as [F H].
      exists F, e'. split; [destruct hr; [exact (blamed_rails true _ _ y e' eq_refl K)|exact (blamed_node false _ _ y e' eq_refl K)]|exact H].
    + left. exact (proj2 (render_iff ts hl pkg source path hr add c w text s t s' Hf Hg Hc Hp C W Ht) D).
  - right. apply (Early e); [exact (blamed_reference _ _ _ x e Hx)|exact G].
  - right. apply (Early EAssert); [exact (blamed_subproof _ _ _ x Hx Hb)|exact G].
  - right. apply (Early EStopIteration); [exact (blamed_letter _ _ _ x Hx Hb)|exact G].
  - right. apply (Early EAssert); [exact (blamed_kind _ _ _ x Hx Hb)|exact G].
Qed.
