(** A call of render, lint or make does the same in any process as in a new one. *)
From Verif Require Export SpecCalls ShiftHand.
From Verif Require Import AppProofs Rendered.
Local Open Scope string_scope.
Local Open Scope list_scope.

Section Iso.
Context (ts : str -> cst) (hl : str -> str -> str) (pkg : list (str * str)) (fuel : nat).
Section World.
Context (b : shiftby) (out : list (Z * str)).
Notation sh := (sh b).
Definition sh_obj (o : obj) : obj := match o with OTree i => OTree (sh i) | _ => o end.
Definition sh_pv (v : pv obj) : pv obj := match v with PObj o => PObj (sh_obj o) | _ => v end.
Definition flat (v : pv obj) : Prop := match v with PNone | PObj _ => True | _ => False end.
Definition sh_log (g : glog) : glog := MkG (g_level g) (g_handlers g) (out ++ g_out g).
Definition sh_world (w : world) : world := MkW (sh_st b (w_mem w)) (sh_log (w_log w)) (sh_labels b (w_dict w)) (w_fs w).
Lemma log_at_sh l m g : log_at l m (sh_log g) = sh_log (log_at l m g).
Proof. unfold log_at. cbn [sh_log g_level]. destruct (Z.leb _ l); [|reflexivity]. unfold sh_log. cbn. rewrite app_assoc. reflexivity. Qed.
Lemma set_log_sh l m w : set_log (log_at l m (w_log (sh_world w))) (sh_world w) = sh_world (set_log (log_at l m (w_log w)) w).
Proof. unfold sh_world, set_log. cbn. rewrite log_at_sh. reflexivity. Qed.
Lemma show_sh s s' g : Render.show (sh_st b s) (sh_st b s') (sh_log g) = sh_log (Render.show s s' g).
Proof.
  unfold Render.show. cbn [sh_st st_logs]. rewrite app_length, <- drop_drop. 
  replace (drop (length (st_logs s)) (drop (length (sb_logs b)) (sb_logs b ++ st_logs s'))) with (drop (length (st_logs s)) (st_logs s')) by (rewrite drop_app; reflexivity).
  generalize (drop (length (st_logs s)) (st_logs s')). intros l. revert g. induction l as [|r l IH]; intros g; [reflexivity|]. cbn [fold_left]. rewrite log_at_sh. apply IH.
Qed.
Lemma act_sh {A B} (f : A -> B) m m' w : moves b f m m' -> act m' (sh_world w) = (sh_world (fst (act m w)), rmap f (snd (act m w))).
Proof. intros H. unfold act. cbn [sh_world w_mem w_log w_dict w_fs]. rewrite (proj1 (H (w_mem w))). destruct (m (w_mem w)) as [s r]. cbn [fst snd]. rewrite show_sh. reflexivity. Qed.
Definition both (p : world * res (pv obj)) : world * res (pv obj) := (sh_world (fst p), rmap sh_pv (snd p)).
Lemma give_sh {A B} (f : A -> B) (g : A -> pv obj) (g' : B -> pv obj) m m' w : moves b f m m' -> (forall a, g' (f a) = sh_pv (g a)) -> give g' (act m' (sh_world w)) = both (give g (act m w)).
Proof. intros H Hg. rewrite (act_sh f m m' w H). destruct (act m w) as [w1 [a|e]]; cbn [fst snd rmap give both]; [rewrite Hg|]; reflexivity. Qed.
Lemma exec_sh s v w : flat v -> call_task (task_of ts hl pkg fuel s) (sh_pv v) (sh_world w) = both (call_task (task_of ts hl pkg fuel s) v w).
Proof.
  intros Hv. destruct v as [| | |o]; try destruct Hv; cbn [sh_pv call_task task_of t_run].
  - destruct s; cbn [exec]; try reflexivity. unfold read_file. rewrite set_log_sh. cbv zeta.
    destruct p as [|[|]|]; try reflexivity; destruct (plain_path _); try reflexivity; cbn [sh_world w_fs set_log]; destruct (w_fs w !! _); reflexivity.
  - destruct s; try reflexivity; destruct o as [t|i|p]; cbn [sh_obj exec]; try reflexivity.
    + eapply give_sh; [apply moves_parse|reflexivity].
    + cbn [sh_world w_dict]. fold (sh_world w). rewrite (act_sh (sh_labels b) _ _ w (moves_transform b fuel (w_dict w) i)). destruct (act (transform fuel (w_dict w) i) w) as [w1 [d|e]]; reflexivity.
    + eapply give_sh; [apply moves_lint|reflexivity].
    + eapply give_sh; [destruct handrails; [apply moves_translate_handrails|apply moves_translate]|]. intros l. cbn [sh_pv sh_obj]. rewrite render_sh. reflexivity.
    + rewrite set_log_sh. cbv zeta. cbn [sh_world w_fs set_log]. destruct (full_build pkg (w_fs w) t); reflexivity.
Qed.
Lemma exec_flat s args kws w w1 v : exec ts hl pkg fuel s args kws w = (w1, Ok v) -> flat v.
Proof.
  intros H. destruct s; destruct args as [|[] [|]]; try discriminate H; destruct kws; try discriminate H; cbn [exec] in H; try (destruct o; try discriminate H); unfold give in H.
  - destruct (read_file p w) as [? [|]]; [|discriminate H]. injection H as _ <-. exact I.
  - injection H as _ <-. exact I.
  - destruct (act _ _) as [? [|]]; [|discriminate H]. injection H as _ <-. exact I.
  - destruct (act _ _) as [? [|]]; [|discriminate H]. injection H as _ <-. exact I.
  - destruct (act _ _) as [? [|]]; [|discriminate H]. injection H as _ <-. exact I.
  - destruct (act _ _) as [? [|]]; [|discriminate H]. injection H as _ <-. exact I.
  - cbv zeta in H. destruct (full_build _ _ _); [|discriminate H]. injection H as _ <-. exact I.
  - injection H as _ <-. exact I.
Qed.
Lemma call_flat s v w w1 v1 : call_task (task_of ts hl pkg fuel s) v w = (w1, Ok v1) -> flat v1.
Proof. unfold call_task. destruct v; cbn [task_of t_run]; apply exec_flat. Qed.
Lemma run_sh l : forall v w, flat v -> run_stages ts hl pkg fuel l (sh_pv v) (sh_world w) = both (run_stages ts hl pkg fuel l v w).
Proof.
  unfold run_stages. induction l as [|s l IH]; intros v w Hv; [reflexivity|]. cbn [map run_tasks]. rewrite exec_sh by exact Hv.
  destruct (call_task (task_of ts hl pkg fuel s) v w) as [w1 [v1|e]] eqn:E; cbn [both fst snd rmap]; [|reflexivity]. apply IH. eapply call_flat, E.
Qed.
Lemma app_sh l w : app_run say (OText []) (new_pipeline (map (task_of ts hl pkg fuel) l)) PNone (sh_world w) = both (app_run say (OText []) (new_pipeline (map (task_of ts hl pkg fuel) l)) PNone w).
Proof.
  unfold app_run, pipeline_run, new_pipeline. rewrite new_pipeline_tasks. cbn [p_tasks app]. pose proof (run_sh l PNone w I) as E. unfold run_stages in E. cbn [sh_pv] in E. rewrite E.
  destruct (run_tasks (map (task_of ts hl pkg fuel) l) PNone w) as [w1 [v|e]]; cbn [both fst snd rmap].
  - unfold both, say. cbn [fst snd rmap]. rewrite set_log_sh. reflexivity.
  - destruct e; try reflexivity. unfold both, say. cbn [fst snd rmap]. rewrite set_log_sh. reflexivity.
Qed.
End World.
(** Applications, which configure the logger anew, whatever it was. *)
Definition steady (a : built_app) : Prop := forall g,
  (exists e, snd (a g) = Err e /\ snd (a initial_log) = Err e /\ g_out (fst (a g)) = g_out g /\ g_out (fst (a initial_log)) = []) \/
  (exists l g0, a initial_log = (g0, Ok l) /\ a g = (sh_log (g_out g) g0, Ok l)).
Lemma steady_parser p s c : steady (parser_app p s c).
Proof.
  intros g. unfold parser_app. destruct (_ || _); [left; eexists; repeat split|]. unfold rsm_app, config_rsm_logger. cbv zeta. destruct (str_mem (lc_format c) formats) eqn:Ef; [right|left; eexists; repeat split].
  eexists _, _. split; [reflexivity|]. f_equal. rewrite <- !log_at_sh. f_equal. f_equal. unfold sh_log, set_level. cbn. rewrite app_nil_r. reflexivity.
Qed.
Lemma steady_linter p s c : steady (linter_app p s c).
Proof.
  intros g. unfold linter_app. destruct (steady_parser p s (MkLC LINT_LVL (lc_format c) (lc_time c) (lc_lineno c)) g) as [(e & H1 & H2 & H3 & H4)|(l & g0 & H1 & H2)].
  - left. exists e. destruct (parser_app p s _ g) as [g1 [l|e1]]; cbn [fst snd] in *; try discriminate H1. destruct (parser_app p s _ initial_log) as [g2 [l|e2]]; cbn [fst snd] in *; try discriminate H2. auto.
  - right. rewrite H1, H2. eexists _, _. split; [reflexivity|]. f_equal. unfold new_linter. cbn [sh_log g_level]. destruct (Z.ltb LINT_LVL (g_level g0)); reflexivity.
Qed.
Lemma steady_processor p s c h a r : steady (processor_app p s c h a r).
Proof.
  intros g. unfold processor_app. destruct (steady_parser p s c g) as [(e & H1 & H2 & H3 & H4)|(l & g0 & H1 & H2)].
  - left. exists e. destruct (parser_app p s _ g) as [g1 [l|e1]]; cbn [fst snd] in *; try discriminate H1. destruct (parser_app p s _ initial_log) as [g2 [l|e2]]; cbn [fst snd] in *; try discriminate H2. auto.
  - right. rewrite H1, H2. destruct r; eexists _, _; (split; [reflexivity|]); f_equal. unfold new_linter. cbn [sh_log g_level]. destruct (Z.ltb LINT_LVL (g_level g0)); reflexivity.
Qed.
Lemma steady_full p s c h r : steady (full_build_app p s c h r).
Proof.
  intros g. unfold full_build_app. destruct (steady_processor p s (MkLC (lc_level c) (lc_format c) (lc_time c) h) r true false g) as [(e & H1 & H2 & H3 & H4)|(l & g0 & H1 & H2)].
  - left. exists e. destruct (processor_app p s _ _ _ _ g) as [g1 [l|e1]]; cbn [fst snd] in *; try discriminate H1. destruct (processor_app p s _ _ _ _ initial_log) as [g2 [l|e2]]; cbn [fst snd] in *; try discriminate H2. auto.
  - right. rewrite H1, H2. eexists _, _. split; reflexivity.
Qed.
Lemma beside_ok s : fresh_ok s -> forall j, st_next s <= j -> st_heap s !! j = None.
Proof. intros H j Hj. destruct (st_heap s !! j) as [n|] eqn:E; [|reflexivity]. apply H in E. lia. Qed.
Definition beside (s : st) (H : fresh_ok s) : shiftby := MkShift (st_next s) (st_heap s) (st_logs s) (beside_ok s H).
Lemma beside_empty s H : sh_st (beside s H) empty_st = s.
Proof. unfold sh_st, sh_heap, Shift.sh. destruct s as [h n l]. cbn. rewrite fmap_empty, kmap_empty, map_union_empty, Nat.add_0_r, app_nil_r. reflexivity. Qed.
(** The memory of a call alone has only identities below the next one. *)
Lemma run_app_iso a w : steady a -> fresh_ok (w_mem w) ->
  let p := run_app ts hl pkg fuel a w in let p0 := run_app ts hl pkg fuel a (new_process (w_fs w)) in
  same_answer (st_next (w_mem w)) (snd p) (snd p0) /\ w_fs (fst p) = w_fs (fst p0) /\ g_out (w_log (fst p)) = g_out (w_log w) ++ g_out (w_log (fst p0)) /\
  memory_beside (st_heap (w_mem w)) (st_heap (w_mem (fst p))) (st_heap (w_mem (fst p0))) (st_next (w_mem w)) /\
  st_next (w_mem (fst p)) = st_next (w_mem w) + st_next (w_mem (fst p0)).
Proof.
  intros Ha Hf. cbv zeta. set (b := beside (w_mem w) Hf). unfold run_app. cbn [new_process w_log w_mem w_fs].
  assert (MB : forall s, memory_beside (st_heap (w_mem w)) (sh_heap b (st_heap s)) (st_heap s) (st_next (w_mem w))).
  { intros s. split; intros i.
    - intros Hi. unfold sh_heap. cbn [b beside sb_old]. destruct (st_heap (w_mem w) !! i) as [n|] eqn:E; [apply lookup_union_Some_l, E|]. rewrite lookup_union_r by exact E.
      rewrite lookup_kmap_None by apply sh_inj. intros j Hj. unfold Shift.sh in Hj. cbn in Hj. lia.
    - change (st_next (w_mem w) + i) with (Shift.sh b i). rewrite sh_lookup. destruct (st_heap s !! i); reflexivity. }
  destruct (Ha (w_log w)) as [(e & H1 & H2 & H3 & H4)|(l & g0 & H1 & H2)].
  - destruct (a (w_log w)) as [g1 [l|e1]]; cbn [fst snd] in *; try discriminate H1. destruct (a initial_log) as [g2 [l|e2]]; cbn [fst snd] in *; try discriminate H2.
    injection H1 as ->. injection H2 as ->. cbn [fst snd set_log w_fs w_log w_mem]. split; [reflexivity|]. split; [reflexivity|]. split; [rewrite H3, H4, app_nil_r; reflexivity|].
    split; [|rewrite Nat.add_0_r; reflexivity]. specialize (MB empty_st). pose proof (beside_empty (w_mem w) Hf) as E. fold b in E. apply (f_equal st_heap) in E. cbn [sh_st st_heap] in E. rewrite E in MB. exact MB.
  - rewrite H1, H2. pose proof (app_sh b (g_out (w_log w)) l (MkW empty_st g0 [] (w_fs w))) as E.
    unfold sh_world in E at 1. cbn [w_mem w_log w_dict w_fs] in E. pose proof (beside_empty (w_mem w) Hf) as EB. fold b in EB. rewrite EB in E.
    change (sh_labels b []) with (@nil (str * id)) in E. rewrite E.
    destruct (app_run say (OText []) (new_pipeline (map (task_of ts hl pkg fuel) l)) PNone (MkW empty_st g0 [] (w_fs w))) as [w1 r]. unfold both. cbn [fst snd sh_world w_mem w_log w_fs sh_log g_out sh_st st_heap st_next].
    split; [destruct r as [[| | |[]]|]; reflexivity|]. split; [reflexivity|]. split; [reflexivity|]. split; [apply MB|reflexivity].
Qed.
(** Identities stay in order. *)
Lemma none_ok : forall j, 0 <= j -> (∅ : gmap id node) !! j = None.
Proof. intros j _. apply lookup_empty. Qed.
Definition nothing : shiftby := MkShift 0 ∅ [] none_ok.
Lemma act_numbered {A B} (f : A -> B) (m : M A) m' w : moves nothing f m m' -> fresh_ok (w_mem w) -> fresh_ok (w_mem (fst (act m w))).
Proof. intros H Hf. unfold act. destruct (m (w_mem w)) as [s r] eqn:E. cbn [fst w_mem]. pose proof (proj2 (H (w_mem w)) Hf) as G. rewrite E in G. exact G. Qed.
Lemma exec_numbered s v w : fresh_ok (w_mem w) -> fresh_ok (w_mem (fst (call_task (task_of ts hl pkg fuel s) v w))).
Proof.
  intros Hf. unfold call_task. cbn [task_of t_run].
  assert (G : forall args kws, fresh_ok (w_mem (fst (exec ts hl pkg fuel s args kws w)))).
  { intros args kws. destruct s; destruct args as [|[] [|]]; try exact Hf; destruct kws; try exact Hf; cbn [exec]; try (destruct o; try exact Hf); unfold give.
    - unfold read_file. cbv zeta. destruct p as [|[|]|]; try exact Hf; destruct (plain_path _); try exact Hf; cbn [w_fs set_log]; destruct (w_fs w !! _); exact Hf.
    - pose proof (act_numbered _ _ _ w (moves_parse nothing fuel (ts s)) Hf) as G. destruct (act _ w) as [w1 [x|e]]; exact G.
    - pose proof (act_numbered _ _ _ w (moves_transform nothing fuel (w_dict w) i) Hf) as G. destruct (act _ w) as [w1 [x|e]]; exact G.
    - pose proof (act_numbered _ _ _ w (moves_lint nothing fuel i) Hf) as G. destruct (act _ w) as [w1 [x|e]]; exact G.
    - destruct handrails.
      + pose proof (act_numbered _ _ _ w (moves_translate_handrails nothing hl add_source fuel i) Hf) as G. destruct (act _ w) as [w1 [x|e]]; exact G.
      + pose proof (act_numbered _ _ _ w (moves_translate nothing hl fuel i) Hf) as G. destruct (act _ w) as [w1 [x|e]]; exact G.
    - cbv zeta. destruct (full_build _ _ _); exact Hf. }
  destruct v; apply G.
Qed.
Lemma run_numbered l : forall v w, fresh_ok (w_mem w) -> fresh_ok (w_mem (fst (run_stages ts hl pkg fuel l v w))).
Proof.
  unfold run_stages. induction l as [|s l IH]; intros v w Hf; [exact Hf|]. cbn [map run_tasks]. pose proof (exec_numbered s v w Hf) as G.
  destruct (call_task (task_of ts hl pkg fuel s) v w) as [w1 [v1|e]]; [apply IH, G|exact G].
Qed.
Lemma run_app_numbered a w : fresh_ok (w_mem w) -> fresh_ok (w_mem (fst (run_app ts hl pkg fuel a w))).
Proof.
  intros Hf. unfold run_app. destruct (a (w_log w)) as [g [l|e]]; [|exact Hf]. unfold app_run, pipeline_run, new_pipeline. rewrite new_pipeline_tasks. cbn [p_tasks app].
  pose proof (run_numbered l PNone (MkW (w_mem w) g [] (w_fs w)) Hf) as G. unfold run_stages in G. destruct (run_tasks _ PNone _) as [w1 [v|e]]; [exact G|]. destruct e; exact G.
Qed.
(** ** Calls *)
Lemma call_alone k w : fresh_ok (w_mem w) ->
  let p := do_call ts hl pkg fuel k w in let p0 := do_call ts hl pkg fuel k (new_process (w_fs w)) in
  same_answer (st_next (w_mem w)) (snd p) (snd p0) /\ w_fs (fst p) = w_fs (fst p0) /\ g_out (w_log (fst p)) = g_out (w_log w) ++ g_out (w_log (fst p0)) /\
  memory_beside (st_heap (w_mem w)) (st_heap (w_mem (fst p))) (st_heap (w_mem (fst p0))) (st_next (w_mem w)).
Proof.
  intros Hf. destruct k as [s p h a c|s p h c|s p h l c]; cbn [do_call]; cbv zeta.
  - destruct (run_app_iso (render_app s p h a c) w (steady_processor _ _ _ _ _ _) Hf) as (H1 & H2 & H3 & H4 & _). auto.
  - destruct (run_app_iso (lint_app s p h c) w (steady_linter _ _ _) Hf) as (H1 & H2 & H3 & H4 & _). auto.
  - destruct (run_app_iso (make_app s p h l c) w (steady_full _ _ _ _ _) Hf) as (H1 & H2 & H3 & H4 & _). auto.
Qed.
Lemma call_fresh k w : fresh_ok (w_mem w) -> fresh_ok (w_mem (fst (do_call ts hl pkg fuel k w))).
Proof. intros Hf. destruct k; apply run_app_numbered, Hf. Qed.
Lemma calls_fresh l : forall w, fresh_ok (w_mem w) -> fresh_ok (w_mem (do_calls ts hl pkg fuel l w)).
Proof. induction l as [|k l IH]; intros w Hf; [exact Hf|]. cbn [do_calls]. apply IH, call_fresh, Hf. Qed.
Lemma new_fresh fs : fresh_ok (w_mem (new_process fs)).
Proof. intros i n. cbn. rewrite lookup_empty. discriminate. Qed.
(** After any calls, a call answers and writes what it would in a new process in the same directory. *)
Lemma after_calls l fs k : let w := do_calls ts hl pkg fuel l (new_process fs) in
  let p := do_call ts hl pkg fuel k w in let p0 := do_call ts hl pkg fuel k (new_process (w_fs w)) in
  same_answer (st_next (w_mem w)) (snd p) (snd p0) /\ w_fs (fst p) = w_fs (fst p0) /\ g_out (w_log (fst p)) = g_out (w_log w) ++ g_out (w_log (fst p0)) /\
  memory_beside (st_heap (w_mem w)) (st_heap (w_mem (fst p))) (st_heap (w_mem (fst p0))) (st_next (w_mem w)).
Proof. cbv zeta. apply call_alone, calls_fresh, new_fresh. Qed.
(** render and lint between leave the files alone. *)
Definition writes (k : call) : bool := match k with CallMake _ _ _ _ _ => true | _ => false end.
Lemma calls_fs l : forall w, forallb (fun k => negb (writes k)) l = true -> w_fs (do_calls ts hl pkg fuel l w) = w_fs w.
Proof.
  induction l as [|k l IH]; intros w H; [reflexivity|]. cbn [forallb do_calls] in *. apply andb_true_iff in H as [H1 H2]. rewrite IH by exact H2.
  destruct k; [apply render_fs|apply lint_fs|discriminate H1].
Qed.
End Iso.
