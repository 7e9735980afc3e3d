(** Documents written as terms are ready for transform. *)
From Verif Require Export TransformedMore.
From Verif Require Import Consistency Queries Comparable Meta NodeOps Monad.

Lemma k_build t : K (build t).
Proof.
  induction t as [c kw cs IH] using bt_ind'. cbn [build]. fold build_kids. apply keeps_bind; [apply k_alloc|]. intros i.
  apply keeps_bind; [|intros; apply keeps_ret]. change (K (build_kids i cs)).
  induction cs as [|x cs IHc]; [apply keeps_ret|]. apply list.Forall_cons in IH as [Hx IH]. cbn [build_kids].
  apply keeps_bind; [assumption|]. intros k. apply keeps_bind; [apply k_append|]. intros _. apply IHc. assumption.
Qed.
Definition errors_unlabelledb (s : st) : bool :=
  forallb (fun p => negb (cls_eqb (n_cls p.2) CError) || match label_of (st_heap s) p.1 with [] => true | _ => false end)
    (map_to_list (st_heap s)).
Lemma built_ready b i : snd (run (build b)) = Ok i -> errors_unlabelledb (fst (run (build b))) = true ->
  exists t, root t = i /\ ready (fst (run (build b))) t.
Proof.
  destruct (run (build b)) as [s r] eqn:E. cbn [fst snd]. intros -> He.
  destruct (run_build_document _ _ _ E) as (Hf & Hc & t & Hr & Hd). exists t. split; [assumption|]. split; [split; assumption|]. split.
  - pose proof (k_build b empty_st comparable_empty) as Hk. unfold run in E. rewrite E in Hk. exact Hk.
  - intros x Hx (n & Hn & Hcl). unfold errors_unlabelledb in He. rewrite forallb_forall in He.
    specialize (He (x, n)). cbn [fst snd] in He. rewrite Hcl in He. cbn in He.
    destruct (label_of (st_heap s) x); [reflexivity|]. discriminate He. apply elem_of_list_In, elem_of_map_to_list. assumption.
Qed.
(** The tree of a built document, read off its heap. *)
Definition built_tree (b : bt) : tree := read_tree 50 (st_heap (fst (run (build b)))) 0.
Lemma built_ready_tree b : snd (run (build b)) = Ok 0 -> errors_unlabelledb (fst (run (build b))) = true ->
  check_document (st_heap (fst (run (build b)))) (built_tree b) = true -> ready (fst (run (build b))) (built_tree b).
Proof.
  intros H1 H2 H3. destruct (built_ready b 0 H1 H2) as (t & Hr & Hm & Hb & He).
  apply check_document_sound in H3. split; [split; [apply Hm|apply Hm|assumption]|]. split; [assumption|].
  intros x Hx (n & Hn & Hcl). unfold errors_unlabelledb in H2. rewrite forallb_forall in H2.
  specialize (H2 (x, n)). cbn [fst snd] in H2. rewrite Hcl in H2. cbn in H2.
  destruct (label_of (st_heap (fst (run (build b)))) x); [reflexivity|]. discriminate H2. apply elem_of_list_In, elem_of_map_to_list. assumption.
Qed.
