(** Each visit method opens what its leave method closes. *)
From Verif Require Export TrNest.
From Verif Require Import NodeOps Monad.

Definition tag_cmd (tag : str) (k : cmd) : Prop := exists id_ cl a b c d, k = KOpen (MkTag tag id_ cl a b c d).
Lemma tag_node_tag_full i t add a b c : post (node_tag_full i t add a b c) (tag_cmd (lit t)).
Proof. unfold node_tag_full. repeat (apply post_skip; intros ?). apply post_ret. unfold tag_cmd. eauto 10. Qed.
Ltac nstep :=
  match goal with
  | |- post (ret _) _ => apply post_ret
  | |- post (raise _) _ => apply post_raise
  | |- post (bind (node_tag _ _) _) _ => eapply post_bind; [apply tag_node_tag_full|intros ? (? & ? & ? & ? & ? & ? & ->)]
  | |- post (bind (node_tag_inline _ _) _) _ => eapply post_bind; [apply tag_node_tag_full|intros ? (? & ? & ? & ? & ? & ? & ->)]
  | |- post (bind (node_tag_full _ _ _ _ _ _) _) _ => eapply post_bind; [apply tag_node_tag_full|intros ? (? & ? & ? & ? & ? & ? & ->)]
  | |- post (node_tag _ _) _ => eapply post_weaken; [apply tag_node_tag_full|intros ? (? & ? & ? & ? & ? & ? & ->)]
  | |- post (node_tag_inline _ _) _ => eapply post_weaken; [apply tag_node_tag_full|intros ? (? & ? & ? & ? & ? & ? & ->)]
  | |- post (node_tag_full _ _ _ _ _ _) _ => eapply post_weaken; [apply tag_node_tag_full|intros ? (? & ? & ? & ? & ? & ? & ->)]
  | |- post (bind _ _) _ => apply post_skip; intros ?
  | |- post (match ?x with _ => _ end) _ => destruct x
  | |- post (if ?x then _ else _) _ => destruct x
  end.
Ltac defers1 := repeat (first [apply list.Forall_nil_2|apply list.Forall_cons_2]); cbn [defer_ok];
  try exact I; try reflexivity; try (intros ?; reflexivity).
Lemma nl_if_run b r S : run (nl_if b ++ r) S = run r S.
Proof. destruct b; reflexivity. Qed.
Lemma eff_open tag id_ cl a b c d S : is_void tag = false -> eff1 (KOpen (MkTag tag id_ cl a b c d)) S = Some (tag :: S).
Proof. intros H. cbn. rewrite H. reflexivity. Qed.
Lemma eff_openclose tag id_ cl a b c d ct S : is_void tag = false -> bal ct ->
  eff1 (KOpenClose (MkTag tag id_ cl a b c d) ct) S = Some S.
Proof. intros H Hb. unfold eff1. apply bal_openclose; assumption. Qed.
Lemma eff_manual tag id_ cl a b c d S : is_void tag = false -> eff1 (KOpenManual (MkTag tag id_ cl a b c d) []) S = Some (tag :: S).
Proof.
  intros H. unfold eff1. cbn [static_toks tg_tag tg_outer tg_inner]. rewrite nl_if_run. cbn [app]. unfold start_tag, make_tag. cbn [run tg_tag].
  rewrite H. rewrite nl_if_run. reflexivity.
Qed.
Lemma eff_text t S : bal t -> eff1 (KText t) S = Some S.
Proof. intros H. apply H. Qed.
Lemma eff_close tag S : eff1 (KText [TClose tag]) (tag :: S) = Some S.
Proof. cbn. rewrite str_eqb_refl. reflexivity. Qed.
Lemma eff_defer t d S : bal t -> eff1 (KTextDefer t d) S = Some S.
Proof. intros H. apply H. Qed.
Lemma eff_ext j S : eff1 (KExternal j) S = Some S.
Proof. reflexivity. Qed.
Lemma bal_par cl ct : bal ct -> forall S, eff1 (par cl ct) S = Some S.
Proof. intros H S. apply eff_openclose; [reflexivity|assumption]. Qed.
Ltac neatl := apply neat_batch; [defers1|intros S; lazy; reflexivity].
Lemma neat_node i : post (visit_node i) neat.
Proof. unfold visit_node. repeat nstep. neatl. Qed.
Lemma neat_manuscript i : post (visit_manuscript i) neat.
Proof. unfold visit_manuscript. repeat nstep. destruct (truthy _); neatl. Qed.
Lemma neat_author i : post (visit_author i) neat.
Proof.
  unfold visit_author. cbv zeta. repeat nstep; [|apply neat_open; reflexivity].
  destruct (truthy _), (truthy _), (truthy _); neatl.
Qed.
Lemma neat_abstract i : post (visit_abstract i) neat.
Proof. unfold visit_abstract. repeat nstep. neatl. Qed.
Lemma level_values c lv : level c = Some lv -> lv = 2 \/ lv = 3 \/ lv = 4.
Proof. destruct c; cbn; intros H; inversion H; auto. Qed.
Lemma neat_section f i : post (visit_section f i) neat.
Proof.
  unfold visit_section. nstep. destruct (level x) as [lv|] eqn:E; [|apply post_raise].
  repeat nstep. apply level_values in E as [-> | [-> | ->]]; neatl.
Qed.
Lemma neat_contents i : post (visit_contents i) neat.
Proof. unfold visit_contents. repeat nstep. neatl. Qed.
Lemma neat_note f i : post (visit_note f i) neat.
Proof. unfold visit_note. repeat nstep. neatl. Qed.
Lemma neat_math i : post (visit_math i) neat.
Proof. unfold visit_math. repeat nstep. neatl. Qed.
Lemma neat_sourcecode hl i : post (visit_sourcecode hl i) neat.
Proof. unfold visit_sourcecode. repeat nstep. neatl. Qed.
Lemma neat_codeblock i : post (visit_codeblock i) neat.
Proof. unfold visit_codeblock. repeat nstep. neatl. Qed.
Lemma neat_algorithm i : post (visit_algorithm i) neat.
Proof. unfold visit_algorithm. repeat nstep. neatl. Qed.
Lemma neat_error i : post (visit_error i) neat.
Proof. unfold visit_error. repeat nstep. neatl. Qed.
Lemma post_mapM {X Y} (f : X -> M Y) (P : X -> Y -> Prop) l : (forall x, post (f x) (P x)) -> post (mapM f l) (Forall2 P l).
Proof.
  intros H. induction l as [|x l IH]; cbn [mapM]; [apply post_ret; constructor|].
  eapply post_bind; [apply H|]. intros y Hy. eapply post_bind; [apply IH|]. intros ys Hys. apply post_ret. constructor; assumption.
Qed.
Lemma span_cmds i : post (mapM (fun p : attr * string => let! v := getattr i p.1 in ret (if truthy v then [open_tag p.2 [] false false] else [])) span_tags)
  (Forall2 (fun p l => l = [] \/ l = [open_tag p.2 [] false false]) span_tags).
Proof. apply post_mapM. intros p. nstep. apply post_ret. destruct (truthy _); auto. Qed.
Lemma neat_span i : post (visit_span i) neat.
Proof.
  unfold visit_span. nstep. eapply post_bind; [apply span_cmds|]. intros cmds H. apply post_ret. unfold span_tags in H.
  repeat match goal with H : Forall2 _ (_ :: _) _ |- _ => inversion H; clear H; subst end.
  match goal with H : Forall2 _ [] _ |- _ => inversion H; subst; clear H end.
  repeat match goal with H : _ = [] \/ _ |- _ => destruct H as [-> | ->] end; neatl.
Qed.
Lemma bal_ahref f i t h x l : post (make_ahref f i t h x l) bal.
Proof. unfold make_ahref. cbv zeta. repeat nstep. intros S. lazy. reflexivity. Qed.
Lemma neat_reference f i : post (visit_reference f i) neat.
Proof.
  unfold visit_reference. nstep. destruct x; try apply post_raise. nstep.
  eapply post_bind; [apply bal_ahref|]. intros y Hy. apply post_ret. apply neat_text. assumption.
Qed.
Lemma neat_url f i : post (visit_url f i) neat.
Proof.
  unfold visit_url. nstep. destruct x; try apply post_raise.
  eapply post_bind; [apply bal_ahref|]. intros y Hy. apply post_ret. apply neat_text. assumption.
Qed.
Lemma neat_theorem f i : post (visit_theorem f i) neat.
Proof. unfold visit_theorem. repeat nstep. neatl. Qed.
Lemma neat_sketch i : post (visit_sketch i) neat.
Proof. unfold visit_sketch. repeat nstep. neatl. Qed.
Lemma neat_proof i : post (visit_proof i) neat.
Proof. unfold visit_proof. do 6 nstep. neatl. Qed.
Lemma bal_cite_tags f i l ts : forall n, post (cite_tags f i l ts n) (Forall bal).
Proof.
  induction ts as [|t ts IH]; intros n; cbn [cite_tags]; [apply post_ret; constructor|]. nstep.
  eapply post_bind; [apply bal_ahref|]. intros y Hy. eapply post_bind; [apply IH|]. intros ys Hys. apply post_ret. constructor; assumption.
Qed.
Lemma bal_cons_raw s t : bal t -> bal (TRaw s :: t).
Proof. intros H S. apply H. Qed.
Lemma neat_cite f i : post (visit_cite f i) neat.
Proof.
  assert (G : forall ts, post (let! label := label_text i in let! xs := cite_tags f i label ts 0 in
    ret (KText ([raw "["; TOpen (lit "span") [AQ (lit "id") label]] ++ tok_join [raw ", "] xs ++ [ctag "span"; raw "]"]))) neat).
  { intros ts. nstep. eapply post_bind; [apply bal_cite_tags|]. intros xs Hxs. apply post_ret. apply neat_text.
    cbn [app]. apply bal_cons_raw.
    change (TOpen (lit "span") [AQ (lit "id") x] :: tok_join [raw ", "] xs ++ [ctag "span"; raw "]"]) with
      ((TOpen (lit "span") [AQ (lit "id") x] :: tok_join [raw ", "] xs) ++ [ctag "span"] ++ [raw "]"]).
    rewrite app_assoc. apply bal_app; [|apply bal_raw]. apply bal_elem; [reflexivity|]. apply bal_join; [apply bal_raw|assumption]. }
  unfold visit_cite. nstep. destruct x as [| | | | | | |ts|]; try apply post_raise. destruct ts as [|t [|t2 ts]]; [apply G| |apply G].
  do 3 nstep. eapply post_bind; [apply bal_ahref|]. intros y Hy. apply post_ret. apply neat_text.
  cbn [app]. apply bal_cons_raw. apply bal_app; [assumption|apply bal_raw].
Qed.
Lemma neat_bibliography i : post (visit_bibliography i) neat.
Proof. unfold visit_bibliography. repeat nstep. neatl. Qed.
Lemma bal_backlinks ls : forall n, Forall bal (backlink_tags ls n).
Proof. induction ls as [|l ls IH]; intros n; constructor; [|apply IH]. intros S. lazy. reflexivity. Qed.
Definition bal3 (p : list tok * list tok * list tok) : Prop := bal p.1.1 /\ bal p.1.2 /\ bal p.2.
Lemma bal_bibitem_parts i : post (bibitem_parts i) bal3.
Proof.
  unfold bibitem_parts. cbv zeta. do 8 nstep. apply post_skip. intros parts. nstep.
  apply (post_bind _ _ bal).
  - destruct (truthy _); [apply post_ret; intros S; lazy; reflexivity|]. nstep. apply post_ret. apply bal_nil.
  - intros dt Hdt. nstep. apply post_ret. split; [apply bal_raw|]. split; [exact Hdt|]. cbn [snd].
    match goal with |- bal (match ?l with _ => _ end) => destruct l as [|b bs] eqn:E end; [apply bal_nil|]. rewrite <- E. clear E.
    intros S. cbn [app run]. rewrite run_app, bal_join; [reflexivity|apply bal_raw|apply bal_backlinks].
Qed.
Lemma bal_bibitem_text p : bal3 p -> bal (bibitem_text p).
Proof.
  intros (H1 & H2 & H3). destruct p as [[text dt] back]. cbn in *. apply bal_app; [assumption|]. apply bal_app; [|assumption].
  destruct dt; [apply bal_nil|]. apply bal_cons_raw. assumption.
Qed.
Lemma neat_bibitem i : post (visit_bibitem i) neat.
Proof.
  unfold visit_bibitem. eapply post_bind; [apply bal_bibitem_parts|]. intros p Hp. repeat nstep.
  apply neat_batch; [defers1|]. intros S. cbn [ieff]. rewrite eff_open by reflexivity. rewrite eff_text by (apply bal_bibitem_text; assumption). reflexivity.
Qed.
Lemma neat_draft i : post (visit_draft i) neat.
Proof. unfold visit_draft. repeat nstep. neatl. Qed.
Lemma neat_figure f i : post (visit_figure f i) neat.
Proof. unfold visit_figure. repeat nstep. neatl. Qed.
Lemma neat_caption f i : post (visit_caption f i) neat.
Proof. unfold visit_caption. repeat nstep. destruct (subclass _ _); neatl. Qed.
Lemma neat_visit_method hl f m i : m <> CParagraph -> m <> CMathBlock -> post (visit_method hl f m i) neat.
Proof.
  intros H1 H2. destruct m; try congruence; clear H1 H2; cbn [visit_method];
  lazymatch goal with
  | |- post (visit_node _) _ => apply neat_node
  | |- post (visit_manuscript _) _ => apply neat_manuscript
  | |- post (visit_author _) _ => apply neat_author
  | |- post (visit_abstract _) _ => apply neat_abstract
  | |- post (visit_section _ _) _ => apply neat_section
  | |- post (visit_contents _) _ => apply neat_contents
  | |- post (visit_note _ _) _ => apply neat_note
  | |- post (visit_math _) _ => apply neat_math
  | |- post (visit_sourcecode _ _) _ => apply neat_sourcecode
  | |- post (visit_codeblock _) _ => apply neat_codeblock
  | |- post (visit_algorithm _) _ => apply neat_algorithm
  | |- post (visit_error _) _ => apply neat_error
  | |- post (visit_span _) _ => apply neat_span
  | |- post (visit_reference _ _) _ => apply neat_reference
  | |- post (visit_url _ _) _ => apply neat_url
  | |- post (visit_theorem _ _) _ => apply neat_theorem
  | |- post (visit_sketch _) _ => apply neat_sketch
  | |- post (visit_proof _) _ => apply neat_proof
  | |- post (visit_cite _ _) _ => apply neat_cite
  | |- post (visit_bibliography _) _ => apply neat_bibliography
  | |- post (visit_bibitem _) _ => apply neat_bibitem
  | |- post (visit_draft _) _ => apply neat_draft
  | |- post (visit_figure _ _) _ => apply neat_figure
  | |- post (visit_caption _ _) _ => apply neat_caption
  | |- post (ret (KText [])) _ => apply post_ret, neat_text, bal_nil
  | |- post (visit_text _) _ => unfold visit_text; nstep; apply post_ret, neat_text; intros S; reflexivity
  | |- post (visit_subproof _) _ => unfold visit_subproof; repeat nstep; neatl
  | |- _ => unfold visit_step, visit_code, visit_construct; nstep; apply neat_open; reflexivity
  end.
Qed.
