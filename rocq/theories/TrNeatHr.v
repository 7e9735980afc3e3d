(** The same for the handrails translator. *)
From Verif Require Export TrNeat.
From Verif Require Import NodeOps Monad.

Lemma post_assoc {X Y Z} (m : M X) (k : X -> M Y) (k2 : Y -> M Z) (Q : Z -> Prop) :
  post (bind m (fun x => bind (k x) k2)) Q -> post (bind (bind m k) k2) Q.
Proof.
  intros H s s' a E. apply (H s s'). unfold bind in *. destruct (m s) as [s1 [x|e]]; [exact E|discriminate E].
Qed.
Lemma post_bind_ret {X Y} (x : X) (k : X -> M Y) (Q : Y -> Prop) : post (k x) Q -> post (bind (ret x) k) Q.
Proof. intros H s s' a E. exact (H s s' a E). Qed.
Lemma post_bind_raise {X Y} e (k : X -> M Y) (Q : Y -> Prop) : post (bind (raise e) k) Q.
Proof. intros s s' a E. discriminate E. Qed.
Lemma post_wrap {Z} k items x cl ic b l t (k2 : list cmd -> M Z) (Q : Z -> Prop) :
  items !! k = Some x ->
  post (k2 (take k items ++
    [KOpenManual (hr_tag 0 cl) []; hr_collapse_zone b; hr_menu_zone l Off Off t; hr_border_zone; hr_spacer_zone; KOpenManual hr_content_tag []; x;
     KText (close_text hr_content_tag); hr_info_zone_icon ic; KText (close_text (hr_tag 0 cl))] ++ drop (S k) items)) Q ->
  post (bind (wrap_item k items cl ic b l t) k2) Q.
Proof. intros H HQ. unfold wrap_item. cbv zeta. rewrite H. exact HQ. Qed.
Lemma post_wrap_none {Z} k items cl ic b l t (k2 : list cmd -> M Z) (Q : Z -> Prop) :
  items !! k = None -> post (bind (wrap_item k items cl ic b l t) k2) Q.
Proof. intros H. unfold wrap_item. cbv zeta. rewrite H. apply post_bind_raise. Qed.
Ltac hstep :=
  lazymatch goal with
  | |- post (bind (wrap_item _ _ _ _ _ _ _) _) _ =>
      first [eapply post_wrap; [reflexivity|cbn [take drop app]] | apply post_wrap_none; reflexivity]
  | |- post (bind (bind _ _) _) _ => apply post_assoc
  | |- post (bind (ret _) _) _ => apply post_bind_ret; cbv beta
  | |- post (bind (raise _) _) _ => apply post_bind_raise
  | |- post (bind (match ?x with _ => _ end) _) _ => destruct x
  | |- post (bind (if ?x then _ else _) _) _ => destruct x
  | |- post (bind (items_of (KBatchDefer _)) _) _ => apply post_bind_ret; cbv beta
  | |- post (bind (items_of (KOpen _)) _) _ => apply post_bind_raise
  | |- post (bind (hr_from_node _ _ _) _) _ => unfold hr_from_node
  | |- _ => nstep
  end.
Lemma ieff_step c l S S' R : eff1 c S = Some S' -> ieff l S' = R -> ieff (c :: l) S = R.
Proof. intros H <-. cbn. rewrite H. reflexivity. Qed.

Lemma eff_collapse b S : eff1 (hr_collapse_zone b) S = Some S.
Proof. destruct b; lazy; reflexivity. Qed.
Lemma eff_menu l a b c S : eff1 (hr_menu_zone l a b c) S = Some S.
Proof. destruct l, a, b, c; lazy; reflexivity. Qed.
Lemma eff_menu0 S : eff1 hr_menu_zone_empty S = Some S. Proof. lazy. reflexivity. Qed.
Lemma eff_border S : eff1 hr_border_zone S = Some S. Proof. lazy. reflexivity. Qed.
Lemma eff_border0 S : eff1 hr_border_zone_empty S = Some S. Proof. lazy. reflexivity. Qed.
Lemma eff_spacer S : eff1 hr_spacer_zone S = Some S. Proof. lazy. reflexivity. Qed.
Lemma eff_icon ic S : eff1 (hr_info_zone_icon ic) S = Some S. Proof. destruct ic; lazy; reflexivity. Qed.
Lemma eff_number x y S : eff1 (hr_info_zone_number x y) S = Some S. Proof. destruct x, y; lazy; reflexivity. Qed.
Lemma bal_static c : (forall S, eff1 c S = Some S) -> match c with KText _ | KOpenClose _ _ | KOpenManual _ _ => True | _ => False end -> bal (static_toks c).
Proof. intros H Hc. destruct c; try contradiction; exact H. Qed.
Ltac eff1s :=
  lazymatch goal with
  | |- eff1 (hr_collapse_zone _) _ = _ => apply eff_collapse
  | |- eff1 (hr_menu_zone _ _ _ _) _ = _ => apply eff_menu
  | |- eff1 hr_menu_zone_empty _ = _ => apply eff_menu0
  | |- eff1 hr_border_zone _ = _ => apply eff_border
  | |- eff1 hr_border_zone_empty _ = _ => apply eff_border0
  | |- eff1 hr_spacer_zone _ = _ => apply eff_spacer
  | |- eff1 (hr_info_zone_icon _) _ = _ => apply eff_icon
  | |- eff1 (KOpen _) _ = _ => apply eff_open; reflexivity
  | |- eff1 (KExternal _) _ = _ => apply eff_ext
  | |- _ => first [apply eff_text; assumption | lazy; reflexivity]
  end.
Ltac ieffs := repeat (eapply ieff_step; [eff1s|]); try (lazy; reflexivity).
Ltac neath := apply neat_batch; [defers1|intros S; ieffs].

(** Bodies of the minimap. *)
Lemma tok_join_cons2 sep x y l : tok_join sep (x :: y :: l) = x ++ sep ++ tok_join sep (y :: l).
Proof. reflexivity. Qed.
Lemma minimap_one w n r : post (minimap_circles w n r) (fun x => exists u v, x = [u; v] /\ exists T, moves u [] T /\ moves v T []).
Proof.
  unfold minimap_circles. cbv zeta. repeat nstep. destruct w.
  - eexists _, _. split; [reflexivity|]. exists [lit "a"]. split; intros S; lazy; reflexivity.
  - eexists _, _. split; [reflexivity|]. exists []. split; intros S; lazy; reflexivity.
Qed.
Lemma minimap_bal w refs : forall n, post (minimap_all w n refs) (fun x => bal (tok_join [nls 4] x)).
Proof.
  induction refs as [|r refs IH]; intros n; cbn [minimap_all]; [apply post_ret, bal_nil|].
  eapply post_bind; [apply minimap_one|]. intros ? (u & v & -> & T & Hu & Hv).
  eapply post_bind; [apply IH|]. intros xs Hxs. apply post_ret. cbn [app].
  change (forall S, run u S = Some (T ++ S)) in Hu. change (forall S, run v (T ++ S) = Some S) in Hv.
  assert (Huv : bal (u ++ [nls 4] ++ v)).
  { intros S. rewrite run_app, (Hu S). cbn [app run nls]. apply Hv. }
  destruct xs as [|y ys]; [exact Huv|]. rewrite !tok_join_cons2.
  intros S. rewrite run_app, (Hu S). cbn [app run nls]. rewrite run_app, (Hv S). cbn [app run nls]. apply Hxs.
Qed.
Definition flat_minimap (mm : list cmd) : Prop := (forall S, ieff mm S = Some S) /\ tags mm = [] /\ Forall defer_ok mm /\ exts (KBatchDefer mm) = [].
Lemma minimap_flat f i fo w : (fo = "scroll" \/ fo = "mouse")%string -> post (make_minimap f i fo w) flat_minimap.
Proof.
  intros Hfo. unfold make_minimap. nstep. eapply post_bind; [apply minimap_bal|]. intros xs Hxs. cbv zeta. apply post_ret.
  split; [|split; [reflexivity|split; [defers1|reflexivity]]]. intros S.
  eapply ieff_step; [lazy; reflexivity|]. eapply ieff_step.
  { cbn [eff1]. rewrite run_app. destruct Hfo as [-> | ->]; (etransitivity; [apply (f_equal (fun o => match o with Some S' => _ | None => None end)); lazy; reflexivity|]);
    cbv beta iota; rewrite run_app, Hxs; lazy; reflexivity. }
  lazy. reflexivity.
Qed.

Lemma tags_app a b : tags (a ++ b) = tags b ++ tags a.
Proof. unfold tags. rewrite omap_app, rev_app_distr. reflexivity. Qed.
Definition bneat (l : list cmd) : Prop := Forall defer_ok l /\ forall S, ieff l S = Some (tags l ++ S).
Lemma bneat_flat a mm b : bneat (a ++ b) -> flat_minimap mm -> bneat (a ++ mm ++ b).
Proof.
  intros [H1 H2] (F1 & F2 & F3 & _). apply list.Forall_app in H1 as [H1a H1b]. split.
  - apply list.Forall_app. split; [assumption|]. apply list.Forall_app. auto.
  - intros S. specialize (H2 S). rewrite !ieff_app in *. rewrite !tags_app in *. rewrite F2, app_nil_r.
    destruct (ieff a S) as [S'|]; [|discriminate H2]. rewrite ieff_app, F1. assumption.
Qed.
Lemma neat_bneat l : bneat l -> neat (KBatchDefer l).
Proof. intros [H1 H2]. apply neat_batch; assumption. Qed.
Ltac bneath := split; [defers1|intros S; ieffs].

Lemma neat_hv_section f i : post (hv_section f i) neat.
Proof.
  unfold hv_section, visit_section, wrap_heading. hstep. hstep. destruct (level x) as [lv|] eqn:E; [|apply post_bind_raise].
  apply level_values in E as [-> | [-> | ->]]; repeat hstep; neath.
Qed.
Lemma post_items Z l (k : list cmd -> M Z) (Q : Z -> Prop) : post (k l) Q -> post (bind (items_of (KBatchDefer l)) k) Q.
Proof. apply post_bind_ret. Qed.
Lemma neat_hv_manuscript src root f i : post (hv_manuscript src root f i) neat.
Proof.
  unfold hv_manuscript, visit_manuscript, source_div. do 4 hstep. destruct (truthy x) eqn:Ex; cbn [app]; hstep; hstep; hstep; hstep;
  destruct src; repeat first [
    match goal with
    | |- post (bind (make_minimap _ _ _ _) _) _ => eapply post_bind; [apply minimap_flat; auto|intros mm Hmm; apply post_ret; cbn [take drop app insert_nth];
       apply neat_bneat]
    | |- bneat _ => fail 1
    end | hstep].
  all: try (cbn [insert_nth take drop app]; neath).
  all: match goal with |- bneat (?a :: ?b :: ?c :: ?d :: ?m ++ ?r) => apply (bneat_flat [a; b; c; d] m r); [cbn [app]; bneath|assumption] end.
Qed.
Lemma neat_hv_author f i : post (hv_author f i) neat.
Proof.
  unfold hv_author, visit_author, replace_node_with_handrails. cbv zeta. do 9 hstep; [|repeat hstep].
  destruct (truthy x), (truthy x0), (truthy x1); cbn [app]; repeat hstep; cbn [app removelast drop]; neath.
Qed.
Lemma neat_hv_abstract f i : post (hv_abstract f i) neat.
Proof. unfold hv_abstract, visit_abstract, wrap_heading. repeat hstep; neath. Qed.
Lemma neat_hv_contents f i : post (hv_contents f i) neat.
Proof.
  unfold hv_contents, visit_contents, wrap_heading. do 9 hstep.
  eapply post_bind; [apply minimap_flat; auto|]. intros mm Hmm. apply post_ret. apply neat_bneat.
  apply bneat_flat; [|assumption]. cbn [removelast rev app]. bneath.
Qed.
Lemma neat_hv_bibliography f i : post (hv_bibliography f i) neat.
Proof. unfold hv_bibliography, visit_bibliography, wrap_heading. repeat hstep; cbn [insert list_insert]; repeat hstep; neath. Qed.
Lemma neat_hv_labeled f base ca i : post (base i) (fun c => exists k t, c = KBatchDefer [k; KExternal t]) -> post (hv_labeled f base ca i) neat.
Proof.
  intros H. unfold hv_labeled, replace_node_with_handrails. eapply post_bind; [apply H|]. intros ? (k & t & ->).
  repeat hstep; cbn [app drop]; neath.
Qed.
Lemma two_theorem f i : post (visit_theorem f i) (fun c => exists k t, c = KBatchDefer [k; KExternal t]).
Proof. unfold visit_theorem. repeat nstep. eauto. Qed.
Lemma two_sketch i : post (visit_sketch i) (fun c => exists k t, c = KBatchDefer [k; KExternal t]).
Proof. unfold visit_sketch. repeat nstep. eauto. Qed.
Lemma two_proof i : post (visit_proof i) (fun c => exists k t, c = KBatchDefer [k; KExternal t]).
Proof. unfold visit_proof. do 6 nstep. eauto. Qed.
Lemma neat_hv_subproof i : post (hv_subproof i) neat.
Proof. unfold hv_subproof, subproof_handrails. repeat hstep; cbn [map_first_classes]; neath. Qed.
Lemma neat_hv_step f i : post (hv_step f i) neat.
Proof. unfold hv_step, step_handrails. repeat hstep; neath. Qed.
Lemma post_and {X} (m : M X) (P Q : X -> Prop) : post m P -> post m Q -> post m (fun x => P x /\ Q x).
Proof. intros H1 H2 s s' a E. split; [exact (H1 _ _ _ E)|exact (H2 _ _ _ E)]. Qed.
Lemma bibitem_dt i : post (bibitem_parts i) (fun p => p.1.2 = [] \/ exists ats r, p.1.2 = TOpen (lit "a") ats :: r).
Proof.
  unfold bibitem_parts. cbv zeta. do 8 nstep. apply post_skip. intros parts. nstep.
  apply (post_bind _ _ (fun dt => dt = [] \/ exists ats r, dt = TOpen (lit "a") ats :: r)).
  - destruct (truthy _); [apply post_ret; right; unfold make_tag; eauto|]. nstep. apply post_ret. auto.
  - intros dt Hdt. nstep. apply post_ret. exact Hdt.
Qed.
Lemma neat_hv_bibitem f i : post (hv_bibitem f i) neat.
Proof.
  unfold hv_bibitem. eapply post_bind; [apply post_and; [apply bal_bibitem_parts|apply bibitem_dt]|].
  intros [[text dt] back] [(H1 & H2 & H3) H4]. cbn in H1, H2, H3, H4.
  hstep. cbv zeta. hstep. destruct dt as [|a dt].
  - repeat hstep. assert (Hb : bal (bibitem_text (text, [], back))) by (apply bal_bibitem_text; repeat split; assumption). neath.
  - destruct H4 as [H4|(ats & r & H4)]; [discriminate H4|]. injection H4 as -> ->.
    apply post_ret. assert (Hb : bal (text ++ [raw " "] ++ back)). { apply bal_app; [assumption|]. apply bal_cons_raw. assumption. }
    unfold insert_nth. cbn [insert list_insert take drop app]. neath.
Qed.
