(** The commands returned by visit and leave methods. *)
From Verif Require Export TrLoop.
From Verif Require Import NodeOps Monad.

(** ** Results of a computation, whatever the state *)

Definition post {X} (m : M X) (P : X -> Prop) : Prop := forall s s' a, m s = (s', Ok a) -> P a.
Lemma post_ret {X} (x : X) (P : X -> Prop) : P x -> post (ret x) P.
Proof. intros H s s' a E. apply ret_ok in E as [_ ->]. assumption. Qed.
Lemma post_raise {X} e (P : X -> Prop) : post (raise e) P.
Proof. intros s s' a E. discriminate E. Qed.
Lemma post_bind {X Y} (m : M X) (k : X -> M Y) (P : X -> Prop) (Q : Y -> Prop) :
  post m P -> (forall x, P x -> post (k x) Q) -> post (bind m k) Q.
Proof. intros H1 H2 s s' a E. apply bind_ok in E as (s1 & x & E1 & E2). eapply H2; [eapply H1, E1|exact E2]. Qed.
Lemma post_skip {X Y} (m : M X) (k : X -> M Y) (Q : Y -> Prop) : (forall x, post (k x) Q) -> post (bind m k) Q.
Proof. intros H. apply (post_bind _ _ (fun _ => True)); [intros s s' a _; exact I|auto]. Qed.
Lemma post_weaken {X} (m : M X) (P Q : X -> Prop) : post m P -> (forall x, P x -> Q x) -> post m Q.
Proof. intros H1 H2 s s' a E. eapply H2, H1, E. Qed.

(** ** Shapes *)

Definition items_ok (l : list cmd) : Prop := forallb item l = true.
Lemma items_ok_app l m : items_ok (l ++ m) <-> items_ok l /\ items_ok m.
Proof. unfold items_ok. rewrite forallb_app. apply andb_true_iff. Qed.
Lemma items_ok_cons c l : items_ok (c :: l) <-> item c = true /\ items_ok l.
Proof. unfold items_ok. cbn. apply andb_true_iff. Qed.
Lemma items_ok_take k l : items_ok l -> items_ok (take k l).
Proof. intros H. rewrite <- (take_drop k l) in H. apply items_ok_app in H. apply H. Qed.
Lemma items_ok_drop k l : items_ok l -> items_ok (drop k l).
Proof. intros H. rewrite <- (take_drop k l) in H. apply items_ok_app in H. apply H. Qed.
Lemma items_ok_insert_nth k c l : item c = true -> items_ok l -> items_ok (insert_nth k c l).
Proof.
  intros H1 H2. unfold insert_nth. apply items_ok_app. split; [apply items_ok_take; assumption|].
  apply items_ok_cons. split; [assumption|]. apply items_ok_drop. assumption.
Qed.
Lemma items_ok_set k c l : item c = true -> items_ok l -> items_ok (<[k := c]> l).
Proof.
  intros H1. revert k. induction l as [|x l IH]; intros k H2; [assumption|]. apply items_ok_cons in H2 as [Hx H2].
  destruct k; cbn; apply items_ok_cons; auto.
Qed.
Lemma items_ok_rev l : items_ok l -> items_ok (rev l).
Proof.
  intros H. unfold items_ok in *. rewrite forallb_forall in *. intros x Hx. apply H. apply in_rev. assumption.
Qed.
Lemma items_ok_lookup l k c : items_ok l -> l !! k = Some c -> item c = true.
Proof.
  intros H Hk. unfold items_ok in H. rewrite forallb_forall in H. apply H. apply elem_of_list_In.
  eapply elem_of_list_lookup_2. eassumption.
Qed.
Lemma removelast_take {X} (l : list X) : removelast l = take (length l - 1) l.
Proof.
  induction l as [|x l IH]; [reflexivity|]. destruct l as [|y l]; [reflexivity|].
  change (removelast (x :: y :: l)) with (x :: removelast (y :: l)). rewrite IH. cbn. f_equal.
  rewrite Nat.sub_0_r. reflexivity.
Qed.
Lemma items_ok_removelast l : items_ok l -> items_ok (removelast l).
Proof. rewrite removelast_take. apply items_ok_take. Qed.
Lemma items_ok_first f l : items_ok l -> items_ok (map_first_classes f l).
Proof. intros H. destruct l as [|[] l]; try exact H. Qed.

(** Batches and their items. *)
Definition is_batch (c : cmd) : Prop := exists l, c = KBatchDefer l /\ items_ok l.
Lemma is_batch_shape c : is_batch c -> shape_ok c = true.
Proof. intros (l & -> & H). exact H. Qed.
Lemma post_node_tag_full i t add a b c : post (node_tag_full i t add a b c) (fun k => exists g, k = KOpen g).
Proof. unfold node_tag_full. repeat (apply post_skip; intros ?). apply post_ret. eauto. Qed.
Lemma post_items_of c : is_batch c -> post (items_of c) items_ok.
Proof. intros (l & -> & H). apply post_ret. assumption. Qed.
Ltac pstep :=
  match goal with
  | |- post (ret _) _ => apply post_ret
  | |- post (raise _) _ => apply post_raise
  | |- post (bind (node_tag _ _) _) _ => eapply post_bind; [apply post_node_tag_full|intros ? [? ->]]
  | |- post (bind (node_tag_inline _ _) _) _ => eapply post_bind; [apply post_node_tag_full|intros ? [? ->]]
  | |- post (bind (node_tag_full _ _ _ _ _ _) _) _ => eapply post_bind; [apply post_node_tag_full|intros ? [? ->]]
  | |- post (node_tag _ _) _ => eapply post_weaken; [apply post_node_tag_full|intros ? [? ->]]
  | |- post (node_tag_inline _ _) _ => eapply post_weaken; [apply post_node_tag_full|intros ? [? ->]]
  | |- post (node_tag_full _ _ _ _ _ _) _ => eapply post_weaken; [apply post_node_tag_full|intros ? [? ->]]
  | |- post (bind _ _) _ => apply post_skip; intros ?
  | |- post (match ?x with _ => _ end) _ => destruct x
  | |- post (if ?x then _ else _) _ => destruct x
  end.
Ltac shp := unfold is_batch, items_ok; eexists; split; [reflexivity|reflexivity].
Lemma sh_node i : post (visit_node i) is_batch.
Proof. unfold visit_node. repeat pstep. shp. Qed.
Lemma sh_manuscript i : post (visit_manuscript i) is_batch.
Proof. unfold visit_manuscript. repeat pstep. destruct (truthy _); shp. Qed.
Lemma sh_author i : post (visit_author i) (fun c => shape_ok c = true).
Proof.
  unfold visit_author. repeat pstep; [|reflexivity]. cbn. rewrite !forallb_app.
  destruct (truthy _), (truthy _), (truthy _); reflexivity.
Qed.
Lemma sh_abstract i : post (visit_abstract i) is_batch.
Proof. unfold visit_abstract. repeat pstep. shp. Qed.
Lemma sh_paragraph i : post (visit_paragraph i) is_batch.
Proof. unfold visit_paragraph. pstep. apply post_skip. intros f. apply post_skip. intros t. apply post_ret. destruct (truthy t), f; shp. Qed.
Lemma sh_section f i : post (visit_section f i) is_batch.
Proof. unfold visit_section. repeat pstep. shp. Qed.
Lemma sh_contents i : post (visit_contents i) is_batch.
Proof. unfold visit_contents. repeat pstep. shp. Qed.
Lemma sh_bibliography i : post (visit_bibliography i) is_batch.
Proof. unfold visit_bibliography. repeat pstep. shp. Qed.
Lemma sh_theorem f i : post (visit_theorem f i) is_batch.
Proof. unfold visit_theorem. repeat pstep. shp. Qed.
Lemma sh_sketch i : post (visit_sketch i) is_batch.
Proof. unfold visit_sketch. repeat pstep. shp. Qed.
Lemma sh_proof i : post (visit_proof i) is_batch.
Proof. unfold visit_proof. repeat pstep. shp. Qed.
Lemma sh_math i : post (visit_math i) is_batch.
Proof. unfold visit_math. repeat pstep. shp. Qed.
Lemma sh_span i : post (visit_span i) is_batch.
Proof.
  unfold visit_span. pstep. eapply post_bind with (P := fun cmds => items_ok (concat cmds)).
  - generalize span_tags. intros l. induction l as [|p l IH]; cbn [mapM]; [apply post_ret; reflexivity|].
    eapply post_bind with (P := items_ok).
    + pstep. apply post_ret. destruct (truthy _); reflexivity.
    + intros a Ha. eapply post_bind; [exact IH|]. intros b Hb. apply post_ret. cbn. apply items_ok_app. auto.
  - intros cmds Hc. apply post_ret. eexists. split; [reflexivity|]. apply items_ok_cons. auto.
Qed.
Lemma sh_visit_method hl f m i : post (visit_method hl f m i) (fun c => shape_ok c = true).
Proof.
  pose proof is_batch_shape as B.
  destruct m; cbn [visit_method];
  lazymatch goal with
  | |- post (visit_node _) _ => eapply post_weaken; [apply sh_node|exact B]
  | |- post (visit_manuscript _) _ => eapply post_weaken; [apply sh_manuscript|exact B]
  | |- post (visit_author _) _ => apply sh_author
  | |- post (visit_abstract _) _ => eapply post_weaken; [apply sh_abstract|exact B]
  | |- post (visit_paragraph _) _ => eapply post_weaken; [apply sh_paragraph|exact B]
  | |- post (visit_section _ _) _ => eapply post_weaken; [apply sh_section|exact B]
  | |- post (visit_contents _) _ => eapply post_weaken; [apply sh_contents|exact B]
  | |- post (visit_bibliography _) _ => eapply post_weaken; [apply sh_bibliography|exact B]
  | |- post (visit_theorem _ _) _ => eapply post_weaken; [apply sh_theorem|exact B]
  | |- post (visit_sketch _) _ => eapply post_weaken; [apply sh_sketch|exact B]
  | |- post (visit_proof _) _ => eapply post_weaken; [apply sh_proof|exact B]
  | |- post (visit_math _) _ => eapply post_weaken; [apply sh_math|exact B]
  | |- post (visit_span _) _ => eapply post_weaken; [apply sh_span|exact B]
  | |- _ => unfold visit_step, visit_note, visit_mathblock, visit_sourcecode, visit_code, visit_codeblock, visit_algorithm, visit_text, visit_error,
      visit_construct, visit_reference, visit_url, visit_subproof, visit_cite, visit_bibitem, visit_draft,
      visit_figure, visit_caption; repeat pstep; reflexivity
  end.
Qed.
Lemma base_visit_shape hl f i : post (base_visit hl f i) (fun c => shape_ok c = true).
Proof. unfold base_visit. pstep. destruct (dispatch _ _); [apply sh_visit_method|apply post_raise]. Qed.

(** *** Handrails *)

Lemma sh_hr_from_node i add sel : post (hr_from_node i add sel) (fun k => exists g, k = KOpen g).
Proof. unfold hr_from_node. do 2 (apply post_skip; intros ?). apply post_node_tag_full. Qed.
Lemma sh_wrap_item k items cl ic b l t : items_ok items -> post (wrap_item k items cl ic b l t) items_ok.
Proof.
  intros H. unfold wrap_item. cbv zeta. destruct (items !! k) as [x|] eqn:E; [|apply post_raise]. apply post_ret.
  apply items_ok_app. split; [apply items_ok_take; assumption|]. apply items_ok_app.
  split; [|apply items_ok_drop; assumption]. apply (items_ok_lookup _ _ _ H) in E. unfold items_ok. cbn. rewrite E. reflexivity.
Qed.
Lemma sh_replace f i add lbl b t : post (replace_node_with_handrails f i add lbl b t) items_ok.
Proof.
  unfold replace_node_with_handrails. eapply post_bind; [apply sh_hr_from_node|]. intros ? [g ->].
  do 2 (apply post_skip; intros ?). apply post_ret. reflexivity.
Qed.
Lemma sh_minimap f i fo w : post (make_minimap f i fo w) items_ok.
Proof. unfold make_minimap. do 2 (apply post_skip; intros ?). cbv zeta. apply post_ret. reflexivity. Qed.
Lemma sh_wrap_heading f i ic items : items_ok items -> post (wrap_heading f i ic items) items_ok.
Proof. intros H. unfold wrap_heading. do 2 (apply post_skip; intros ?). apply sh_wrap_item. assumption. Qed.
Lemma sh_source_div r : post (source_div r) (fun c => item c = true).
Proof. unfold source_div. apply post_skip. intros n. destruct (n_attrs n !! a_src); [apply post_ret; reflexivity|apply post_raise]. Qed.
Lemma post_items_of_shape c : shape_ok c = true -> post (items_of c) items_ok.
Proof. intros H. destruct c; try discriminate H; try apply post_raise. apply post_ret. exact H. Qed.
Lemma post_batch l : items_ok l -> post (ret (KBatchDefer l)) (fun c => shape_ok c = true).
Proof. intros H. apply post_ret. exact H. Qed.
Ltac pitems := eapply post_bind; [eapply post_items_of; eassumption|intros ? ?].
Lemma sh_hv_manuscript (src : bool) (root f : nat) (t : tri) i : post (hv_manuscript src root f i) (fun c => shape_ok c = true).
Proof.
  unfold hv_manuscript. eapply post_bind; [apply sh_manuscript|intros c Hc]. pitems. pstep.
    eapply post_bind with (P := items_ok); [destruct (truthy _); [apply sh_wrap_item; assumption|apply post_ret; assumption]|].
    intros l Hl. eapply post_bind with (P := items_ok).
    { destruct src; [|apply post_ret; assumption]. eapply post_bind; [apply sh_source_div|]. intros d Hd. apply post_ret.
      apply items_ok_insert_nth; assumption. }
    intros l2 Hl2. pstep. destruct x1 as [[t0 j]|]; [|apply post_batch; assumption].
    eapply post_bind; [apply sh_minimap|]. intros mm Hmm. apply post_batch.
    rewrite !items_ok_app. repeat split; auto using items_ok_take, items_ok_drop.
Qed.
Lemma sh_hv_author (src : bool) (root f : nat) (t : tri) i : post (hv_author f i) (fun c => shape_ok c = true).
Proof.
  unfold hv_author. eapply post_bind; [apply sh_author|intros c Hc].
    eapply post_bind; [apply sh_replace|intros hr Hhr]. eapply post_bind; [apply post_items_of_shape; eassumption|intros l Hl].
    apply post_batch. rewrite items_ok_app. auto using items_ok_drop, items_ok_removelast.
Qed.
Lemma sh_hv_section (src : bool) (root f : nat) (t : tri) i : post (hv_section f i) (fun c => shape_ok c = true).
Proof.
  unfold hv_section. eapply post_bind; [apply sh_section|intros c Hc]. pitems. pstep.
    eapply post_bind; [apply sh_wrap_heading; eassumption|]. intros l Hl. apply post_batch. assumption.
Qed.
Lemma sh_hv_abstract (src : bool) (root f : nat) (t : tri) i : post (hv_abstract f i) (fun c => shape_ok c = true).
Proof.
  unfold hv_abstract. eapply post_bind; [apply sh_abstract|intros c Hc]. pitems.
    eapply post_bind; [apply sh_wrap_heading; eassumption|]. intros l Hl. apply post_batch. assumption.
Qed.
Lemma sh_hv_contents (src : bool) (root f : nat) (t : tri) i : post (hv_contents f i) (fun c => shape_ok c = true).
Proof.
  unfold hv_contents. eapply post_bind; [apply sh_contents|intros c Hc]. pitems.
    eapply post_bind; [apply sh_wrap_heading; eassumption|]. intros l Hl.
    eapply post_bind; [apply sh_minimap|]. intros mm Hmm. apply post_batch. rewrite !items_ok_app.
    split; [apply items_ok_removelast; assumption|]. split; [assumption|].
    pose proof (items_ok_rev l Hl) as Hr. destruct (rev l) as [|y r]; [reflexivity|]. apply items_ok_cons in Hr as [Hy _].
    unfold items_ok. cbn. rewrite Hy. reflexivity.
Qed.
Lemma sh_hv_bibliography (src : bool) (root f : nat) (t : tri) i : post (hv_bibliography f i) (fun c => shape_ok c = true).
Proof.
  unfold hv_bibliography. eapply post_bind; [apply sh_bibliography|intros c Hc]. pitems. pstep.
    eapply post_bind; [apply sh_wrap_heading|]. { apply items_ok_set; [reflexivity|assumption]. }
    intros l Hl. apply post_batch. assumption.
Qed.
Lemma sh_hv_paragraph (src : bool) (root f : nat) (t : tri) i : post (hv_paragraph f i) (fun c => shape_ok c = true).
Proof.
  unfold hv_paragraph. eapply post_bind; [apply sh_paragraph|intros c Hc].
    eapply post_bind; [apply sh_replace|intros hr Hhr]. cbv zeta. pitems. apply post_batch. rewrite items_ok_app.
    auto using items_ok_first, items_ok_drop.
Qed.
Lemma sh_hv_theorem (src : bool) (root f : nat) (t : tri) i : post (hv_labeled f (visit_theorem f) t i) (fun c => shape_ok c = true).
Proof.
  unfold hv_labeled. eapply post_bind; [apply sh_theorem|intros c Hc].
    eapply post_bind; [apply sh_replace|intros hr Hhr]. pitems. apply post_batch. rewrite items_ok_app. auto using items_ok_drop.
Qed.
Lemma sh_hv_sketch (src : bool) (root f : nat) (t : tri) i : post (hv_labeled f visit_sketch t i) (fun c => shape_ok c = true).
Proof.
  unfold hv_labeled. eapply post_bind; [apply sh_sketch|intros c Hc].
    eapply post_bind; [apply sh_replace|intros hr Hhr]. pitems. apply post_batch. rewrite items_ok_app. auto using items_ok_drop.
Qed.
Lemma sh_hv_proof (src : bool) (root f : nat) (t : tri) i : post (hv_labeled f visit_proof t i) (fun c => shape_ok c = true).
Proof.
  unfold hv_labeled. eapply post_bind; [apply sh_proof|intros c Hc].
    eapply post_bind; [apply sh_replace|intros hr Hhr]. pitems. apply post_batch. rewrite items_ok_app. auto using items_ok_drop.
Qed.
Lemma sh_hv_subproof (src : bool) (root f : nat) (t : tri) i : post (hv_subproof i) (fun c => shape_ok c = true).
Proof.
  unfold hv_subproof, subproof_handrails. eapply post_bind.
    { eapply post_bind; [apply sh_hr_from_node|]. intros ? [g ->]. apply post_ret. instantiate (1 := items_ok). reflexivity. }
    intros hr Hhr. apply post_batch. apply items_ok_first. assumption.
Qed.
Lemma sh_hv_step (src : bool) (root f : nat) (t : tri) i : post (hv_step f i) (fun c => shape_ok c = true).
Proof.
  unfold hv_step, step_handrails. eapply post_bind with (P := items_ok).
    { do 3 pstep. eapply post_bind with (P := fun c => item c = true).
      - repeat pstep; reflexivity.
      - intros m Hm. eapply post_bind; [apply sh_hr_from_node|]. intros ? [g ->]. apply post_ret. unfold items_ok. cbn. rewrite Hm. reflexivity. }
    intros hr Hhr. apply post_batch. assumption.
Qed.
Lemma sh_hv_math (src : bool) (root f : nat) (t : tri) i : post (hv_math i) (fun c => shape_ok c = true).
Proof.
  unfold hv_math. eapply post_bind; [apply sh_math|intros c Hc]. pose proof (is_batch_shape _ Hc) as Hs. pstep.
    destruct x as [sb|]; [|apply post_ret; assumption]. pstep. destruct (negb x); [apply post_ret; assumption|]. pstep.
    destruct x0 as [|ch rest]; [apply post_ret; assumption|]. destruct (N.eqb ch 46); [|apply post_ret; assumption].
    pstep. pitems. pstep. apply post_batch. apply items_ok_cons. auto.
Qed.
Lemma sh_hv_mathblock (src : bool) (root f : nat) (t : tri) i : post (hv_mathblock f i) (fun c => shape_ok c = true).
Proof.
  unfold hv_mathblock. do 2 pstep. eapply post_bind; [apply sh_replace|intros hr Hhr]. cbv zeta. apply post_batch.
    apply items_ok_cons. split; [reflexivity|]. apply items_ok_app. split; [apply items_ok_first; assumption|reflexivity].
Qed.
Lemma sh_hv_bibitem (src : bool) (root f : nat) (t : tri) i : post (hv_bibitem f i) (fun c => shape_ok c = true).
Proof.
  unfold hv_bibitem. pstep. destruct x as [[text dt] back]. pstep. cbv zeta.
    eapply post_bind; [apply sh_wrap_item; reflexivity|]. intros hr Hhr. destruct dt as [|a dt].
    + pstep. apply post_batch. assumption.
    + apply post_batch. repeat first [apply items_ok_insert_nth; [reflexivity|] | apply items_ok_set; [reflexivity|]]. assumption.
Qed.
Lemma sh_hvisit_method hl src root f m i : post (hvisit_method hl src root f m i) (fun c => shape_ok c = true).
Proof.
  destruct m; cbn [hvisit_method]; lazymatch goal with
  | |- post (hv_manuscript _ _ _ _) _ => apply sh_hv_manuscript; repeat constructor
  | |- post (hv_author _ _) _ => apply sh_hv_author; repeat constructor
  | |- post (hv_section _ _) _ => apply sh_hv_section; repeat constructor
  | |- post (hv_abstract _ _) _ => apply sh_hv_abstract; repeat constructor
  | |- post (hv_contents _ _) _ => apply sh_hv_contents; repeat constructor
  | |- post (hv_bibliography _ _) _ => apply sh_hv_bibliography; repeat constructor
  | |- post (hv_paragraph _ _) _ => apply sh_hv_paragraph; repeat constructor
  | |- post (hv_labeled _ (visit_theorem _) _ _) _ => apply sh_hv_theorem; repeat constructor
  | |- post (hv_labeled _ visit_sketch _ _) _ => apply sh_hv_sketch; repeat constructor
  | |- post (hv_labeled _ visit_proof _ _) _ => apply sh_hv_proof; repeat constructor
  | |- post (hv_subproof _) _ => apply sh_hv_subproof; repeat constructor
  | |- post (hv_step _ _) _ => apply sh_hv_step; repeat constructor
  | |- post (hv_math _) _ => apply sh_hv_math; repeat constructor
  | |- post (hv_mathblock _ _) _ => apply sh_hv_mathblock; repeat constructor
  | |- post (hv_bibitem _ _) _ => apply sh_hv_bibitem; repeat constructor
  | |- _ => apply sh_visit_method
  end.
Qed.
Lemma hr_visit_shape hl src root f i : post (hr_visit hl src root f i) (fun c => shape_ok c = true).
Proof. unfold hr_visit. pstep. destruct (dispatch _ _); [apply sh_hvisit_method|apply post_raise]. Qed.

(** ** Leave methods *)

Definition uniform (lv : tst -> M (cmd * tst)) : Prop :=
  (forall B s, match lv (MkT B []) s with (_, Ok _) => False | _ => True end) /\
  (forall B d r s, lv (MkT B (d :: r)) s =
    match lv (MkT [] [d]) s with (s', Ok (k, _)) => (s', Ok (k, MkT B r)) | (s', Err e) => (s', Err e) end) /\
  (forall d, static d = true -> post (lv (MkT [] [d])) (fun x => static x.1 = true)).
Lemma uniform_leave lv u s s' k u' : uniform lv -> lv u s = (s', Ok (k, u')) ->
  exists d r, deferred u = d :: r /\ u' = MkT (body u) r /\
    lv (MkT [] [d]) s = (s', Ok (k, MkT [] [])) /\ (static d = true -> static k = true).
Proof.
  intros (H0 & H1 & H2) H. destruct u as [B [|d r]].
  - specialize (H0 B s). rewrite H in H0. contradiction.
  - exists d, r. rewrite H1 in H. destruct (lv (MkT [] [d]) s) as [s1 [[k1 u1]|e]] eqn:E; [|discriminate H].
    injection H as -> -> <-. split; [reflexivity|]. split; [reflexivity|]. split.
    + rewrite H1 in E. destruct (lv (MkT [] [d]) s) as [s2 [[k2 u2]|e]]; congruence.
    + intros Hd. exact (H2 d Hd _ _ _ E).
Qed.
Lemma post_static_items c : static c = true -> post (items_of c) (fun l => forallb static l = true).
Proof. intros H. destruct c; try discriminate H; try apply post_raise. apply post_ret. exact H. Qed.
Lemma static_insert_last x l : static x = true -> forallb static l = true -> forallb static (insert_before_last x l) = true.
Proof.
  intros Hx Hl. unfold insert_before_last. destruct (rev l) as [|y r] eqn:E; cbn; [rewrite Hx; reflexivity|].
  rewrite <- (rev_involutive l), E in Hl. cbn in Hl. rewrite forallb_app in *. apply andb_prop in Hl as [H1 H2].
  cbn in *. rewrite H1, Hx. assumption.
Qed.
Lemma static_insert_nth k x l : static x = true -> forallb static l = true -> forallb static (insert_nth k x l) = true.
Proof.
  intros Hx Hl. unfold insert_nth. rewrite <- (take_drop k l) in Hl. rewrite forallb_app in *. cbn. rewrite Hx. assumption.
Qed.
Ltac uni_match :=
  repeat match goal with
  | |- context [match ?x with _ => _ end] => destruct x eqn:?; try reflexivity; try exact I
  end.
Ltac uni := unfold bind, ret, raise; cbn [deferred body fst snd]; uni_match.
Lemma uniform_node : uniform leave_node.
Proof. split; [intros; exact I|]. split; [reflexivity|]. intros d Hd. apply post_ret. exact Hd. Qed.
(** A leave method that does something before and after [leave_node]. *)
Lemma uniform_bind lv lv' (k : cmd * tst -> M (cmd * tst)) :
  uniform lv ->
  (forall c B r s, k (c, MkT B r) s =
     match k (c, MkT [] []) s with (s', Ok (c', _)) => (s', Ok (c', MkT B r)) | (s', Err e) => (s', Err e) end) ->
  (forall c u, static c = true -> post (k (c, u)) (fun x => static x.1 = true)) ->
  (forall u, lv' u = bind (lv u) k) -> uniform lv'.
Proof.
  intros (H0 & H1 & H2) Hk Hs E. split; [|split].
  - intros B s. rewrite E. unfold bind. specialize (H0 B s). destruct (lv (MkT B []) s) as [? []]; [contradiction|exact I].
  - intros B d r s. rewrite !E. unfold bind. rewrite (H1 B). destruct (lv (MkT [] [d]) s) as [s1 [[c u]|e]] eqn:El; [|reflexivity].
    rewrite H1 in El. destruct (lv (MkT [] [d]) s) as [s2 [[c2 u2]|e]]; [|discriminate El]. injection El as -> -> <-.
    rewrite (Hk c B r). destruct (k (c, MkT [] []) s1) as [s3 [[c3 u3]|e]] eqn:Ek; reflexivity.
  - intros d Hd. rewrite E. eapply post_bind; [apply H2; assumption|]. intros [c u] Hc. apply Hs. assumption.
Qed.
Ltac qmatch :=
  repeat match goal with
  | |- context [match ?x with _ => _ end] => let E := fresh in destruct x eqn:E; try reflexivity
  end.
Lemma uniform_insert_info lv lv' (q : M cmd) (f : cmd -> cmd * tst -> M (cmd * tst)) k :
  uniform lv -> (forall c r, f c r = insert_info k c r) -> post q (fun c => static c = true) ->
  (forall u, lv' u = (let! r := lv u in let! c := q in f c r)) -> uniform lv'.
Proof.
  intros Hl Hf Hq E. eapply uniform_bind; [exact Hl| | |exact E].
  - intros c B r s. unfold bind. destruct (q s) as [s1 [x|e]]; [|reflexivity]. rewrite !Hf. unfold insert_info, bind, items_of, ret, raise.
    destruct c; reflexivity.
  - intros c u Hc. cbv beta. cbv beta. eapply post_bind; [exact Hq|]. intros x Hx. rewrite Hf. unfold insert_info. cbn [fst snd].
    eapply post_bind; [apply post_static_items; exact Hc|]. intros l Hls. apply post_ret. cbn [fst static].
    destruct k; [apply static_insert_nth|apply static_insert_last]; assumption.
Qed.
Lemma uniform_mathblock i : uniform (leave_mathblock i).
Proof.
  eapply uniform_bind; [apply uniform_node| | |reflexivity].
  - intros c B r s. unfold bind. destruct (parent_of i s) as [s1 [p|e]]; [|reflexivity].
    destruct ((match p with None => ret false | Some q => inst [CBaseParagraph] q end) s1) as [s2 [b|e]]; [|reflexivity].
    destruct (negb b); [reflexivity|]. destruct (next_sibling i SibAny s2) as [s3 [nx|e]]; [|reflexivity].
    destruct nx as [x|], p as [q|]; try reflexivity. destruct (setattr q a_must_close_p_tag (VBool true) s3) as [s4 [u|e]]; [|reflexivity].
    destruct c; reflexivity.
  - intros c u Hc. cbv beta. do 2 pstep. destruct (negb x0); [apply post_ret; exact Hc|]. pstep.
    destruct x1, x; try (apply post_ret; exact Hc); [|apply post_raise].
    pstep. eapply post_bind; [apply post_static_items; exact Hc|]. intros l Hl. apply post_ret. cbn. rewrite forallb_app, Hl. reflexivity.
Qed.
Lemma uniform_paragraph i : uniform (leave_paragraph i).
Proof.
  eapply uniform_bind; [apply uniform_node| | |reflexivity].
  - intros c B r s. unfold bind. destruct (flag i a_must_close_p_tag s) as [s1 [b|e]]; [|reflexivity]. destruct b; [|reflexivity].
    cbn [fst snd]. unfold bind, items_of. destruct c; reflexivity.
  - intros c u Hc. cbv beta. pstep. destruct x; [|apply post_ret; exact Hc].
    eapply post_bind; [apply post_static_items; exact Hc|]. intros l Hl. apply post_ret. exact Hl.
Qed.
Lemma uniform_proof : uniform leave_proof.
Proof.
  eapply uniform_bind; [apply uniform_node| | |reflexivity].
  - intros c B r s. cbn [fst snd]. unfold bind, items_of. destruct c; reflexivity.
  - intros c u Hc. cbv beta. cbn [fst snd]. eapply post_bind; [apply post_static_items; exact Hc|]. intros l Hl. apply post_ret.
    apply static_insert_last; [reflexivity|exact Hl].
Qed.
Lemma uniform_abstract i : uniform (leave_abstract i).
Proof.
  unfold leave_abstract. split; [|split].
  - intros B s. unfold bind. destruct (get_strs i a_keywords s) as [s1 [kw|e]]; [|exact I].
    destruct (get_strs i a_msc s1) as [s2 [ms|e]]; exact I.
  - intros B d r s. unfold bind. destruct (get_strs i a_keywords s) as [s1 [kw|e]]; [|reflexivity].
    destruct (get_strs i a_msc s1) as [s2 [ms|e]]; reflexivity.
  - intros d Hd. do 2 pstep. cbn [leave_node deferred]. apply (post_bind _ _ (fun x => x.1 = d)); [apply post_ret; reflexivity|].
    intros y ->. apply post_ret. cbn. rewrite !forallb_app. cbn. rewrite Hd. destruct x, x0; reflexivity.
Qed.
Lemma uniform_method m i : uniform (leave_method m i).
Proof.
  destruct m; unfold leave_method; cbv beta iota; lazymatch goal with
  | |- uniform (fun u => leave_abstract i u) => apply uniform_abstract
  | |- uniform (fun u => leave_mathblock i u) => apply uniform_mathblock
  | |- uniform (fun u => leave_paragraph i u) => apply uniform_paragraph
  | |- uniform (fun u => leave_proof u) => apply uniform_proof
  | |- uniform (fun u => leave_node u) => apply uniform_node
  end.
Qed.
Lemma post_true {X} (m : M X) : post m (fun _ => True).
Proof. intros s s' a _. exact I. Qed.
Lemma uniform_icon lv lv' i k :
  uniform lv -> (forall u, lv' u = (let! r := lv u in let! ic := icon_of i in insert_info k (hr_info_zone_icon ic) r)) -> uniform lv'.
Proof.
  intros Hl E. eapply uniform_bind; [exact Hl| | |exact E].
  - intros c B r s. unfold bind. destruct (icon_of i s) as [s1 [x|e]]; [|reflexivity]. unfold insert_info, bind, items_of, ret, raise.
    destruct c; reflexivity.
  - intros c u Hc. cbv beta. cbv beta. pstep. unfold insert_info. cbn [fst snd].
    eapply post_bind; [apply post_static_items; exact Hc|]. intros l Hls. apply post_ret. cbn [fst static].
    destruct k; [apply static_insert_nth|apply static_insert_last]; auto.
Qed.
Lemma uniform_number lv lv' f i k sty :
  uniform lv -> (forall u, lv' u = (let! r := lv u in let! x := full_number f i in insert_info k (hr_info_zone_number x sty) r)) -> uniform lv'.
Proof.
  intros Hl E. eapply uniform_bind; [exact Hl| | |exact E].
  - intros c B r s. unfold bind. destruct (full_number f i s) as [s1 [x|e]]; [|reflexivity]. unfold insert_info, bind, items_of, ret, raise.
    destruct c; reflexivity.
  - intros c u Hc. cbv beta. cbv beta. pstep. unfold insert_info. cbn [fst snd].
    eapply post_bind; [apply post_static_items; exact Hc|]. intros l Hls. apply post_ret. cbn [fst static].
    destruct k; [apply static_insert_nth|apply static_insert_last]; auto.
Qed.
Lemma uniform_math i : uniform (hl_math i).
Proof.
  eapply uniform_bind; [apply uniform_node| | |reflexivity].
  - intros c B r s. unfold bind. destruct (flag i a_followed_by_dot s) as [s1 [b|e]]; [|reflexivity]. destruct b; [|reflexivity].
    cbn [fst snd]. unfold bind, items_of. destruct c; reflexivity.
  - intros c u Hc. cbv beta. pstep. destruct x; [|apply post_ret; exact Hc].
    eapply post_bind; [apply post_static_items; exact Hc|]. intros l Hl. apply post_ret. cbn. rewrite forallb_app, Hl. reflexivity.
Qed.
Lemma uniform_hmethod f m i : uniform (hleave_method f m i).
Proof.
  pose proof (uniform_method m i) as G.
  destruct m; unfold hleave_method; cbv beta iota; try exact G; clear G; lazymatch goal with
  | |- uniform (fun u => hl_math i u) => apply uniform_math
  | |- uniform (fun u => hl_step _ i u) => eapply uniform_number; [apply uniform_node|reflexivity]
  | |- uniform (fun u => hl_mathblock _ i u) => eapply uniform_number; [apply uniform_mathblock|reflexivity]
  | |- uniform (fun u => hl_paragraph i u) => eapply uniform_icon; [apply uniform_paragraph|reflexivity]
  | |- _ => eapply uniform_icon; [apply uniform_node|reflexivity]
  end.
Qed.
Lemma uniform_dispatch (meth : cls -> id -> tst -> M (cmd * tst)) l i lv :
  (forall m, uniform (meth m i)) ->
  (forall u, lv u = (let! c := cls_of i in match dispatch l c with Some m => meth m i u | None => raise EAttribute end)) -> uniform lv.
Proof.
  intros Hm E. split; [|split].
  - intros B s. rewrite E. unfold bind. destruct (cls_of i s) as [s1 [c|e]]; [|exact I].
    destruct (dispatch l c) as [m|]; [apply Hm|exact I].
  - intros B d r s. rewrite !E. unfold bind. destruct (cls_of i s) as [s1 [c|e]]; [|reflexivity].
    destruct (dispatch l c) as [m|]; [apply (Hm m)|reflexivity].
  - intros d Hd. rewrite E. pstep. destruct (dispatch l x) as [m|]; [apply Hm; assumption|apply post_raise].
Qed.

(** ** The two translators *)

Definition tr_attrs : list attr := [a_types; a_must_close_p_tag].
Definition trh_attrs : list attr := [a_types; a_must_close_p_tag; a_text; a_followed_by_dot].
Lemma base_tc_ok hl A : a_types ∈ A -> a_must_close_p_tag ∈ A -> tc_ok A (base_tc hl).
Proof.
  intros H1 H2. split.
  - intros f i. cbn [base_tc tc_visit]. unfold base_visit. apply tp_bind; [apply tp_quiet, q_cls_of|]. intros c.
    destruct (dispatch _ _); [apply tp_visit_method; assumption|apply tp_raise].
  - intros f i u. cbn [base_tc tc_leave]. unfold base_leave. apply tp_bind; [apply tp_quiet, q_cls_of|]. intros c.
    destruct (dispatch _ _); [apply tp_leave_method; assumption|apply tp_raise].
  - intros f i s s' c H. exact (base_visit_shape hl f i _ _ _ H).
  - intros f i u s s' k u' H. apply (uniform_leave (base_leave f i)); [|exact H].
    apply (uniform_dispatch leave_method leave_defined i); [|reflexivity]. intros m. apply uniform_method.
Qed.
Lemma hr_tc_ok hl src root A : a_types ∈ A -> a_must_close_p_tag ∈ A -> a_text ∈ A -> a_followed_by_dot ∈ A ->
  tc_ok A (hr_tc hl src root).
Proof.
  intros H1 H2 H3 H4. split.
  - intros f i. cbn [hr_tc tc_visit]. unfold hr_visit. apply tp_bind; [apply tp_quiet, q_cls_of|]. intros c.
    destruct (dispatch _ _); [apply tp_hvisit_method; assumption|apply tp_raise].
  - intros f i u. cbn [hr_tc tc_leave]. unfold hr_leave. apply tp_bind; [apply tp_quiet, q_cls_of|]. intros c.
    destruct (dispatch _ _); [apply tp_hleave_method; assumption|apply tp_raise].
  - intros f i s s' c H. exact (hr_visit_shape hl src root f i _ _ _ H).
  - intros f i u s s' k u' H. apply (uniform_leave (hr_leave f i)); [|exact H].
    apply (uniform_dispatch (hleave_method f) hleave_defined i); [|reflexivity]. intros m. apply uniform_hmethod.
Qed.

(** External trees. *)
Lemma tp_run_translator A tc ext fuel i : tc_ok A tc -> (forall j, tpres A (ext j)) -> tpres A (run_translator tc ext fuel i).
Proof.
  intros Htc Hext s s' h H. eapply run_renders in H as (t & _ & Hr); [|exact Htc|reflexivity].
  exact (proj1 (renders_frame tc ext fuel A Htc Hext) _ _ _ _ Hr).
Qed.
Lemma tp_translate_ext A hl fuel : a_types ∈ A -> a_must_close_p_tag ∈ A -> forall d i, tpres A (translate_ext hl d fuel i).
Proof.
  intros H1 H2. induction d as [|d IH]; intros i; cbn [translate_ext]; [apply tp_raise|].
  apply tp_run_translator; [apply base_tc_ok; assumption|exact IH].
Qed.
