(** Transform keeps the types of attributes; references hold existing nodes. *)
From Verif Require Export TypedStep.
From Verif Require Import Transformer NodeOps Monad.
Local Open Scope string_scope.
Local Open Scope list_scope.

Notation tt_ := (fun _ => True).
Notation no_ := (fun _ => @nil id).
Ltac ins := let x := fresh "x" in let H := fresh "H" in intros x H; cbn [In app nodes_in fst snd] in *; rewrite ?in_app_iff; cbn [In app nodes_in fst snd] in *; intuition (subst; auto).
Ltac obsa := eapply ok_bind; [apply ok_sa; solve [sap]|intros ? _; cbn [app]].
Ltac oret := apply ok_ret; [exact I|ins].
Ltac okw := repeat first
  [ apply ok_raise
  | solve [oret]
  | solve [apply ok_sa; sap]
  | match goal with |- okM _ (if ?b then _ else _) _ _ => destruct b end
  | match goal with |- okM _ (match ?x with _ => _ end) _ _ => destruct x end
  | match goal with
    | |- okM _ (bind (get_str _ _) _) _ _ => eapply ok_bind; [apply ok_get_str|intros ? _; cbn [app]]
    | |- okM _ (bind (get_strs _ _) _) _ _ => eapply ok_bind; [apply ok_get_strs|intros ? _; cbn [app]]
    | |- okM _ (bind (getattr _ _) _) _ _ => eapply ok_bind; [apply ok_getattr|intros ? ?; cbn [app]]
    | |- okM _ (bind (setattr _ _ _) _) _ _ => eapply ok_bind; [apply ok_setattr; [reflexivity|ins]|intros ? _; cbn [app]]
    | |- okM _ (setattr _ _ _) _ _ => apply ok_setattr; [reflexivity|ins]
    | |- okM _ (bind (new_node _ []) _) _ _ => eapply ok_bind; [apply ok_new; constructor|intros ? _; cbn [app]]
    end
  | obsa ].

Lemma t_collect X fuel d i : (forall x, In x (map snd d) -> In x X) ->
  okM X (collect_labels fuel d i) tt_ (fun d => map snd d).
Proof.
  intros Hd. apply ok_traverse; [|exact Hd]. intros acc j. unfold collect_body. okw. apply ok_ret; [exact I|].
  intros x H. rewrite map_app in H. apply in_app_iff in H as [H|[<-|[]]]; [|left; reflexivity]. right. apply in_app_iff. left. exact H.
Qed.
Lemma t_label d l def X : (forall x, In x (map snd d) -> In x X) -> okM X (label_to_node d l def) tt_ (fun i => [i]).
Proof.
  intros Hd. unfold label_to_node. unfold lookup_label. destruct (find _ d) as [p|] eqn:E.
  - apply find_some in E as [E _]. apply ok_ret; [exact I|]. intros x [<-|[]]. apply Hd, in_map, E.
  - obsa. destruct def; apply ok_new; (constructor; [|constructor]); (split; [reflexivity|intros y []]).
Qed.
Lemma t_ref d i X : (forall x, In x (map snd d) -> In x X) -> okM X (resolve_reference d i) tt_ no_.
Proof.
  intros Hd. unfold resolve_reference. eapply ok_bind; [apply ok_get_str|intros tl _; cbn [app]].
  eapply ok_bind; [apply t_label; intros x Hx; right; apply Hd, Hx|intros target _; cbn [app]]. obsa.
  destruct (subclass _ _); [okw|]. eapply ok_bind; [apply ok_getattr|intros o Ho; cbn [app]].
  eapply ok_bind; [apply ok_new|intros r _; okw]. constructor; [split; [reflexivity|ins]|]. constructor; [|constructor].
  split; [exact Ho|]. ins.
Qed.
Lemma t_cite d k i X : (forall x, In x (map snd d) -> In x X) -> okM X (resolve_cite d k i) tt_ no_.
Proof.
  intros Hd. unfold resolve_cite. eapply ok_bind; [apply ok_get_strs|intros ls _; cbn [app]].
  eapply ok_bind; [apply ok_mapM; intros l; apply t_label; intros x Hx; right; apply Hd, Hx|intros ts _; cbn beta].
  eapply ok_bind; [apply ok_new|intros c _; cbn [app]].
  { constructor; [|constructor]. split; [reflexivity|]. intros y Hy. apply in_app_iff. left. exact Hy. }
  eapply ok_bind; [apply ok_setattr; [reflexivity|ins]|intros u _; cbn [app]]. obsa.
  apply ok_iterM. intros x _. unfold add_backlink. okw.
Qed.
Lemma t_prev fuel i X : okM X (resolve_prev fuel i) tt_ no_.
Proof.
  unfold resolve_prev. obsa. match goal with |- okM _ (match ?x with _ => _ end) _ _ => destruct x as [step|] end; [|okw].
  eapply ok_bind; [apply ok_getattr|intros tv _; cbn [app]]. destruct (py_int _) as [n|]; [|okw]. obsa.
  eapply ok_bind; [apply ok_getattr|intros l _; cbn [app]]. obsa. obsa.
  eapply ok_bind; [apply ok_getattr|intros o Ho; cbn [app]].
  eapply ok_bind; [apply ok_new|intros r _; okw]. constructor; [split; [reflexivity|]|constructor; [|constructor]].
  - ins.
  - split; [exact Ho|]. ins.
Qed.
Lemma t_resolve fuel d i X : (forall x, In x (map snd d) -> In x X) -> okM X (resolve_pending_references fuel d i) tt_ no_.
Proof.
  intros Hd. unfold resolve_pending_references. eapply ok_bind; [apply (ok_traverse X _ _ (fun _ : nat => []))|].
  - intros k j. cbn [app]. unfold resolve_body. obsa. destruct (subclass _ _); [eapply ok_bind; [apply t_ref, Hd|intros; okw]|].
    destruct (subclass _ _); [eapply ok_bind; [apply t_cite, Hd|intros; okw]|].
    destruct (subclass _ _); [eapply ok_bind; [apply t_prev|intros; okw]|okw].
  - intros x [].
  - intros k _. cbn [app]. eapply ok_bind; [apply (ok_traverse X _ _ (fun _ : unit => []))|intros; okw].
    + intros. apply ok_raise.
    + intros x [].
Qed.
Lemma t_subproofs fuel i X : okM X (add_necessary_subproofs fuel i) tt_ no_.
Proof.
  apply (ok_traverse X _ _ (fun _ : unit => [])); [|intros x []]. intros u j. cbn [app]. unfold subproof_body. obsa.
  match goal with |- okM _ (match ?x with _ => _ end) _ _ => destruct x as [|c0 cs] end; [okw|]. obsa. cbv zeta. obsa.
  eapply ok_bind; [apply ok_new; constructor|intros w _; cbn [app]]. obsa. obsa.
  eapply ok_bind; [apply ok_setattr; [reflexivity|ins]|intros u2 _; cbn [app]].
  match goal with |- okM _ (match ?x with _ => _ end) _ _ => destruct x as [c|] end; [|okw]. obsa. obsa.
  eapply ok_bind with (R := tt_) (Y := no_); [okw|intros; okw].
Qed.
Lemma t_steps l : forall k X, okM X (number_steps l k) tt_ no_.
Proof. induction l as [|x l IH]; intros k X; cbn [number_steps]; [okw|]. obsa. destruct (_ : bool); [|apply IH]. eapply ok_bind; [apply ok_setattr; [reflexivity|ins]|intros u _; apply IH]. Qed.
Lemma t_number fuel i X : okM X (autonumber_nodes fuel i) tt_ no_.
Proof.
  unfold autonumber_nodes. eapply ok_bind; [apply (ok_traverse X _ _ (fun _ : num_st => [])); [|intros x []]|intros; okw].
  intros acc j. cbn [app]. unfold autonumber_body. obsa. destruct (subclass _ _); [okw|].
  destruct (subclass_any _ _); [unfold autonumber_steps; eapply ok_bind; [eapply ok_bind; [apply ok_sa; sap|intros; apply t_steps]|intros; okw]|].
  destruct (subclass _ _); [okw|]. eapply ok_bind; [apply ok_getattr|intros nn _; cbn [app]]. destruct (_ && _); [|okw]. cbv zeta.
  destruct (counter_value _ _) as [v|] eqn:E; [|okw].
  assert (Hv : attr_shape a_number v = true /\ nodes_in v = []).
  { unfold counter_value in E. destruct (ck _); [injection E as <-; auto|]. destruct (nth_error _ _); [|discriminate E]. injection E as <-. auto. }
  eapply ok_bind; [apply ok_setattr; [apply Hv|rewrite (proj2 Hv); ins]|intros u _; cbn [app]].
  eapply ok_bind with (R := tt_) (Y := no_); [okw|intros; okw].
Qed.
Lemma t_toc fuel i X : okM X (make_toc fuel i) tt_ no_.
Proof.
  unfold make_toc. eapply ok_bind; [apply (ok_traverse X _ _ (fun _ : option id => [])); [|intros x []]|].
  - intros acc j. cbn [app]. unfold toc_pick. okw.
  - intros [toc|] _; cbn [app]; [|okw]. eapply ok_bind; [apply (ok_traverse X _ _ (fun _ : option id => [])); [|intros x []]|intros; okw].
    intros acc j. cbn [app]. unfold toc_body. eapply ok_bind; [apply ok_new; constructor|intros item _; cbn [app]].
    eapply ok_bind with (R := tt_) (Y := fun _ => [j]).
    { unfold toc_reftext. eapply ok_bind; [apply ok_getattr|intros ti _; cbn [app]]. eapply ok_bind; [apply ok_getattr|intros nn _; cbn [app]].
      destruct (truthy nn); [apply ok_ret; [exact I|ins]|]. obsa. apply ok_ret; [exact I|ins]. }
    intros rt _. cbn [app]. eapply ok_bind; [apply ok_new|intros r _; cbn [app]].
    { constructor; [split; [reflexivity|ins]|]. constructor; [split; [reflexivity|ins]|constructor]. }
    unfold append_opt, is_last_of, parent_parent. okw.
Qed.
Lemma t_constructs fuel i X : okM X (add_keywords_to_constructs fuel i) tt_ no_.
Proof. apply (ok_traverse X _ _ (fun _ : unit => [])); [|intros x []]. intros u j. cbn [app]. unfold construct_body. okw. Qed.
Lemma t_depth fuel i X : okM X (add_handrail_depth fuel i) tt_ no_.
Proof.
  apply ok_iterM. intros c _. apply (ok_traverse X _ _ (fun _ : unit => [])); [|intros x []]. intros u j. cbn [app].
  apply (ok_traverse X _ _ (fun _ : unit => [])); [|intros x []]. intros u2 j2. cbn [app]. unfold depth_inner.
  eapply ok_bind; [apply ok_sa|].
  { intros s0 s Hs. unfold node_eqM. destruct (node_eq _ _ _ _); exact Hs. }
  intros b _. cbn [app]. okw.
Qed.
Lemma t_nodeids fuel i X : okM X (assign_node_ids fuel i) tt_ no_.
Proof.
  unfold assign_node_ids. eapply ok_bind; [apply (ok_traverse X _ _ (fun _ : Z => [])); [|intros x []]|intros; okw].
  intros k j. cbn [app]. unfold nodeid_body. okw.
Qed.
Lemma transform_typed fuel d i X : (forall x, In x (map snd d) -> In x X) ->
  okM X (transform fuel d i) tt_ (fun d => map snd d).
Proof.
  intros Hd. unfold transform. obsa. eapply ok_bind; [apply t_collect, Hd|intros d' _]. cbn beta.
  eapply ok_bind; [apply t_resolve; ins|intros u1 _; cbn [app]].
  eapply ok_bind; [apply t_subproofs|intros u2 _; cbn [app]].
  eapply ok_bind; [apply t_number|intros u3 _; cbn [app]].
  eapply ok_bind; [apply t_toc|intros u4 _; cbn [app]].
  eapply ok_bind; [apply t_constructs|intros u5 _; cbn [app]].
  eapply ok_bind; [apply t_depth|intros u6 _; cbn [app]].
  eapply ok_bind; [apply t_nodeids|intros u7 _; cbn [app]]. apply ok_ret; [exact I|]. ins.
Qed.
