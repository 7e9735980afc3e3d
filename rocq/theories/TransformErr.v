(** The exceptions of [transform]. *)
From Verif Require Import TreeFacts Consistency.
From Verif Require Export ExnBound Transformer.
From Verif Require Import NodeOps Monad.
Local Open Scope list_scope.

(** What [transform] raises.  [EType] and [EUnsupported] come from attributes that are not of the type of the class, [EOutOfFuel] from a number of steps
    that is not enough. *)
Definition transform_errs (e : exn) : Prop :=
  match e with ETransformer _ | ENode _ | EAttribute | EValue | EAssert | EStopIteration | EType | EUnsupported | EOutOfFuel => True | _ => False end.
#[export] Instance t_errs : node_errs transform_errs. Proof. split; intros; exact I. Qed.
Notation tf := (sf transform_errs).

Ltac leaf ::= fail.
Lemma tf_get_strs X i a : In i X -> tf X (get_strs i a) none_.
Proof. intros H. unfold get_strs. sfs. Qed.
Lemma tf_get_int X i a : In i X -> tf X (get_int i a) none_.
Proof. intros H. unfold get_int. sfs. Qed.
Lemma tf_trav {A} fuel cond (body : A -> id -> M A) (Y : A -> list id) : (forall X a i, In i X -> (forall x, In x (Y a) -> In x X) -> tf X (body a i) Y) ->
  forall X a stack, (forall x, In x (Y a) -> In x X) -> (forall x, In x stack -> In x X) -> tf X (trav_loop fuel cond body a stack) Y.
Proof.
  intros Hb. induction fuel as [|fuel IH]; intros X a stack Ha Hs; destruct stack as [|i rest]; cbn [trav_loop]; try (apply sf_ret; exact Ha); [apply sf_raise; exact I|].
  assert (Hi : In i X) by (apply Hs; left; reflexivity).
  eapply sf_bind; [apply sf_get_node, Hi|intros n].
  eapply (sf_bind _ _ _ Y); [destruct (cond n); [apply Hb; [inx|intros x Hx; specialize (Ha x Hx); inx]|apply sf_ret; intros x Hx; specialize (Ha x Hx); inx]|intros b].
  eapply sf_bind; [apply sf_children_of; inx|intros cs]. apply IH; [intros x Hx; inx|]. intros x Hx. apply in_app_iff in Hx as [Hx|Hx]; [inx|]. specialize (Hs x (or_intror Hx)). inx.
Qed.
Lemma tf_for {A} fuel cond (body : A -> id -> M A) (Y : A -> list id) X a r : (forall X a i, In i X -> (forall x, In x (Y a) -> In x X) -> tf X (body a i) Y) ->
  (forall x, In x (Y a) -> In x X) -> In r X -> tf X (for_traverse fuel cond body a r) Y.
Proof. intros Hb Ha Hr. apply tf_trav; [exact Hb|exact Ha|]. intros x [<-|[]]. exact Hr. Qed.
(** Loops that use nodes [Z] besides. *)
Lemma tf_for_with {A} Z fuel cond (body : A -> id -> M A) (Y : A -> list id) X a r :
  (forall X a i, In i X -> (forall x, In x Z -> In x X) -> (forall x, In x (Y a) -> In x X) -> tf X (body a i) Y) ->
  (forall x, In x Z -> In x X) -> (forall x, In x (Y a) -> In x X) -> In r X -> tf X (for_traverse fuel cond body a r) Y.
Proof.
  intros Hb Hz Ha Hr. eapply sf_weaken; [apply (tf_for fuel cond body (fun a => Z ++ Y a))|].
  - intros X' a' i Hi Hy. eapply sf_weaken; [apply Hb; [exact Hi|intros x Hx; apply Hy, in_app_iff; auto|intros x Hx; apply Hy, in_app_iff; auto]|].
    intros b x Hx. apply in_app_iff in Hx as [Hx|Hx]; apply in_app_iff; [right; apply Hy, in_app_iff; auto|auto].
  - intros x Hx. apply in_app_iff in Hx as [Hx|Hx]; auto.
  - exact Hr.
  - intros b x Hx. rewrite !in_app_iff. auto.
Qed.

(** ** Labels and references *)

Definition nodes_of (d : labels) : list id := map snd d.
Lemma lookup_in d l i : lookup_label d l = Some i -> In i (nodes_of d).
Proof. unfold lookup_label. destruct (find _ d) as [p|] eqn:E; [|discriminate]. intros [= <-]. apply find_some in E as [E _]. apply in_map, E. Qed.
Lemma tf_collect fuel X d tree : (forall x, In x (nodes_of d) -> In x X) -> In tree X -> tf X (collect_labels fuel d tree) nodes_of.
Proof.
  intros Hd Ht. unfold collect_labels. apply tf_for; [|exact Hd|exact Ht]. clear. intros X d i Hi Hd. unfold collect_body.
  eapply sf_bind; [apply sf_get_str, Hi|intros l; cbn [app none_]]. destruct (lookup_label d l).
  - eapply sf_bind; [apply sf_log|intros u; cbn [app none_]]. eapply sf_bind; [apply sf_setattr, Hi|intros u2; cbn [app none_]]. apply sf_ret. exact Hd.
  - apply sf_ret. intros x Hx. unfold nodes_of in Hx. rewrite map_app in Hx. apply in_app_iff in Hx as [Hx|[<-|[]]]; [apply Hd, Hx|exact Hi].
Qed.
Lemma tf_label X d l def : (forall x, In x (nodes_of d) -> In x X) -> tf X (label_to_node d l def) (fun i => [i]).
Proof.
  intros Hd. unfold label_to_node. destruct (lookup_label d l) as [i|] eqn:E.
  - apply sf_ret. intros x [<-|[]]. apply Hd. eapply lookup_in, E.
  - eapply sf_bind; [apply sf_log|intros u; cbn [app none_]]. destruct def; apply sf_new.
Qed.
Lemma tf_reference X d p : In p X -> (forall x, In x (nodes_of d) -> In x X) -> tf X (resolve_reference d p) none_.
Proof.
  intros Hp Hd. unfold resolve_reference. eapply sf_bind; [apply sf_get_str, Hp|intros tl; cbn [app none_]]. eapply sf_bind; [apply tf_label, Hd|intros t].
  eapply sf_bind; [apply sf_cls_of; inx|intros c; cbn [app none_]]. destruct (subclass c CError); [apply sf_replace; [inx|intros x [<-|[]]; inx]|].
  eapply sf_bind; [apply sf_getattr; inx|intros o; cbn [app none_]]. eapply sf_bind; [apply sf_new|intros r]. apply sf_replace; [inx|intros x [<-|[]]; inx].
Qed.
Lemma tf_cite X d k p : In p X -> (forall x, In x (nodes_of d) -> In x X) -> tf X (resolve_cite d k p) none_.
Proof.
  intros Hp Hd. unfold resolve_cite. eapply sf_bind; [apply tf_get_strs, Hp|intros ls; cbn [app none_]].
  eapply sf_bind; [apply (sf_mapM _ _ (fun i => [i])); intros l _; apply tf_label, Hd|intros ts].
  assert (Ht : forall x, In x ts -> In x (flat_map (fun i => [i]) ts ++ X)) by (intros x Hx; apply in_app_iff; left; apply in_flat_map; exists x; split; [exact Hx|left; reflexivity]).
  assert (Hp' : In p (flat_map (fun i => [i]) ts ++ X)) by (apply in_app_iff; auto). generalize dependent (flat_map (fun i : id => [i]) ts ++ X). intros X' Ht Hp'.
  eapply sf_bind; [apply sf_new|intros c]. eapply sf_bind; [apply sf_setattr; inx|intros u; cbn [app none_]].
  eapply sf_bind; [apply sf_replace; [inx|intros x [<-|[]]; inx]|intros u2; cbn [app none_]].
  apply sf_iterM. intros t Hin. specialize (Ht t Hin). unfold add_backlink. eapply sf_bind; [apply tf_get_strs; inx|intros b; cbn [app none_]]. apply sf_setattr. inx.
Qed.
Lemma sf_first_inst {P} {HP : node_errs P} X d l : (forall c, In c l -> In c X) -> sf P X (first_inst d l) opt_.
Proof.
  induction l as [|c l IH]; intros Hl; cbn [first_inst]; [sret|]. assert (Hc : In c X) by (apply Hl; left; reflexivity).
  eapply sf_bind; [apply sf_inst, Hc|]. intros b. cbn [app none_]. destruct b; [sret|]. apply IH. intros e He. apply Hl. right. exact He.
Qed.
Lemma tf_prev X i c : In i X -> tf X (prev_sibling i (SibCls c)) opt_.
Proof.
  intros H. unfold prev_sibling. eapply sf_bind; [apply sf_parent_of, H|intros p]. destruct p as [q|]; [|sret]. cbn [opt_ app].
  eapply sf_bind; [apply sf_children_of; inx|intros cs]. destruct (index_of i cs); [|apply sf_raise; exact I].
  apply sf_first_inst. intros x Hx. apply in_rev, in_firstn in Hx. inx.
Qed.
Lemma tf_walk X shown n : forall t, In t X -> tf X (walk_prev n shown t) (fun i => [i]).
Proof.
  revert X. induction n as [|n IH]; intros X t Ht; cbn [walk_prev]; [sret|].
  eapply sf_bind; [apply tf_prev, Ht|intros q]. destruct q as [q|]; [|apply sf_raise; exact I]. apply IH. inx.
Qed.
Lemma tf_anc ds fuel : forall X cur, (forall x, In x (opt_ cur) -> In x X) -> tf X (anc_loop fuel ds cur) opt_.
Proof.
  induction fuel as [|fuel IH]; intros X [q|] Hq; cbn [anc_loop]; try sret; [apply sf_raise; exact I|]. assert (Hi : In q X) by (apply Hq; left; reflexivity).
  eapply sf_bind; [apply sf_cls_of, Hi|intros c; cbn [app none_]]. destruct (cls_mem c ds); [sret|].
  eapply sf_bind; [apply sf_parent_of, Hi|intros p]. apply IH. intros x Hx. inx.
Qed.
Lemma tf_ancestor fuel X i ds : In i X -> tf X (first_ancestor_of_type fuel i ds) opt_.
Proof. intros H. unfold first_ancestor_of_type. eapply sf_bind; [apply sf_parent_of, H|intros p]. apply tf_anc. intros x Hx. inx. Qed.
Lemma tf_resolve_prev fuel X p : In p X -> tf X (resolve_prev fuel p) none_.
Proof.
  intros H. unfold resolve_prev. eapply sf_bind; [apply tf_ancestor, H|intros st]. destruct st as [st|]; [|apply sf_raise; exact I]. cbn [opt_ app].
  eapply sf_bind; [apply sf_getattr; inx|intros tv; cbn [app none_]]. destruct (py_int _) as [n|]; [|apply sf_raise; exact I].
  eapply sf_bind; [apply tf_walk; inx|intros t]. eapply sf_bind; [apply sf_getattr; inx|intros l; cbn [app none_]].
  eapply (sf_bind _ _ _ none_); [destruct l; first [sret|apply sf_raise; exact I]|intros b; cbn [app none_]].
  eapply (sf_bind _ _ _ none_); [destruct b; [apply sf_log|sret]|intros u; cbn [app none_]].
  eapply sf_bind; [apply sf_getattr; inx|intros o; cbn [app none_]]. eapply sf_bind; [apply sf_new|intros r]. apply sf_replace; [inx|intros x [<-|[]]; inx].
Qed.
Lemma tf_resolve fuel X d tree : (forall x, In x (nodes_of d) -> In x X) -> In tree X -> tf X (resolve_pending_references fuel d tree) none_.
Proof.
  intros Hd Ht. unfold resolve_pending_references.
  eapply sf_bind; [apply (tf_for_with (nodes_of d) _ _ _ none_); [|exact Hd|intros x []|exact Ht]|intros k; cbn [app none_]].
  - clear. intros X k i Hi Hd _. unfold resolve_body. eapply sf_bind; [apply sf_cls_of, Hi|intros c; cbn [app none_]].
    destruct (subclass c CPendingReference); [eapply sf_bind; [apply tf_reference; assumption|intros u; sret]|].
    destruct (subclass c CPendingCite); [eapply sf_bind; [apply tf_cite; assumption|intros u; sret]|].
    destruct (subclass c CPendingPrev); [eapply sf_bind; [apply tf_resolve_prev; assumption|intros u; sret]|sret].
  - eapply sf_bind; [apply (tf_for _ _ _ none_); [intros; apply sf_raise; exact I|intros x []|exact Ht]|intros u; sret].
Qed.

(** ** Subproofs and numbers *)

Lemma tf_clear X p : In p X -> tf X (clear p) none_.
Proof.
  intros H. unfold clear. eapply sf_bind; [apply sf_raw, H|intros cs]. eapply sf_bind; [apply sf_iterM; intros c Hc; apply sf_set_parent; [inx|discriminate]|intros u; cbn [app none_]].
  apply sf_set_raw; [inx|intros c []].
Qed.
Lemma tf_subproofs fuel X tree : In tree X -> tf X (add_necessary_subproofs fuel tree) none_.
Proof.
  intros Ht. unfold add_necessary_subproofs. apply tf_for; [|intros x []|exact Ht]. clear. intros X u st Hs _. unfold subproof_body.
  eapply sf_bind; [apply sf_children_of, Hs|intros cs]. destruct cs as [|c0 r]; [sret|]. set (cs := c0 :: r) in *.
  assert (Hc : forall x, In x cs -> In x (cs ++ X)) by (intros x Hx; apply in_app_iff; auto). assert (Hs' : In st (cs ++ X)) by (apply in_app_iff; auto).
  generalize dependent (cs ++ X). intros X' Hc Hs'. clear X Hs.
  eapply sf_bind; [apply sf_first_of, Hs'|intros f]. set (k := match f with Some (_, k) => k | None => _ end). clearbody k.
  eapply sf_bind; [apply tf_clear; inx|intros u1; cbn [app none_]]. eapply sf_bind; [apply sf_new|intros sm].
  eapply sf_bind; [apply sf_append; [inx|intros x Hx; apply in_firstn, Hc in Hx; inx]|intros u2; cbn [app none_]].
  eapply sf_bind; [apply tf_get_int; inx|intros hd; cbn [app none_]]. eapply sf_bind; [apply sf_setattr; inx|intros u3; cbn [app none_]].
  destruct (nth_error cs k) as [c|] eqn:E; [|apply sf_append; [inx|intros x [<-|[]]; inx]].
  apply nth_error_In, Hc in E.
  eapply sf_bind; [apply sf_inst; inx|intros b1; cbn [app none_]]. eapply sf_bind; [apply sf_inst; inx|intros b2; cbn [app none_]].
  eapply (sf_bind _ _ _ (fun i => [i])).
  - destruct b1.
    + eapply sf_bind; [apply sf_new|intros sp]. eapply sf_bind; [apply sf_append; [inx|intros x Hx; apply in_skipn, Hc in Hx; inx]|intros u4; sret].
    + destruct b2; [|apply sf_raise; exact I]. destruct (Nat.eqb _ _); [sret|apply sf_raise; exact I].
  - intros sp. apply sf_append; [inx|intros x [<-|[<-|[]]]; inx].
Qed.
Lemma tf_number_steps X l : (forall x, In x l -> In x X) -> forall k, tf X (number_steps l k) none_.
Proof.
  induction l as [|s l IH]; intros Hl k; cbn [number_steps]; [sret|]. assert (Hs : In s X) by (apply Hl; left; reflexivity).
  eapply sf_bind; [apply sf_inst, Hs|intros b; cbn [app none_]]. destruct b; [|apply IH; intros x Hx; apply Hl; right; exact Hx].
  eapply sf_bind; [apply sf_setattr, Hs|intros u; cbn [app none_]]. apply IH. intros x Hx. apply Hl. right. exact Hx.
Qed.
Lemma tf_autonumber fuel X tree : In tree X -> tf X (autonumber_nodes fuel tree) none_.
Proof.
  intros Ht. unfold autonumber_nodes. eapply sf_bind; [apply (tf_for _ _ _ none_); [|intros x []|exact Ht]|intros u; sret].
  clear. intros X a i Hi _. unfold autonumber_body. eapply sf_bind; [apply sf_cls_of, Hi|intros c; cbn [app none_]].
  destruct (subclass c CAppendix); [sret|]. destruct (subclass_any _ _).
  { eapply sf_bind; [unfold autonumber_steps; eapply sf_bind; [apply sf_children_of, Hi|intros cs; apply tf_number_steps; intros x Hx; inx]|intros u; sret]. }
  destruct (subclass c CStep); [sret|]. eapply sf_bind; [apply sf_getattr, Hi|intros nn; cbn [app none_]]. destruct (_ && _); [|sret].
  destruct (counter_value _ _); [|apply sf_raise; exact I]. eapply sf_bind; [apply sf_setattr, Hi|intros u; cbn [app none_]].
  eapply (sf_bind _ _ _ none_); [|intros u2; sret]. destruct (_ && _); [|sret]. eapply sf_bind; [apply sf_get_str, Hi|intros t; cbn [app none_]]. apply sf_setattr, Hi.
Qed.

(** ** The table of contents *)

Lemma tf_full fuel : forall X i, In i X -> tf X (full_number fuel i) none_.
Proof.
  induction fuel as [|fuel IH]; intros X i Hi; cbn [full_number]; [apply sf_raise; exact I|].
  eapply sf_bind; [apply sf_cls_of, Hi|intros c; cbn [app none_]]. destruct (subclass c CManuscript); [sret|].
  eapply sf_bind; [apply sf_getattr, Hi|intros nn; cbn [app none_]]. destruct (truthy nn); [sret|].
  eapply sf_bind; [apply tf_ancestor, Hi|intros an].
  eapply (sf_bind _ _ _ opt_); [destruct an as [an|]; [sret|eapply sf_bind; [apply sf_log|intros u; cbn [app none_]]; apply tf_ancestor; inx]|intros a2].
  eapply sf_bind; [apply sf_getattr; inx|intros nb; cbn [app none_]]. destruct a2 as [a2|]; [|sret]. cbn [opt_ app].
  eapply sf_bind; [apply IH; inx|intros f; cbn [app none_]]. destruct f as [[|x xs]|]; try sret. eapply sf_bind; [apply IH; inx|intros f2; sret].
Qed.
Lemma tf_parent_parent X x : (forall y, In y (opt_ x) -> In y X) -> tf X (parent_parent x) opt_.
Proof.
  intros H. unfold parent_parent. destruct x as [x|]; [|apply sf_raise; exact I]. eapply sf_bind; [apply sf_parent_of, H; left; reflexivity|intros p].
  destruct p as [p|]; [apply sf_parent_of; inx|apply sf_raise; exact I].
Qed.
Lemma tf_append_opt X x c : (forall y, In y (opt_ x) -> In y X) -> In c X -> tf X (append_opt x c) none_.
Proof. intros H Hc. unfold append_opt. destruct x as [x|]; [|apply sf_raise; exact I]. apply sf_append; [apply H; left; reflexivity|intros y [<-|[]]; exact Hc]. Qed.
Lemma tf_is_last X sec d : In sec X -> tf X (is_last_of sec d) none_.
Proof.
  intros H. unfold is_last_of. eapply sf_bind; [apply sf_parent_of, H|intros p]. destruct p as [p|]; [|apply sf_raise; exact I].
  eapply sf_bind; [apply sf_last_of; inx|intros l]. destruct l as [[l k]|]; sret.
Qed.
Lemma tf_toc_body fuel toc X cur sec : In sec X -> In toc X -> (forall x, In x (opt_ cur) -> In x X) -> tf X (toc_body fuel toc cur sec) opt_.
Proof.
  intros Hs Ht Hc. unfold toc_body. eapply sf_bind; [apply sf_new|intros it].
  eapply (sf_bind _ _ _ none_).
  { unfold toc_reftext. eapply sf_bind; [apply sf_getattr; inx|intros ti; cbn [app none_]]. eapply sf_bind; [apply sf_getattr; inx|intros nn; cbn [app none_]].
    destruct (truthy nn); [sret|]. eapply sf_bind; [apply tf_full; inx|intros f; sret]. }
  intros rt. cbn [app none_]. eapply sf_bind; [apply sf_new|intros rf]. eapply sf_bind; [apply sf_append; [inx|intros x [<-|[]]; inx]|intros u; cbn [app none_]].
  assert (Hc' : forall x, In x (opt_ cur) -> In x (rf :: it :: X)) by (intros x Hx; specialize (Hc x Hx); inx).
  assert (Hs' : In sec (rf :: it :: X)) by inx. assert (Ht' : In toc (rf :: it :: X)) by inx. assert (Hi : In it (rf :: it :: X)) by inx.
  generalize dependent (rf :: it :: X). intros X' Hc' Hs' Ht' Hi. clear X Hs Ht Hc.
  eapply sf_bind; [apply sf_cls_of, Hs'|intros c; cbn [app none_]]. destruct (subclass c CSubsubsection).
  { eapply sf_bind; [apply tf_append_opt; assumption|intros u1; cbn [app none_]]. eapply sf_bind; [apply tf_is_last, Hs'|intros l; cbn [app none_]].
    destruct l; [apply tf_parent_parent, Hc'|apply sf_ret; exact Hc']. }
  destruct (subclass c CSubsection).
  { eapply sf_bind; [apply tf_append_opt; assumption|intros u1; cbn [app none_]]. eapply sf_bind; [apply sf_first_of, Hs'|intros f].
    destruct f as [f|].
    - eapply sf_bind; [apply sf_new|intros z]. eapply sf_bind; [apply sf_append; [inx|intros x [<-|[]]; inx]|intros u2; sret].
    - cbn [optp_ app]. eapply sf_bind; [apply tf_is_last, Hs'|intros l; cbn [app none_]]. destruct l; [apply tf_parent_parent, Hc'|apply sf_ret; exact Hc']. }
  destruct (subclass c CSection); [|apply sf_raise; exact I].
  eapply sf_bind; [apply sf_append; [exact Ht'|intros x [<-|[]]; exact Hi]|intros u1; cbn [app none_]]. eapply sf_bind; [apply sf_first_of, Hs'|intros f].
  destruct f as [f|].
  - eapply sf_bind; [apply sf_new|intros z]. eapply sf_bind; [apply sf_append; [inx|intros x [<-|[]]; inx]|intros u2; sret].
  - apply sf_ret. intros x Hx. specialize (Hc' x Hx). inx.
Qed.
Lemma tf_toc fuel X tree : In tree X -> tf X (make_toc fuel tree) none_.
Proof.
  intros Ht. unfold make_toc. eapply sf_bind; [apply (tf_for _ _ _ opt_); [|intros x []|exact Ht]|intros toc].
  - clear. intros X toc i Hi Hc. unfold toc_pick. destruct toc as [t|]; [|sret]. eapply sf_bind; [apply sf_log|intros u; cbn [app none_]].
    eapply sf_bind; [apply sf_remove_self, Hi|intros u2; cbn [app none_]]. apply sf_ret. exact Hc.
  - destruct toc as [toc|]; [|sret]. cbn [opt_ app]. eapply sf_bind; [apply (tf_for_with [toc] _ _ _ opt_)|intros u; sret].
    + intros X' a i Hi Hz Ha. apply tf_toc_body; [exact Hi|apply Hz; left; reflexivity|exact Ha].
    + intros x [<-|[]]. inx.
    + intros x [<-|[]]. inx.
    + inx.
Qed.

(** ** The other passes *)

Lemma tf_keywords fuel X tree : In tree X -> tf X (add_keywords_to_constructs fuel tree) none_.
Proof.
  intros Ht. unfold add_keywords_to_constructs. apply tf_for; [|intros x []|exact Ht]. clear. intros X u i Hi _. unfold construct_body.
  eapply sf_bind; [apply sf_getattr, Hi|intros kv; cbn [app none_]]. destruct (negb _); [apply sf_raise; exact I|]. destruct kv; try (apply sf_raise; exact I).
  eapply sf_bind; [apply tf_get_strs, Hi|intros ts; cbn [app none_]]. eapply sf_bind; [apply sf_setattr, Hi|intros u1; cbn [app none_]]. destruct (str_mem _ _); [sret|].
  eapply sf_bind; [apply tf_get_strs, Hi|intros ts2; cbn [app none_]]. apply sf_setattr, Hi.
Qed.
Lemma tf_depth fuel X tree : In tree X -> tf X (add_handrail_depth fuel tree) none_.
Proof.
  intros Ht. unfold add_handrail_depth. apply sf_iterM. intros nc _. unfold add_handrail_depth_for_class. apply tf_for; [|intros x []|exact Ht]. clear. intros X u nd Hn _.
  unfold depth_outer. apply (tf_for_with [nd]); [|intros x [<-|[]]; exact Hn|intros x []|exact Hn]. clear. intros X u i Hi Hz _. unfold depth_inner.
  eapply (sf_bind _ _ _ none_); [|intros e; cbn [app none_]; destruct e; [sret|eapply sf_bind; [apply tf_get_int, Hi|intros d; cbn [app none_]; apply sf_setattr, Hi]]].
  intros s Hs Hx. unfold node_eqM. destruct (node_eq _ _ _ _); cbn; (split; [exact Hs|split; [apply grows_refl|]]); [intros x []|exact I].
Qed.
Lemma tf_nodeids fuel X tree : In tree X -> tf X (assign_node_ids fuel tree) none_.
Proof.
  intros Ht. unfold assign_node_ids. eapply sf_bind; [apply (tf_for _ _ _ none_); [|intros x []|exact Ht]|intros u; sret]. clear. intros X k i Hi _. unfold nodeid_body.
  eapply sf_bind; [apply sf_setattr, Hi|intros u; sret].
Qed.
Lemma tf_transform fuel X d tree : (forall x, In x (nodes_of d) -> In x X) -> In tree X -> tf X (transform fuel d tree) none_.
Proof.
  intros Hd Ht. unfold transform. eapply sf_bind; [apply sf_log|intros u; cbn [app none_]]. eapply sf_bind; [apply tf_collect; assumption|intros d'].
  eapply sf_bind; [apply tf_resolve; [intros x Hx; inx|inx]|intros u1; cbn [app none_]]. eapply sf_bind; [apply tf_subproofs; inx|intros u2; cbn [app none_]].
  eapply sf_bind; [apply tf_autonumber; inx|intros u3; cbn [app none_]]. eapply sf_bind; [apply tf_toc; inx|intros u4; cbn [app none_]].
  eapply sf_bind; [apply tf_keywords; inx|intros u5; cbn [app none_]]. eapply sf_bind; [apply tf_depth; inx|intros u6; cbn [app none_]].
  eapply sf_bind; [apply tf_nodeids; inx|intros u7; sret].
Qed.

Lemma transform_raises_only fuel s r s' e : all_there s -> is_Some (st_heap s !! r) -> transform fuel [] r s = (s', Err e) -> transform_errs e.
Proof.
  intros Hs Hr H. destruct (tf_transform fuel [r] [] r ltac:(intros x []) ltac:(left; reflexivity) s Hs) as (_ & _ & G).
  { intros x [<-|[]]. exact Hr. }
  rewrite H in G. exact G.
Qed.
