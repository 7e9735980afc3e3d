(** Sources without markup give documents without markup: texts keep what they are made of. *)
From Verif Require Export Mild Transformer.
From Verif Require Import NodeOps Monad.
Local Open Scope string_scope.
Local Open Scope list_scope.

(** ** Attributes *)

(** The attributes that may hold quotes; the number is treated apart. *)
Definition loose : list attr :=
  [a_text; a_title; a_name; a_affiliation; a_keywords; a_msc; a_overwrite_reftext; a_reftext_template; a_author; a_journal;
   a_publisher; a_year; a_date; a_volume; a_src; a_number; AOther (lit "reftext")].

Section Tidy.
Context (src : bool).
Definition fine_lt (a : attr) (s : str) : Prop :=
  if bool_decide (a = a_text) then mild s = true
  else if bool_decide (a = a_src) && negb src then True else lacks LT s = true.
Definition fine (a : attr) (s : str) : Prop := fine_lt a s /\ (a ∉ loose -> lacks QUOTE s = true).
Definition tidy (a : attr) (v : val) : Prop :=
  match v with
  | VStr s | VFloat s => fine a s
  | VStrs l => Forall (fine a) l
  | VNode _ => a = a_target
  | VNodes _ => a = a_targets
  | _ => True
  end.
(** Also fit for the number of a known class. *)
Definition strict (a : attr) (v : val) : Prop := tidy a v /\ (a = a_number -> lacks QUOTE (fmt_val v) = true).
Record tidy_node (n : node) : Prop := {
  tn_attr : forall a v, n_attrs n !! a = Some v -> tidy a v;
  tn_number : forall v, n_cls n <> CUnknownBibitem -> n_attrs n !! a_number = Some v -> lacks QUOTE (fmt_val v) = true
}.
Notation TH s := (forall x n, st_heap s !! x = Some n -> tidy_node n).

Lemma both_fine a s : lacks LT s = true -> lacks QUOTE s = true -> fine a s.
Proof. intros H1 H2. split; [|auto]. unfold fine_lt. destruct (bool_decide _); [apply mild_lacks, H1|]. destruct (_ && _); auto. Qed.
Lemma fine_strict a s : lacks LT s = true -> lacks QUOTE s = true -> strict a (VStr s).
Proof. intros H1 H2. split; [apply both_fine; assumption|auto]. Qed.
Lemma loose_strict a s : lacks LT s = true -> a ∈ loose -> a <> a_number -> strict a (VStr s).
Proof.
  intros H1 H2 H3. split; [|contradiction]. split; [|contradiction]. unfold fine_lt. destruct (bool_decide _); [apply mild_lacks, H1|]. destruct (_ && _); auto.
Qed.
Lemma flat_strict a v : match v with VNone | VBool _ | VInt _ | VPoint _ _ => True | _ => False end -> strict a v.
Proof.
  intros Hv. split; [destruct v; try contradiction; exact I|]. intros _.
  destruct v; try contradiction; cbn [fmt_val]; [reflexivity|destruct b; reflexivity|apply lacks_Z; [reflexivity|discriminate]|].
  rewrite !lacks_app, !lacks_Z; try reflexivity; discriminate.
Qed.
Lemma tidy_text u : tidy a_text (VStr u) -> mild u = true. Proof. intros [H _]. exact H. Qed.
Lemma text_strict u : mild u = true -> strict a_text (VStr u).
Proof. intros H. split; [|discriminate]. split; [exact H|]. intros K. exfalso. apply K. left. Qed.
Lemma tidy_lt a v : tidy a v -> a <> a_text -> a <> a_src -> a <> a_target -> a <> a_targets -> lacks LT (fmt_val v) = true.
Proof.
  intros Hv H1 H2 H3 H4. assert (K : forall s, fine a s -> lacks LT s = true).
  { intros s [Hs _]. unfold fine_lt in Hs. rewrite bool_decide_eq_false_2 in Hs by assumption. rewrite bool_decide_eq_false_2 in Hs by assumption. exact Hs. }
  destruct v; cbn [tidy fmt_val] in *; try reflexivity; try contradiction; try (apply K; assumption); try (destruct b; reflexivity).
  - apply lacks_Z; [reflexivity|discriminate].
  - apply (strs_lacks LT); [reflexivity|]. apply forallb_forall. intros x Hx. apply K. rewrite list.Forall_forall in Hv. apply Hv, elem_of_list_In, Hx.
  - rewrite !lacks_app, !lacks_Z; try reflexivity; discriminate.
Qed.
Lemma tidy_quote a v : tidy a v -> a ∉ loose -> a <> a_target -> a <> a_targets -> lacks QUOTE (fmt_val v) = true.
Proof.
  intros Hv H1 H2 H3. assert (K : forall s, fine a s -> lacks QUOTE s = true) by (intros s [_ Hs]; auto).
  destruct v; cbn [tidy fmt_val] in *; try reflexivity; try contradiction; try (apply K; assumption); try (destruct b; reflexivity).
  - apply lacks_Z; [reflexivity|discriminate].
  - apply (strs_lacks QUOTE); [reflexivity|]. apply forallb_forall. intros x Hx. apply K. rewrite list.Forall_forall in Hv. apply Hv, elem_of_list_In, Hx.
  - rewrite !lacks_app, !lacks_Z; try reflexivity; discriminate.
Qed.
Lemma tidy_plain hl a v : (forall u l, harmless u = true -> harmless (hl u l) = true) -> tidy a v -> plain_attr hl src a v.
Proof.
  intros Hhl H. split.
  - intros Ha. destruct (decide (a = a_src)) as [->|Hs].
    + unfold text_attrs in Ha. destruct src eqn:Es; [|apply (bool_decide_eq_false_1 (a_src ∈ _)) in Ha; [contradiction|reflexivity]].
      assert (K : forall s, fine a_src s -> lacks LT s = true). { intros s [Hs _]. unfold fine_lt in Hs. cbn in Hs. rewrite Es in Hs. exact Hs. }
      destruct v; cbn [tidy fmt_val] in *; try reflexivity; try discriminate H; try (apply K; assumption); try (destruct b; reflexivity).
      * apply lacks_Z; [reflexivity|discriminate].
      * apply (strs_lacks LT); [reflexivity|]. apply forallb_forall. intros x Hx. apply K. rewrite list.Forall_forall in H. apply H, elem_of_list_In, Hx.
      * rewrite !lacks_app, !lacks_Z; try reflexivity; discriminate.
    + apply (tidy_lt a v H); [| assumption| |]; intros ->; revert Ha; unfold text_attrs; destruct src; cbn [app];
      lazymatch goal with |- ?x ∈ ?l -> False => apply (bool_decide_eq_false_1 (x ∈ l)); reflexivity end.
  - intros Ha. apply (tidy_quote a v H); intros K; revert Ha; [|subst a|subst a].
    + revert a K H. intros a K _. unfold loose in K. rewrite !elem_of_cons, elem_of_nil in K. repeat (destruct K as [->|K]; [apply (bool_decide_eq_false_1 (_ ∈ quoted_attrs)); reflexivity|]). contradiction.
    + apply (bool_decide_eq_false_1 (a_target ∈ quoted_attrs)); reflexivity.
    + apply (bool_decide_eq_false_1 (a_targets ∈ quoted_attrs)); reflexivity.
  - intros -> Hn. assert (K : forall s, fine a_target s -> lacks LT s = true /\ lacks QUOTE s = true).
    { intros s [H1 H2]. split; [exact H1|apply H2]. apply (bool_decide_eq_false_1 (a_target ∈ loose)). reflexivity. }
    destruct v; cbn [tidy fmt_val] in *; try (split; reflexivity); try discriminate H; try (apply K; assumption); try (destruct b; split; reflexivity).
    + split; apply lacks_Z; (reflexivity || discriminate).
    + rewrite list.Forall_forall in H. split; [apply (strs_lacks LT)|apply (strs_lacks QUOTE)]; try reflexivity; apply forallb_forall; intros x Hx; apply K, H, elem_of_list_In, Hx.
    + exfalso. apply (Hn i eq_refl).
    + split; rewrite !lacks_app, !lacks_Z; try reflexivity; discriminate.
  - intros u -> ->. apply mild_harmless, tidy_text, H.
  - intros _ _ u Hu. apply Hhl, Hu.
Qed.
Lemma tidy_heap hl s : (forall u l, harmless u = true -> harmless (hl u l) = true) -> TH s -> plain_heap hl src (st_heap s).
Proof. intros Hhl H x n Hn. destruct (H x n Hn) as [H1 H2]. split; [|exact H2]. intros a v Ha. apply tidy_plain; auto. Qed.

(** ** Computations *)

Definition td {X} (m : M X) (Q : X -> Prop) : Prop := forall s s' r, TH s -> m s = (s', Ok r) -> TH s' /\ Q r.
Lemma td_ret {X} (x : X) (Q : X -> Prop) : Q x -> td (ret x) Q.
Proof. intros H s s' r Hs E. apply ret_ok in E as [-> ->]. auto. Qed.
Lemma td_raise {X} e (Q : X -> Prop) : td (raise e) Q.
Proof. intros s s' r Hs E. discriminate E. Qed.
Lemma td_bind {X Y} (m : M X) (k : X -> M Y) (P : X -> Prop) Q : td m P -> (forall x, P x -> td (k x) Q) -> td (bind m k) Q.
Proof. intros H1 H2 s s' r Hs E. apply bind_ok in E as (s1 & x & E1 & E2). apply H1 in E1 as [Hs1 Hx]; [|assumption]. eapply H2; eassumption. Qed.
Lemma td_weaken {X} (m : M X) (P Q : X -> Prop) : td m P -> (forall x, P x -> Q x) -> td m Q.
Proof. intros H1 H2 s s' r Hs E. apply H1 in E as [? ?]; auto. Qed.
Lemma td_any {X} (m : M X) Q : td m Q -> td m any.
Proof. intros H. eapply td_weaken; [exact H|]. intros. exact I. Qed.
Lemma td_get_node i : td (get_node i) tidy_node.
Proof.
  intros s s' r Hs E. unfold get_node in E. destruct (st_heap s !! i) eqn:Ei; [|discriminate E]. injection E as <- <-. split; [assumption|]. eapply Hs; eassumption.
Qed.
Lemma td_put_node i n : tidy_node n -> td (put_node i n) any.
Proof.
  intros Hn s s' r Hs E. unfold put_node in E. injection E as <- _. split; [|exact I]. intros x m Hx. cbn in Hx.
  destruct (decide (i = x)) as [->|Hne]; [rewrite lookup_insert in Hx; injection Hx as <-; exact Hn|].
  rewrite lookup_insert_ne in Hx by assumption. eapply Hs; eassumption.
Qed.
Lemma td_mod_node i f : (forall n, tidy_node n -> tidy_node (f n)) -> td (mod_node i f) any.
Proof. intros Hf. eapply td_bind; [apply td_get_node|]. intros n Hn. apply td_put_node, Hf, Hn. Qed.
Lemma td_alloc n : tidy_node n -> td (alloc n) any.
Proof.
  intros Hn s s' r Hs E. unfold alloc in E. injection E as <- _. split; [|exact I]. intros x m Hx. cbn in Hx.
  destruct (decide (st_next s = x)) as [<-|Hne]; [rewrite lookup_insert in Hx; injection Hx as <-; exact Hn|].
  rewrite lookup_insert_ne in Hx by assumption. eapply Hs; eassumption.
Qed.
Lemma td_log r : td (log_rec r) any.
Proof. intros s s' x Hs E. unfold log_rec in E. injection E as <- _. split; [assumption|exact I]. Qed.
Lemma td_mapM {X Y} (f : X -> M Y) (P : X -> Prop) Q l : (forall x, P x -> td (f x) Q) -> Forall P l -> td (mapM f l) (Forall Q).
Proof.
  intros Hf. induction l as [|a l IH]; intros Hl; cbn [mapM]; [apply td_ret; constructor|]. apply list.Forall_cons in Hl as [Ha Hl]. eapply td_bind; [apply Hf, Ha|]. intros b Hb.
  eapply td_bind; [apply IH, Hl|]. intros bs Hbs. apply td_ret. constructor; assumption.
Qed.
Lemma td_iterM {X} (f : X -> M unit) (P : X -> Prop) l : (forall x, P x -> td (f x) any) -> Forall P l -> td (iterM f l) any.
Proof.
  intros Hf. induction l as [|a l IH]; intros Hl; cbn [iterM]; [apply td_ret; exact I|]. apply list.Forall_cons in Hl as [Ha Hl]. eapply td_bind; [apply Hf, Ha|].
  intros _ _. apply IH, Hl.
Qed.
Lemma all_any {X} (l : list X) : Forall any l. Proof. induction l; constructor; auto. exact I. Qed.
Lemma td_getattr i a : td (getattr i a) (tidy a).
Proof. unfold getattr. eapply td_bind; [apply td_get_node|]. intros n Hn. destruct (n_attrs n !! a) eqn:E; [apply td_ret, (tn_attr _ Hn), E|apply td_raise]. Qed.
Lemma td_setattr i a v : strict a v -> td (setattr i a v) any.
Proof.
  intros [Hv Hq]. apply td_mod_node. intros n Hn. split; unfold set_n_attr; cbn [n_attrs n_cls].
  - intros b w Hb. destruct (decide (a = b)) as [->|Hne]; [rewrite lookup_insert in Hb; injection Hb as <-; assumption|].
    rewrite lookup_insert_ne in Hb by assumption. apply (tn_attr _ Hn), Hb.
  - intros w Hc Hb. destruct (decide (a = a_number)) as [->|Hne]; [rewrite lookup_insert in Hb; injection Hb as <-; auto|].
    rewrite lookup_insert_ne in Hb by assumption. apply (tn_number _ Hn _ Hc Hb).
Qed.
Lemma td_get_str i a : td (get_str i a) (fun u => tidy a (VStr u)).
Proof. unfold get_str. eapply td_bind; [apply td_getattr|]. intros v Hv. destruct v; try apply td_raise. apply td_ret. assumption. Qed.
Lemma td_get_strs i a : td (get_strs i a) (fun u => tidy a (VStrs u)).
Proof. unfold get_strs. eapply td_bind; [apply td_getattr|]. intros v Hv. destruct v; try apply td_raise. apply td_ret. assumption. Qed.
Lemma td_get_int i a : td (get_int i a) any.
Proof. unfold get_int. eapply td_bind; [apply td_getattr|]. intros v Hv. destruct v; try apply td_raise. apply td_ret. exact I. Qed.
Lemma td_cls_of i : td (cls_of i) any.
Proof. eapply td_bind; [apply td_get_node|]. intros. apply td_ret. exact I. Qed.
Lemma td_children_of i : td (children_of i) any.
Proof. eapply td_bind; [apply td_get_node|]. intros. apply td_ret. exact I. Qed.
Lemma td_parent_of i : td (parent_of i) any.
Proof. eapply td_bind; [apply td_get_node|]. intros. apply td_ret. exact I. Qed.
Lemma td_inst ds i : td (inst ds i) any.
Proof. eapply td_bind; [apply td_cls_of|]. intros. apply td_ret. exact I. Qed.
Lemma td_raw_children i : td (raw_children i) any.
Proof. unfold raw_children. eapply td_bind; [apply td_get_node|]. intros. destruct (has_children _); [apply td_ret; exact I|apply td_raise]. Qed.
Lemma td_set_raw_children i l : td (set_raw_children i l) any.
Proof. apply td_mod_node. intros n [H1 H2]. split; assumption. Qed.
Definition simple (p : attr * val) : bool :=
  match p.2 with VNone | VBool _ | VInt _ | VPoint _ _ => true | VStr s | VFloat s => lacks LT s && lacks QUOTE s
  | VStrs l => forallb (lacks LT) l && forallb (lacks QUOTE) l | VNode _ => bool_decide (p.1 = a_target) | VNodes _ => bool_decide (p.1 = a_targets) end.
Lemma simple_strict p : simple p = true -> strict p.1 p.2.
Proof.
  destruct p as [a v]. unfold simple. cbn [fst snd]. destruct v; try discriminate; intros H; try (apply flat_strict; exact I).
  - apply andb_true_iff in H as [H1 H2]. split; [apply both_fine; assumption|auto].
  - apply andb_true_iff in H as [H1 H2]. apply fine_strict; assumption.
  - apply andb_true_iff in H as [H1 H2]. split; [|intros _; apply (strs_lacks QUOTE); [reflexivity|assumption]]. cbn [tidy]. rewrite forallb_forall in H1, H2.
    apply list.Forall_forall. intros x Hx. apply elem_of_list_In in Hx. apply both_fine; auto.
  - apply bool_decide_eq_true in H. split; [exact H|]. rewrite H. discriminate.
  - apply bool_decide_eq_true in H. split; [exact H|]. rewrite H. discriminate.
Qed.
Lemma defaults_simple c : forallb simple (default_attrs c) = true. Proof. destruct c; reflexivity. Qed.
Lemma mk_tidy c kw : Forall (fun p => tidy p.1 p.2 /\ (c <> CUnknownBibitem -> p.1 = a_number -> lacks QUOTE (fmt_val p.2) = true)) kw -> tidy_node (mk_node c kw).
Proof.
  intros H2. unfold mk_node, mk_attrs. set (ok := fun p : attr * val => tidy p.1 p.2 /\ (c <> CUnknownBibitem -> p.1 = a_number -> lacks QUOTE (fmt_val p.2) = true)) in *.
  assert (H3 : Forall ok (default_attrs c ++ kw)).
  { apply Forall_app. split; [|assumption]. pose proof (defaults_simple c) as H1. rewrite forallb_forall in H1. apply list.Forall_forall. intros p Hb.
    apply elem_of_list_In, H1, simple_strict in Hb as [Hb1 Hb2]. split; auto. }
  assert (G : forall l (m : gmap attr val), Forall ok l -> (forall a v, m !! a = Some v -> ok (a, v)) ->
     forall a v, fold_left (fun m (p : attr * val) => <[p.1 := p.2]> m) l m !! a = Some v -> ok (a, v)).
  { clear. induction l as [|[b w] l IH]; intros m Hl Hm; [exact Hm|]. apply list.Forall_cons in Hl as [Hb Hl]. apply IH; [assumption|].
    intros a v. cbn. destruct (decide (b = a)) as [->|Hne]; [rewrite lookup_insert; intros [= <-]; assumption|].
    rewrite lookup_insert_ne by assumption. apply Hm. }
  assert (K : forall a v, fold_left (fun m (p : attr * val) => <[p.1 := p.2]> m) (default_attrs c ++ kw) (∅ : gmap attr val) !! a = Some v -> ok (a, v)).
  { apply (G _ ∅ H3). intros b w Hb. rewrite lookup_empty in Hb. discriminate Hb. }
  split; cbn [n_attrs n_cls]; [intros a v Hv; apply (K a v Hv)|intros v Hc Hv; apply (K a_number v Hv); auto].
Qed.
Lemma td_new_node c kw : Forall (fun p => strict p.1 p.2) kw -> td (new_node c kw) any.
Proof. intros H. apply td_alloc, mk_tidy. eapply list.Forall_impl; [exact H|]. intros p [H1 H2]. split; auto. Qed.
End Tidy.
Arguments td src {X} m Q.
Notation TH src s := (forall x n, st_heap s !! x = Some n -> tidy_node src n).

Ltac flat1 := apply flat_strict; exact I.
Ltac strictly := repeat first [apply list.Forall_nil_2|apply list.Forall_cons_2; cbn [fst snd]]; try first [flat1|apply fine_strict; reflexivity].
Ltac tstep0 :=
  lazymatch goal with
  | |- td _ (bind (getattr _ _) _) _ => eapply td_bind; [apply td_getattr|intros ? ?]
  | |- td _ (bind (get_str _ _) _) _ => eapply td_bind; [apply td_get_str|intros ? ?]
  | |- td _ (bind (get_strs _ _) _) _ => eapply td_bind; [apply td_get_strs|intros ? ?]
  | |- td _ (bind (get_int _ _) _) _ => eapply td_bind; [apply td_get_int|intros ? _]
  | |- td _ (bind (cls_of _) _) _ => eapply td_bind; [apply td_cls_of|intros ? _]
  | |- td _ (bind (children_of _) _) _ => eapply td_bind; [apply td_children_of|intros ? _]
  | |- td _ (bind (parent_of _) _) _ => eapply td_bind; [apply td_parent_of|intros ? _]
  | |- td _ (bind (inst _ _) _) _ => eapply td_bind; [apply td_inst|intros ? _]
  | |- td _ (bind (Parser.is_text _) _) _ => eapply td_bind; [apply td_inst|intros ? _]
  | |- td _ (bind (raw_children _) _) _ => eapply td_bind; [apply td_raw_children|intros ? _]
  | |- td _ (bind (set_raw_children _ _) _) _ => eapply td_bind; [apply td_set_raw_children|intros ? _]
  | |- td _ (bind (get_node _) _) _ => eapply td_bind; [apply td_get_node|intros ? ?]
  | |- td _ (bind (warn _ _) _) _ => eapply td_bind; [apply td_log|intros ? _]
  | |- td _ (bind (info _ _) _) _ => eapply td_bind; [apply td_log|intros ? _]
  | |- td _ (bind (log_rec _) _) _ => eapply td_bind; [apply td_log|intros ? _]
  | |- td _ (warn _ _) any => apply td_log
  | |- td _ (raise _) _ => apply td_raise
  | |- td _ (ret _) any => apply td_ret; exact I
  | |- td _ (match ?x with _ => _ end) _ => destruct x
  end.
Ltac tq := repeat tstep0.
Section Tidy2.
Context (src : bool).
Notation td := (td src).
Lemma td_set_parent i p : td (set_parent i p) any.
Proof. unfold set_parent. tq; apply td_mod_node; intros ? [? ?]; split; assumption. Qed.
Lemma td_append p l : td (append p l) any.
Proof. unfold append. apply (td_iterM _ _ any); [|apply all_any]. intros x _. unfold append1. tq. apply td_set_parent. Qed.
Lemma td_prepend p l : td (prepend p l) any.
Proof. unfold prepend. apply (td_iterM _ _ any); [|apply all_any]. intros x _. unfold prepend1. tq; apply td_set_parent. Qed.
Lemma td_remove p c : td (remove p c) any.
Proof. unfold remove. tq. apply td_set_parent. Qed.
Lemma td_remove_self i : td (remove_self i) any.
Proof. unfold remove_self. tq. eapply td_bind; [apply td_remove|intros _ _]. apply td_set_parent. Qed.
Lemma td_clear i : td (clear i) any.
Proof. unfold clear. tq. eapply td_bind; [apply (td_iterM _ _ any); [intros; apply td_set_parent|apply all_any]|intros _ _]. apply td_set_raw_children. Qed.
Lemma td_insert_all p l : forall k, td (insert_all p k l) any.
Proof. induction l; intros k; cbn [insert_all]; tq. eapply td_bind; [apply td_set_parent|intros _ _]. apply IHl. Qed.
Lemma td_replace i l : td (replace_self i l) any.
Proof. unfold replace_self. tq. eapply td_bind; [apply td_remove|intros _ _]. apply td_insert_all. Qed.
Lemma td_first_inst d l : td (first_inst d l) any.
Proof. induction l; cbn [first_inst]; tq. assumption. Qed.
Lemma td_next_sibling i a : td (next_sibling i a) any.
Proof. unfold next_sibling. tq; apply td_first_inst. Qed.
Lemma td_prev_sibling i a : td (prev_sibling i a) any.
Proof. unfold prev_sibling. tq; apply td_first_inst. Qed.
Lemma td_first_of_type_go ds l : forall k, td (first_of_type_go ds l k) any.
Proof. induction l; intros k; cbn [first_of_type_go]; tq; auto. Qed.
Lemma td_first_of_type i ds : td (first_of_type i ds) any.
Proof. unfold first_of_type. tq. apply td_first_of_type_go. Qed.
Lemma td_last_of_type i ds : td (last_of_type i ds) any.
Proof. unfold last_of_type. eapply td_bind; [apply td_children_of|intros cs _]. eapply td_bind; [apply td_first_of_type_go|intros r _]. tq. Qed.
Lemma td_anc_loop ds fuel : forall cur, td (anc_loop fuel ds cur) any.
Proof. induction fuel; intros [q|]; cbn [anc_loop]; tq; auto. Qed.
Lemma td_first_ancestor f i ds : td (first_ancestor_of_type f i ds) any.
Proof. unfold first_ancestor_of_type. tq. apply td_anc_loop. Qed.
Lemma td_trav {X} cond (b : X -> id -> M X) (P : X -> Prop) fuel : (forall a i, P a -> td (b a i) P) -> forall a st, P a -> td (trav_loop fuel cond b a st) P.
Proof.
  intros Hb. induction fuel; intros a [|i l] Ha; cbn [trav_loop]; try (apply td_ret; exact Ha); try apply td_raise.
  tstep0. eapply (td_bind _ _ _ P); [destruct (cond _); [apply Hb, Ha|apply td_ret; exact Ha]|intros ? ?]. tstep0. apply IHfuel. assumption.
Qed.
Lemma td_for {X} cond (b : X -> id -> M X) (P : X -> Prop) fuel a i : (forall a i, P a -> td (b a i) P) -> P a -> td (for_traverse fuel cond b a i) P.
Proof. intros Hb Ha. apply td_trav; assumption. Qed.
Lemma td_full_number fuel : forall i, td (full_number fuel i) (fun o => lacks LT (fmt_opt o) = true).
Proof.
  induction fuel as [|f IH]; intros i; cbn [full_number]; cbv zeta; [apply td_raise|]. tstep0. destruct (subclass _ _); [apply td_ret; reflexivity|].
  tstep0. destruct (truthy _); [apply td_ret; reflexivity|].
  eapply td_bind; [apply td_first_ancestor|intros anc _].
  eapply (td_bind _ _ _ any). { destruct anc; [apply td_ret; exact I|]. tstep0. apply td_first_ancestor. }
  intros anc2 _. tstep0. assert (Hx : lacks LT (fmt_val x1) = true) by (eapply tidy_lt; [eassumption| | | |]; discriminate).
  assert (G : td (ret (Some (if truthy x1 then fmt_val x1 else []))) (fun o => lacks LT (fmt_opt o) = true)) by (apply td_ret; cbn [fmt_opt]; destruct (truthy x1); [exact Hx|reflexivity]).
  destruct anc2 as [a|]; [|exact G]. eapply td_bind; [apply IH|]. intros [[|c r]|] Hf; [exact G| |exact G].
  eapply td_bind; [apply IH|]. intros f2 Hf2. apply td_ret. cbn [fmt_opt]. rewrite !lacks_app, Hx, !andb_true_r. destruct f2; exact Hf2.
Qed.

(** ** The transformer *)

Definition label_ok (p : str * id) : Prop := True.
Lemma td_unknown d l def : lacks LT l = true -> td (label_to_node d l def) any.
Proof.
  intros Hl. unfold label_to_node. destruct (lookup_label d l); [apply td_ret; exact I|]. tstep0.
  assert (K : lacks LT (unknown_label l) = true) by (unfold unknown_label; rewrite !lacks_app, Hl; reflexivity).
  destruct def.
  - apply td_new_node. constructor; [|constructor]. apply text_strict, mild_lacks, K.
  - apply td_alloc, mk_tidy. constructor; [|constructor]. cbn [fst snd]. split; [|intros H; contradiction]. split; [exact K|].
    intros H. exfalso. apply H. apply (bool_decide_eq_true_1 (a_number ∈ loose)). reflexivity.
Qed.
Lemma td_collect d i : td (collect_body d i) any.
Proof. unfold collect_body. tq. eapply td_bind; [apply td_setattr, fine_strict; reflexivity|intros _ _]. apply td_ret. exact I. Qed.
Lemma overwrite_strict v : tidy src a_overwrite_reftext v -> strict src a_overwrite_reftext v.
Proof. intros H. split; [exact H|discriminate]. Qed.
Lemma reference_kw x v : tidy src a_overwrite_reftext v -> Forall (fun p => strict src p.1 p.2) [(a_target, VNode x); (a_overwrite_reftext, v)].
Proof. intros H. constructor; [|constructor; [|constructor]]; cbn [fst snd]; [split; [reflexivity|discriminate]|apply overwrite_strict, H]. Qed.
Lemma str_lt a u : tidy src a (VStr u) -> a <> a_text -> a <> a_src -> lacks LT u = true.
Proof. intros [H _] H1 H2. unfold fine_lt in H. rewrite !bool_decide_eq_false_2 in H by assumption. exact H. Qed.
Lemma strs_lt a l : tidy src a (VStrs l) -> a <> a_text -> a <> a_src -> Forall (fun u => lacks LT u = true) l.
Proof. intros H H1 H2. eapply list.Forall_impl; [exact H|]. intros u Hu. eapply (str_lt a u); [exact Hu|assumption|assumption]. Qed.
Lemma td_resolve_reference d i : td (resolve_reference d i) any.
Proof.
  unfold resolve_reference. tstep0. eapply td_bind; [apply td_unknown; eapply str_lt; [eassumption|discriminate|discriminate]|intros t _]. tstep0.
  destruct (subclass _ _); [apply td_replace|]. tstep0. eapply td_bind; [apply td_new_node, reference_kw; assumption|intros r _]. apply td_replace.
Qed.
Lemma td_add_backlink l i : lacks LT l = true -> lacks QUOTE l = true -> td (add_backlink l i) any.
Proof.
  intros H1 H2. unfold add_backlink. tstep0. apply td_setattr. split; [|discriminate]. cbn [tidy]. apply Forall_app. split; [assumption|].
  constructor; [apply both_fine; assumption|constructor].
Qed.
Lemma cite_label k : lacks LT (lit "cite-" ++ str_of_nat k) = true /\ lacks QUOTE (lit "cite-" ++ str_of_nat k) = true.
Proof. rewrite !lacks_app, !lacks_nat by reflexivity. split; reflexivity. Qed.
Lemma td_resolve_cite d k i : td (resolve_cite d k i) any.
Proof.
  unfold resolve_cite. cbv zeta. tstep0. eapply td_bind; [apply (td_mapM _ _ (fun u => lacks LT u = true) any); [intros l Hl; apply (td_unknown d l DefUnknownBibitem Hl)|eapply strs_lt; [eassumption|discriminate|discriminate]]|intros ts _].
  eapply td_bind; [apply td_new_node; constructor; [|constructor]; cbn [fst snd]; split; [reflexivity|discriminate]|intros c _].
  eapply td_bind; [apply td_setattr, fine_strict; apply cite_label|intros _ _]. eapply td_bind; [apply td_replace|intros _ _].
  apply (td_iterM _ _ any); [|apply all_any]. intros z _. apply td_add_backlink; apply cite_label.
Qed.
Lemma td_walk n sh : forall t, td (walk_prev n sh t) any.
Proof. induction n; intros t; cbn [walk_prev]; [apply td_ret; exact I|]. eapply td_bind; [apply td_prev_sibling|intros o _]. tq. auto. Qed.
Lemma td_resolve_prev f i : td (resolve_prev f i) any.
Proof.
  unfold resolve_prev. eapply td_bind; [apply td_first_ancestor|intros o _]. destruct o; [|apply td_raise]. tstep0. destruct (py_int _); [|apply td_raise].
  eapply td_bind; [apply td_walk|intros t _]. tstep0. eapply (td_bind _ _ _ any); [tq|intros b _]. eapply (td_bind _ _ _ any); [tq|intros _ _]. tstep0.
  eapply td_bind; [apply td_new_node, reference_kw; assumption|intros r _]. apply td_replace.
Qed.
Lemma td_resolve f d i : td (resolve_pending_references f d i) any.
Proof.
  unfold resolve_pending_references. eapply td_bind; [apply (td_for _ _ any); [|exact I]|intros _ _].
  { intros k p _. unfold resolve_body. tstep0. repeat (destruct (subclass _ _)); try (apply td_ret; exact I); (eapply td_bind; [|intros _ _; apply td_ret; exact I]).
    all: first [apply td_resolve_reference|apply td_resolve_cite|apply td_resolve_prev]. }
  eapply td_bind; [apply (td_for _ _ any); [intros; apply td_raise|exact I]|intros _ _]. apply td_ret. exact I.
Qed.
Lemma td_subproofs u i : td (subproof_body u i) any.
Proof.
  unfold subproof_body. tstep0. destruct x as [|c cs]; [apply td_ret; exact I|]. eapply td_bind; [apply td_first_of_type|intros o _]. cbv zeta.
  eapply td_bind; [apply td_clear|intros _ _]. eapply td_bind; [apply td_new_node; constructor|intros st _]. eapply td_bind; [apply td_append|intros _ _]. tstep0.
  eapply td_bind; [apply td_setattr; flat1|intros _ _]. destruct (nth_error _ _); [|apply td_append]. tstep0. tstep0.
  eapply (td_bind _ _ _ any); [|intros sp _; apply td_append]. destruct x0.
  - eapply td_bind; [apply td_new_node; constructor|intros sp _]. eapply td_bind; [apply td_append|intros _ _]. apply td_ret. exact I.
  - tq.
Qed.
Lemma td_number_steps l : forall k, td (number_steps l k) any.
Proof. induction l; intros k; cbn [number_steps]; tq; auto. eapply td_bind; [apply td_setattr; flat1|intros _ _]. auto. Qed.
Lemma replace_go_lt c old new : lacks c new = true -> forall s k, lacks c s = true -> lacks c (replace_go old new s k) = true.
Proof.
  intros Hn. induction s as [|d s IH]; intros k Hs; [reflexivity|]. cbn [replace_go]. cbn [lacks forallb] in Hs. apply andb_true_iff in Hs as [Hd Hs].
  destruct k; [|apply IH, Hs]. destruct (prefixb _ _); [rewrite lacks_app, Hn; apply IH, Hs|]. cbn [lacks forallb]. rewrite Hd. apply IH, Hs.
Qed.
Lemma counter_strict c k v : counter_value c k = Some v -> strict src a_number v.
Proof.
  unfold counter_value. destruct (ck c); [intros [= <-]; flat1|]. destruct (nth_error _ _) eqn:E; [|discriminate]. intros [= <-].
  apply nth_error_In in E. assert (K : forallb (fun x => lacks LT [x] && lacks QUOTE [x]) ascii_uppercase = true) by reflexivity.
  rewrite forallb_forall in K. apply K, andb_true_iff in E as [H1 H2]. apply fine_strict; assumption.
Qed.
Lemma td_autonumber a i : td (autonumber_body a i) any.
Proof.
  unfold autonumber_body. tstep0. destruct (subclass x CAppendix); [apply td_ret; exact I|]. destruct (subclass_any _ _).
  { eapply td_bind; [|intros _ _; apply td_ret; exact I]. unfold autonumber_steps. tstep0. apply td_number_steps. }
  destruct (subclass x CStep); [apply td_ret; exact I|]. tstep0. destruct (_ && _); [|apply td_ret; exact I]. cbv zeta.
  destruct (counter_value _ _) eqn:E; [|apply td_raise]. eapply td_bind; [apply td_setattr; eapply counter_strict, E|intros _ _].
  eapply (td_bind _ _ _ any); [|intros _ _; apply td_ret; exact I]. destruct (_ && _); [|apply td_ret; exact I]. tstep0. apply td_setattr.
  apply loose_strict; [|apply (bool_decide_eq_true_1 (a_reftext_template ∈ loose)); reflexivity|discriminate].
  apply replace_go_lt; [reflexivity|]. eapply str_lt; [eassumption|discriminate|discriminate].
Qed.
Lemma td_toc_reftext f i : td (toc_reftext f i) (fun u => lacks LT u = true).
Proof.
  unfold toc_reftext. tstep0. tstep0. assert (K : lacks LT (fmt_val x) = true) by (eapply tidy_lt; [eassumption| | | |]; discriminate).
  destruct (truthy _); [apply td_ret, K|]. eapply td_bind; [apply td_full_number|intros o Ho]. apply td_ret. rewrite !lacks_app, K, !andb_true_r. destruct o; exact Ho.
Qed.
Lemma td_parent_parent o : td (parent_parent o) any. Proof. unfold parent_parent. tq. apply td_parent_of. Qed.
Lemma td_append_opt o c : td (append_opt o c) any. Proof. unfold append_opt. tq. apply td_append. Qed.
Lemma td_is_last i c : td (is_last_of i c) any.
Proof. unfold is_last_of. tstep0. destruct x; [|apply td_raise]. eapply td_bind; [apply td_last_of_type|intros o _]. apply td_ret. exact I. Qed.
Lemma td_toc_body f t cur i : td (toc_body f t cur i) any.
Proof.
  unfold toc_body. eapply td_bind; [apply td_new_node; constructor|intros it _]. eapply td_bind; [apply td_toc_reftext|intros u Hu].
  eapply td_bind. { apply td_new_node, reference_kw. apply loose_strict; [exact Hu|apply (bool_decide_eq_true_1 (a_overwrite_reftext ∈ loose)); reflexivity|discriminate]. }
  intros r _. eapply td_bind; [apply td_append|intros _ _]. tstep0.
  assert (L : forall d, td (let! l := is_last_of i d in if l then parent_parent cur else ret cur) any).
  { intros d. eapply td_bind; [apply td_is_last|intros b _]. destruct b; [apply td_parent_parent|apply td_ret; exact I]. }
  assert (N : td (let! itemize := new_node CItemize [] in do! append it [itemize] in ret (Some itemize)) any).
  { eapply td_bind; [apply td_new_node; constructor|intros z _]. eapply td_bind; [apply td_append|intros _ _]. apply td_ret. exact I. }
  destruct (subclass x CSubsubsection); [eapply td_bind; [apply td_append_opt|intros _ _]; apply L|].
  destruct (subclass x CSubsection).
  { eapply td_bind; [apply td_append_opt|intros _ _]. eapply td_bind; [apply td_first_of_type|intros o _]. destruct o; [apply N|apply L]. }
  destruct (subclass x CSection); [|apply td_raise]. eapply td_bind; [apply td_append|intros _ _]. eapply td_bind; [apply td_first_of_type|intros o _].
  destruct o; [apply N|apply td_ret; exact I].
Qed.
Lemma td_make_toc f i : td (make_toc f i) any.
Proof.
  unfold make_toc. eapply td_bind; [apply (td_for _ _ any); [|exact I]|intros t _].
  { intros a j _. unfold toc_pick. destruct a; [|apply td_ret; exact I]. tstep0. eapply td_bind; [apply td_remove_self|intros _ _]. apply td_ret. exact I. }
  destruct t; [|apply td_ret; exact I]. eapply td_bind; [apply (td_for _ _ any); [intros; apply td_toc_body|exact I]|intros _ _]. apply td_ret. exact I.
Qed.
Lemma fine_other a b u : fine src a u -> a ∉ loose -> fine src b u.
Proof.
  intros [H1 H2] H3. assert (K : forall x, x ∈ loose -> a <> x) by (intros x Hx ->; contradiction). apply both_fine; [|auto]. unfold fine_lt in H1.
  rewrite !bool_decide_eq_false_2 in H1; [exact H1| |]; apply K; [apply (bool_decide_eq_true_1 (a_src ∈ loose))|apply (bool_decide_eq_true_1 (a_text ∈ loose))]; reflexivity.
Qed.
Lemma td_construct u i : td (construct_body u i) any.
Proof.
  unfold construct_body. tstep0. destruct (negb _); [apply td_raise|]. destruct x; try apply td_raise. tstep0.
  assert (Hs : fine src a_types s). { eapply fine_other; [exact H|]. apply (bool_decide_eq_false_1 (a_kind ∈ loose)). reflexivity. }
  eapply td_bind; [apply td_setattr|intros _ _]. { split; [|discriminate]. apply Forall_app. split; [assumption|]. constructor; [exact Hs|constructor]. }
  destruct (str_mem _ _); [apply td_ret; exact I|]. tstep0. apply td_setattr. split; [|discriminate]. apply Forall_app. split; [assumption|].
  constructor; [apply both_fine; reflexivity|constructor].
Qed.
Lemma td_node_eq f a b : td (node_eqM f a b) any.
Proof. intros s s' r Hs E. unfold node_eqM in E. destruct (node_eq _ _ _ _); [|discriminate E]. injection E as <- _. split; [assumption|exact I]. Qed.
Lemma td_depth f i : td (add_handrail_depth f i) any.
Proof.
  unfold add_handrail_depth. apply (td_iterM _ _ any); [|apply all_any]. intros c _. unfold add_handrail_depth_for_class. apply (td_for _ _ any); [|exact I].
  intros a j _. unfold depth_outer. apply (td_for _ _ any); [|exact I]. intros b x _. unfold depth_inner. eapply td_bind; [apply td_node_eq|intros e _].
  destruct e; [apply td_ret; exact I|]. tstep0. apply td_setattr. flat1.
Qed.
Lemma td_transform f d i : td (transform f d i) any.
Proof.
  unfold transform. tstep0. eapply td_bind; [apply (td_for _ _ any); [intros; apply td_collect|exact I]|intros d' _].
  eapply td_bind; [apply td_resolve|intros _ _]. eapply td_bind; [apply (td_for _ _ any); [intros; apply td_subproofs|exact I]|intros _ _].
  eapply (td_bind _ _ _ any); [unfold autonumber_nodes; eapply td_bind; [apply (td_for _ _ any); [intros; apply td_autonumber|exact I]|intros _ _; apply td_ret; exact I]|intros _ _].
  eapply td_bind; [apply td_make_toc|intros _ _]. eapply td_bind; [apply (td_for _ _ any); [intros; apply td_construct|exact I]|intros _ _].
  eapply td_bind; [apply td_depth|intros _ _].
  eapply (td_bind _ _ _ any); [unfold assign_node_ids; eapply td_bind; [apply (td_for _ _ any); [|exact I]|intros _ _; apply td_ret; exact I]|intros _ _].
  { intros k j _. unfold nodeid_body. eapply td_bind; [apply td_setattr; flat1|intros _ _]. apply td_ret. exact I. }
  apply td_ret. exact I.
Qed.
End Tidy2.
