(** The normalised manuscript. *)
From Verif Require Import TreeFacts.
From Verif Require Export NormLine.
Local Open Scope string_scope.
Local Open Scope list_scope.

(** ** The line *)

Lemma spaced_eq t : spaced_class t = cls_mem (a_class t) [CSpan; CConstruct; CMath]. Proof. reflexivity. Qed.
Lemma spaced_not_text t : spaced_class t = true -> text_node t = false.
Proof. intros H. destruct (text_node t) eqn:E; [|reflexivity]. rewrite spaced_eq, (text_plain t E) in H. discriminate. Qed.
Lemma row_set_apart ts : Forall (fun t => True) ts -> texts_apart ts -> line (set_apart ts) = line ts.
Proof.
  intros _. induction ts as [|t r IH]; [reflexivity|]. intros [Ha Hr]. rewrite set_apart_cons. specialize (IH Hr).
  destruct r as [|u r]; [reflexivity|]. cbn [gap]. rewrite set_apart_cons in IH.
  change (line (t :: u :: r)) with (item t ++ (if set_off t u then [Gap] else []) ++ line (u :: r)).
  destruct (spaced_class t && spaced_class u) eqn:Es.
  - apply andb_true_iff in Es as [Et Eu]. rewrite set_apart_cons.
    assert (Eo : set_off t u = true). { unfold set_off. rewrite spaced_eq in Et, Eu. rewrite Et, Eu. apply orb_true_r. }
    rewrite Eo. cbn [app line]. rewrite (set_off_other t space eq_refl), (spaced_not_text t Et). rewrite (set_off_texts space u eq_refl), (spaced_not_text u Eu).
    change (item space) with [Gap]. cbn [app]. f_equal. f_equal. exact IH.
  - rewrite set_apart_cons. cbn [app]. change (line (t :: u :: gap u r ++ set_apart r)) with (item t ++ (if set_off t u then [Gap] else []) ++ line (u :: gap u r ++ set_apart r)).
    rewrite IH. reflexivity.
Qed.

Lemma verbatim_retext h t : verbatim_text (retext h t) = verbatim_text t.
Proof. destruct t as [c m ts]. unfold verbatim_text. cbn [retext a_attrs]. rewrite lookup_insert_ne by discriminate. reflexivity. Qed.
Lemma text_node_retext h t : text_node (retext h t) = text_node t.
Proof. apply text_same, class_retext. Qed.

(** What holds of the texts through all steps. *)
Definition kept (P : atree -> Prop) : Prop := forall h t, text_node t = true -> P t -> P (retext h t).
Lemma kept_start P h ts : kept P -> Forall P ts -> Forall P (at_start (retext h) ts).
Proof.
  intros Hk H. destruct H as [|t ts Ht H]; [constructor|]. cbn [at_start]. constructor; [|assumption]. unfold if_text.
  destruct (text_node t) eqn:E; [apply Hk|]; assumption.
Qed.
Lemma kept_end P h ts : kept P -> Forall P ts -> Forall P (at_end (retext h) ts).
Proof. intros Hk H. unfold at_end. apply Forall_rev, kept_start, Forall_rev; assumption. Qed.
Lemma kept_joined P run : kept P -> Forall (fun t => text_node t = true) run -> Forall P run -> Forall P (joined run).
Proof.
  intros Hk Ht H. destruct run as [|t [|u r]]; [constructor|assumption|]. apply list.Forall_cons in Ht as [Ht _].
  apply list.Forall_cons in H as [H _]. constructor; [|constructor]. apply Hk; assumption.
Qed.
Lemma kept_merge P ts : kept P -> forall cur, Forall (fun t => text_node t = true) cur -> Forall P cur -> Forall P ts -> Forall P (merge_texts cur ts).
Proof.
  intros Hk. induction ts as [|t ts IH]; intros cur Ht Hc H; cbn [merge_texts].
  - apply kept_joined; [assumption|apply Forall_rev; assumption|apply Forall_rev; assumption].
  - apply list.Forall_cons in H as [H Hs]. destruct (text_node t) eqn:E.
    + apply IH; [constructor; assumption|constructor; assumption|assumption].
    + apply list.Forall_app. split; [apply kept_joined; [assumption|apply Forall_rev; assumption|apply Forall_rev; assumption]|].
      constructor; [assumption|]. apply IH; [constructor|constructor|assumption].
Qed.
Lemma kept_local P c m ts : kept P -> (forall h, P (retext h space)) -> P space -> (subclass c CConstruct = true -> forall w, P (keyword w)) -> Forall P ts -> Forall P (local c m ts).
Proof.
  intros Hk Hsp0 Hsp Hkw H. unfold local. set (l := at_end _ _). assert (Hl : Forall P l).
  { unfold l. apply kept_end, kept_start, kept_merge; try assumption; constructor. }
  assert (Hp : Forall P (prefixed c m l)).
  { unfold prefixed. destruct (subclass c CConstruct); [|assumption]. constructor; [apply Hkw; reflexivity|]. unfold opened.
    pose proof (kept_start P (fun s => lit " " ++ s) l Hk Hl) as Ho. destruct (at_start _ l); [constructor|].
    destruct (subclass _ CMath); [constructor; assumption|assumption]. }
  clear Hl. induction Hp as [|t q Ht Hq IH]; [constructor|]. cbn [map]. constructor; [|assumption]. unfold if_text.
  destruct (text_node t) eqn:E; [apply Hk|]; assumption.
Qed.

Definition flagged (b : bool) (t : atree) : Prop := text_node t = true -> verbatim_text t = b.
Definition unescaping (b : bool) : str -> str := if b then fun s => s else unescape.
Lemma unescaping_ok b : wordwise (unescaping b).
Proof. destruct b; [apply wordwise_id|apply unescape_wordwise]. Qed.
(** Either the flag, or a space of our own. *)
Definition plain_item (b : bool) (t : atree) : Prop := item (norm1 t) = seen (unescaping b) norm t.
Lemma flagged_item b t : flagged b t -> plain_item b t.
Proof.
  intros H. unfold plain_item, item, norm1, seen. destruct (text_node t) eqn:E.
  - unfold readable. rewrite E, (H E). destruct b; cbn [andb negb unescaping].
    + rewrite E. reflexivity.
    + rewrite text_node_retext, E, text_retext. reflexivity.
  - rewrite (text_same norm) by apply class_norm. rewrite E. reflexivity.
Qed.
Lemma local_items b c m ts : Forall (flagged b) ts -> Forall (plain_item b) (local c m ts).
Proof.
  intros H. unfold local. set (l := at_end _ _).
  assert (Hk : kept (flagged b)). { intros h t Et Hb _. rewrite verbatim_retext. auto. }
  assert (Hl : Forall (flagged b) l). { unfold l. apply kept_end, kept_start, kept_merge; try assumption; constructor. }
  assert (Hm : forall q, Forall (flagged b) q -> Forall (plain_item b) (map (if_text (retext squeeze)) q)).
  { intros q Hq. induction Hq as [|t q Ht Hq IH]; [constructor|]. cbn [map]. constructor; [|assumption]. apply flagged_item. unfold if_text.
    destruct (text_node t) eqn:E; [apply Hk; assumption|assumption]. }
  unfold prefixed. destruct (subclass c CConstruct); [|apply Hm, Hl]. cbn [map]. constructor.
  { apply flagged_item. intros [=]. }
  unfold opened. pose proof (kept_start (flagged b) (fun s => lit " " ++ s) l Hk Hl) as Ho. destruct (at_start _ l) as [|t r]; [constructor|].
  destruct (subclass _ CMath); [|apply Hm, Ho]. cbn [app map]. constructor; [|apply (Hm (t :: r)), Ho].
  destruct b; vm_compute; reflexivity.
Qed.

(** ** No two texts side by side *)

Lemma apart_classes ts us : map a_class ts = map a_class us -> texts_apart ts -> texts_apart us.
Proof.
  revert us. induction ts as [|t ts IH]; intros [|u us] E H; try discriminate E; [exact I|]. injection E as E1 E2. destruct H as [H1 H2].
  split; [|apply IH; assumption]. destruct ts as [|t' ts], us as [|u' us]; try discriminate E2; [exact I|]. injection E2 as E2 _.
  unfold text_node in *. rewrite <- E1, <- E2. exact H1.
Qed.
Lemma classes_start h ts : map a_class (at_start (retext h) ts) = map a_class ts.
Proof. destruct ts; [reflexivity|]. cbn [at_start map]. rewrite class_if_text by apply class_retext. reflexivity. Qed.
Lemma classes_end h ts : map a_class (at_end (retext h) ts) = map a_class ts.
Proof. unfold at_end. rewrite map_rev, classes_start, <- map_rev, rev_involutive. reflexivity. Qed.
Lemma apart_other t ts : text_node t = false -> texts_apart ts -> texts_apart (t :: ts).
Proof. intros H Hs. split; [|assumption]. destruct ts; [exact I|]. rewrite H. intros [[=] _]. Qed.
Lemma joined_apart run t ts : Forall (fun t => text_node t = true) run -> text_node t = false -> texts_apart (t :: ts) -> texts_apart (joined run ++ t :: ts).
Proof.
  intros H Ht Hs. destruct run as [|x [|y r]]; [assumption| |]; cbn [joined app]; (split; [|assumption]); rewrite Ht; intros [_ [=]].
Qed.
Lemma merge_apart ts : forall cur, Forall (fun t => text_node t = true) cur -> texts_apart (merge_texts cur ts).
Proof.
  induction ts as [|t ts IH]; intros cur Hc; cbn [merge_texts].
  - destruct (rev cur) as [|x [|y r]]; cbn; auto.
  - destruct (text_node t) eqn:E; [apply IH; constructor; assumption|].
    apply joined_apart; [apply Forall_rev; assumption|assumption|]. apply apart_other; [assumption|]. apply IH. constructor.
Qed.
Lemma local_apart c m ts : texts_apart (local c m ts).
Proof.
  unfold local. set (l := at_end _ _). assert (Hl : texts_apart l).
  { eapply apart_classes; [|exact (merge_apart ts [] (Forall_nil _))]. unfold l. rewrite classes_end, classes_start. reflexivity. }
  eapply apart_classes; [symmetry; rewrite map_map; apply map_ext; intros t; apply class_if_text, class_retext|].
  unfold prefixed. destruct (subclass c CConstruct); [|assumption]. apply apart_other; [reflexivity|]. unfold opened.
  assert (Ho : texts_apart (at_start (retext (fun s => lit " " ++ s)) l)) by (eapply apart_classes; [symmetry; apply classes_start|assumption]).
  destruct (at_start _ l) as [|t r]; [exact I|]. destruct (subclass (a_class t) CMath) eqn:E; [|assumption]. cbn [app]. split; [|assumption].
  intros [_ H]. unfold text_node in H. destruct (a_class t); vm_compute in E, H; congruence.
Qed.
Lemma set_apart_apart ts : texts_apart ts -> texts_apart (set_apart ts).
Proof.
  induction ts as [|t r IH]; [auto|]. intros [H1 H2]. specialize (IH H2). destruct r as [|u r]; [split; exact I|].
  rewrite set_apart_cons. cbn [gap]. rewrite set_apart_cons in *. destruct (spaced_class t && spaced_class u) eqn:E.
  - apply andb_true_iff in E as [E1 E2]. apply spaced_not_text in E1, E2. cbn [app]. apply apart_other; [assumption|]. split; [|exact IH].
    rewrite E2. intros [_ [=]].
  - cbn [app]. split; [exact H1|exact IH].
Qed.
Lemma norm1_apart ts : texts_apart ts -> texts_apart (map norm1 ts).
Proof. apply apart_classes. rewrite map_map. apply map_ext. intros t. symmetry. apply class_norm1. Qed.
Lemma norm_apart c m ts : texts_apart (a_kids (norm (A c m ts))).
Proof. rewrite norm_eq. apply set_apart_apart, norm1_apart, local_apart. Qed.

Theorem norm_line b c m ts : (forall t, In t ts -> text_node t = true -> verbatim_text t = b) ->
  exists k w, (k = [] \/ k = [Gap]) /\
    tidy (line (a_kids (norm (A c m ts)))) =
      (if subclass c CConstruct then Nd (norm (keyword w)) :: k ++ tidy (line (map norm1 ts)) else tidy (line (map norm1 ts))).
Proof.
  intros H. rewrite norm_eq. cbn [a_kids]. rewrite row_set_apart by (apply norm1_apart, local_apart || (apply List.Forall_forall; auto)).
  assert (Hfl : Forall (flagged b) ts) by (apply List.Forall_forall; exact H).
  assert (E : forall l, Forall (plain_item b) l -> line (map norm1 l) = row (seen (unescaping b) norm) l).
  { intros l Hl. rewrite line_row, row_map by apply class_norm1. apply row_ext. exact Hl. }
  rewrite (E (local c m ts)) by (apply local_items, Hfl). rewrite (E ts).
  - apply local_tidy. apply unescaping_ok.
  - eapply list.Forall_impl; [exact Hfl|]. intros t. apply flagged_item.
Qed.

(** ** The other nodes *)

Lemma others_app l r : non_texts (l ++ r) = non_texts l ++ non_texts r. Proof. apply List.filter_app. Qed.
Lemma others_texts l : Forall (fun t => text_node t = true) l -> non_texts l = [].
Proof. induction 1 as [|t l Ht _ IH]; [reflexivity|]. unfold non_texts. cbn [List.filter]. rewrite Ht. exact IH. Qed.
Lemma others_cons t l : non_texts (t :: l) = (if text_node t then [] else [t]) ++ non_texts l.
Proof. unfold non_texts. cbn [List.filter]. destruct (text_node t); reflexivity. Qed.
Lemma others_if_text h t l : non_texts (if_text (retext h) t :: l) = non_texts (t :: l).
Proof. rewrite !others_cons. unfold if_text. destruct (text_node t) eqn:E; [rewrite text_node_retext|]; rewrite E; reflexivity. Qed.
Lemma others_start h ts : non_texts (at_start (retext h) ts) = non_texts ts.
Proof. destruct ts; [reflexivity|]. apply others_if_text. Qed.
Lemma others_rev l : non_texts (rev l) = rev (non_texts l).
Proof.
  induction l as [|t l IH]; [reflexivity|]. cbn [rev]. rewrite others_app, IH, !others_cons, rev_app_distr. f_equal.
  destruct (text_node t); reflexivity.
Qed.
Lemma others_end h ts : non_texts (at_end (retext h) ts) = non_texts ts.
Proof. unfold at_end. rewrite others_rev, others_start, others_rev, rev_involutive. reflexivity. Qed.
Lemma others_merge ts : forall cur, Forall (fun t => text_node t = true) cur -> non_texts (merge_texts cur ts) = non_texts ts.
Proof.
  induction ts as [|t ts IH]; intros cur Hc; cbn [merge_texts].
  - apply others_texts, joined_text, Forall_rev, Hc.
  - rewrite others_cons. destruct (text_node t) eqn:E; [apply IH; constructor; assumption|].
    rewrite others_app, others_texts, others_cons, E, IH by (constructor || (apply joined_text, Forall_rev, Hc)). reflexivity.
Qed.
Lemma others_local c m ts : exists w, non_texts (local c m ts) = (if subclass c CConstruct then [keyword w] else []) ++ non_texts ts.
Proof.
  unfold local. set (l := at_end _ _). assert (El : non_texts l = non_texts ts) by (unfold l; rewrite others_end, others_start; apply others_merge; constructor).
  assert (Em : forall q, non_texts (map (if_text (retext squeeze)) q) = non_texts q).
  { induction q as [|t q IH]; [reflexivity|]. cbn [map]. rewrite others_if_text, !others_cons, IH. reflexivity. }
  rewrite Em. unfold prefixed. destruct (subclass c CConstruct); [|exists []; assumption]. eexists. rewrite others_cons. cbn [text_node]. cbn [app].
  match goal with |- (if text_node ?k then _ else _) ++ _ = _ => change (text_node k) with false end. cbn [app]. f_equal. rewrite <- El.
  unfold opened. rewrite <- (others_start (fun s => lit " " ++ s) l). destruct (at_start _ l); [reflexivity|].
  destruct (subclass _ CMath); [|reflexivity]. cbn [app]. rewrite others_cons. reflexivity.
Qed.
Lemma others_set_apart ts : non_texts (set_apart ts) = non_texts ts.
Proof.
  induction ts as [|t r IH]; [reflexivity|]. rewrite set_apart_cons, !others_cons, others_app, IH. f_equal. destruct r as [|u r]; [reflexivity|].
  cbn [gap]. destruct (_ && _); reflexivity.
Qed.
Lemma others_norm1 ts : non_texts (map norm1 ts) = map norm (non_texts ts).
Proof.
  induction ts as [|t ts IH]; [reflexivity|]. cbn [map]. rewrite !others_cons, IH, (text_same norm1) by apply class_norm1.
  unfold norm1. destruct (text_node t) eqn:E; reflexivity.
Qed.
Theorem norm_others c m ts : exists w,
  non_texts (a_kids (norm (A c m ts))) = (if subclass c CConstruct then [norm (keyword w)] else []) ++ map norm (non_texts ts).
Proof.
  rewrite norm_eq. cbn [a_kids]. rewrite others_set_apart, others_norm1. destruct (others_local c m ts) as (w & ->). exists w.
  rewrite map_app. destruct (subclass c CConstruct); reflexivity.
Qed.
