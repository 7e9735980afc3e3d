(** The line of the children of a node, before and after normalisation. *)
From Verif Require Import TreeFacts.
From Verif Require Export NormText.
Local Open Scope string_scope.
Local Open Scope list_scope.

Definition bt (t : atree) (r : list atree) : list piece := match r with u :: _ => if set_off t u then [Gap] else [] | [] => [] end.
Fixpoint row (J : atree -> list piece) (ts : list atree) : list piece :=
  match ts with [] => [] | t :: r => J t ++ bt t r ++ row J r end.
Lemma line_row ts : line ts = row item ts.
Proof. induction ts as [|t ts IH]; [reflexivity|]. cbn [line row]. rewrite IH. reflexivity. Qed.
Lemma set_off_class t t' u u' : a_class t = a_class t' -> a_class u = a_class u' -> set_off t u = set_off t' u'.
Proof. unfold set_off, text_node. intros -> ->. reflexivity. Qed.
Definition heads (ts : list atree) : list cls := map a_class (firstn 1 ts).
Lemma bt_class t t' r r' : a_class t = a_class t' -> heads r = heads r' -> bt t r = bt t' r'.
Proof.
  unfold heads. destruct r as [|u r], r' as [|u' r']; cbn [map firstn]; intros H [=]; [reflexivity|]. cbn [bt]. rewrite (set_off_class t t' u u') by assumption. reflexivity.
Qed.
Lemma heads_map g ts : (forall t, a_class (g t) = a_class t) -> heads (map g ts) = heads ts.
Proof. intros H. unfold heads. destruct ts; [reflexivity|]. cbn [map firstn]. rewrite H. reflexivity. Qed.
Lemma heads_start g ts : (forall t, a_class (g t) = a_class t) -> heads (at_start g ts) = heads ts.
Proof. intros H. destruct ts; [reflexivity|]. unfold heads. cbn [at_start map firstn]. rewrite class_if_text by assumption. reflexivity. Qed.
Lemma row_map J g ts : (forall t, a_class (g t) = a_class t) -> row J (map g ts) = row (fun t => J (g t)) ts.
Proof.
  intros H. induction ts as [|t ts IH]; [reflexivity|]. cbn [map row]. rewrite IH. f_equal. f_equal.
  apply bt_class; [apply H|apply heads_map, H].
Qed.
Lemma row_same J K ts : Forall (fun t => same (J t) (K t)) ts -> same (row J ts) (row K ts).
Proof. induction 1 as [|t ts Ht _ IH]; [apply same_refl|]. cbn [row]. apply same_app; [assumption|]. apply same_app; [apply same_refl|assumption]. Qed.
Lemma row_ext J K ts : Forall (fun t => J t = K t) ts -> row J ts = row K ts.
Proof. induction 1 as [|t ts Ht _ IH]; [reflexivity|]. cbn [row]. rewrite Ht, IH. reflexivity. Qed.
Lemma text_plain t : text_node t = true -> cls_mem (a_class t) [CSpan; CConstruct; CMath] = false.
Proof. unfold text_node. destruct (a_class t); vm_compute; intros [=]; reflexivity. Qed.
Lemma set_off_texts t u : text_node t = true -> set_off t u = text_node u.
Proof. intros H. unfold set_off. rewrite H, (text_plain t H). cbn [andb]. apply orb_false_r. Qed.
Lemma set_off_other t u : text_node u = true -> set_off t u = text_node t.
Proof. intros H. unfold set_off. rewrite H, (text_plain u H), andb_false_r, andb_true_r. apply orb_false_r. Qed.
Lemma row_texts J l t X : Forall (fun t => text_node t = true) l -> text_node t = false -> row J (l ++ t :: X) = row J l ++ row J (t :: X).
Proof.
  intros Hl Ht. induction Hl as [|u l Hu Hl IH]; [reflexivity|]. change ((u :: l) ++ t :: X) with (u :: (l ++ t :: X)).
  cbn [row] in IH |- *. rewrite IH. destruct l as [|v l].
  - cbn [app bt]. rewrite (set_off_texts u t Hu), Ht. rewrite app_nil_r. reflexivity.
  - rewrite <- !app_assoc. reflexivity.
Qed.

Section Row.
Variable f : str -> str.
Variable g : atree -> atree.
Hypothesis Hf : wordwise f.
Definition seen (t : atree) : list piece := if text_node t then chars (f (text_of t)) else [Nd (g t)].
Lemma text_retext h t : text_of (retext h t) = h (text_of t).
Proof. destruct t as [c m ts]. unfold retext, text_of at 1. cbn [a_attrs]. rewrite lookup_insert. reflexivity. Qed.
Lemma seen_text t : text_node t = true -> seen t = chars (f (text_of t)).
Proof. unfold seen. intros ->. reflexivity. Qed.
Lemma seen_retext h t : text_node t = true -> seen (retext h t) = chars (f (h (text_of t))).
Proof. intros H. rewrite seen_text, text_retext; [reflexivity|]. rewrite (text_same (retext h)) by apply class_retext. assumption. Qed.
Lemma row_run t us v : text_node t = true -> Forall (fun t => text_node t = true) us -> text_node v = true ->
  row seen (t :: us ++ [v]) = chars (f (text_of t)) ++ Gap :: spread f (map text_of us) ++ chars (f (text_of v)).
Proof.
  intros Ht Hus Hv. revert t Ht. induction Hus as [|u us Hu Hus IH]; intros t Ht.
  - cbn [app row bt map spread]. rewrite (set_off_texts t v Ht), Hv, !seen_text, app_nil_r by assumption. reflexivity.
  - change (row seen (t :: (u :: us) ++ [v])) with (seen t ++ (if set_off t u then [Gap] else []) ++ row seen (u :: us ++ [v])).
    rewrite (set_off_texts t u Ht), Hu, IH, seen_text by assumption. cbn [map spread]. rewrite <- app_assoc. reflexivity.
Qed.
Lemma joined_same run : Forall (fun t => text_node t = true) run -> same (row seen (joined run)) (row seen run).
Proof.
  intros H. destruct run as [|t [|u r]]; [apply same_refl|apply same_refl|].
  apply list.Forall_cons in H as [Ht H]. unfold joined.
  destruct (exists_last (l := u :: r) ltac:(discriminate)) as (us & v & E). rewrite E in *. apply list.Forall_app in H as [Hus Hv].
  apply list.Forall_cons in Hv as [Hv _]. rewrite removelast_last, last_last. rewrite (row_run t us v) by assumption.
  cbn [row bt]. rewrite !app_nil_r, seen_retext by assumption. apply same_merged, Hf.
Qed.
Lemma joined_heads run : heads (joined run) = heads run.
Proof. destruct run as [|t [|u r]]; [reflexivity|reflexivity|]. unfold joined, heads. cbn [map firstn]. rewrite class_retext. reflexivity. Qed.
Lemma heads_app l r r' : heads r = heads r' -> heads (l ++ r) = heads (l ++ r').
Proof. destruct l; [auto|reflexivity]. Qed.
Lemma heads_app_l l l' r : heads l = heads l' -> heads (l ++ r) = heads (l' ++ r).
Proof. unfold heads. destruct l as [|x l], l' as [|y l']; cbn [map firstn app]; intros E; try discriminate E; [reflexivity|assumption]. Qed.
Lemma merge_heads ts : forall cur, heads (merge_texts cur ts) = heads (rev cur ++ ts).
Proof.
  induction ts as [|t ts IH]; intros cur; cbn [merge_texts].
  - rewrite joined_heads, app_nil_r. reflexivity.
  - destruct (text_node t).
    + rewrite IH. cbn [rev]. rewrite <- app_assoc. reflexivity.
    + rewrite (heads_app_l _ _ (t :: merge_texts [] ts) (joined_heads (rev cur))). apply heads_app. reflexivity.
Qed.
Lemma merge_same ts : forall cur, Forall (fun t => text_node t = true) cur -> same (row seen (merge_texts cur ts)) (row seen (rev cur ++ ts)).
Proof.
  induction ts as [|t ts IH]; intros cur Hc; cbn [merge_texts].
  - rewrite app_nil_r. apply joined_same, Forall_rev, Hc.
  - destruct (text_node t) eqn:Et.
    + eapply same_trans; [apply IH; constructor; assumption|]. cbn [rev]. rewrite <- app_assoc. apply same_refl.
    + rewrite !row_texts by (assumption || (try apply joined_text); apply Forall_rev; assumption). apply same_app; [apply joined_same, Forall_rev, Hc|].
      cbn [row]. rewrite (bt_class t t (merge_texts [] ts) ts) by (reflexivity || apply (merge_heads ts [])).
      apply same_app; [apply same_refl|]. apply same_app; [apply same_refl|]. apply (IH []). constructor.
Qed.
Lemma gap_tidy l : tidy (Gap :: l) = tidy l.
Proof. unfold tidy. cbn [fold_right]. destruct (fold_right squash [] l) as [|[]]; reflexivity. Qed.
Lemma white_tidy w l : white w -> tidy (chars w ++ l) = tidy l.
Proof. induction 1 as [|c w Hc _ IH]; [reflexivity|]. cbn [chars map app]. rewrite Hc, gap_tidy. exact IH. Qed.
Lemma start_tidy ts : tidy (row seen (at_start (retext lstrip) ts)) = tidy (row seen ts).
Proof.
  destruct ts as [|t r]; [reflexivity|]. cbn [at_start row]. unfold if_text. destruct (text_node t) eqn:Et; [|reflexivity].
  rewrite (bt_class (retext lstrip t) t r r) by (reflexivity || apply class_retext). rewrite seen_retext, seen_text by assumption.
  destruct (lstrip_split (text_of t)) as (w & E & Hw). rewrite E at 2. rewrite (wordwise_before f) by assumption.
  rewrite chars_app, <- app_assoc, (white_tidy w) by assumption. reflexivity.
Qed.
Lemma row_last l : forall t u, a_class t = a_class u -> exists P, row seen (l ++ [t]) = P ++ seen t /\ row seen (l ++ [u]) = P ++ seen u.
Proof.
  induction l as [|x l IH]; intros t u H.
  - exists []. cbn [app row bt]. rewrite !app_nil_r. auto.
  - destruct (IH t u H) as (P & E1 & E2). exists (seen x ++ bt x (l ++ [t]) ++ P). cbn [app row]. rewrite E1, E2.
    rewrite (bt_class x x (l ++ [u]) (l ++ [t])). + rewrite <- !app_assoc. auto. + reflexivity.
    + destruct l; [|reflexivity]. unfold heads. cbn [app map firstn]. rewrite H. reflexivity.
Qed.
Lemma end_tidy ts : tidy (row seen (at_end (retext rstrip) ts)) = tidy (row seen ts).
Proof.
  unfold at_end. destruct (list_eq_nil_dec ts) as [->|Hn]; [reflexivity|]. destruct (exists_last Hn) as (l & t & ->).
  rewrite rev_app_distr. cbn [rev app at_start]. rewrite rev_involutive. unfold if_text. destruct (text_node t) eqn:Et; [|reflexivity].
  destruct (row_last l (retext rstrip t) t (class_retext _ _)) as (P & -> & ->). rewrite seen_retext, seen_text by assumption.
  destruct (rstrip_split (text_of t)) as (w & E & Hw). rewrite E at 2. rewrite (wordwise_after f) by assumption. rewrite chars_app.
  unfold tidy. rewrite !fold_right_app. replace (fold_right squash [] (chars w)) with (@nil piece); [reflexivity|].
  clear E. induction Hw as [|c w Hc _ IH]; [reflexivity|]. cbn [chars map fold_right]. rewrite Hc. fold (chars w). rewrite <- IH. reflexivity.
Qed.
Lemma opened_tidy ts : tidy (row seen (opened ts)) = tidy (row seen ts).
Proof.
  destruct ts as [|t r]; [reflexivity|]. unfold opened. cbn [at_start]. rewrite (class_if_text _ t) by apply class_retext.
  unfold if_text. destruct (text_node t) eqn:Et.
  - replace (subclass (a_class t) CMath) with false.
    2:{ unfold text_node in Et. destruct (a_class t); vm_compute in Et |- *; congruence. }
    cbn [app row]. rewrite (bt_class (retext _ t) t r r) by (reflexivity || apply class_retext). rewrite seen_retext, seen_text by assumption.
    rewrite (wordwise_before f) by (assumption || (repeat constructor)). rewrite chars_app. apply gap_tidy.
  - destruct (subclass (a_class t) CMath); [|reflexivity]. cbn [app].
    change (row seen (space :: t :: r)) with (seen space ++ bt space (t :: r) ++ row seen (t :: r)). cbn [bt]. rewrite (set_off_texts space t eq_refl), Et.
    assert (Es : text_of space = lit " ") by reflexivity.
    rewrite seen_text, Es by reflexivity. rewrite (wordwise_white f) by (assumption || (repeat constructor)). apply gap_tidy.
Qed.
Lemma squeezed_same ts : same (row seen (map (if_text (retext squeeze)) ts)) (row seen ts).
Proof.
  rewrite row_map by (intros t; apply class_if_text, class_retext). apply row_same. apply List.Forall_forall. intros t _.
  unfold if_text. destruct (text_node t) eqn:Et; [|apply same_refl]. rewrite seen_retext, seen_text by assumption. apply same_squeeze, Hf.
Qed.
Lemma run_tidy l : exists k, (k = [] \/ k = [Gap]) /\ fold_right squash [] l = k ++ tidy l.
Proof. unfold tidy. destruct (fold_right squash [] l) as [|[] r]; [exists []|exists []|exists [Gap]|exists []]; auto. Qed.
Lemma local_tidy c m ts : exists k w, (k = [] \/ k = [Gap]) /\
  tidy (row seen (local c m ts)) = (if subclass c CConstruct then Nd (g (keyword w)) :: k ++ tidy (row seen ts) else tidy (row seen ts)).
Proof.
  unfold local. set (l := at_end _ _). assert (El : tidy (row seen l) = tidy (row seen ts)).
  { unfold l. rewrite end_tidy, start_tidy. apply tidy_same. apply (merge_same ts []). constructor. }
  rewrite (tidy_same _ _ (squeezed_same _)). unfold prefixed. destruct (subclass c CConstruct).
  - set (w := default [] _). destruct (run_tidy (row seen (opened l))) as (k & Hk & E). exists k, w. split; [assumption|].
    change (row seen (keyword w :: opened l)) with (Nd (g (keyword w)) :: bt (keyword w) (opened l) ++ row seen (opened l)).
    replace (bt (keyword w) (opened l)) with (@nil piece) by (destruct (opened l); reflexivity). cbn [app].
    rewrite <- El, <- opened_tidy. unfold tidy at 1. cbn [fold_right]. rewrite E. reflexivity.
  - exists [], []. auto.
Qed.
End Row.
