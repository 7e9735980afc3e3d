(** The normalised manuscript follows the source. *)
From Verif Require Import TreeFacts.
From Verif Require Export NormAll.
Local Open Scope string_scope.
Local Open Scope list_scope.

Lemma starts_retext h t : starts_of (retext h t) = starts_of t.
Proof. destruct t as [c m ts]. unfold retext. rewrite !starts_of_A. f_equal. unfold start_of. cbn [a_class a_attrs]. rewrite lookup_insert_ne by discriminate. reflexivity. Qed.
Lemma starts_if_text h t : starts_of (if_text (retext h) t) = starts_of t.
Proof. unfold if_text. destruct (text_node t); [apply starts_retext|reflexivity]. Qed.
Definition starts_all (ts : list atree) : list (Z * Z) := flat_map starts_of ts.
Lemma starts_all_app l r : starts_all (l ++ r) = starts_all l ++ starts_all r. Proof. apply flat_map_app. Qed.
Lemma starts_start h ts : starts_all (at_start (retext h) ts) = starts_all ts.
Proof. destruct ts; [reflexivity|]. cbn [at_start starts_all flat_map]. rewrite starts_if_text. reflexivity. Qed.
Lemma starts_end h ts : starts_all (at_end (retext h) ts) = starts_all ts.
Proof.
  unfold at_end. destruct (list_eq_nil_dec ts) as [->|Hn]; [reflexivity|]. destruct (exists_last Hn) as (l & t & ->).
  rewrite rev_app_distr. cbn [rev app at_start]. rewrite rev_involutive, !starts_all_app. f_equal. cbn [starts_all flat_map]. rewrite starts_if_text. reflexivity.
Qed.
Lemma starts_joined run : starts_all (joined run) `sublist_of` starts_all run.
Proof.
  destruct run as [|t [|u r]]; [constructor|reflexivity|]. cbn [joined starts_all flat_map]. rewrite app_nil_r, starts_retext. apply sublist_inserts_r. reflexivity.
Qed.
Lemma starts_merge ts : forall cur, starts_all (merge_texts cur ts) `sublist_of` starts_all (rev cur ++ ts).
Proof.
  induction ts as [|t ts IH]; intros cur; cbn [merge_texts].
  - rewrite app_nil_r. apply starts_joined.
  - destruct (text_node t).
    + rewrite IH. cbn [rev]. rewrite <- app_assoc. reflexivity.
    + rewrite !starts_all_app. apply sublist_app; [apply starts_joined|]. cbn [starts_all flat_map]. apply sublist_app; [reflexivity|]. apply (IH []).
Qed.
Lemma starts_space : starts_of space = []. Proof. vm_compute. reflexivity. Qed.
Lemma starts_keyword w : starts_of (keyword w) = []. Proof. vm_compute. reflexivity. Qed.
Lemma starts_local c m ts : starts_all (local c m ts) `sublist_of` starts_all ts.
Proof.
  unfold local. set (l := at_end _ _). assert (El : starts_all l `sublist_of` starts_all ts).
  { unfold l. rewrite starts_end, starts_start. apply (starts_merge ts []). }
  assert (Em : forall q, starts_all (map (if_text (retext squeeze)) q) = starts_all q).
  { induction q as [|t q IH]; [reflexivity|]. cbn [map starts_all flat_map]. rewrite starts_if_text. f_equal. exact IH. }
  rewrite Em. unfold prefixed. destruct (subclass c CConstruct); [|assumption]. cbn [starts_all flat_map]. rewrite starts_keyword. cbn [app].
  unfold opened. rewrite <- (starts_start (fun s => lit " " ++ s) l) in El. destruct (at_start _ l); [exact El|].
  destruct (subclass _ CMath); [|exact El]. cbn [app flat_map]. rewrite starts_space. exact El.
Qed.
Lemma starts_set_apart ts : starts_all (set_apart ts) = starts_all ts.
Proof.
  induction ts as [|t r IH]; [reflexivity|]. rewrite set_apart_cons. cbn [starts_all flat_map]. fold (starts_all (gap t r ++ set_apart r)).
  rewrite starts_all_app, IH. f_equal. destruct r as [|u r]; [reflexivity|]. cbn [gap]. destruct (_ && _); [|reflexivity]. cbn [starts_all flat_map]. rewrite starts_space. reflexivity.
Qed.
Lemma start_own_title c m ts us : start_of (A c (own_title c m) ts) = start_of (A c m us).
Proof.
  unfold start_of. cbn [a_class a_attrs]. replace (own_title c m !! a_start_point) with (m !! a_start_point); [reflexivity|].
  unfold own_title, unescape_title. destruct (subclass c CSection), (subclass c CManuscript); rewrite ?lookup_insert_ne by discriminate; reflexivity.
Qed.
Lemma starts_readable t : starts_of (readable t) = starts_of t.
Proof. unfold readable. destruct (_ && _); [apply starts_retext|reflexivity]. Qed.
Definition follows (t : atree) : Prop := starts_of (norm1 t) `sublist_of` starts_of t.
Lemma norm1_follow ts : Forall follows ts -> starts_all (map norm1 ts) `sublist_of` starts_all ts.
Proof. induction 1 as [|t ts Ht _ IH]; [constructor|]. cbn [map starts_all flat_map]. apply sublist_app; assumption. Qed.
Lemma norm_starts t : starts_of (norm t) `sublist_of` starts_of t.
Proof.
  assert (Htext : forall t, text_node t = true -> follows t).
  { intros u Hu. unfold follows, norm1. rewrite Hu, starts_readable. reflexivity. }
  assert (Hstep : forall c m ts, Forall follows ts -> (subclass c CConstruct = true -> forall w, follows (keyword w)) -> starts_of (norm (A c m ts)) `sublist_of` starts_of (A c m ts)).
  { intros c m ts H Hk. rewrite norm_eq, !starts_of_A, (start_own_title c m _ ts). apply sublist_app; [reflexivity|].
    fold (starts_all (set_apart (map norm1 (local c m ts)))). rewrite starts_set_apart. etrans; [|apply starts_local].
    apply norm1_follow. apply kept_local; [|intros h; apply Htext; reflexivity|apply Htext; reflexivity|exact Hk|exact H].
    intros h u Hu _. apply Htext. rewrite text_node_retext. exact Hu. }
  assert (Hkw : forall w, follows (keyword w)).
  { intros w. apply Hstep; [|intros [=]]. constructor; [apply Htext; reflexivity|constructor]. }
  induction t as [c m ts IH] using atree_ind'. apply Hstep; [|auto]. eapply list.Forall_impl; [exact IH|]. intros u Hu.
  destruct (text_node u) eqn:E; [auto|]. unfold follows, norm1. rewrite E. exact Hu.
Qed.
Lemma sourced_starts c t : starts_of (sourced c t) = starts_of t.
Proof. destruct t as [k m ts]. unfold sourced. rewrite !starts_of_A. f_equal. unfold start_of. cbn [a_class a_attrs]. rewrite lookup_insert_ne by discriminate. reflexivity. Qed.
Lemma parsed_starts c : starts_of (sourced c (norm (mirrored c))) `sublist_of` c_starts c.
Proof. rewrite sourced_starts. etrans; [apply norm_starts|apply mirrored_starts]. Qed.
