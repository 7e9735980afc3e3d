(** Texts without markup: what the operations on strings do to them. *)
From Verif Require Export SpecInput TrPlain.
From Verif Require Import EscProofs.
Local Open Scope string_scope.
Local Open Scope list_scope.

Definition solid (s : str) : bool := existsb (fun d => negb (is_space d)) s.
Definition after_lt (r : str) : bool := match r with d :: _ => negb (opens_tag d) | [] => false end && solid r.
Lemma mild_cons c r : mild (c :: r) = (if N.eqb c LT then after_lt r else true) && mild r. Proof. reflexivity. Qed.
Lemma mild_app a b : mild a = true -> mild b = true -> mild (a ++ b) = true.
Proof.
  intros Ha Hb. induction a as [|c a IH]; [exact Hb|]. cbn [app]. rewrite mild_cons in *. apply andb_true_iff in Ha as [H1 H2].
  rewrite (IH H2), andb_true_r. destruct (N.eqb c LT); [|reflexivity]. unfold after_lt in *. apply andb_true_iff in H1 as [H3 H4].
  destruct a as [|d a]; [discriminate H3|]. cbn [app]. rewrite H3. cbn [andb]. unfold solid in *. change (d :: a ++ b) with ((d :: a) ++ b). rewrite existsb_app, H4. reflexivity.
Qed.
Lemma mild_suffix a b : mild (a ++ b) = true -> mild b = true.
Proof. induction a as [|c a IH]; [auto|]. cbn [app]. rewrite mild_cons. intros H. apply andb_true_iff in H as [_ H]. auto. Qed.
Lemma mild_prefix a w : forallb is_space w = true -> mild (a ++ w) = true -> mild a = true.
Proof.
  intros Hw. assert (Ew : solid w = false).
  { unfold solid. induction w as [|x w IHw]; [reflexivity|]. cbn [forallb existsb] in *. apply andb_true_iff in Hw as [-> Hw]. cbn. auto. }
  induction a as [|c a IH]; [reflexivity|]. cbn [app]. rewrite !mild_cons. intros H. apply andb_true_iff in H as [H1 H2]. rewrite (IH H2), andb_true_r.
  destruct (N.eqb c LT); [|reflexivity]. unfold after_lt in *. apply andb_true_iff in H1 as [H3 H4].
  assert (Es : solid a = true). { unfold solid in *. rewrite existsb_app, Ew, orb_false_r in H4. exact H4. }
  rewrite Es, andb_true_r. destruct a; [discriminate Es|exact H3].
Qed.
Lemma lstrip_split s : exists w, s = w ++ lstrip s /\ forallb is_space w = true.
Proof.
  induction s as [|c s (w & E & Hw)]; [exists []; auto|]. unfold lstrip in *. cbn [lstrip_by]. destruct (is_space c) eqn:Ec.
  - exists (c :: w). cbn [app forallb]. rewrite Ec, <- E. auto.
  - exists []. auto.
Qed.
Lemma rstrip_split s : exists w, s = rstrip s ++ w /\ forallb is_space w = true.
Proof.
  destruct (lstrip_split (rev s)) as (w & E & Hw). exists (rev w). split.
  - change (rstrip s) with (rev (lstrip (rev s))). rewrite <- rev_app_distr, <- E. symmetry. apply rev_involutive.
  - rewrite forallb_forall in *. intros x Hx. apply Hw, in_rev, Hx.
Qed.
Lemma mild_lstrip s : mild s = true -> mild (lstrip s) = true.
Proof. destruct (lstrip_split s) as (w & E & _). rewrite E at 1. apply mild_suffix. Qed.
Lemma mild_rstrip s : mild s = true -> mild (rstrip s) = true.
Proof. destruct (rstrip_split s) as (w & E & Hw). rewrite E at 1. apply mild_prefix, Hw. Qed.
Lemma mild_strip s : mild s = true -> mild (strip s) = true.
Proof. intros H. apply (mild_lstrip (rstrip s)), mild_rstrip, H. Qed.
Lemma mild_lacks s : lacks LT s = true -> mild s = true.
Proof.
  induction s as [|c s IH]; [reflexivity|]. rewrite mild_cons. cbn [lacks forallb]. intros H. apply andb_true_iff in H as [H1 H2].
  rewrite (IH H2), andb_true_r. destruct (N.eqb c LT); [discriminate H1|reflexivity].
Qed.
Lemma mild_harmless s : mild s = true -> harmless s = true.
Proof.
  induction s as [|c s IH]; [reflexivity|]. rewrite mild_cons. cbn [harmless]. intros H. apply andb_true_iff in H as [H1 H2].
  rewrite (IH H2), andb_true_r. destruct (N.eqb c LT); [|reflexivity]. unfold after_lt in H1. apply andb_true_iff in H1 as [H1 _]. exact H1.
Qed.
Lemma mild_squeeze s : mild s = true -> mild (squeeze s) = true.
Proof.
  intros H. unfold squeeze, squeeze_start, squeeze_end. assert (K : mild (if str_eqb (rstrip s) s then s else rstrip s ++ lit " ") = true).
  { destruct (str_eqb _ _); [exact H|]. apply mild_app; [apply mild_rstrip, H|reflexivity]. }
  destruct (str_eqb (lstrip _) _); [exact K|]. apply mild_app; [reflexivity|apply mild_lstrip, K].
Qed.
Lemma mild_join sep l : mild sep = true -> forallb mild l = true -> mild (join sep l) = true.
Proof.
  intros Hs. induction l as [|a l IH]; [reflexivity|]. cbn [forallb]. intros H. apply andb_true_iff in H as [H1 H2].
  cbn [join]. destruct l as [|b l]; [exact H1|]. apply mild_app; [exact H1|]. apply mild_app; [exact Hs|]. apply IH, H2.
Qed.
Lemma mild_merged f m l : mild f = true -> forallb mild m = true -> mild l = true -> mild (merged_text f m l) = true.
Proof.
  intros Hf Hm Hl. unfold merged_text. destruct m as [|a m].
  - apply mild_app; [apply mild_rstrip, Hf|]. apply mild_app; [reflexivity|]. apply mild_lstrip, Hl.
  - apply mild_app; [apply mild_rstrip, Hf|]. apply mild_app; [reflexivity|]. apply mild_app.
    + apply mild_join; [reflexivity|]. rewrite forallb_forall in *. intros x Hx. apply in_map_iff in Hx as (y & <- & Hy). apply mild_strip, Hm, Hy.
    + apply mild_app; [reflexivity|]. apply mild_lstrip, Hl.
Qed.

(** Removing backslashes. *)
Notation drops := SpecEsc.unescape.
Section Drops.
Context (l : list char) (Hl : forallb (fun c => negb (opens_tag c) && negb (is_space c) && negb (N.eqb c backslash)) l = true).
Lemma drops_in c s : In c (drops l s) -> In c s.
Proof.
  revert c. induction s as [|b s IH]; intros c; [auto|]. rewrite unescape_cons. destruct (_ && _); cbn [In]; [auto|]. intros [H|H]; auto.
Qed.
Lemma drops_solid s : solid s = true -> solid (drops l s) = true.
Proof using Hl.
  induction s as [|b s IH]; [auto|]. rewrite unescape_cons. cbn [solid existsb]. destruct (N.eqb b backslash && headis _ s) eqn:E.
  - intros _. apply IH. apply andb_true_iff in E as [_ E]. destruct s as [|d s]; [discriminate E|]. cbn in E. cbn [solid existsb].
    apply existsb_exists in E as (x & Hx & Ex). apply N.eqb_eq in Ex. subst x. rewrite forallb_forall in Hl. specialize (Hl d Hx). rewrite !andb_true_iff in Hl.
    destruct Hl as [[_ ->] _]. reflexivity.
  - intros H. cbn [solid existsb]. apply orb_true_iff in H as [->|H]; [reflexivity|]. fold (solid (drops l s)). rewrite (IH H). apply orb_true_r.
Qed.
Lemma drops_head s : match s with d :: _ => negb (opens_tag d) | [] => false end = true -> match drops l s with d :: _ => negb (opens_tag d) | [] => false end = true.
Proof using Hl.
  destruct s as [|b s]; [auto|]. intros Hb. rewrite unescape_cons. destruct (N.eqb b backslash && headis _ s) eqn:E; [|exact Hb].
  apply andb_true_iff in E as [_ E]. destruct s as [|d s]; [discriminate E|]. cbn in E. apply existsb_exists in E as (x & Hx & Ex). apply N.eqb_eq in Ex. subst x.
  rewrite forallb_forall in Hl. specialize (Hl d Hx). rewrite !andb_true_iff in Hl. destruct Hl as [[H1 _] H3]. rewrite unescape_cons.
  destruct (N.eqb d backslash); [discriminate H3|]. exact H1.
Qed.
Lemma drops_mild s : mild s = true -> mild (drops l s) = true.
Proof using Hl.
  induction s as [|b s IH]; [auto|]. rewrite unescape_cons, mild_cons. intros H. apply andb_true_iff in H as [H1 H2].
  destruct (_ && _); [auto|]. rewrite mild_cons, (IH H2), andb_true_r. destruct (N.eqb b LT); [|reflexivity]. unfold after_lt in *.
  apply andb_true_iff in H1 as [H3 H4]. rewrite (drops_solid s H4), andb_true_r. apply drops_head, H3.
Qed.
End Drops.
Lemma unescape_drops s : Parser.unescape s = drops (nodup N.eq_dec DELIMS) s.
Proof. unfold Parser.unescape. rewrite escape_exact; [reflexivity| |]; cbn [es_chars new_estr]; [vm_compute; intuition discriminate|apply NoDup_ListNoDup, List.NoDup_nodup]. Qed.
Lemma mild_unescape s : mild s = true -> mild (Parser.unescape s) = true.
Proof. rewrite unescape_drops. apply drops_mild. reflexivity. Qed.
Lemma lacks_unescape c s : lacks c s = true -> lacks c (Parser.unescape s) = true.
Proof. rewrite unescape_drops. apply lacks_incl. intros x. apply drops_in. Qed.
