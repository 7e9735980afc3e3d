(** What the normalisation does to the texts. *)
From Verif Require Import TreeFacts.
From Verif Require Export SpecText NormTree EscProofs ParseOrder.
From Verif Require Import RefText.
Local Open Scope string_scope.
Local Open Scope list_scope.

(** ** White space *)

Definition white (s : str) : Prop := Forall (fun c => is_space c = true) s.
Lemma lstrip_split s : exists w, s = w ++ lstrip s /\ white w.
Proof. destruct (lstrip_ok is_space s) as (w & E & H & _). exists w. split; assumption. Qed.
Lemma rstrip_split s : exists w, s = rstrip s ++ w /\ white w.
Proof.
  destruct (lstrip_ok is_space (rev s)) as (w & E & H & _). exists (rev w). split.
  - unfold rstrip, rstrip_by. rewrite <- rev_app_distr, <- E. symmetry. apply rev_involutive.
  - apply Forall_rev. assumption.
Qed.
(** A function on strings that works on the words one by one. *)
Definition wordwise (f : str -> str) : Prop := f [] = [] /\ forall a c b, is_space c = true -> f (a ++ c :: b) = f a ++ c :: f b.
Lemma wordwise_before f w b : wordwise f -> white w -> f (w ++ b) = w ++ f b.
Proof.
  intros [H0 H1] Hw. induction Hw as [|c w Hc _ IH]; [reflexivity|]. change ((c :: w) ++ b) with ([] ++ c :: (w ++ b)).
  rewrite H1, H0, IH by assumption. reflexivity.
Qed.
Lemma wordwise_white f w : wordwise f -> white w -> f w = w.
Proof. intros Hf Hw. rewrite <- (app_nil_r w) at 1. rewrite (wordwise_before f) by assumption. rewrite (proj1 Hf). apply app_nil_r. Qed.
Lemma wordwise_after f a w : wordwise f -> white w -> f (a ++ w) = f a ++ w.
Proof.
  intros Hf Hw. destruct w as [|c w]; [rewrite !app_nil_r; reflexivity|]. apply list.Forall_cons in Hw as [Hc Hw].
  rewrite (proj2 Hf) by assumption. rewrite (wordwise_white f w) by assumption. reflexivity.
Qed.
Lemma wordwise_space f a b : wordwise f -> f (a ++ lit " " ++ b) = f a ++ lit " " ++ f b.
Proof. intros Hf. apply (proj2 Hf). reflexivity. Qed.
Lemma wordwise_id : wordwise (fun s => s).
Proof. split; reflexivity. Qed.
Lemma unescape_eq s : unescape s = SpecEsc.unescape DELIMS s.
Proof.
  unfold unescape. rewrite escape_exact.
  - reflexivity.
  - vm_compute. intuition discriminate.
  - apply NoDup_ListNoDup, NoDup_nodup.
Qed.
Lemma unescape_wordwise : wordwise unescape.
Proof.
  split; [reflexivity|]. intros a c b Hc. rewrite !unescape_eq.
  assert (Hd : existsb (N.eqb c) DELIMS = false).
  { destruct (existsb _ _) eqn:E; [|reflexivity]. apply existsb_exists in E as (x & Hx & E). apply N.eqb_eq in E as ->.
    assert (Hall : forallb (fun c => negb (is_space c)) DELIMS = true) by reflexivity. rewrite forallb_forall in Hall.
    specialize (Hall x Hx). rewrite Hc in Hall. discriminate. }
  assert (Hb : N.eqb c backslash = false).
  { destruct (N.eqb c backslash) eqn:E; [|reflexivity]. apply N.eqb_eq in E as ->. discriminate Hc. }
  induction a as [|x a IH].
  - cbn [app]. destruct b as [|y b]; [reflexivity|]. cbn [SpecEsc.unescape]. rewrite Hb. reflexivity.
  - cbn [app]. destruct a as [|y a].
    + cbn [app] in *. cbn [SpecEsc.unescape]. cbn [SpecEsc.unescape] in IH. rewrite IH, Hd, andb_false_r. reflexivity.
    + cbn [app] in *. cbn [SpecEsc.unescape]. cbn [SpecEsc.unescape] in IH. rewrite IH. destruct (_ && _); reflexivity.
Qed.

(** ** Lines up to gaps *)

Definition same (l l' : list piece) : Prop := forall r, fold_right squash r l = fold_right squash r l'.
Lemma same_refl l : same l l. Proof. intros r. reflexivity. Qed.
Lemma same_sym l l' : same l l' -> same l' l. Proof. intros H r. symmetry. apply H. Qed.
Lemma same_trans l1 l2 l3 : same l1 l2 -> same l2 l3 -> same l1 l3. Proof. intros H1 H2 r. rewrite H1. apply H2. Qed.
Lemma same_app l1 l2 r1 r2 : same l1 l2 -> same r1 r2 -> same (l1 ++ r1) (l2 ++ r2).
Proof. intros H1 H2 r. rewrite !fold_right_app, H2. apply H1. Qed.
Lemma same_cons x r1 r2 : same r1 r2 -> same (x :: r1) (x :: r2).
Proof. intros H r. cbn [fold_right]. rewrite H. reflexivity. Qed.
Lemma same_gap l : same (Gap :: Gap :: l) (Gap :: l).
Proof. intros r. cbn [fold_right]. destruct (fold_right squash r l) as [|[]]; reflexivity. Qed.
Lemma tidy_same l l' : same l l' -> tidy l = tidy l'.
Proof. intros H. unfold tidy. rewrite H. reflexivity. Qed.
Lemma chars_app a b : chars (a ++ b) = chars a ++ chars b. Proof. apply map_app. Qed.
Lemma chars_white w : white w -> same (Gap :: chars w) [Gap].
Proof.
  induction 1 as [|c w Hc _ IH]; [apply same_refl|]. cbn [chars map]. rewrite Hc. eapply same_trans; [apply same_gap|exact IH].
Qed.
Lemma chars_white_before w l : white w -> same (chars w ++ Gap :: l) (Gap :: l).
Proof.
  induction 1 as [|c w Hc _ IH]; [apply same_refl|]. cbn [chars map app]. rewrite Hc. eapply same_trans; [apply same_cons, IH|apply same_gap].
Qed.
Lemma chars_white_some w : white w -> w <> [] -> same (chars w) [Gap].
Proof.
  intros Hw Hn. destruct w as [|c w]; [destruct (Hn eq_refl)|]. apply list.Forall_cons in Hw as [Hc Hw]. cbn [chars map]. rewrite Hc.
  apply chars_white, Hw.
Qed.

Section Wordwise.
Variable f : str -> str.
Hypothesis Hf : wordwise f.
Lemma same_lstrip s l : same (Gap :: chars (f (lstrip s)) ++ l) (Gap :: chars (f s) ++ l).
Proof.
  destruct (lstrip_split s) as (w & E & Hw). rewrite E at 2. rewrite (wordwise_before f), chars_app by assumption.
  change (Gap :: chars (f (lstrip s)) ++ l) with ([Gap] ++ chars (f (lstrip s)) ++ l).
  replace (Gap :: (chars w ++ chars (f (lstrip s))) ++ l) with ((Gap :: chars w) ++ chars (f (lstrip s)) ++ l) by (rewrite <- app_assoc; reflexivity).
  apply same_app; [|apply same_refl]. apply same_sym, chars_white, Hw.
Qed.
Lemma same_rstrip s l : same (chars (f (rstrip s)) ++ Gap :: l) (chars (f s) ++ Gap :: l).
Proof.
  destruct (rstrip_split s) as (w & E & Hw). rewrite E at 2. rewrite (wordwise_after f), chars_app, <- app_assoc by assumption.
  apply same_app; [apply same_refl|]. apply same_sym, chars_white_before, Hw.
Qed.
Lemma same_strip s l : same (Gap :: chars (f (strip s)) ++ Gap :: l) (Gap :: chars (f s) ++ Gap :: l).
Proof.
  change (strip s) with (lstrip (rstrip s)). eapply same_trans; [apply same_lstrip|]. apply same_cons. apply same_rstrip.
Qed.
Lemma same_squeeze s : same (chars (f (squeeze s))) (chars (f s)).
Proof.
  unfold squeeze. assert (H1 : forall s, same (chars (f (squeeze_end s))) (chars (f s))).
  { intros s0. unfold squeeze_end. destruct (str_eqb (rstrip s0) s0) eqn:E; [apply same_refl|]. destruct (rstrip_split s0) as (w & Ew & Hw).
    rewrite Ew at 2. rewrite !(wordwise_after f) by (assumption || (repeat constructor)). rewrite !chars_app. apply same_app; [apply same_refl|].
    apply same_sym, chars_white_some; [assumption|]. intros ->. rewrite app_nil_r in Ew. rewrite <- Ew, str_eqb_refl in E. discriminate. }
  eapply same_trans; [|apply H1]. generalize (squeeze_end s) as s0. intros s0. unfold squeeze_start.
  destruct (str_eqb (lstrip s0) s0) eqn:E; [apply same_refl|]. destruct (lstrip_split s0) as (w & Ew & Hw).
  rewrite Ew at 2. rewrite !(wordwise_before f) by (assumption || (repeat constructor)). rewrite !chars_app. apply same_app; [|apply same_refl].
  apply same_sym, chars_white_some; [assumption|]. intros ->. cbn [app] in Ew. rewrite <- Ew, str_eqb_refl in E. discriminate.
Qed.
Fixpoint spread (ms : list str) : list piece := match ms with [] => [] | m :: r => chars (f m) ++ Gap :: spread r end.
Lemma same_merged a ms l : same (chars (f (merged_text a ms l))) (chars (f a) ++ Gap :: spread ms ++ chars (f l)).
Proof.
  assert (Hj : forall m ms l, same (Gap :: chars (f (join (lit " ") (map strip (m :: ms)) ++ lit " " ++ lstrip l))) (Gap :: spread (m :: ms) ++ chars (f l))).
  { clear a ms l. intros m ms l. revert m. induction ms as [|m' ms IH]; intros m.
    - cbn [map join spread app]. rewrite (wordwise_space f), !chars_app by assumption. change (chars (lit " ")) with [Gap]. cbn [app].
      eapply same_trans; [apply same_strip|]. rewrite <- app_assoc. apply same_cons. apply same_app; [apply same_refl|]. cbn [app].
      rewrite <- (app_nil_r (chars (f (lstrip l)))), <- (app_nil_r (chars (f l))). apply same_lstrip.
    - specialize (IH m'). change (join (lit " ") (map strip (m :: m' :: ms))) with (strip m ++ lit " " ++ join (lit " ") (map strip (m' :: ms))).
      rewrite <- !app_assoc. rewrite (wordwise_space f), !chars_app by assumption. change (chars (lit " ")) with [Gap]. cbn [app].
      eapply same_trans; [apply same_strip|]. cbn [spread]. rewrite <- app_assoc. apply same_cons. apply same_app; [apply same_refl|]. cbn [app].
      exact IH. }
  unfold merged_text. destruct ms as [|m ms].
  - rewrite (wordwise_space f), !chars_app by assumption. change (chars (lit " ")) with [Gap]. cbn [app spread]. eapply same_trans; [apply same_rstrip|].
    apply same_app; [apply same_refl|]. rewrite <- (app_nil_r (chars (f (lstrip l)))), <- (app_nil_r (chars (f l))). apply same_lstrip.
  - rewrite (wordwise_space f), !chars_app by assumption. change (chars (lit " ")) with [Gap]. cbn [app]. eapply same_trans; [apply same_rstrip|].
    apply same_app; [apply same_refl|]. apply Hj.
Qed.
End Wordwise.
