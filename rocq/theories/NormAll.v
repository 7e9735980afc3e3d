(** Every node of the normalised manuscript. *)
From Verif Require Import TreeFacts.
From Verif Require Export NormEnd ParseWhole.
From Verif Require RefText.
Local Open Scope string_scope.
Local Open Scope list_scope.

(** ** Squeezing *)

Lemma lstrip_white w s : white w -> lstrip (w ++ s) = lstrip s.
Proof. induction 1 as [|c w Hc _ IH]; [reflexivity|]. cbn. rewrite Hc. exact IH. Qed.
Lemma lstrip_solid s : no_space_at_start s -> lstrip s = s.
Proof. destruct s as [|c s]; [intros []|]. cbn. intros ->. reflexivity. Qed.
Lemma lstrip_solid_app s r : no_space_at_start s -> lstrip (s ++ r) = s ++ r.
Proof. intros H. apply lstrip_solid. destruct s; [destruct H|exact H]. Qed.
Lemma rstrip_white s w : white w -> rstrip (s ++ w) = rstrip s.
Proof. intros H. unfold rstrip, rstrip_by. rewrite rev_app_distr. fold (lstrip (rev w ++ rev s)). rewrite lstrip_white; [reflexivity|]. apply Forall_rev, H. Qed.
Lemma rstrip_solid s : no_space_at_start (rev s) -> rstrip s = s.
Proof. intros H. unfold rstrip, rstrip_by. fold (lstrip (rev s)). rewrite lstrip_solid by assumption. apply rev_involutive. Qed.
Lemma str_eqb_app_r s w : str_eqb s (s ++ w) = match w with [] => true | _ => false end.
Proof.
  destruct w as [|c w]; [rewrite app_nil_r; apply str_eqb_refl|]. destruct (str_eqb s (s ++ c :: w)) eqn:E; [|reflexivity].
  apply str_eqb_eq in E. apply (f_equal (@length char)) in E. rewrite app_length in E. cbn in E. lia.
Qed.
Lemma str_eqb_app_l s w : str_eqb s (w ++ s) = match w with [] => true | _ => false end.
Proof.
  destruct w as [|c w]; [apply str_eqb_refl|]. destruct (str_eqb s ((c :: w) ++ s)) eqn:E; [|reflexivity].
  apply str_eqb_eq in E. apply (f_equal (@length char)) in E. rewrite app_length in E. cbn in E. lia.
Qed.
Lemma squeeze_exact w1 s w2 : white w1 -> white w2 -> no_space_at_start s -> no_space_at_start (rev s) ->
  squeeze (w1 ++ s ++ w2) = one_space w1 ++ s ++ one_space w2.
Proof.
  intros H1 H2 Hs Hr. assert (E : squeeze_end (w1 ++ s ++ w2) = w1 ++ s ++ one_space w2).
  { unfold squeeze_end. assert (Er : rstrip (w1 ++ s ++ w2) = w1 ++ s).
    { rewrite app_assoc, rstrip_white by assumption. apply rstrip_solid. rewrite rev_app_distr. destruct (rev s); [destruct Hr|exact Hr]. }
    rewrite Er, app_assoc, str_eqb_app_r. destruct w2 as [|c w2]; [rewrite <- app_assoc; reflexivity|]. rewrite <- app_assoc. reflexivity. }
  unfold squeeze. rewrite E. unfold squeeze_start. rewrite lstrip_white, lstrip_solid_app by assumption. rewrite str_eqb_app_l.
  destruct w1; reflexivity.
Qed.
Lemma squeeze_blank w : white w -> squeeze w = one_space w.
Proof.
  intros H. destruct w as [|c w]; [reflexivity|]. unfold squeeze, squeeze_end.
  assert (E : rstrip (c :: w) = []). { change (c :: w) with ([] ++ (c :: w)). rewrite rstrip_white by assumption. reflexivity. }
  rewrite E. reflexivity.
Qed.
(** Every string is white, or has a first and a last character that are not. *)
Lemma string_parts s : white s \/ exists w1 x w2, s = w1 ++ x ++ w2 /\ white w1 /\ white w2 /\ no_space_at_start x /\ no_space_at_start (rev x).
Proof.
  destruct (RefText.lstrip_ok is_space s) as (w1 & E1 & H1 & F1). destruct (RefText.lstrip_ok is_space (rev (lstrip_by is_space s))) as (w2 & E2 & H2 & F2).
  set (y := lstrip_by is_space (rev (lstrip_by is_space s))) in *.
  assert (Es : lstrip_by is_space s = rev y ++ rev w2). { rewrite <- (rev_involutive (lstrip_by is_space s)), E2, rev_app_distr. reflexivity. }
  destruct y as [|d y].
  - left. rewrite E1. apply list.Forall_app. split; [assumption|]. rewrite Es. apply Forall_rev. assumption.
  - right. exists w1, (rev (d :: y)), (rev w2). split; [rewrite E1 at 1; rewrite Es; reflexivity|]. split; [assumption|].
    split; [apply Forall_rev; assumption|]. split; [|rewrite rev_involutive; exact (F2 d y eq_refl)].
    destruct (rev (d :: y)) as [|e z] eqn:Ez; [apply (f_equal (@length char)) in Ez; rewrite rev_length in Ez; discriminate Ez|].
    exact (F1 e (z ++ rev w2) Es).
Qed.
Lemma one_space_tight w : starts_tight (one_space w). Proof. destruct w; cbn; auto. Qed.
Lemma tight_parts w1 s w2 : no_space_at_start s -> no_space_at_start (rev s) -> tight (one_space w1 ++ s ++ one_space w2).
Proof.
  assert (Hh : forall w (s r : str), no_space_at_start s -> starts_tight (one_space w ++ s ++ r)).
  { intros w x r Hx. destruct x as [|c x]; [destruct Hx|]. destruct w; cbn in *; [|auto]. rewrite Hx. intros [=]. }
  intros H1 H2. split; [apply Hh, H1|]. rewrite !rev_app_distr, <- app_assoc.
  replace (rev (one_space w2)) with (one_space w2) by (destruct w2; reflexivity). apply Hh, H2.
Qed.
Lemma squeeze_tight s : tight (squeeze s).
Proof.
  destruct (string_parts s) as [H|(w1 & x & w2 & -> & H1 & H2 & H3 & H4)].
  - rewrite squeeze_blank by assumption. destruct s; split; cbn; auto.
  - rewrite squeeze_exact by assumption. apply tight_parts; assumption.
Qed.
Lemma white_one w : white (one_space w). Proof. destruct w; repeat constructor. Qed.
Lemma squeeze_idem s : squeeze (squeeze s) = squeeze s.
Proof.
  destruct (string_parts s) as [H|(w1 & x & w2 & -> & H1 & H2 & H3 & H4)].
  - rewrite (squeeze_blank s) by assumption. rewrite squeeze_blank by apply white_one. destruct s; reflexivity.
  - rewrite (squeeze_exact w1 x w2) by assumption. rewrite squeeze_exact by (assumption || apply white_one).
    destruct w1, w2; reflexivity.
Qed.
(** Removing backslashes leaves the ends as they are. *)
Lemma unescape_start s : no_space_at_start s -> no_space_at_start (unescape s).
Proof.
  rewrite unescape_eq. destruct s as [|c s]; [intros []|]. revert c. induction s as [|d s IH]; intros c Hc; [exact Hc|].
  cbn [SpecEsc.unescape]. destruct (_ && _) eqn:E; [|exact Hc]. apply IH. apply andb_true_iff in E as [_ E].
  apply existsb_exists in E as (x & Hx & E). apply N.eqb_eq in E as ->.
  assert (Hall : forallb (fun c => negb (is_space c)) DELIMS = true) by reflexivity. rewrite forallb_forall in Hall.
  specialize (Hall x Hx). cbn. destruct (is_space x); [discriminate Hall|reflexivity].
Qed.
Lemma unescape_end s : no_space_at_start (rev s) -> no_space_at_start (rev (unescape s)).
Proof.
  rewrite unescape_eq. intros H. assert (E : forall c s, exists l, SpecEsc.unescape DELIMS (s ++ [c]) = l ++ [c]).
  { clear s H. intros c s. induction s as [|d s IH]; [exists []; reflexivity|]. cbn [app]. destruct IH as (l & IH). destruct (s ++ [c]) as [|e r] eqn:Es.
    - destruct s; discriminate Es.
    - cbn [SpecEsc.unescape]. destruct (_ && _); [exists l; exact IH|]. exists (d :: l). cbn [app]. rewrite <- IH. reflexivity. }
  destruct (list_eq_nil_dec s) as [->|Hn]; [destruct H|]. destruct (exists_last Hn) as (r & c & ->). destruct (E c r) as (l & ->).
  rewrite rev_app_distr in *. exact H.
Qed.
Lemma unescape_squeeze_tight s : tight (unescape (squeeze s)).
Proof.
  destruct (string_parts s) as [H|(w1 & x & w2 & -> & H1 & H2 & H3 & H4)].
  - rewrite squeeze_blank, (wordwise_white unescape) by (assumption || apply white_one || apply unescape_wordwise). destruct s; split; cbn; auto.
  - rewrite squeeze_exact by assumption. rewrite (wordwise_before unescape), (wordwise_after unescape) by (apply white_one || apply unescape_wordwise).
    apply tight_parts; [apply unescape_start, H3|apply unescape_end, H4].
Qed.

(** ** Every node *)

Lemma leafy_kids c m ts : leafy (A c m ts) -> Forall leafy ts.
Proof. intros [_ H]. induction ts as [|t ts IH]; [constructor|]. destruct H as [H1 H2]. constructor; auto. Qed.
Lemma leafy_intro c m ts : (subclass c CText = true -> ts = []) -> Forall leafy ts -> leafy (A c m ts).
Proof. intros H Hs. split; [assumption|]. induction Hs as [|t ts Ht _ IH]; [exact I|]. split; [assumption|]. apply IH. intros E. specialize (H E). discriminate H. Qed.
Lemma holds_leafy h t : forall p a, holds h p t a -> leafy a.
Proof.
  induction t as [i us IH] using tree_ind'. intros p a H. inversion H as [? ? n ? ts Hn Hp Hk Hts]; subst. apply leafy_intro.
  - intros Ht. destruct (text_not_titled _ Ht) as (_ & _ & _ & E). unfold kids in Hk. rewrite E in Hk. destruct us; [|discriminate Hk].
    inversion Hts. reflexivity.
  - clear Hn Hk H. induction Hts as [|u b us ts Hu Hts IHl]; [constructor|]. apply list.Forall_cons in IH as [IHu IH]. constructor; eauto.
Qed.
Lemma leafy_norm1 t : leafy t -> text_node t = true -> exists c m, norm1 t = A c m [].
Proof.
  destruct t as [c m ts]. intros [H _] Ht. assert (ts = []) as -> by exact (H Ht). unfold norm1. rewrite Ht. unfold readable. destruct (_ && _); unfold retext; eauto.
Qed.
Lemma preorder_kids x t : In x (a_preorder t) -> x = t \/ exists u, In u (a_kids t) /\ In x (a_preorder u).
Proof. destruct t as [c m ts]. intros [<-|H]; [left; reflexivity|right]. apply in_flat_map in H as (u & H1 & H2). eauto. Qed.
Lemma set_apart_in x ts : In x (set_apart ts) -> x = space \/ In x ts.
Proof.
  induction ts as [|t r IH]; [intros []|]. rewrite set_apart_cons. intros [<-|H]; [right; left; reflexivity|]. apply in_app_iff in H as [H|H].
  - left. destruct r as [|u r]; [destruct H|]. cbn [gap] in H. destruct (_ && _); [|destruct H]. destruct H as [<-|[]]. reflexivity.
  - destruct (IH H) as [->|H']; [left; reflexivity|right; right; assumption].
Qed.
(** The children after the local steps: from the children, or new. *)
Definition from (c : cls) (ts : list atree) (t : atree) : Prop :=
  (text_node t = true /\ leafy t) \/ (text_node t = false /\ (In t ts \/ subclass c CConstruct = true /\ exists w, t = keyword w)).
Lemma local_from c m ts : Forall leafy ts -> Forall (from c ts) (local c m ts).
Proof.
  intros H. apply kept_local.
  - intros h t Et [[_ Ht]|[Et' _]]; [|congruence]. left. rewrite text_node_retext. split; [assumption|]. destruct t as [k n us]. destruct Ht as [H1 H2].
    split; [exact H1|exact H2].
  - intros h. left. split; [reflexivity|]. split; [reflexivity|exact I].
  - left. split; [reflexivity|]. split; [reflexivity|exact I].
  - intros Hc w. right. split; [reflexivity|]. eauto.
  - apply List.Forall_forall. intros t Ht. destruct (text_node t) eqn:E; [left|right; auto]. split; [assumption|].
    rewrite List.Forall_forall in H. auto.
Qed.
Definition squeezed_text (t : atree) : Prop := text_node t = true -> exists u, t = retext squeeze u.
Lemma local_squeezed c m ts : Forall squeezed_text (local c m ts).
Proof.
  unfold local. set (l := prefixed _ _ _). apply List.Forall_forall. intros t Ht. apply in_map_iff in Ht as (u & <- & _). unfold if_text.
  destruct (text_node u) eqn:E; [intros _; eauto|]. intros H. congruence.
Qed.
Lemma squeezed_norm1 t : squeezed_text t -> text_node t = true -> tight (text_of (norm1 t)).
Proof.
  intros H Ht. destruct (H Ht) as (u & ->). unfold norm1. rewrite Ht. unfold readable. destruct (_ && _).
  - rewrite !text_retext. apply unescape_squeeze_tight.
  - rewrite text_retext. apply squeeze_tight.
Qed.
Lemma keyword_leafy w : leafy (keyword w).
Proof. split; [intros [=]|]. split; [|exact I]. split; [reflexivity|exact I]. Qed.
Lemma text_of_space : text_of space = lit " ". Proof. reflexivity. Qed.
Lemma space_tight : tight (lit " "). Proof. vm_compute. auto. Qed.
Lemma norm_everywhere t : text_node t = false -> leafy t -> forall x, In x (a_preorder (norm t)) ->
  texts_apart (a_kids x) /\ (text_node x = true -> tight (text_of x)).
Proof.
  assert (Hstep : forall c m ts, subclass c CText = false -> leafy (A c m ts) ->
    (forall u, text_node u = false -> (In u ts \/ subclass c CConstruct = true /\ exists w, u = keyword w) -> forall x, In x (a_preorder (norm u)) -> texts_apart (a_kids x) /\ (text_node x = true -> tight (text_of x))) ->
    forall x, In x (a_preorder (norm (A c m ts))) -> texts_apart (a_kids x) /\ (text_node x = true -> tight (text_of x))).
  { intros c m ts Hc Hl IH x Hx. apply preorder_kids in Hx as [->|(u & Hu & Hx)].
    - split; [apply norm_apart|]. unfold text_node. rewrite class_norm. cbn [a_class]. rewrite Hc. intros [=].
    - rewrite norm_eq in Hu. cbn [a_kids] in Hu. apply set_apart_in in Hu as [->|Hu].
      + assert (x = space) as -> by (destruct Hx as [<-|[]]; reflexivity). split; [exact I|]. intros _. rewrite text_of_space. exact space_tight.
      + apply in_map_iff in Hu as (v & <- & Hv). pose proof (local_from c m ts (leafy_kids _ _ _ Hl)) as Hfr. rewrite List.Forall_forall in Hfr.
        pose proof (local_squeezed c m ts) as Hsq. rewrite List.Forall_forall in Hsq. destruct (Hfr v Hv) as [[Ht Hlv]|[Ht Hin]].
        * pose proof (squeezed_norm1 v (Hsq v Hv) Ht) as Htt. destruct (leafy_norm1 v Hlv Ht) as (c' & m' & E). rewrite E in *.
          destruct Hx as [<-|[]]. split; [exact I|auto].
        * unfold norm1 in Hx. rewrite Ht in Hx. eapply IH; eassumption. }
  assert (Hkw : forall w x, In x (a_preorder (norm (keyword w))) -> texts_apart (a_kids x) /\ (text_node x = true -> tight (text_of x))).
  { intros w. apply Hstep; [reflexivity|apply keyword_leafy|]. intros u Hu [[<-|[]]|([=] & _)]. discriminate Hu. }
  induction t as [c m ts IH] using atree_ind'. intros Ht Hl. apply Hstep; [exact Ht|exact Hl|]. intros u Hu [Hin|(_ & w & ->)]; [|apply Hkw].
  rewrite List.Forall_forall in IH. apply IH; [assumption|assumption|]. apply leafy_kids in Hl. rewrite List.Forall_forall in Hl. auto.
Qed.
