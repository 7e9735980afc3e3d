(** The reference text of a node. *)
From Verif Require Export SpecResult FullNumber.
From Verif Require Import NodeOps Monad.

Lemma fmt_field_ok : forall s acc name rest, fmt_field s acc = Some (name, rest) ->
  exists q, name = rev acc ++ q /\ s = q ++ 125%N :: rest.
Proof.
  induction s as [|c s IH]; intros acc name rest H; [discriminate|]. cbn [fmt_field] in H.
  destruct (N.eqb_spec c 125) as [-> |E].
  - injection H as <- <-. exists []. rewrite app_nil_r. auto.
  - apply IH in H as (q & -> & ->). exists (c :: q). cbn [rev]. rewrite <- app_assoc. auto.
Qed.
Lemma fmt_field_eq : forall q rest acc, Forall (fun c => c <> 125%N) q -> fmt_field (q ++ 125%N :: rest) acc = Some (rev acc ++ q, rest).
Proof.
  induction q as [|c q IH]; intros rest acc H; cbn [app fmt_field].
  - rewrite N.eqb_refl, app_nil_r. reflexivity.
  - apply list.Forall_cons in H as [Hc H]. apply N.eqb_neq in Hc. rewrite Hc, IH by assumption. cbn [rev]. rewrite <- app_assoc. reflexivity.
Qed.
Lemma fmt_go_ok fuel c n : forall s out r, fmt_go fuel c n s out = FmtOk r -> exists o, fills c n s o /\ r = rev out ++ o.
Proof.
  induction fuel as [|fuel IH]; intros s out r H; [discriminate|]. cbn [fmt_go] in H.
  destruct s as [|x s]; [injection H as <-; exists []; rewrite app_nil_r; split; [constructor|reflexivity]|].
  destruct (N.eqb_spec x 123) as [-> |E1].
  - destruct s as [|y s]; [discriminate|]. destruct (N.eqb_spec y 123) as [-> |E2].
    + apply IH in H as (o & Ho & ->). exists (lit "{" ++ o). split; [apply (fl_open c n s o Ho)|]. cbn [rev]. rewrite <- app_assoc. reflexivity.
    + destruct (fmt_field (y :: s) []) as [[name rest]|] eqn:Ef; [|discriminate].
      apply fmt_field_ok in Ef as (q & Eq & Es). cbn [rev app] in Eq. subst q. rewrite Es.
      destruct (str_eqb_spec name (lit "nodeclass")) as [-> |N1].
      * apply IH in H as (o & Ho & ->). exists (c ++ o). split; [apply (fl_class c n rest o Ho)|].
        rewrite rev_app_distr, rev_involutive, <- app_assoc. reflexivity.
      * destruct (str_eqb_spec name (lit "number")) as [-> |N2].
        -- apply IH in H as (o & Ho & ->). exists (n ++ o). split; [apply (fl_number c n rest o Ho)|].
           rewrite rev_app_distr, rev_involutive, <- app_assoc. reflexivity.
        -- destruct name; [discriminate|]. destruct (forallb is_digit _); [discriminate|]. destruct (existsb _ _); discriminate.
  - destruct (N.eqb_spec x 125) as [-> |E2].
    + destruct s as [|y s]; [discriminate|]. destruct (N.eqb_spec y 125) as [-> |E3]; [|discriminate].
      apply IH in H as (o & Ho & ->). exists (lit "}" ++ o). split; [apply (fl_close c n s o Ho)|]. cbn [rev]. rewrite <- app_assoc. reflexivity.
    + apply IH in H as (o & Ho & ->). exists (x :: o). split; [constructor; assumption|]. cbn [rev]. rewrite <- app_assoc. reflexivity.
Qed.
Lemma fmt_go_eq c n s o : fills c n s o -> forall fuel out, length s < fuel -> fmt_go fuel c n s out = FmtOk (rev out ++ o).
Proof.
  induction 1 as [|x t o H1 H2 H IH|t o H IH|t o H IH|t o H IH|t o H IH]; intros [|fuel] out Hf; try lia.
  - cbn [fmt_go]. rewrite app_nil_r. reflexivity.
  - cbn [fmt_go]. apply N.eqb_neq in H1, H2. rewrite H1, H2, IH by (cbn [length] in Hf; lia). cbn [rev]. rewrite <- app_assoc. reflexivity.
  - change (fmt_go (S fuel) c n (lit "{{" ++ t) out) with (fmt_go fuel c n t (123%N :: out)). rewrite IH by (change (S (S (length t)) < S fuel) in Hf; lia).
    cbn [rev]. rewrite <- app_assoc. reflexivity.
  - change (fmt_go (S fuel) c n (lit "}}" ++ t) out) with (fmt_go fuel c n t (125%N :: out)). rewrite IH by (change (S (S (length t)) < S fuel) in Hf; lia).
    cbn [rev]. rewrite <- app_assoc. reflexivity.
  - change (11 + length t < S fuel) in Hf.
    assert (E : fmt_go (S fuel) c n (lit "{nodeclass}" ++ t) out = fmt_go fuel c n t (rev c ++ out)).
    { change (lit "{nodeclass}" ++ t) with (123%N :: (lit "nodeclass" ++ 125%N :: t)). cbn [fmt_go]. rewrite N.eqb_refl.
      rewrite (fmt_field_eq (lit "nodeclass") t []) by (repeat constructor; discriminate). reflexivity. }
    rewrite E, IH by lia. rewrite rev_app_distr, rev_involutive, <- app_assoc. reflexivity.
  - change (8 + length t < S fuel) in Hf.
    assert (E : fmt_go (S fuel) c n (lit "{number}" ++ t) out = fmt_go fuel c n t (rev n ++ out)).
    { change (lit "{number}" ++ t) with (123%N :: (lit "number" ++ 125%N :: t)). cbn [fmt_go]. rewrite N.eqb_refl.
      rewrite (fmt_field_eq (lit "number") t []) by (repeat constructor; discriminate). reflexivity. }
    rewrite E, IH by lia. rewrite rev_app_distr, rev_involutive, <- app_assoc. reflexivity.
Qed.
Theorem py_format_iff tmpl c n o : py_format tmpl c n = FmtOk o <-> fills c n tmpl o.
Proof.
  unfold py_format. split.
  - intros H. apply fmt_go_ok in H as (o' & H & ->). exact H.
  - intros H. rewrite (fmt_go_eq _ _ _ _ H) by lia. reflexivity.
Qed.

(** *** White space *)
Lemma Forall_rev' {A} (P : A -> Prop) l : Forall P l -> Forall P (rev l).
Proof. rewrite !list.Forall_forall. intros H x Hx. apply H. apply elem_of_list_In, in_rev, elem_of_list_In. assumption. Qed.
Lemma rev_inj' {A} (l l' : list A) : rev l = rev l' -> l = l'.
Proof. intros H. rewrite <- (rev_involutive l), H. apply rev_involutive. Qed.
Lemma lstrip_ok p s : exists a, s = a ++ lstrip_by p s /\ Forall (fun x => p x = true) a /\ forall x y, lstrip_by p s = x :: y -> p x = false.
Proof.
  induction s as [|c s (a & E & Ha & Hh)]; [exists []; cbn [lstrip_by app]; split; [reflexivity|]; split; [constructor|discriminate]|]. cbn [lstrip_by]. destruct (p c) eqn:Ep.
  - exists (c :: a). split; [cbn [app]; rewrite <- E; reflexivity|]. split; [constructor; assumption|assumption].
  - exists []. split; [reflexivity|]. split; [constructor|]. intros x y [= <- _]. assumption.
Qed.
Lemma strip_ok s : trimmed s (strip s).
Proof.
  unfold strip, strip_by. destruct (lstrip_ok is_space (rev s)) as (b & Eb & Hb & Hlast).
  destruct (lstrip_ok is_space (rstrip_by is_space s)) as (a & Ea & Ha & Hfirst).
  assert (Es : s = rstrip_by is_space s ++ rev b).
  { unfold rstrip_by. rewrite <- rev_app_distr, <- Eb, rev_involutive. reflexivity. }
  exists a, (rev b). split; [rewrite Es at 1; rewrite Ea at 1; rewrite <- app_assoc; reflexivity|].
  split; [assumption|]. split; [apply Forall_rev'; assumption|]. split; [assumption|].
  intros x y E. rewrite E in Ea. unfold rstrip_by in Ea. apply (f_equal (@rev _)) in Ea. rewrite rev_involutive, !rev_app_distr in Ea. cbn [rev app] in Ea.
  eapply Hlast. exact Ea.
Qed.
Lemma trimmed_fun o r r' : trimmed o r -> trimmed o r' -> r = r'.
Proof.
  assert (L : forall a a' u u', a ++ u = a' ++ u' -> Forall (fun x => is_space x = true) a -> Forall (fun x => is_space x = true) a' ->
    (forall x y, u = x :: y -> is_space x = false) -> (forall x y, u' = x :: y -> is_space x = false) -> u = u').
  { induction a as [|x a IH]; intros [|x' a'] u u' E Ha Ha' Hu Hu'; cbn [app] in E.
    - exact E.
    - subst u. apply list.Forall_cons in Ha' as [Hx _]. rewrite (Hu _ _ eq_refl) in Hx. discriminate.
    - subst u'. apply list.Forall_cons in Ha as [Hx _]. rewrite (Hu' _ _ eq_refl) in Hx. discriminate.
    - injection E as _ E. apply list.Forall_cons in Ha as [_ Ha]. apply list.Forall_cons in Ha' as [_ Ha']. eapply IH; eassumption. }
  intros (a & b & E & Ha & Hb & Hf & Hl) (a' & b' & E' & Ha' & Hb' & Hf' & Hl').
  (* all white space or not *)
  destruct r as [|x r].
  - destruct r' as [|x' r']; [reflexivity|]. exfalso. specialize (Hf' _ _ eq_refl).
    assert (In x' (a ++ b)) as Hin by (change (a ++ b) with (a ++ [] ++ b); rewrite <- E, E'; apply in_or_app; right; left; reflexivity).
    apply in_app_or in Hin as [Hin|Hin]; [rewrite list.Forall_forall in Ha; rewrite Ha in Hf' by (apply elem_of_list_In; exact Hin)|
      rewrite list.Forall_forall in Hb; rewrite Hb in Hf' by (apply elem_of_list_In; exact Hin)]; discriminate.
  - destruct r' as [|x' r'].
    + exfalso. specialize (Hf _ _ eq_refl).
      assert (In x (a' ++ b')) as Hin by (change (a' ++ b') with (a' ++ [] ++ b'); rewrite <- E', E; apply in_or_app; right; left; reflexivity).
      apply in_app_or in Hin as [Hin|Hin]; [rewrite list.Forall_forall in Ha'; rewrite Ha' in Hf by (apply elem_of_list_In; exact Hin)|
        rewrite list.Forall_forall in Hb'; rewrite Hb' in Hf by (apply elem_of_list_In; exact Hin)]; discriminate.
    + assert (E1 : (x :: r) ++ b = (x' :: r') ++ b').
      { apply (L a a'); [congruence|assumption|assumption|intros ? ? [= <- _]; eapply Hf; reflexivity|intros ? ? [= <- _]; eapply Hf'; reflexivity]. }
      apply (f_equal (@rev _)) in E1. rewrite !rev_app_distr in E1. apply rev_inj'.
      apply (L (rev b) (rev b')); [exact E1|apply Forall_rev'; assumption|apply Forall_rev'; assumption| |].
      * intros z y Ez. apply (Hl z (rev y)). rewrite <- (rev_involutive (x :: r)), Ez. reflexivity.
      * intros z y Ez. apply (Hl' z (rev y)). rewrite <- (rev_involutive (x' :: r')), Ez. reflexivity.
Qed.

(** *** [reftext] *)
Theorem reftext_ok fuel x s s' r : consistent (st_heap s) -> reftext fuel x s = (s', Ok r) ->
  exists n tmpl num o, st_heap s !! x = Some n /\ value (st_heap s) x a_reftext_template = Some (VStr tmpl) /\
    fills (cls_name (n_cls n)) num tmpl o /\ trimmed o r /\
    (forall l, numbers_to (st_heap s) x l -> num = join (lit ".") l) /\
    (~ class_of (st_heap s) x CManuscript -> unnumbered (st_heap s) x -> num = lit "None").
Proof.
  intros Hc H. unfold reftext in H. apply bind_ok in H as (s0 & tmpl & Ht & H). apply get_str_ok in Ht as (-> & n & Hn & Ht).
  apply bind_ok in H as (s0 & c & Hcl & H). apply cls_of_ok in Hcl as (-> & n' & Hn' & ->). assert (n' = n) as -> by congruence.
  apply bind_ok in H as (s1 & fn & Hfn & H).
  destruct (py_format tmpl (cls_name (n_cls n)) (match fn with Some y => y | None => lit "None" end)) as [o| | | |] eqn:Ef; try discriminate.
  apply ret_ok in H as [-> ->]. apply py_format_iff in Ef.
  exists n, tmpl, (match fn with Some y => y | None => lit "None" end), o. split; [assumption|].
  split; [unfold value; rewrite Hn; assumption|]. split; [assumption|]. split; [apply strip_ok|]. split.
  - intros l Hl. rewrite (full_number_path _ _ _ _ _ _ Hc Hfn Hl). reflexivity.
  - intros Hnm Hu. rewrite (full_number_nonum _ _ _ _ _ Hc Hfn Hnm Hu). reflexivity.
Qed.
Theorem reftext_total fuel x s n tmpl l o r : consistent (st_heap s) -> numberable (st_heap s) ->
  st_heap s !! x = Some n -> value (st_heap s) x a_reftext_template = Some (VStr tmpl) -> numbers_to (st_heap s) x l ->
  fills (cls_name (n_cls n)) (join (lit ".") l) tmpl o -> trimmed o r -> 2 * size (st_heap s) < fuel ->
  exists s', reftext fuel x s = (s', Ok r).
Proof.
  intros Hc Hnum Hn Ht Hl Ho Hr Hf. destruct (full_number_total fuel x s Hc Hnum) as (s' & fn & Hfn); [eauto|assumption|].
  exists s'. pose proof (full_number_path _ _ _ _ _ _ Hc Hfn Hl) as E. subst fn. unfold value in Ht. rewrite Hn in Ht.
  unfold reftext, get_str, cls_of, bind, ret. rewrite (getattr_eq _ _ _ _ _ Hn Ht), (get_node_eq _ _ _ Hn), Hfn.
  apply py_format_iff in Ho. rewrite Ho. rewrite (trimmed_fun _ _ _ Hr (strip_ok o)). reflexivity.
Qed.
