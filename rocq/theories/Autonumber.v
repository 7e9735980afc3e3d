(** Automatic numbers. *)
From Verif Require Export TreeFacts Labels.
From Verif Require Import Queries Built Meta ResolveAll Subproofs NodeOps Monad.

(** *** Counters *)
Lemma cls_list_eqb_spec a b : reflect (a = b) (cls_list_eqb a b).
Proof.
  revert b. induction a as [|x a IH]; intros [|y b]; simpl; try (constructor; congruence).
  destruct (cls_eqb_spec x y); simpl; [|constructor; congruence].
  destruct (IH b); constructor; congruence.
Qed.
Lemma counters_get_set cs k c k' : counters_get (counters_set cs k c) k' = if cls_list_eqb k k' then c else counters_get cs k'.
Proof. unfold counters_get, counters_set. simpl. destruct (cls_list_eqb k k'); reflexivity. Qed.
Lemma taken_next c k k' : taken_of (counter_next c k) k' = if cls_eqb k k' then S (taken_of c k') else taken_of c k'.
Proof.
  unfold taken_of at 1. unfold counter_next. simpl. destruct (cls_eqb_spec k k'); [subst|]; reflexivity.
Qed.

(** *** The count so far, as a function of the nodes already visited *)
Definition opensb (h : gmap id node) (w : list cls) (y : id) : bool :=
  (cls_list_eqb w [CManuscript] && is_appendix h y) ||
  (is_numbered h y && match h !! y with Some n => cls_list_eqb w [n_cls n] | None => false end).
Definition consumesb (h : gmap id node) (w : list cls) (a : cls) (y : id) : bool :=
  is_numbered h y && cls_list_eqb (scope_of h y) w && cls_eqb (sequence_of h y) a.
Lemma opensb_spec h w y : opensb h w y = true <-> opens h w y.
Proof.
  unfold opensb, opens. rewrite orb_true_iff, !andb_true_iff.
  destruct (cls_list_eqb_spec w [CManuscript]) as [Ew|Ew].
  - split.
    + intros [[_ H]|[H1 H2]]; [left; auto|right]. split; [assumption|]. destruct (h !! y) as [n|]; [|discriminate].
      destruct (cls_list_eqb_spec w [n_cls n]); [eauto|discriminate].
    + intros [[_ H]|[H1 (n & Hn & H2)]]; [left; auto|right]. split; [assumption|]. rewrite Hn.
      destruct (cls_list_eqb_spec w [n_cls n]); congruence.
  - split.
    + intros [[H _]|[H1 H2]]; [discriminate|right]. split; [assumption|]. destruct (h !! y) as [n|]; [|discriminate].
      destruct (cls_list_eqb_spec w [n_cls n]); [eauto|discriminate].
    + intros [[H _]|[H1 (n & Hn & H2)]]; [contradiction|right]. split; [assumption|]. rewrite Hn.
      destruct (cls_list_eqb_spec w [n_cls n]); congruence.
Qed.
Lemma consumesb_spec h w a y : consumesb h w a y = true <-> consumes h w a y.
Proof.
  unfold consumesb, consumes. rewrite !andb_true_iff.
  destruct (cls_list_eqb_spec (scope_of h y) w), (cls_eqb_spec (sequence_of h y) a); intuition congruence.
Qed.
Definition count_step (h : gmap id node) w a (k : nat) (y : id) : nat :=
  if opensb h w y then 0 else if consumesb h w a y then S k else k.
Definition count_from (h : gmap id node) w a (k : nat) (l : list id) : nat := fold_left (count_step h w a) l k.
Definition count_in h w a l := count_from h w a 0 l.
Lemma count_snoc h w a l y : count_in h w a (l ++ [y]) = count_step h w a (count_in h w a l) y.
Proof. unfold count_in, count_from. rewrite fold_left_app. reflexivity. Qed.
Lemma count_scope h w a sc k m :
  (forall y, y ∈ sc -> ~ opens h w y) -> exactly (consumes h w a) k sc -> count_from h w a m sc = k + m.
Proof.
  intros Ho He. revert m. induction He as [|k x l Hx He IH|k x l Hx He IH]; intros m; [reflexivity| |].
  - unfold count_from. simpl. fold (count_from h w a (count_step h w a m x) l).
    rewrite IH by (intros y Hy; apply Ho; constructor; assumption). unfold count_step.
    destruct (opensb h w x) eqn:E; [apply opensb_spec in E; exfalso; apply (Ho x); [constructor|assumption]|].
    apply consumesb_spec in Hx. rewrite Hx. lia.
  - unfold count_from. simpl. fold (count_from h w a (count_step h w a m x) l).
    rewrite IH by (intros y Hy; apply Ho; constructor; assumption). unfold count_step.
    destruct (opensb h w x) eqn:E; [apply opensb_spec in E; exfalso; apply (Ho x); [constructor|assumption]|].
    destruct (consumesb h w a x) eqn:E2; [apply consumesb_spec in E2; contradiction|]. lia.
Qed.
Lemma count_current h w a l sc k :
  current_scope h w l sc -> exactly (consumes h w a) k sc -> count_in h w a l = k.
Proof.
  intros [Ho Hl] He. unfold count_in. destruct Hl as [-> |(l0 & y & -> & Hy)].
  - rewrite (count_scope _ _ _ _ _ _ Ho He). lia.
  - unfold count_from. rewrite fold_left_app. simpl. unfold count_step at 2.
    apply opensb_spec in Hy. rewrite Hy. fold (count_from h w a 0 sc). rewrite (count_scope _ _ _ _ _ _ Ho He). lia.
Qed.
Lemma current_exists h w l : exists sc, current_scope h w l sc.
Proof.
  induction l as [|y l IH] using rev_ind; [exists []; split; [inversion 1|auto]|].
  destruct IH as (sc & Ho & Hl). destruct (opensb h w y) eqn:E.
  - exists []. split; [inversion 1|]. right. exists l, y. split; [reflexivity|]. apply opensb_spec. assumption.
  - exists (sc ++ [y]). split.
    + intros z. rewrite elem_of_app, elem_of_list_singleton. intros [Hz| ->]; [auto|]. rewrite <- opensb_spec. congruence.
    + destruct Hl as [-> |(l0 & z & -> & Hz)]; [auto|]. right. exists l0, z. split; [|assumption].
      rewrite <- app_assoc. reflexivity.
Qed.
Lemma exactly_exists h w a sc : exists k, exactly (consumes h w a) k sc.
Proof.
  induction sc as [|y sc [k IH]]; [exists 0; constructor|].
  destruct (consumesb h w a y) eqn:E.
  - exists (S k). apply ex_yes; [apply consumesb_spec|]; assumption.
  - exists k. apply ex_no; [|assumption]. rewrite <- consumesb_spec. congruence.
Qed.
Lemma letter_value k : nth_error ascii_uppercase k = option_map (fun v => match v with VStr [c] => c | _ => 0%N end) (letter k).
Proof. do 26 (destruct k as [|k]; [reflexivity|]). destruct k; reflexivity. Qed.

(** Only the classes and the [nonum] marks matter. *)
Definition relevant (h : gmap id node) (x : id) : bool := is_numbered h x || is_appendix h x.
Lemma count_irrelevant h w a x k : relevant h x = false -> count_step h w a k x = k.
Proof.
  unfold relevant, count_step, opensb, consumesb. intros H. apply orb_false_iff in H as [-> ->].
  rewrite andb_false_r. reflexivity.
Qed.
Lemma count_filter h w a l : forall k, count_from h w a k l = count_from h w a k (List.filter (relevant h) l).
Proof.
  induction l as [|x l IH]; intros k; [reflexivity|]. unfold count_from in *. simpl.
  destruct (relevant h x) eqn:E; simpl; [apply IH|]. rewrite count_irrelevant by assumption. apply IH.
Qed.

(** *** The pass only touches numbers and templates *)
Definition num_attr (_ : id) (b : attr) : Prop := b = a_number \/ b = a_reftext_template.
Lemma only_number_steps l : forall k, changes (only num_attr) (number_steps l k).
Proof.
  induction l as [|x l IH]; intros k; cbn [number_steps]; [apply ch_ret, only_refl|].
  apply ch_bind; [apply only_trans|apply ch_inst; [apply only_refl|apply only_trans]|]. intros [].
  - apply ch_bind; [apply only_trans|apply only_setattr; left; reflexivity|]. intros []. apply IH.
  - apply IH.
Qed.
Lemma only_autonumber_body a i : changes (only num_attr) (autonumber_body a i).
Proof.
  unfold autonumber_body. apply ch_bind; [apply only_trans|apply ch_cls_of; [apply only_refl|apply only_trans]|]. intros c.
  destruct (subclass c CAppendix); [apply ch_ret, only_refl|].
  destruct (subclass_any c [CProof; CSubproof]).
  { apply ch_bind; [apply only_trans| |intros; apply ch_ret, only_refl]. unfold autonumber_steps.
    apply ch_bind; [apply only_trans|apply ch_children_of; [apply only_refl|apply only_trans]|]. intros cs. apply only_number_steps. }
  destruct (subclass c CStep); [apply ch_ret, only_refl|].
  apply ch_bind; [apply only_trans|apply ch_getattr; [apply only_refl|apply only_trans]|]. intros v.
  destruct (autonumber c && negb (truthy v)); [|apply ch_ret, only_refl].
  destruct (counter_value _ _); [|apply ch_raise, only_refl].
  apply ch_bind; [apply only_trans|apply only_setattr; left; reflexivity|]. intros [].
  apply ch_bind; [apply only_trans| |intros; apply ch_ret, only_refl].
  destruct (within_appendix a && subclass c CSection); [|apply ch_ret, only_refl].
  apply ch_bind; [apply only_trans|apply ch_get_str; [apply only_refl|apply only_trans]|]. intros t. apply only_setattr. right. reflexivity.
Qed.

(** *** Values of one visit *)
Lemma value_class_of P s s' x c : only P s s' -> class_of (st_heap s') x c <-> class_of (st_heap s) x c.
Proof.
  intros (_ & _ & H). unfold class_of. specialize (H x).
  destruct (st_heap s !! x), (st_heap s' !! x); try contradiction.
  - destruct H as (E & _). split; intros (m & [= <-] & <-); eauto.
  - reflexivity.
Qed.
Definition is_step (h : gmap id node) (x : id) : Prop := class_of h x CStep.
Lemma number_steps_ok : forall l k s s',
  NoDup l -> number_steps l k s = (s', Ok tt) ->
  only (fun j b => j ∈ l /\ is_step (st_heap s) j /\ b = a_number) s s' /\
  forall pre x post j, l = pre ++ x :: post -> is_step (st_heap s) x -> exactly (is_step (st_heap s)) j pre ->
    value (st_heap s') x a_number = Some (VInt (k + Z.of_nat j)).
Proof.
  induction l as [|y l IH]; intros k s s' Hnd H.
  - apply ret_ok in H as [-> _]. split; [apply only_refl|]. intros [|? ?]; discriminate.
  - apply list.NoDup_cons in Hnd as [Hy Hnd]. cbn [number_steps] in H.
    apply bind_ok in H as (s0 & b & Hb & H). apply inst_ok in Hb as (-> & n & Hn & ->).
    assert (Hc : subclass_any (n_cls n) [CStep] = cls_eqb (n_cls n) CStep).
    { unfold subclass_any. simpl. rewrite orb_false_r. apply subclass_step. }
    rewrite Hc in H. destruct (cls_eqb_spec (n_cls n) CStep) as [Es|Es].
    + apply bind_ok in H as (s1 & [] & H1 & H).
      assert (Ho : only (fun j b => j = y /\ b = a_number) s s1).
      { refine (ch_run _ _ _ _ _ (only_setattr _ y a_number (VInt k) _) H1). auto. }
      apply setattr_ok in H1 as (m & Hm & ->). assert (m = n) as -> by congruence.
      destruct (IH _ _ _ Hnd H) as [Ho1 Hv].
      assert (Hst : forall z, is_step (st_heap (upd s y (set_n_attr a_number (VInt k) n))) z <-> is_step (st_heap s) z).
      { intros z. eapply value_class_of. eassumption. }
      split.
      * eapply only_trans; [eapply only_weaken; [|exact Ho]|eapply only_weaken; [|exact Ho1]].
        -- intros j a [-> ->]. split; [constructor|]. split; [|reflexivity]. exists n. auto.
        -- intros j a (Hj & Hs & ->). split; [constructor; assumption|]. split; [|reflexivity]. apply Hst. assumption.
      * intros [|y' pre] x post j [= -> El] Hx He.
        -- inversion He; subst. rewrite (value_only _ _ _ _ _ Ho1) by (intros [? _]; contradiction).
           erewrite value_upd by eassumption. rewrite decide_True by auto. do 2 f_equal. lia.
        -- inversion He as [|j' ? ? _ He'|? ? ? Hns]; subst.
           ++ rewrite (Hv pre x post j' eq_refl).
              ** do 2 f_equal. lia.
              ** apply Hst. assumption.
              ** clear -He' Hst. induction He'; [constructor|apply ex_yes|apply ex_no]; rewrite ?Hst; auto.
           ++ exfalso. apply Hns. exists n. auto.
    + destruct (IH _ _ _ Hnd H) as [Ho1 Hv]. split.
      * eapply only_weaken; [|exact Ho1]. intros j a (Hj & Hs & ->). split; [constructor; assumption|auto].
      * intros [|y' pre] x post j [= -> El] Hx He.
        -- destruct Hx as (m & Hm & Hc'). congruence.
        -- inversion He as [|j' ? ? (m & Hm & Hc')|? ? ? Hns He']; subst; [congruence|].
           apply (Hv pre x post j eq_refl Hx He').
Qed.

(** *** The invariant of the loop *)
Definition expected_number (h : gmap id node) (p : list id) (x : id) : option val :=
  let k := count_in h (scope_of h x) (sequence_of h x) p in
  if cls_list_eqb (scope_of h x) [CManuscript] && existsb (is_appendix h) p then letter k
  else Some (VInt (Z.of_nat (S k))).
Definition as_appendix (v : option val) : option val :=
  match v with Some (VStr t) => Some (VStr (replace (lit "{nodeclass}") (lit "Appendix") t)) | _ => v end.
Record num_inv (h : gmap id node) (done : list id) (a : num_st) (h' : gmap id node) : Prop := {
  ni_taken : forall w k, taken_of (counters_get (counts a) w) k = count_in h w k done;
  ni_kind : forall w, ck (counters_get (counts a) w) =
    if cls_list_eqb w [CManuscript] && existsb (is_appendix h) done then KLetters else KCount;
  ni_appendix : within_appendix a = existsb (is_appendix h) done;
  ni_number : forall p x q, done = p ++ x :: q -> is_numbered h x = true ->
    value h' x a_number = expected_number h p x /\ is_Some (expected_number h p x);
  ni_steps : forall p n pre x post j, p ∈ done -> holds_steps h p -> h !! p = Some n -> kids n = pre ++ x :: post ->
    is_step h x -> exactly (is_step h) j pre -> value h' x a_number = Some (VInt (Z.of_nat (S j)));
  ni_rest : forall x, (x ∈ done -> is_numbered h x = false) ->
    (is_step h x -> forall p n, p ∈ done -> holds_steps h p -> h !! p = Some n -> x ∉ kids n) ->
    value h' x a_number = value h x a_number;
  ni_template : forall p x q, done = p ++ x :: q ->
    value h' x a_reftext_template =
    (if is_numbered h x && is_section h x && existsb (is_appendix h) p then as_appendix else fun v => v)
      (value h x a_reftext_template);
  ni_later : forall x, x ∉ done -> value h' x a_reftext_template = value h x a_reftext_template;
}.

Lemma num_inv_start h : num_inv h [] (MkNum [] false) h.
Proof.
  constructor; try reflexivity.
  - intros w. rewrite andb_false_r. reflexivity.
  - intros [|? ?]; discriminate.
  - intros. set_solver.
  - intros [|? ?]; discriminate.
Qed.

Lemma only_is_numbered s s' x : only num_attr s s' -> is_numbered (st_heap s') x = is_numbered (st_heap s) x.
Proof.
  intros (_ & _ & H). unfold is_numbered. specialize (H x).
  destruct (st_heap s !! x), (st_heap s' !! x); try contradiction; [|reflexivity].
  destruct H as (-> & _ & _ & H). rewrite H; [reflexivity|]. intros [E|E]; discriminate.
Qed.
Lemma step_not_numbered h x : is_step h x -> is_numbered h x = false.
Proof. intros (n & Hn & Hc). unfold is_numbered. rewrite Hn, Hc. reflexivity. Qed.
Lemma holds_not_numbered h x : holds_steps h x -> is_numbered h x = false /\ is_appendix h x = false.
Proof. intros [(n & Hn & Hc)|(n & Hn & Hc)]; unfold is_numbered, is_appendix; rewrite Hn, Hc; auto. Qed.
Lemma scope_not_self c : autonumber c = true -> number_within c <> [c].
Proof. destruct c; vm_compute; intros; discriminate. Qed.
Lemma subclass_appendix c : subclass c CAppendix = cls_eqb c CAppendix.
Proof. destruct c; reflexivity. Qed.
Lemma subclass_proofs c : subclass_any c [CProof; CSubproof] = cls_eqb c CProof || cls_eqb c CSubproof.
Proof. destruct c; reflexivity. Qed.
Lemma existsb_snoc {A} (f : A -> bool) l x : existsb f (l ++ [x]) = existsb f l || f x.
Proof. rewrite existsb_app. simpl. rewrite orb_false_r. reflexivity. Qed.
Lemma snoc_split {A} (l : list A) y p x q :
  l ++ [y] = p ++ x :: q -> (q = [] /\ p = l /\ x = y) \/ exists q', q = q' ++ [y] /\ l = p ++ x :: q'.
Proof.
  intros E. destruct q as [|z q _] using rev_ind.
  - left. apply app_inj_tail in E as [-> ->]. auto.
  - right. exists q. rewrite app_comm_cons, app_assoc in E. apply app_inj_tail in E as [-> ->]. auto.
Qed.

(** A node that has no part in the numbering. *)
Lemma num_inv_skip h done a h' i :
  num_inv h done a h' -> i ∉ done -> is_numbered h i = false -> is_appendix h i = false -> ~ holds_steps h i ->
  num_inv h (done ++ [i]) a h'.
Proof.
  intros [] Hi Hn Ha Hp. constructor; auto.
  - intros w k. rewrite count_snoc, count_irrelevant; [auto|]. unfold relevant. rewrite Hn, Ha. reflexivity.
  - intros w. rewrite existsb_snoc, Ha, orb_false_r. auto.
  - rewrite existsb_snoc, Ha, orb_false_r. auto.
  - intros p x q E Hx. apply snoc_split in E as [(-> & -> & ->)|(q' & -> & E)]; [congruence|eauto].
  - intros p n pre x post j. rewrite elem_of_app, elem_of_list_singleton. intros [Hd| ->] Hh; [eauto|contradiction].
  - intros x Hx Hs. apply ni_rest0; [intros Hd; apply Hx; set_solver|]. intros Hst p n Hd. apply Hs; set_solver.
  - intros p x q E. apply snoc_split in E as [(-> & -> & ->)|(q' & -> & E)]; [|eauto]. rewrite Hn. simpl. auto.
  - intros x Hx. apply ni_later0. set_solver.
Qed.

Lemma num_inv_visit s0 done a s s' a' i :
  consistent (st_heap s0) -> only num_attr s0 s -> num_inv (st_heap s0) done a (st_heap s) -> i ∉ done ->
  visit cond_any autonumber_body a i s = (s', Ok a') ->
  num_inv (st_heap s0) (done ++ [i]) a' (st_heap s').
Proof.
  intros Hcons Ho Hinv Hi H. set (h := st_heap s0) in *.
  unfold visit in H. apply bind_ok in H as (s1 & n & Hn & H). apply get_node_ok in Hn as [-> Hn]. cbn [cond_any] in H.
  unfold autonumber_body in H. apply bind_ok in H as (s1 & c & Hc & H). apply cls_of_ok in Hc as (-> & n' & Hn' & ->).
  assert (n' = n) as -> by congruence. clear Hn'.
  destruct (h !! i) as [n0|] eqn:Hn0; [|rewrite (only_none _ _ _ _ Ho Hn0) in Hn; discriminate].
  assert (Hsame : n_cls n = n_cls n0 /\ kids n = kids n0 /\ n_attrs n !! a_nonum = n_attrs n0 !! a_nonum).
  { destruct (only_lookup _ _ _ _ _ Ho Hn0) as (m & Hm & E1 & _ & E2 & E3). assert (m = n) as -> by congruence.
    unfold kids. rewrite E1, E2. split; [reflexivity|]. split; [reflexivity|]. apply E3. intros [E|E]; discriminate. }
  destruct Hsame as (Ec & Ek & En).
  rewrite subclass_appendix, subclass_proofs, subclass_step in H.
  destruct (cls_eqb_spec (n_cls n) CAppendix) as [Eapp|Eapp].
  { (* the appendix marker *)
    apply ret_ok in H as [-> ->]. destruct Hinv.
    assert (Ha : is_appendix h i = true).
    { unfold is_appendix. rewrite Hn0, <- Ec, Eapp. reflexivity. }
    assert (Hnn : is_numbered h i = false).
    { unfold is_numbered. rewrite Hn0, <- Ec, Eapp. reflexivity. }
    constructor; auto.
    - intros w k. cbn [counts]. rewrite counters_get_set, count_snoc. unfold count_step, opensb, consumesb.
      rewrite Ha, Hnn, andb_true_r. cbn [andb orb]. rewrite orb_false_r.
      destruct (cls_list_eqb_spec [CManuscript] w), (cls_list_eqb_spec w [CManuscript]); try congruence; first [reflexivity|auto].
    - intros w. cbn [counts]. rewrite counters_get_set, existsb_snoc, Ha, orb_true_r, andb_true_r.
      destruct (cls_list_eqb_spec [CManuscript] w), (cls_list_eqb_spec w [CManuscript]); try congruence; try reflexivity.
      rewrite ni_kind0. destruct (cls_list_eqb_spec w [CManuscript]); [congruence|reflexivity].
    - cbn [within_appendix]. rewrite existsb_snoc, Ha, orb_true_r. reflexivity.
    - intros p x q E Hx. apply snoc_split in E as [(-> & -> & ->)|(q' & -> & E)]; [congruence|eauto].
    - intros p m pre x post j. rewrite elem_of_app, elem_of_list_singleton. intros [Hd| ->] Hh; [eauto|].
      apply holds_not_numbered in Hh as [_ Hh]. congruence.
    - intros x Hx Hs. apply ni_rest0; [intros Hd; apply Hx; set_solver|]. intros Hst p m Hd. apply Hs; set_solver.
    - intros p x q E. apply snoc_split in E as [(-> & -> & ->)|(q' & -> & E)]; [|eauto]. rewrite Hnn. simpl. auto.
    - intros x Hx. apply ni_later0. set_solver. }
  assert (Ha : is_appendix h i = false).
  { unfold is_appendix. rewrite Hn0, <- Ec. destruct (cls_eqb_spec (n_cls n) CAppendix); [contradiction|reflexivity]. }
  destruct (cls_eqb (n_cls n) CProof || cls_eqb (n_cls n) CSubproof) eqn:Ep.
  { (* a proof *)
    assert (Hh : holds_steps h i).
    { apply orb_true_iff in Ep as [Ep|Ep]; [left|right]; exists n0; (split; [assumption|]); rewrite <- Ec;
        [destruct (cls_eqb_spec (n_cls n) CProof)|destruct (cls_eqb_spec (n_cls n) CSubproof)]; congruence. }
    destruct (holds_not_numbered _ _ Hh) as [Hnn _].
    apply bind_ok in H as (s1 & [] & H1 & H). apply ret_ok in H as [-> ->].
    unfold autonumber_steps in H1. apply bind_ok in H1 as (s2 & cs & Hcs & H1).
    apply children_of_ok in Hcs as (-> & m & Hm & ->). assert (m = n) as -> by congruence. clear Hm.
    assert (Hnd : NoDup (kids n0)) by (apply (cons_nodup _ Hcons i n0 Hn0)).
    rewrite Ek in H1. destruct (number_steps_ok _ _ _ _ Hnd H1) as [Ho1 Hv].
    assert (Hst : forall z, is_step (st_heap s) z <-> is_step h z) by (intros z; eapply value_class_of; eassumption).
    assert (Hpar : forall p m, h !! p = Some m -> p <> i -> forall x, x ∈ kids m -> x ∉ kids n0).
    { intros p m Hm Hne x Hx Hx'. apply Hne.
      assert (P1 : parent_is h x p) by (apply (cons_parent _ Hcons); exists m; auto).
      assert (P2 : parent_is h x i) by (apply (cons_parent _ Hcons); exists n0; auto).
      destruct P1 as (m1 & ? & ?), P2 as (m2 & ? & ?). congruence. }
    destruct Hinv. constructor; auto.
    - intros w k. rewrite count_snoc, count_irrelevant; [auto|]. unfold relevant. rewrite Hnn, Ha. reflexivity.
    - intros w. rewrite existsb_snoc, Ha, orb_false_r. auto.
    - rewrite existsb_snoc, Ha, orb_false_r. auto.
    - intros p x q E Hx. apply snoc_split in E as [(-> & -> & ->)|(q' & -> & E)]; [congruence|].
      rewrite (value_only _ _ _ _ _ Ho1); [eauto|]. intros (_ & Hs & _). apply Hst, step_not_numbered in Hs. congruence.
    - intros p m pre x post j. rewrite elem_of_app, elem_of_list_singleton. intros [Hd| ->] Hp Hm El Hx He.
      + rewrite (value_only _ _ _ _ _ Ho1); [eauto|]. intros (Hk & _).
        apply (Hpar p m Hm) in Hk; [assumption|congruence|]. rewrite El. set_solver.
      + assert (m = n0) as -> by congruence. rewrite (Hv _ _ _ j El).
        * do 2 f_equal. lia.
        * apply Hst. assumption.
        * clear -He Hst. induction He; [constructor|apply ex_yes|apply ex_no]; rewrite ?Hst; auto.
    - intros x Hx Hs. rewrite (value_only _ _ _ _ _ Ho1).
      + apply ni_rest0; [intros Hd; apply Hx; set_solver|]. intros Hst' p m Hd. apply Hs; set_solver.
      + intros (Hk & Hs' & _). apply (Hs (proj1 (Hst x) Hs') i n0); auto. set_solver.
    - intros p x q E. rewrite (value_only _ _ _ _ _ Ho1) by (intros (_ & _ & E'); discriminate).
      apply snoc_split in E as [(-> & -> & ->)|(q' & -> & E)]; [|eauto]. rewrite Hnn. simpl. auto.
    - intros x Hx. rewrite (value_only _ _ _ _ _ Ho1) by (intros (_ & _ & E'); discriminate). apply ni_later0. set_solver. }
  assert (Hnp : ~ holds_steps h i).
  { apply orb_false_iff in Ep as [E1 E2]. intros [(m & Hm & Hc)|(m & Hm & Hc)]; assert (m = n0) as -> by congruence;
      rewrite Ec, Hc in *; discriminate. }
  destruct (cls_eqb_spec (n_cls n) CStep) as [Es|Es].
  { apply ret_ok in H as [-> ->]. apply num_inv_skip; auto. apply step_not_numbered. exists n0. split; congruence. }
  apply bind_ok in H as (s1 & v & Hv & H). apply getattr_ok in Hv as (-> & m & Hm & Hv).
  assert (m = n) as -> by congruence. clear Hm.
  assert (Hnum : is_numbered h i = autonumber (n_cls n) && negb (truthy v)).
  { unfold is_numbered. rewrite Hn0, <- Ec, <- En, Hv. destruct (cls_eqb_spec (n_cls n) CStep); [contradiction|].
    simpl. rewrite andb_true_r. reflexivity. }
  destruct (autonumber (n_cls n) && negb (truthy v)) eqn:Eauto.
  2:{ apply ret_ok in H as [-> ->]. apply num_inv_skip; auto. }
  (* a numbered node *)
  assert (Hself : number_within (n_cls n) <> [n_cls n]).
  { apply scope_not_self. apply andb_true_iff in Eauto. tauto. }
  destruct (cls_list_eqb_spec [n_cls n] (number_within (n_cls n))) as [E|_]; [congruence|] || idtac.
  assert (Hget : counters_get (counters_set (counts a) [n_cls n] fresh_count) (number_within (n_cls n))
                 = counters_get (counts a) (number_within (n_cls n))).
  { rewrite counters_get_set. destruct (cls_list_eqb_spec [n_cls n] (number_within (n_cls n))); congruence. }
  rewrite Hget in H.
  assert (Hsc : scope_of h i = number_within (n_cls n)) by (unfold scope_of; rewrite Hn0, Ec; reflexivity).
  assert (Hsq : sequence_of h i = number_as (n_cls n)) by (unfold sequence_of; rewrite Hn0, Ec; reflexivity).
  assert (Hval : counter_value (counters_get (counts a) (number_within (n_cls n))) (number_as (n_cls n)) = expected_number h done i).
  { destruct Hinv. unfold counter_value, expected_number. rewrite ni_kind0, ni_taken0, Hsc, Hsq.
    destruct (cls_list_eqb _ _ && existsb _ _); [|reflexivity].
    rewrite letter_value. unfold letter. destruct (Nat.ltb _ 26); reflexivity. }
  rewrite Hval in H. destruct (expected_number h done i) as [num|] eqn:Eexp; [|discriminate].
  apply bind_ok in H as (s1 & [] & H1 & H).
  assert (Ho1 : only (fun j b => j = i /\ b = a_number) s s1).
  { refine (ch_run _ _ _ _ _ (only_setattr _ i a_number num _) H1). auto. }
  apply setattr_ok in H1 as (m & Hm & E1). assert (m = n) as -> by congruence. clear Hm.
  apply bind_ok in H as (s2 & [] & H2 & H). apply ret_ok in H as [-> ->]. rename s2 into s'.
  assert (Happ : within_appendix a = existsb (is_appendix h) done) by (destruct Hinv; assumption).
  assert (H2' : only (fun j b => j = i /\ b = a_reftext_template) s1 s' /\
     value (st_heap s') i a_reftext_template =
     (if is_section h i && existsb (is_appendix h) done then as_appendix else fun v => v) (value (st_heap s1) i a_reftext_template)).
  { unfold is_section. rewrite Hn0, <- Ec, <- Happ, andb_comm.
    destruct (within_appendix a && subclass (n_cls n) CSection).
    - apply bind_ok in H2 as (s3 & t & H3 & H2). apply get_str_ok in H3 as (-> & m & Hm & Ht). split.
      + refine (ch_run _ _ _ _ _ (only_setattr _ i a_reftext_template _ _) H2). auto.
      + apply setattr_ok in H2 as (m' & Hm' & ->). erewrite value_upd by eassumption. rewrite decide_True by auto.
        rewrite (value_some _ _ _ _ Hm), Ht. reflexivity.
    - apply ret_ok in H2 as [-> _]. split; [apply only_refl|reflexivity]. }
  destruct H2' as [Ho2 Ht]. clear H2.
  assert (Hnumv : value (st_heap s') i a_number = Some num).
  { rewrite (value_only _ _ _ _ _ Ho2) by (intros [_ E]; discriminate). subst s1.
    erewrite value_upd by eassumption. rewrite decide_True by auto. reflexivity. }
  assert (Hoth : forall x, x <> i -> value (st_heap s') x a_number = value (st_heap s) x a_number).
  { intros x Hx. rewrite (value_only _ _ _ _ _ Ho2) by tauto. apply (value_only _ _ _ _ _ Ho1). tauto. }
  assert (Htem : forall x, value (st_heap s1) x a_reftext_template = value (st_heap s) x a_reftext_template).
  { intros x. apply (value_only _ _ _ _ _ Ho1). intros [_ E]; discriminate. }
  assert (Htem2 : forall x, x <> i -> value (st_heap s') x a_reftext_template = value (st_heap s) x a_reftext_template).
  { intros x Hx. rewrite (value_only _ _ _ _ _ Ho2) by tauto. auto. }
  destruct Hinv. constructor; cbn [counts within_appendix]; auto.
  - intros w k. rewrite count_snoc. unfold count_step, opensb, consumesb. rewrite Ha, Hnum, Hn0, Hsc, Hsq, <- Ec, andb_false_r.
    cbn [andb orb]. rewrite counters_get_set.
    destruct (cls_list_eqb_spec (number_within (n_cls n)) w) as [Ew|Ew].
    + destruct (cls_list_eqb_spec w [n_cls n]) as [E|E]; [congruence|]. cbn [andb]. rewrite taken_next, ni_taken0, Ew.
      destruct (cls_eqb _ _); reflexivity.
    + rewrite counters_get_set. cbn [andb].
      destruct (cls_list_eqb_spec [n_cls n] w), (cls_list_eqb_spec w [n_cls n]); try congruence; first [reflexivity|auto].
  - intros w. rewrite existsb_snoc, Ha, orb_false_r, counters_get_set.
    destruct (cls_list_eqb_spec (number_within (n_cls n)) w) as [Ew|Ew].
    + unfold counter_next. cbn [ck]. rewrite ni_kind0, Ew. reflexivity.
    + rewrite counters_get_set. destruct (cls_list_eqb_spec [n_cls n] w) as [E|E]; [|auto]. subst w.
      destruct (cls_list_eqb_spec [n_cls n] [CManuscript]) as [E'|E']; [|reflexivity].
      injection E' as E'. rewrite E' in Eauto. discriminate.
  - rewrite existsb_snoc, Ha, orb_false_r. auto.
  - intros p x q E Hx. apply snoc_split in E as [(-> & -> & ->)|(q' & -> & E)]; [rewrite Eexp; eauto|].
    rewrite Hoth; [eauto|]. intros ->. apply Hi. rewrite E. set_solver.
  - intros p m pre x post j. rewrite elem_of_app, elem_of_list_singleton. intros [Hd| ->] Hp Hm El Hx He; [|contradiction].
    rewrite Hoth; [eauto|]. intros ->. apply step_not_numbered in Hx. congruence.
  - intros x Hx Hs. rewrite Hoth.
    + apply ni_rest0; [intros Hd; apply Hx; set_solver|]. intros Hst' p m Hd. apply Hs; set_solver.
    + intros ->. rewrite Hx in Hnum; [discriminate|]. set_solver.
  - intros p x q E. apply snoc_split in E as [(-> & -> & ->)|(q' & -> & E)].
    + rewrite Ht, Htem, Hnum. cbn [andb]. rewrite ni_later0 by assumption. reflexivity.
    + rewrite Htem2; [eauto|]. intros ->. apply Hi. rewrite E. set_solver.
  - intros x Hx. rewrite Htem2 by set_solver. apply ni_later0. set_solver.
Qed.

Lemma num_inv_fold s0 : forall l done a s s' a',
  consistent (st_heap s0) -> only num_attr s0 s -> num_inv (st_heap s0) done a (st_heap s) -> NoDup (done ++ l) ->
  foldM (visit cond_any autonumber_body) a l s = (s', Ok a') ->
  only num_attr s0 s' /\ num_inv (st_heap s0) (done ++ l) a' (st_heap s').
Proof.
  induction l as [|i l IH]; intros done a s s' a' Hc Ho Hi Hnd H.
  - apply ret_ok in H as [-> ->]. rewrite app_nil_r. auto.
  - cbn [foldM] in H. apply bind_ok in H as (s1 & a1 & H1 & H).
    assert (Hni : i ∉ done) by (intros Hd; apply NoDup_app in Hnd as (_ & Hnd & _); apply (Hnd i Hd); constructor).
    pose proof (num_inv_visit _ _ _ _ _ _ _ Hc Ho Hi Hni H1) as Hi1.
    assert (E : done ++ i :: l = (done ++ [i]) ++ l) by (rewrite <- app_assoc; reflexivity).
    rewrite E in *. refine (IH _ _ _ _ _ Hc _ Hi1 Hnd H). eapply only_trans; [exact Ho|].
    exact (ch_run _ _ _ _ _ (ch_visit _ (only_refl _) (only_trans _) cond_any _ a i (only_autonumber_body a i)) H1).
Qed.

Theorem autonumber_ok fuel s t s' :
  manuscript s t -> autonumber_nodes fuel (root t) s = (s', Ok tt) ->
  only num_attr s s' /\ exists a, num_inv (st_heap s) (doc_order t) a (st_heap s').
Proof.
  intros Hm H. unfold autonumber_nodes in H. apply bind_ok in H as (s1 & a & H & H'). apply ret_ok in H' as [<- _].
  assert (Hd : document (st_heap s) t) by apply Hm.
  apply (trav_attr num_attr _ _ _ None t) in H; [|apply only_autonumber_body|apply Hd].
  destruct (num_inv_fold s (doc_order t) [] (MkNum [] false) s s' a (ms_consistent _ _ Hm) (only_refl _ _)
              (num_inv_start _) (proj2 Hd) H) as [Ho Hi].
  split; [assumption|]. exists a. exact Hi.
Qed.
