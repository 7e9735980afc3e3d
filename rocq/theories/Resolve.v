(** Resolution of pending references: effect of the body of the loop. *)
From Verif Require Export TreeFacts Labels.
From Verif Require Import Queries Built Meta NodeOps Monad.

(** Only new nodes and log records. *)
Definition ext (s s' : st) : Prop :=
  good s' /\ st_next s <= st_next s' /\ logs_grow s s' /\
  forall j n, st_heap s !! j = Some n -> st_heap s' !! j = Some n.
Lemma ext_refl s : good s -> ext s s.
Proof. intros Hg. split; [assumption|]. split; [lia|]. split; [apply logs_grow_same; reflexivity|auto]. Qed.
Lemma ext_trans s1 s2 s3 : ext s1 s2 -> ext s2 s3 -> ext s1 s3.
Proof.
  intros (G1 & N1 & L1 & H1) (G2 & N2 & L2 & H2). split; [assumption|]. split; [lia|].
  split; [eapply logs_grow_trans; eassumption|auto].
Qed.
Lemma ext_log s r : good s -> ext s (logged s r).
Proof. intros Hg. split; [exact Hg|]. split; [simpl; lia|]. split; [exists [r]; reflexivity|auto]. Qed.
Lemma ext_new s n : good s -> n_parent n = None -> n_children n = [] -> ext s (new s n).
Proof.
  intros [Hf Hc] Hp Hk. destruct (consistent_fresh s n Hf Hc Hp Hk) as [H1 H2].
  split; [split; assumption|]. split; [simpl; lia|]. split; [apply logs_grow_same; reflexivity|].
  intros j m Hj. rewrite new_lookup. pose proof (Hf _ _ Hj). rewrite decide_False by lia. assumption.
Qed.
Lemma ext_value s s' j a v : ext s s' -> value (st_heap s) j a = Some v -> value (st_heap s') j a = Some v.
Proof.
  intros (_ & _ & _ & H). unfold value. destruct (st_heap s !! j) as [n|] eqn:E; [|discriminate].
  rewrite (H _ _ E). auto.
Qed.

Definition swap (i r x : id) : id := if decide (x = i) then r else x.
Lemma swap_same i r : swap i r i = r.
Proof. unfold swap. rewrite decide_True; auto. Qed.
Lemma swap_other i r x : x <> i -> swap i r x = x.
Proof. unfold swap. intros. rewrite decide_False; auto. Qed.
Lemma map_swap_other i r l : i ∉ l -> map (swap i r) l = l.
Proof.
  intros Hi. rewrite <- (map_id l) at 2. apply map_ext_in. intros x Hx. apply swap_other.
  intros ->. apply Hi. apply elem_of_list_In. assumption.
Qed.

(** [i] has been replaced by [r], a node with the class and attributes of [nr];
    the only attributes of existing nodes that may differ are the backlinks. *)
Record swapped (s s' : st) (i r : id) (nr : node) (bl : id -> list str) : Prop := {
  sw_good : good s';
  sw_fresh : st_next s <= r < st_next s';
  sw_logs : logs_grow s s';
  sw_new : exists q, parent_is (st_heap s) i q /\ st_heap s' !! r = Some (set_n_parent (Some q) nr);
  sw_leaf : n_children nr = [];
  sw_old : forall j n, st_heap s !! j = Some n -> exists n', st_heap s' !! j = Some n' /\
    n_cls n' = n_cls n /\ n_parent n' = (if decide (j = i) then None else n_parent n) /\
    kids n' = map (swap i r) (kids n) /\
    (forall a, a <> a_backlinks -> n_attrs n' !! a = n_attrs n !! a) /\
    backlinks_of (st_heap s') j = backlinks_of (st_heap s) j ++ bl j
}.

Lemma no_descendants h r n x : consistent h -> h !! r = Some n -> n_children n = [] -> ~ ancestor h x r.
Proof.
  intros Hc Hr Hk Ha. remember r as r0 eqn:E in Ha. induction Ha as [x p Hp|x p y Hp Ha IH]; subst.
  - apply (cons_parent _ Hc) in Hp as (m & Hm & Hin). rewrite Hr in Hm. injection Hm as <-.
    unfold kids in Hin. rewrite Hk in Hin. destruct (has_children _); inversion Hin.
  - apply IH. reflexivity.
Qed.

Lemma replace_self_swap i r nr s s' u :
  good s -> st_heap s !! r = Some nr -> n_parent nr = None -> n_children nr = [] -> r <> i ->
  replace_self i [r] s = (s', Ok u) ->
  good s' /\ st_next s' = st_next s /\ st_logs s' = st_logs s /\
  exists q, parent_is (st_heap s) i q /\ st_heap s' !! r = Some (set_n_parent (Some q) nr) /\
  forall j n, j <> r -> st_heap s !! j = Some n -> exists n', st_heap s' !! j = Some n' /\
    n_cls n' = n_cls n /\ n_parent n' = (if decide (j = i) then None else n_parent n) /\
    kids n' = map (swap i r) (kids n) /\ n_attrs n' = n_attrs n.
Proof.
  intros [Hf Hc] Hr Hrp Hrk Hne H.
  assert (Hc' : consistent (st_heap s')).
  { eapply replace_self_consistent; [exact Hc| |exact H]. intros p Hp. split; [apply NoDup_singleton|].
    intros c Hin. apply elem_of_list_singleton in Hin. subst c. split; [eauto|]. split.
    - intros ->. apply (cons_parent _ Hc) in Hp as (m & Hm & Hin). rewrite Hr in Hm. injection Hm as <-.
      unfold kids in Hin. rewrite Hrk in Hin. destruct (has_children _); inversion Hin.
    - eapply no_descendants; eassumption. }
  assert (Hf' : fresh_ok s') by (eapply (edit_fresh (ReplaceSelf i [r])); eassumption).
  apply replace_self_ok in H
    as (q & s1 & ni & nq & l1 & l2 & Hi & Hpi & Hq & Hhc & El & Hn & Hrem & [Hr1 Hl1] & He1 & [Hr2 Hl2] & He2 & Hall).
  assert (Hrq : r <> q).
  { intros ->. rewrite Hr in Hq. injection Hq as <-. rewrite Hrk in El. destruct l1; discriminate. }
  split; [split; assumption|]. split; [congruence|]. split; [congruence|].
  exists q. split; [exists ni; auto|]. split.
  - pose proof (edited_lookup _ _ _ _ _ _ He1 Hr) as H1. pose proof (edited_lookup _ _ _ _ _ _ He2 H1) as H2.
    rewrite H2. cbn [n_cls n_parent n_children n_attrs]. rewrite !(decide_False (P := r = q)) by assumption.
    rewrite decide_True by constructor. reflexivity.
  - intros j n Hj Hn0. pose proof (edited_lookup _ _ _ _ _ _ He1 Hn0) as H1.
    pose proof (edited_lookup _ _ _ _ _ _ He2 H1) as H2. eexists. split; [exact H2|].
    cbn [n_cls n_parent n_children n_attrs]. split; [reflexivity|].
    rewrite (decide_False (P := j ∈ [r])); [|rewrite elem_of_list_singleton; assumption].
    split; [reflexivity|]. split; [|reflexivity]. unfold kids. cbn [n_cls n_children].
    destruct (has_children (n_cls n)) eqn:Ehc; [|reflexivity].
    destruct (decide (j = q)) as [->|Hjq].
    + rewrite Hq in Hn0. injection Hn0 as <-. rewrite El, map_app. simpl. rewrite swap_same.
      pose proof (cons_nodup _ Hc _ _ Hq) as Hnd. unfold kids in Hnd. rewrite Hhc, El in Hnd.
      apply NoDup_app in Hnd as (_ & _ & Hnd). apply list.NoDup_cons in Hnd as [Hil2 _].
      rewrite !map_swap_other by assumption. reflexivity.
    + symmetry. apply map_swap_other. intros Hin.
      assert (child_is (st_heap s) i j) as Hch by (exists n; split; [assumption|unfold kids; rewrite Ehc; assumption]).
      apply (cons_parent _ Hc) in Hch as (m & Hm & Em). congruence.
Qed.

(** A fresh node, then the replacement. *)
Lemma swapped_intro s s1 r nr i s' u :
  good s -> ext s s1 -> is_Some (st_heap s !! i) -> st_next s <= r -> st_heap s1 !! r = Some nr ->
  n_parent nr = None -> n_children nr = [] ->
  replace_self i [r] s1 = (s', Ok u) -> swapped s s' i r nr (fun _ => []).
Proof.
  intros [Hf Hc] (G1 & N1 & L1 & H1) [ni Hi] Hr Hnr Hp Hk H. pose proof (Hf _ _ Hi) as Hilt.
  apply (replace_self_swap i r nr) in H as (G & N & L & q & Hq & Hnew & Hold); auto; [|lia].
  constructor; auto.
  - split; [assumption|]. rewrite N. destruct G1 as [Hf1 _]. eapply Hf1. eassumption.
  - eapply logs_grow_trans; [exact L1|]. apply logs_grow_same. assumption.
  - exists q. split; [|assumption]. destruct Hq as (m & Hm & Em). rewrite (H1 _ _ Hi) in Hm. injection Hm as <-. exists ni. auto.
  - intros j n Hn. pose proof (Hf _ _ Hn) as Hjlt. destruct (Hold j n ltac:(lia) (H1 _ _ Hn)) as (n' & E1 & E2 & E3 & E4 & E5).
    exists n'. repeat split; auto.
    + intros a _. rewrite E5. reflexivity.
    + unfold backlinks_of, value. rewrite E1, Hn, E5, app_nil_r. reflexivity.
Qed.
Lemma only_good P s s' : only P s s' -> good s -> good s'.
Proof.
  intros Ho [Hf Hc]. split; [eapply only_fresh; eassumption|].
  eapply same_structure_consistent; [eapply only_structure; eassumption|assumption].
Qed.
Lemma only_kids P s s' j n : only P s s' -> st_heap s !! j = Some n ->
  exists n', st_heap s' !! j = Some n' /\ n_cls n' = n_cls n /\ n_parent n' = n_parent n /\ kids n' = kids n /\
    forall a, ~ P j a -> n_attrs n' !! a = n_attrs n !! a.
Proof.
  intros Ho Hj. destruct (only_lookup _ _ _ _ _ Ho Hj) as (n' & H1 & H2 & H3 & H4 & H5).
  exists n'. unfold kids. rewrite H2, H4. auto.
Qed.
(** Backlinks may be added afterwards to existing nodes. *)
Lemma swapped_only (s s1 s' : st) i r nr (bl bl' : id -> list str) :
  good s -> swapped s s1 i r nr bl -> only (fun j a => a = a_backlinks /\ j <> r) s1 s' ->
  (forall j, j < st_next s -> backlinks_of (st_heap s') j = backlinks_of (st_heap s1) j ++ bl' j) ->
  swapped s s' i r nr (fun j => bl j ++ bl' j).
Proof.
  intros [Hf _] [G F L (q & Hq & N) K O] Ho Hbl. constructor; auto.
  - eapply only_good; eassumption.
  - destruct Ho as [E _]. lia.
  - destruct Ho as (_ & L' & _). eapply logs_grow_trans; eassumption.
  - exists q. split; [assumption|]. destruct (only_lookup _ _ _ _ _ Ho N) as (n' & H1 & H2 & H3 & H4 & H5).
    rewrite H1. f_equal. destruct n' as [c p ch at'], nr as [c0 p0 ch0 at0]. simpl in *. subst.
    unfold set_n_parent. simpl. f_equal. apply map_eq. intros a. apply H5. intros [_ ?]. auto.
  - intros j n Hn. destruct (O _ _ Hn) as (n1 & H1 & H2 & H3 & H4 & H5 & H6).
    destruct (only_kids _ _ _ _ _ Ho H1) as (n' & E1 & E2 & E3 & E4 & E5).
    exists n'. split; [assumption|]. split; [congruence|]. split; [congruence|]. split; [congruence|].
    split.
    + intros a Ha. rewrite E5, H5; auto. intros [? _]. auto.
    + rewrite Hbl by eauto. rewrite H6, app_assoc. reflexivity.
Qed.

Definition warned (s : st) (m : str) : Prop := In (MkLog logger_tform WARNING m None) (st_logs s).
Lemma warned_grow s s' m : logs_grow s s' -> warned s m -> warned s' m.
Proof. intros. eapply logs_grow_in; eassumption. Qed.

(** *** :ref: *)
Lemma label_to_node_ok d l def s s' x :
  good s -> label_to_node d l def s = (s', Ok x) ->
  ext s s' /\
  match lookup_label d l with
  | Some y => x = y /\ s' = s
  | None => x = st_next s /\ st_next s' = S (st_next s) /\
      warned s' (lit "Reference to nonexistent label """ ++ l ++ lit """") /\
      st_heap s' !! x = Some (match def with
                              | DefError => mk_node CError [(a_text, VStr (unknown_label l))]
                              | DefUnknownBibitem => mk_node CUnknownBibitem [(a_number, VStr (unknown_label l))]
                              end)
  end.
Proof.
  intros Hg H. unfold label_to_node in H. destruct (lookup_label d l) as [y|].
  - msteps. split; [apply ext_refl; assumption|auto].
  - apply bind_ok in H as (s1 & u & Hw & H). apply warn_ok in Hw. subst s1.
    set (r := MkLog logger_tform WARNING (lit "Reference to nonexistent label """ ++ l ++ lit """") None) in *.
    pose proof (ext_log s r Hg) as He1.
    destruct def; apply new_node_ok in H as [-> ->]; (split; [eapply ext_trans; [exact He1|]; apply ext_new; [apply He1|reflexivity|reflexivity]|]);
      (split; [reflexivity|]); (split; [reflexivity|]); (split; [|rewrite new_lookup, decide_True; reflexivity]);
      unfold warned; simpl; apply in_app_iff; right; left; reflexivity.
Qed.


(** What a :ref: to [lbl] with the overriding text [o] is replaced by. *)
Definition ref_node (d : labels) (lbl : str) (o : option val) (nr : node) : Prop :=
  match lookup_label d lbl with
  | Some tgt => exists ov, o = Some ov /\ nr = mk_node CReference [(a_target, VNode tgt); (a_overwrite_reftext, ov)]
  | None => nr = mk_node CError [(a_text, VStr (unknown_label lbl))]
  end.
Definition no_error_labels (d : labels) (h : gmap id node) : Prop :=
  forall l x, lookup_label d l = Some x -> exists n, h !! x = Some n /\ n_cls n <> CError.

Lemma subclass_error c : subclass c CError = true <-> c = CError.
Proof. split; [destruct c; vm_compute; congruence|intros ->; reflexivity]. Qed.
Lemma resolve_reference_ok d i s s' u :
  good s -> no_error_labels d (st_heap s) -> resolve_reference d i s = (s', Ok u) ->
  exists r nr lbl, swapped s s' i r nr (fun _ => []) /\
    value (st_heap s) i a_target = Some (VStr lbl) /\
    ref_node d lbl (value (st_heap s) i a_overwrite_reftext) nr /\
    (lookup_label d lbl = None -> warned s' (lit "Reference to nonexistent label """ ++ lbl ++ lit """")).
Proof.
  intros Hg Hd H. unfold resolve_reference in H.
  apply bind_ok in H as (s0 & lbl & Hs & H). apply get_str_ok in Hs as (-> & n & Hi & Ht).
  apply bind_ok in H as (s1 & tgt & Hl & H).
  apply bind_ok in H as (s2 & tc & Hc & H). apply cls_of_ok in Hc as (-> & nt & Hnt & ->).
  unfold ref_node. rewrite !(value_some _ _ _ _ Hi).
  pose proof (label_to_node_ok _ _ _ _ _ _ Hg Hl) as [He Hm].
  destruct (lookup_label d lbl) as [y|] eqn:El.
  - destruct Hm as [-> ->]. destruct (Hd _ _ El) as (n0 & Hn0 & Hne).
    assert (n0 = nt) as -> by congruence.
    destruct (subclass (n_cls nt) CError) eqn:Es; [apply subclass_error in Es; contradiction|].
    apply bind_ok in H as (s2 & o & Ho & H). apply getattr_ok in Ho as (-> & n1 & Hn1 & Ho).
    apply bind_ok in H as (s3 & r & Hnew & H). apply new_node_ok in Hnew as [-> ->].
    assert (n1 = n) as -> by congruence.
    eexists _, _, lbl. rewrite El. split; [|split; [exact Ht|split; [exists o; split; [exact Ho|reflexivity]|discriminate]]].
    eapply (swapped_intro s (new s _) (st_next s) _ i s' u Hg); [apply ext_new; [exact Hg| | ]|eauto|constructor
      |rewrite new_lookup, decide_True; reflexivity| | |exact H]; reflexivity.
  - destruct Hm as (-> & _ & Hw & Hx). rewrite Hx in Hnt. injection Hnt as <-. simpl in H.
    eexists _, _, lbl. rewrite El.
    assert (Hsw : swapped s s' i (st_next s) (mk_node CError [(a_text, VStr (unknown_label lbl))]) (fun _ => [])).
    { eapply swapped_intro; [exact Hg|exact He|eauto|constructor|exact Hx|reflexivity|reflexivity|exact H]. }
    split; [exact Hsw|]. split; [exact Ht|]. split; [reflexivity|]. intros _.
    eapply warned_grow; [|exact Hw]. apply replace_self_swap with (nr := mk_node CError [(a_text, VStr (unknown_label lbl))]) in H;
      [|apply He|exact Hx|reflexivity|reflexivity|].
    + destruct H as (_ & _ & L & _). apply logs_grow_same. assumption.
    + destruct Hg as [Hf _]. apply Hf in Hi. lia.
Qed.

(** *** :cite: *)
Definition cite_target (d : labels) (lo : id) (h : gmap id node) (l : str) (x : id) : Prop :=
  match lookup_label d l with
  | Some y => x = y
  | None => lo <= x /\ exists n, h !! x = Some n /\ n_cls n = CUnknownBibitem /\
              n_attrs n !! a_number = Some (VStr (unknown_label l))
  end.
Lemma cite_target_mono d lo h lo' h' l x :
  cite_target d lo h l x -> lo' <= lo ->
  (forall j n, h !! j = Some n -> exists n', h' !! j = Some n' /\ n_cls n' = n_cls n /\
     n_attrs n' !! a_number = n_attrs n !! a_number) ->
  cite_target d lo' h' l x.
Proof.
  unfold cite_target. destruct (lookup_label d l); [auto|]. intros (Hlo & n & Hn & Hc & Ha) Hle Hh.
  split; [lia|]. destruct (Hh _ _ Hn) as (n' & E1 & E2 & E3). exists n'. split; [assumption|]. split; congruence.
Qed.
Lemma cite_targets_ok d ls : forall s s' ts,
  good s -> mapM (fun l => label_to_node d l DefUnknownBibitem) ls s = (s', Ok ts) ->
  ext s s' /\ Forall2 (cite_target d (st_next s) (st_heap s')) ls ts.
Proof.
  induction ls as [|l ls IH]; intros s s' ts Hg H; cbn [mapM] in H.
  - msteps. split; [apply ext_refl; assumption|constructor].
  - apply bind_ok in H as (s1 & x & Hx & H). apply bind_ok in H as (s2 & xs & Hxs & H).
    apply ret_ok in H as [-> ->].
    destruct (label_to_node_ok _ _ _ _ _ _ Hg Hx) as [He Hm].
    destruct (IH _ _ _ (proj1 He) Hxs) as [He2 Hf]. split; [eapply ext_trans; eassumption|].
    constructor.
    + unfold cite_target. destruct (lookup_label d l); [tauto|]. destruct Hm as (-> & _ & _ & Hn).
      split; [lia|]. eexists. split; [destruct He2 as (_ & _ & _ & Ho); apply Ho; exact Hn|].
      split; [reflexivity|]. vm_compute. reflexivity.
    + eapply Forall2_impl; [exact Hf|]. intros l' x' Hc. eapply cite_target_mono; [exact Hc| |].
      * destruct He as (_ & ? & _). lia.
      * intros j n Hj. eauto.
Qed.
Lemma occurrences_cons x y l : occurrences x (y :: l) = (if decide (y = x) then 1 else 0) + occurrences x l.
Proof. unfold occurrences. simpl. destruct (Nat.eq_dec y x), (decide (y = x)); try contradiction; reflexivity. Qed.
Lemma repeat_add {A} (x : A) n m : repeat x (n + m) = repeat x n ++ repeat x m.
Proof. induction n; simpl; congruence. Qed.
Lemma add_backlinks_ok lb ts : forall s s' u,
  iterM (add_backlink lb) ts s = (s', Ok u) ->
  only (fun j a => a = a_backlinks /\ j ∈ ts) s s' /\
  (forall j, backlinks_of (st_heap s') j = backlinks_of (st_heap s) j ++ repeat lb (occurrences j ts)) /\
  (forall j, j ∈ ts -> exists l, value (st_heap s) j a_backlinks = Some (VStrs l)).
Proof.
  induction ts as [|x ts IH]; intros s s' u H; cbn [iterM] in H.
  - apply ret_ok in H as [-> _]. split; [apply only_refl|]. split; [intros j; simpl; rewrite app_nil_r; reflexivity|].
    intros j Hj. inversion Hj.
  - apply bind_ok in H as (s1 & u1 & H1 & H). unfold add_backlink in H1.
    apply bind_ok in H1 as (s2 & b & Hb & H1). apply get_strs_ok in Hb as (-> & n & Hn & Hb).
    assert (Ho1 : only (fun j a => a = a_backlinks /\ j ∈ x :: ts) s s1).
    { eapply ch_run; [|exact H1]. apply only_setattr. split; [reflexivity|constructor]. }
    apply setattr_ok in H1 as (n' & Hn' & ->). assert (n' = n) as -> by congruence.
    destruct (IH _ _ _ H) as (Ho & Hbl & Hex). split; [|split].
    + eapply only_trans; [exact Ho1|]. eapply only_weaken; [|exact Ho]. intros j a [-> Hj]. split; [reflexivity|constructor; assumption].
    + intros j. rewrite Hbl, occurrences_cons, repeat_add, app_assoc. f_equal.
      unfold backlinks_of. rewrite (value_upd _ _ _ _ _ _ _ Hn).
      destruct (decide (j = x /\ a_backlinks = a_backlinks)) as [[-> _]|Hne].
      * rewrite (value_some _ _ _ _ Hn), Hb, decide_True; reflexivity.
      * rewrite decide_False by (intros ->; auto). rewrite app_nil_r. reflexivity.
    + intros j Hj. destruct (decide (j = x)) as [->|Hne].
      * exists b. rewrite (value_some _ _ _ _ Hn). assumption.
      * apply elem_of_cons in Hj as [?|Hj]; [contradiction|]. destruct (Hex j Hj) as [l Hl].
        rewrite (value_upd _ _ _ _ _ _ _ Hn), decide_False in Hl by tauto. eauto.
Qed.

Definition cite_label (k : nat) : str := lit "cite-" ++ str_of_nat k.
Definition cite_node (k : nat) (ts : list id) : node :=
  set_n_attr a_label (VStr (cite_label k)) (mk_node CCite [(a_targets, VNodes ts)]).
Lemma resolve_cite_ok d k i s s' u :
  good s -> (forall l x, lookup_label d l = Some x -> is_Some (st_heap s !! x)) ->
  resolve_cite d k i s = (s', Ok u) ->
  exists r ls ts, swapped s s' i r (cite_node k ts) (fun j => repeat (cite_label k) (occurrences j ts)) /\
    value (st_heap s) i a_targetlabels = Some (VStrs ls) /\
    Forall2 (cite_target d (st_next s) (st_heap s')) ls ts.
Proof.
  intros Hg Hd H. unfold resolve_cite in H.
  apply bind_ok in H as (s0 & ls & Hs & H). apply get_strs_ok in Hs as (-> & n & Hi & Ht).
  apply bind_ok in H as (s1 & ts & Hts & H).
  destruct (cite_targets_ok _ _ _ _ _ Hg Hts) as [He Hf].
  apply bind_ok in H as (s2 & r & Hnew & H). apply new_node_ok in Hnew as [-> ->].
  apply bind_ok in H as (s3 & u1 & Hlab & H).
  apply bind_ok in H as (s4 & u2 & Hrep & H).
  assert (He2 : ext s1 (new s1 (mk_node CCite [(a_targets, VNodes ts)]))) by (apply ext_new; [apply He|reflexivity|reflexivity]).
  pose proof (ch_run (only (fun j a => j = st_next s1 /\ a = a_label)) _ _ _ _
                (only_setattr _ _ _ _ (conj eq_refl eq_refl)) Hlab) as Ho3.
  apply setattr_ok in Hlab as (nc & Hnc & E3). rewrite new_lookup, decide_True in Hnc by reflexivity. injection Hnc as <-.
  assert (He3 : ext s s3).
  { split; [eapply only_good; [exact Ho3|apply He2]|].
    destruct He as ([Hf1 _] & N1 & L1 & O1). split; [|split].
    - subst s3. simpl. lia.
    - subst s3. exact L1.
    - intros j m Hj. subst s3. rewrite upd_lookup. pose proof (Hf1 _ _ (O1 _ _ Hj)).
      rewrite decide_False by lia. rewrite new_lookup, decide_False by lia. auto. }
  fold (cite_node k ts) in E3.
  assert (Hr3 : st_heap s3 !! st_next s1 = Some (cite_node k ts)).
  { subst s3. rewrite upd_lookup, decide_True; reflexivity. }
  assert (Hle : st_next s <= st_next s1) by apply He.
  pose proof (swapped_intro s s3 (st_next s1) (cite_node k ts) i s4 u2 Hg He3 ltac:(eauto) Hle Hr3 eq_refl eq_refl Hrep) as Hsw.
  destruct (add_backlinks_ok _ _ _ _ _ H) as (Ho & Hbl & _).
  assert (Hlt : forall x, x ∈ ts -> x < st_next s1).
  { intros x Hx. apply elem_of_list_lookup in Hx as [k0 Hx].
    destruct (Forall2_lookup_r _ _ _ _ _ Hf Hx) as (l & _ & Hct). unfold cite_target in Hct.
    destruct He as ([Hf1 _] & N1 & _ & O1).
    destruct (lookup_label d l) as [y|] eqn:Ey.
    - subst y. destruct (Hd _ _ Ey) as [m Hm]. apply (Hf1 _ _ (O1 _ _ Hm)).
    - destruct Hct as (_ & m & Hm & _). apply (Hf1 _ _ Hm). }
  exists (st_next s1), ls, ts. split; [|split].
  - apply (swapped_only s s4 s' i _ _ (fun _ => [])); [exact Hg|exact Hsw| |].
    + eapply only_weaken; [|exact Ho]. intros j a [-> Hj]. split; [reflexivity|]. apply Hlt in Hj. lia.
    + intros j _. apply Hbl.
  - rewrite (value_some _ _ _ _ Hi). assumption.
  - eapply Forall2_impl; [exact Hf|]. intros l x Hct.
    eapply cite_target_mono; [exact Hct|lia|]. intros j m Hj.
    destruct He as ([Hf1 _] & _). pose proof (Hf1 _ _ Hj) as Hjlt.
    assert (Hj3 : st_heap s3 !! j = Some m).
    { subst s3. rewrite upd_lookup, decide_False by lia. rewrite new_lookup, decide_False by lia. assumption. }
    destruct (replace_self_swap i (st_next s1) (cite_node k ts) s3 s4 u2) as (_ & _ & _ & q & _ & _ & Hold);
      [apply He3|assumption|reflexivity|reflexivity| |exact Hrep|].
    { destruct Hg as [Hf0 _]. apply Hf0 in Hi. lia. }
    destruct (Hold j m ltac:(lia) Hj3) as (m1 & M1 & M2 & _ & _ & M5).
    destruct (only_lookup _ _ _ _ _ Ho M1) as (m2 & Q1 & Q2 & _ & _ & Q5).
    exists m2. split; [assumption|]. split; [congruence|]. rewrite Q5; [congruence|]. intros [? _]. discriminate.
Qed.
