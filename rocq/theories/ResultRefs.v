(** Labels and references after transform. *)
From Verif Require Export Result.
From Verif Require Import Labels HandrailDepth Autonumber FullNumber TocPick Queries Built Meta Subproofs ResolveAll ResolvePrev Resolve NodeOps Monad.

Lemma mentions_backs x cites : forall k,
  mentions x k cites = concat (imap (fun i ts => repeat (cite_label (k + i)) (occurrences x ts)) cites).
Proof.
  induction cites as [|ts cites IH]; intros k; [reflexivity|].
  cbn [mentions]. rewrite IH. cbn [imap concat]. rewrite Nat.add_0_r. f_equal. f_equal.
  apply imap_ext. intros i y _. unfold compose. simpl. rewrite Nat.add_succ_r. reflexivity.
Qed.
Lemma mentions_0 x cites : mentions x 0 cites = backs cites x.
Proof. rewrite mentions_backs. reflexivity. Qed.
Lemma same_has_class h h' ds x : same_structure h h' -> has_class h ds x -> has_class h' ds x.
Proof.
  intros HS (n & Hn & Hc). specialize (HS x). rewrite Hn in HS. destruct (h' !! x) as [n'|] eqn:E; [|contradiction].
  exists n'. destruct HS as (Ec & _). split; [assumption|]. rewrite Ec. assumption.
Qed.
Lemma same_closest h h' ds i r : same_structure h h' -> closest_ancestor h ds i r -> closest_ancestor h' ds i r.
Proof.
  intros HS. pose proof (same_structure_sym _ _ HS) as HS'. destruct r as [x|]; cbn [closest_ancestor].
  - intros (H1 & H2 & H3). split; [eapply same_structure_ancestor; eassumption|]. split; [eapply same_has_class; eassumption|].
    intros b Hb1 Hb2 Hc. apply (H3 b).
    + eapply same_structure_ancestor; eassumption.
    + eapply same_structure_ancestor; eassumption.
    + eapply same_has_class; eassumption.
  - intros H b Hb Hc. apply (H b); [eapply same_structure_ancestor; eassumption|eapply same_has_class; eassumption].
Qed.
Lemma same_is_step h h' x : same_structure h h' -> SpecTransform.is_step h' x = SpecTransform.is_step h x.
Proof.
  intros HS. unfold SpecTransform.is_step. specialize (HS x). destruct (h !! x), (h' !! x); try contradiction; [|reflexivity].
  destruct HS as (Ec & _). rewrite Ec. reflexivity.
Qed.
Lemma same_kth h h' x k y : same_structure h h' -> kth_previous h x k y -> kth_previous h' x k y.
Proof.
  intros HS (l & Hl & Hk). exists l. split; [|assumption]. pose proof (same_structure_sym _ _ HS) as HS'. destruct Hl as [(b & aft & Hs & ->)|[Hn ->]]; [left|right].
  - exists b, aft. split.
    + destruct Hs as (q & nq & Hp & Hq & Hk'). exists q. destruct (same_structure_kids _ _ q HS _ Hq) as (nq' & Hq' & Ek).
      exists nq'. split; [eapply same_structure_parent; eassumption|]. split; [assumption|congruence].
    + f_equal. apply filter_ext_elem. intros z _. symmetry. apply same_is_step. assumption.
  - split; [|reflexivity]. intros q Hq. apply (Hn q). eapply same_structure_parent; eassumption.
Qed.

Section result.
  Context (fuel : nat) (d d' : labels) (s s1 s2 s3 s4 s5 s6 s7 s8 s' : st) (t t3 t6 : tree)
    (f : id -> id) (cites : list (list id)) (a : num_st) (xs : list id).
  Context (Hm : manuscript s t).
  Context (ST : stages fuel d d' s s1 s2 s3 s4 s5 s6 s7 s8 s' t t3 t6 f cites a xs).
  Context (Hd : d = []).
  Notation h := (st_heap s). Notation h1 := (st_heap s1). Notation h2 := (st_heap s2). Notation h3 := (st_heap s3).
  Notation h4 := (st_heap s4). Notation h5 := (st_heap s5). Notation h6 := (st_heap s6). Notation h7 := (st_heap s7).
  Notation h8 := (st_heap s8). Notation h' := (st_heap s').

  Lemma label_kept x : x ∈ doc_order t -> value h' x a_label = value h1 x a_label.
  Proof using Hm ST.
    intros Hx. apply (carried_value _ _ _ _ _ (c1' ST)).
    - eapply carried_some; [exact (c01 ST)|]. apply (in_h Hm). assumption.
    - intros [E|[E|[E|[E|[E|E]]]]]; discriminate.
  Qed.
  Lemma label_first lbl x : first_labelled h (doc_order t) lbl x -> label_of h' x = lbl.
  Proof using Hm ST Hd.
    intros (Hne & Hl & l1 & l2 & E & Hbefore). unfold label_of. rewrite label_kept by (rewrite E; set_solver).
    destruct (sg_labels ST) as (_ & _ & Hv). rewrite (Hv _ _ _ E), Hl. destruct lbl as [|c lbl]; [congruence|].
    unfold taken_label. rewrite Hd. cbn [lookup_label]. 
    destruct (existsb _ l1) eqn:Ex.
    - apply existsb_exists in Ex as (j & Hj & Ej). apply str_eqb_eq in Ej. apply elem_of_list_In in Hj. exfalso. apply (Hbefore j Hj Ej).
    - exact Hl.
  Qed.
  Lemma label_later lbl x y : first_labelled h (doc_order t) lbl x -> y ∈ doc_order t -> y <> x -> label_of h y = lbl ->
    value h' y a_label = Some (VStr []).
  Proof using Hm ST Hd.
    intros (Hne & Hl & l1 & l2 & E & Hbefore) Hy Hyx Hly. rewrite label_kept by assumption.
    assert (Hy2 : y ∈ l2).
    { rewrite E in Hy. apply elem_of_app in Hy as [Hy|Hy]; [exfalso; apply (Hbefore y Hy Hly)|].
      apply elem_of_cons in Hy as [Hy|Hy]; [contradiction|assumption]. }
    apply elem_of_list_split in Hy2 as (l3 & l4 & ->).
    destruct (sg_labels ST) as (_ & _ & Hv). rewrite (Hv (l1 ++ x :: l3) y l4) by (rewrite E, <- app_assoc; reflexivity).
    rewrite Hly. destruct lbl as [|c lbl]; [congruence|]. unfold taken_label. rewrite Hd. cbn [lookup_label].
    rewrite (proj2 (existsb_exists _ _)); [reflexivity|]. exists x. split; [apply in_or_app; right; left; reflexivity|].
    apply str_eqb_eq. assumption.
  Qed.
  Lemma label_none x : x ∈ doc_order t -> label_of h x = [] -> value h' x a_label = value h x a_label.
  Proof using Hm ST.
    intros Hx Hl. rewrite label_kept by assumption. pose proof Hx as Hx'. apply elem_of_list_split in Hx' as (l3 & l4 & E).
    destruct (sg_labels ST) as (_ & _ & Hv). rewrite (Hv _ _ _ E), Hl. reflexivity.
  Qed.
  Lemma first_exists hh l lbl x : lbl <> [] -> x ∈ l -> label_of hh x = lbl -> exists y, first_labelled hh l lbl y.
  Proof using.
    intros Hne Hx Hl. destruct (find_label hh l lbl) as [y|] eqn:E; [apply find_label_first in E; eauto|].
    apply find_label_none in E. exfalso. apply (E x Hx Hl).
  Qed.
  Lemma label_from x : x ∈ doc_order t -> label_of h' x <> [] -> first_labelled h (doc_order t) (label_of h' x) x.
  Proof using Hm ST Hd.
    intros Hx Hne. destruct (label_of h x) as [|c l] eqn:El.
    - exfalso. apply Hne. unfold label_of. rewrite label_none by assumption. exact El.
    - destruct (first_exists h (doc_order t) (c :: l) x) as (y & Hy); [discriminate|assumption|assumption|].
      destruct (decide (x = y)) as [<-|Hn].
      + rewrite (label_first _ _ Hy). assumption.
      + exfalso. apply Hne. unfold label_of. rewrite (label_later _ _ _ Hy) by assumption. reflexivity.
  Qed.
  Theorem labels_unique x y : x ∈ doc_order t -> y ∈ doc_order t -> label_of h' x = label_of h' y -> label_of h' x <> [] -> x = y.
  Proof using Hm ST Hd.
    intros Hx Hy E Hne. pose proof (label_from x Hx Hne) as H1. assert (Hne' : label_of h' y <> []) by congruence.
    pose proof (label_from y Hy Hne') as H2. rewrite <- E in H2.
    apply find_label_first in H1; [|assumption]. apply find_label_first in H2; [|assumption]. congruence.
  Qed.

  Theorem no_pending y : y ∈ doc_order t6 -> ~ is_pending h' y.
  Proof using Hm ST.
    intros Hy Hp. assert (Hcl : forall c, class_of h' y c -> c <> CPendingReference /\ c <> CPendingCite /\ c <> CPendingPrev ).
    { intros c Hc. assert (Hall : exists c', class_of h' y c' /\ c' <> CPendingReference /\ c' <> CPendingCite /\ c' <> CPendingPrev).
      { destruct (decide (y ∈ map f (doc_order t))) as [Hin|Hn].
        - apply elem_of_list_fmap in Hin as (x & -> & Hx). destruct (pendingb h x) eqn:Ep.
          + apply pending_iff in Ep. destruct (f_new Hm ST x Hx Ep) as (_ & n' & Hn' & Hc').
            destruct (c2' ST _ _ Hn') as (n2 & Hn2 & Ec & _). exists (n_cls n2). split; [exists n2; auto|]. rewrite Ec.
            rewrite !elem_of_cons in Hc'. destruct Hc' as [->|[->|[->|Hc']]]; [repeat split; discriminate..|inversion Hc'].
          + assert (Hnp : ~ is_pending h x) by (rewrite <- pending_iff; congruence). rewrite (f_same Hm ST x Hx Hnp).
            destruct (in_h Hm x Hx) as [n Hn]. destruct (c0' ST _ _ Hn) as (n' & Hn' & Ec & _).
            exists (n_cls n). split; [exists n'; auto|]. unfold is_pending, class_of in Hnp. repeat split; intros E; apply Hnp; eauto 6.
        - destruct (tf_added _ _ _ _ _ (result_transformed Hm ST) y Hy Hn) as (_ & c' & Hc' & Hin). exists c'. split; [assumption|].
          rewrite !elem_of_cons in Hin. destruct Hin as [->|[->|[->|[->|[->|Hin]]]]]; [repeat split; discriminate..|inversion Hin]. }
      destruct Hall as (c' & (n' & Hn' & Ec') & H). destruct Hc as (n & Hn & Ec). assert (n = n') as -> by congruence. rewrite <- Ec, Ec'. assumption. }
    destruct Hp as [Hp|[Hp|Hp]]; apply Hcl in Hp; tauto.
  Qed.

  (** *** References *)
  Lemma dict_first lbl : lookup_label d' lbl = match lbl with [] => None | _ => find_label h (doc_order t) lbl end.
  Proof using ST Hd. destruct (sg_labels ST) as (_ & Hk & _). rewrite Hk, Hd. reflexivity. Qed.
  Lemma dict_some lbl x : lookup_label d' lbl = Some x -> first_labelled h (doc_order t) lbl x.
  Proof using ST Hd. rewrite dict_first. destruct lbl; [discriminate|]. apply find_label_first. discriminate. Qed.
  Lemma dict_none lbl : lookup_label d' lbl = None -> nobody_carries h (doc_order t) lbl.
  Proof using ST Hd.
    rewrite dict_first. intros H x Hx. destruct lbl as [|c lbl]; [apply (proj1 Hx); reflexivity|].
    apply find_label_first in Hx; [|discriminate]. congruence.
  Qed.
  Lemma value1 x b : x ∈ doc_order t -> b <> a_label -> value h1 x b = value h x b.
  Proof using Hm ST. intros Hx Hb. apply (carried_value _ _ _ _ _ (c01 ST)); [apply (in_h Hm); assumption|assumption]. Qed.
  Lemma like_final j nr n' : h2 !! f j = Some n' -> like nr n' ->
    class_of h' (f j) (n_cls nr) /\ forall b, b <> a_backlinks -> ~ mid_attr b -> value h' (f j) b = n_attrs nr !! b.
  Proof using ST.
    intros Hn' (Ec & _ & Ha). destruct (c2' ST _ _ Hn') as (n2 & Hn2 & Ec2 & Ha2). split; [exists n2; split; [assumption|congruence]|].
    intros b Hb1 Hb2. unfold value. rewrite Hn2, Ha2, Ha by assumption. reflexivity.
  Qed.
  Lemma logs_end m : warned s2 m -> logged_warning s' m.
  Proof using ST.
    intros H. unfold logged_warning. eapply logs_grow_in; [|exact H].
    eapply logs_grow_trans; [apply logs_grow_same; apply (sp_logs _ _ _ _ (sg_steps ST))|]. eapply logs_grow_trans; [apply (sg_num_only ST)|].
    eapply logs_grow_trans; [apply (pr_logs _ _ _ (sg_pruned ST))|]. eapply logs_grow_trans; [apply (ex_logs _ _ (sg_extends ST))|].
    eapply logs_grow_trans; [apply (sg_con_only ST)|]. eapply logs_grow_trans; [apply (sg_depth_only ST)|]. apply (sg_ids_only ST).
  Qed.
  Ltac notmid := intros [E|[E|[E|[E|E]]]]; discriminate.
  Theorem refs_resolved j : j ∈ doc_order t -> class_of h j CPendingReference -> ref_resolved s t s' f j.
  Proof using Hm ST Hd.
    intros Hj Hc. assert (Hp : is_pending h j) by (left; assumption). apply (pending1 Hm ST) in Hp; [|assumption].
    destruct (ri_res _ _ _ _ _ _ (sg_resolve ST) _ Hj Hp) as (_ & n & n' & Hn & Hn' & _ & _ & Hr).
    destruct (carried_class _ _ _ _ _ (c01 ST) Hc) as (m & Hm1 & Ec). unfold resolved, class_in in Hr. rewrite Hm1 in Hr. simpl in Hr. rewrite Ec in Hr.
    destruct Hr as (lbl & nr & Hv & Href & Hlike & Hw). rewrite value1 in Hv by (assumption || discriminate).
    exists lbl. split; [assumption|]. destruct (like_final _ _ _ Hn' Hlike) as [Hcl Hval]. unfold ref_node in Href.
    destruct (lookup_label d' lbl) as [x|] eqn:El.
    - left. exists x. split; [apply dict_some; assumption|]. destruct Href as (ov & Hov & ->). split; [exact Hcl|].
      rewrite !Hval by first [discriminate|notmid]. rewrite value1 in Hov by (assumption || discriminate). rewrite Hov. split; reflexivity.
    - right. split; [apply dict_none; assumption|]. subst nr. split; [exact Hcl|]. split; [|apply logs_end; auto].
      rewrite Hval by first [discriminate|notmid]. reflexivity.
  Qed.
  Theorem prevs_resolved j : j ∈ doc_order t -> class_of h j CPendingPrev -> prev_resolved s s' f j.
  Proof using Hm ST.
    intros Hj Hc. assert (Hp : is_pending h j) by (right; right; assumption). apply (pending1 Hm ST) in Hp; [|assumption].
    destruct (ri_res _ _ _ _ _ _ (sg_resolve ST) _ Hj Hp) as (_ & n & n' & Hn & Hn' & _ & _ & Hr).
    destruct (carried_class _ _ _ _ _ (c01 ST) Hc) as (m & Hm1 & Ec). unfold resolved, class_in in Hr. rewrite Hm1 in Hr. simpl in Hr. rewrite Ec in Hr.
    destruct Hr as (y & ov & Hov & (step & tv & k & Ha & Ht & Hk & Hprev) & Hlike).
    rewrite value1 in Hov, Ht by (assumption || discriminate).
    assert (HS : same_structure h1 h) by (apply same_structure_sym; eapply only_structure; apply (sg_labels ST)).
    exists step, tv, k, y. destruct (like_final _ _ _ Hn' Hlike) as [Hcl Hval].
    split; [eapply same_closest; eassumption|]. split; [assumption|]. split; [assumption|]. split; [eapply same_kth; eassumption|].
    split; [exact Hcl|]. rewrite !Hval by first [discriminate|notmid]. rewrite Hov. split; reflexivity.
  Qed.
  Lemma is_cite1 x : x ∈ doc_order t -> citeb h1 x = is_cite h x.
  Proof using Hm ST.
    intros Hx. unfold citeb, holds, cond_exact, is_cite.
    rewrite (carried_classb (fun c => cls_mem c [CPendingCite]) _ _ _ _ (c01 ST)) by (apply (in_h Hm); assumption).
    destruct (h !! x) as [n|]; [|reflexivity]. unfold cls_mem. simpl. apply orb_false_r.
  Qed.
  Lemma cites_order : List.filter (citeb h1) (doc_order t) = List.filter (is_cite h) (doc_order t).
  Proof using Hm ST. apply filter_ext_elem. intros. apply is_cite1. assumption. Qed.
  Lemma filter_nth_nodup {A} (g : A -> bool) l k k' x : NoDup l -> nth_error (List.filter g l) k = Some x -> nth_error (List.filter g l) k' = Some x -> k = k'.
  Proof using.
    intros Hnd H1 H2. apply (NoDup_nth_error (List.filter g l)).
    - apply NoDup_filter, NoDup_ListNoDup. assumption.
    - apply nth_error_Some. congruence.
    - congruence.
  Qed.
  Theorem cites_resolved :
    length cites = length (List.filter (is_cite h) (doc_order t)) /\
    (forall k j ts, nth_error (List.filter (is_cite h) (doc_order t)) k = Some j -> nth_error cites k = Some ts ->
       cite_resolved s t s' f k j ts) /\
    (forall x, is_Some (h !! x) -> backlinks_of h' x = backlinks_of h x ++ mentions x 0 cites).
  Proof using Hm ST Hd.
    split; [rewrite <- cites_order; apply (ri_cites _ _ _ _ _ _ (sg_resolve ST))|]. split.
    - intros k j ts Hk Hts. pose proof (nth_error_In _ _ Hk) as Hin. apply filter_In in Hin as [Hj Hcj]. apply elem_of_list_In in Hj.
      assert (Hc : class_of h j CPendingCite).
      { unfold is_cite in Hcj. destruct (h !! j) as [n|] eqn:E; [|discriminate]. exists n. split; [assumption|].
        destruct (cls_eqb_spec (n_cls n) CPendingCite); congruence. }
      assert (Hp : is_pending h j) by (right; left; assumption). apply (pending1 Hm ST) in Hp; [|assumption].
      destruct (ri_res _ _ _ _ _ _ (sg_resolve ST) _ Hj Hp) as (_ & n & n' & Hn & Hn' & _ & _ & Hr).
      destruct (carried_class _ _ _ _ _ (c01 ST) Hc) as (m & Hm1 & Ec). unfold resolved, class_in in Hr. rewrite Hm1 in Hr. simpl in Hr. rewrite Ec in Hr.
      destruct Hr as (k' & ls & ts' & Hk' & Hls & Hts' & Hall & Hlike). rewrite cites_order in Hk'.
      assert (k' = k) as -> by (eapply filter_nth_nodup; [apply (ms_document _ _ Hm)|exact Hk'|exact Hk]).
      assert (ts' = ts) as -> by congruence. destruct (like_final _ _ _ Hn' Hlike) as [Hcl Hval].
      split; [exact Hcl|]. rewrite !Hval by first [discriminate|notmid]. split; [reflexivity|]. split; [reflexivity|].
      rewrite value1 in Hls by (assumption || discriminate). exists ls. split; [assumption|].
      eapply list.Forall2_impl; [exact Hall|]. intros l x Hx. unfold cite_target in Hx. destruct (lookup_label d' l) as [y|] eqn:El.
      + subst x. left. apply dict_some. assumption.
      + right. split; [apply dict_none; assumption|]. destruct Hx as (Hge & nx & Hnx & Hcx & _). split.
        * destruct (h !! x) as [q|] eqn:E; [|reflexivity]. apply (below Hm) in E. pose proof (n01 ST). lia.
        * eapply carried_class; [exact (c2' ST)|]. exists nx. auto.
    - intros x Hx. assert (H1 : is_Some (h1 !! x)) by (eapply carried_some; [exact (c01 ST)|assumption]). destruct H1 as [n1 Hn1].
      destruct (ri_old _ _ _ _ _ _ (sg_resolve ST) _ _ Hn1) as (n2 & Hn2 & _ & _ & _ & _ & Hb).
      assert (E1 : backlinks_of h1 x = backlinks_of h x).
      { unfold backlinks_of. rewrite (carried_value _ _ _ _ _ (c01 ST)) by (assumption || discriminate). reflexivity. }
      assert (E2 : backlinks_of h' x = backlinks_of h2 x).
      { unfold backlinks_of. rewrite (carried_value _ _ _ _ _ (c2' ST)) by (eauto || notmid). reflexivity. }
      rewrite E2, Hb, E1, mentions_0. reflexivity.
  Qed.
End result.
