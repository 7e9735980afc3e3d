(** A whole source file. *)
From Verif Require Import TreeFacts Meta TocBuild.
From Verif Require Export ParseSim.
From Verif Require Import Consistency NodeProofs NodeOps Monad.
Local Open Scope string_scope.
Local Open Scope list_scope.

Lemma log_later h lo hi p r b es l b' :
  log_ok h lo hi p r b es l b' -> forall k0 q k n, b = Some k0 -> In (q, k) l -> h !! k = Some n -> n_cls n = CBibliography -> k0 < k.
Proof.
  induction 1; intros k0 q x nx E Hin Hx Hc.
  - destruct Hin.
  - destruct Hin as [[= <- <-]|Hin]; [|eauto]. destruct (H2 (root u) nx); [|assumption|assumption].
    apply elem_of_list_In, root_in_doc_order.
  - eauto.
  - eauto.
  - discriminate.
  - apply in_app_iff in Hin as [Hin|Hin]; [|eauto]. apply in_map_iff in Hin as (u & [= <- <-] & Hu).
    rewrite List.Forall_forall in H1. destruct (H1 u Hu (root u) nx); [|assumption|assumption].
    apply elem_of_list_In, root_in_doc_order.
  - destruct Hin as [[= <- <-]|Hin]; [auto|]. specialize (H5 k0 E). specialize (IHlog_ok k q x nx eq_refl Hin Hx Hc). lia.
Qed.
Lemma log_earlier h lo hi p r b es l b' k :
  log_ok h lo hi p r b es l b' -> r <> k -> p <> Some k -> (exists k0, b = Some k0 /\ k < k0) -> proj l k = [].
Proof.
  intros H Hr Hp. induction H as [|b p0 t u es l b' ? ? ? ? ? IH|b t es l b' ? ? IH|b c es l b' ? IH|c es l b' ? IH|kk c us es l b' ? ? ? ? IH|b kk n es l b' ? ? ? ? ? ? Hlt ? IH]; intros (k0 & E & Hk).
  - reflexivity.
  - rewrite proj_cons_other by congruence. eauto.
  - eauto.
  - eauto.
  - discriminate.
  - injection E as ->. rewrite proj_map_other by lia. eauto.
  - rewrite proj_cons_other by congruence. apply IH. exists kk. specialize (Hlt k0 E). split; [reflexivity|lia].
Qed.
Lemma proj_map_same k (us : list tree) : proj (map (fun u => (k, root u)) us) k = map root us.
Proof. induction us as [|u us IH]; [reflexivity|]. cbn [map]. rewrite proj_cons_same, IH. reflexivity. Qed.
Lemma log_entries h lo hi i b es l b' :
  log_ok h lo hi (Some i) i b es l b' -> forall k, b = Some k -> i <> k ->
  exists us, proj l k = map root us /\ Forall2 (holds h (Some k)) us (entries_here es).
Proof.
  induction 1 as [|b p0 t u es l b' ? ? ? ? ? IH|b t es l b' ? ? IH|b c es l b' ? IH|c es l b' ? IH|kk c us es l b' ? ? ? ? IH|b kk n es l b' ? ? ? ? ? ? Hlt Hlog IH]; intros k E Hi.
  - exists []. split; [reflexivity|constructor].
  - rewrite proj_cons_other by congruence. apply IH; assumption.
  - apply IH; assumption.
  - apply IH; assumption.
  - discriminate.
  - injection E as ->. destruct (IH k eq_refl Hi) as (us' & E1 & E2). exists (us ++ us').
    rewrite proj_app, proj_map_same, E1, map_app. split; [reflexivity|]. simpl. apply Forall2_app; assumption.
  - rewrite proj_cons_other by congruence. exists []. split; [|constructor].
    eapply log_earlier; [exact Hlog|assumption|congruence|]. exists kk. split; [reflexivity|]. apply Hlt. assumption.
Qed.
Lemma log_lay_out h lo hi i b es l b' :
  log_ok h lo hi (Some i) i b es l b' -> i < lo ->
  (forall k n, In (i, k) l -> h !! k = Some n -> n_cls n = CBibliography -> n_children n = proj l k) ->
  (forall k, b = Some k -> i <> k) ->
  exists us, proj l i = map root us /\ Forall2 (holds h (Some i)) us (lay_out es).
Proof.
  induction 1 as [|b p0 t u es l b' ? ? ? ? Hlog IH|b t es l b' ? Hlog IH|b c es l b' Hlog IH|c es l b' Hlog IH|kk c us es l b' ? Hw Hnb Hlog IH|b kk n es l b' Hk Hc Ha Hp ? ? Hlt Hlog IH]; intros Hi Hb Hne.
  - exists []. split; [reflexivity|constructor].
  - assert (p0 = i) as -> by congruence. destruct IH as (us & E1 & E2); [assumption| |assumption|].
    + intros k n Hin Hkn Hc. rewrite (Hb k n (or_intror Hin) Hkn Hc). apply proj_cons_other.
      destruct (log_ok_ids _ _ _ _ _ _ _ _ _ Hlog _ _ Hin) as [? _]. lia.
    + exists (u :: us). rewrite proj_cons_same, E1. split; [reflexivity|]. simpl. constructor; assumption.
  - congruence.
  - simpl. apply IH; assumption.
  - simpl. apply IH; assumption.
  - simpl. rewrite proj_map_other by (intros ->; exact (Hne i eq_refl eq_refl)). apply IH; [assumption| |assumption].
    intros k n Hin Hkn Hc. rewrite (Hb k n (in_or_app _ _ _ (or_intror Hin)) Hkn Hc). apply proj_map_other.
    pose proof (log_later _ _ _ _ _ _ _ _ _ Hlog kk i k n eq_refl Hin Hkn Hc). lia.
  - rewrite proj_cons_same. destruct IH as (us & E1 & E2); [assumption| |intros k [= <-]; lia|].
    + intros k n' Hin Hkn Hcn. rewrite (Hb k n' (or_intror Hin) Hkn Hcn). apply proj_cons_other.
      destruct (log_ok_ids _ _ _ _ _ _ _ _ _ Hlog _ _ Hin) as [? _]. lia.
    + destruct (log_entries _ _ _ _ _ _ _ _ Hlog kk eq_refl ltac:(lia)) as (vs & F1 & F2).
      exists (T kk vs :: us). rewrite E1. split; [reflexivity|]. simpl. constructor; [|assumption].
      unfold bib_node. rewrite <- Ha, <- Hc. apply holds_node; [assumption|assumption| |assumption].
      unfold kids. rewrite Hc. change (has_children CBibliography) with true. cbv iota.
      rewrite (Hb kk n (or_introl eq_refl) Hk Hc), proj_cons_other by lia. exact F1.
Qed.

Lemma holds_tree_at h u : forall p a, holds h p u a -> tree_at h p u.
Proof.
  induction u as [i us IH] using tree_ind'. intros p a H. inversion H as [? ? n ? ts Hn Hp Hk Hts]; subst.
  apply TreeAt with n; try assumption; [reflexivity|].
  clear Hk Hn H. induction Hts as [|u a us ts Hu Hts IHl]; [constructor|].
  apply list.Forall_cons in IH as [IHu IH]. constructor; eauto.
Qed.
(** What the parser is given: the syntax tree of a source file. *)
Definition source (c : cst) : Prop := is_type "source_file" c = true /\ forallb no_source (c_children c) = true.

Lemma abs_loop_mirrors fuel c s s' v :
  source c -> good s -> abs_loop fuel (MkPst None None) [(None, alone c)] s = (s', Ok v) ->
  exists t, ps_root v = Some (root t) /\ holds (st_heap s') None t (mirrored c) /\ good s' /\ st_next s <= root t /\
    (forall j, j < st_next s -> st_heap s' !! j = st_heap s !! j) /\
    st_logs s' = st_logs s ++ warnings false (requests_of (handed_on (skipped_title c) (places_and_outcomes c))).
Proof.
  intros [Hsf Hns] Hg H. destruct fuel as [|fuel]; [discriminate|].
  cbn [abs_loop] in H. apply bind_ok in H as (s1 & [v1 es] & H1 & H). cbn [fst snd] in H. rewrite app_nil_r in H.
  pose proof (is_type_true _ _ Hsf) as Ht.
  assert (Hst : step (MkPst None None) None (alone c) = step_section (MkPst None None) None c).
  { unfold step, is_type, alone. cbn [pl_node]. rewrite Ht. reflexivity. }
  rewrite Hst in H1. apply step_section_ok in H1 as (i & Hh & Ev & -> & Hl & _); [|assumption|intros q [=]].
  rewrite Ht in Ev, Hh. change (subclass (node_class (lit "source_file")) CManuscript) with true in Ev.
  change (node_class (lit "source_file")) with CManuscript in Hh. cbv iota in Ev. subst v1. cbn [ps_bib attached] in *.
  destruct Hh as [Hg1 Hlo Hhi Hd Hn _ _ _]. simpl in Hd, Hn.
  assert (Ho : other_at s1 i) by (eexists; split; [exact Hn|discriminate]).
  assert (Hr : ready s1 (MkPst (Some i) None) i).
  { split; [assumption|reflexivity|assumption|discriminate]. }
  destruct (follows_all fuel fuel (le_n _) _ _ _ _ _ _ _ H Hr Ho) as [lg [R D G B L]].
  { apply filter_Forall, named_clean. assumption. }
  assert (Hat : attached (st_heap s1) (Some i) = Some i) by (unfold attached; rewrite Hn; reflexivity).
  rewrite Hat in G.
  destruct (log_lay_out _ _ _ _ _ _ _ _ G Hhi B) as (us & E1 & E2); [discriminate|].
  rewrite <- handed_on_eq in E2, L.
  exists (T i us). split; [apply R|]. split; [|split; [apply R|split; [exact Hlo|split]]].
  - set (kids0 := lay_out _) in E2. change (mirrored c) with (A CManuscript (section_attrs c) kids0).
    change (A CManuscript (section_attrs c) kids0) with
      (A (n_cls (MkNode CManuscript None (map root us) (section_attrs c))) (n_attrs (MkNode CManuscript None (map root us) (section_attrs c))) kids0).
    apply holds_node; [|reflexivity|reflexivity|exact E2].
    destruct D as [_ D]. rewrite D, Hn by assumption. simpl. unfold add_kids. simpl. rewrite E1. reflexivity.
  - intros j Hj. destruct D as [_ D], Hd as [Hd1 Hd]. rewrite D, Hd by lia. destruct (st_heap s !! j) as [n|]; [|reflexivity].
    cbn [option_map]. change (proj [] j) with (@nil id). rewrite add_kids_nil, proj_none; [rewrite add_kids_nil; reflexivity|].
    intros q k Hin ->. destruct (log_ok_ids _ _ _ _ _ _ _ _ _ G _ _ Hin) as [_ [E|[->|[E|[? _]]]]]; [|lia|discriminate E|lia].
    injection E as ->. lia.
  - rewrite L, Hl. simpl. rewrite reqs_outcomes. reflexivity.
Qed.
