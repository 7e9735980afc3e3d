(** The passes of transform, one after the other. *)
From Verif Require Export SpecResult TocEntries Comparable Passes.
From Verif Require Import Labels HandrailDepth Autonumber FullNumber Queries Built Meta Subproofs ResolveAll ResolvePrev Resolve NodeOps Monad.

Definition label_pass (d d' : labels) (s s1 : st) (t : tree) : Prop :=
  only (fun j a => j ∈ doc_order t /\ a = a_label) s s1 /\
  (forall lbl, lookup_label d' lbl =
     match lookup_label d lbl with
     | Some x => Some x
     | None => match lbl with [] => None | _ => find_label (st_heap s) (doc_order t) lbl end
     end) /\
  (forall p i q, doc_order t = p ++ i :: q ->
     value (st_heap s1) i a_label =
     match label_of (st_heap s) i with
     | [] => value (st_heap s) i a_label
     | lbl => if taken_label d (st_heap s) p lbl then Some (VStr []) else value (st_heap s) i a_label
     end).

(** The first three passes: labels, references and subproofs. *)
Record early (d d' : labels) (s s1 s2 s3 : st) (t t3 : tree) (f : id -> id) (cites : list (list id)) : Prop := {
  sg_labels : label_pass d d' s s1 t;
  sg_m1 : manuscript s1 t;
  sg_resolve : rinv s1 d' (doc_order t) f cites s2;
  sg_m2 : manuscript s2 (tmap f t);
  sg_steps : sub_post s2 s3 [tmap f t] [t3];
  sg_m3 : manuscript s3 t3;
  sg_restructured : restructured (st_heap s2) (st_heap s3) (tmap f t) t3;
}.
(** ... and the numbers. *)
Record middle (d d' : labels) (s s1 s2 s3 s4 : st) (t t3 : tree) (f : id -> id) (cites : list (list id)) (a : num_st) : Prop := {
  md_early :> early d d' s s1 s2 s3 t t3 f cites;
  sg_num_only : only num_attr s3 s4;
  sg_num : num_inv (st_heap s3) (doc_order t3) a (st_heap s4);
  sg_m4 : manuscript s4 t3;
}.
(** ... and the rest. *)
Record stages (fuel : nat) (d d' : labels) (s s1 s2 s3 s4 s5 s6 s7 s8 s' : st) (t t3 t6 : tree)
    (f : id -> id) (cites : list (list id)) (a : num_st) (xs : list id) : Prop := {
  sg_middle :> middle d d' s s1 s2 s3 s4 t t3 f cites a;
  sg_toc : exists u, make_toc fuel (root t3) s4 = (s6, Ok u);
  sg_xs : xs = tail (contents_in (st_heap s4) (doc_order t3));
  sg_pruned : pruned s4 s5 xs;
  sg_m5 : manuscript s5 (prune xs t3);
  sg_extends : extends s5 s6;
  sg_m6 : manuscript s6 t6;
  sg_r6 : root t6 = root t;
  sg_t6 : prune (added_ids s5 t6) t6 = prune xs t3;
  sg_new6 : forall x, x ∈ added_ids s5 t6 -> exists n, st_heap s6 !! x = Some n /\ toc_class (n_cls n);
  sg_con_only : only (fun j b => j ∈ doc_order t6 /\ constructb (st_heap s6) j = true /\ b = a_types) s6 s7;
  sg_con : forall x, x ∈ doc_order t6 -> constructb (st_heap s6) x = true ->
    exists kind ts, kind <> [] /\ value (st_heap s6) x a_kind = Some (VStr kind) /\ value (st_heap s6) x a_types = Some (VStrs ts) /\
      value (st_heap s7) x a_types =
        Some (VStrs (ts ++ [kind] ++ if str_mem kind not_assumption then [] else [lit "assumption"]));
  sg_m7 : manuscript s7 t6;
  sg_depth_only : only depth_attr s7 s8;
  sg_depth : forall y l, y ∈ doc_order t6 -> ancestors (st_heap s7) y l ->
    deeper (list_sum (map (handrails_of (st_heap s7)) l))
      (value (st_heap s7) y a_handrail_depth) (value (st_heap s8) y a_handrail_depth);
  sg_m8 : manuscript s8 t6;
  sg_ids_only : only id_attr s8 s';
  sg_ids : forall j x, doc_order t6 !! j = Some x -> value (st_heap s') x a_nodeid = Some (VInt (Z.of_nat j));
  sg_m' : manuscript s' t6;
}.

Arguments sg_labels {d d' s s1 s2 s3 t t3 f cites} _.
Arguments sg_m1 {d d' s s1 s2 s3 t t3 f cites} _.
Arguments sg_resolve {d d' s s1 s2 s3 t t3 f cites} _.
Arguments sg_m2 {d d' s s1 s2 s3 t t3 f cites} _.
Arguments sg_steps {d d' s s1 s2 s3 t t3 f cites} _.
Arguments sg_m3 {d d' s s1 s2 s3 t t3 f cites} _.
Arguments sg_restructured {d d' s s1 s2 s3 t t3 f cites} _.
Arguments sg_num_only {d d' s s1 s2 s3 s4 t t3 f cites a} _.
Arguments sg_num {d d' s s1 s2 s3 s4 t t3 f cites a} _.
Arguments sg_m4 {d d' s s1 s2 s3 s4 t t3 f cites a} _.
Arguments md_early {d d' s s1 s2 s3 s4 t t3 f cites a} _.
Arguments sg_middle {fuel d d' s s1 s2 s3 s4 s5 s6 s7 s8 s' t t3 t6 f cites a xs} _.
Arguments sg_toc {fuel d d' s s1 s2 s3 s4 s5 s6 s7 s8 s' t t3 t6 f cites a xs} _.
Arguments sg_xs {fuel d d' s s1 s2 s3 s4 s5 s6 s7 s8 s' t t3 t6 f cites a xs} _.
Arguments sg_pruned {fuel d d' s s1 s2 s3 s4 s5 s6 s7 s8 s' t t3 t6 f cites a xs} _.
Arguments sg_m5 {fuel d d' s s1 s2 s3 s4 s5 s6 s7 s8 s' t t3 t6 f cites a xs} _.
Arguments sg_extends {fuel d d' s s1 s2 s3 s4 s5 s6 s7 s8 s' t t3 t6 f cites a xs} _.
Arguments sg_m6 {fuel d d' s s1 s2 s3 s4 s5 s6 s7 s8 s' t t3 t6 f cites a xs} _.
Arguments sg_r6 {fuel d d' s s1 s2 s3 s4 s5 s6 s7 s8 s' t t3 t6 f cites a xs} _.
Arguments sg_t6 {fuel d d' s s1 s2 s3 s4 s5 s6 s7 s8 s' t t3 t6 f cites a xs} _.
Arguments sg_new6 {fuel d d' s s1 s2 s3 s4 s5 s6 s7 s8 s' t t3 t6 f cites a xs} _.
Arguments sg_con_only {fuel d d' s s1 s2 s3 s4 s5 s6 s7 s8 s' t t3 t6 f cites a xs} _.
Arguments sg_con {fuel d d' s s1 s2 s3 s4 s5 s6 s7 s8 s' t t3 t6 f cites a xs} _.
Arguments sg_m7 {fuel d d' s s1 s2 s3 s4 s5 s6 s7 s8 s' t t3 t6 f cites a xs} _.
Arguments sg_depth_only {fuel d d' s s1 s2 s3 s4 s5 s6 s7 s8 s' t t3 t6 f cites a xs} _.
Arguments sg_depth {fuel d d' s s1 s2 s3 s4 s5 s6 s7 s8 s' t t3 t6 f cites a xs} _.
Arguments sg_m8 {fuel d d' s s1 s2 s3 s4 s5 s6 s7 s8 s' t t3 t6 f cites a xs} _.
Arguments sg_ids_only {fuel d d' s s1 s2 s3 s4 s5 s6 s7 s8 s' t t3 t6 f cites a xs} _.
Arguments sg_ids {fuel d d' s s1 s2 s3 s4 s5 s6 s7 s8 s' t t3 t6 f cites a xs} _.
Arguments sg_m' {fuel d d' s s1 s2 s3 s4 s5 s6 s7 s8 s' t t3 t6 f cites a xs} _.

Lemma only_manuscript P s s' t : only P s s' -> manuscript s t -> manuscript s' t.
Proof.
  intros Ho [Hf Hc Hd]. pose proof (only_structure _ _ _ Ho) as Hs. split.
  - eapply only_fresh; eassumption.
  - eapply same_structure_consistent; eassumption.
  - eapply same_structure_document; eassumption.
Qed.
Lemma run_comparable {A} (m : M A) s s' r : K m -> all_comparable s -> m s = (s', r) -> all_comparable s'.
Proof. intros Hk Hs H. pose proof (Hk s Hs) as H1. rewrite H in H1. exact H1. Qed.

Lemma check_same cond e : forall fuel stk s s' (u : unit),
  trav_loop fuel cond (fun (_ : unit) _ => raise e) tt stk s = (s', Ok u) -> s' = s.
Proof.
  induction fuel as [|fuel IH]; intros [|i stk] s s' u H; [apply ret_ok in H as [-> _]; reflexivity|discriminate|apply ret_ok in H as [-> _]; reflexivity|].
  apply trav_loop_cons_ok in H as (n & s1 & acc & n1 & _ & Hb & _ & H). destruct (cond n); [discriminate|].
  apply ret_ok in Hb as [-> ->]. eapply IH. exact H.
Qed.

Theorem transform_stages fuel d s t s' d' :
  manuscript s t -> all_comparable s -> errors_unlabelled (st_heap s) t ->
  (forall l x, lookup_label d l = Some x -> exists n, st_heap s !! x = Some n /\ n_cls n <> CError) ->
  transform fuel d (root t) s = (s', Ok d') ->
  exists s1 s2 s3 s4 s5 s6 s7 s8 t3 t6 f cites a xs,
    stages fuel d d' s s1 s2 s3 s4 s5 s6 s7 s8 s' t t3 t6 f cites a xs.
Proof.
  intros Hm Hcmp Herr Hd H. unfold transform in H.
  apply bind_ok in H as (s0 & u0 & H0 & H).
  assert (Hm0 : manuscript s0 t).
  { eapply (only_manuscript (fun _ _ => True)); [|exact Hm]. exact (ch_run _ _ _ _ _ (only_log _ _) H0). }
  assert (Eh0 : st_heap s0 = st_heap s /\ logs_grow s s0 /\ st_next s0 = st_next s).
  { unfold info, log_rec in H0. injection H0 as <- _. split; [reflexivity|]. split; [|reflexivity]. eexists. reflexivity. }
  assert (Hcmp0 : all_comparable s0) by (eapply run_comparable; [|exact Hcmp|exact H0]; apply k_info).
  apply bind_ok in H as (s1 & d1 & H1 & H).
  apply bind_ok in H as (s2 & u2 & H2 & H). apply bind_ok in H as (s3 & u3 & H3 & H).
  apply bind_ok in H as (s4 & u4 & H4 & H). apply bind_ok in H as (s6 & u6 & H6 & H).
  apply bind_ok in H as (s7 & u7 & H7 & H). apply bind_ok in H as (s8 & u8 & H8 & H).
  apply bind_ok in H as (s9 & u9 & H9 & H). apply ret_ok in H as [-> ->].
  assert (Hl : label_pass d d1 s s1 t).
  { destruct (collect_labels_ok _ _ _ _ _ _ (ms_document _ _ Hm0) H1) as (Ho & Hk & Hv).
    destruct Eh0 as (Eh & Hlog & En). unfold label_pass. rewrite <- Eh. split; [|split; assumption].
    destruct Ho as (On & Ol & Oh). split; [congruence|]. split; [eapply logs_grow_trans; eassumption|]. rewrite <- Eh. exact Oh. }
  assert (Hm1 : manuscript s1 t) by (eapply only_manuscript; [apply Hl|exact Hm]).
  assert (Hne : no_error_labels d1 (st_heap s1)).
  { intros l x Hx. destruct Hl as (Ho & Hk & _). rewrite Hk in Hx.
    assert (Hold : exists n, st_heap s !! x = Some n /\ n_cls n <> CError).
    { destruct (lookup_label d l) as [y|] eqn:Ey; [injection Hx as <-; eauto|].
      destruct l as [|ch l]; [discriminate|].
      apply find_label_first in Hx; [|discriminate]. destruct Hx as (_ & Hlab & l1 & l2 & Ed & _).
      assert (Hin : x ∈ doc_order t) by (rewrite Ed; set_solver).
      destruct (manuscript_some _ _ _ Hm Hin) as [n Hn]. exists n. split; [assumption|]. intros Ec.
      rewrite (Herr x Hin) in Hlab by (exists n; auto). discriminate. }
    destruct Hold as (n & Hn & Hc). destruct (only_kids _ _ _ _ _ Ho Hn) as (n' & Hn' & Ec & _). exists n'. split; [assumption|congruence]. }
  unfold resolve_pending_references in H2. apply bind_ok in H2 as (s2' & k & H2 & Hchk).
  destruct (resolve_pass _ _ _ _ _ _ Hm1 Hne H2) as (f & cites & RI).
  pose proof (rinv_document _ _ _ _ _ _ Hm1 RI) as Hm2.
  assert (Hroot : root (tmap f t) = root t).
  { destruct t as [i cs]. cbn [tmap root]. apply (ri_fix _ _ _ _ _ _ RI). intros [Hin Hp].
    destruct (ri_res _ _ _ _ _ _ RI _ Hin Hp) as (Hfr & n & n' & Hn & Hn' & Ep & _).
    destruct (ri_old _ _ _ _ _ _ RI _ _ Hn) as (m & Hm' & Ec & _).
    apply bind_ok in Hchk as (s2a & w & Hchk & _). unfold for_traverse in Hchk. cbn [root] in Hchk.
    destruct fuel as [|fuel]; [discriminate|]. apply trav_loop_cons_ok in Hchk as (m' & s2b & acc & m2 & Hm'' & Hb & _).
    rewrite Hm' in Hm''. injection Hm'' as <-.
    assert (Hcond : cond_exact pending_classes m = true).
    { unfold pendingb, holds in Hp. cbn [root] in Hn. rewrite Hn in Hp. unfold cond_exact in *. rewrite Ec. exact Hp. }
    rewrite Hcond in Hb. discriminate. }
  assert (s2 = s2') as ->.
  { apply bind_ok in Hchk as (s2a & w & Hchk & Hr). apply ret_ok in Hr as [-> _]. eapply check_same. exact Hchk. }
  destruct t as [rt ct] eqn:Et. rewrite <- Et in *. clear Hchk.
  rewrite <- Hroot in H3. destruct (add_necessary_subproofs_ok _ _ _ _ _ Hm2 H3) as (t3 & SP & Hm3 & RS).
  assert (Hroot3 : root t3 = root t) by (rewrite (restructured_root _ _ _ _ RS); assumption).
  rewrite <- Hroot3 in H4. destruct u4. destruct (autonumber_ok _ _ _ _ Hm3 H4) as (ON & a & NI).
  pose proof (only_manuscript _ _ _ _ ON Hm3) as Hm4.
  rewrite <- Hroot3 in H6. destruct (make_toc_ok _ _ _ _ _ Hm4 H6) as (s5 & P & Hm5 & EX & _).
  destruct (extends_manuscript _ _ _ Hm5 EX) as (t6 & Hm6 & Er6 & Et6 & Hnew6). rewrite prune_root, Hroot3 in Er6.
  rewrite <- Er6 in H7, H8, H9. destruct u7, u8, u9.
  destruct (constructs_ok _ _ _ _ Hm6 H7) as (OC & HC). pose proof (only_manuscript _ _ _ _ OC Hm6) as Hm7.
  assert (Hcmp7 : all_comparable s7).
  { eapply run_comparable; [apply k_constructs| |exact H7]. eapply run_comparable; [apply k_toc| |exact H6].
    eapply run_comparable; [apply k_autonumber| |exact H4]. eapply run_comparable; [apply k_subproofs| |exact H3].
    eapply run_comparable; [apply (k_traverse (cond_exact pending_classes) (resolve_body fuel d1)); intros; unfold resolve_body; kp| |exact H2].
    eapply run_comparable; [apply k_collect|exact Hcmp0|exact H1]. }
  destruct (handrail_depth_ok _ _ _ _ Hm7 Hcmp7 H8) as (OD & HD). pose proof (only_manuscript _ _ _ _ OD Hm7) as Hm8.
  destruct (node_ids_ok _ _ _ _ Hm8 H9) as (OI & HI). pose proof (only_manuscript _ _ _ _ OI Hm8) as Hm9.
  exists s1, s2', s3, s4, s5, s6, s7, s8, t3, t6, f, cites, a, (tail (contents_in (st_heap s4) (doc_order t3))).
  constructor; [constructor; [constructor|..]|..]; try assumption; try reflexivity. eexists. exact H6.
Qed.
