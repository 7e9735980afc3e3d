(** The loop of the parser follows the specification. *)
From Verif Require Import TreeFacts Meta TocBuild.
From Verif Require Export ParseTree.
From Verif Require Import Consistency NodeProofs NodeOps Monad.
Local Open Scope string_scope.
Local Open Scope list_scope.

Lemma filter_map_pair {A B} (f : A -> B) (P : A -> bool) (Q : A * B -> bool) l :
  (forall x, Q (x, f x) = P x) ->
  List.filter Q (map (fun x => (x, f x)) l) = map (fun x => (x, f x)) (List.filter P l).
Proof. intros H. induction l as [|x l IH]; [reflexivity|]. simpl. rewrite H, IH. destruct (P x); reflexivity. Qed.
Lemma handed_on_eq skip c : handed_on skip (places_and_outcomes c) = map out (pushed skip c).
Proof.
  unfold handed_on, places_and_outcomes, pushed, named_children.
  change (fun x => (x, mirror (pl_prev x) (pl_next x) (pl_node x))) with (fun x => (x, out x)).
  rewrite (filter_map_pair out (fun p => c_named (pl_node p) && str_mem (c_type (pl_node p)) push_types && negb (existsb (Nat.eqb (pl_pos p)) skip)))
    by reflexivity.
  rewrite map_map. cbn [snd]. rewrite map_ext with (g := out) by reflexivity. f_equal.
  generalize (places c). intros l. induction l as [|x l IH]; [reflexivity|]. cbn [List.filter].
  destruct (c_named (pl_node x)); cbn [andb]; [|assumption]. cbn [List.filter]. rewrite IH. reflexivity.
Qed.
Lemma first_named_eq c :
  first_named (places_and_outcomes c) = option_map (fun x => (x, out x)) (nth_error (named_children c) 0).
Proof.
  unfold first_named, places_and_outcomes, named_children.
  change (fun x => (x, mirror (pl_prev x) (pl_next x) (pl_node x))) with (fun x => (x, out x)).
  rewrite (filter_map_pair out (fun p => c_named (pl_node p))) by reflexivity.
  destruct (List.filter _ (places c)); reflexivity.
Qed.

(** No node below has the type of the root. *)
Fixpoint no_source (c : cst) : bool :=
  match c with Cst t _ _ _ _ _ cs => negb (str_eqb t (lit "source_file")) && forallb no_source cs end.
Lemma no_source_inv c : no_source c = true -> is_type "source_file" c = false /\ forallb no_source (c_children c) = true.
Proof.
  destruct c as [t f n x sp ep cs]. unfold is_type. simpl. intros H. apply andb_prop in H as [H1 H2].
  split; [|assumption]. apply negb_true_iff in H1. exact H1.
Qed.
Lemma places_from_in l : forall k prev x, In x (places_from k prev l) -> In (pl_node x) l.
Proof.
  induction l as [|c l IH]; intros k prev x Hx; [destruct Hx|]. destruct Hx as [<-|Hx]; [left; reflexivity|].
  right. eapply IH, Hx.
Qed.
Definition clean_place (x : place) : Prop := no_source (pl_node x) = true.
Lemma named_clean c : forallb no_source (c_children c) = true -> Forall clean_place (named_children c).
Proof.
  intros H. apply List.Forall_forall. intros x Hx. unfold named_children in Hx. apply filter_In in Hx as [Hx _].
  apply places_from_in in Hx. rewrite forallb_forall in H. apply H. assumption.
Qed.
Lemma filter_Forall {A} (P : A -> Prop) f l : Forall P l -> Forall P (List.filter f l).
Proof. rewrite !List.Forall_forall. intros H x Hx. apply filter_In in Hx as [Hx _]. auto. Qed.

Lemma abs_loop_app fuel : forall v l1 l2 s s' v',
  abs_loop fuel v (l1 ++ l2) s = (s', Ok v') ->
  exists f' s1 v1, f' <= fuel /\ abs_loop fuel v l1 s = (s1, Ok v1) /\ abs_loop f' v1 l2 s1 = (s', Ok v').
Proof.
  induction fuel as [|fuel IH]; intros v l1 l2 s s' v' H; (destruct l1 as [|[p x] l1]).
  - exists 0, s, v. split; [lia|]. split; [reflexivity|exact H].
  - discriminate.
  - exists (S fuel), s, v. split; [lia|]. split; [reflexivity|exact H].
  - cbn [abs_loop app] in H. apply bind_ok in H as (s1 & [v1 es] & H1 & H). cbn [fst snd] in H. rewrite app_assoc in H.
    apply IH in H as (f' & s2 & v2 & Hle & H2 & H). exists f', s2, v2. split; [lia|]. split; [|assumption].
    cbn [abs_loop]. rewrite (bind_eq _ _ _ _ _ H1). exact H2.
Qed.

(** The entries of the bibliography. *)
Lemma bibitem_eq c : bibitem c = A CBibitem (a_attrs (bibitem c)) [].
Proof. reflexivity. Qed.
Lemma is_type_true z c : is_type z c = true -> c_type c = lit z.
Proof. unfold is_type. apply str_eqb_true. Qed.
Lemma step_on_bibitem v p x : is_type "bibitem" (pl_node x) = true -> step v p x = step_bibitem v p (pl_node x).
Proof. intros H. apply is_type_true in H. unfold step, is_type. rewrite H. reflexivity. Qed.
Lemma bibitems_ok k l : forall fuel v s s' v',
  Forall (fun x => is_type "bibitem" (pl_node x) = true) l -> good s -> bib_at s k ->
  abs_loop fuel v (under (Some k) l) s = (s', Ok v') ->
  v' = v /\ good s' /\ st_logs s' = st_logs s /\
  exists us, delta s s' (map (fun u => (k, root u)) us) /\
    Forall2 (holds (st_heap s') (Some k)) us (map (fun x => bibitem (pl_node x)) l) /\
    Forall (within (st_next s) (st_next s')) us /\ Forall (no_bib (st_heap s')) us.
Proof.
  induction l as [|x l IH]; intros fuel v s s' v' Ht Hg Hk H.
  - assert (s' = s /\ v' = v) as [-> ->] by (destruct fuel; apply ret_ok in H as [-> ->]; auto).
    split; [reflexivity|]. split; [assumption|]. split; [reflexivity|].
    exists []. split; [apply delta_same; auto|]. repeat split; constructor.
  - apply list.Forall_cons in Ht as [Hx Ht]. destruct fuel as [|fuel]; [discriminate|].
    cbn [under map abs_loop] in H. apply bind_ok in H as (s1 & [v1 es] & H1 & H). rewrite step_on_bibitem in H1 by assumption.
    assert (Hklt : k < st_next s) by (destruct Hk as (n & Hn & _); destruct Hg as [Hf _]; eapply Hf, Hn).
    apply step_bibitem_ok in H1 as (p & i & [= <-] & Hh & -> & -> & Hl & _); [|assumption|intros q [= <-]; assumption].
    cbn [fst snd app] in H. destruct Hh as [Hg1 Hlo Hhi Hd Hn Ho Hi _].
    pose proof (delta_bib _ _ _ _ Hg Hd Hk) as Hk1.
    apply IH in H as (-> & Hg2 & Hl2 & us & Hd2 & Hus & Hw & Hnb); try assumption.
    split; [reflexivity|]. split; [assumption|]. split; [congruence|].
    exists (T i [] :: us). split; [|split; [|split]].
    + exact (delta_trans _ _ _ _ _ Hd Hd2).
    + cbn [map]. constructor; [|assumption]. rewrite (bibitem_eq (pl_node x)).
      assert (Hi2 : st_heap s' !! i = Some (MkNode CBibitem (Some k) [] (a_attrs (bibitem (pl_node x))))).
      { destruct Hd2 as [_ Hd2]. rewrite Hd2, Hn by assumption. cbn [option_map].
        rewrite proj_none; [rewrite add_kids_nil; reflexivity|]. intros q y Hin ->. apply in_map_iff in Hin as (u & [= <- _] & _). lia. }
      exact (holds_node _ _ _ _ [] [] Hi2 eq_refl eq_refl ltac:(constructor)).
    + destruct Hd as [Hd _], Hd2 as [Hd2 _]. constructor.
      * intros y [<-|[]]. lia.
      * eapply list.Forall_impl; [exact Hw|]. intros u Hu. eapply within_weaken; [| |exact Hu]; lia.
    + constructor; [|assumption]. intros y n [<-|[]] Hyn. destruct Hd2 as [_ Hd2]. rewrite Hd2, Hn in Hyn by assumption.
      cbn [option_map] in Hyn. assert (E : n_cls n = CBibitem) by (apply (f_equal (option_map n_cls)) in Hyn; cbn [option_map n_cls add_kids] in Hyn; congruence).
      rewrite E. discriminate.
Qed.
Lemma bib_warnings l : forall s s' u,
  iterM (fun e => warn logger_parse (lit "Bibitem at " ++ fmt_point (c_start e) ++ lit " has an error")) l s = (s', Ok u) ->
  st_heap s' = st_heap s /\ st_next s' = st_next s /\
  st_logs s' = st_logs s ++ map (fun e => MkLog logger_parse WARNING (lit "Bibitem at " ++ fmt_point (c_start e) ++ lit " has an error") None) l.
Proof.
  induction l as [|e l IH]; intros s s' u H.
  - apply ret_ok in H as [-> _]. rewrite app_nil_r. auto.
  - apply iterM_cons_ok in H as (s1 & H1 & H). apply warn_ok in H1 as ->. apply IH in H as (H1 & H2 & H3).
    rewrite H1, H2, H3. simpl. rewrite <- app_assoc. auto.
Qed.


(** ** One syntax node with everything below it *)

Definition follows (fuel : nat) : Prop := forall l p v s s' v' r,
  abs_loop fuel v (under (Some p) l) s = (s', Ok v') -> ready s v r -> other_at s p -> Forall clean_place l ->
  exists lg, sim s s' v v' r (attached (st_heap s) (Some p)) (flat_map events_of (map out l)) lg.

Lemma follow_as_node fuel p v t x skip s s1 s' v1 es v' r :
  follows fuel -> ready s v r -> other_at s p -> forallb no_source (c_children (pl_node x)) = true ->
  step_node v (Some p) t x (pl_node x) skip s = (s1, Ok (v1, es)) -> abs_loop fuel v1 es s1 = (s', Ok v') ->
  exists lg, sim s s' v v' r (attached (st_heap s) (Some p))
    (events_of (as_node t x skip (places_and_outcomes (pl_node x)))) lg.
Proof.
  intros IH Hr Hp Hcl H1 H2. pose proof (rd_good _ _ _ Hr) as Hg.
  assert (Hv : valid s (Some p)).
  { intros q [= <-]. destruct Hp as (n & Hn & _). destruct Hg as [Hf _]. eapply Hf, Hn. }
  apply (step_node_ok _ _ _ _ _ _ _ _ _ (is_some (ps_bib v)) Hg Hv) in H1 as (i & cl & m & us & own & Hh & Hs & -> & -> & Hl).
  set (c := pl_node x) in *. set (l := pushed _ c) in *.
  assert (Hatt : forall q, attached (st_heap s) (Some p) = Some q -> other_at s q).
  { intros q E. unfold attached in E. destruct (st_heap s !! p) as [n|]; [|discriminate].
    destruct (has_children (n_cls n)); [|discriminate]. injection E as <-. assumption. }
  assert (Hnb : cl <> CBibliography /\ forallb nobib own = true).
  { pose proof (shaped_nobib t x c) as Hn. rewrite (Hs [] ltac:(auto)), app_nil_r in Hn.
    cbn [nobib] in Hn. apply andb_prop in Hn as [Hn1 Hn2]. split; [|assumption]. intros ->. vm_compute in Hn1. discriminate. }
  destruct Hnb as [Hcb Hown].
  assert (Hr1 : ready s1 v r).
  { pose proof (hd_delta _ _ _ _ _ _ _ _ Hh) as Hd. destruct Hr as [Hg0 R1 R2 R3]. split.
    - apply (hd_good _ _ _ _ _ _ _ _ Hh).
    - assumption.
    - eapply delta_other; eassumption.
    - intros b Eb. eapply delta_bib; [exact Hg|exact Hd|]. auto. }
  assert (Hoi : other_at s1 i) by (eexists; split; [apply (hd_node _ _ _ _ _ _ _ _ Hh)|exact Hcb]).
  destruct (IH _ _ _ _ _ _ _ H2 Hr1 Hoi) as [lg Hsim].
  { apply filter_Forall, named_clean. assumption. }
  assert (Hrq : reported t c = [] \/ exists c0, reported t c = [RErr c0]).
  { unfold reported. destruct (str_eqb t (lit "ERROR")); [right; eexists; reflexivity|left; reflexivity]. }
  pose proof (sim_node _ _ _ _ _ _ _ _ _ _ _ _ _ _ _ Hr Hatt Hh Hl Hrq Hcb Hown Hsim) as H.
  exists (link (attached (st_heap s) (Some p)) i ++ others i lg).
  unfold events_of, as_node. fold c. cbn [fst snd map app]. rewrite handed_on_eq. fold l.
  rewrite trees_outcomes, reqs_outcomes in H.
  replace (shaped t x c (nodes_of (map out l))) with (A cl m (own ++ (if has_children cl then nodes_of (map out l) else []))).
  { exact H. }
  destruct (has_children cl) eqn:Ehc.
  - symmetry. apply Hs. discriminate.
  - rewrite <- (Hs [] ltac:(auto)). specialize (Hs [] ltac:(auto)).
    unfold shaped in *. destruct (_ && _).
    + injection Hs as <- _ _. vm_compute in Ehc. discriminate.
    + injection Hs as <- _ _. rewrite Ehc. reflexivity.
Qed.
Lemma ready_step s s1 v v1 r p i cl m us own :
  ready s v r -> placed s s1 p i cl m us own -> v1 = v -> ready s1 v1 r.
Proof.
  intros [Hg R1 R2 R3] Hh ->. pose proof (hd_delta _ _ _ _ _ _ _ _ Hh) as Hd. split.
  - apply (hd_good _ _ _ _ _ _ _ _ Hh).
  - assumption.
  - eapply delta_other; eassumption.
  - intros b Eb. eapply delta_bib; [exact Hg|exact Hd|]. auto.
Qed.
Lemma attached_other s p q : other_at s p -> attached (st_heap s) (Some p) = Some q -> other_at s q.
Proof.
  intros Hp E. unfold attached in E. destruct (st_heap s !! p) as [n|]; [|discriminate].
  destruct (has_children (n_cls n)); [|discriminate]. injection E as <-. assumption.
Qed.
Lemma other_valid s p : good s -> other_at s p -> valid s (Some p).
Proof. intros [Hf _] (n & Hn & _) q [= <-]. eapply Hf, Hn. Qed.

Lemma follow_section fuel p v x s s1 s' v1 es v' r :
  follows fuel -> ready s v r -> other_at s p -> no_source (pl_node x) = true ->
  suffixb (lit "section") (c_type (pl_node x)) = true ->
  step_section v (Some p) (pl_node x) s = (s1, Ok (v1, es)) -> abs_loop fuel v1 es s1 = (s', Ok v') ->
  exists lg, sim s s' v v' r (attached (st_heap s) (Some p))
    (events_of ([A (node_class (c_type (pl_node x))) (section_attrs (pl_node x))
                  (nodes_of (handed_on (skipped_title (pl_node x)) (places_and_outcomes (pl_node x))))],
                requests_of (handed_on (skipped_title (pl_node x)) (places_and_outcomes (pl_node x))))) lg.
Proof.
  intros IH Hr Hp Hns Hsuf H1 H2. pose proof (rd_good _ _ _ Hr) as Hg. set (c := pl_node x) in *.
  apply no_source_inv in Hns as [Hsf Hns].
  apply step_section_ok in H1 as (i & Hh & Ev & -> & Hl & Hty); [|assumption|eapply other_valid; eassumption].
  assert (Em : subclass (node_class (c_type c)) CManuscript = false).
  { destruct (subclass (node_class (c_type c)) CManuscript) eqn:E; [|reflexivity].
    apply node_class_manuscript in E. unfold is_type in Hsf. rewrite E in Hsf. vm_compute in Hsf. discriminate. }
  rewrite Em in Ev. subst v1.
  assert (Hcb : node_class (c_type c) <> CBibliography) by apply node_class_bib.
  assert (Hhc : has_children (node_class (c_type c)) = true).
  { unfold node_class. destruct (ast_type (c_type c)) as [[k kw]|] eqn:E; [|congruence]. eapply section_class; eassumption. }
  pose proof (ready_step _ _ _ _ _ _ _ _ _ _ _ Hr Hh eq_refl) as Hr1.
  assert (Hoi : other_at s1 i) by (eexists; split; [apply (hd_node _ _ _ _ _ _ _ _ Hh)|exact Hcb]).
  destruct (IH _ _ _ _ _ _ _ H2 Hr1 Hoi) as [lg Hsim].
  { apply filter_Forall, named_clean. assumption. }
  assert (Hl' : st_logs s1 = st_logs s ++ warnings (is_some (ps_bib v)) []) by (simpl; rewrite app_nil_r; assumption).
  pose proof (sim_node _ _ _ _ _ _ _ _ _ _ _ _ _ _ _ Hr (fun q => attached_other s p q Hp) Hh Hl' (or_introl eq_refl) Hcb eq_refl Hsim) as H.
  rewrite Hhc, trees_outcomes, reqs_outcomes in H. rewrite handed_on_eq. eexists. exact H.
Qed.

Lemma follow_one fuel p v x s s1 s' v1 es v' r :
  follows fuel -> ready s v r -> other_at s p -> clean_place x ->
  step v (Some p) x s = (s1, Ok (v1, es)) -> abs_loop fuel v1 es s1 = (s', Ok v') ->
  exists lg, sim s s' v v' r (attached (st_heap s) (Some p)) (events_of (out x)) lg.
Proof.
  intros IH Hr Hp Hc H1 H2. rewrite out_eq. unfold mirror_at. unfold step in H1.
  set (c := pl_node x) in *. pose proof (rd_good _ _ _ Hr) as Hg. pose proof (other_valid _ _ Hg Hp) as Hv.
  assert (Hnil : forall s' v', abs_loop fuel v1 [] s1 = (s', Ok v') -> s' = s1 /\ v' = v1).
  { intros ? ? H. destruct fuel; apply ret_ok in H as [-> ->]; auto. }
  unfold clean_place in Hc. fold c in Hc. pose proof (no_source_inv _ Hc) as [Hsf Hns].
  pose proof (named_clean _ Hns) as Hnc.
  destruct (is_type "comment" c).
  { apply ret_ok in H1 as [-> [= -> ->]]. apply Hnil in H2 as [-> ->]. exists []. apply sim_nil. assumption. }
  destruct (is_type "specialblock" c && _).
  { assert (Hrlt : r < st_next s) by (destruct (rd_rootc _ _ _ Hr) as (n & Hn & _); destruct Hg as [Hf _]; eapply Hf, Hn).
    apply (step_bibliography_ok _ r) in H1 as (i & Hh & -> & -> & Hl); [|assumption|apply Hr|assumption].
    apply Hnil in H2 as [-> ->]. exists [(r, i)]. pose proof Hh as [Hg1 Hlo Hhi Hd Hn _ _ _].
    pose proof Hr as [_ R1 R2 R3]. split.
    - split; [assumption|reflexivity|exact (delta_other _ _ _ _ Hg Hd R2)|].
      intros b [= <-]. eexists. split; [exact Hn|reflexivity].
    - exact Hd.
    - simpl. eapply lg_bib; [exact Hn|reflexivity|reflexivity|reflexivity|assumption|assumption| |constructor].
      intros b0 Eb. destruct (R3 b0 Eb) as (n & Hbn & _). destruct Hg as [Hf _]. apply Hf in Hbn. lia.
    - intros k n [[= <-]|[]] Hk Hcl. rewrite Hn in Hk. injection Hk as <-.
      rewrite proj_cons_other by lia. reflexivity.
    - simpl. rewrite app_nil_r. assumption. }
  destruct (is_type "bibtex" c).
  { unfold step_bibtex in H1. destruct (ps_bib v) as [b|] eqn:Eb.
    - apply bind_ok in H1 as (s2 & u & H1 & H3). apply ret_ok in H3 as [-> [= -> ->]].
      apply bib_warnings in H1 as (Hh & Hn & Hl).
      assert (Hg2 : good s2) by (destruct Hg as [Hf Hco]; split; [intros k n Hk; rewrite Hh in Hk; rewrite Hn; eapply Hf, Hk|rewrite Hh; assumption]).
      pose proof (rd_bib _ _ _ Hr b Eb) as Hb.
      apply bibitems_ok in H2 as (-> & Hg' & Hl' & us & Hd & Hus & Hw & Hnb);
        [| |assumption|unfold bib_at; rewrite Hh; exact Hb].
      2:{ apply List.Forall_forall. intros y Hy. apply filter_In in Hy as [_ Hy]. exact Hy. }
      assert (Hd' : delta s s' (map (fun u => (b, root u)) us)).
      { destruct Hd as [D1 D2]. split; [lia|]. intros j Hj. rewrite D2 by lia. rewrite Hh. reflexivity. }
      rewrite Hn in Hw. exists (map (fun u => (b, root u)) us). pose proof Hr as [_ R1 R2 R3]. split.
      + split; [assumption|assumption|exact (delta_other _ _ _ _ Hg Hd' R2)|].
        intros b0 Eb0. eapply delta_bib; [exact Hg|exact Hd'|]. auto.
      + exact Hd'.
      + simpl. rewrite Eb. rewrite <- (app_nil_r (map (fun u => (b, root u)) us)). apply lg_tex; try assumption. constructor.
      + intros k n Hin _ _. exfalso. apply in_map_iff in Hin as (y & [= Ebr _] & _). subst b.
        destruct Hb as (n1 & Hn1 & Hc1), R2 as (n2 & Hn2 & Hc2). congruence.
      + rewrite Hl', Hl, Eb. simpl. rewrite app_nil_r, map_map. reflexivity.
    - apply bind_ok in H1 as (s2 & u & H1 & H3). apply ret_ok in H3 as [-> [= -> ->]].
      apply warn_ok in H1 as ->. apply Hnil in H2 as [-> ->]. exists [].
      pose proof Hr as [Hg0 R1 R2 R3]. split.
      + split; assumption.
      + apply delta_same; simpl; auto.
      + simpl. rewrite Eb. apply lg_none. constructor.
      + intros k n [].
      + rewrite Eb. reflexivity. }
  destruct (is_type "bibitem" c).
  { apply step_bibitem_ok in H1 as (q & i & [= <-] & Hh & -> & -> & Hl & n & Hn & Hhc); [|assumption|assumption].
    apply Hnil in H2 as [-> ->].
    assert (Ea : attached (st_heap s) (Some p) = Some p) by (unfold attached; rewrite Hn, Hhc; reflexivity).
    rewrite Ea.
    pose proof (ready_step _ _ _ _ _ _ _ _ _ _ _ Hr Hh eq_refl) as Hr1.
    assert (Hl' : st_logs s1 = st_logs s ++ warnings (is_some (ps_bib v)) []) by (simpl; rewrite app_nil_r; assumption).
    assert (Ho : forall q, Some p = Some q -> other_at s q) by (intros q [= <-]; assumption).
    pose proof (sim_node _ _ _ _ _ _ _ _ _ _ _ _ _ _ _ Hr Ho Hh Hl' (or_introl eq_refl) ltac:(discriminate) eq_refl (sim_nil _ _ _ _ Hr1)) as H.
    eexists. exact H. }
  destruct (is_type "source_file" c || _) eqn:Es.
  { rewrite Hsf in Es. eapply follow_section; eassumption. }
  destruct (type_in ["specialblock"; "specialinline"] (c_type c)).
  { apply bind_ok in H1 as (s2 & f & H0 & H1). apply nth_named_ok in H0 as (-> & Hf).
    rewrite first_named_eq, Hf. cbn [option_map].
    destruct (is_type "table" (pl_node f)).
    - apply ret_ok in H1 as [-> [= -> ->]]. apply (IH [f]) with (r := r) in H2 as [lg H2]; try assumption.
      + simpl in H2. rewrite app_nil_r in H2. eauto.
      + constructor; [|constructor]. apply nth_error_In in Hf. rewrite List.Forall_forall in Hnc. auto.
    - eapply follow_as_node; eassumption. }
  destruct (is_type "td" c).
  { apply bind_ok in H1 as (s2 & f & H0 & H1). apply nth_named_ok in H0 as (-> & Hf).
    rewrite first_named_eq, Hf. cbn [option_map].
    apply ret_ok in H1 as [-> [= -> ->]]. apply (IH [f]) with (r := r) in H2 as [lg H2]; try assumption.
    + simpl in H2. rewrite app_nil_r in H2. eauto.
    + constructor; [|constructor]. apply nth_error_In in Hf. rewrite List.Forall_forall in Hnc. auto. }
  destruct (is_type "paragraph" c).
  { apply bind_ok in H1 as (s2 & f & H0 & H1). apply nth_named_ok in H0 as (-> & Hf).
    rewrite first_named_eq, Hf. cbn [option_map].
    assert (Hfc : no_source (pl_node f) = true) by (apply nth_error_In in Hf; rewrite List.Forall_forall in Hnc; apply (Hnc f Hf)).
    destruct (type_in ["item"; "caption"] (c_type (pl_node f))) eqn:Et.
    - rewrite out_eq. replace (mirror_at f) with (as_node (c_type (pl_node f)) f [] (places_and_outcomes (pl_node f))).
      { eapply follow_as_node; try eassumption. apply no_source_inv. assumption. }
      unfold mirror_at, is_type. apply type_in_true in Et as (z & [<-|[<-|[]]] & Et); rewrite Et; reflexivity.
    - eapply follow_as_node; eassumption. }
  destruct (type_in ["block"; "inline"] (c_type c)).
  { destruct (field_child "tag" c) as [g|]; [|discriminate]. eapply follow_as_node; eassumption. }
  eapply follow_as_node; eassumption.
Qed.

Lemma follows_all n : forall fuel, fuel <= n -> follows fuel.
Proof.
  induction n as [|n IH]; intros fuel Hle l p v s s' v' r H Hr Hp Hcl.
  - destruct l as [|x l].
    + assert (s' = s /\ v' = v) as [-> ->] by (destruct fuel; apply ret_ok in H as [-> ->]; auto).
      exists []. apply sim_nil. assumption.
    + destruct fuel; [discriminate|lia].
  - destruct l as [|x l].
    + assert (s' = s /\ v' = v) as [-> ->] by (destruct fuel; apply ret_ok in H as [-> ->]; auto).
      exists []. apply sim_nil. assumption.
    + destruct fuel as [|fuel]; [discriminate|]. apply list.Forall_cons in Hcl as [Hx Hcl].
      cbn [under map abs_loop] in H. apply bind_ok in H as (s1 & [v1 es] & H1 & H). cbn [fst snd] in H.
      apply abs_loop_app in H as (f' & s2 & v2 & Hf & H2 & H).
      destruct (follow_one fuel p v x s s1 s2 v1 es v2 r) as [l1 G1]; try assumption; [apply IH; lia|].
      pose proof (rd_good _ _ _ Hr) as Hg. pose proof (sm_delta _ _ _ _ _ _ _ _ G1) as Hd.
      destruct (IH f' ltac:(lia) l p v2 s2 s' v' r) as [l2 G2]; [exact H|apply (sm_ready _ _ _ _ _ _ _ _ G1)|eapply delta_other; eassumption|assumption|].
      exists (l1 ++ l2). cbn [map flat_map].
      eapply sim_trans; [exact Hr| |exact G1|].
      * intros q. apply attached_other. assumption.
      * assert (Hat : attached (st_heap s2) (Some p) = attached (st_heap s) (Some p)).
        { eapply delta_attached; [exact Hg|exact Hd|]. destruct Hp as (n0 & Hn0 & _). eauto. }
        rewrite Hat in G2. exact G2.
Qed.
