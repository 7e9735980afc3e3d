(** Normalisation: a node with its children, and the edits made to them. *)
From Verif Require Import TreeFacts Meta TocBuild Queries.
From Verif Require Export ParseMirror SpecNorm.
From Verif Require Import Consistency NodeProofs NodeOps Monad.
Local Open Scope string_scope.
Local Open Scope list_scope.

Notation branch := (tree * atree)%type.
Definition held (h : gmap id node) (i : id) (x : branch) : Prop := holds h (Some i) x.1 x.2.
Definition ids (ps : list branch) : list id := doc_orders (map fst ps).
Definition tip (x : branch) : id := root x.1.
(** The node [i], below [p], with the branches [ps]. *)
Record fam (s : st) (p : option id) (i : id) (c : cls) (m : gmap attr val) (ps : list branch) : Prop := {
  fm_good : good s;
  fm_node : exists n, st_heap s !! i = Some n /\ n_cls n = c /\ n_parent n = p /\ n_attrs n = m /\ kids n = map tip ps;
  fm_kids : Forall (held (st_heap s) i) ps;
}.
Lemma fam_holds s p i c m ps : fam s p i c m ps -> holds (st_heap s) p (T i (map fst ps)) (A c m (map snd ps)).
Proof.
  intros [Hg (n & Hn & <- & <- & <- & Hk) Hf]. apply holds_node; [assumption|reflexivity|rewrite Hk, map_map; reflexivity|].
  clear Hk. induction Hf; constructor; assumption.
Qed.
Lemma zip_forall2 h p us ts : Forall2 (holds h p) us ts -> exists ps : list branch, us = map fst ps /\ ts = map snd ps /\ Forall (fun x => holds h p x.1 x.2) ps.
Proof.
  induction 1 as [|u t us ts H _ (ps & -> & -> & IH)]; [exists []; repeat split; constructor|].
  exists ((u, t) :: ps). repeat split. constructor; assumption.
Qed.
Lemma holds_fam s p i us c m ts : good s -> holds (st_heap s) p (T i us) (A c m ts) ->
  exists ps, us = map fst ps /\ ts = map snd ps /\ fam s p i c m ps.
Proof.
  intros Hg H. inversion H as [? ? n ? ? Hn Hp Hk Hts]; subst. apply zip_forall2 in Hts as (ps & -> & -> & Hf).
  exists ps. split; [reflexivity|]. split; [reflexivity|]. split; [assumption| |assumption]. exists n. rewrite map_map in Hk. auto 10.
Qed.
Lemma fam_nodup s p i c m ps : fam s p i c m ps -> NoDup (i :: ids ps).
Proof.
  intros H. pose proof (fam_holds _ _ _ _ _ _ H) as Hh. apply holds_tree_at in Hh.
  apply (tree_at_nodup _ _ _ (proj2 (fm_good _ _ _ _ _ _ H))) in Hh. exact Hh.
Qed.
Lemma ids_app l1 l2 : ids (l1 ++ l2) = ids l1 ++ ids l2.
Proof. unfold ids. rewrite map_app. apply doc_orders_app. Qed.
Lemma ids_cons x l : ids (x :: l) = doc_order x.1 ++ ids l.
Proof. reflexivity. Qed.
Lemma tip_in x : In (tip x) (doc_order x.1).
Proof. destruct x as [[i us] t]. left. reflexivity. Qed.
(** Distinct branches share no node. *)
Lemma fam_apart s p i c m ps1 x ps2 : fam s p i c m (ps1 ++ x :: ps2) ->
  ~ In i (doc_order x.1) /\ (forall j, In j (doc_order x.1) -> ~ In j (ids ps1) /\ ~ In j (ids ps2)) /\ ~ In i (ids ps1) /\ ~ In i (ids ps2).
Proof.
  intros H. apply fam_nodup in H. rewrite ids_app, ids_cons in H. apply list.NoDup_cons in H as [Hi H].
  rewrite !elem_of_app, !elem_of_list_In in Hi. apply list.NoDup_app in H as (H1 & H2 & H3). apply list.NoDup_app in H3 as (H4 & H5 & H6).
  split; [tauto|]. split; [|tauto]. intros j Hj. split; intros Hk.
  - apply (H2 j); [apply elem_of_list_In; assumption|]. apply elem_of_app. left. apply elem_of_list_In. assumption.
  - apply (H5 j); apply elem_of_list_In; assumption.
Qed.
Lemma held_frame h h' i ps : Forall (held h i) ps -> (forall j, In j (ids ps) -> h' !! j = h !! j) -> Forall (held h' i) ps.
Proof.
  induction 1 as [|x ps Hx Hps IH]; intros Hf; constructor.
  - eapply holds_frame; [exact Hx|]. intros j Hj. apply Hf. rewrite ids_cons. apply in_app_iff. auto.
  - apply IH. intros j Hj. apply Hf. rewrite ids_cons. apply in_app_iff. auto.
Qed.
Lemma fam_old s p i c m ps j : fam s p i c m ps -> In j (i :: ids ps) -> j < st_next s.
Proof.
  intros H Hj. pose proof (fam_holds _ _ _ _ _ _ H) as Hh. apply holds_tree_at in Hh.
  destruct (tree_at_in _ _ _ j Hh) as [n Hn]; [apply elem_of_list_In; exact Hj|]. eapply (proj1 (fm_good _ _ _ _ _ _ H)), Hn.
Qed.

(** From [s] to [s'] only the nodes [l], and new ones, changed; [l'] has taken the place of [l]. *)
Record within (s s' : st) (l l' : list id) : Prop := {
  wi_next : st_next s <= st_next s';
  wi_logs : st_logs s' = st_logs s;
  wi_frame : forall j, j < st_next s -> ~ In j l -> st_heap s' !! j = st_heap s !! j;
  wi_ids : forall j, In j l' -> In j l \/ st_next s <= j;
}.
Lemma within_refl s l : within s s l l.
Proof. split; auto. Qed.
Lemma within_trans s1 s2 s3 l1 l2 l3 : within s1 s2 l1 l2 -> within s2 s3 l2 l3 -> within s1 s3 l1 l3.
Proof.
  intros [] []. split; try lia; try congruence.
  - intros j Hj Hn. rewrite wi_frame1; [auto|lia|]. intros Hk. destruct (wi_ids0 _ Hk); [auto|lia].
  - intros j Hj. destruct (wi_ids1 _ Hj) as [Hk|Hk]; [auto|]. right. lia.
Qed.
Lemma within_more s s' l l' k k' : within s s' l l' -> (forall j, In j l -> In j k) -> (forall j, In j k' -> In j l' \/ In j k) -> within s s' k k'.
Proof.
  intros [] H1 H2. split; try assumption.
  - intros j Hj Hn. apply wi_frame0; auto.
  - intros j Hj. destruct (H2 _ Hj) as [Hk|Hk]; [|auto]. destruct (wi_ids0 _ Hk); auto.
Qed.

(** ** Attributes *)

Lemma set_within s s' j f l : attrs_became s s' j f -> In j l -> within s s' l l.
Proof.
  intros (n & H1 & H2 & H3 & H4 & H5) Hj. split; try lia; try assumption; auto.
  intros k _ Hk. apply H3. intros ->. contradiction.
Qed.
Lemma fam_own s s' p i c m ps f : fam s p i c m ps -> attrs_became s s' i f -> fam s' p i c (f m) ps.
Proof.
  intros H Ha. pose proof (fam_nodup _ _ _ _ _ _ H) as Hnd. pose proof (attrs_became_good _ _ _ _ (fm_good _ _ _ _ _ _ H) Ha) as Hg.
  destruct H as [_ (n & Hn & <- & <- & <- & Hk) Hf]. destruct Ha as (n' & H1 & H2 & H3 & _).
  assert (n' = n) as -> by congruence. split; [assumption| |].
  - eexists. split; [exact H2|]. repeat split. exact Hk.
  - eapply held_frame; [eassumption|]. intros j Hj. apply H3. intros ->. apply list.NoDup_cons in Hnd as [Hi _].
    apply Hi. apply elem_of_list_In. assumption.
Qed.
Lemma holds_own h h' p i us c m ts n f :
  holds h p (T i us) (A c m ts) -> h !! i = Some n -> h' !! i = Some (MkNode (n_cls n) (n_parent n) (n_children n) (f (n_attrs n))) ->
  (forall j, In j (doc_orders us) -> h' !! j = h !! j) -> holds h' p (T i us) (A c (f m) ts).
Proof.
  intros H Hn H' Hf. inversion H as [? ? n0 ? ? Hn0 Hp Hk Hts]; subst. assert (n0 = n) as -> by congruence.
  set (n' := MkNode _ _ _ _) in H'. apply (holds_node h' _ i n'); [exact H'|reflexivity|exact Hk|].
  eapply holds_frames; eassumption.
Qed.
Lemma fam_set s s' p i c m ps1 u cu mu tu ps2 f :
  fam s p i c m (ps1 ++ (u, A cu mu tu) :: ps2) -> attrs_became s s' (root u) f ->
  fam s' p i c m (ps1 ++ (u, A cu (f mu) tu) :: ps2).
Proof.
  intros H Ha. pose proof (fam_apart _ _ _ _ _ _ _ _ H) as (A1 & A2 & A3 & A4).
  pose proof (attrs_became_good _ _ _ _ (fm_good _ _ _ _ _ _ H) Ha) as Hg. pose proof (fam_nodup _ _ _ _ _ _ H) as Hnd.
  destruct H as [_ (n & Hn & <- & <- & <- & Hk) Hf]. destruct Ha as (nu & H1 & H2 & H3 & _).
  apply list.Forall_app in Hf as [Hf1 Hf2]. apply list.Forall_cons in Hf2 as [Hu Hf2]. destruct u as [j us]. simpl root in *. cbn [fst] in *.
  assert (Hj : In j (doc_order (T j us))) by (left; reflexivity).
  split; [assumption| |].
  - exists n. rewrite H3 by (intros ->; contradiction). rewrite map_app in *. auto.
  - apply list.Forall_app. split; [|constructor].
    + eapply held_frame; [eassumption|]. intros k Hk'. apply H3. intros ->. destruct (A2 _ Hj). contradiction.
    + eapply holds_own; [exact Hu|exact H1|exact H2|]. intros k Hk'. apply H3. intros ->.
      rewrite ids_app, ids_cons in Hnd. apply list.NoDup_cons in Hnd as [_ Hnd]. apply list.NoDup_app in Hnd as (_ & _ & Hnd).
      apply list.NoDup_app in Hnd as (Hnd & _). cbn [fst] in Hnd. rewrite doc_order_T in Hnd. apply list.NoDup_cons in Hnd as [Hnd _].
      apply Hnd. apply elem_of_list_In. assumption.
    + eapply held_frame; [eassumption|]. intros k Hk'. apply H3. intros ->. destruct (A2 _ Hj). contradiction.
Qed.

(** ** One branch *)

Lemma fam_child s q c m ps1 i us ci mi ts ps2 p :
  fam s p q c m (ps1 ++ (T i us, A ci mi ts) :: ps2) -> exists ps, us = map fst ps /\ ts = map snd ps /\ fam s (Some q) i ci mi ps.
Proof.
  intros [Hg _ Hf]. apply list.Forall_app in Hf as [_ Hf]. apply list.Forall_cons in Hf as [Hu _]. apply holds_fam; assumption.
Qed.
Lemma fam_inside s s' q c m ps1 i us ci mi ts ps2 p mi' ps' :
  fam s p q c m (ps1 ++ (T i us, A ci mi ts) :: ps2) -> fam s' (Some q) i ci mi' ps' ->
  within s s' (doc_order (T i us)) (doc_order (T i (map fst ps'))) ->
  fam s' p q c m (ps1 ++ (T i (map fst ps'), A ci mi' (map snd ps')) :: ps2).
Proof.
  intros H H' W. pose proof (fam_apart _ _ _ _ _ _ _ _ H) as (A1 & A2 & A3 & A4). cbn [fst] in *.
  assert (Ho : forall j, In j (q :: ids (ps1 ++ (T i us, A ci mi ts) :: ps2)) -> j < st_next s) by (intros j; eapply fam_old, H).
  destruct H as [_ (n & Hn & Hn1 & Hn2 & Hn3 & Hk) Hf]. apply list.Forall_app in Hf as [Hf1 Hf2]. apply list.Forall_cons in Hf2 as [_ Hf2].
  split; [apply H'| |].
  - exists n. rewrite (wi_frame _ _ _ _ W); [|eapply Ho; left; reflexivity|assumption]. rewrite map_app in *. auto.
  - apply list.Forall_app. split; [|constructor].
    + eapply held_frame; [eassumption|]. intros j Hj. apply (wi_frame _ _ _ _ W).
      * apply Ho. right. rewrite ids_app. apply in_app_iff. auto.
      * intros Hk'. apply A2 in Hk'. tauto.
    + apply fam_holds. assumption.
    + eapply held_frame; [eassumption|]. intros j Hj. apply (wi_frame _ _ _ _ W).
      * apply Ho. right. rewrite ids_app, ids_cons. rewrite !in_app_iff. auto.
      * intros Hk'. apply A2 in Hk'. tauto.
Qed.

(** ** Removing, prepending and inserting a branch *)

Lemma fam_kid s p i c m ps1 x ps2 : fam s p i c m (ps1 ++ x :: ps2) -> exists n, st_heap s !! tip x = Some n /\ n_parent n = Some i.
Proof.
  intros [_ _ Hf]. apply list.Forall_app in Hf as [_ Hf]. apply list.Forall_cons in Hf as [Hu _]. unfold held in Hu.
  destruct x as [u t]. cbn [fst snd] in Hu. inversion Hu as [? j n us ts Hn Hp Hk Hts]. exists n. split; assumption.
Qed.
Lemma fam_parent s p i c m ps1 x ps2 : fam s p i c m (ps1 ++ x :: ps2) ->
  exists n, st_heap s !! i = Some n /\ n_cls n = c /\ n_parent n = p /\ n_attrs n = m /\ n_children n = map tip (ps1 ++ x :: ps2) /\ has_children c = true.
Proof.
  intros [_ (n & Hn & <- & <- & <- & Hk) _]. exists n. unfold kids in Hk. destruct (has_children (n_cls n)) eqn:E; [auto 10|].
  rewrite map_app in Hk. destruct (map tip ps1); discriminate Hk.
Qed.
Lemma edited_outside h h' fp fk j : edited h h' fp fk ->
  (forall q, fp j q = q) -> (forall l, fk j l = l) -> h' !! j = h !! j.
Proof. intros He H1 H2. rewrite He. destruct (h !! j) as [[]|]; [|reflexivity]. cbn. rewrite H1, H2. reflexivity. Qed.
Lemma not_in_tops j ps : ~ In j (ids ps) -> ~ In j (map tip ps).
Proof.
  intros H Hin. apply H. apply in_map_iff in Hin as (x & <- & Hx). unfold ids, doc_orders. apply in_flat_map.
  exists x.1. split; [apply in_map; assumption|apply tip_in].
Qed.
Lemma app_split_unique (l1 l2 k1 k2 : list id) x : l1 ++ x :: l2 = k1 ++ x :: k2 -> x ∉ l1 -> x ∉ k1 -> k1 = l1 /\ k2 = l2.
Proof.
  revert k1. induction l1 as [|y l1 IH]; intros [|z k1] E H1 H2; cbn in E.
  - injection E as ->. auto.
  - injection E as -> _. exfalso. apply H2. constructor.
  - injection E as -> _. exfalso. apply H1. constructor.
  - injection E as -> E2. rewrite elem_of_cons in H1, H2. destruct (IH k1 E2) as [-> ->]; tauto.
Qed.
Lemma fam_remove s s' p i c m ps1 x ps2 u :
  fam s p i c m (ps1 ++ x :: ps2) -> remove_self (tip x) s = (s', Ok u) ->
  fam s' p i c m (ps1 ++ ps2) /\ within s s' (i :: ids (ps1 ++ x :: ps2)) (i :: ids (ps1 ++ ps2)).
Proof.
  intros H Hr. pose proof (fam_apart _ _ _ _ _ _ _ _ H) as (A1 & A2 & A3 & A4).
  destruct (fam_kid _ _ _ _ _ _ _ _ H) as (nx & Hx & Hpx). destruct (fam_parent _ _ _ _ _ _ _ _ H) as (n & Hn & <- & <- & <- & Hc & Hhc).
  pose proof Hr as Hr'. apply remove_self_ok in Hr as (Hrest & nx' & Hx' & Hr). assert (nx' = nx) as -> by congruence. rewrite Hpx in Hr.
  destruct Hr as (n' & l1 & l2 & Hn' & _ & El & Hni & He). assert (n' = n) as -> by congruence.
  pose proof (tip_in x) as Htx.
  assert (l1 = map tip ps1 /\ l2 = map tip ps2) as [-> ->].
  { rewrite Hc, map_app in El. cbn [map] in El. eapply app_split_unique; [exact El| |assumption].
    rewrite elem_of_list_In. apply not_in_tops. apply (A2 _ Htx). }
  assert (Hfr : forall j, j <> tip x -> j <> i -> st_heap s' !! j = st_heap s !! j).
  { intros j H1 H2. eapply edited_outside; [exact He| |]; intros; apply decide_False; assumption. }
  split; [split|].
  - destruct (fm_good _ _ _ _ _ _ H) as [G1 G2]. split; [eapply fresh_edited; eassumption|eapply remove_self_consistent; eassumption].
  - eexists. split; [exact (edited_lookup _ _ _ _ _ _ He Hn)|]. cbn. rewrite decide_False by (intros ->; contradiction).
    rewrite (decide_True (P := i = i)) by reflexivity. repeat split. unfold kids. cbn [n_cls n_children]. rewrite Hhc, map_app. reflexivity.
  - destruct H as [_ _ Hf]. apply list.Forall_app in Hf as [Hf1 Hf2]. apply list.Forall_cons in Hf2 as [_ Hf2].
    apply list.Forall_app. split; (eapply held_frame; [eassumption|]); intros j Hj; apply Hfr; intros ->; try contradiction;
      destruct (A2 _ Htx); contradiction.
  - split.
    + rewrite (proj1 Hrest). lia.
    + apply Hrest.
    + intros j _ Hj. apply Hfr; intros ->; apply Hj; [|left; reflexivity]. right. rewrite ids_app, ids_cons, !in_app_iff. auto.
    + intros j [<-|Hj]; left; [left; reflexivity|]. right. rewrite ids_app in *. rewrite ids_cons. rewrite !in_app_iff in *. tauto.
Qed.

(** A new branch, not attached yet. *)
Record sprout (s s' : st) (x : branch) : Prop := {
  sp_good : good s';
  sp_next : st_next s <= st_next s';
  sp_logs : st_logs s' = st_logs s;
  sp_old : forall j, j < st_next s -> st_heap s' !! j = st_heap s !! j;
  sp_held : holds (st_heap s') None x.1 x.2;
  sp_ids : forall j, In j (doc_order x.1) -> st_next s <= j;
}.
Lemma sprout_new s c kw : good s -> sprout s (new s (mk_node c kw)) (T (st_next s) [], A c (mk_attrs c kw) []).
Proof.
  intros Hg. split.
  - apply good_new. assumption.
  - simpl. lia.
  - reflexivity.
  - intros j Hj. rewrite new_lookup, decide_False by lia. reflexivity.
  - cbn [fst snd]. change (A c (mk_attrs c kw) []) with (A (n_cls (mk_node c kw)) (n_attrs (mk_node c kw)) []).
    apply holds_node; [rewrite new_lookup, decide_True by reflexivity; reflexivity|reflexivity| |constructor].
    unfold kids. simpl. destruct (has_children c); reflexivity.
  - intros j [<-|[]]. lia.
Qed.
Lemma fam_sprout s s' p i c m ps x : fam s p i c m ps -> sprout s s' x -> fam s' p i c m ps.
Proof.
  intros H []. assert (Ho : forall j, In j (i :: ids ps) -> st_heap s' !! j = st_heap s !! j).
  { intros j Hj. apply sp_old0. eapply fam_old; eassumption. }
  destruct H as [_ (n & Hn & Hr) Hf]. split; [assumption| |].
  - exists n. rewrite Ho by (left; reflexivity). auto.
  - eapply held_frame; [eassumption|]. intros j Hj. apply Ho. right. assumption.
Qed.
Lemma holds_parent h h' p q i us a n : holds h p (T i us) a -> h !! i = Some n ->
  h' !! i = Some (MkNode (n_cls n) q (n_children n) (n_attrs n)) -> (forall j, In j (doc_orders us) -> h' !! j = h !! j) ->
  holds h' q (T i us) a.
Proof.
  intros H Hn H' Hf. inversion H as [? ? n0 ? ? Hn0 Hp Hk Hts]; subst. assert (n0 = n) as -> by congruence.
  set (n' := MkNode _ _ _ _) in H'. change (n_cls n) with (n_cls n'). change (n_attrs n) with (n_attrs n').
  apply (holds_node h' _ i n'); [exact H'|reflexivity|exact Hk|]. eapply holds_frames; eassumption.
Qed.
Lemma sprout_apart s s' p i c m ps x : fam s p i c m ps -> sprout s s' x ->
  forall j, In j (doc_order x.1) -> j <> i /\ ~ In j (ids ps).
Proof.
  intros H Hs j Hj. apply (sp_ids _ _ _ Hs) in Hj. split.
  - intros ->. pose proof (fam_old _ _ _ _ _ _ i H). assert (i < st_next s) by (apply H0; left; reflexivity). lia.
  - intros Hk. pose proof (fam_old _ _ _ _ _ _ j H). assert (j < st_next s) by (apply H0; right; assumption). lia.
Qed.
(** An old node does not lie below a new one. *)
Lemma ancestor_old s s' x i : good s -> sprout s s' x -> i < st_next s -> ~ ancestor (st_heap s') i (tip x).
Proof.
  intros Hg Hs Hi Ha. pose proof (sp_ids _ _ _ Hs _ (tip_in x)) as Ht. apply (closed_ancestor (st_next s)) in Ha; [lia| |assumption].
  intros j n q Hj Hn Hq. rewrite (sp_old _ _ _ Hs) in Hn by assumption. eapply (good_closed s Hg); eassumption.
Qed.
Lemma doc_nodup h p i us a : consistent h -> holds h p (T i us) a -> ~ In i (doc_orders us).
Proof.
  intros Hc H. apply holds_tree_at in H. apply (tree_at_nodup _ _ _ Hc) in H. rewrite doc_order_T in H.
  apply list.NoDup_cons in H as [H _]. rewrite elem_of_list_In in H. assumption.
Qed.
Lemma fam_prepend s s1 s' p i c m ps x u :
  fam s p i c m ps -> sprout s s1 x -> prepend i [tip x] s1 = (s', Ok u) ->
  fam s' p i c m (x :: ps) /\ within s s' (i :: ids ps) (i :: ids (x :: ps)).
Proof.
  intros H Hs Hp. pose proof (fam_sprout _ _ _ _ _ _ _ _ H Hs) as H1. pose proof (sprout_apart _ _ _ _ _ _ _ _ H Hs) as Ha.
  pose proof Hp as Hp'. apply prepend_ok in Hp as (Hr & He & Hhc & Hall). destruct Hhc as (n & Hn & Hhc); [discriminate|].
  destruct (Hall (tip x)) as (n' & nx & Hn' & Hx & _); [left; reflexivity|]. assert (n' = n) as -> by congruence.
  assert (Hfr : forall j, j <> tip x -> j <> i -> st_heap s' !! j = st_heap s1 !! j).
  { intros j J1 J2. eapply edited_outside; [exact He| |]; intros; apply decide_False; [rewrite elem_of_list_singleton|]; assumption. }
  destruct (Ha _ (tip_in x)) as [Hti Htn].
  pose proof (sp_held _ _ _ Hs) as Hh. destruct x as [[t us] a]. cbn [tip fst snd root] in *.
  assert (nx_p : n_parent nx = None). { inversion Hh as [? ? n0 ? ? Hn0 Hp0 _ _]; subst. congruence. }
  split; [split|].
  - destruct (sp_good _ _ _ Hs) as [G1 G2]. split; [eapply fresh_edited; eassumption|]. eapply prepend_consistent; [exact G2| |exact Hp'].
    split; [apply NoDup_singleton|]. intros k Hk. apply elem_of_list_singleton in Hk as ->. split; [eauto|]. split; [assumption|].
    eapply (ancestor_old s s1 (T t us, a)); [apply H|exact Hs|]. eapply fam_old; [exact H|left; reflexivity].
  - destruct H1 as [_ (n1 & Hn1 & <- & <- & <- & Hk) _]. assert (n1 = n) as -> by congruence.
    eexists. split; [exact (edited_lookup _ _ _ _ _ _ He Hn)|]. cbn. rewrite decide_False by (rewrite elem_of_list_singleton; congruence).
    rewrite (decide_True (P := i = i)) by reflexivity. repeat split. unfold kids in *. cbn [n_cls n_children]. rewrite Hhc in *. rewrite Hk. reflexivity.
  - constructor.
    + eapply holds_parent; [exact Hh|exact Hx| |].
      * rewrite He, Hx. cbn. rewrite decide_True by (apply elem_of_list_singleton; reflexivity). rewrite decide_False by congruence. reflexivity.
      * intros j Hj. apply Hfr; [|apply Ha; right; exact Hj]. intros ->. eapply doc_nodup; [apply Hs|exact Hh|exact Hj].
    + destruct H1 as [_ _ Hf]. eapply held_frame; [exact Hf|]. intros j Hj. apply Hfr; [intros ->; contradiction|].
      intros ->. apply fam_nodup in H. apply list.NoDup_cons in H as [H _]. apply H, elem_of_list_In. assumption.
  - destruct Hs, Hr as [R1 R2]. split; try lia; try congruence.
    + intros j Hj Hnj. rewrite <- sp_old0 by assumption. apply Hfr; [|intros ->; apply Hnj; left; reflexivity].
      intros ->. specialize (sp_ids0 t (or_introl eq_refl)). lia.
    + intros j [<-|Hj]; [left; left; reflexivity|]. rewrite ids_cons in Hj. apply in_app_iff in Hj as [Hj|Hj]; [right; auto|left; right; assumption].
Qed.
Lemma fam_insert s s1 s' p i c m ps1 x y ps2 u :
  fam s p i c m (ps1 ++ x :: ps2) -> sprout s s1 y -> replace_self (tip x) [tip x; tip y] s1 = (s', Ok u) ->
  fam s' p i c m (ps1 ++ x :: y :: ps2) /\ within s s' (i :: ids (ps1 ++ x :: ps2)) (i :: ids (ps1 ++ x :: y :: ps2)).
Proof.
  intros H Hs Hr. pose proof (fam_sprout _ _ _ _ _ _ _ _ H Hs) as H1. pose proof (sprout_apart _ _ _ _ _ _ _ _ H Hs) as Ha.
  pose proof (fam_apart _ _ _ _ _ _ _ _ H) as (A1 & A2 & A3 & A4).
  destruct (fam_kid _ _ _ _ _ _ _ _ H1) as (nx & Hx & Hpx). destruct (fam_parent _ _ _ _ _ _ _ _ H1) as (n & Hn & <- & <- & <- & Hc & Hhc).
  apply replace_self_ok in Hr as (q & s2 & nx' & n' & l1 & l2 & Hx' & Hpx' & Hn' & _ & El & Hni & Hrem & Hr1 & He1 & Hr2 & He2 & Hall).
  assert (nx' = nx) as -> by congruence. assert (q = i) as -> by congruence. assert (n' = n) as -> by congruence.
  pose proof (tip_in x) as Htx. pose proof (tip_in y) as Hty. destruct (Ha _ Hty) as [Hyi Hyn].
  assert (Hyx : tip y <> tip x).
  { intros E. apply Hyn. rewrite ids_app, ids_cons, !in_app_iff. rewrite E. auto. }
  assert (Hxi : tip x <> i) by (intros E; apply A1; rewrite <- E; assumption).
  assert (l1 = map tip ps1 /\ l2 = map tip ps2) as [-> ->].
  { rewrite Hc, map_app in El. cbn [map] in El. eapply app_split_unique; [exact El| |assumption].
    rewrite elem_of_list_In. apply not_in_tops. apply (A2 _ Htx). }
  pose proof (sp_held _ _ _ Hs) as Hh.
  assert (exists ny, st_heap s1 !! tip y = Some ny /\ n_parent ny = None) as (ny & Hy & Hpy).
  { destruct y as [yt ya]. cbn [fst snd] in Hh. inversion Hh as [? j n0 us ts Hn0 Hp0 Hk0 Hts0]. exists n0. split; assumption. }
  assert (Hfr : forall j, j <> tip x -> j <> tip y -> j <> i -> st_heap s' !! j = st_heap s1 !! j).
  { intros j J1 J2 J3. rewrite <- (edited_outside _ _ _ _ j He1); [|intros; apply decide_False; assumption..].
    eapply edited_outside; [exact He2| |]; intros; apply decide_False; [|assumption].
    rewrite !elem_of_cons. intros [?|[?|Hb]]; [contradiction..|inversion Hb]. }
  assert (Hn2 : st_heap s2 !! i = Some (MkNode (n_cls n) (n_parent n) (map tip ps1 ++ map tip ps2) (n_attrs n))).
  { rewrite (edited_lookup _ _ _ _ _ _ He1 Hn). cbn. rewrite decide_False by congruence. rewrite decide_True by reflexivity. reflexivity. }
  assert (Hx2 : st_heap s2 !! tip x = Some (MkNode (n_cls nx) None (n_children nx) (n_attrs nx))).
  { rewrite (edited_lookup _ _ _ _ _ _ He1 Hx). cbn. rewrite decide_True by reflexivity. rewrite decide_False by congruence. reflexivity. }
  assert (Hy2 : st_heap s2 !! tip y = Some ny).
  { rewrite (edited_outside _ _ _ _ (tip y) He1); [assumption|intros; apply decide_False; assumption..]. }
  clear Hx'. assert (Hx' : st_heap s' !! tip x = Some nx).
  { rewrite (edited_lookup _ _ _ _ _ _ He2 Hx2). cbn. rewrite decide_True by (constructor). rewrite decide_False by congruence.
    destruct nx. cbn in *. congruence. }
  assert (Hy' : st_heap s' !! tip y = Some (MkNode (n_cls ny) (Some i) (n_children ny) (n_attrs ny))).
  { rewrite (edited_lookup _ _ _ _ _ _ He2 Hy2). cbn. rewrite decide_True by (repeat constructor). rewrite decide_False by congruence. reflexivity. }
  assert (Gs2 : good s2).
  { destruct (sp_good _ _ _ Hs) as [G1 G2]. split; [eapply fresh_edited; eassumption|eapply remove_consistent; eassumption]. }
  assert (Gs' : good s').
  { split; [eapply fresh_edited; [exact Hr2|exact He2|apply Gs2]|].
    eapply (consistent_link _ _ i _ [tip x; tip y]); [apply Gs2|exact Hn2|exact Hhc|exact He2| | | |].
    - pose proof (cons_nodup _ (proj2 (sp_good _ _ _ Hs)) _ _ Hn) as Hnd. unfold kids in Hnd. rewrite Hhc, Hc, map_app in Hnd. cbn [map] in Hnd.
      apply nodup_mid in Hnd as (N1 & N2 & N3). cbn [app]. apply nodup_mid.
      assert (B : forall l, (forall j, In j (map tip l) -> In j (ids (ps1 ++ x :: ps2))) -> tip y ∉ map tip l).
      { intros l Hl Hin. apply elem_of_list_In, Hl in Hin. contradiction. }
      assert (I1 : forall j, In j (map tip ps1) -> In j (ids (ps1 ++ x :: ps2))).
      { intros j Hj. destruct (in_dec Nat.eq_dec j (ids ps1)) as [|Hno]; [rewrite ids_app; apply in_app_iff; auto|]. exfalso. eapply not_in_tops; eassumption. }
      assert (I2 : forall j, In j (map tip ps2) -> In j (ids (ps1 ++ x :: ps2))).
      { intros j Hj. destruct (in_dec Nat.eq_dec j (ids ps2)) as [|Hno]; [rewrite ids_app, ids_cons; rewrite !in_app_iff; auto|]. exfalso. eapply not_in_tops; eassumption. }
      split; [assumption|]. split; [rewrite elem_of_cons; intros [?|?]; [congruence|contradiction]|].
      apply nodup_mid. split; [apply B, I1|]. split; [apply B, I2|]. assumption.
    - intros j. cbn [n_children app]. rewrite !elem_of_app, !elem_of_cons, elem_of_nil. tauto.
    - intros j Hj. rewrite !elem_of_cons in Hj. destruct Hj as [->|[->|Hj]]; [eauto|eauto|inversion Hj].
    - intros j Hj. assert (Hz : j <> i /\ ~ ancestor (st_heap s1) i j).
      { rewrite !elem_of_cons in Hj. destruct Hj as [->|[->|Hj]]; [| |inversion Hj].
        - split; [assumption|]. intros Hanc. apply (cons_acyclic _ (proj2 (sp_good _ _ _ Hs)) (tip x)).
          eapply anc_step; [|exact Hanc]. exists nx. auto.
        - split; [assumption|]. eapply ancestor_old; [apply H|exact Hs|]. eapply fam_old; [exact H|left; reflexivity]. }
      destruct Hz as [Z1 Z2]. split; [assumption|]. intros Hanc. apply Z2. eapply unlink_ancestors; [|exact Hn|exact Hanc].
      eapply edited_single_none. exact He1. }
  split; [split|].
  - assumption.
  - eexists. split; [exact (edited_lookup _ _ _ _ _ _ He2 Hn2)|]. cbn. rewrite decide_False.
    2:{ rewrite !elem_of_cons. intros [?|[?|Hb]]; [congruence..|inversion Hb]. }
    rewrite (decide_True (P := i = i)) by reflexivity. repeat split. unfold kids. cbn [n_cls n_children]. rewrite Hhc, map_app. reflexivity.
  - destruct H1 as [_ _ Hf]. apply list.Forall_app in Hf as [Hf1 Hf2]. apply list.Forall_cons in Hf2 as [Hfx Hf2].
    assert (F : forall l, (forall j, In j (ids l) -> In j (ids (ps1 ++ x :: ps2))) -> (forall j, In j (ids l) -> j <> tip x) -> Forall (held (st_heap s1) i) l -> Forall (held (st_heap s') i) l).
    { intros l L1 L2 Hl. eapply held_frame; [exact Hl|]. intros j Hj. apply Hfr; [auto|intros ->; apply Hyn; auto|].
      intros ->. apply L1 in Hj. apply fam_nodup in H. apply list.NoDup_cons in H as [H _]. apply H, elem_of_list_In. assumption. }
    apply list.Forall_app. split; [|constructor; [|constructor]].
    + apply F; [intros j Hj; rewrite ids_app; apply in_app_iff; auto| |assumption]. intros j Hj ->. destruct (A2 _ Htx). contradiction.
    + assert (E : st_heap s' !! tip x = st_heap s1 !! tip x) by congruence.
      eapply holds_frame; [exact Hfx|]. intros j Hj. destruct (Nat.eq_dec j (tip x)) as [-> |Hne]; [assumption|]. apply Hfr; [assumption| |].
      * intros ->. apply Hyn. rewrite ids_app, ids_cons, !in_app_iff. auto.
      * intros ->. contradiction.
    + destruct y as [[yt ys] ya]. cbn [tip fst snd root] in *. eapply holds_parent; [exact Hh|exact Hy|exact Hy'|]. intros j Hj.
      destruct (Ha j (or_intror Hj)) as [J1 J2]. apply Hfr; [|intros ->; eapply doc_nodup; [apply Hs|exact Hh|exact Hj]|assumption].
      intros ->. apply J2. rewrite ids_app, ids_cons, !in_app_iff. auto.
    + apply F; [intros j Hj; rewrite ids_app, ids_cons, !in_app_iff; auto| |assumption]. intros j Hj ->. destruct (A2 _ Htx). contradiction.
  - destruct Hs, Hr1 as [R1 R2], Hr2 as [R3 R4]. split; try lia; try congruence.
    + intros j Hj Hnj. rewrite <- sp_old0 by assumption. apply Hfr; [| |intros ->; apply Hnj; left; reflexivity].
      * intros ->. apply Hnj. right. rewrite ids_app, ids_cons, !in_app_iff. auto.
      * intros ->. specialize (sp_ids0 _ Hty). lia.
    + intros j [<-|Hj]; [left; left; reflexivity|]. rewrite ids_app, !ids_cons, !in_app_iff in *.
      destruct Hj as [Hj|[Hj|[Hj|Hj]]]; [| |right; auto|]; left; right; rewrite !in_app_iff; auto.
Qed.
