(** The normalisation of a manuscript. *)
From Verif Require Import TreeFacts Meta TocBuild Queries.
From Verif Require Export NormBody.
From Verif Require Import Consistency NodeProofs NodeOps Monad.
Local Open Scope string_scope.
Local Open Scope list_scope.

(** ** The specification, one node at a time *)

Definition norm1 (t : atree) : atree := if text_node t then readable t else norm t.
Lemma atree_ind' (P : atree -> Prop) : (forall c m ts, Forall P ts -> P (A c m ts)) -> forall t, P t.
Proof.
  intros H. fix F 1. intros [c m ts]. apply H. induction ts as [|t ts IH]; constructor; [apply F|exact IH].
Qed.
Lemma class_norm t : a_class (norm t) = a_class t. Proof. destruct t. reflexivity. Qed.
Lemma class_retext f t : a_class (retext f t) = a_class t. Proof. destruct t. reflexivity. Qed.
Lemma class_if_text f t : (forall u, a_class (f u) = a_class u) -> a_class (if_text f t) = a_class t.
Proof. intros H. unfold if_text. destruct (text_node t); auto. Qed.
Lemma class_readable t : a_class (readable t) = a_class t.
Proof. unfold readable. destruct (_ && _); [apply class_retext|reflexivity]. Qed.
Lemma class_norm1 t : a_class (norm1 t) = a_class t.
Proof. unfold norm1. destruct (text_node t); [apply class_readable|apply class_norm]. Qed.
Lemma text_same f t : a_class (f t) = a_class t -> text_node (f t) = text_node t.
Proof. unfold text_node. intros ->. reflexivity. Qed.

(** Steps that look at texts only commute with what leaves texts alone. *)
Record opaque_map (f : atree -> atree) : Prop := {
  om_class : forall t, a_class (f t) = a_class t;
  om_text : forall t, text_node t = true -> f t = t;
}.
Lemma om_node f t : opaque_map f -> text_node (f t) = text_node t.
Proof. intros []. apply text_same, om_class0. Qed.
Lemma if_text_om f g t : opaque_map f -> (forall u, a_class (g u) = a_class u) -> if_text g (f t) = f (if_text g t).
Proof.
  intros Hf Hg. unfold if_text. rewrite (om_node _ _ Hf). destruct (text_node t) eqn:E; [|reflexivity].
  rewrite (om_text _ Hf t E). symmetry. apply (om_text _ Hf). rewrite (text_same g) by apply Hg. assumption.
Qed.
Lemma at_start_om f g ts : opaque_map f -> (forall u, a_class (g u) = a_class u) -> at_start g (map f ts) = map f (at_start g ts).
Proof. intros Hf Hg. destruct ts as [|t r]; [reflexivity|]. cbn [at_start map]. rewrite if_text_om by assumption. reflexivity. Qed.
Lemma at_end_om f g ts : opaque_map f -> (forall u, a_class (g u) = a_class u) -> at_end g (map f ts) = map f (at_end g ts).
Proof. intros Hf Hg. unfold at_end. rewrite <- map_rev, at_start_om, map_rev by assumption. reflexivity. Qed.
Lemma map_om f l : opaque_map f -> Forall (fun t => text_node t = true) l -> map f l = l.
Proof. intros Hf. induction 1 as [|t l Ht _ IH]; [reflexivity|]. cbn [map]. rewrite (om_text _ Hf t Ht), IH. reflexivity. Qed.
Lemma joined_text run : Forall (fun t => text_node t = true) run -> Forall (fun t => text_node t = true) (joined run).
Proof.
  intros H. destruct run as [|t [|u r]]; [constructor|assumption|]. apply list.Forall_cons in H as [H _]. constructor; [|constructor].
  rewrite (text_same (retext _)) by apply class_retext. assumption.
Qed.
Lemma merge_om f ts : forall cur, opaque_map f -> Forall (fun t => text_node t = true) cur -> merge_texts cur (map f ts) = map f (merge_texts cur ts).
Proof.
  intros cur Hf. revert cur. induction ts as [|t ts IH]; intros cur Hc; cbn [merge_texts map].
  - symmetry. apply map_om; [assumption|]. apply joined_text. apply Forall_rev. assumption.
  - rewrite (om_node _ _ Hf). destruct (text_node t) eqn:E.
    + rewrite (om_text _ Hf t E). apply IH. constructor; assumption.
    + rewrite map_app. cbn [map]. rewrite IH by constructor. f_equal. symmetry. apply map_om; [assumption|]. apply joined_text, Forall_rev. assumption.
Qed.
Lemma opened_om f ts : opaque_map f -> opened (map f ts) = map f (opened ts).
Proof.
  intros Hf. unfold opened. rewrite at_start_om by (assumption || apply class_retext).
  destruct (at_start _ ts) as [|t r]; [reflexivity|]. cbn [map]. rewrite map_app. cbn [map]. rewrite (om_class _ Hf).
  destruct (subclass _ CMath); [|reflexivity]. cbn [map]. rewrite (om_text _ Hf space) by reflexivity. reflexivity.
Qed.
Lemma local_om f c m ts : opaque_map f -> (forall w, In w (map lit (map snd kind_to_keyword)) \/ w = [] -> f (keyword w) = keyword w) ->
  local c m (map f ts) = map f (local c m ts).
Proof.
  intros Hf Hk. unfold local. rewrite merge_om by (assumption || constructor). rewrite at_start_om by (assumption || apply class_retext).
  rewrite at_end_om by (assumption || apply class_retext). rewrite map_map.
  assert (E : forall l, map (if_text (retext squeeze)) (map f l) = map f (map (if_text (retext squeeze)) l)).
  { intros l. rewrite !map_map. apply map_ext. intros t. apply if_text_om; [assumption|apply class_retext]. }
  assert (Ep : forall l, prefixed c m (map f l) = map f (prefixed c m l)).
  { intros l. unfold prefixed. destruct (subclass c CConstruct); [|reflexivity]. cbn [map]. rewrite opened_om by assumption. f_equal.
    symmetry. apply Hk. unfold keyword_of. destruct (default VNone _); try (right; reflexivity).
    destruct (find _ _) as [[a b]|] eqn:Ef; [|right; reflexivity]. left. apply find_some in Ef as [Ef _]. cbn [default snd].
    rewrite map_map. apply in_map_iff. exists (a, b). split; [reflexivity|assumption]. }
  rewrite Ep, E, map_map. reflexivity.
Qed.
(** The keywords need no escaping and no trimming. *)
Lemma keyword_norm w : In w (map lit (map snd kind_to_keyword)) \/ w = [] -> norm (keyword w) = keyword w.
Proof.
  intros H.
  assert (Hw : unescape w = w /\ strip w = w /\ squeeze w = w /\ lstrip w = w /\ rstrip w = w).
  { destruct H as [H| ->]; [|repeat split; reflexivity]. cbn [map kind_to_keyword] in H.
    repeat (destruct H as [<-|H]; [vm_compute; repeat split; reflexivity|]). destruct H. }
  destruct Hw as (W1 & _ & W2 & W3 & W4).
  assert (Hs : forall (m : gmap attr val) (v w : val), <[a_text := v]> (<[a_text := w]> m) = <[a_text := v]> m) by (intros; apply insert_insert).
  assert (Em : mk_attrs CText [(a_text, VStr w)] = <[a_text := VStr w]> (mk_attrs CText [])).
  { unfold mk_attrs. rewrite app_nil_r, fold_left_app. reflexivity. }
  unfold keyword. rewrite Em. set (m0 := mk_attrs CText []).
  assert (R : forall f, f w = w -> retext f (A CText (<[a_text := VStr w]> m0) []) = A CText (<[a_text := VStr w]> m0) []).
  { intros f Hf. unfold retext, text_of. cbn [a_attrs]. rewrite lookup_insert, Hf, Hs. reflexivity. }
  set (t := A CText (<[a_text := VStr w]> m0) []) in *.
  assert (Ht : forall f, f w = w -> if_text (retext f) t = t) by (intros f Hf; unfold if_text; change (text_node t) with true; apply R, Hf).
  change (norm (A CKeyword (mk_attrs CKeyword []) [t])) with (A CKeyword (mk_attrs CKeyword []) (set_apart (map readable (map (if_text (retext squeeze)) (at_end (retext rstrip) (at_start (retext lstrip) [t])))))).
  unfold at_end. cbn [at_start rev app]. rewrite (Ht lstrip W3), (Ht rstrip W4). cbn [map]. rewrite (Ht squeeze W2). unfold readable.
  change (text_node t) with true. assert (Ha : verbatim_text t = false).
  { unfold verbatim_text, t. cbn [a_attrs]. rewrite lookup_insert_ne by discriminate. reflexivity. }
  rewrite Ha. cbn [andb negb]. rewrite (R unescape W1). reflexivity.
Qed.
Lemma norm_eq c m ts : norm (A c m ts) = A c (own_title c m) (set_apart (map norm1 (local c m ts))).
Proof.
  set (f := fun u => if text_node u then u else norm u).
  assert (Hf : opaque_map f).
  { split; unfold f; intros t; [destruct (text_node t); [reflexivity|apply class_norm]|intros ->; reflexivity]. }
  change (norm (A c m ts)) with (A c (own_title c m) (set_apart (map readable (local c m (map f ts))))).
  rewrite local_om; [|assumption|].
  - rewrite map_map. f_equal. f_equal. apply map_ext. intros t. unfold norm1, f. destruct (text_node t) eqn:E; [reflexivity|].
    unfold readable. rewrite (text_same norm) by apply class_norm. rewrite E. reflexivity.
  - intros w Hw. unfold f. change (text_node (keyword w)) with false. cbn iota. apply keyword_norm, Hw.
Qed.

(** ** The loop *)

Lemma trav_app {X} cond (body : X -> id -> M X) : forall fuel l1 l2 acc s s' r,
  trav_loop fuel cond body acc (l1 ++ l2) s = (s', Ok r) ->
  exists fuel' s1 a, fuel' <= fuel /\ trav_loop fuel cond body acc l1 s = (s1, Ok a) /\ trav_loop fuel' cond body a l2 s1 = (s', Ok r).
Proof.
  induction fuel as [|fuel IH]; intros [|j l1] l2 acc s s' r H.
  - exists 0, s, acc. auto.
  - discriminate H.
  - exists (S fuel), s, acc. auto.
  - cbn [app trav_loop] in H. apply bind_ok in H as (s1 & n & H1 & H). apply bind_ok in H as (s2 & a & H2 & H).
    apply bind_ok in H as (s3 & cs & H3 & H). rewrite app_assoc in H. apply IH in H as (fuel' & s4 & a' & Hf & H4 & H5).
    exists fuel', s4, a'. split; [lia|]. split; [|exact H5]. cbn [trav_loop]. unfold bind. rewrite H1, H2, H3. exact H4.
Qed.
(** A text or a title. *)
Definition own_attrs (c : cls) (m : gmap attr val) : gmap attr val := a_attrs (readable (A c (own_title c m) [])).
Lemma text_not_titled c : subclass c CText = true -> subclass c CSection = false /\ subclass c CManuscript = false /\ subclass c CConstruct = false /\ has_children c = false.
Proof. destruct c; vm_compute; intros H; auto; discriminate H. Qed.
Lemma escape_node_ok s s' u p i c m ps : fam s p i c m ps -> escape_node i s = (s', Ok u) ->
  fam s' p i c (own_attrs c m) ps /\ within s s' (i :: ids ps) (i :: ids ps).
Proof.
  intros H He. assert (Ha : exists f, attrs_became s s' i f /\ f m = own_attrs c m).
  2:{ destruct Ha as (f & Ha & E). split; [rewrite <- E; eapply fam_own; eassumption|]. eapply set_within; [exact Ha|left; reflexivity]. }
  unfold escape_node in He. apply bind_ok in He as (s1 & c1 & H1 & He). apply (cls_ok _ _ _ _ _ _ _ _ H) in H1 as [-> ->].
  destruct (fm_node _ _ _ _ _ _ H) as (n & Hn & Hc & _ & Hm & _). unfold own_attrs, own_title.
  assert (Hset : forall s1 s2 u2 f, attrs_became s s1 i f -> (let! t := getattr i a_title in setattr i a_title (VStr (unescape (fmt_val t)))) s1 = (s2, Ok u2) ->
    attrs_became s s2 i (fun m => unescape_title (f m))).
  { intros s1 s2 u2 f Hb Hx. apply bind_ok in Hx as (s3 & t & X1 & X2). apply getattr_ok in X1 as (-> & n1 & Hn1 & Ht).
    apply setattr_ok in X2 as (n2 & Hn2 & ->). assert (n2 = n1) as -> by congruence. destruct Hb as (n0 & B1 & B2 & B3).
    assert (n1 = MkNode (n_cls n0) (n_parent n0) (n_children n0) (f (n_attrs n0))) as -> by congruence. cbn in Ht.
    eapply attrs_became_ext; [|eapply attrs_became_trans; [exists n0; eauto|apply attrs_became_set; exact Hn2]].
    intros n3 Hn3. assert (n3 = n0) as -> by congruence. unfold unescape_title. rewrite Ht. reflexivity. }
  destruct (subclass c CText) eqn:Et.
  - destruct (text_not_titled _ Et) as (E1 & E2 & _). rewrite E1, E2 in *. unfold readable, text_node. cbn [a_class a_attrs].
    rewrite Et. apply bind_ok in He as (s1 & u1 & H1 & He). apply bind_ok in He as (s2 & u2 & H2 & He).
    apply ret_ok in H2 as [-> _]. apply ret_ok in He as [-> _].
    apply bind_ok in H1 as (s2 & a & H2 & H1). apply getattr_ok in H2 as (-> & n1 & Hn1 & Hv). assert (n1 = n) as -> by congruence.
    unfold verbatim_text. cbn [a_attrs]. rewrite <- Hm, Hv. destruct (truthy a).
    + apply ret_ok in H1 as [-> _]. exists (fun m => m). split; [apply attrs_became_refl; eauto|reflexivity].
    + unfold update_text in H1. apply bind_ok in H1 as (s2 & t & H2 & H1). apply get_str_ok in H2 as (-> & n1 & Hn2 & Hx). assert (n1 = n) as -> by congruence.
      apply setattr_ok in H1 as (n1 & Hn3 & ->). assert (n1 = n) as -> by congruence.
      eexists. split; [apply attrs_became_set; exact Hn|]. cbn [negb andb retext a_attrs]. unfold text_of. cbn [a_attrs]. rewrite Hx. reflexivity.
  - unfold readable, text_node. cbn [a_class a_attrs]. rewrite Et. cbn [andb a_attrs].
    apply bind_ok in He as (s1 & u1 & H1 & He). apply ret_ok in H1 as [-> _]. apply bind_ok in He as (s2 & u2 & H2 & He).
    assert (B0 : attrs_became s s i (fun m => m)) by (apply attrs_became_refl; eauto).
    assert (B1 : attrs_became s s2 i (fun m => if subclass c CSection then unescape_title m else m)).
    { destruct (subclass c CSection); [exact (Hset _ _ _ _ B0 H2)|]. apply ret_ok in H2 as [-> _]. exact B0. }
    destruct (subclass c CManuscript).
    + eexists. split; [exact (Hset _ _ _ _ B1 He)|]. reflexivity.
    + apply ret_ok in He as [-> _]. eexists. split; [exact B1|reflexivity].
Qed.
Definition gap (t : atree) (ts : list atree) : list atree :=
  match ts with u :: _ => if spaced_class t && spaced_class u then [space] else [] | [] => [] end.
Lemma space_after_ok s s' u p q c m ps1 x ps2 : fam s p q c m (ps1 ++ x :: ps2) -> space_after (tip x) s = (s', Ok u) ->
  exists gs, fam s' p q c m (ps1 ++ x :: gs ++ ps2) /\ map snd gs = gap x.2 (map snd ps2) /\
    within s s' (q :: ids (ps1 ++ x :: ps2)) (q :: ids (ps1 ++ x :: gs ++ ps2)).
Proof.
  intros H Hs. unfold space_after in Hs. apply bind_ok in Hs as (s1 & r & H1 & Hs).
  rewrite (next_sibling_any _ _ _ _ (proj2 (fm_good _ _ _ _ _ _ H)) (fam_siblings _ _ _ _ _ _ _ _ H)) in H1. injection H1 as <- <-.
  destruct ps2 as [|y ps2]; cbn [map head gap] in *.
  { apply ret_ok in Hs as [-> _]. exists []. split; [exact H|]. split; [reflexivity|apply within_refl]. }
  destruct (fam_at _ _ _ _ _ _ _ _ H) as (nx & Hx & Hcx & _). assert (H' := H). change (x :: y :: ps2) with ([x] ++ y :: ps2) in H'. rewrite app_assoc in H'.
  destruct (fam_at _ _ _ _ _ _ _ _ H') as (ny & Hy & Hcy & _).
  apply bind_ok in Hs as (s1 & cx & H1 & Hs). apply cls_of_ok in H1 as (-> & n1 & Hn1 & ->). assert (n1 = nx) as -> by congruence.
  apply bind_ok in Hs as (s1 & cy & H1 & Hs). apply cls_of_ok in H1 as (-> & n2 & Hn2 & ->). assert (n2 = ny) as -> by congruence.
  rewrite Hcx, Hcy in Hs. fold (spaced_class x.2) in Hs. fold (spaced_class y.2) in Hs. destruct (spaced_class x.2 && spaced_class y.2).
  - apply bind_ok in Hs as (s1 & t & H1 & Hs). apply new_node_ok in H1 as [-> ->].
    pose proof (sprout_new s CText [(a_text, VStr (lit " "))] (fm_good _ _ _ _ _ _ H)) as Hsp.
    destruct (fam_insert _ _ _ _ _ _ _ _ _ (T (st_next s) [], space) _ _ H Hsp Hs) as [F3 W3].
    exists [(T (st_next s) [], space)]. split; [exact F3|]. split; [reflexivity|exact W3].
  - apply ret_ok in Hs as [-> _]. exists []. split; [exact H|]. split; [reflexivity|apply within_refl].
Qed.
Lemma set_apart_cons t ts : set_apart (t :: ts) = t :: gap t ts ++ set_apart ts.
Proof. reflexivity. Qed.
Lemma gap_map f t ts : (forall u, a_class (f u) = a_class u) -> gap (f t) (map f ts) = gap t ts.
Proof. intros H. destruct ts as [|u ts]; [reflexivity|]. cbn [gap map]. unfold spaced_class. rewrite !H. reflexivity. Qed.

Lemma trav_norm : forall fuel ps2 s s' u p q c m ps1,
  fam s p q c m (ps1 ++ ps2) -> trav_loop fuel cond_any normalize_body tt (map tip ps2) s = (s', Ok u) ->
  exists ps2', fam s' p q c m (ps1 ++ ps2') /\ map snd ps2' = set_apart (map norm1 (map snd ps2)) /\
    within s s' (q :: ids (ps1 ++ ps2)) (q :: ids (ps1 ++ ps2')).
Proof.
  induction fuel as [fuel IH] using (well_founded_induction lt_wf). intros [|x ps2] s s' u p q c m ps1 H Hm.
  { assert (s' = s) as ->. { destruct fuel; apply ret_ok in Hm as [-> _]; reflexivity. }
    exists []. split; [exact H|]. split; [reflexivity|apply within_refl]. }
  destruct fuel as [|fuel]; [discriminate Hm|]. cbn [map trav_loop] in Hm.
  apply bind_ok in Hm as (s1 & n & H1 & Hm). apply get_node_ok in H1 as [-> Hn].
  apply bind_ok in Hm as (s1 & [] & H1 & Hm). cbn [cond_any] in H1. rewrite normalize_body_split in H1.
  destruct x as [[i us] [ci mi ts]]. unfold tip in H1, Hm, Hn. cbn [fst root] in H1, Hm, Hn.
  destruct (fam_child _ _ _ _ _ _ _ _ _ _ _ _ H) as (ps & -> & -> & F0).
  apply bind_ok in H1 as (s2 & u2 & H2 & H1). apply bind_ok in H1 as (s3 & u3 & H3 & H1).
  apply (inner_body_ok _ _ _ _ _ _ _ _ F0) in H2 as (psB & FB & EB & WB).
  pose proof (fam_inside _ _ _ _ _ _ _ _ _ _ _ _ _ _ _ H FB WB) as G2.
  set (x2 := (T i (map fst psB), A ci mi (map snd psB))) in G2.
  change i with (tip x2) in H3. apply (space_after_ok _ _ _ _ _ _ _ _ _ _ G2) in H3 as (gs & G3 & Eg & W3). unfold x2 in G3 at 1.
  destruct (fam_child _ _ _ _ _ _ _ _ _ _ _ _ G3) as (psB' & Ef & Es & F3).
  apply (escape_node_ok _ _ _ _ _ _ _ _ F3) in H1 as [F1 W1].
  assert (W1' : within s3 s1 (doc_order (T i (map fst psB))) (doc_order (T i (map fst psB')))).
  { rewrite Ef. exact W1. }
  pose proof (fam_inside _ _ _ _ _ _ _ _ _ _ _ _ _ _ _ G3 F1 W1') as G1.
  apply bind_ok in Hm as (s4 & cs & H4 & Hm). apply (kids_ok _ _ _ _ _ _ _ _ F1) in H4 as [-> ->].
  apply trav_app in Hm as (fuel' & s4 & [] & Hf & H4 & Hm).
  apply (IH fuel ltac:(lia) psB' s1 s4 tt (Some q) i ci (own_attrs ci mi) []) in H4 as (psC & FC & EC & WC); [|exact F1].
  cbn [app] in FC, WC. pose proof (fam_inside _ _ _ _ _ _ _ _ _ _ _ _ _ _ _ G1 FC WC) as G4.
  set (x4 := (T i (map fst psC), A ci (own_attrs ci mi) (map snd psC))) in G4.
  change (x4 :: gs ++ ps2) with ((x4 :: gs) ++ ps2) in G4. rewrite app_assoc in G4.
  apply (IH fuel' ltac:(lia) ps2 s4 s' u p q c m _ G4) in Hm as (ps2' & G5 & E5 & W5).
  exists (x4 :: gs ++ ps2'). rewrite <- app_assoc in G5. split; [exact G5|]. split.
  - cbn [map]. rewrite map_app, E5. rewrite set_apart_cons. rewrite (gap_map norm1) by apply class_norm1.
    rewrite Eg. replace (gap x2.2 (map snd ps2)) with (gap (A ci mi (map snd ps)) (map snd ps2)) by reflexivity.
    cbn [snd]. f_equal. unfold x4. cbn [snd]. rewrite EC, <- Es, EB. unfold norm1 at 2. unfold text_node. cbn [a_class].
    destruct (subclass ci CText) eqn:Et.
    + destruct (text_not_titled _ Et) as (E1 & E2 & E3 & E4).
      assert (ps = []) as ->.
      { destruct (fm_node _ _ _ _ _ _ F0) as (n0 & _ & Hc0 & _ & _ & Hk0). unfold kids in Hk0. rewrite Hc0, E4 in Hk0. destruct ps; [reflexivity|discriminate Hk0]. }
      replace (local ci mi (map snd [])) with (@nil atree).
      2:{ unfold local, prefixed. rewrite E3. reflexivity. }
      unfold own_attrs, own_title. rewrite E1, E2. cbn [map set_apart snd]. unfold readable. destruct (_ && _); reflexivity.
    + rewrite norm_eq. unfold own_attrs, readable, text_node. cbn [a_class]. rewrite Et. reflexivity.
  - assert (L : forall l, within s s' (q :: ids (ps1 ++ (T i (map fst ps), A ci mi (map snd ps)) :: ps2)) l -> l = (q :: ids (ps1 ++ x4 :: gs ++ ps2')) ->
       within s s' (q :: ids (ps1 ++ (T i (map fst ps), A ci mi (map snd ps)) :: ps2)) (q :: ids (ps1 ++ x4 :: gs ++ ps2'))) by (intros l Hl <-; exact Hl).
    eapply L; [|reflexivity]. clear L.
    assert (Wx : forall (sa sb : st) la lb (xa xb : branch) psa, within sa sb la lb -> la = doc_order xa.1 -> lb = doc_order xb.1 ->
       within sa sb (q :: ids (ps1 ++ xa :: psa)) (q :: ids (ps1 ++ xb :: psa))).
    { intros sa sb la lb xa xb psa W -> ->. eapply within_more; [exact W| |].
      - intros j Hj. right. rewrite ids_app, ids_cons, !in_app_iff. auto.
      - intros j [<-|Hj]; [right; left; reflexivity|]. rewrite ids_app, ids_cons, !in_app_iff in Hj.
        destruct Hj as [Hj|[Hj|Hj]]; [right; right|left; assumption|right; right]; rewrite ids_app, ids_cons, !in_app_iff; auto. }
    eapply within_trans; [eapply (Wx _ _ _ _ _ x2); [exact WB|reflexivity|reflexivity]|].
    eapply within_trans; [exact W3|].
    eapply within_trans; [eapply (Wx _ _ _ _ _ (T i (map fst psB'), A ci (own_attrs ci mi) (map snd psB'))); [exact W1'|reflexivity|reflexivity]|].
    eapply within_trans; [eapply (Wx _ _ _ _ _ x4); [exact WC|reflexivity|reflexivity]|].
    rewrite <- !app_assoc in W5. exact W5.
Qed.

Lemma normalize_ok fuel s s' u i us c m ts :
  good s -> holds (st_heap s) None (T i us) (A c m ts) -> subclass c CText = false -> normalize_text fuel (Some i) s = (s', Ok u) ->
  good s' /\ exists us', holds (st_heap s') None (T i us') (norm (A c m ts)) /\
    within s s' (doc_order (T i us)) (doc_order (T i us')).
Proof.
  intros Hg Hh Ht Hm. unfold normalize_text, for_traverse in Hm. destruct fuel as [|fuel]; [discriminate Hm|]. cbn [trav_loop] in Hm.
  destruct (holds_fam _ _ _ _ _ _ _ Hg Hh) as (ps & -> & -> & F0).
  apply bind_ok in Hm as (s1 & n & H1 & Hm). apply get_node_ok in H1 as [-> Hn].
  apply bind_ok in Hm as (s1 & [] & H1 & Hm). cbn [cond_any] in H1. rewrite normalize_body_split in H1.
  apply bind_ok in H1 as (s2 & u2 & H2 & H1). apply bind_ok in H1 as (s3 & u3 & H3 & H1).
  apply (inner_body_ok _ _ _ _ _ _ _ _ F0) in H2 as (psB & FB & EB & WB).
  assert (s3 = s2) as ->.
  { destruct (fm_node _ _ _ _ _ _ FB) as (n2 & Hn2 & _ & Hp2 & _). unfold space_after in H3. apply bind_ok in H3 as (s4 & r & H4 & H3).
    destruct (sibling_root s2 i n2 SibAny Hn2 Hp2) as [_ E]. rewrite E in H4. injection H4 as <- <-. apply ret_ok in H3 as [-> _]. reflexivity. }
  apply (escape_node_ok _ _ _ _ _ _ _ _ FB) in H1 as [F1 W1].
  apply bind_ok in Hm as (s4 & cs & H4 & Hm). apply (kids_ok _ _ _ _ _ _ _ _ F1) in H4 as [-> ->]. rewrite app_nil_r in Hm.
  apply (trav_norm fuel psB s1 s' u None i c (own_attrs c m) []) in Hm as (psC & FC & EC & WC); [|exact F1]. cbn [app] in FC, WC.
  split; [apply FC|]. exists (map fst psC). split.
  - rewrite norm_eq, <- EB, <- EC. replace (own_title c m) with (own_attrs c m).
    + apply fam_holds. exact FC.
    + unfold own_attrs, readable, text_node. cbn [a_class]. rewrite Ht. reflexivity.
  - eapply within_trans; [exact WB|]. eapply within_trans; [exact W1|exact WC].
Qed.
