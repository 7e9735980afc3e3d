(** The steps of the normalisation of one node. *)
From Verif Require Import TreeFacts Meta TocBuild Queries.
From Verif Require Export NormFam.
From Verif Require Import Consistency NodeProofs NodeOps Monad.
Local Open Scope string_scope.
Local Open Scope list_scope.

Lemma within_same s l : within s s l l. Proof. apply within_refl. Qed.
Lemma fam_at s p i c m ps1 x ps2 : fam s p i c m (ps1 ++ x :: ps2) ->
  exists n, st_heap s !! tip x = Some n /\ n_cls n = a_class x.2 /\ n_attrs n = a_attrs x.2.
Proof.
  intros [_ _ Hf]. apply list.Forall_app in Hf as [_ Hf]. apply list.Forall_cons in Hf as [Hu _]. unfold held in Hu.
  destruct x as [u t]. cbn [fst snd] in Hu. inversion Hu as [? j n us ts Hn Hp Hk Hts]. exists n. auto.
Qed.
Lemma subclass_any_one c d : subclass_any c [d] = subclass c d.
Proof. unfold subclass_any. cbn [existsb]. apply orb_false_r. Qed.
Lemma is_text_ok s p i c m ps1 x ps2 s' b : fam s p i c m (ps1 ++ x :: ps2) -> is_text (tip x) s = (s', Ok b) -> s' = s /\ b = text_node x.2.
Proof.
  intros H Ht. destruct (fam_at _ _ _ _ _ _ _ _ H) as (n & Hn & Hc & _). unfold is_text, inst in Ht. msteps.
  assert (n0 = n) as -> by congruence. split; [reflexivity|]. rewrite subclass_any_one, Hc. reflexivity.
Qed.
Lemma get_text_ok s p i c m ps1 x ps2 s' r : fam s p i c m (ps1 ++ x :: ps2) -> get_str (tip x) a_text s = (s', Ok r) ->
  s' = s /\ r = text_of x.2.
Proof.
  intros H Ht. destruct (fam_at _ _ _ _ _ _ _ _ H) as (n & Hn & _ & Ha).
  apply get_str_ok in Ht as (-> & n' & Hn' & E). split; [reflexivity|]. unfold text_of. rewrite <- Ha.
  assert (n' = n) as -> by congruence. rewrite E. reflexivity.
Qed.
Lemma set_text_ok s p i c m ps1 x ps2 s' v u : fam s p i c m (ps1 ++ x :: ps2) -> setattr (tip x) a_text (VStr v) s = (s', Ok u) ->
  fam s' p i c m (ps1 ++ (x.1, retext (fun _ => v) x.2) :: ps2) /\ within s s' (i :: ids (ps1 ++ x :: ps2)) (i :: ids (ps1 ++ x :: ps2)).
Proof.
  intros H Hs. apply setattr_ok in Hs as (n & Hn & ->).
  assert (Ha : attrs_became s (upd s (tip x) (set_n_attr a_text (VStr v) n)) (tip x) (fun m => <[a_text := VStr v]> m)) by (apply attrs_became_set; assumption).
  split.
  - destruct x as [u' [cu mu tu]]. unfold tip in Ha. cbn [fst] in Ha. exact (fam_set _ _ _ _ _ _ _ _ _ _ _ _ _ H Ha).
  - eapply set_within; [exact Ha|]. right. rewrite ids_app, ids_cons, !in_app_iff. right. left. apply tip_in.
Qed.
Lemma retext_text f t : text_of t = text_of t -> retext f t = retext (fun _ => f (text_of t)) t.
Proof. destruct t. reflexivity. Qed.
Lemma ids_retree ps1 x t ps2 : ids (ps1 ++ (x.1, t) :: ps2) = ids (ps1 ++ x :: ps2).
Proof. rewrite !ids_app, !ids_cons. reflexivity. Qed.
Lemma update_text_ok s p i c m ps1 x ps2 s' f u : fam s p i c m (ps1 ++ x :: ps2) -> update_text (tip x) f s = (s', Ok u) ->
  fam s' p i c m (ps1 ++ (x.1, retext f x.2) :: ps2) /\ within s s' (i :: ids (ps1 ++ x :: ps2)) (i :: ids (ps1 ++ x :: ps2)).
Proof.
  intros H Hs. unfold update_text in Hs. apply bind_ok in Hs as (s1 & t & H1 & Hs).
  apply (get_text_ok _ _ _ _ _ _ _ _ _ _ H) in H1 as [-> ->]. apply (set_text_ok _ _ _ _ _ _ _ _ _ _ _ H) in Hs.
  rewrite (retext_text f) by reflexivity. exact Hs.
Qed.
Lemma when_text_ok s p i c m ps1 x ps2 s' f u : fam s p i c m (ps1 ++ x :: ps2) -> when_text (tip x) f s = (s', Ok u) ->
  fam s' p i c m (ps1 ++ (x.1, if_text (retext f) x.2) :: ps2) /\ within s s' (i :: ids (ps1 ++ x :: ps2)) (i :: ids (ps1 ++ x :: ps2)).
Proof.
  intros H Hs. unfold when_text in Hs. apply bind_ok in Hs as (s1 & b & H1 & Hs).
  apply (is_text_ok _ _ _ _ _ _ _ _ _ _ H) in H1 as [-> ->]. unfold if_text. destruct (text_node x.2).
  - eapply update_text_ok; eassumption.
  - apply ret_ok in Hs as [-> _]. destruct x. split; [exact H|apply within_refl].
Qed.
Lemma kids_ok s p i c m ps s' l : fam s p i c m ps -> children_of i s = (s', Ok l) -> s' = s /\ l = map tip ps.
Proof.
  intros [_ (n & Hn & _ & _ & _ & Hk) _] H. unfold children_of in H. apply bind_ok in H as (s1 & n' & H1 & H).
  rewrite (get_node_eq _ _ _ Hn) in H1. injection H1 as <- <-. apply ret_ok in H as [-> ->]. auto.
Qed.
Lemma cls_ok s p i c m ps s' d : fam s p i c m ps -> cls_of i s = (s', Ok d) -> s' = s /\ d = c.
Proof. intros [_ (n & Hn & <- & _) _] H. apply cls_of_ok in H as (-> & n' & Hn' & ->). assert (n' = n) as -> by congruence. auto. Qed.

(** ** Merging *)

Lemma flags_ok s p i c m : forall ps2 ps1 s' bs,
  fam s p i c m (ps1 ++ ps2) -> mapM (fun x => let! b := is_text x in ret (x, b)) (map tip ps2) s = (s', Ok bs) ->
  s' = s /\ bs = map (fun x => (tip x, text_node x.2)) ps2.
Proof.
  induction ps2 as [|x ps2 IH]; intros ps1 s' bs H Hm; cbn [map mapM] in Hm.
  - apply ret_ok in Hm as [-> ->]. auto.
  - apply bind_ok in Hm as (s1 & b & H1 & Hm). apply bind_ok in H1 as (s2 & b' & H1 & H2).
    apply (is_text_ok _ _ _ _ _ _ _ _ _ _ H) in H1 as [-> ->]. apply ret_ok in H2 as [-> ->].
    apply bind_ok in Hm as (s3 & bs' & H3 & Hm). apply ret_ok in Hm as [-> ->].
    apply (IH (ps1 ++ [x])) in H3 as [-> ->]; [auto|]. rewrite <- app_assoc. exact H.
Qed.
Lemma removes_ok p i c m ps1 ps3 : forall ps2 s s' u,
  fam s p i c m (ps1 ++ ps2 ++ ps3) -> iterM remove_self (map tip ps2) s = (s', Ok u) ->
  fam s' p i c m (ps1 ++ ps3) /\ within s s' (i :: ids (ps1 ++ ps2 ++ ps3)) (i :: ids (ps1 ++ ps3)).
Proof.
  induction ps2 as [|x ps2 IH]; intros s s' u H Hm; cbn [map] in Hm.
  - apply ret_ok in Hm as [-> _]. split; [assumption|apply within_refl].
  - apply iterM_cons_ok in Hm as (s1 & H1 & Hm). cbn [app] in *. apply (fam_remove _ _ _ _ _ _ _ _ _ _ H) in H1 as [H1 W1].
    apply (IH _ _ _ H1) in Hm as [H2 W2]. split; [assumption|]. eapply within_trans; eassumption.
Qed.
Lemma gets_ok s p i c m : forall ps2 ps1 ps3 s' r,
  fam s p i c m (ps1 ++ ps2 ++ ps3) -> mapM (fun t => get_str t a_text) (map tip ps2) s = (s', Ok r) ->
  s' = s /\ r = map (fun x => text_of x.2) ps2.
Proof.
  induction ps2 as [|x ps2 IH]; intros ps1 ps3 s' r H Hm; cbn [map mapM] in Hm.
  - apply ret_ok in Hm as [-> ->]. auto.
  - apply bind_ok in Hm as (s1 & b & H1 & Hm). cbn [app] in H. apply (get_text_ok _ _ _ _ _ _ _ _ _ _ H) in H1 as [-> ->].
    apply bind_ok in Hm as (s3 & bs' & H3 & Hm). apply ret_ok in Hm as [-> ->].
    apply (IH (ps1 ++ [x]) ps3) in H3 as [-> ->]; [auto|]. rewrite <- app_assoc. exact H.
Qed.
Lemma removelast_map {X Y} (f : X -> Y) l : removelast (map f l) = map f (removelast l).
Proof. induction l as [|x [|y l] IH]; [reflexivity..|]. cbn [map removelast] in *. f_equal. exact IH. Qed.
Lemma merge_run_ok s s' u p i c m ps1 run ps3 :
  fam s p i c m (ps1 ++ run ++ ps3) -> merge_run (map tip run) s = (s', Ok u) ->
  exists run', fam s' p i c m (ps1 ++ run' ++ ps3) /\ map snd run' = joined (map snd run) /\
    within s s' (i :: ids (ps1 ++ run ++ ps3)) (i :: ids (ps1 ++ run' ++ ps3)).
Proof.
  intros H Hm. destruct run as [|x rest]; [|destruct rest as [|y rest _] using rev_ind].
  - apply ret_ok in Hm as [-> _]. exists []. split; [assumption|]. split; [reflexivity|apply within_refl].
  - apply ret_ok in Hm as [-> _]. exists [x]. split; [assumption|]. split; [reflexivity|apply within_refl].
  - assert (Em : merge_run (map tip (x :: rest ++ [y])) =
      (let! f := get_str (tip x) a_text in
       let! l1 := mapM (fun t => get_str t a_text) (map tip rest) in
       let! l := get_str (tip y) a_text in
       do! setattr (tip x) a_text (VStr (merged_text f l1 l)) in
       iterM remove_self (map tip (rest ++ [y])))).
    { cbn [map]. unfold merge_run. rewrite map_app. cbn [map].
      destruct (map tip rest ++ [tip y]) as [|z l] eqn:E; [destruct (map tip rest); discriminate E|]. rewrite <- E.
      rewrite removelast_last, last_last. reflexivity. }
    rewrite Em in Hm. clear Em.
    apply bind_ok in Hm as (s1 & f & H1 & Hm). cbn [app] in H. apply (get_text_ok _ _ _ _ _ _ _ _ _ _ H) in H1 as [-> ->].
    apply bind_ok in Hm as (s1 & l1 & H1 & Hm). apply (gets_ok s p i c m rest (ps1 ++ [x]) (y :: ps3)) in H1 as [-> ->].
    2:{ rewrite <- app_assoc. cbn [app]. rewrite <- app_assoc in H. exact H. }
    apply bind_ok in Hm as (s1 & l & H1 & Hm). apply (get_text_ok s p i c m (ps1 ++ x :: rest) y ps3) in H1 as [-> ->].
    2:{ rewrite <- app_assoc. cbn [app]. rewrite <- app_assoc in H. exact H. }
    apply bind_ok in Hm as (s1 & u1 & H1 & Hm). apply (set_text_ok _ _ _ _ _ _ _ _ _ _ _ H) in H1 as [H1 W1].
    set (x' := (x.1, retext _ x.2)) in H1.
    apply (removes_ok p i c m (ps1 ++ [x']) ps3) in Hm as [H2 W2]; [|rewrite <- app_assoc; exact H1].
    exists [x']. rewrite <- app_assoc in H2. split; [exact H2|]. split.
    + cbn [map joined]. rewrite map_app. cbn [map].
      destruct (map snd rest ++ [y.2]) as [|z l] eqn:E; [destruct (map snd rest); discriminate E|]. rewrite <- E.
      unfold joined. rewrite removelast_last, last_last, map_map. reflexivity.
    + eapply within_trans; [exact W1|]. rewrite <- (ids_retree ps1 x (retext (fun _ => merged_text (text_of x.2) (map (fun z => text_of z.2) rest) (text_of y.2)) x.2)).
      fold x'. rewrite <- (app_assoc ps1 [x'] ps3), <- (app_assoc ps1 [x']) in W2. exact W2.
Qed.
Lemma merge_ok p i c m : forall l cur ps1 s s' u,
  fam s p i c m (ps1 ++ rev cur ++ l) ->
  iterM merge_run (text_runs (map (fun x => (tip x, text_node x.2)) l) (map tip cur)) s = (s', Ok u) ->
  exists l', fam s' p i c m (ps1 ++ l') /\ map snd l' = merge_texts (map snd cur) (map snd l) /\
    within s s' (i :: ids (ps1 ++ rev cur ++ l)) (i :: ids (ps1 ++ l')).
Proof.
  assert (Hclose : forall cur ps1 ps3 s s' u rs, fam s p i c m (ps1 ++ rev cur ++ ps3) -> iterM merge_run (close_run (map tip cur) rs) s = (s', Ok u) ->
    exists s1 run', fam s1 p i c m (ps1 ++ run' ++ ps3) /\ map snd run' = joined (rev (map snd cur)) /\
      within s s1 (i :: ids (ps1 ++ rev cur ++ ps3)) (i :: ids (ps1 ++ run' ++ ps3)) /\ iterM merge_run rs s1 = (s', Ok u)).
  { intros cur ps1 ps3 s s' u rs H Hm. destruct cur as [|x cur].
    - exists s, []. split; [exact H|]. split; [reflexivity|]. split; [apply within_refl|exact Hm].
    - change (close_run (map tip (x :: cur)) rs) with (rev (map tip (x :: cur)) :: rs) in Hm. rewrite <- map_rev in Hm.
      apply iterM_cons_ok in Hm as (s1 & H1 & Hm). destruct u. apply (merge_run_ok _ _ _ _ _ _ _ _ _ _ H) in H1 as (run' & H1 & E & W).
      exists s1, run'. rewrite map_rev in E. auto. }
  induction l as [|x l IH]; intros cur ps1 s s' u H Hm.
  - cbn [map text_runs] in Hm. apply (Hclose _ _ _ _ _ _ _ H) in Hm as (s1 & run' & H1 & E & W & Hm). apply ret_ok in Hm as [-> _].
    exists run'. rewrite !app_nil_r in *. auto.
  - cbn [map text_runs] in Hm. cbn [map merge_texts]. destruct (text_node x.2) eqn:Et.
    + change (tip x :: map tip cur) with (map tip (x :: cur)) in Hm.
      apply (IH (x :: cur) ps1) in Hm; [|cbn [rev]; rewrite <- app_assoc; exact H].
      cbn [rev map] in Hm. rewrite <- app_assoc in Hm. exact Hm.
    + apply (Hclose _ _ _ _ _ _ _ H) in Hm as (s1 & run' & H1 & E & W & Hm).
      change (text_runs (map (fun x => (tip x, text_node x.2)) l) []) with (text_runs (map (fun x => (tip x, text_node x.2)) l) (map tip [])) in Hm.
      apply (IH [] (ps1 ++ run' ++ [x])) in Hm as (l' & H2 & E2 & W2); [|rewrite <- !app_assoc; exact H1].
      exists (run' ++ x :: l'). rewrite <- !app_assoc in *. cbn [app] in *. split; [exact H2|]. split.
      * rewrite map_app, E. cbn [map]. rewrite E2. reflexivity.
      * cbn [rev app] in W2. eapply within_trans; [exact W|exact W2].
Qed.

(** ** Both ends *)

Lemma fam_siblings s p i c m ps1 x ps2 : fam s p i c m (ps1 ++ x :: ps2) -> siblings (st_heap s) (tip x) (map tip ps1) (map tip ps2).
Proof.
  intros H. destruct (fam_kid _ _ _ _ _ _ _ _ H) as (nx & Hx & Hp). destruct H as [_ (n & Hn & _ & _ & _ & Hk) _].
  exists i, n. split; [exists nx; auto|]. split; [assumption|]. rewrite Hk, map_app. reflexivity.
Qed.
(** What the code does to the first child of a type, when nothing is before it. *)
Definition on_first (i : id) (d : cls) (k : id -> M unit) : M unit :=
  let! f := first_of_type i [d] in
  match f with
  | Some (f, _) => let! p := prev_sibling f SibAny in match p with None => k f | Some _ => ret tt end
  | None => ret tt
  end.
Definition on_last (i : id) (d : cls) (k : id -> M unit) : M unit :=
  let! l := last_of_type i [d] in
  match l with
  | Some (l, _) => let! n := next_sibling l SibAny in match n with None => k l | Some _ => ret tt end
  | None => ret tt
  end.
Lemma instance_ok s p i c m ps1 x ps2 d : fam s p i c m (ps1 ++ x :: ps2) -> is_instance (st_heap s) [d] (tip x) <-> subclass (a_class x.2) d = true.
Proof.
  intros H. destruct (fam_at _ _ _ _ _ _ _ _ H) as (n & Hn & Hc & _). rewrite (is_instance_iff _ _ _ _ Hn), subclass_any_one, Hc. reflexivity.
Qed.
Lemma nth_error_top ps k j : nth_error (map tip ps) k = Some j -> exists ps1 x ps2, ps = ps1 ++ x :: ps2 /\ j = tip x /\ length ps1 = k.
Proof.
  intros H. apply nth_error_split in H as (l1 & l2 & E & Hl). apply map_eq_app in E as (p1 & p2 & -> & <- & E).
  apply map_eq_cons in E as (x & p3 & -> & <- & <-). exists p1, x, p3. rewrite map_length in Hl. auto.
Qed.
Lemma on_first_ok s s' u p i c m ps d k : fam s p i c m ps -> on_first i d k s = (s', Ok u) ->
  match ps with x :: _ => if subclass (a_class x.2) d then k (tip x) s = (s', Ok u) else s' = s | [] => s' = s end.
Proof.
  intros H Hk. unfold on_first in Hk. apply bind_ok in Hk as (s1 & f & H1 & Hk). apply first_of_type_ok in H1 as (-> & n & Hn & H1).
  pose proof (fm_node _ _ _ _ _ _ H) as (n' & Hn' & _ & _ & _ & Ek). assert (n' = n) as -> by congruence. rewrite Ek in H1.
  destruct ps as [|x ps].
  - destruct f as [[f q]|]; [|apply ret_ok in Hk as [-> _]; reflexivity]. destruct H1 as [H1 _]. destruct q; discriminate H1.
  - pose proof (instance_ok s p i c m [] x ps d H) as Hi. destruct f as [[f q]|].
    + destruct H1 as (E & Hf & Hno). apply nth_error_top in E as (ps1 & y & ps2 & E & -> & Hl).
      apply bind_ok in Hk as (s1 & r & H2 & Hk). rewrite E in H. pose proof (fam_siblings _ _ _ _ _ _ _ _ H) as Hs.
      rewrite (prev_sibling_any _ _ _ _ (proj2 (fm_good _ _ _ _ _ _ H)) Hs) in H2. injection H2 as <- <-.
      destruct ps1 as [|z ps1].
      * cbn [app] in E. injection E as -> ->. apply Hi in Hf. rewrite Hf. exact Hk.
      * cbn [app] in E. injection E as -> ->. destruct (list.last (map tip (z :: ps1))) as [w|] eqn:El.
        2:{ apply last_None in El. discriminate El. }
        apply ret_ok in Hk as [-> _]. destruct (subclass (a_class z.2) d) eqn:Ez; [|reflexivity]. exfalso.
        apply (Hno 0 (tip z)); [cbn in Hl; lia|reflexivity|]. apply Hi. reflexivity.
    + apply ret_ok in Hk as [-> _]. destruct (subclass (a_class x.2) d) eqn:Ez; [|reflexivity]. exfalso.
      apply (H1 (tip x)); [left|]. apply Hi. reflexivity.
Qed.
Lemma on_last_ok s s' u p i c m ps d k : fam s p i c m ps -> on_last i d k s = (s', Ok u) ->
  match rev ps with x :: _ => if subclass (a_class x.2) d then k (tip x) s = (s', Ok u) else s' = s | [] => s' = s end.
Proof.
  intros H Hk. unfold on_last in Hk. apply bind_ok in Hk as (s1 & f & H1 & Hk). apply last_of_type_ok in H1 as (-> & n & Hn & H1).
  pose proof (fm_node _ _ _ _ _ _ H) as (n' & Hn' & _ & _ & _ & Ek). assert (n' = n) as -> by congruence. rewrite Ek in H1.
  destruct ps as [|x ps _] using rev_ind.
  - destruct f as [[f q]|]; [|apply ret_ok in Hk as [-> _]; reflexivity]. destruct H1 as [H1 _]. destruct q; discriminate H1.
  - rewrite rev_unit. pose proof (instance_ok s p i c m ps x [] d H) as Hi. destruct f as [[f q]|].
    + destruct H1 as (E & Hf & Hno). apply nth_error_top in E as (ps1 & y & ps2 & E & -> & Hl).
      apply bind_ok in Hk as (s1 & r & H2 & Hk). rewrite E in H. pose proof (fam_siblings _ _ _ _ _ _ _ _ H) as Hs.
      rewrite (next_sibling_any _ _ _ _ (proj2 (fm_good _ _ _ _ _ _ H)) Hs) in H2. injection H2 as <- <-.
      destruct ps2 as [|z ps2 _] using rev_ind.
      * apply app_inj_tail in E as [-> ->]. apply Hi in Hf. rewrite Hf. exact Hk.
      * rewrite app_comm_cons, app_assoc in E. apply app_inj_tail in E as [-> ->].
        destruct (hd_error (map tip (ps2 ++ [z]))) as [w|] eqn:El.
        2:{ rewrite map_app in El. destruct (map tip ps2); discriminate El. }
        assert (s' = s) as ->. { destruct (map tip (ps2 ++ [z])) as [|? ?]; [discriminate El|]. apply ret_ok in Hk as [-> _]. reflexivity. }
        destruct (subclass (a_class z.2) d) eqn:Ez; [|reflexivity]. exfalso.
        apply (Hno (length (ps1 ++ y :: ps2)) (tip z)).
        -- rewrite app_length. cbn [length]. lia.
        -- rewrite map_app, nth_error_app2; rewrite map_length; [|lia]. rewrite Nat.sub_diag. reflexivity.
        -- apply Hi. reflexivity.
    + apply ret_ok in Hk as [-> _]. destruct (subclass (a_class x.2) d) eqn:Ez; [|reflexivity]. exfalso.
      apply (H1 (tip x)); [rewrite map_app; apply elem_of_app; right; left|]. apply Hi. reflexivity.
Qed.
