(** The normalisation returns on the trees whose nodes have what it reads. *)
From Verif Require Import TreeFacts Meta TocBuild Queries.
From Verif Require Export NormEnd ParseTotal.
From Verif Require Import Fuel Consistency EditTotal NodeProofs NodeOps Monad.
Local Open Scope string_scope.
Local Open Scope list_scope.

Lemma returns_then {X Y} (m : M X) (k : X -> M Y) s : returns m s -> (forall s1 a, m s = (s1, Ok a) -> returns (k a) s1) -> returns (bind m k) s.
Proof. intros (s1 & a & E) H. eapply returns_bind; [exact E|]. apply H, E. Qed.
Lemma returns_ret {X} (x : X) s : returns (ret x) s. Proof. do 2 eexists. reflexivity. Qed.
Lemma returns_eq {X} (m : M X) s s1 x : m s = (s1, Ok x) -> returns m s. Proof. eauto. Qed.

(** ** What is read *)

Definition texted (t : atree) : Prop := exists y, a_attrs t !! a_text = Some (VStr y).
Definition readied (t : atree) : Prop := text_node t = true -> texted t.
Definition fit_node (c : cls) (m : gmap attr val) : Prop :=
  (subclass c CText = true -> (exists y, m !! a_text = Some (VStr y)) /\ is_Some (m !! a_asis)) /\
  (subclass c CSection = true \/ subclass c CManuscript = true -> is_Some (m !! a_title)) /\
  (subclass c CConstruct = true -> exists v w, m !! a_kind = Some v /\ keyword_of v = Some w).
Inductive sound : nat -> atree -> Prop :=
| Sound h c m ts : fit_node c m -> (subclass c CConstruct = true -> 2 <= h) -> Forall (sound h) ts -> sound (S h) (A c m ts).
Lemma sound_readied h t : sound h t -> readied t.
Proof. intros [h' c m ts (H1 & _) _ _] Ht. destruct (H1 Ht) as [[y Hy] _]. exists y. exact Hy. Qed.
Lemma sound_more : forall t h h', sound h t -> h <= h' -> sound h' t.
Proof.
  induction t as [c m ts IH] using atree_ind'. intros h h' H Hle. inversion H as [h0 ? ? ? H1 H2 H3]; subst. destruct h' as [|h']; [lia|].
  constructor; [assumption|intros Hc; specialize (H2 Hc); lia|]. clear H H2. induction H3 as [|t ts Ht H3 IH3]; [constructor|].
  apply list.Forall_cons in IH as [I1 I2]. constructor; [eapply I1; [exact Ht|lia]|auto].
Qed.
Lemma sound_kept h : kept (sound h).
Proof.
  intros f t Ht H. destruct H as [h c m ts (H1 & H2 & H3) Hc Hts]. cbn [retext]. constructor; [|assumption..].
  split; [|split].
  - intros Hx. destruct (H1 Hx) as [_ Ha]. split; [eexists; apply lookup_insert|]. rewrite lookup_insert_ne by discriminate. exact Ha.
  - intros Hx. rewrite lookup_insert_ne by discriminate. auto.
  - intros Hx. destruct (H3 Hx) as (v & w & E). exists v, w. rewrite lookup_insert_ne by discriminate. exact E.
Qed.
Lemma fit_text x : fit_node CText (mk_attrs CText [(a_text, VStr x)]).
Proof.
  split; [|split].
  - intros _. split; [exists x|eexists]; reflexivity.
  - intros [H|H]; discriminate H.
  - intros H. discriminate H.
Qed.
Lemma sound_space h : sound (S h) space.
Proof. constructor; [apply fit_text|discriminate|constructor]. Qed.
Lemma sound_keyword h w : sound (S (S h)) (keyword w).
Proof.
  constructor; [|discriminate|constructor; [|constructor]].
  - split; [|split]; [discriminate|intros [H|H]; discriminate H|discriminate].
  - constructor; [apply fit_text|discriminate|constructor].
Qed.
Lemma sound_local h c m ts : sound (S h) (A c m ts) -> Forall (sound h) (local c m ts).
Proof.
  intros H. inversion H as [? ? ? ? _ Hc Hts]; subst. destruct h as [|h].
  - destruct Hts as [|t ts Ht _]; [|inversion Ht]. unfold local, prefixed. destruct (subclass c CConstruct); [specialize (Hc eq_refl); lia|constructor].
  - apply kept_local; [apply sound_kept| | | |assumption].
    + intros f. apply sound_kept; [reflexivity|apply sound_space].
    + apply sound_space.
    + intros E w. specialize (Hc E). destruct h as [|h]; [lia|]. apply sound_keyword.
Qed.

(** ** The steps *)

Lemma is_text_goes s p i c m ps1 x ps2 : fam s p i c m (ps1 ++ x :: ps2) -> returns (is_text (tip x)) s.
Proof.
  intros H. destruct (fam_at _ _ _ _ _ _ _ _ H) as (n & Hn & _). unfold is_text, inst, cls_of, bind, get_node, ret. rewrite Hn. eauto.
Qed.
Lemma get_text_goes s p i c m ps1 x ps2 : fam s p i c m (ps1 ++ x :: ps2) -> texted x.2 -> returns (get_str (tip x) a_text) s.
Proof.
  intros H [y Hy]. destruct (fam_at _ _ _ _ _ _ _ _ H) as (n & Hn & _ & Ha). rewrite <- Ha in Hy.
  eapply returns_eq. apply (get_text_returns _ _ _ _ Hn Hy).
Qed.
Lemma setattr_goes i a v s n : st_heap s !! i = Some n -> returns (setattr i a v) s.
Proof. intros H. destruct (set_returns i a v s) as (s' & E & _); [eauto|]. eauto. Qed.
Lemma update_goes s p i c m ps1 x ps2 f : fam s p i c m (ps1 ++ x :: ps2) -> texted x.2 -> returns (update_text (tip x) f) s.
Proof.
  intros H Ht. unfold update_text. apply returns_then; [eapply get_text_goes; eassumption|]. intros s1 a E.
  apply (get_text_ok _ _ _ _ _ _ _ _ _ _ H) in E as [-> _]. destruct (fam_at _ _ _ _ _ _ _ _ H) as (n & Hn & _). eapply setattr_goes, Hn.
Qed.
Lemma when_goes s p i c m ps1 x ps2 f : fam s p i c m (ps1 ++ x :: ps2) -> readied x.2 -> returns (when_text (tip x) f) s.
Proof.
  intros H Ht. unfold when_text. apply returns_then; [eapply is_text_goes, H|]. intros s1 b E.
  apply (is_text_ok _ _ _ _ _ _ _ _ _ _ H) in E as [-> ->]. destruct (text_node x.2) eqn:Ex; [|apply returns_ret].
  eapply update_goes; [exact H|]. apply Ht, Ex.
Qed.
Lemma kids_goes s p i c m ps : fam s p i c m ps -> children_of i s = (s, Ok (map tip ps)).
Proof. intros [_ (n & Hn & _ & _ & _ & Hk) _]. unfold children_of, bind. rewrite (get_node_eq _ _ _ Hn). unfold ret. rewrite Hk. reflexivity. Qed.
Lemma cls_goes s p i c m ps : fam s p i c m ps -> cls_of i s = (s, Ok c).
Proof. intros [_ (n & Hn & <- & _) _]. unfold cls_of, bind. rewrite (get_node_eq _ _ _ Hn). reflexivity. Qed.
Lemma flags_goes s p i c m : forall ps2 ps1, fam s p i c m (ps1 ++ ps2) ->
  returns (mapM (fun x => let! b := is_text x in ret (x, b)) (map tip ps2)) s.
Proof.
  induction ps2 as [|x ps2 IH]; intros ps1 H; cbn [map mapM]; [apply returns_ret|].
  apply returns_then; [apply returns_then; [eapply is_text_goes, H|intros; apply returns_ret]|]. intros s1 b E.
  apply bind_ok in E as (s2 & b' & E1 & E2). apply (is_text_ok _ _ _ _ _ _ _ _ _ _ H) in E1 as [-> ->]. apply ret_ok in E2 as [-> ->].
  apply returns_then; [|intros; apply returns_ret]. apply (IH (ps1 ++ [x])). rewrite <- app_assoc. exact H.
Qed.
Lemma remove_goes s p i c m ps1 x ps2 : fam s p i c m (ps1 ++ x :: ps2) -> returns (remove_self (tip x)) s.
Proof.
  intros H. destruct (fam_kid _ _ _ _ _ _ _ _ H) as (nx & Hx & Hp). destruct (fam_parent _ _ _ _ _ _ _ _ H) as (n & Hn & Hc & _ & _ & Hk & Hh).
  unfold remove_self, parent_of. eapply returns_bind; [unfold bind; rewrite (get_node_eq _ _ _ Hx); reflexivity|]. rewrite Hp.
  destruct (remove_total i (tip x) s n nx Hn) as [s1 E]; [rewrite Hc; exact Hh|exact Hx|rewrite Hk, map_app; apply elem_of_app; right; left|].
  eapply returns_bind; [exact E|]. apply remove_ok in E as (_ & np & nc & l1 & l2 & _ & _ & _ & _ & _ & He).
  unfold set_parent. eapply returns_eq. eapply mod_node_eq. eapply edited_lookup; eassumption.
Qed.
Lemma removes_goes p i c m ps1 ps3 : forall ps2 s, fam s p i c m (ps1 ++ ps2 ++ ps3) -> returns (iterM remove_self (map tip ps2)) s.
Proof.
  induction ps2 as [|x ps2 IH]; intros s H; cbn [map iterM]; [apply returns_ret|]. cbn [app] in H.
  apply returns_then; [eapply remove_goes, H|]. intros s1 u E. apply (fam_remove _ _ _ _ _ _ _ _ _ _ H) in E as [H1 _]. apply IH, H1.
Qed.
Lemma gets_goes s p i c m : forall ps2 ps1 ps3, fam s p i c m (ps1 ++ ps2 ++ ps3) -> Forall (fun x => texted x.2) ps2 ->
  returns (mapM (fun t => get_str t a_text) (map tip ps2)) s.
Proof.
  induction ps2 as [|x ps2 IH]; intros ps1 ps3 H Ht; cbn [map mapM]; [apply returns_ret|]. apply list.Forall_cons in Ht as [Hx Ht]. cbn [app] in H.
  apply returns_then; [eapply get_text_goes; eassumption|]. intros s1 a E. apply (get_text_ok _ _ _ _ _ _ _ _ _ _ H) in E as [-> _].
  apply returns_then; [|intros; apply returns_ret]. apply (IH (ps1 ++ [x]) ps3); [rewrite <- app_assoc; exact H|exact Ht].
Qed.
Lemma merge_run_goes s p i c m ps1 run ps3 : fam s p i c m (ps1 ++ run ++ ps3) -> Forall (fun x => texted x.2) run -> returns (merge_run (map tip run)) s.
Proof.
  intros H Ht. destruct run as [|x rest]; [|destruct rest as [|y rest _] using rev_ind]; [apply returns_ret..|].
  assert (Em : merge_run (map tip (x :: rest ++ [y])) =
      (let! f := get_str (tip x) a_text in
       let! l1 := mapM (fun t => get_str t a_text) (map tip rest) in
       let! l := get_str (tip y) a_text in
       do! setattr (tip x) a_text (VStr (merged_text f l1 l)) in
       iterM remove_self (map tip (rest ++ [y])))).
  { cbn [map]. unfold merge_run. rewrite map_app. cbn [map].
    destruct (map tip rest ++ [tip y]) as [|z l] eqn:E; [destruct (map tip rest); discriminate E|]. rewrite <- E.
    rewrite removelast_last, last_last. reflexivity. }
  rewrite Em. clear Em. apply list.Forall_cons in Ht as [Hx Ht]. apply list.Forall_app in Ht as [Hr Hy]. apply list.Forall_cons in Hy as [Hy _].
  cbn [app] in H. apply returns_then; [eapply get_text_goes; [exact H|exact Hx]|]. intros s1 a E. apply (get_text_ok _ _ _ _ _ _ _ _ _ _ H) in E as [-> _].
  assert (H1 : fam s p i c m ((ps1 ++ [x]) ++ rest ++ y :: ps3)) by (rewrite <- app_assoc; cbn [app]; rewrite <- app_assoc in H; exact H).
  assert (H2 : fam s p i c m ((ps1 ++ x :: rest) ++ y :: ps3)) by (rewrite <- app_assoc; cbn [app]; rewrite <- app_assoc in H; exact H).
  apply returns_then; [eapply gets_goes; [exact H1|exact Hr]|]. intros s1 l1 E. apply (gets_ok _ _ _ _ _ _ _ _ _ _ H1) in E as [-> _].
  apply returns_then; [eapply get_text_goes; [exact H2|exact Hy]|]. intros s1 l E. apply (get_text_ok _ _ _ _ _ _ _ _ _ _ H2) in E as [-> _].
  destruct (fam_at _ _ _ _ _ _ _ _ H) as (n & Hn & _). apply returns_then; [eapply setattr_goes, Hn|]. intros s1 u E.
  apply (set_text_ok _ _ _ _ _ _ _ _ _ _ _ H) in E as [H3 _]. set (x' := (x.1, retext _ x.2)) in H3.
  apply (removes_goes p i c m (ps1 ++ [x']) ps3). rewrite <- app_assoc. exact H3.
Qed.
Lemma iter_cons {X} (f : X -> M unit) x l s : iterM f (x :: l) s = (do! f x in iterM f l) s. Proof. reflexivity. Qed.
Lemma merge_goes p i c m : forall l cur ps1 s, fam s p i c m (ps1 ++ rev cur ++ l) -> Forall (fun x => texted x.2) cur -> Forall (fun x => readied x.2) l ->
  returns (iterM merge_run (text_runs (map (fun x => (tip x, text_node x.2)) l) (map tip cur))) s.
Proof.
  assert (Hclose : forall cur ps1 ps3 s rs, fam s p i c m (ps1 ++ rev cur ++ ps3) -> Forall (fun x => texted x.2) cur ->
    (forall s1 run', fam s1 p i c m (ps1 ++ run' ++ ps3) -> returns (iterM merge_run rs) s1) -> returns (iterM merge_run (close_run (map tip cur) rs)) s).
  { intros cur ps1 ps3 s rs H Ht Hn. destruct cur as [|x cur]; [apply (Hn s []), H|].
    change (close_run (map tip (x :: cur)) rs) with (rev (map tip (x :: cur)) :: rs). rewrite <- map_rev. rewrite iter_cons.
    apply returns_then; [eapply merge_run_goes; [exact H|apply Forall_rev, Ht]|]. intros s1 u E.
    apply (merge_run_ok _ _ _ _ _ _ _ _ _ _ H) in E as (run' & H1 & _). apply (Hn s1 run'), H1. }
  induction l as [|x l IH]; intros cur ps1 s H Ht Hl.
  - cbn [map text_runs]. apply (Hclose cur ps1 [] s); [exact H|exact Ht|]. intros; apply returns_ret.
  - apply list.Forall_cons in Hl as [Hx Hl]. cbn [map text_runs]. destruct (text_node x.2) eqn:Et.
    + change (tip x :: map tip cur) with (map tip (x :: cur)). apply (IH (x :: cur) ps1).
      * cbn [rev]. rewrite <- app_assoc. exact H.
      * constructor; [apply Hx, Et|exact Ht].
      * exact Hl.
    + apply (Hclose cur ps1 (x :: l) s); [exact H|exact Ht|]. intros s1 run' H1.
      apply (IH [] (ps1 ++ run' ++ [x])); [rewrite <- !app_assoc; exact H1|constructor|exact Hl].
Qed.
Lemma first_go_goes ds s : forall l k, Forall (fun j => is_Some (st_heap s !! j)) l -> exists r, first_of_type_go ds l k s = (s, Ok r).
Proof.
  induction l as [|j l IH]; intros k H; cbn [first_of_type_go]; [eexists; reflexivity|]. apply list.Forall_cons in H as [[n Hn] H].
  destruct (IH (S k) H) as [r Hr]. unfold inst, cls_of, bind. rewrite (get_node_eq _ _ _ Hn). unfold ret. destruct (subclass_any _ _); [eauto|].
  exists r. exact Hr.
Qed.
Lemma fam_present s p i c m ps : fam s p i c m ps -> Forall (fun j => is_Some (st_heap s !! j)) (map tip ps).
Proof.
  intros [_ _ H]. induction H as [|[u t] ps Hx _ IH]; [constructor|]. constructor; [|exact IH].
  unfold held in Hx. cbn [fst snd] in Hx. inversion Hx; subst. unfold tip. cbn [fst root]. eauto.
Qed.
Lemma on_first_goes s p i c m ps d k : fam s p i c m ps ->
  (forall x r, ps = x :: r -> subclass (a_class x.2) d = true -> returns (k (tip x)) s) -> returns (on_first i d k) s.
Proof.
  intros H Hk. pose proof (fm_node _ _ _ _ _ _ H) as (n & Hn & _ & _ & _ & Ek).
  destruct (first_go_goes [d] s (map tip ps) 0 (fam_present _ _ _ _ _ _ H)) as [f Hf].
  assert (H1 : first_of_type i [d] s = (s, Ok f)) by (unfold first_of_type, bind; rewrite (kids_goes _ _ _ _ _ _ H); exact Hf).
  unfold on_first. eapply returns_bind; [exact H1|]. apply first_of_type_ok in H1 as (_ & n' & Hn' & H1). assert (n' = n) as -> by congruence. rewrite Ek in H1.
  destruct f as [[f q]|]; [|apply returns_ret]. destruct H1 as (E & Hi & _). apply nth_error_top in E as (ps1 & y & ps2 & E & -> & Hl).
  rewrite E in H. pose proof (fam_siblings _ _ _ _ _ _ _ _ H) as Hs. apply (instance_ok _ _ _ _ _ _ _ _ _ H) in Hi.
  eapply returns_bind; [exact (prev_sibling_any _ _ _ _ (proj2 (fm_good _ _ _ _ _ _ H)) Hs)|]. destruct (list.last (map tip ps1)) as [w|] eqn:El; [apply returns_ret|].
  apply last_None in El. destruct ps1; [|discriminate El]. eapply Hk; [exact E|exact Hi].
Qed.
Lemma on_last_goes s p i c m ps d k : fam s p i c m ps ->
  (forall x r, ps = r ++ [x] -> subclass (a_class x.2) d = true -> returns (k (tip x)) s) -> returns (on_last i d k) s.
Proof.
  intros H Hk. pose proof (fm_node _ _ _ _ _ _ H) as (n & Hn & _ & _ & _ & Ek).
  assert (Hf : exists f, last_of_type i [d] s = (s, Ok f)).
  { unfold last_of_type. destruct (first_go_goes [d] s (rev (map tip ps)) 0) as [f Hf]; [apply Forall_rev; eapply fam_present, H|].
    unfold bind. rewrite (kids_goes _ _ _ _ _ _ H), Hf. destruct f as [[? ?]|]; eexists; reflexivity. }
  destruct Hf as [f H1].
  unfold on_last. eapply returns_bind; [exact H1|]. apply last_of_type_ok in H1 as (_ & n' & Hn' & H1). assert (n' = n) as -> by congruence. rewrite Ek in H1.
  destruct f as [[f q]|]; [|apply returns_ret]. destruct H1 as (E & Hi & _). apply nth_error_top in E as (ps1 & y & ps2 & E & -> & Hl).
  rewrite E in H. pose proof (fam_siblings _ _ _ _ _ _ _ _ H) as Hs. apply (instance_ok _ _ _ _ _ _ _ _ _ H) in Hi.
  eapply returns_bind; [exact (next_sibling_any _ _ _ _ (proj2 (fm_good _ _ _ _ _ _ H)) Hs)|]. destruct ps2 as [|w ps2]; [|apply returns_ret].
  eapply Hk; [exact E|exact Hi].
Qed.
Lemma readied_at ps1 x ps2 : Forall readied (map snd (ps1 ++ x :: ps2 : list branch)) -> readied x.2.
Proof. rewrite map_app. intros H. apply list.Forall_app in H as [_ H]. apply list.Forall_cons in H as [H _]. exact H. Qed.
Lemma readied_kept : kept readied.
Proof. intros f [c m ts] Ht H Hx. eexists. cbn [retext a_attrs]. apply lookup_insert. Qed.
Lemma took_returns {X} s s' p i c m ps ts (k : M X) : took s s' p i c m ps ts -> (forall ps', fam s' p i c m ps' -> map snd ps' = ts -> returns k s') -> returns k s'.
Proof. intros (ps' & F & E & _) H. eapply H; eassumption. Qed.
Lemma strip_ends_goes s p i c m ps : fam s p i c m ps -> Forall readied (map snd ps) -> returns (strip_ends i) s.
Proof.
  intros H Hr. unfold strip_ends. eapply returns_bind; [apply (cls_goes _ _ _ _ _ _ H)|]. eapply returns_bind; [apply (kids_goes _ _ _ _ _ _ H)|].
  destruct (subclass c CParagraph); [apply returns_ret|]. destruct ps as [|x ps]; [apply returns_ret|]. cbn [map].
  apply returns_then; [eapply (when_goes s p i c m [] x ps); [exact H|exact (readied_at [] x ps Hr)]|]. intros s1 u E.
  apply (when_text_ok s p i c m [] x ps) in E as [F1 _]; [|assumption]. set (x' := (x.1, _)) in F1. cbn [app] in F1.
  assert (El : exists l y, x' :: ps = l ++ [y]). { destruct (exists_last (l := x' :: ps)) as (l & y & E); [discriminate|]. eauto. }
  destruct El as (l & y & El). assert (Ety : List.last (tip x :: map tip ps) (tip x) = tip y).
  { change (tip x :: map tip ps) with (map tip (x' :: ps)). rewrite El, map_app. cbn [map]. apply last_last. }
  rewrite Ety. rewrite El in F1. eapply (when_goes s1 p i c m l y []); [exact F1|].
  apply (readied_at l y []). rewrite <- El. change (map snd (x' :: ps)) with (at_start (retext lstrip) (map snd (x :: ps))).
  apply kept_start; [apply readied_kept|exact Hr].
Qed.
Lemma strip_paragraph_goes s p i c m ps : fam s p i c m ps -> Forall readied (map snd ps) -> returns (strip_paragraph i) s.
Proof.
  intros H Hr. unfold strip_paragraph. eapply returns_bind; [apply (cls_goes _ _ _ _ _ _ H)|]. destruct (subclass c CParagraph); [|apply returns_ret].
  assert (Hx : returns (do! on_first i CText (fun f => update_text f lstrip) in on_last i CText (fun f => update_text f rstrip)) s).
  { apply returns_then.
    - eapply on_first_goes; [exact H|]. intros x r -> Et. eapply (update_goes s p i c m [] x r); [exact H|]. apply (readied_at [] x r Hr), Et.
    - intros s1 u E. apply (strip_start _ _ _ _ _ _ _ _ H) in E as (ps' & F & E & _). eapply on_last_goes; [exact F|]. intros x r -> Et.
      eapply (update_goes s1 p i c m r x []); [exact F|]. apply (readied_at r x []); [|exact Et]. rewrite E. apply kept_start; [apply readied_kept|exact Hr]. }
  destruct Hx as (s' & r & E). exists s', r. rewrite <- E. unfold on_first, on_last, bind. destruct (first_of_type i [CText] s) as [? [?|?]]; reflexivity.
Qed.
Lemma prepend_goes s s1 p i c m ps x : fam s p i c m ps -> sprout s s1 x -> has_children c = true -> possible_parents (a_class x.2) = [] -> returns (prepend i [tip x]) s1.
Proof.
  intros H Hs Hh Hp. pose proof (fam_sprout _ _ _ _ _ _ _ _ H Hs) as F1. destruct (fm_node _ _ _ _ _ _ F1) as (n & Hn & Hc & _ & _ & Hk).
  assert (Hx : exists nx, st_heap s1 !! tip x = Some nx /\ n_parent nx = None /\ n_cls nx = a_class x.2).
  { pose proof (sp_held _ _ _ Hs) as Hx. destruct x as [u t]. cbn [fst snd] in Hx. inversion Hx as [? j nx us ts Hnx Hpx Hkx Hts]. exists nx. auto. }
  destruct Hx as (nx & Hx & Hnone & Hcx).
  assert (Hne : tip x <> i). { apply (sprout_apart _ _ _ _ _ _ _ _ H Hs). apply tip_in. }
  unfold prepend. cbn [rev app iterM]. apply returns_then; [|intros; apply returns_ret].
  unfold prepend1. eapply returns_bind; [unfold raw_children, bind; rewrite (get_node_eq _ _ _ Hn), Hc, Hh; reflexivity|].
  eapply returns_bind; [unfold parent_of, bind; rewrite (get_node_eq _ _ _ Hx); reflexivity|]. rewrite Hnone.
  eapply returns_bind; [unfold set_raw_children; exact (mod_node_eq _ _ _ _ Hn)|].
  eapply returns_eq. eapply set_parent_some_eq.
  - rewrite upd_lookup, decide_False by congruence. exact Hx.
  - rewrite upd_lookup, decide_True by reflexivity. reflexivity.
  - left. rewrite Hcx. exact Hp.
Qed.
Lemma construct_children c : subclass c CConstruct = true -> has_children c = true.
Proof. destruct c; vm_compute; congruence. Qed.
Lemma pad_construct_goes s p i c m ps : fam s p i c m ps -> Forall readied (map snd ps) ->
  (subclass c CConstruct = true -> exists v w, m !! a_kind = Some v /\ keyword_of v = Some w) -> returns (pad_construct i) s.
Proof.
  intros H Hr Hkind. unfold pad_construct. eapply returns_bind; [apply (cls_goes _ _ _ _ _ _ H)|]. destruct (subclass c CConstruct) eqn:Ep; [|apply returns_ret].
  destruct (Hkind eq_refl) as (v & w & Ev & Ew). apply construct_children in Ep as Hh.
  assert (Hx : returns (do! on_first i CText (fun f => update_text f (fun t => lit " " ++ t)) in
                do! on_first i CMath (fun _ => let! t := new_node CText [(a_text, VStr (lit " "))] in prepend i [t]) in
                let! k := new_node CKeyword [] in
                let! kind := getattr i a_kind in
                match keyword_of kind with
                | None => raise EKey
                | Some w => let! t := new_node CText [(a_text, VStr w)] in do! append k [t] in prepend i [k]
                end) s).
  2:{ destruct Hx as (s' & r & E). exists s', r. rewrite <- E. unfold on_first. symmetry. rewrite bind_assoc. apply bind_ext. intros s1 f. apply bind_ext. intros s2 _. apply bind_assoc. }
  apply returns_then.
  { eapply on_first_goes; [exact H|]. intros x r -> Et. eapply (update_goes s p i c m [] x r); [exact H|]. apply (readied_at [] x r Hr), Et. }
  intros s1 u1 X1.
  assert (T1 : exists ps1, fam s1 p i c m ps1).
  { apply (on_first_ok _ _ _ _ _ _ _ _ _ _ H) in X1. destruct ps as [|x ps]; [subst; eauto|].
    fold (text_node x.2) in X1. destruct (text_node x.2) eqn:Et; [|subst; eauto]. apply (update_first _ _ _ _ _ _ _ _ _ _ H Et) in X1 as (ps' & F & _). eauto. }
  destruct T1 as (ps1 & F1). clear X1. apply returns_then.
  { eapply on_first_goes; [exact F1|]. intros x r -> Et. eapply returns_bind; [apply new_returns|].
    pose proof (sprout_new s1 CText [(a_text, VStr (lit " "))] (fm_good _ _ _ _ _ _ F1)) as Hsp.
    change [st_next s1] with [tip (T (st_next s1) [], space)]. eapply prepend_goes; [exact F1|exact Hsp|exact Hh|reflexivity]. }
  intros s2 u2 X2.
  assert (T2 : exists ps2, fam s2 p i c m ps2).
  { apply (on_first_ok _ _ _ _ _ _ _ _ _ _ F1) in X2. destruct ps1 as [|x ps1]; [subst; eauto|].
    destruct (subclass (a_class x.2) CMath) eqn:Et; [|subst; eauto]. apply bind_ok in X2 as (s3 & t & X2 & X3). apply new_node_ok in X2 as [-> ->].
    pose proof (sprout_new s1 CText [(a_text, VStr (lit " "))] (fm_good _ _ _ _ _ _ F1)) as Hsp.
    change [st_next s1] with [tip (T (st_next s1) [], space)] in X3. apply (fam_prepend _ _ _ _ _ _ _ _ _ _ F1 Hsp) in X3 as [F3 _]. eauto. }
  destruct T2 as (ps2 & F). clear X2 F1. eapply returns_bind; [apply new_returns|].
  pose proof (new_draft s2 CKeyword [] (fm_good _ _ _ _ _ _ F)) as Hd. set (s3 := new s2 _) in *.
  assert (Ek : getattr i a_kind s3 = (s3, Ok v)).
  { destruct (fm_node _ _ _ _ _ _ F) as (n & Hn & _ & _ & <- & _). unfold getattr, bind, get_node. unfold s3.
    rewrite new_lookup, decide_False; [rewrite Hn, Ev; reflexivity|]. apply Nat.neq_sym, Nat.lt_neq. eapply fam_old; [exact F|left; reflexivity]. }
  eapply returns_bind; [exact Ek|]. rewrite Ew.
  pose proof (dr_node _ _ _ _ _ _ _ Hd) as Hn3. pose proof (new_append_returns CText [(a_text, VStr w)] (st_next s2) _ s3 Hn3) as Happ.
  cbn [n_cls] in Happ. destruct Happ as (s5 & r & Happ); [unfold s3; cbn; lia|reflexivity|left; reflexivity|].
  apply bind_ok in Happ as (s4 & t & X4 & X5). eapply returns_bind; [exact X4|]. eapply returns_bind; [exact X5|]. destruct r.
  destruct (new_append_draft _ _ _ _ _ _ _ _ _ _ _ Hd X4 X5) as [D5 L5].
  assert (Hsp : sprout s2 s5 (T (st_next s2) [T t []], keyword w)).
  { destruct D5. split.
    - assumption.
    - lia.
    - rewrite L5. reflexivity.
    - assumption.
    - cbn [fst snd]. set (nk := MkNode _ _ _ _) in dr_node. apply (holds_node _ _ _ nk); [exact dr_node|reflexivity|reflexivity|assumption].
    - intros j [<-|Hj]; [lia|]. apply dr_ids in Hj. lia. }
  change [st_next s2] with [tip (T (st_next s2) [T t []], keyword w)]. eapply prepend_goes; [exact F|exact Hsp|exact Hh|reflexivity].
Qed.
Lemma squeezes_goes p i c m f : forall ps2 ps1 s, fam s p i c m (ps1 ++ ps2) -> Forall readied (map snd ps2) -> returns (iterM (fun c => when_text c f) (map tip ps2)) s.
Proof.
  induction ps2 as [|x ps2 IH]; intros ps1 s H Hr; cbn [map iterM]; [apply returns_ret|]. apply list.Forall_cons in Hr as [Hx Hr].
  apply returns_then; [eapply when_goes; [exact H|exact Hx]|]. intros s1 u E. apply (when_text_ok _ _ _ _ _ _ _ _ _ _ _ H) in E as [F1 _].
  set (x' := (x.1, _)) in F1. apply (IH (ps1 ++ [x'])); [rewrite <- app_assoc; exact F1|exact Hr].
Qed.

(** ** One node *)

Lemma readied_space : readied space. Proof. intros _. eexists. reflexivity. Qed.
Lemma readied_stripped ts : Forall readied ts -> Forall readied (stripped ts).
Proof. intros H. apply kept_end; [apply readied_kept|]. apply kept_start; [apply readied_kept|exact H]. Qed.
Lemma readied_prefixed c m ts : Forall readied ts -> Forall readied (prefixed c m ts).
Proof.
  intros H. unfold prefixed. destruct (subclass c CConstruct); [|exact H]. constructor; [intros E; discriminate E|].
  unfold opened. assert (H1 : Forall readied (at_start (retext (fun s => lit " " ++ s)) ts)) by (apply kept_start; [apply readied_kept|exact H]).
  destruct H1 as [|t r Ht H1]; [constructor|]. destruct (subclass (a_class t) CMath); cbn [app]; repeat constructor; auto using readied_space.
Qed.
Lemma inner_body_goes s p i c m ps : fam s p i c m ps -> Forall readied (map snd ps) ->
  (subclass c CConstruct = true -> exists v w, m !! a_kind = Some v /\ keyword_of v = Some w) -> returns (inner_body i) s.
Proof.
  intros H Hr Hk. unfold inner_body. eapply returns_bind; [apply (kids_goes _ _ _ _ _ _ H)|].
  apply returns_then; [apply (flags_goes _ _ _ _ _ ps [] H)|]. intros s1 bs E. apply (flags_ok s p i c m ps []) in E as [-> ->]; [|assumption].
  assert (Hr' : Forall (fun x : branch => readied x.2) ps). { clear -Hr. induction ps; [constructor|]. apply list.Forall_cons in Hr as [? ?]. constructor; auto. }
  apply returns_then; [apply (merge_goes p i c m ps [] []); [exact H|constructor|exact Hr']|]. intros s1 u1 E.
  apply (merge_ok p i c m ps [] []) in E as (ps1 & F1 & E1 & _); [|assumption]. cbn [app] in F1.
  assert (R1 : Forall readied (map snd ps1)). { rewrite E1. apply kept_merge; [apply readied_kept|constructor|constructor|exact Hr]. }
  clear H Hr Hr' E1 ps. apply returns_then; [eapply strip_ends_goes; eassumption|]. intros s2 u2 E.
  apply (strip_ends_ok _ _ _ _ _ _ _ _ F1) in E as (ps2 & F2 & E2 & _).
  assert (R2 : Forall readied (map snd ps2)). { rewrite E2. destruct (subclass c CParagraph); [exact R1|apply readied_stripped, R1]. }
  clear F1 R1 E2 ps1. apply returns_then; [eapply strip_paragraph_goes; eassumption|]. intros s3 u3 E.
  apply (strip_paragraph_ok _ _ _ _ _ _ _ _ F2) in E as (ps3 & F3 & E3 & _).
  assert (R3 : Forall readied (map snd ps3)). { rewrite E3. destruct (subclass c CParagraph); [apply readied_stripped, R2|exact R2]. }
  clear F2 R2 E3 ps2. apply returns_then; [eapply pad_construct_goes; eassumption|]. intros s4 u4 E.
  apply (pad_construct_ok _ _ _ _ _ _ _ _ F3) in E as (ps4 & F4 & E4 & _).
  assert (R4 : Forall readied (map snd ps4)). { rewrite E4. apply readied_prefixed, R3. }
  unfold squeeze_children. eapply returns_bind; [apply (kids_goes _ _ _ _ _ _ F4)|]. apply (squeezes_goes p i c m squeeze ps4 []); assumption.
Qed.
Lemma spaced_parents c : cls_mem c spaced_classes = true -> possible_parents c = [].
Proof. destruct c; vm_compute; congruence. Qed.
Lemma space_after_goes s p q c m ps1 x ps2 : fam s p q c m (ps1 ++ x :: ps2) -> returns (space_after (tip x)) s.
Proof.
  intros H. unfold space_after. eapply returns_bind; [exact (next_sibling_any _ _ _ _ (proj2 (fm_good _ _ _ _ _ _ H)) (fam_siblings _ _ _ _ _ _ _ _ H))|].
  destruct ps2 as [|y ps2]; cbn [map head]; [apply returns_ret|].
  destruct (fam_at _ _ _ _ _ _ _ _ H) as (nx & Hx & Hcx & _). assert (H' := H). change (x :: y :: ps2) with ([x] ++ y :: ps2) in H'. rewrite app_assoc in H'.
  destruct (fam_at _ _ _ _ _ _ _ _ H') as (ny & Hy & Hcy & _).
  eapply returns_bind; [unfold cls_of, bind; rewrite (get_node_eq _ _ _ Hx); reflexivity|].
  eapply returns_bind; [unfold cls_of, bind; rewrite (get_node_eq _ _ _ Hy); reflexivity|].
  destruct (cls_mem (n_cls nx) spaced_classes) eqn:Ex; [|apply returns_ret]. cbn [andb]. destruct (cls_mem (n_cls ny) spaced_classes); [|apply returns_ret].
  eapply returns_bind; [apply new_returns|]. destruct (fam_kid _ _ _ _ _ _ _ _ H) as (nx' & Hx' & Hp). assert (nx' = nx) as -> by congruence.
  destruct (fam_parent _ _ _ _ _ _ _ _ H) as (n & Hn & Hc & _ & _ & Hk & Hh).
  assert (Ho : forall j, In j (q :: ids (ps1 ++ x :: y :: ps2)) -> st_heap (new s (mk_node CText [(a_text, VStr (lit " "))])) !! j = st_heap s !! j).
  { intros j Hj. rewrite new_lookup, decide_False; [reflexivity|]. apply Nat.neq_sym, Nat.lt_neq. eapply fam_old; [exact H|exact Hj]. }
  assert (Hxin : In (tip x) (q :: ids (ps1 ++ x :: y :: ps2))) by (right; rewrite ids_app, ids_cons, !in_app_iff; right; left; apply tip_in).
  destruct (replace_self_total (tip x) [tip x; st_next s] (new s (mk_node CText [(a_text, VStr (lit " "))])) nx q n) as [s' E].
  - rewrite Ho by exact Hxin. exact Hx.
  - exact Hp.
  - rewrite Ho by (left; reflexivity). exact Hn.
  - rewrite Hc. exact Hh.
  - rewrite Hk, map_app. apply elem_of_app. right. left.
  - intros j [<-|[<-|[]]].
    + exists nx. split; [rewrite Ho by exact Hxin; exact Hx|]. left. apply spaced_parents, Ex.
    + eexists. split; [rewrite new_lookup, decide_True by reflexivity; reflexivity|]. left. reflexivity.
  - eauto.
Qed.
Lemma title_goes i s n : st_heap s !! i = Some n -> is_Some (n_attrs n !! a_title) ->
  exists s', (let! t := getattr i a_title in setattr i a_title (VStr (unescape (fmt_val t)))) s = (s', Ok tt) /\
    exists n', st_heap s' !! i = Some n' /\ is_Some (n_attrs n' !! a_title).
Proof.
  intros Hn [v Hv]. unfold setattr, getattr, bind. rewrite (get_node_eq _ _ _ Hn), Hv. unfold ret. rewrite (mod_node_eq _ _ _ _ Hn).
  eexists. split; [reflexivity|]. eexists. split; [rewrite upd_lookup, decide_True by reflexivity; reflexivity|].
  cbn [n_attrs set_n_attr]. rewrite lookup_insert. eauto.
Qed.
Lemma escape_node_goes s p i c m ps : fam s p i c m ps -> fit_node c m -> returns (escape_node i) s.
Proof.
  intros H (H1 & H2 & _). unfold escape_node. eapply returns_bind; [apply (cls_goes _ _ _ _ _ _ H)|].
  destruct (fm_node _ _ _ _ _ _ H) as (n & Hn & Hc & _ & Hm & _). destruct (subclass c CText) eqn:Et.
  - destruct (text_not_titled _ Et) as (E1 & E2 & _). rewrite E1, E2. apply returns_then; [|intros; eapply returns_bind; [reflexivity|]; apply returns_ret].
    destruct (H1 eq_refl) as [[y Hy] [v Hv]]. rewrite <- Hm in Hy, Hv.
    eapply returns_bind; [unfold getattr, bind; rewrite (get_node_eq _ _ _ Hn), Hv; reflexivity|]. destruct (truthy v); [apply returns_ret|].
    unfold update_text. eapply returns_bind; [exact (get_text_returns _ _ _ _ Hn Hy)|]. eapply setattr_goes, Hn.
  - eapply returns_bind; [reflexivity|]. destruct (subclass c CSection).
    + rewrite <- Hm in H2. destruct (title_goes i s n Hn (H2 (or_introl eq_refl))) as (s1 & E & n1 & Hn1 & Ht). eapply returns_bind; [exact E|].
      destruct (subclass c CManuscript); [|apply returns_ret]. destruct (title_goes i s1 n1 Hn1 Ht) as (s2 & E2 & _). eauto.
    + eapply returns_bind; [reflexivity|]. destruct (subclass c CManuscript); [|apply returns_ret].
      rewrite <- Hm in H2. destruct (title_goes i s n Hn (H2 (or_intror eq_refl))) as (s2 & E2 & _). eauto.
Qed.

(** ** The loop *)

Lemma trav_more {X} cond (body : X -> id -> M X) f f' acc l s s' r : f <= f' -> trav_loop f cond body acc l s = (s', Ok r) -> trav_loop f' cond body acc l s = (s', Ok r).
Proof.
  intros Hf H. rewrite <- H. apply (loop_mono cond (fun _ => body)) with (g := 0) (g' := 0); [|lia|assumption|].
  - intros a i g g' s0 _ _. reflexivity.
  - rewrite H. discriminate.
Qed.
Lemma trav_join {X} cond (body : X -> id -> M X) : forall f1 f2 l1 l2 acc s s1 a s2 b,
  trav_loop f1 cond body acc l1 s = (s1, Ok a) -> trav_loop f2 cond body a l2 s1 = (s2, Ok b) -> trav_loop (f1 + f2) cond body acc (l1 ++ l2) s = (s2, Ok b).
Proof.
  induction f1 as [|f1 IH]; intros f2 l1 l2 acc s s1 a s2 b H1 H2.
  - destruct l1 as [|j l1]; [|discriminate H1]. apply ret_ok in H1 as [<- <-]. exact H2.
  - destruct l1 as [|j l1]; [apply ret_ok in H1 as [<- <-]; apply (trav_more cond body f2); [lia|exact H2]|].
    cbn [trav_loop] in H1. apply bind_ok in H1 as (t1 & n & E1 & H1). apply bind_ok in H1 as (t2 & a2 & E2 & H1). apply bind_ok in H1 as (t3 & cs & E3 & H1).
    cbn [app Nat.add trav_loop]. unfold bind. rewrite E1, E2, E3, app_assoc. eapply IH; eassumption.
Qed.
Lemma sound_readied_all h ts : Forall (sound h) ts -> Forall readied ts.
Proof. induction 1; constructor; [eapply sound_readied; eassumption|assumption]. Qed.
Lemma trav_goes : forall h ps2 s p q c m ps1, fam s p q c m (ps1 ++ ps2) -> Forall (sound h) (map snd ps2) ->
  exists fuel s', trav_loop fuel cond_any normalize_body tt (map tip ps2) s = (s', Ok tt).
Proof.
  induction h as [|h IH]; induction ps2 as [|x ps2 IHps]; intros s p q c m ps1 H Hs; [exists 0, s; reflexivity| |exists 0, s; reflexivity|];
    apply list.Forall_cons in Hs as [Hx Hs]; [inversion Hx|].
  destruct x as [[i us] [ci mi ts]]. cbn [snd] in Hx.
  destruct (fam_child _ _ _ _ _ _ _ _ _ _ _ _ H) as (ps & -> & -> & F0). pose proof (sound_local _ _ _ _ Hx) as Hl. inversion Hx as [? ? ? ? Hfit _ Hts]; subst.
  destruct (inner_body_goes _ _ _ _ _ _ F0 (sound_readied_all _ _ Hts) (proj2 (proj2 Hfit))) as (s2 & u2 & B2).
  pose proof B2 as H2. apply (inner_body_ok _ _ _ _ _ _ _ _ F0) in H2 as (psB & FB & EB & WB).
  pose proof (fam_inside _ _ _ _ _ _ _ _ _ _ _ _ _ _ _ H FB WB) as G2.
  set (x2 := (T i (map fst psB), A ci mi (map snd psB))) in G2.
  destruct (space_after_goes _ _ _ _ _ _ _ _ G2) as (s3 & u3 & B3). pose proof B3 as H3.
  apply (space_after_ok _ _ _ _ _ _ _ _ _ _ G2) in H3 as (gs & G3 & _ & _). unfold x2 in G3 at 1.
  destruct (fam_child _ _ _ _ _ _ _ _ _ _ _ _ G3) as (psB' & Ef & Es & F3).
  destruct (escape_node_goes _ _ _ _ _ _ F3 Hfit) as (s1 & u1 & B1). pose proof B1 as H1.
  apply (escape_node_ok _ _ _ _ _ _ _ _ F3) in H1 as [F1 W1].
  assert (W1' : NormFam.within s3 s1 (doc_order (T i (map fst psB))) (doc_order (T i (map fst psB')))) by (rewrite Ef; exact W1).
  pose proof (fam_inside _ _ _ _ _ _ _ _ _ _ _ _ _ _ _ G3 F1 W1') as G1.
  destruct (IH psB' s1 (Some q) i ci (NormTree.own_attrs ci mi) []) as (f1 & s4 & L1); [exact F1|rewrite <- Es, EB; exact Hl|].
  destruct (trav_norm f1 psB' s1 s4 tt (Some q) i ci (NormTree.own_attrs ci mi) [] F1 L1) as (psC & FC & _ & WC). cbn [app] in FC, WC.
  pose proof (fam_inside _ _ _ _ _ _ _ _ _ _ _ _ _ _ _ G1 FC WC) as G4. set (x4 := (T i (map fst psC), _)) in G4.
  change (x4 :: gs ++ ps2) with ((x4 :: gs) ++ ps2) in G4. rewrite app_assoc in G4.
  destruct (IHps _ _ _ _ _ _ G4 Hs) as (f2 & s5 & L2).
  exists (S (f1 + f2)), s5. cbn [map]. unfold tip at 1. cbn [fst root trav_loop].
  destruct (fm_node _ _ _ _ _ _ F0) as (n0 & Hn0 & _). unfold bind at 1. rewrite (get_node_eq _ _ _ Hn0). cbn [cond_any].
  assert (B : normalize_body tt i s = (s1, Ok tt)).
  { rewrite normalize_body_split. unfold bind. rewrite B2. change (tip x2) with i in B3. rewrite B3. destruct u1. exact B1. }
  unfold bind at 1. rewrite B. unfold bind. rewrite (kids_goes _ _ _ _ _ _ F1). eapply trav_join; eassumption.
Qed.
(** The normalisation of a manuscript returns. *)
Lemma normalize_goes s i us c m ts h : good s -> SpecParse.holds (st_heap s) None (T i us) (A c m ts) -> sound h (A c m ts) ->
  exists fuel s', normalize_text fuel (Some i) s = (s', Ok tt).
Proof.
  intros Hg Hh Hs. destruct (holds_fam _ _ _ _ _ _ _ Hg Hh) as (ps & -> & -> & F0).
  destruct h as [|h]; [inversion Hs|]. pose proof (sound_local _ _ _ _ Hs) as Hl. inversion Hs as [? ? ? ? Hfit _ Hts]; subst.
  destruct (inner_body_goes _ _ _ _ _ _ F0 (sound_readied_all _ _ Hts) (proj2 (proj2 Hfit))) as (s2 & u2 & B2).
  pose proof B2 as H2. apply (inner_body_ok _ _ _ _ _ _ _ _ F0) in H2 as (psB & FB & EB & WB).
  destruct (escape_node_goes _ _ _ _ _ _ FB Hfit) as (s1 & u1 & B1). pose proof B1 as H1.
  apply (escape_node_ok _ _ _ _ _ _ _ _ FB) in H1 as [F1 W1].
  destruct (trav_goes h psB s1 None i c (NormTree.own_attrs c m) [] F1) as (f1 & s4 & L1); [rewrite EB; exact Hl|].
  exists (S f1), s4. unfold normalize_text, for_traverse. cbn [trav_loop].
  destruct (fm_node _ _ _ _ _ _ F0) as (n0 & Hn0 & _). unfold bind at 1. rewrite (get_node_eq _ _ _ Hn0). cbn [cond_any].
  assert (B : normalize_body tt i s = (s1, Ok tt)).
  { rewrite normalize_body_split. unfold bind. rewrite B2. assert (B3 : space_after i s2 = (s2, Ok tt)).
    { destruct (fm_node _ _ _ _ _ _ FB) as (n2 & Hn2 & _ & Hp2 & _). unfold space_after, bind. destruct (sibling_root s2 i n2 SibAny Hn2 Hp2) as [_ E]. rewrite E. reflexivity. }
    rewrite B3. destruct u1. exact B1. }
  unfold bind at 1. rewrite B. unfold bind. rewrite (kids_goes _ _ _ _ _ _ F1), app_nil_r. exact L1.
Qed.
