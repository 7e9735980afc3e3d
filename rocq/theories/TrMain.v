(** Nesting of the whole output, for any translator whose methods behave. *)
From Verif Require Export TrTitle.
From Verif Require Import NodeOps Monad.

(** [getattr(node, a, False)] *)
Definition fl (a : attr) (s : st) (y : id) : bool :=
  match st_heap s !! y with
  | Some n => match n_attrs n !! a with Some v => truthy v | None => false end
  | None => false
  end.
Notation must := (fl a_must_close_p_tag).
Notation dot := (fl a_followed_by_dot).
Definition old (s : st) (y : id) : Prop := is_Some (st_heap s !! y).
Definition is_mb (h : gmap id node) (y : id) : bool :=
  match h !! y with Some n => bool_decide (n_cls n = CMathBlock) | None => false end.
Definition mbt (s : st) (t : tree) : bool := is_mb (st_heap s) (root t).
(** Only the last child may be a math block, or it is not one. *)
Definition mb_alone (l : list bool) : Prop := List.last l false = true -> existsb (fun b => b) (removelast l) = false.
Definition placed (h : gmap id node) (n : node) : Prop :=
  (n_cls n <> CParagraph -> Forall (fun y => is_mb h y = false) (kids n)) /\
  (n_cls n = CParagraph -> mb_alone (map (is_mb h) (kids n))).
Definition clean (s : st) (t : tree) : Prop :=
  forall x, x ∈ doc_order t -> must s x = false /\ dot s x = false /\
    exists n, st_heap s !! x = Some n /\ placed (st_heap s) n.
Definition pt : str := lit "p".

Record nest_ok (A : list attr) (tc : tclass) (ext : id -> M (list tok)) (f0 : nat) : Prop := {
  nk_visit : forall s i ni sv c s1 op,
    good s -> st_heap s !! i = Some ni -> tc_visit tc f0 i s = (sv, Ok c) -> open_toks ext c sv = (s1, Ok op) ->
    dot s i = false ->
    (forall y, old s y -> must s1 y = must s y) /\ (forall y, old s y -> y <> i -> dot s1 y = dot s y) /\
    forall s2 cl s3, good s2 -> tfr A s1 s2 -> closes tc f0 i (closer c) s2 cl s3 -> dot s2 i = dot s1 i ->
      (forall y, dot s3 y = dot s2 y) /\
      (forall y, (n_cls ni = CMathBlock -> n_parent ni <> Some y) -> must s3 y = must s2 y) /\
      (n_cls ni = CParagraph -> exists T, moves op [] (pt :: T) /\
         (if existsb (is_mb (st_heap s)) (kids ni)
          then if must s2 i then moves cl (pt :: T) [] else moves cl T []
          else must s2 i = false -> moves cl (pt :: T) [])) /\
      (n_cls ni = CMathBlock -> forall q nq pre post,
         n_parent ni = Some q -> st_heap s !! q = Some nq -> kids nq = pre ++ i :: post -> n_cls nq = CParagraph ->
         exists T, moves op [pt] T /\
         match post with
         | [] => moves cl T [] /\ must s3 q = must s2 q
         | _ => moves cl T [pt] /\ must s3 q = true
         end) /\
      (n_cls ni <> CParagraph -> n_cls ni <> CMathBlock -> must s2 i = false -> exists T, moves op [] T /\ moves cl T [])
}.

Lemma tfr_old A s s' y : good s -> tfr A s s' -> old s y -> old s' y.
Proof. intros Hg Hf [n Hn]. destruct (Hf Hg) as (_ & _ & _ & F). destruct (F _ _ Hn) as (m & Hm & _). exists m. assumption. Qed.
Lemma tfr_mb A s s' y : good s -> tfr A s s' -> old s y -> is_mb (st_heap s') y = is_mb (st_heap s) y.
Proof.
  intros Hg Hf [n Hn]. destruct (Hf Hg) as (_ & _ & _ & F). destruct (F _ _ Hn) as (m & Hm & E & _). unfold is_mb. rewrite Hn, Hm, E. reflexivity.
Qed.
Lemma tfr_tree A s s' p t : good s -> tfr A s s' -> tree_at (st_heap s) p t -> tree_at (st_heap s') p t.
Proof.
  intros Hg Hf Ht. destruct (Hf Hg) as (_ & _ & _ & F).
  induction Ht as [p i n cs Hi Hp Hk Hcs IH] using tree_at_ind'. destruct (F _ _ Hi) as (m & Hm & E1 & E2 & E3 & _).
  econstructor; [exact Hm|congruence| |exact IH]. unfold kids in *. rewrite E1, E3. assumption.
Qed.
Lemma tfr_node A s s' i n : good s -> tfr A s s' -> st_heap s !! i = Some n ->
  exists n', st_heap s' !! i = Some n' /\ n_cls n' = n_cls n /\ n_parent n' = n_parent n /\ kids n' = kids n.
Proof.
  intros Hg Hf Hn. destruct (Hf Hg) as (_ & _ & _ & F). destruct (F _ _ Hn) as (m & Hm & E1 & E2 & E3 & _). exists m.
  unfold kids. rewrite E1, E3. auto.
Qed.
Lemma kids_old s i n : good s -> st_heap s !! i = Some n -> Forall (old s) (kids n).
Proof.
  intros [_ Hc] Hi. apply list.Forall_forall. intros c Hin.
  assert (parent_is (st_heap s) c i) as (m & Hm & _) by (apply (cons_parent _ Hc); exists n; auto). exists m. assumption.
Qed.
Lemma map_mb A s s' l : good s -> tfr A s s' -> Forall (old s) l -> map (is_mb (st_heap s')) l = map (is_mb (st_heap s)) l.
Proof. intros Hg Hf H. induction H as [|y l Hy Hl IH]; [reflexivity|]. cbn. rewrite IH. f_equal. eapply tfr_mb; eassumption. Qed.
Lemma placed_tfr A s s' n n' : good s -> tfr A s s' -> n_cls n' = n_cls n -> kids n' = kids n -> Forall (old s) (kids n) ->
  placed (st_heap s) n -> placed (st_heap s') n'.
Proof.
  intros Hg Hf E1 E2 Ho [H1 H2]. unfold placed. rewrite E1, E2, (map_mb _ _ _ _ Hg Hf Ho). split; [|assumption].
  intros Hne. specialize (H1 Hne). rewrite list.Forall_forall in *. intros y Hy. rewrite (tfr_mb A s); auto.
Qed.
(** A clean tree stays so while the flags of its nodes are left alone. *)
Lemma clean_tfr A s s' t : good s -> tfr A s s' -> clean s t ->
  (forall x, x ∈ doc_order t -> must s' x = must s x /\ dot s' x = dot s x) -> clean s' t.
Proof.
  intros Hg Hf H HX x Hx. destruct (H x Hx) as (H1 & H2 & n & Hn & Hp). destruct (HX x Hx) as [-> ->].
  split; [assumption|]. split; [assumption|]. destruct (tfr_node _ _ _ _ _ Hg Hf Hn) as (n' & Hn' & E1 & E2 & E3).
  exists n'. split; [assumption|]. eapply placed_tfr; try eassumption. eapply kids_old; eassumption.
Qed.

Section Nest.
Context (A : list attr) (tc : tclass) (ext : id -> M (list tok)) (f0 : nat).
Context (Htc : tc_ok A tc) (Hext : forall i, tpres A (ext i)) (HN : nest_ok A tc ext f0).

Definition Pn (s : st) (t : tree) (h : list tok) (s' : st) : Prop := forall p,
  good s -> tree_at (st_heap s) p t -> NoDup (doc_order t) -> clean s t ->
  (forall q, p = Some q -> q ∉ doc_order t) ->
  (forall y, old s y -> y ∉ doc_order t -> dot s' y = dot s y) /\
  (forall y, old s y -> y ∉ doc_order t -> (mbt s t = true -> p <> Some y) -> must s' y = must s y) /\
  (mbt s t = false -> moves h [] []) /\
  (mbt s t = true -> forall q nq pre post, p = Some q -> st_heap s !! q = Some nq -> kids nq = pre ++ root t :: post -> n_cls nq = CParagraph ->
     match post with
     | [] => moves h [pt] [] /\ must s' q = must s q
     | _ => moves h [pt] [pt] /\ must s' q = true
     end).
Definition Qn (s : st) (ts : list tree) (h : list tok) (s' : st) : Prop := forall i ni pre,
  good s -> st_heap s !! i = Some ni -> kids ni = pre ++ map root ts -> Forall (tree_at (st_heap s) (Some i)) ts ->
  NoDup (doc_orders ts) -> i ∉ doc_orders ts -> Forall (clean s) ts ->
  (n_cls ni <> CParagraph -> Forall (fun t => mbt s t = false) ts) ->
  (forall y, old s y -> y ∉ doc_orders ts -> dot s' y = dot s y) /\
  (forall y, old s y -> y ∉ doc_orders ts -> y <> i -> must s' y = must s y) /\
  (n_cls ni <> CParagraph -> moves h [] [] /\ must s' i = must s i) /\
  (n_cls ni = CParagraph ->
     (if List.last (map (mbt s) ts) false then moves h [pt] [] else moves h [pt] [pt]) /\
     must s' i = must s i || existsb (fun b => b) (removelast (map (mbt s) ts))).

Lemma moves_nil_frame h X : moves h [] [] -> moves h X X.
Proof using. intros H. exact (moves_frame _ _ _ X H). Qed.
Lemma moves_close op ins cl T : moves op [] T -> moves ins [] [] -> moves cl T [] -> moves (op ++ ins ++ cl) [] [].
Proof using. intros H1 H2 H3. eapply moves_app; [exact H1|]. eapply moves_app; [apply moves_nil_frame; exact H2|exact H3]. Qed.

Lemma moves_if a b (x : bool) X : moves a X X -> (if x then moves b X [] else moves b X X) -> if x then moves (a ++ b) X [] else moves (a ++ b) X X.
Proof using. intros H1 H2. destruct x; eapply moves_app; eassumption. Qed.
Lemma nest_main :
  (forall s t h s', renders tc ext f0 s t h s' -> Pn s t h s') /\
  (forall s ts h s', renders_all tc ext f0 s ts h s' -> Qn s ts h s').
Proof using Htc Hext HN.
  apply renders_ind2.
  - intros s i cs c sv n s1 op ins s2 cl s3 Hv Hn Hk Ho Hrs IH Hcl p Hg Ht Hnd Hcln Hpo.
    pose proof (proj2 (renders_frame tc ext f0 A Htc Hext) _ _ _ _ Hrs) as F12.
    pose proof (ok_visit_frame _ _ Htc _ _ _ _ _ Hv) as Fv. pose proof (tp_open_toks ext A Hext _ _ _ _ Ho) as Fo.
    pose proof (tfr_trans _ _ _ _ Fv Fo) as F1.
    assert (Hg1 : good s1) by (apply F1; assumption). assert (Hg2 : good s2) by (apply F12; assumption).
    apply tree_at_inv in Ht as (ni & Hni & Hpi & Hki & Hcs). rewrite doc_order_T in Hnd.
    apply list.NoDup_cons in Hnd as [Hic Hndc].
    destruct (Hcln i) as (Hm0 & Hd0 & ni' & Hni' & Hpl); [constructor|]. assert (ni' = ni) as -> by congruence.
    destruct (nk_visit _ _ _ _ HN s i ni sv c s1 op Hg Hni Hv Ho Hd0) as (V1 & V2 & V3).
    destruct (tfr_node _ _ _ _ _ Hg F1 Hni) as (n1 & Hn1 & C1 & P1 & K1).
    assert (Hold : forall x, x ∈ doc_orders cs -> old s x).
    { intros x Hx. destruct (Hcln x) as (_ & _ & m & Hm & _); [rewrite doc_order_T; constructor; assumption|exists m; assumption]. }
    assert (Hinc : forall t x, t ∈ cs -> x ∈ doc_order t -> x ∈ doc_orders cs) by (intros; apply elem_doc_orders; eauto).
    assert (Hroots : Forall (old s) (map root cs)) by (rewrite <- Hki; eapply kids_old; eassumption).
    assert (Hmbk : map (mbt s1) cs = map (is_mb (st_heap s)) (kids ni)).
    { rewrite Hki. rewrite <- (map_mb A s s1 _ Hg F1 Hroots). rewrite map_map. reflexivity. }
    destruct (IH i n1 []) as (I1 & I2 & I3 & I4); try assumption.
    { rewrite K1, Hki. reflexivity. }
    { eapply list.Forall_impl; [exact Hcs|]. intros t Ht. eapply (tfr_tree A s s1); eassumption. }
    { apply list.Forall_forall. intros t Ht. eapply clean_tfr; [exact Hg|exact F1| |].
      - intros x Hx. apply Hcln. rewrite doc_order_T. constructor. eauto.
      - intros x Hx. split; [apply V1|apply V2]; eauto. intros ->. apply Hic. eauto. }
    { intros Hne. rewrite C1 in Hne. apply Hpl in Hne. apply list.Forall_forall. intros t Ht. rewrite list.Forall_forall in Hne.
      unfold mbt. rewrite (tfr_mb A s); try assumption.
      - apply Hne. rewrite Hki. apply elem_of_list_fmap. eauto.
      - rewrite list.Forall_forall in Hroots. apply Hroots. apply elem_of_list_fmap. eauto. }
    destruct (V3 s2 cl s3 Hg2 F12 Hcl) as (W1 & W2 & W3 & W4 & W5).
    { apply I1; [exists n1; assumption|assumption]. }
    unfold mbt. cbn [root]. unfold is_mb at 1 2 3. rewrite Hni. split; [|split; [|split]].
    + intros y Hy Hyt. rewrite doc_order_T in Hyt. apply not_elem_of_cons in Hyt as [Hyi Hyt].
      rewrite W1, I1, V2; auto. eapply (tfr_old A s s1); eassumption.
    + intros y Hy Hyt Hpy. rewrite doc_order_T in Hyt. apply not_elem_of_cons in Hyt as [Hyi Hyt].
      rewrite W2, I2, V1; auto; [eapply (tfr_old A s s1); eassumption|]. intros E. rewrite Hpi. apply Hpy. apply bool_decide_eq_true_2. assumption.
    + intros Emb. apply bool_decide_eq_false in Emb. destruct (decide (n_cls ni = CParagraph)) as [Ep|Ep].
      * destruct (W3 Ep) as (T & O1 & O2). destruct (I4 ltac:(congruence)) as [J1 J2]. rewrite Hmbk in J1, J2.
        rewrite V1 in J2 by (exists ni; assumption). rewrite Hm0 in J2. cbn [orb] in J2.
        apply Hpl in Ep. unfold mb_alone in Ep. set (bs := map (is_mb (st_heap s)) (kids ni)) in *.
        assert (Eex : existsb (is_mb (st_heap s)) (kids ni) = existsb (fun b => b) bs).
        { unfold bs. clear. induction (kids ni) as [|y l IHl]; [reflexivity|]. cbn. rewrite IHl. reflexivity. }
        rewrite Eex in O2. destruct (List.last bs false) eqn:El.
        -- specialize (Ep eq_refl). rewrite Ep in J2. rewrite J2 in O2.
           assert (Hex : existsb (fun b : bool => b) bs = true).
           { clear - El. induction bs as [|b bs IHb]; [discriminate|]. cbn. destruct bs as [|b' bs]; [cbn in El; rewrite El; reflexivity|].
             rewrite IHb by exact El. apply orb_true_r. }
           rewrite Hex in O2. eapply moves_app; [exact O1|]. eapply moves_app; [apply (moves_frame _ _ _ T J1)|exact O2].
        -- assert (Hex : existsb (fun b : bool => b) bs = existsb (fun b => b) (removelast bs)).
           { clear - El. induction bs as [|b bs IHb]; [reflexivity|]. destruct bs as [|b' bs]; [cbn in *; rewrite El; reflexivity|].
             change (removelast (b :: b' :: bs)) with (b :: removelast (b' :: bs)). cbn [existsb]. f_equal. apply IHb. exact El. }
           rewrite Hex, <- J2 in O2. eapply moves_app; [exact O1|]. eapply moves_app; [apply (moves_frame _ _ _ T J1)|].
           destruct (must s2 i); [exact O2|apply O2; reflexivity].
      * destruct (I3 ltac:(congruence)) as [J1 J2]. rewrite V1, Hm0 in J2 by (exists ni; assumption).
        destruct (W5 Ep Emb J2) as (T & O1 & O2). eapply moves_close; eassumption.
    + intros Emb q nq pre post Eq Hq Hkq Hcq. apply bool_decide_eq_true in Emb.
      assert (Ep : n_cls ni <> CParagraph) by congruence. destruct (I3 ltac:(congruence)) as [J1 _].
      destruct (W4 Emb q nq pre post) as (T & O1 & O2); try congruence.
      assert (Hqi : q <> i /\ q ∉ doc_orders cs).
      { pose proof (Hpo q Eq) as Hqo. rewrite doc_order_T in Hqo. apply not_elem_of_cons in Hqo. exact Hqo. }
      assert (Hqs : must s2 q = must s q).
      { rewrite I2, V1; [reflexivity|exists nq; assumption| |apply Hqi|apply Hqi]. eapply tfr_old; [exact Hg|exact F1|exists nq; assumption]. }
      destruct post as [|z post].
      * destruct O2 as [O2 O3]. split; [|congruence]. eapply moves_app; [exact O1|]. eapply moves_app; [apply moves_nil_frame; exact J1|exact O2].
      * destruct O2 as [O2 O3]. split; [|congruence]. eapply moves_app; [exact O1|]. eapply moves_app; [apply moves_nil_frame; exact J1|exact O2].
  - intros s i ni pre Hg Hi Hk _ _ _ _ _. split; [auto|]. split; [auto|]. split; [intros _; split; [intros S; reflexivity|reflexivity]|].
    intros _. cbn. split; [intros S; reflexivity|]. rewrite orb_false_r. reflexivity.
  - intros s t ts a b s1 s2 Hr IHt Hrs IHts i ni pre Hg Hi Hk Hts Hnd Hio Hcl Hnm.
    pose proof (proj1 (renders_frame tc ext f0 A Htc Hext) _ _ _ _ Hr) as F1.
    assert (Hg1 : good s1) by (apply F1; assumption).
    apply list.Forall_cons in Hts as [Ht Hts]. apply list.Forall_cons in Hcl as [Hct Hcts].
    change (doc_orders (t :: ts)) with (doc_order t ++ doc_orders ts) in *.
    apply list.NoDup_app in Hnd as (Hnd1 & Hdis & Hnd2). apply not_elem_of_app in Hio as [Hio1 Hio2].
    destruct (IHt (Some i)) as (T1 & T2 & T3 & T4); try assumption.
    { intros q [= <-]. assumption. }
    destruct (tfr_node _ _ _ _ _ Hg F1 Hi) as (n1 & Hn1 & C1 & P1 & K1).
    assert (Hold : forall x, x ∈ doc_orders ts -> old s x).
    { intros x Hx. apply elem_doc_orders in Hx as (u & Hu & Hx). rewrite list.Forall_forall in Hcts.
      destruct (Hcts u Hu x Hx) as (_ & _ & m & Hm & _). exists m. assumption. }
    assert (Hinc : forall u x, u ∈ ts -> x ∈ doc_order u -> x ∈ doc_orders ts) by (intros; apply elem_doc_orders; eauto).
    assert (Hmb : forall u, u ∈ ts -> mbt s1 u = mbt s u).
    { intros u Hu. unfold mbt. eapply tfr_mb; [exact Hg|exact F1|]. apply Hold. eapply Hinc; [exact Hu|]. destruct u. constructor. }
    assert (Hmbs : map (mbt s1) ts = map (mbt s) ts) by (apply map_ext_in; intros u Hu; apply Hmb, elem_of_list_In, Hu).
    destruct (IHts i n1 (pre ++ [root t])) as (I1 & I2 & I3 & I4); try assumption.
    { rewrite K1, Hk, <- app_assoc. reflexivity. }
    { eapply list.Forall_impl; [exact Hts|]. intros u Hu. eapply (tfr_tree A s s1); eassumption. }
    { apply list.Forall_forall. intros u Hu. rewrite list.Forall_forall in Hcts. eapply clean_tfr; [exact Hg|exact F1|apply Hcts; assumption|].
      intros x Hx. assert (Hxo : x ∈ doc_orders ts) by eauto. assert (x ∉ doc_order t) by (intros Hxt; exact (Hdis x Hxt Hxo)).
      split; [apply T2|apply T1]; auto. intros _ [= ->]. contradiction. }
    { intros Hne. rewrite C1 in Hne. apply Hnm in Hne. apply list.Forall_cons in Hne as [_ Hne]. apply list.Forall_forall.
      intros u Hu. rewrite list.Forall_forall in Hne. rewrite Hmb by assumption. auto. }
    split; [|split; [|split]].
    + intros y Hy Hyo. apply not_elem_of_app in Hyo as [Hy1 Hy2]. rewrite I1, T1; auto. eapply (tfr_old A s s1); eassumption.
    + intros y Hy Hyo Hyi. apply not_elem_of_app in Hyo as [Hy1 Hy2]. rewrite I2, T2; auto; [congruence|eapply (tfr_old A s s1); eassumption].
    + intros Hne. destruct (I3 ltac:(congruence)) as [J1 J2]. pose proof (Hnm Hne) as Hnm'. apply list.Forall_cons in Hnm' as [Em _].
      split; [eapply moves_app; [apply T3; assumption|exact J1]|]. rewrite J2. apply T2; [exists ni; assumption|assumption|congruence].
    + intros Ep. destruct (I4 ltac:(congruence)) as [J1 J2]. rewrite Hmbs in J1, J2. cbn [map]. destruct (mbt s t) eqn:Em.
      * destruct ts as [|u ts].
        -- cbn. destruct (T4 eq_refl i ni pre [] eq_refl Hi) as [M1 M2]; [exact Hk|exact Ep|]. cbn in J1, J2. rewrite orb_false_r in *.
           inversion Hrs; subst. rewrite app_nil_r. split; [assumption|congruence].
        -- cbn [map] in *. change (List.last (true :: mbt s u :: map (mbt s) ts) false) with (List.last (mbt s u :: map (mbt s) ts) false).
           destruct (T4 eq_refl i ni pre (root u :: map root ts) eq_refl Hi) as [M1 M2]; [exact Hk|exact Ep|].
           change (removelast (true :: mbt s u :: map (mbt s) ts)) with (true :: removelast (mbt s u :: map (mbt s) ts)). cbn [existsb].
           rewrite J2, M2. cbn. rewrite orb_true_r. split; [|reflexivity].
           apply (moves_if a b _ [pt] M1). exact J1.
      * assert (Hmi : must s1 i = must s i) by (apply T2; [exists ni; assumption|assumption|congruence]). specialize (T3 eq_refl).
        apply (moves_nil_frame _ [pt]) in T3. destruct ts as [|u ts].
        -- cbn in *. split; [eapply moves_app; eassumption|]. rewrite J2, Hmi. reflexivity.
        -- cbn [map] in *. change (List.last (false :: mbt s u :: map (mbt s) ts) false) with (List.last (mbt s u :: map (mbt s) ts) false).
           change (removelast (false :: mbt s u :: map (mbt s) ts)) with (false :: removelast (mbt s u :: map (mbt s) ts)). cbn [existsb orb].
           rewrite J2, Hmi. split; [|reflexivity]. apply (moves_if a b _ [pt] T3). exact J1.
Qed.
End Nest.
