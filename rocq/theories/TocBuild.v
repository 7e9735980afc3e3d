(** One entry of the table of contents. *)
From Verif Require Export TocPick.
From Verif Require Import Queries Built Meta Subproofs ResolveAll Resolve NodeOps Monad.

(** ** Numbers depend on a node and what is above it *)
(** The nodes [D], which are closed under taking parents, are the same in both
    heaps but for their children. *)
Definition above_on (D : id -> Prop) (h h' : gmap id node) : Prop :=
  (forall j, D j -> exists n n', h !! j = Some n /\ h' !! j = Some n' /\
     n_cls n' = n_cls n /\ n_parent n' = n_parent n /\ n_attrs n' = n_attrs n) /\
  (forall j q, D j -> parent_is h j q -> D q).
Section above.
  Context (D : id -> Prop) (h h' : gmap id node) (Hs : above_on D h h').
  Lemma above_parent x q : D x -> parent_is h' x q <-> parent_is h x q.
  Proof using Hs.
    intros Hx. destruct (proj1 Hs _ Hx) as (n & n' & Hn & Hn' & _ & Ep & _).
    unfold parent_is. split; intros (m & Hm & E); [exists n|exists n']; (split; [assumption|congruence]).
  Qed.
  Lemma above_closed x q : D x -> ancestor h x q -> D q.
  Proof using Hs. intros Hx Ha. induction Ha as [x p Hp|x p y Hp Ha IH]; [|apply IH]; eapply (proj2 Hs); eassumption. Qed.
  Lemma above_ancestor x q : D x -> ancestor h' x q <-> ancestor h x q.
  Proof using Hs.
    intros Hx. split.
    - intros Ha. induction Ha as [x p Hp|x p y Hp Ha IH].
      + constructor. apply above_parent; assumption.
      + apply above_parent in Hp; [|assumption]. eapply anc_step; [exact Hp|]. apply IH. eapply (proj2 Hs); eassumption.
    - intros Ha. induction Ha as [x p Hp|x p y Hp Ha IH].
      + constructor. apply above_parent; assumption.
      + eapply anc_step; [apply above_parent; eassumption|]. apply IH. eapply (proj2 Hs); eassumption.
  Qed.
  Lemma above_class ds x : D x -> has_class h' ds x <-> has_class h ds x.
  Proof using Hs.
    intros Hx. destruct (proj1 Hs _ Hx) as (n & n' & Hn & Hn' & Ec & _).
    unfold has_class. split; intros (m & Hm & E); [exists n|exists n']; (split; [assumption|congruence]).
  Qed.
  Lemma above_class_of c x : D x -> class_of h' x c <-> class_of h x c.
  Proof using Hs.
    intros Hx. destruct (proj1 Hs _ Hx) as (n & n' & Hn & Hn' & Ec & _).
    unfold class_of. split; intros (m & Hm & E); [exists n|exists n']; (split; [assumption|congruence]).
  Qed.
  Lemma above_value x a : D x -> value h' x a = value h x a.
  Proof using Hs.
    intros Hx. destruct (proj1 Hs _ Hx) as (n & n' & Hn & Hn' & _ & _ & Ea).
    rewrite (value_some _ _ _ _ Hn), (value_some _ _ _ _ Hn'). congruence.
  Qed.
  Lemma above_unnumbered x : D x -> unnumbered h' x <-> unnumbered h x.
  Proof using Hs. intros Hx. unfold unnumbered. rewrite above_value; [reflexivity|assumption]. Qed.
  Lemma above_scope x r : D x -> scope_node h x r -> scope_node h' x r.
  Proof using Hs.
    intros Hx. assert (Es : scope_of h' x = scope_of h x).
    { destruct (proj1 Hs _ Hx) as (n & n' & Hn & Hn' & Ec & _). unfold scope_of. rewrite Hn, Hn', Ec. reflexivity. }
    assert (G : forall ds r, closest_ancestor h ds x r -> closest_ancestor h' ds x r).
    { intros ds [a|]; simpl.
      - intros (Ha & Hcl & Hno). split; [|split].
        + apply above_ancestor; assumption.
        + apply above_class; [|assumption]. eapply above_closed; eassumption.
        + intros b Hb Hba. apply above_ancestor in Hb; [|assumption].
          assert (Hsb : D b) by (eapply above_closed; eassumption).
          apply above_ancestor in Hba; [|assumption]. rewrite above_class; [|assumption]. apply Hno; assumption.
      - intros Hno b Hb. apply above_ancestor in Hb; [|assumption].
        rewrite above_class; [|eapply above_closed; eassumption]. apply Hno. assumption. }
    intros [(a & -> & Ha)|[Hn Ha]]; [left|right].
    - exists a. split; [reflexivity|]. rewrite Es. apply G. assumption.
    - rewrite Es. split; apply G; assumption.
  Qed.
  Lemma above_full : forall l x r, D x -> ancestors h x l -> full_is h x r -> full_is h' x r.
  Proof using Hs.
    assert (G : forall m (l : list id) x r, length l < m -> D x -> ancestors h x l -> full_is h x r -> full_is h' x r).
    2:{ intros l x r. apply (G (S (length l))). lia. }
    induction m as [|m IH]; intros l x r Hm Hx Hl H; [lia|].
    assert (Hanc : forall a o, ancestor h x a -> full_is h a o -> full_is h' a o).
    { intros a o Ha Ho. destruct (ancestors_shorter _ _ _ _ Hl Ha) as (l' & Hl' & Hlt). eapply (IH l'); eauto; [lia|].
      eapply above_closed; eassumption. }
    inversion H as [y Hy|y Hsy Hy Hu|y v w ro Hy Hw Htw Hv Hsc Ho|y v w a c p Hy Hw Htw Hv Hsc Ho]; subst.
    - apply fi_manuscript. apply above_class_of; assumption.
    - apply fi_nonum.
      + destruct (proj1 Hs _ Hx) as (n & n' & Hn & Hn' & _). eauto.
      + rewrite above_class_of; assumption.
      + apply above_unnumbered; assumption.
    - eapply (fi_plain h' x v w ro); try assumption.
      + rewrite above_class_of; assumption.
      + rewrite above_value; assumption.
      + rewrite above_value; assumption.
      + apply above_scope; assumption.
      + destruct Ho as [?|(a & o & -> & Eo & Ho)]; [auto|]. right. exists a, o. split; [reflexivity|]. split; [assumption|].
        apply Hanc; [apply scope_ancestor; assumption|assumption].
    - eapply (fi_within h' x v w a); try assumption.
      + rewrite above_class_of; assumption.
      + rewrite above_value; assumption.
      + rewrite above_value; assumption.
      + apply above_scope; assumption.
      + apply Hanc; [apply scope_ancestor; assumption|assumption].
  Qed.
  Lemma above_full_is x r : consistent h -> D x -> full_is h x r -> full_is h' x r.
  Proof using Hs.
    intros Hc Hx H. destruct (ancestors_of h x Hc (full_is_some _ _ _ H)) as (l & Hl). eapply above_full; eassumption.
  Qed.
End above.
Lemma above_sym D h h' : above_on D h h' -> above_on D h' h.
Proof.
  intros Hs. split.
  - intros j Hj. destruct (proj1 Hs j Hj) as (n & n' & Hn & Hn' & ? & ? & ?). exists n', n. auto.
  - intros j q Hj Hp. apply (proj2 Hs j q Hj). apply (above_parent D h h'); assumption.
Qed.

(** ** The text of an entry *)
Definition entry_text (h : gmap id node) (x : id) (text : str) : Prop :=
  exists v, value h x a_title = Some v /\
  ((unnumbered h x /\ text = fmt_val v) \/
   (exists w r, value h x a_nonum = Some w /\ truthy w = false /\ full_is h x r /\
      text = match r with Some p => p | None => lit "None" end ++ lit ". " ++ fmt_val v)).
Lemma above_text D h h' x text : above_on D h h' -> consistent h -> D x -> entry_text h x text -> entry_text h' x text.
Proof.
  intros Hs Hc Hx (v & Hv & H). exists v. rewrite (above_value D h h') by assumption. split; [assumption|].
  destruct H as [[Hu ->]|(w & r & Hw & Htw & Hr & ->)].
  - left. split; [|reflexivity]. apply (above_unnumbered D h h'); assumption.
  - right. exists w, r. rewrite (above_value D h h') by assumption. split; [assumption|]. split; [assumption|].
    split; [|reflexivity]. eapply above_full_is; eassumption.
Qed.
Lemma toc_reftext_ok fuel x s s' text :
  consistent (st_heap s) -> toc_reftext fuel x s = (s', Ok text) -> log_only s s' /\ entry_text (st_heap s) x text.
Proof.
  intros Hc H. unfold toc_reftext in H. apply bind_ok in H as (s1 & v & Hv & H). apply getattr_ok in Hv as (-> & n & Hn & Hv).
  apply bind_ok in H as (s1 & w & Hw & H). apply getattr_ok in Hw as (-> & m & Hm & Hw). assert (m = n) as -> by congruence.
  rewrite <- (value_some _ _ _ _ Hn) in Hv. rewrite <- (value_some _ _ _ _ Hn) in Hw.
  destruct (truthy w) eqn:Et.
  - apply ret_ok in H as [-> ->]. split; [apply log_only_refl|]. exists v. split; [assumption|]. left.
    split; [|reflexivity]. exists w. auto.
  - apply bind_ok in H as (s1 & r & Hr & H). apply full_number_ok in Hr as [Hl Hr]; [|assumption].
    apply ret_ok in H as [-> ->]. split; [assumption|]. exists v. split; [assumption|]. right. exists w, r. auto.
Qed.

(** ** The nodes added for one section *)
Definition item_attrs : gmap attr val := n_attrs (mk_node CItem []).
Definition list_attrs : gmap attr val := n_attrs (mk_node CItemize []).
Definition ref_attrs (x : id) (text : str) : gmap attr val :=
  n_attrs (mk_node CReference [(a_target, VNode x); (a_overwrite_reftext, VStr text)]).
Definition add_kids (l : list id) (n : node) : node := MkNode (n_cls n) (n_parent n) (n_children n ++ l) (n_attrs n).

(** What may contain an item. *)
Definition holds_items (c : cls) : Prop := c = CItemize \/ c = CEnumerate \/ c = CContents.
Record added (s s' : st) (p x : id) (sub : bool) (text : str) : Prop := {
  ad_good : good s';
  ad_logs : logs_grow s s';
  ad_next : st_next s' = if sub then 3 + st_next s else 2 + st_next s;
  ad_item : st_heap s' !! st_next s =
    Some (MkNode CItem (Some p) (if sub then [S (st_next s); S (S (st_next s))] else [S (st_next s)]) item_attrs);
  ad_ref : st_heap s' !! S (st_next s) = Some (MkNode CReference (Some (st_next s)) [] (ref_attrs x text));
  ad_sub : sub = true -> st_heap s' !! S (S (st_next s)) = Some (MkNode CItemize (Some (st_next s)) [] list_attrs);
  ad_old : forall j, j < st_next s -> st_heap s' !! j =
    match st_heap s !! j with
    | Some n => Some (if decide (j = p) then add_kids [st_next s] n else n)
    | None => None
    end;
  ad_parent : exists np, st_heap s !! p = Some np /\ has_children (n_cls np) = true /\ holds_items (n_cls np);
  ad_text : entry_text (st_heap s) x text;
}.

Lemma ancestor_last h x y : ancestor h x y -> exists c, parent_is h c y /\ (x = c \/ ancestor h x c).
Proof.
  induction 1 as [x p Hp|x p y Hp Ha (c & Hc & IH)].
  - exists x. auto.
  - exists c. split; [assumption|]. right. destruct IH as [-> |IH]; [constructor; assumption|eapply anc_step; eassumption].
Qed.
Lemma good_new s c kw : good s -> good (new s (mk_node c kw)).
Proof. intros [Hf Hc]. destruct (consistent_fresh s (mk_node c kw) Hf Hc eq_refl eq_refl). split; assumption. Qed.
Lemma good_append p c s s' (u : unit) n :
  good s -> append p [c] s = (s', Ok u) -> st_heap s !! c = Some n ->
  c <> p -> ~ ancestor (st_heap s) p c -> good s' /\ n_parent n = None.
Proof.
  intros [Hf Hc] H Hn Hne Hna. pose proof H as H0. apply append_ok in H as (Hr & He & Hnd & _ & Hall).
  destruct (Hall c ltac:(left; reflexivity)) as (np & nc & _ & H1 & H2 & _). assert (nc = n) as -> by congruence.
  split; [|assumption]. split; [eapply fresh_edited; eassumption|].
  eapply append_consistent; [exact Hc| |exact H0]. split; [assumption|]. intros y Hy.
  apply elem_of_list_singleton in Hy as ->. eauto.
Qed.

Record made (s s' : st) (x : id) (text : str) : Prop := {
  md_good : good s';
  md_logs : logs_grow s s';
  md_next : st_next s' = 2 + st_next s;
  md_item : st_heap s' !! st_next s = Some (MkNode CItem None [S (st_next s)] item_attrs);
  md_ref : st_heap s' !! S (st_next s) = Some (MkNode CReference (Some (st_next s)) [] (ref_attrs x text));
  md_old : forall j, j < st_next s -> st_heap s' !! j = st_heap s !! j;
  md_text : entry_text (st_heap s) x text;
}.

Lemma new_above s n : good s -> above_on (fun j => is_Some (st_heap s !! j)) (st_heap s) (st_heap (new s n)).
Proof.
  intros [Hf Hc]. split.
  - intros j [m Hj]. exists m, m. rewrite new_lookup. pose proof (Hf _ _ Hj). rewrite decide_False by lia. auto.
  - intros j q _ Hp. apply (cons_parent _ Hc) in Hp as (m & Hm & _). eauto.
Qed.
Lemma entry_made fuel x s s1 s2 s3 s4 item text r (u : unit) :
  good s -> is_Some (st_heap s !! x) -> new_node CItem [] s = (s1, Ok item) -> toc_reftext fuel x s1 = (s2, Ok text) ->
  new_node CReference [(a_target, VNode x); (a_overwrite_reftext, VStr text)] s2 = (s3, Ok r) ->
  append item [r] s3 = (s4, Ok u) ->
  item = st_next s /\ made s s4 x text.
Proof.
  intros Hg Hx H1 H2 H3 H4. apply new_node_ok in H1 as [-> ->]. split; [reflexivity|].
  pose proof (good_new _ CItem [] Hg) as Hg1. set (s1 := new s (mk_node CItem [])) in *.
  assert (N1 : st_next s1 = S (st_next s)) by reflexivity.
  assert (L1 : forall j, st_heap s1 !! j = if decide (st_next s = j) then Some (mk_node CItem []) else st_heap s !! j) by (intros; apply new_lookup).
  apply toc_reftext_ok in H2 as [(E2 & N2 & G2) Ht]; [|apply Hg1].
  assert (Hg2 : good s2).
  { destruct Hg1 as [Hf Hc]. split; [|rewrite E2; assumption]. intros j m Hj. rewrite E2 in Hj. rewrite N2. eapply Hf; eassumption. }
  apply new_node_ok in H3 as [-> ->]. set (nr := mk_node CReference _) in *.
  pose proof (good_new _ CReference [(a_target, VNode x); (a_overwrite_reftext, VStr text)] Hg2) as Hg3. fold nr in Hg3.
  set (s3 := new s2 nr) in *.
  assert (L3 : forall j, st_heap s3 !! j = if decide (st_next s2 = j) then Some nr else st_heap s2 !! j) by (intros; apply new_lookup).
  rewrite N2, N1 in *.
  assert (Hr3 : st_heap s3 !! S (st_next s) = Some nr) by (rewrite L3; apply decide_True; reflexivity).
  destruct (good_append _ _ _ _ _ _ Hg3 H4 Hr3) as [Hg4 _].
  { lia. }
  { eapply no_descendants; [apply Hg3|exact Hr3|reflexivity]. }
  pose proof H4 as H4'. apply append_ok in H4' as ([N4 G4] & He & _ & _ & _).
  assert (L4 : forall j, j <> S (st_next s) -> j <> st_next s -> st_heap s4 !! j = st_heap s !! j).
  { intros j Hj1 Hj2. rewrite He, L3, decide_False, E2, L1, decide_False by congruence.
    destruct (st_heap s !! j) as [n|]; [|reflexivity]. f_equal.
    rewrite decide_False by (rewrite elem_of_list_singleton; assumption). rewrite decide_False by assumption. destruct n; reflexivity. }
  constructor.
  - assumption.
  - eapply logs_grow_trans; [|apply logs_grow_same; exact G4]. exact G2.
  - rewrite N4. simpl. rewrite N2. reflexivity.
  - rewrite He, L3, decide_False by lia. rewrite E2, L1, decide_True by reflexivity.
    rewrite decide_False by (rewrite elem_of_list_singleton; lia). rewrite decide_True by reflexivity. reflexivity.
  - rewrite He, Hr3. rewrite decide_True by (constructor). rewrite decide_False by lia. reflexivity.
  - intros j Hj. apply L4; lia.
  - pose proof (above_sym _ _ _ (new_above s (mk_node CItem []) Hg)) as Hs. fold s1 in Hs.
    eapply above_text; [exact Hs|apply Hg1|exact Hx|exact Ht].
Qed.

Lemma entry_hung s s4 s5 p x text (u : unit) :
  good s -> is_Some (st_heap s !! p) -> made s s4 x text -> append p [st_next s] s4 = (s5, Ok u) ->
  added s s5 p x false text.
Proof.
  intros Hg [np Hp] M H. pose proof (proj1 Hg _ _ Hp) as Hlt.
  pose proof (md_item _ _ _ _ M) as Hi. pose proof (md_ref _ _ _ _ M) as Hr.
  destruct (good_append _ _ _ _ _ _ (md_good _ _ _ _ M) H Hi) as [Hg5 _].
  { lia. }
  { intros Ha. apply ancestor_last in Ha as (c & Hc & Ha).
    apply (cons_parent _ (proj2 (md_good _ _ _ _ M))) in Hc as (m & Hm & Hin). rewrite Hi in Hm. injection Hm as <-.
    cbn in Hin. apply elem_of_list_singleton in Hin. subst c. destruct Ha as [?|Ha]; [lia|].
    revert Ha. eapply no_descendants; [apply M|exact Hr|reflexivity]. }
  apply append_ok in H as ([N5 G5] & He & _ & Hhc & Hperm).
  constructor.
  - assumption.
  - eapply logs_grow_trans; [apply M|apply logs_grow_same; exact G5].
  - rewrite N5. apply M.
  - rewrite He, Hi. rewrite decide_True by constructor. rewrite decide_False by lia. reflexivity.
  - rewrite He, Hr. rewrite decide_False by (rewrite elem_of_list_singleton; lia). rewrite decide_False by lia. reflexivity.
  - discriminate.
  - intros j Hj. rewrite He, (md_old _ _ _ _ M) by assumption. destruct (st_heap s !! j) as [n|]; [|reflexivity].
    f_equal. rewrite decide_False by (rewrite elem_of_list_singleton; lia).
    destruct (decide (j = p)); [reflexivity|destruct n; reflexivity].
  - destruct Hhc as (np' & Hp' & Hh); [discriminate|]. 
    destruct (Hperm (st_next s)) as (np2 & ni & Hp2 & Hni & _ & Hpm); [left; reflexivity|].
    rewrite Hi in Hni. injection Hni as <-. assert (np2 = np') as -> by congruence.
    rewrite (md_old _ _ _ _ M) in Hp' by assumption. exists np'. split; [assumption|]. split; [assumption|].
    destruct Hpm as [Hpm|Hpm]; [discriminate|]. unfold holds_items. destruct Hpm as [<-|[<-|[<-|[]]]]; auto.
  - apply M.
Qed.

Lemma entry_opened s s5 s6 s7 p x text it (u : unit) :
  good s -> is_Some (st_heap s !! p) -> added s s5 p x false text -> new_node CItemize [] s5 = (s6, Ok it) ->
  append (st_next s) [it] s6 = (s7, Ok u) ->
  it = S (S (st_next s)) /\ added s s7 p x true text.
Proof.
  intros Hg [np Hp] A H6 H7. pose proof (proj1 Hg _ _ Hp) as Hlt. apply new_node_ok in H6 as [-> ->].
  pose proof (ad_next _ _ _ _ _ _ A) as N5. cbn in N5. rewrite N5 in *. split; [reflexivity|].
  pose proof (good_new _ CItemize [] (ad_good _ _ _ _ _ _ A)) as Hg6. set (nl := mk_node CItemize []) in *.
  set (s6 := new s5 nl) in *.
  assert (L6 : forall j, st_heap s6 !! j = if decide (st_next s5 = j) then Some nl else st_heap s5 !! j) by (intros; apply new_lookup).
  rewrite N5 in *.
  assert (Hit : st_heap s6 !! S (S (st_next s)) = Some nl) by (rewrite L6; apply decide_True; reflexivity).
  destruct (good_append _ _ _ _ _ _ Hg6 H7 Hit) as [Hg7 _].
  { lia. }
  { eapply no_descendants; [apply Hg6|exact Hit|reflexivity]. }
  apply append_ok in H7 as ([N7 G7] & He & _ & _ & _).
  constructor.
  - assumption.
  - eapply logs_grow_trans; [apply A|]. apply logs_grow_same. exact G7.
  - rewrite N7. simpl. rewrite N5. reflexivity.
  - rewrite He, L6, decide_False by lia. rewrite (ad_item _ _ _ _ _ _ A).
    rewrite decide_False by (rewrite elem_of_list_singleton; lia). rewrite decide_True by reflexivity. reflexivity.
  - rewrite He, L6, decide_False by lia. rewrite (ad_ref _ _ _ _ _ _ A).
    rewrite decide_False by (rewrite elem_of_list_singleton; lia). rewrite decide_False by lia. reflexivity.
  - intros _. rewrite He, Hit. rewrite decide_True by constructor. rewrite decide_False by lia. reflexivity.
  - intros j Hj. rewrite He, L6, decide_False by lia. rewrite (ad_old _ _ _ _ _ _ A) by assumption.
    destruct (st_heap s !! j) as [n|]; [|reflexivity]. f_equal.
    rewrite (decide_False (P := j ∈ [S (S (st_next s))])) by (rewrite elem_of_list_singleton; lia).
    rewrite (decide_False (P := j = st_next s)) by lia.
    destruct (decide (j = p)); [reflexivity|destruct n; reflexivity].
  - apply A.
  - apply A.
Qed.

(** ** One iteration *)
(** [x] is the last of its siblings of class [d], in the heap [h]. *)
Definition last_sibling (h : gmap id node) (d : cls) (x : id) (b : bool) : Prop :=
  exists q nq r, parent_is h x q /\ h !! q = Some nq /\ last_match h [d] (kids nq) r /\
    b = match r with Some (y, _) => Nat.eqb y x | None => false end.
Definition has_kid_of (h : gmap id node) (d : cls) (x : id) (b : bool) : Prop :=
  exists n r, h !! x = Some n /\ first_match h [d] (kids n) r /\ b = match r with Some _ => true | None => false end.
Definition grandparent (h : gmap id node) (x : id) (r : option id) : Prop :=
  exists p n, parent_is h x p /\ h !! p = Some n /\ n_parent n = r.

Lemma is_last_of_ok x d s s' b : is_last_of x d s = (s', Ok b) -> s' = s /\ last_sibling (st_heap s) d x b.
Proof.
  intros H. unfold is_last_of in H. apply bind_ok in H as (s1 & p & Hp & H). apply parent_of_ok in Hp as (-> & n & Hn & ->).
  destruct (n_parent n) as [q|] eqn:E; [|discriminate].
  apply bind_ok in H as (s1 & r & Hr & H). apply last_of_type_ok in Hr as (-> & nq & Hq & Hr).
  apply ret_ok in H as [-> ->]. split; [reflexivity|]. exists q, nq, r. split; [exists n; auto|auto].
Qed.
Lemma parent_parent_ok cur s s' r : parent_parent cur s = (s', Ok r) ->
  s' = s /\ exists x, cur = Some x /\ grandparent (st_heap s) x r.
Proof.
  intros H. unfold parent_parent in H. destruct cur as [x|]; [|discriminate].
  apply bind_ok in H as (s1 & p & Hp & H). apply parent_of_ok in Hp as (-> & n & Hn & ->).
  destruct (n_parent n) as [q|] eqn:E; [|discriminate]. apply parent_of_ok in H as (-> & m & Hm & ->).
  split; [reflexivity|]. exists x. split; [reflexivity|]. exists q, m. split; [exists n; auto|auto].
Qed.
Lemma append_opt_ok cur c s s' (u : unit) : append_opt cur c s = (s', Ok u) -> exists x, cur = Some x /\ append x [c] s = (s', Ok u).
Proof. unfold append_opt. destruct cur; [eauto|discriminate]. Qed.

Inductive body_case (s s' : st) (toc : id) (cur : option id) (x : id) (text : str) : cls -> id -> bool -> option id -> Prop :=
| bc_subsub p b cur' :
    cur = Some p -> last_sibling (st_heap s') CSubsubsection x b ->
    (if b then grandparent (st_heap s') p cur' else cur' = cur) ->
    body_case s s' toc cur x text CSubsubsection p false cur'
| bc_sub_open p sm :
    cur = Some p -> added s sm p x false text -> has_kid_of (st_heap sm) CSubsubsection x true ->
    body_case s s' toc cur x text CSubsection p true (Some (S (S (st_next s))))
| bc_sub p b cur' :
    cur = Some p -> has_kid_of (st_heap s') CSubsubsection x false -> last_sibling (st_heap s') CSubsection x b ->
    (if b then grandparent (st_heap s') p cur' else cur' = cur) ->
    body_case s s' toc cur x text CSubsection p false cur'
| bc_sec_open sm :
    added s sm toc x false text -> has_kid_of (st_heap sm) CSubsection x true ->
    body_case s s' toc cur x text CSection toc true (Some (S (S (st_next s))))
| bc_sec :
    has_kid_of (st_heap s') CSubsection x false ->
    body_case s s' toc cur x text CSection toc false cur.

Lemma section_classes c : subclass c CSection = true -> c = CSection \/ c = CSubsection \/ c = CSubsubsection.
Proof. destruct c; intros H; try discriminate H; auto. Qed.
Lemma toc_body_ok fuel toc cur x s s' cur' n :
  good s -> is_Some (st_heap s !! toc) -> (forall p, cur = Some p -> is_Some (st_heap s !! p)) ->
  st_heap s !! x = Some n -> subclass (n_cls n) CSection = true ->
  toc_body fuel toc cur x s = (s', Ok cur') ->
  exists p sub text, added s s' p x sub text /\ body_case s s' toc cur x text (n_cls n) p sub cur'.
Proof.
  intros Hg Htoc Hcur Hx Hsec H. unfold toc_body in H.
  apply bind_ok in H as (s1 & item & H1 & H). apply bind_ok in H as (s2 & text & H2 & H).
  apply bind_ok in H as (s3 & r & H3 & H). apply bind_ok in H as (s4 & u & H4 & H).
  destruct (entry_made _ _ _ _ _ _ _ _ _ _ _ Hg (ex_intro _ n Hx) H1 H2 H3 H4) as [-> M]. clear H1 H2 H3 H4.
  apply bind_ok in H as (s5 & c & Hc & H). apply cls_of_ok in Hc as (-> & n' & Hn' & ->).
  rewrite (md_old _ _ _ _ M) in Hn' by (eapply (proj1 Hg); eassumption). assert (n' = n) as -> by congruence. clear Hn'.
  destruct (section_classes _ Hsec) as [E|[E|E]]; rewrite E in *; cbn [subclass] in H.
  - change (subclass CSection CSubsubsection) with false in H. change (subclass CSection CSubsection) with false in H.
    change (subclass CSection CSection) with true in H. cbv iota in H.
    apply bind_ok in H as (s5 & u5 & H5 & H). pose proof (entry_hung _ _ _ _ _ _ _ Hg Htoc M H5) as A.
    apply bind_ok in H as (s6 & f & H6 & H). apply first_of_type_ok in H6 as (-> & nx & Hnx & Hf).
    destruct f as [f|].
    + apply bind_ok in H as (s6 & it & H6 & H). apply bind_ok in H as (s7 & u7 & H7 & H). apply ret_ok in H as [-> ->].
      destruct (entry_opened _ _ _ _ _ _ _ _ _ Hg Htoc A H6 H7) as [-> A'].
      exists toc, true, text. split; [assumption|]. eapply bc_sec_open; [exact A|]. exists nx, (Some f). auto.
    + apply ret_ok in H as [-> ->]. exists toc, false, text. split; [assumption|]. apply bc_sec. exists nx, None. auto.
  - change (subclass CSubsection CSubsubsection) with false in H. change (subclass CSubsection CSubsection) with true in H. cbv iota in H.
    apply bind_ok in H as (s5 & u5 & H5 & H). apply append_opt_ok in H5 as (p & Ep & H5).
    pose proof (entry_hung _ _ _ _ _ _ _ Hg (Hcur _ Ep) M H5) as A.
    apply bind_ok in H as (s6 & f & H6 & H). apply first_of_type_ok in H6 as (-> & nx & Hnx & Hf).
    destruct f as [f|].
    + apply bind_ok in H as (s6 & it & H6 & H). apply bind_ok in H as (s7 & u7 & H7 & H). apply ret_ok in H as [-> ->].
      destruct (entry_opened _ _ _ _ _ _ _ _ _ Hg (Hcur _ Ep) A H6 H7) as [-> A'].
      exists p, true, text. split; [assumption|]. eapply bc_sub_open; [exact Ep|exact A|]. exists nx, (Some f). auto.
    + apply bind_ok in H as (s6 & b & H6 & H). apply is_last_of_ok in H6 as [-> Hb].
      destruct b.
      * apply parent_parent_ok in H as (-> & y & Ey & Hgp). assert (y = p) as -> by congruence.
        exists p, false, text. split; [assumption|]. eapply (bc_sub _ _ _ _ _ _ p true); eauto. exists nx, None. auto.
      * apply ret_ok in H as [-> ->].
        exists p, false, text. split; [assumption|]. eapply (bc_sub _ _ _ _ _ _ p false); eauto. exists nx, None. auto.
  - change (subclass CSubsubsection CSubsubsection) with true in H. cbv iota in H.
    apply bind_ok in H as (s5 & u5 & H5 & H). apply append_opt_ok in H5 as (p & Ep & H5).
    pose proof (entry_hung _ _ _ _ _ _ _ Hg (Hcur _ Ep) M H5) as A.
    apply bind_ok in H as (s6 & b & H6 & H). apply is_last_of_ok in H6 as [-> Hb].
    destruct b.
    + apply parent_parent_ok in H as (-> & y & Ey & Hgp). assert (y = p) as -> by congruence.
      exists p, false, text. split; [assumption|]. eapply (bc_subsub _ _ _ _ _ _ p true); eauto.
    + apply ret_ok in H as [-> ->].
      exists p, false, text. split; [assumption|]. eapply (bc_subsub _ _ _ _ _ _ p false); eauto.
Qed.
Lemma added_some s s' p x sub text j : added s s' p x sub text -> good s -> is_Some (st_heap s !! j) -> is_Some (st_heap s' !! j).
Proof.
  intros A Hg [n Hn]. rewrite (ad_old _ _ _ _ _ _ A) by (eapply (proj1 Hg); eassumption). rewrite Hn. eauto.
Qed.
Lemma body_case_some s s' toc cur x text c p sub cur' q :
  good s -> (forall p, cur = Some p -> is_Some (st_heap s !! p)) -> added s s' p x sub text ->
  body_case s s' toc cur x text c p sub cur' -> cur' = Some q -> is_Some (st_heap s' !! q).
Proof.
  intros Hg Hcur A B Eq.
  assert (G : forall y r, grandparent (st_heap s') y r -> r = Some q -> is_Some (st_heap s' !! q)).
  { intros y r (p' & n' & _ & Hn & Er) ->.
    assert (Hp : parent_is (st_heap s') p' q) by (exists n'; auto).
    apply (cons_parent _ (proj2 (ad_good _ _ _ _ _ _ A))) in Hp as (m & Hm & _). eauto. }
  destruct B as [p b cur' Ep _ Hb|p sm Ep _ _|p b cur' Ep _ _ Hb| |].
  - destruct b; [eapply G; eassumption|]. eapply added_some; [exact A|exact Hg|]. apply Hcur. congruence.
  - injection Eq as <-. rewrite (ad_sub _ _ _ _ _ _ A eq_refl). eauto.
  - destruct b; [eapply G; eassumption|]. eapply added_some; [exact A|exact Hg|]. apply Hcur. congruence.
  - injection Eq as <-. rewrite (ad_sub _ _ _ _ _ _ A eq_refl). eauto.
  - eapply added_some; [exact A|exact Hg|]. apply Hcur. congruence.
Qed.
