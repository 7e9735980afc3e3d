(** Facts used to check examples: documents written with [build] are well
    formed, and being a given tree can be computed. *)
From Verif Require Export Build Meta EditTotal.

Fixpoint check_tree (h : gmap id node) (p : option id) (t : tree) : bool :=
  match t with
  | T i cs =>
      match h !! i with
      | Some n => bool_decide (n_parent n = p) && bool_decide (kids n = map root cs)
                  && forallb (check_tree h (Some i)) cs
      | None => false
      end
  end.
Lemma check_tree_sound h t : forall p, check_tree h p t = true -> tree_at h p t.
Proof.
  induction t as [i cs IH] using tree_ind'. intros p. cbn [check_tree].
  destruct (h !! i) as [n|] eqn:E; [|discriminate].
  rewrite !andb_true_iff. intros [[H1 H2] H3]. apply bool_decide_eq_true in H1, H2.
  econstructor; [eassumption|assumption|assumption|].
  apply list.Forall_forall. intros c Hc. rewrite list.Forall_forall in IH. apply IH; [assumption|].
  rewrite forallb_forall in H3. apply H3. apply elem_of_list_In. assumption.
Qed.
Definition check_document (h : gmap id node) (t : tree) : bool :=
  check_tree h None t && bool_decide (NoDup (doc_order t)).
Lemma check_document_sound h t : check_document h t = true -> document h t.
Proof.
  unfold check_document. rewrite andb_true_iff. intros [H1 H2]. apply bool_decide_eq_true in H2.
  split; [apply check_tree_sound; assumption|assumption].
Qed.
Fixpoint read_tree (fuel : nat) (h : gmap id node) (i : id) : tree :=
  match fuel with
  | 0 => T i []
  | S fuel => T i (map (read_tree fuel h) match h !! i with Some n => kids n | None => [] end)
  end.

(** ** Built documents *)

Lemma bt_ind' (P : bt -> Prop) :
  (forall c kw cs, Forall P cs -> P (BT c kw cs)) -> forall t, P t.
Proof.
  intros H. fix IH 1. intros [c kw cs]. apply H.
  induction cs as [|d cs IHc]; constructor; [apply IH|exact IHc].
Qed.
Definition build_kids (i : id) : list bt -> M unit :=
  fix go (l : list bt) : M unit :=
    match l with
    | [] => ret tt
    | x :: r => let! k := build x in do! append i [k] in go r
    end.
Definition grows (s s' : st) : Prop :=
  st_next s <= st_next s' /\ forall j, j < st_next s -> st_heap s' !! j = st_heap s !! j.
Lemma grows_refl s : grows s s. Proof. split; auto. Qed.
Lemma grows_trans s1 s2 s3 : grows s1 s2 -> grows s2 s3 -> grows s1 s3.
Proof. intros [L1 H1] [L2 H2]. split; [lia|]. intros j Hj. rewrite H2 by lia. apply H1. assumption. Qed.
Lemma build_ok t : forall s s' i,
  fresh_ok s -> consistent (st_heap s) -> build t s = (s', Ok i) ->
  fresh_ok s' /\ consistent (st_heap s') /\ i = st_next s /\ grows s s' /\
  exists n, st_heap s' !! i = Some n /\ n_parent n = None.
Proof.
  induction t as [c kw cs IH] using bt_ind'. intros s s' i Hf Hc H.
  cbn [build] in H. fold (build_kids) in H. apply bind_ok in H as (s1 & x & H1 & H).
  apply new_node_ok in H1 as [-> ->]. apply bind_ok in H as (s2 & u & H1 & H).
  apply ret_ok in H as [-> ->].
  change (build_kids (st_next s) cs (new s (mk_node c kw)) = (s2, Ok u)) in H1.
  destruct (consistent_fresh s (mk_node c kw) Hf Hc eq_refl eq_refl) as [Hc1 Hf1].
  assert (G1 : grows s (new s (mk_node c kw))).
  { split; [simpl; lia|]. intros j Hj. rewrite new_lookup, decide_False by lia. reflexivity. }
  assert (Hn1 : exists n, st_heap (new s (mk_node c kw)) !! st_next s = Some n /\ n_parent n = None).
  { rewrite new_lookup, decide_True by reflexivity. eauto. }
  assert (Hlt1 : st_next s < st_next (new s (mk_node c kw))) by (simpl; lia).
  assert (forall s1, fresh_ok s1 -> consistent (st_heap s1) -> grows s s1 -> st_next s < st_next s1 ->
    (exists n, st_heap s1 !! st_next s = Some n /\ n_parent n = None) ->
    build_kids (st_next s) cs s1 = (s2, Ok u) ->
    fresh_ok s2 /\ consistent (st_heap s2) /\ grows s s2 /\
    exists n, st_heap s2 !! st_next s = Some n /\ n_parent n = None) as Hgo.
  2:{ destruct (Hgo _ Hf1 Hc1 G1 Hlt1 Hn1 H1) as (A & B & C & D). auto. }
  clear Hf1 Hc1 G1 Hn1 Hlt1 H1. induction cs as [|x cs IHcs]; intros s1 Hf1 Hc1 G1 Hlt Hn1 H.
  - apply ret_ok in H as [-> _]. auto.
  - apply list.Forall_cons in IH as [IHx IH]. cbn [build_kids] in H.
    apply bind_ok in H as (s3 & k & Hb & H). apply bind_ok in H as (s4 & u4 & Ha & H).
    destruct (IHx _ _ _ Hf1 Hc1 Hb) as (Hf3 & Hc3 & -> & G3 & (nk & Hk & Hkp)).
    destruct Hn1 as (n & Hn & Hp).
    assert (Hn3 : st_heap s3 !! st_next s = Some n) by (rewrite (proj2 G3) by assumption; assumption).
    assert (Hu : usable (st_heap s3) (st_next s) [st_next s1]).
    { split; [apply NoDup_singleton|]. intros d Hd. apply elem_of_list_singleton in Hd. subst d.
      split; [eauto|]. split; [lia|]. intros Han.
      inversion Han as [? ? (m & Hm & E)|? ? ? (m & Hm & E)]; congruence. }
    pose proof (append_consistent _ _ _ _ _ Hc3 Hu Ha) as Hc4.
    apply append_ok in Ha as (Hr & He & _).
    apply (IHcs IH s4); try assumption.
    + eapply fresh_edited; eassumption.
    + split; [destruct Hr as [-> _]; destruct G1, G3; lia|]. intros j Hj.
      rewrite He. destruct G1 as [L1 G1], G3 as [L3 G3]. rewrite G3 by lia. rewrite G1 by lia.
      destruct (st_heap s !! j) as [[]|]; [|reflexivity]. simpl.
      rewrite decide_False by (rewrite elem_of_list_singleton; lia).
      rewrite decide_False by lia. reflexivity.
    + destruct Hr as [-> _]. destruct G3. lia.
    + eexists. split; [eapply edited_lookup; eassumption|]. simpl.
      rewrite decide_False by (rewrite elem_of_list_singleton; lia). assumption.
Qed.
Lemma run_build_document t s i :
  run (build t) = (s, Ok i) ->
  fresh_ok s /\ consistent (st_heap s) /\ exists d, root d = i /\ document (st_heap s) d.
Proof.
  intros H. apply build_ok in H as (Hf & Hc & _ & _ & n & Hn & Hp);
    [|apply fresh_empty|apply consistent_empty].
  split; [assumption|]. split; [assumption|]. eapply document_exists; eassumption.
Qed.

(** ** Constructed nodes can be compared with [==] *)

Lemma mk_attrs_default c kw a :
  In a (map fst (default_attrs c)) -> is_Some (mk_attrs c kw !! a).
Proof.
  intros H. unfold mk_attrs.
  assert (Hg : forall (l : list (attr * val)) (m : gmap attr val), In a (map fst l) \/ is_Some (m !! a) ->
    is_Some (fold_left (fun m p => <[p.1 := p.2]> m) l m !! a)).
  { induction l as [|[k v] l IH]; simpl; intros m [Hl|Hl]; try tauto.
    - apply IH. destruct Hl as [->|Hl]; [|auto]. right. rewrite lookup_insert. eauto.
    - apply IH. right. destruct (decide (k = a)) as [->|]; [rewrite lookup_insert; eauto|].
      rewrite lookup_insert_ne by assumption. assumption. }
  apply Hg. left. rewrite map_app. apply in_or_app. auto.
Qed.
Lemma mk_node_comparable c kw : comparable (mk_node c kw).
Proof.
  intros a Ha. apply mk_attrs_default. unfold mk_node in Ha. simpl in Ha.
  assert (E : forallb (fun c => forallb (fun a => existsb (fun b => bool_decide (a = b)) (map fst (default_attrs c)))
     (eq_attrs c)) all_cls = true) by (vm_compute; reflexivity).
  rewrite forallb_forall in E. specialize (E c (all_cls_complete c)).
  rewrite forallb_forall in E. specialize (E a Ha). apply existsb_exists in E as (b & Hb & E).
  apply bool_decide_eq_true in E. subst. assumption.
Qed.
Definition all_comparable (s : st) : Prop := forall i n, st_heap s !! i = Some n -> comparable n.
Lemma comparable_upd s i n n' :
  all_comparable s -> st_heap s !! i = Some n -> n_cls n' = n_cls n -> n_attrs n' = n_attrs n ->
  all_comparable (upd s i n').
Proof.
  intros H Hi Hc Ha j m. rewrite upd_lookup. destruct (decide (i = j)) as [<-|]; [|apply H].
  intros [= <-]. unfold comparable. rewrite Hc, Ha. apply (H _ _ Hi).
Qed.
Lemma comparable_mod i f :
  (forall n, n_cls (f n) = n_cls n /\ n_attrs (f n) = n_attrs n) -> keeps all_comparable (mod_node i f).
Proof.
  intros Hf s H. unfold mod_node, bind, get_node. destruct (st_heap s !! i) as [n|] eqn:E; [|exact H].
  simpl. destruct (Hf n). apply (comparable_upd _ _ n); assumption.
Qed.
Lemma comparable_set_parent i p : keeps all_comparable (set_parent i p).
Proof.
  destruct p; unfold set_parent; [|apply comparable_mod; auto].
  apply keeps_bind; [unfold cls_of; apply keeps_bind; [apply keeps_get_node|intros; apply keeps_ret]|].
  intros c. destruct (possible_parents c); [apply comparable_mod; auto|].
  apply keeps_bind; [unfold cls_of; apply keeps_bind; [apply keeps_get_node|intros; apply keeps_ret]|].
  intros d. destruct (cls_mem _ _); [apply comparable_mod; auto|apply keeps_raise].
Qed.
Lemma comparable_set_children i cs : keeps all_comparable (set_raw_children i cs).
Proof. apply comparable_mod. auto. Qed.
Lemma keeps_raw_children P i : keeps P (raw_children i).
Proof.
  unfold raw_children. apply keeps_bind; [apply keeps_get_node|]. intros n.
  destruct (has_children _); [apply keeps_ret|apply keeps_raise].
Qed.
Lemma keeps_parent_of P i : keeps P (parent_of i).
Proof. unfold parent_of. apply keeps_bind; [apply keeps_get_node|intros; apply keeps_ret]. Qed.
Lemma keeps_children_of P i : keeps P (children_of i).
Proof. unfold children_of. apply keeps_bind; [apply keeps_get_node|intros; apply keeps_ret]. Qed.
Lemma comparable_remove p c : keeps all_comparable (remove p c).
Proof.
  unfold remove. apply keeps_bind; [apply keeps_raw_children|]. intros cs.
  destruct (index_of c cs); [|apply keeps_raise].
  apply keeps_bind; [apply comparable_set_children|intros; apply comparable_set_parent].
Qed.
Lemma comparable_insert_all p reps : forall k, keeps all_comparable (insert_all p k reps).
Proof.
  induction reps as [|r rs IH]; intros k; [apply keeps_ret|]. cbn [insert_all].
  apply keeps_bind; [apply keeps_raw_children|intros cs].
  apply keeps_bind; [apply comparable_set_children|intros _].
  apply keeps_bind; [apply comparable_set_parent|intros _]. apply IH.
Qed.
Lemma edit_comparable e : keeps all_comparable (run_edit e).
Proof.
  destruct e; simpl.
  - apply keeps_bind; [|intros; apply keeps_ret]. intros s H. simpl. intros j m.
    rewrite (new_lookup s (mk_node c kw)). destruct (decide (st_next s = j)); [|apply H].
    intros [= <-]. apply mk_node_comparable.
  - apply keeps_iterM. intros x. unfold append1. apply keeps_bind; [apply keeps_raw_children|intros l].
    apply keeps_bind; [apply keeps_parent_of|]. intros [q|]; [apply keeps_raise|].
    apply keeps_bind; [apply comparable_set_children|intros; apply comparable_set_parent].
  - apply keeps_iterM. intros x. unfold prepend1. apply keeps_bind; [apply keeps_raw_children|intros l].
    apply keeps_bind; [apply keeps_parent_of|]. intros [q|]; [destruct (Nat.eqb q p); [|apply keeps_raise]|];
      (apply keeps_bind; [apply comparable_set_children|intros; apply comparable_set_parent]).
  - apply comparable_remove.
  - unfold remove_self. apply keeps_bind; [apply keeps_parent_of|]. intros [q|]; [|apply keeps_ret].
    apply keeps_bind; [apply comparable_remove|intros; apply comparable_set_parent].
  - unfold clear. apply keeps_bind; [apply keeps_raw_children|]. intros cs.
    apply keeps_bind; [apply keeps_iterM; intros; apply comparable_set_parent|].
    intros _. apply comparable_set_children.
  - unfold replace_self. apply keeps_bind; [apply keeps_parent_of|]. intros [q|]; [|apply keeps_raise].
    apply keeps_bind; [apply keeps_children_of|]. intros cs. destruct (index_of x cs); [|apply keeps_raise].
    apply keeps_bind; [apply comparable_remove|]. intros _. apply comparable_insert_all.
Qed.
Lemma any_history_comparable l s s' : all_comparable s -> any_history s l s' -> all_comparable s'.
Proof.
  intros Hp H. induction H as [s|s e s1 r l s2 He H IH]; [assumption|].
  apply IH. pose proof (edit_comparable e s Hp) as Hk. rewrite He in Hk. exact Hk.
Qed.
Lemma comparable_empty : all_comparable empty_st.
Proof. intros i n H. simpl in H. rewrite lookup_empty in H. discriminate. Qed.

(** ** Symmetry of [==] between trees of the same classes *)

Lemma strs_eqb_sym a : forall b, strs_eqb a b = strs_eqb b a.
Proof.
  induction a as [|x a IH]; intros [|y b]; simpl; try reflexivity. rewrite IH.
  destruct (str_eqb_spec x y), (str_eqb_spec y x); congruence.
Qed.
Lemma str_eqb_sym x y : str_eqb x y = str_eqb y x.
Proof. destruct (str_eqb_spec x y), (str_eqb_spec y x); congruence. Qed.
Lemma val_eqb_sym v w : val_eqb v w = val_eqb w v.
Proof.
  destruct v, w; unfold val_eqb; simpl; try reflexivity;
    try (apply Z.eqb_sym); try (apply str_eqb_sym); try (apply strs_eqb_sym); try (apply Nat.eqb_sym).
  - destruct (decide (l = l0)), (decide (l0 = l)); congruence.
  - rewrite (Z.eqb_sym row), (Z.eqb_sym col). reflexivity.
Qed.
Lemma attr_eq_sym a b k : attr_eq a b k = attr_eq b a k.
Proof. unfold attr_eq. destruct (n_attrs a !! k), (n_attrs b !! k); auto using val_eqb_sym. Qed.
Lemma parent_eq_sym a b : parent_eq a b = parent_eq b a.
Proof. unfold parent_eq. destruct (n_parent a), (n_parent b); auto using Nat.eqb_sym. Qed.
Lemma forallb_ext' {A} (f g : A -> bool) l : (forall x, f x = g x) -> forallb f l = forallb g l.
Proof. intros H. induction l; simpl; congruence. Qed.
Lemma node_eq_sym fuel h : forall t t',
  kid_tree h t -> kid_tree h t' -> shape h t = shape h t' ->
  node_eq fuel h (root t) (root t') = node_eq fuel h (root t') (root t).
Proof.
  induction fuel as [|fuel IH]; [reflexivity|]. intros t t' Ht Ht' Es.
  inversion Ht as [i n cs Hi Hk Hcs]; subst. inversion Ht' as [i' n' cs' Hi' Hk' Hcs']; subst.
  simpl in Es. rewrite Hi, Hi' in Es. injection Es as Ec Es. cbn [root node_eq]. rewrite Hi, Hi'.
  assert (E : forall c, cls_eqb c c = true) by (intros c; destruct (cls_eqb_spec c c); congruence).
  rewrite Ec, E, !andb_false_r. rewrite Ec, parent_eq_sym.
  rewrite (forallb_ext' (attr_eq n n') (attr_eq n' n)) by (intros; apply attr_eq_sym).
  destruct (_ && _); [|reflexivity]. destruct (has_children (n_cls n')); [|reflexivity].
  rewrite Hk, Hk'. clear Hk Hk' Ht Ht'.
  revert cs' Hcs' Es. induction cs as [|c cs IHc]; intros [|c' cs'] Hcs' Es; try discriminate; [reflexivity|].
  cbn [map] in *. injection Es as E1 E2. apply list.Forall_cons in Hcs as [H1 H2].
  apply list.Forall_cons in Hcs' as [H1' H2'].
  rewrite (Nat.eqb_sym (root c') (root c)). destruct (Nat.eqb (root c) (root c')); [apply IHc; assumption|].
  rewrite (IH c c') by assumption. destruct (node_eq fuel h (root c') (root c)) as [[]|]; try reflexivity.
  apply IHc; assumption.
Qed.

(** ** Checking histories and relations by computation *)

Definition kids_of (s : st) (i : id) : list id :=
  match st_heap s !! i with Some n => kids n | None => [] end.
Definition parent_in (s : st) (i : id) : option id :=
  match st_heap s !! i with Some n => n_parent n | None => None end.

Definition hist_end (l : list edit) : st := fold_left (fun s e => (run_edit e s).1) l empty_st.
Definition usableb (h : gmap id node) (p : id) (cs : list id) : bool :=
  bool_decide (NoDup cs) &&
  forallb (fun c => match h !! c with Some n => bool_decide (n_parent n = None) | None => false end
                    && negb (Nat.eqb c p)
                    && match h !! p with Some n => bool_decide (n_parent n = None)
                       || match n_parent n with
                          | Some q => negb (Nat.eqb q c) &&
                             match h !! q with Some m => bool_decide (n_parent m = None) | None => false end
                          | None => true end
                       | None => false end) cs.
Lemma usableb_sound h p cs : usableb h p cs = true -> usable h p cs.
Proof.
  unfold usableb. rewrite andb_true_iff, forallb_forall. intros [H1 H2].
  apply bool_decide_eq_true in H1. split; [assumption|]. intros c Hc. apply elem_of_list_In in Hc.
  specialize (H2 c Hc). rewrite !andb_true_iff in H2. destruct H2 as [[Ha Hb] Hd].
  destruct (h !! c) as [n|] eqn:Ec; [|discriminate]. apply bool_decide_eq_true in Ha.
  split; [eauto|]. split; [intros ->; rewrite Nat.eqb_refl in Hb; discriminate|].
  intros Han. destruct (h !! p) as [m|] eqn:Ep; [|discriminate].
  apply orb_true_iff in Hd as [Hd|Hd].
  - apply bool_decide_eq_true in Hd. inversion Han as [? ? (k & E1 & E2)|? ? ? (k & E1 & E2)]; congruence.
  - assert (forall q, parent_is h p q -> n_parent m = Some q) as Hq by (intros q (k & E1 & E2); congruence).
    inversion Han as [? ? E|? q ? E Han']; subst; apply Hq in E; rewrite E in Hd;
      apply andb_true_iff in Hd as [Hd1 Hd2].
    + rewrite Nat.eqb_refl in Hd1. discriminate.
    + destruct (h !! q) as [k|] eqn:Eq; [|discriminate]. apply bool_decide_eq_true in Hd2.
      inversion Han' as [? ? (k' & E1 & E2)|? ? ? (k' & E1 & E2)]; congruence.
Qed.
Definition respectsb (h : gmap id node) (e : edit) : bool :=
  match e with
  | Append p cs | Prepend p cs => usableb h p cs
  | ReplaceSelf x rs =>
      match h !! x with
      | Some n => match n_parent n with Some p => usableb h p rs | None => true end
      | None => true
      end
  | _ => true
  end.
Lemma respectsb_sound h e : respectsb h e = true -> respects h e.
Proof.
  destruct e; simpl; auto using usableb_sound.
  intros H p (n & Hn & Hp). rewrite Hn, Hp in H. apply usableb_sound, H.
Qed.
Fixpoint disciplinedb (s : st) (l : list edit) : bool :=
  match l with
  | [] => true
  | e :: l => respectsb (st_heap s) e && match run_edit e s with (s1, Ok _) => disciplinedb s1 l | _ => false end
  end.
Lemma disciplinedb_sound l : forall s,
  disciplinedb s l = true ->
  disciplined s l /\ history s l (fold_left (fun s e => (run_edit e s).1) l s).
Proof.
  induction l as [|e l IH]; intros s; cbn [disciplinedb].
  - intros _. split; constructor.
  - rewrite andb_true_iff. intros [H1 H2]. apply respectsb_sound in H1.
    destruct (run_edit e s) as [s1 [[]|]] eqn:E; [|discriminate]. destruct (IH _ H2) as [Hd Hh].
    split; [econstructor; eassumption|]. econstructor; [eassumption|]. simpl. rewrite E. exact Hh.
Qed.
Lemma any_history_run l : forall s, any_history s l (fold_left (fun s e => (run_edit e s).1) l s).
Proof.
  induction l as [|e l IH]; intros s; [constructor|]. simpl. econstructor; [apply surjective_pairing|]. apply IH.
Qed.
Lemma parent_in_is s x p : parent_in s x = Some p -> parent_is (st_heap s) x p.
Proof. unfold parent_in, parent_is. destruct (st_heap s !! x); [eauto|discriminate]. Qed.
Lemma siblings_in s x p b a :
  parent_in s x = Some p -> kids_of s p = b ++ x :: a -> siblings (st_heap s) x b a.
Proof.
  intros H1 H2. apply parent_in_is in H1. unfold kids_of in H2.
  destruct (st_heap s !! p) as [n|] eqn:E; [|destruct b; discriminate]. exists p, n. auto.
Qed.
Lemma ok_pair {A} (m : M A) s a : (m s).2 = Ok a -> m s = ((m s).1, Ok a).
Proof. destruct (m s). simpl. intros ->. reflexivity. Qed.
