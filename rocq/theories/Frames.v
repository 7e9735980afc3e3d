(** Frame relations: what a computation may change, whether or not it raises. *)
From Verif Require Export Traverse.
From Verif Require Import NodeOps Monad.

Definition changes {A} (R : st -> st -> Prop) (m : M A) : Prop := forall s, R s (m s).1.

Section combinators.
  Context (R : st -> st -> Prop).
  Context (Hr : forall s, R s s) (Ht : forall a b c, R a b -> R b c -> R a c).
  Lemma ch_ret {A} (a : A) : changes R (ret a). Proof. intros s. apply Hr. Qed.
  Lemma ch_raise {A} e : changes R (raise (A := A) e). Proof. intros s. apply Hr. Qed.
  Lemma ch_bind {A B} (m : M A) (k : A -> M B) :
    changes R m -> (forall a, changes R (k a)) -> changes R (bind m k).
  Proof.
    intros Hm Hk s. unfold bind. specialize (Hm s). destruct (m s) as [s1 [a|e]]; simpl in *; [|assumption].
    eapply Ht; [eassumption|]. apply Hk.
  Qed.
  Lemma ch_get_node i : changes R (get_node i).
  Proof. intros s. unfold get_node. destruct (st_heap s !! i); apply Hr. Qed.
  Lemma ch_getattr i a : changes R (getattr i a).
  Proof. apply ch_bind; [apply ch_get_node|]. intros n. destruct (n_attrs n !! a); [apply ch_ret|apply ch_raise]. Qed.
  Lemma ch_cls_of i : changes R (cls_of i).
  Proof. apply ch_bind; [apply ch_get_node|]. intros n. apply ch_ret. Qed.
  Lemma ch_children_of i : changes R (children_of i).
  Proof. apply ch_bind; [apply ch_get_node|]. intros n. apply ch_ret. Qed.
  Lemma ch_parent_of i : changes R (parent_of i).
  Proof. apply ch_bind; [apply ch_get_node|]. intros n. apply ch_ret. Qed.
  Lemma ch_get_str i a : changes R (get_str i a).
  Proof. apply ch_bind; [apply ch_getattr|]. intros []; first [apply ch_ret|apply ch_raise]. Qed.
  Lemma ch_get_strs i a : changes R (get_strs i a).
  Proof. apply ch_bind; [apply ch_getattr|]. intros []; first [apply ch_ret|apply ch_raise]. Qed.
  Lemma ch_get_int i a : changes R (get_int i a).
  Proof. apply ch_bind; [apply ch_getattr|]. intros []; first [apply ch_ret|apply ch_raise]. Qed.
  Lemma ch_inst ds i : changes R (inst ds i).
  Proof. apply ch_bind; [apply ch_cls_of|]. intros n. apply ch_ret. Qed.
  Lemma ch_first_of_type_go ds l : forall k, changes R (first_of_type_go ds l k).
  Proof.
    induction l as [|c l IH]; intros k; [apply ch_ret|]. apply ch_bind; [apply ch_inst|].
    intros []; [apply ch_ret|apply IH].
  Qed.
  Lemma ch_first_of_type i ds : changes R (first_of_type i ds).
  Proof. apply ch_bind; [apply ch_children_of|]. intros cs. apply ch_first_of_type_go. Qed.
  Lemma ch_last_of_type i ds : changes R (last_of_type i ds).
  Proof.
    apply ch_bind; [apply ch_children_of|]. intros cs. apply ch_bind; [apply ch_first_of_type_go|].
    intros [[]|]; apply ch_ret.
  Qed.
  Lemma ch_first_inst d l : changes R (first_inst d l).
  Proof.
    induction l as [|c l IH]; [apply ch_ret|]. apply ch_bind; [apply ch_inst|].
    intros []; [apply ch_ret|apply IH].
  Qed.
  Lemma ch_prev_sibling i a : changes R (prev_sibling i a).
  Proof.
    apply ch_bind; [apply ch_parent_of|]. intros [q|]; [|apply ch_ret].
    apply ch_bind; [apply ch_children_of|]. intros cs. destruct (index_of i cs); [|apply ch_raise].
    destruct a; [apply ch_ret| |apply ch_first_inst]. apply ch_bind; [apply ch_cls_of|].
    intros c. apply ch_first_inst.
  Qed.
  Lemma ch_anc_loop fuel ds : forall cur, changes R (anc_loop fuel ds cur).
  Proof.
    induction fuel as [|fuel IH]; intros [q|]; try apply ch_ret; [apply ch_raise|].
    simpl. apply ch_bind; [apply ch_cls_of|]. intros c. destruct (cls_mem c ds); [apply ch_ret|].
    apply ch_bind; [apply ch_parent_of|]. intros p. apply IH.
  Qed.
  Lemma ch_first_ancestor fuel i ds : changes R (first_ancestor_of_type fuel i ds).
  Proof. apply ch_bind; [apply ch_parent_of|]. intros p. apply ch_anc_loop. Qed.
  Lemma ch_iterM {A} (f : A -> M unit) l : (forall a, changes R (f a)) -> changes R (iterM f l).
  Proof. intros Hf. induction l; [apply ch_ret|]. apply ch_bind; auto. Qed.
  Lemma ch_mapM {A B} (f : A -> M B) l : (forall a, changes R (f a)) -> changes R (mapM f l).
  Proof.
    intros Hf. induction l; [apply ch_ret|]. apply ch_bind; [apply Hf|]. intros b.
    apply ch_bind; [assumption|]. intros bs. apply ch_ret.
  Qed.
  Lemma ch_foldM {A B} (f : B -> A -> M B) l : (forall b a, changes R (f b a)) -> forall b, changes R (foldM f b l).
  Proof. intros Hf. induction l; intros b; [apply ch_ret|]. apply ch_bind; auto. Qed.
  Lemma ch_trav_loop {A} cond (body : A -> id -> M A) fuel :
    (forall acc i, changes R (body acc i)) -> forall acc stack, changes R (trav_loop fuel cond body acc stack).
  Proof.
    intros Hb. induction fuel as [|fuel IH]; intros acc [|i rest]; try apply ch_ret; [apply ch_raise|].
    simpl. apply ch_bind; [apply ch_get_node|]. intros n.
    apply ch_bind; [destruct (cond n); [apply Hb|apply ch_ret]|]. intros acc'.
    apply ch_bind; [apply ch_children_of|]. intros cs. apply IH.
  Qed.
  Lemma ch_for_traverse {A} cond (body : A -> id -> M A) fuel acc root :
    (forall acc i, changes R (body acc i)) -> changes R (for_traverse fuel cond body acc root).
  Proof. intros Hb. apply ch_trav_loop. assumption. Qed.
  Lemma ch_visit {A} cond (body : A -> id -> M A) acc i :
    changes R (body acc i) -> changes R (visit cond body acc i).
  Proof.
    intros Hb. apply ch_bind; [apply ch_get_node|]. intros n. destruct (cond n); [assumption|apply ch_ret].
  Qed.
End combinators.
Lemma ch_run {A} R (m : M A) s s' r : changes R m -> m s = (s', r) -> R s s'.
Proof. intros Hm E. specialize (Hm s). rewrite E in Hm. exact Hm. Qed.

(** ** Only attributes *)

(** Log records are only added. *)
Definition logs_grow (s s' : st) : Prop := exists l, st_logs s' = st_logs s ++ l.
Lemma logs_grow_same s s' : st_logs s' = st_logs s -> logs_grow s s'.
Proof. exists []. rewrite app_nil_r. assumption. Qed.
Lemma logs_grow_trans s1 s2 s3 : logs_grow s1 s2 -> logs_grow s2 s3 -> logs_grow s1 s3.
Proof. intros [l E] [l' E']. exists (l ++ l'). rewrite E', E, app_assoc. reflexivity. Qed.
Lemma logs_grow_in s s' r : logs_grow s s' -> In r (st_logs s) -> In r (st_logs s').
Proof. intros [l E] H. rewrite E. apply in_app_iff. auto. Qed.

(** Only the attributes [P j a] of existing nodes may differ. *)
Definition only (P : id -> attr -> Prop) (s s' : st) : Prop :=
  st_next s' = st_next s /\ logs_grow s s' /\
  forall j, match st_heap s !! j, st_heap s' !! j with
            | Some n, Some n' =>
                n_cls n' = n_cls n /\ n_parent n' = n_parent n /\ n_children n' = n_children n /\
                forall a, ~ P j a -> n_attrs n' !! a = n_attrs n !! a
            | None, None => True
            | _, _ => False
            end.
Lemma only_refl P s : only P s s.
Proof. split; [reflexivity|]. split; [apply logs_grow_same; reflexivity|]. intros j. destruct (st_heap s !! j); auto. Qed.
Lemma only_trans P s1 s2 s3 : only P s1 s2 -> only P s2 s3 -> only P s1 s3.
Proof.
  intros (E1 & L1 & H1) (E2 & L2 & H2). split; [congruence|]. split; [eapply logs_grow_trans; eassumption|].
  intros j. specialize (H1 j). specialize (H2 j).
  destruct (st_heap s1 !! j), (st_heap s2 !! j), (st_heap s3 !! j); auto; try contradiction.
  destruct H1 as (? & ? & ? & Ha), H2 as (? & ? & ? & Hb). repeat split; try congruence.
  intros a Hp. rewrite Hb, Ha; auto.
Qed.
Lemma only_weaken (P Q : id -> attr -> Prop) s s' :
  (forall j a, P j a -> Q j a) -> only P s s' -> only Q s s'.
Proof.
  intros HPQ (E & L & H). split; [assumption|]. split; [assumption|]. intros j. specialize (H j).
  destruct (st_heap s !! j), (st_heap s' !! j); auto.
  destruct H as (? & ? & ? & H). repeat split; auto.
Qed.
Lemma only_upd P s i n n' :
  st_heap s !! i = Some n -> n_cls n' = n_cls n -> n_parent n' = n_parent n -> n_children n' = n_children n ->
  (forall a, ~ P i a -> n_attrs n' !! a = n_attrs n !! a) -> only P s (upd s i n').
Proof.
  intros Hi E1 E2 E3 Ha. split; [reflexivity|]. split; [apply logs_grow_same; reflexivity|]. intros j. rewrite upd_lookup.
  destruct (decide (i = j)) as [<-|].
  - rewrite Hi. auto.
  - destruct (st_heap s !! j); auto.
Qed.
Lemma only_setattr (P : id -> attr -> Prop) i a v : P i a -> changes (only P) (setattr i a v).
Proof.
  intros Hp s. unfold setattr, mod_node, bind. destruct (st_heap s !! i) as [n|] eqn:Hi.
  - rewrite (get_node_eq _ _ _ Hi). simpl. apply (only_upd P s i n (set_n_attr a v n)); auto.
    intros b Hb. simpl. apply lookup_insert_ne. intros ->. auto.
  - unfold get_node. rewrite Hi. apply only_refl.
Qed.
Lemma only_log P r : changes (only P) (log_rec r).
Proof. intros s. split; [reflexivity|]. split; [exists [r]; reflexivity|]. intros j. simpl. destruct (st_heap s !! j); auto. Qed.
Lemma only_structure P s s' : only P s s' -> same_structure (st_heap s) (st_heap s').
Proof.
  intros (_ & _ & H) j. specialize (H j). destruct (st_heap s !! j), (st_heap s' !! j); auto. tauto.
Qed.
Lemma only_lookup P s s' j n :
  only P s s' -> st_heap s !! j = Some n ->
  exists n', st_heap s' !! j = Some n' /\ n_cls n' = n_cls n /\ n_parent n' = n_parent n /\
    n_children n' = n_children n /\ forall a, ~ P j a -> n_attrs n' !! a = n_attrs n !! a.
Proof.
  intros (_ & _ & H) Hj. specialize (H j). rewrite Hj in H. destruct (st_heap s' !! j) as [n'|]; [|contradiction].
  eauto.
Qed.
Lemma only_none P s s' j : only P s s' -> st_heap s !! j = None -> st_heap s' !! j = None.
Proof.
  intros (_ & _ & H) Hj. specialize (H j). rewrite Hj in H. destruct (st_heap s' !! j) as [n'|]; [contradiction|auto].
Qed.

Lemma same_structure_kids h h' j : same_structure h h' -> kids_same h h' j.
Proof.
  intros H n Hj. specialize (H j). rewrite Hj in H. destruct (h' !! j) as [n'|]; [|contradiction].
  destruct H as (E & _ & E'). exists n'. split; [reflexivity|]. unfold kids. rewrite E, E'. reflexivity.
Qed.
Lemma same_structure_tree h h' p t : same_structure h h' -> tree_at h p t -> tree_at h' p t.
Proof.
  intros Hs. induction 1 as [p i n cs Hi Hp Hk Hcs IH] using tree_at_ind'.
  pose proof (Hs i) as H. rewrite Hi in H. destruct (h' !! i) as [n'|] eqn:Hi'; [|contradiction].
  destruct H as (E & E1 & E2). econstructor; [exact Hi'|congruence| |exact IH].
  unfold kids in *. rewrite E, E2. exact Hk.
Qed.
Lemma same_structure_document h h' t : same_structure h h' -> document h t -> document h' t.
Proof. intros Hs [H1 H2]. split; [eapply same_structure_tree; eassumption|assumption]. Qed.
Lemma same_structure_refl h : same_structure h h.
Proof. intros j. destruct (h !! j); auto. Qed.
Lemma same_structure_sym h h' : same_structure h h' -> same_structure h' h.
Proof. intros H j. specialize (H j). destruct (h !! j), (h' !! j); auto. destruct H as (?&?&?). auto. Qed.
Lemma same_structure_trans h1 h2 h3 : same_structure h1 h2 -> same_structure h2 h3 -> same_structure h1 h3.
Proof.
  intros H H' j. specialize (H j). specialize (H' j).
  destruct (h1 !! j), (h2 !! j), (h3 !! j); auto; try contradiction.
  destruct H as (?&?&?), H' as (?&?&?). repeat split; congruence.
Qed.
Lemma same_structure_parent h h' x p : same_structure h h' -> parent_is h x p -> parent_is h' x p.
Proof.
  intros H (n & Hx & Hp). specialize (H x). rewrite Hx in H. destruct (h' !! x) as [n'|] eqn:E; [|contradiction].
  exists n'. destruct H as (?&?&?). split; congruence.
Qed.
Lemma same_structure_child h h' x p : same_structure h h' -> child_is h x p -> child_is h' x p.
Proof.
  intros H (n & Hx & Hp). specialize (H p). rewrite Hx in H. destruct (h' !! p) as [n'|] eqn:E; [|contradiction].
  exists n'. destruct H as (E1&?&E2). split; [assumption|]. unfold kids. rewrite E1, E2. exact Hp.
Qed.
Lemma same_structure_ancestor h h' x p : same_structure h h' -> ancestor h x p -> ancestor h' x p.
Proof.
  intros H. induction 1 as [x p Hp|x p y Hp Ha IH].
  - constructor. eapply same_structure_parent; eassumption.
  - eapply anc_step; [eapply same_structure_parent; eassumption|assumption].
Qed.
Lemma same_structure_consistent h h' : same_structure h h' -> consistent h -> consistent h'.
Proof.
  intros H [C1 C2 C3]. pose proof (same_structure_sym _ _ H) as H'. constructor.
  - intros x p. split; intros Hx.
    + eapply same_structure_parent; [exact H|]. apply C1. eapply same_structure_child; eassumption.
    + eapply same_structure_child; [exact H|]. apply C1. eapply same_structure_parent; eassumption.
  - intros p n Hn. specialize (H' p). rewrite Hn in H'. destruct (h !! p) as [m|] eqn:E; [|contradiction].
    destruct H' as (E1&_&E2). specialize (C2 _ _ E). unfold kids in *. rewrite <- E1, <- E2. exact C2.
  - intros x Hx. apply (C3 x). eapply same_structure_ancestor; eassumption.
Qed.
Lemma only_fresh P s s' : only P s s' -> fresh_ok s -> fresh_ok s'.
Proof.
  intros (E & _ & H) Hf i n Hi. rewrite E. specialize (H i). rewrite Hi in H.
  destruct (st_heap s !! i) as [m|] eqn:Em; [|contradiction]. eauto.
Qed.

(** A traversal whose body only changes attributes is a fold over the document order. *)
Lemma trav_attr {A} P cond (body : A -> id -> M A) fuel p t acc s s' r :
  (forall acc i, changes (only P) (body acc i)) ->
  tree_at (st_heap s) p t ->
  for_traverse fuel cond body acc (root t) s = (s', Ok r) ->
  foldM (visit cond body) acc (doc_order t) s = (s', Ok r).
Proof.
  intros Hb Ht. apply (trav_ok (fun _ _ => True)); auto; [|eapply tree_at_kid; eassumption].
  intros s0 i rem a s1 a1 n _ Hi Hv. split; [exact I|]. intros j _.
  apply same_structure_kids, (only_structure P), (ch_run _ _ _ _ _ (ch_visit _ (only_refl P) (only_trans P) _ _ _ _ (Hb a i)) Hv).
Qed.
Lemma trav_attr_eq {A} P cond (body : A -> id -> M A) fuel p t acc s :
  (forall acc i, changes (only P) (body acc i)) ->
  tree_at (st_heap s) p t -> length (doc_order t) <= fuel ->
  for_traverse fuel cond body acc (root t) s = foldM (visit cond body) acc (doc_order t) s.
Proof.
  intros Hb Ht. apply (trav_eq (fun _ _ => True)); auto; [|eapply tree_at_kid; eassumption].
  intros s0 i rem a s1 a1 n _ Hi Hv. split; [exact I|]. intros j _.
  apply same_structure_kids, (only_structure P), (ch_run _ _ _ _ _ (ch_visit _ (only_refl P) (only_trans P) _ _ _ _ (Hb a i)) Hv).
Qed.

(** ** Growing heaps *)

(** Existing nodes keep their class and the attributes outside [P]. *)
Definition grown (P : id -> attr -> Prop) (s s' : st) : Prop :=
  st_next s <= st_next s' /\ logs_grow s s' /\
  forall j n, st_heap s !! j = Some n -> j < st_next s ->
    exists n', st_heap s' !! j = Some n' /\ n_cls n' = n_cls n /\
      forall a, ~ P j a -> n_attrs n' !! a = n_attrs n !! a.
Lemma grown_refl P s : grown P s s.
Proof. split; [lia|]. split; [apply logs_grow_same; reflexivity|]. eauto. Qed.
Lemma grown_trans P s1 s2 s3 : grown P s1 s2 -> grown P s2 s3 -> grown P s1 s3.
Proof.
  intros (E1 & L1 & H1) (E2 & L2 & H2). split; [lia|]. split; [eapply logs_grow_trans; eassumption|]. intros j n Hj Hlt.
  destruct (H1 _ _ Hj Hlt) as (n1 & Hn1 & Ec & Ha). destruct (H2 _ _ Hn1 ltac:(lia)) as (n2 & Hn2 & Ec2 & Ha2).
  exists n2. split; [assumption|]. split; [congruence|]. intros a Hp. rewrite Ha2, Ha; auto.
Qed.
Lemma grown_weaken (P Q : id -> attr -> Prop) s s' :
  (forall j a, j < st_next s -> P j a -> Q j a) -> grown P s s' -> grown Q s s'.
Proof.
  intros HPQ (E & L & H). split; [assumption|]. split; [assumption|]. intros j n Hj Hlt. destruct (H _ _ Hj Hlt) as (n' & H1 & H2 & H3).
  exists n'. split; [assumption|]. split; [assumption|]. intros a Ha. apply H3. eauto.
Qed.
Lemma only_grown P s s' : only P s s' -> grown P s s'.
Proof.
  intros (E & L & H). split; [lia|]. split; [assumption|]. intros j n Hj _. specialize (H j). rewrite Hj in H.
  destruct (st_heap s' !! j) as [n'|]; [|contradiction]. exists n'. tauto.
Qed.
Lemma grown_upd P s i n n' :
  st_heap s !! i = Some n -> n_cls n' = n_cls n ->
  (forall a, ~ P i a -> n_attrs n' !! a = n_attrs n !! a) -> grown P s (upd s i n').
Proof.
  intros Hi E Ha. split; [reflexivity|]. split; [apply logs_grow_same; reflexivity|]. intros j m Hj Hlt. rewrite upd_lookup.
  destruct (decide (i = j)) as [<-|]; [|eauto]. assert (m = n) as -> by congruence. eauto.
Qed.
Lemma grown_mod P i f :
  (forall n, n_cls (f n) = n_cls n /\ forall a, ~ P i a -> n_attrs (f n) !! a = n_attrs n !! a) ->
  changes (grown P) (mod_node i f).
Proof.
  intros Hf s. unfold mod_node, bind. destruct (st_heap s !! i) as [n|] eqn:Hi.
  - rewrite (get_node_eq _ _ _ Hi). simpl. apply (grown_upd P s i n); [assumption|apply Hf|apply Hf].
  - unfold get_node. rewrite Hi. apply grown_refl.
Qed.
Lemma grown_new P c kw : changes (grown P) (new_node c kw).
Proof.
  intros s. split; simpl; [lia|]. split; [apply logs_grow_same; reflexivity|]. intros j n Hj Hlt. exists n. rewrite lookup_insert_ne by lia. auto.
Qed.
Lemma grown_log P r : changes (grown P) (log_rec r).
Proof. intros s. apply only_grown, only_log. Qed.
Lemma grown_setattr (P : id -> attr -> Prop) i a v : P i a -> changes (grown P) (setattr i a v).
Proof.
  intros Hp. apply grown_mod. intros n. split; [reflexivity|]. intros b Hb. simpl.
  apply lookup_insert_ne. intros ->. auto.
Qed.
Ltac ch_step :=
  match goal with
  | |- changes _ (bind _ _) => apply ch_bind; [apply grown_trans| |intros ?]
  | |- changes _ (ret _) => apply ch_ret, grown_refl
  | |- changes _ (raise _) => apply ch_raise, grown_refl
  | |- changes _ (get_node _) => apply ch_get_node, grown_refl
  | |- changes _ (getattr _ _) => apply ch_getattr; [apply grown_refl|apply grown_trans]
  | |- changes _ (cls_of _) => apply ch_cls_of; [apply grown_refl|apply grown_trans]
  | |- changes _ (children_of _) => apply ch_children_of; [apply grown_refl|apply grown_trans]
  | |- changes _ (parent_of _) => apply ch_parent_of; [apply grown_refl|apply grown_trans]
  | |- changes _ (inst _ _) => apply ch_inst; [apply grown_refl|apply grown_trans]
  | |- changes _ (get_str _ _) => apply ch_get_str; [apply grown_refl|apply grown_trans]
  | |- changes _ (get_strs _ _) => apply ch_get_strs; [apply grown_refl|apply grown_trans]
  | |- changes _ (get_int _ _) => apply ch_get_int; [apply grown_refl|apply grown_trans]
  | |- changes _ (first_of_type _ _) => apply ch_first_of_type; [apply grown_refl|apply grown_trans]
  | |- changes _ (last_of_type _ _) => apply ch_last_of_type; [apply grown_refl|apply grown_trans]
  | |- changes _ (first_ancestor_of_type _ _ _) => apply ch_first_ancestor; [apply grown_refl|apply grown_trans]
  | |- changes _ (new_node _ _) => apply grown_new
  | |- changes _ (warn _ _) => apply grown_log
  | |- changes _ (info _ _) => apply grown_log
  | |- changes _ (iterM _ _) => apply ch_iterM; [apply grown_refl|apply grown_trans|intros ?]
  | |- changes _ (mapM _ _) => apply ch_mapM; [apply grown_refl|apply grown_trans|intros ?]
  | |- changes _ (set_raw_children _ _) => apply grown_mod; intros ?; split; reflexivity
  | |- changes _ (match ?x with _ => _ end) => destruct x
  | |- changes _ (if ?x then _ else _) => destruct x
  end.
Lemma grown_set_parent P i p : changes (grown P) (set_parent i p).
Proof.
  unfold set_parent. destruct p as [q|].
  - ch_step; [ch_step|]. destruct (possible_parents a).
    + apply grown_mod. intros ?; split; reflexivity.
    + ch_step; [ch_step|]. ch_step; [|ch_step]. apply grown_mod. intros ?; split; reflexivity.
  - apply grown_mod. intros ?; split; reflexivity.
Qed.
Lemma grown_raw_children P i : changes (grown P) (raw_children i).
Proof. unfold raw_children. repeat ch_step. Qed.
Lemma grown_append1 P p c : changes (grown P) (append1 p c).
Proof. unfold append1. repeat first [ch_step|apply grown_set_parent|apply grown_raw_children]. Qed.
Lemma grown_append P p cs : changes (grown P) (append p cs).
Proof. unfold append. ch_step. apply grown_append1. Qed.
Lemma grown_remove P p c : changes (grown P) (remove p c).
Proof. unfold remove. repeat first [ch_step|apply grown_set_parent|apply grown_raw_children]. Qed.
Lemma grown_remove_self P c : changes (grown P) (remove_self c).
Proof. unfold remove_self. repeat first [ch_step|apply grown_set_parent|apply grown_remove]. Qed.
Lemma grown_clear P p : changes (grown P) (clear p).
Proof. unfold clear. repeat first [ch_step|apply grown_set_parent|apply grown_raw_children]. Qed.
Lemma grown_insert_all P p cs : forall k, changes (grown P) (insert_all p k cs).
Proof.
  induction cs as [|c cs IH]; intros k; simpl; repeat first [ch_step|apply grown_set_parent|apply grown_raw_children]. apply IH.
Qed.
Lemma grown_replace_self P i cs : changes (grown P) (replace_self i cs).
Proof. unfold replace_self. repeat first [ch_step|apply grown_remove|apply grown_insert_all]. Qed.
