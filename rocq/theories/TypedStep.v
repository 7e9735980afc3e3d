(** A logic for the types of attributes: [okM X m R Y] says that [m], started where the nodes [X]
    exist, keeps the types and removes no node; its result satisfies [R] and the nodes [Y] exist then. *)
From Verif Require Export SpecTyped ParseTyped.
From Verif Require Import TreeFacts Built Comparable Consistency NodeOps Monad.
Local Open Scope string_scope.
Local Open Scope list_scope.

Definition TI (s : st) : Prop := typed s /\ complete s.
Definition ex (X : list id) (s : st) : Prop := forall x, In x X -> is_Some (st_heap s !! x).
Definition grows (s s' : st) : Prop := forall x, is_Some (st_heap s !! x) -> is_Some (st_heap s' !! x).
Definition okM {A} (X : list id) (m : M A) (R : A -> Prop) (Y : A -> list id) : Prop :=
  forall s, TI s -> ex X s -> TI (m s).1 /\ grows s (m s).1 /\ forall a, (m s).2 = Ok a -> R a /\ ex (Y a) (m s).1.

Lemma ex_grows X s s' : ex X s -> grows s s' -> ex X s'. Proof. intros H G x Hx. apply G, H, Hx. Qed.
Lemma ex_incl X Y s : (forall x, In x Y -> In x X) -> ex X s -> ex Y s. Proof. intros H G x Hx. apply G, H, Hx. Qed.
Lemma ok_weaken {A} X (m : M A) (R R' : A -> Prop) Y Y' : okM X m R Y -> (forall a, R a -> R' a) ->
  (forall a x, R a -> In x (Y' a) -> In x (Y a ++ X)) -> okM X m R' Y'.
Proof.
  intros H HR HY s Hs Hx. destruct (H s Hs Hx) as (H1 & H2 & H3). split; [exact H1|]. split; [exact H2|]. intros a Ha. destruct (H3 a Ha) as [H4 H5].
  split; [apply HR, H4|]. intros x Hin. apply (HY a x H4), in_app_iff in Hin as [Hin|Hin]; [apply H5, Hin|apply H2, Hx, Hin].
Qed.
Lemma ok_bind {A B} X (m : M A) (k : A -> M B) R Y R' Y' :
  okM X m R Y -> (forall a, R a -> okM (Y a ++ X) (k a) R' Y') -> okM X (bind m k) R' Y'.
Proof.
  intros H Hk s Hs Hx. destruct (H s Hs Hx) as (H1 & H2 & H3). unfold bind. destruct (m s) as [s1 [a|e]]; cbn [fst snd] in *.
  - destruct (H3 a eq_refl) as [H4 H5]. assert (Hx1 : ex (Y a ++ X) s1) by (intros x Hin; apply in_app_iff in Hin as [Hin|Hin]; [apply H5, Hin|apply H2, Hx, Hin]).
    destruct (Hk a H4 s1 H1 Hx1) as (H6 & H7 & H8). split; [exact H6|]. split; [intros x G; apply H7, H2, G|exact H8].
  - split; [exact H1|]. split; [exact H2|]. intros a Ha. discriminate Ha.
Qed.
Lemma ok_ret {A} X (a : A) (R : A -> Prop) Y : R a -> (forall x, In x (Y a) -> In x X) -> okM X (ret a) R Y.
Proof. intros H HY s Hs Hx. split; [exact Hs|]. split; [intros x Hi; exact Hi|]. intros b [= <-]. split; [exact H|]. intros x Hin. apply Hx, HY, Hin. Qed.
Lemma ok_raise {A} X e (R : A -> Prop) Y : okM X (raise e) R Y.
Proof. intros s Hs Hx. split; [exact Hs|]. split; [intros x Hi; exact Hi|]. intros b Hb. discriminate Hb. Qed.

(** ** Steps that keep classes and attributes *)

Definition ca (s : st) (i : id) : option (cls * gmap attr val) := option_map (fun n => (n_cls n, n_attrs n)) (st_heap s !! i).
Definition same_ca (s0 s : st) : Prop := forall i, ca s i = ca s0 i.
Definition SA {A} (m : M A) : Prop := forall s0, keeps (same_ca s0) m.
Lemma ca_some s i n : st_heap s !! i = Some n -> ca s i = Some (n_cls n, n_attrs n). Proof. unfold ca. intros ->. reflexivity. Qed.
Lemma ca_inv s i c m : ca s i = Some (c, m) -> exists n, st_heap s !! i = Some n /\ n_cls n = c /\ n_attrs n = m.
Proof. unfold ca. destruct (st_heap s !! i) as [n|]; [|discriminate]. intros [= <- <-]. eauto. Qed.
Lemma same_ca_TI s0 s : same_ca s0 s -> TI s0 -> TI s /\ grows s0 s.
Proof.
  intros H [Ht Hc].
  assert (G : grows s0 s). { intros x [n Hn]. apply ca_some in Hn. rewrite <- H in Hn. apply ca_inv in Hn as (m & Hm & _). eauto. }
  assert (B : forall i n, st_heap s !! i = Some n -> exists n0, st_heap s0 !! i = Some n0 /\ n_cls n0 = n_cls n /\ n_attrs n0 = n_attrs n).
  { intros i n Hn. apply ca_some in Hn. rewrite H in Hn. apply ca_inv in Hn as (m & Hm & E1 & E2). eauto. }
  split; [split|exact G].
  - intros i n a v Hn Hv. destruct (B i n Hn) as (m & Hm & E1 & E2). rewrite <- E2 in Hv. destruct (Ht _ _ _ _ Hm Hv) as [H1 H2]. split; [exact H1|]. intros y Hy. apply G, H2, Hy.
  - intros i n a Hn Ha. destruct (B i n Hn) as (m & Hm & E1 & E2). rewrite <- E1 in Ha. rewrite <- E2. eapply Hc; eassumption.
Qed.
Lemma ok_sa {A} X (m : M A) : SA m -> okM X m (fun _ => True) (fun _ => []).
Proof.
  intros H s Hs Hx. pose proof (H s s (fun _ => eq_refl)) as G. destruct (same_ca_TI _ _ G Hs) as [H1 H2]. split; [exact H1|]. split; [exact H2|].
  intros a _. split; [exact I|]. intros x [].
Qed.
Lemma sa_mod i f : (forall n, n_cls (f n) = n_cls n) -> (forall n, n_attrs (f n) = n_attrs n) -> SA (mod_node i f).
Proof.
  intros Hc Hf s0 s Hs. unfold mod_node, bind, get_node. destruct (st_heap s !! i) as [n|] eqn:E; [|exact Hs]. cbn [fst put_node].
  intros j. change (ca (upd s i (f n)) j = ca s0 j). rewrite <- Hs. unfold ca. rewrite upd_lookup. destruct (decide (i = j)) as [<-|]; [|reflexivity].
  rewrite E. cbn [option_map]. rewrite Hc, Hf. reflexivity.
Qed.
Lemma sa_log r : SA (log_rec r). Proof. intros s0 s H. exact H. Qed.
Lemma sa_getattr i a : SA (getattr i a).
Proof. intros s0. unfold getattr. apply keeps_bind; [apply keeps_get_node|]. intros n. destruct (_ !! _); [apply keeps_ret|apply keeps_raise]. Qed.
Lemma sa_cls_of i : SA (cls_of i).
Proof. intros s0. unfold cls_of. apply keeps_bind; [apply keeps_get_node|intros; apply keeps_ret]. Qed.
Lemma sa_children i cs : SA (set_raw_children i cs). Proof. apply sa_mod; reflexivity. Qed.
Lemma sa_ret {A} (a : A) : SA (ret a). Proof. intros s0. apply keeps_ret. Qed.
Lemma sa_raise {A} e : SA (@raise A e). Proof. intros s0. apply keeps_raise. Qed.
Lemma sa_get_node i : SA (get_node i). Proof. intros s0. apply keeps_get_node. Qed.
Lemma sa_raw i : SA (raw_children i). Proof. intros s0. apply keeps_raw_children. Qed.
Lemma sa_par i : SA (parent_of i). Proof. intros s0. apply keeps_parent_of. Qed.
Lemma sa_kids i : SA (children_of i). Proof. intros s0. apply keeps_children_of. Qed.
Lemma sa_bind {A B} (m : M A) (k : A -> M B) : SA m -> (forall a, SA (k a)) -> SA (bind m k).
Proof. intros H G s0. apply keeps_bind; [apply H|intros a; apply G]. Qed.
Lemma sa_iterM {A} (f : A -> M unit) l : (forall a, SA (f a)) -> SA (iterM f l).
Proof. intros H s0. apply keeps_iterM. intros a. apply H. Qed.
Create HintDb sadb.
Global Hint Resolve sa_log sa_getattr sa_cls_of sa_children sa_ret sa_raise sa_get_node sa_raw sa_par sa_kids : sadb.
Ltac sap := repeat first
  [ progress auto with sadb
  | apply sa_bind; [|intros]
  | apply sa_iterM; intros
  | match goal with |- SA (match ?x with _ => _ end) => destruct x end
  | match goal with |- SA (if ?x then _ else _) => destruct x end ].
Lemma sa_parent i p : SA (set_parent i p).
Proof.
  assert (Hm : forall q, SA (mod_node i (set_n_parent q))) by (intros q; apply sa_mod; reflexivity). unfold set_parent. sap.
Qed.
Global Hint Resolve sa_parent : sadb.
Lemma sa_remove p c : SA (remove p c). Proof. unfold remove. sap. Qed.
Lemma sa_insert_all p reps : forall k, SA (insert_all p k reps). Proof. induction reps; intros k; cbn [insert_all]; sap. Qed.
Global Hint Resolve sa_remove sa_insert_all : sadb.
Lemma sa_get_str i a : SA (get_str i a). Proof. unfold get_str. sap. Qed.
Lemma sa_get_strs i a : SA (get_strs i a). Proof. unfold get_strs. sap. Qed.
Lemma sa_get_int i a : SA (get_int i a). Proof. unfold get_int. sap. Qed.
Lemma sa_warn n m : SA (warn n m). Proof. unfold warn. sap. Qed.
Lemma sa_info n m : SA (info n m). Proof. unfold info. sap. Qed.
Lemma sa_inst ds i : SA (inst ds i). Proof. unfold inst. sap. Qed.
Global Hint Resolve sa_get_str sa_get_strs sa_get_int sa_warn sa_info sa_inst : sadb.
Lemma sa_append1 p c : SA (append1 p c). Proof. unfold append1. sap. Qed.
Global Hint Resolve sa_append1 : sadb.
Lemma sa_append p cs : SA (append p cs). Proof. unfold append. sap. Qed.
Lemma sa_clear p : SA (clear p). Proof. unfold clear. sap. Qed.
Lemma sa_remove_self p : SA (remove_self p). Proof. unfold remove_self. sap. Qed.
Lemma sa_replace_self p cs : SA (replace_self p cs). Proof. unfold replace_self. sap. Qed.
Lemma sa_first_go ds l : forall k, SA (first_of_type_go ds l k). Proof. induction l; intros; cbn [first_of_type_go]; sap. Qed.
Global Hint Resolve sa_append sa_clear sa_remove_self sa_replace_self sa_first_go : sadb.
Lemma sa_first i ds : SA (first_of_type i ds). Proof. unfold first_of_type. sap. Qed.
Lemma sa_last i ds : SA (last_of_type i ds). Proof. unfold last_of_type. sap. Qed.
Lemma sa_first_inst d l : SA (first_inst d l). Proof. induction l; cbn [first_inst]; sap. Qed.
Global Hint Resolve sa_first sa_last sa_first_inst : sadb.
Lemma sa_prev i a : SA (prev_sibling i a). Proof. unfold prev_sibling. sap. Qed.
Lemma sa_anc ds fuel : forall c, SA (anc_loop fuel ds c).
Proof. induction fuel; intros [c|]; cbn [anc_loop]; sap. Qed.
Global Hint Resolve sa_prev sa_anc : sadb.
Lemma sa_ancestor fuel i ds : SA (first_ancestor_of_type fuel i ds). Proof. unfold first_ancestor_of_type. sap. Qed.
Global Hint Resolve sa_ancestor : sadb.
Lemma sa_full fuel : forall i, SA (full_number fuel i).
Proof. induction fuel; intros i; cbn [full_number]; sap. Qed.
Lemma sa_walk shown n : forall i, SA (walk_prev n shown i). Proof. induction n; intros; cbn [walk_prev]; sap. Qed.
Global Hint Resolve sa_full sa_walk : sadb.

(** ** Attributes *)

Lemma ok_getattr X i a : okM X (getattr i a) (fun v => attr_shape a v = true) (fun v => i :: nodes_in v).
Proof.
  intros s Hs Hx. destruct (ok_sa X _ (sa_getattr i a) s Hs Hx) as (H1 & H2 & _). split; [exact H1|]. split; [exact H2|].
  intros v Hv. destruct (getattr i a s) as [s' r] eqn:E. cbn [fst snd] in *. subst r. apply getattr_ok in E as (-> & n & Hn & Hv). destruct (proj1 Hs _ _ _ _ Hn Hv) as [G1 G2].
  split; [exact G1|]. intros x [<-|Hin]; [eauto|]. apply G2. apply elem_of_list_In, Hin.
Qed.
Lemma ok_get_str X i a : okM X (get_str i a) (fun _ => True) (fun _ => [i]).
Proof. eapply ok_bind; [apply ok_getattr|]. intros v _. destruct v; try apply ok_raise. apply ok_ret; [exact I|]. intros x [<-|[]]. left. reflexivity. Qed.
Lemma ok_get_strs X i a : okM X (get_strs i a) (fun _ => True) (fun _ => [i]).
Proof. eapply ok_bind; [apply ok_getattr|]. intros v _. destruct v; try apply ok_raise. apply ok_ret; [exact I|]. intros x [<-|[]]. left. reflexivity. Qed.
Lemma ok_setattr X i a v : attr_shape a v = true -> (forall y, In y (nodes_in v) -> In y X) -> okM X (setattr i a v) (fun _ => True) (fun _ => []).
Proof.
  intros Hv Hn s Hs Hx. unfold setattr, mod_node, bind, get_node. destruct (st_heap s !! i) as [n|] eqn:E; cbn [fst snd put_node].
  2:{ split; [exact Hs|]. split; [intros x Hi; exact Hi|]. intros b Hb. discriminate Hb. }
  change (TI (upd s i (set_n_attr a v n)) /\ grows s (upd s i (set_n_attr a v n)) /\ forall b : unit, Ok tt = Ok b -> True /\ ex [] (upd s i (set_n_attr a v n))).
  assert (G : grows s (upd s i (set_n_attr a v n))) by (intros x H; rewrite upd_lookup; destruct (decide (i = x)); [eauto|exact H]).
  split; [|split; [exact G|intros; split; [exact I|intros x []]]]. destruct Hs as [Ht Hc]. split.
  - intros j m b w Hj Hw. rewrite upd_lookup in Hj. destruct (decide (i = j)) as [<-|Hij].
    + injection Hj as <-. unfold set_n_attr in Hw. cbn [n_attrs] in Hw. destruct (decide (a = b)) as [<-|Hab].
      * rewrite lookup_insert in Hw. injection Hw as <-. split; [exact Hv|]. intros y Hy. apply G, Hx, Hn, elem_of_list_In, Hy.
      * rewrite lookup_insert_ne in Hw by assumption. destruct (Ht _ _ _ _ E Hw) as [H1 H2]. split; [exact H1|]. intros y Hy. apply G, H2, Hy.
    + destruct (Ht _ _ _ _ Hj Hw) as [H1 H2]. split; [exact H1|]. intros y Hy. apply G, H2, Hy.
  - intros j m b Hj Hb. rewrite upd_lookup in Hj. destruct (decide (i = j)) as [<-|Hij]; [|eapply Hc; eassumption].
    injection Hj as <-. unfold set_n_attr in *. cbn [n_attrs n_cls] in *. destruct (decide (a = b)) as [<-|Hab]; [rewrite lookup_insert; eauto|].
    rewrite lookup_insert_ne by assumption. eapply Hc; eassumption.
Qed.
Definition kw_ok (X : list id) (p : attr * val) : Prop := attr_shape p.1 p.2 = true /\ forall y, In y (nodes_in p.2) -> In y X.
Lemma ok_new X c kw : Forall (kw_ok X) kw -> okM X (new_node c kw) (fun _ => True) (fun i => [i]).
Proof.
  intros Hk s Hs Hx. unfold new_node, alloc. cbn [fst snd].
  change (TI (new s (mk_node c kw)) /\ grows s (new s (mk_node c kw)) /\ forall b : id, Ok (st_next s) = Ok b -> True /\ ex [b] (new s (mk_node c kw))).
  assert (G : grows s (new s (mk_node c kw))) by (intros x H; rewrite new_lookup; destruct (decide _); [eauto|exact H]).
  split; [|split; [exact G|intros b [= <-]; split; [exact I|intros x [<-|[]]; rewrite new_lookup; destruct (decide _); [eauto|congruence]]]].
  destruct Hs as [Ht Hc]. split.
  - intros j m b w Hj Hw. rewrite new_lookup in Hj. destruct (decide _) as [Hij|Hij].
    + injection Hj as <-. apply mk_attrs_in, in_app_iff in Hw as [Hw|Hw].
      * apply defaults_simple in Hw as [H1 H2]. split; [exact H1|]. rewrite H2. intros y Hy. inversion Hy.
      * rewrite List.Forall_forall in Hk. destruct (Hk _ Hw) as [H1 H2]. split; [exact H1|]. intros y Hy. apply G, Hx, H2, elem_of_list_In, Hy.
    + destruct (Ht _ _ _ _ Hj Hw) as [H1 H2]. split; [exact H1|]. intros y Hy. apply G, H2, Hy.
  - intros j m b Hj Hb. rewrite new_lookup in Hj. destruct (decide _) as [Hij|Hij]; [|eapply Hc; eassumption]. injection Hj as <-. apply mk_attrs_default, Hb.
Qed.

(** ** Loops *)

Lemma ok_iterM {A} X (f : A -> M unit) l : (forall a, In a l -> okM X (f a) (fun _ => True) (fun _ => [])) -> okM X (iterM f l) (fun _ => True) (fun _ => []).
Proof.
  induction l as [|a l IH]; intros H; cbn [iterM]; [apply ok_ret; [exact I|intros x []]|].
  eapply ok_bind; [apply H; left; reflexivity|]. intros u _. apply IH. intros b Hb. apply H. right. exact Hb.
Qed.
Lemma ex_app X Y s : ex (X ++ Y) s -> ex X s /\ ex Y s.
Proof. intros H. split; intros x Hx; apply H, in_app_iff; auto. Qed.
Lemma ok_mono {A} X X' (m : M A) R Y : okM X m R Y -> (forall x, In x X -> In x X') -> okM X' m R Y.
Proof. intros H HX s Hs Hx. apply H; [exact Hs|]. intros x Hi. apply Hx, HX, Hi. Qed.
Lemma ok_mapM {A} X (f : A -> M id) l : (forall a, okM X (f a) (fun _ => True) (fun i => [i])) -> okM X (mapM f l) (fun _ => True) (fun l => l).
Proof.
  intros H. induction l as [|a l IH]; cbn [mapM]; [apply ok_ret; [exact I|intros x []]|].
  eapply ok_bind; [apply H|]. intros i _. eapply ok_bind; [eapply ok_mono; [exact IH|]; intros x Hx; right; exact Hx|]. intros r _. apply ok_ret; [exact I|].
  intros x [<-|Hin]; apply in_app_iff; [right; left; reflexivity|left; exact Hin].
Qed.
(** The accumulator [acc] of the loop may hold the nodes [F acc]. *)
Lemma ok_loop {A} X cond (body : A -> id -> M A) (F : A -> list id) :
  (forall acc i, okM (F acc ++ X) (body acc i) (fun _ => True) F) ->
  forall fuel acc stk, okM (F acc ++ X) (trav_loop fuel cond body acc stk) (fun _ => True) F.
Proof.
  intros H.
  induction fuel as [|fuel IH]; intros acc [|i stk]; cbn [trav_loop].
  - apply ok_ret; [exact I|]. intros x Hx. apply in_app_iff. auto.
  - apply ok_raise.
  - apply ok_ret; [exact I|]. intros x Hx. apply in_app_iff. auto.
  - eapply ok_bind; [apply ok_sa; auto with sadb|]. intros n _. cbn [app]. eapply ok_bind with (R := fun _ => True) (Y := F).
    { destruct (cond n); [apply H|]. apply ok_ret; [exact I|]. intros x Hx. apply in_app_iff. auto. }
    intros b _. eapply ok_bind; [apply ok_sa; auto with sadb|]. intros m _. cbn [app]. eapply ok_mono; [apply IH|].
    intros x Hx. rewrite !in_app_iff in *. tauto.
Qed.
Lemma ok_traverse {A} X cond (body : A -> id -> M A) (F : A -> list id) fuel acc i :
  (forall acc i, okM (F acc ++ X) (body acc i) (fun _ => True) F) -> (forall x, In x (F acc) -> In x X) ->
  okM X (for_traverse fuel cond body acc i) (fun _ => True) F.
Proof. intros H HF. eapply ok_mono; [apply (ok_loop X cond body F H)|]. intros x Hx. apply in_app_iff in Hx as [Hx|Hx]; auto. Qed.
