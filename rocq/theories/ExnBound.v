(** Rules for the exceptions raised by operations on nodes. *)
From Verif Require Import TreeFacts Consistency.
From Verif Require Export TypedStep Parser.
From Verif Require Import NodeOps Monad.
Local Open Scope list_scope.
Local Notation grows := TypedStep.grows.

(** Every parent and every child is a node. *)
Definition all_there (s : st) : Prop := forall i n, st_heap s !! i = Some n ->
  (forall p, n_parent n = Some p -> is_Some (st_heap s !! p)) /\ forall c, In c (kids n) -> is_Some (st_heap s !! c).
(** A set of exceptions with those that operations on nodes raise. *)
Class node_errs (P : exn -> Prop) := MkNE { ne_node : forall m, P (ENode m); ne_attr : P EAttribute; ne_value : P EValue; ne_fuel : P EOutOfFuel }.
Ltac err := first [exact I | apply ne_attr | apply ne_node | apply ne_value | apply ne_fuel].
(** [m], with the nodes [X] at hand, raises nothing else and returns with the nodes [Y] at hand. *)
Definition sf {A} (P : exn -> Prop) (X : list id) (m : M A) (Y : A -> list id) : Prop := forall s, all_there s -> ex X s ->
  all_there (m s).1 /\ grows s (m s).1 /\ match (m s).2 with Ok a => ex (Y a) (m s).1 | Err e => P e end.
Definition none_ {A} (a : A) : list id := [].
Definition optp_ {B} (o : option (id * B)) : list id := match o with Some (i, _) => [i] | None => [] end.
Definition opt_ (o : option id) : list id := match o with Some i => [i] | None => [] end.

Lemma grows_refl s : grows s s. Proof. intros x H. exact H. Qed.
Lemma grows_trans s1 s2 s3 : grows s1 s2 -> grows s2 s3 -> grows s1 s3. Proof. intros H1 H2 x H. apply H2, H1, H. Qed.
Lemma sf_ret {P} {HP : node_errs P} {A} X (a : A) Y : (forall x, In x (Y a) -> In x X) -> sf P X (ret a) Y.
Proof. intros H s Hc Hx. split; [exact Hc|]. split; [apply grows_refl|]. cbn. intros x Hi. apply Hx, H, Hi. Qed.
Lemma sf_raise {P} {HP : node_errs P} {A} X e (Y : A -> list id) : P e -> sf P X (raise e) Y.
Proof. intros H s Hc Hx. split; [exact Hc|]. split; [apply grows_refl|exact H]. Qed.
Lemma sf_bind {P} {HP : node_errs P} {A B} X (m : M A) (k : A -> M B) Y Z : sf P X m Y -> (forall a, sf P (Y a ++ X) (k a) Z) -> sf P X (bind m k) Z.
Proof.
  intros Hm Hk s Hc Hx. specialize (Hm s Hc Hx). unfold bind. destruct (m s) as [s1 [a|e]]; cbn [fst snd] in *; [|exact Hm].
  destruct Hm as (Hc1 & Hg1 & Hy). assert (Hx1 : ex (Y a ++ X) s1).
  { intros x Hi. apply in_app_iff in Hi as [Hi|Hi]; [apply Hy, Hi|apply Hg1, Hx, Hi]. }
  destruct (Hk a s1 Hc1 Hx1) as (Hc2 & Hg2 & Hz). split; [exact Hc2|]. split; [eapply grows_trans; eassumption|exact Hz].
Qed.
Lemma sf_weaken {P} {HP : node_errs P} {A} X (m : M A) Y Y' : sf P X m Y -> (forall a x, In x (Y' a) -> In x (Y a ++ X)) -> sf P X m Y'.
Proof.
  intros H HY s Hc Hx. destruct (H s Hc Hx) as (H1 & H2 & H3). split; [exact H1|]. split; [exact H2|]. destruct (m s).2 as [a|e]; [|exact H3].
  intros x Hi. apply HY in Hi. apply in_app_iff in Hi as [Hi|Hi]; [apply H3, Hi|apply H2, Hx, Hi].
Qed.
Lemma sf_more {P} {HP : node_errs P} {A} X X' (m : M A) Y : sf P X m Y -> (forall x, In x X -> In x X') -> sf P X' m Y.
Proof. intros H HX s Hc Hx. apply H; [exact Hc|]. intros x Hi. apply Hx, HX, Hi. Qed.
Lemma sf_get_node {P} {HP : node_errs P} X i : In i X -> sf P X (get_node i) (fun n => opt_ (n_parent n) ++ kids n).
Proof.
  intros Hi s Hc Hx. destruct (Hx i Hi) as [n Hn]. unfold get_node. rewrite Hn. cbn. split; [exact Hc|]. split; [apply grows_refl|].
  intros x H. destruct (Hc i n Hn) as [H1 H2]. apply in_app_iff in H as [H|H]; [|apply H2, H]. destruct (n_parent n) as [p|]; [|destruct H]. destruct H as [<-|[]]. apply H1. reflexivity.
Qed.
Lemma there_put s i n : all_there s -> is_Some (st_heap s !! i) ->
  (forall p, n_parent n = Some p -> is_Some (st_heap s !! p)) -> (forall c, In c (kids n) -> is_Some (st_heap s !! c)) ->
  all_there (upd s i n) /\ grows s (upd s i n).
Proof.
  intros Hc Hi Hp Hk.
  assert (G : grows s (upd s i n)) by (intros x Hx; rewrite upd_lookup; destruct (decide (i = x)); eauto).
  split; [|exact G]. intros j m Hj. rewrite upd_lookup in Hj. destruct (decide (i = j)) as [->|].
  - injection Hj as <-. split; [intros p E; apply G, Hp, E|intros c E; apply G, Hk, E].
  - destruct (Hc j m Hj) as [H1 H2]. split; [intros p E; apply G, H1, E|intros c E; apply G, H2, E].
Qed.
Lemma sf_mod {P} {HP : node_errs P} X i f : In i X -> (forall n p, n_parent (f n) = Some p -> n_parent n = Some p \/ In p X) ->
  (forall n c, In c (kids (f n)) -> In c (kids n) \/ In c X) -> sf P X (mod_node i f) none_.
Proof.
  intros Hi Hp Hk s Hc Hx. destruct (Hx i Hi) as [n Hn]. unfold mod_node, bind, get_node. rewrite Hn. cbn [fst snd put_node].
  destruct (Hc i n Hn) as [H1 H2].
  destruct (there_put s i (f n) Hc ltac:(eauto)) as [G1 G2].
  - intros p E. destruct (Hp n p E) as [H|H]; [apply H1, H|apply Hx, H].
  - intros c E. destruct (Hk n c E) as [H|H]; [apply H2, H|apply Hx, H].
  - split; [exact G1|]. split; [exact G2|]. intros x [].
Qed.
Lemma sf_new {P} {HP : node_errs P} X c kw : sf P X (new_node c kw) (fun i => [i]).
Proof.
  intros s Hc Hx. change (new_node c kw s) with (new s (mk_node c kw), @Ok id (st_next s)). cbn [fst snd].
  assert (G : grows s (new s (mk_node c kw))) by (intros x Hi; rewrite new_lookup; destruct (decide (st_next s = x)); eauto).
  split; [|split; [exact G|]].
  - intros j m Hj. rewrite new_lookup in Hj. destruct (decide (st_next s = j)) as [E|].
    + injection Hj as <-. split; [intros p Ep; discriminate Ep|intros d Hd; unfold kids, mk_node in Hd; cbn [n_children n_cls] in Hd; destruct (has_children _); destruct Hd].
    + destruct (Hc j m Hj) as [H1 H2]. split; [intros p E; apply G, H1, E|intros d E; apply G, H2, E].
  - intros x [<-|[]]. rewrite new_lookup, decide_True by reflexivity. eauto.
Qed.
Lemma sf_log {P} {HP : node_errs P} X r : sf P X (log_rec r) none_. Proof. intros s Hc Hx. split; [exact Hc|]. split; [intros x H; exact H|]. intros x []. Qed.

Ltac inx := cbn [In app opt_ optp_ none_ fst snd] in *; rewrite ?in_app_iff in *; cbn [In app opt_ optp_ none_ fst snd] in *; first [tauto | solve [repeat match goal with H : _ \/ _ |- _ => destruct H end; subst; tauto]].
Ltac sret := match goal with |- sf _ _ _ ?Y => first [is_evar Y; unify Y (fun _ => @nil id)|idtac] end; apply sf_ret; intros ? ?; inx.

Lemma sf_iterM {P} {HP : node_errs P} {A} X (f : A -> M unit) l : (forall a, In a l -> sf P X (f a) none_) -> sf P X (iterM f l) none_.
Proof.
  intros H. induction l as [|a l IH]; cbn [iterM]; [sret|]. eapply sf_bind; [apply H; left; reflexivity|]. intros u. cbn [app none_].
  apply IH. intros b Hb. apply H. right. exact Hb.
Qed.
Lemma sf_mapM {P} {HP : node_errs P} {A B} X (f : A -> M B) (Y : B -> list id) l : (forall a, In a l -> sf P X (f a) Y) -> sf P X (mapM f l) (flat_map Y).
Proof.
  intros H. induction l as [|a l IH]; cbn [mapM]; [apply sf_ret; intros x []|]. eapply sf_bind; [apply H; left; reflexivity|]. intros b.
  eapply sf_bind; [eapply sf_more; [apply IH; intros c Hc; apply H; right; exact Hc|intros x Hx; apply in_app_iff; auto]|]. intros bs.
  apply sf_ret. intros x Hx. cbn [flat_map] in Hx. inx.
Qed.

Lemma sf_cls_of {P} {HP : node_errs P} X i : In i X -> sf P X (cls_of i) none_.
Proof. intros H. eapply sf_bind; [apply sf_get_node, H|intros n; sret]. Qed.
Lemma sf_getattr {P} {HP : node_errs P} X i a : In i X -> sf P X (getattr i a) none_.
Proof. intros H. eapply sf_bind; [apply sf_get_node, H|intros n]. destruct (_ !! _); [sret|apply sf_raise; err]. Qed.
Lemma sf_get_str {P} {HP : node_errs P} X i a : In i X -> sf P X (get_str i a) none_.
Proof. intros H. eapply sf_bind; [apply sf_getattr, H|intros v]. destruct v; first [sret|apply sf_raise; err]. Qed.
Lemma sf_setattr {P} {HP : node_errs P} X i a v : In i X -> sf P X (setattr i a v) none_.
Proof. intros H. apply sf_mod; [exact H|auto..]. Qed.
Lemma sf_parent_of {P} {HP : node_errs P} X i : In i X -> sf P X (parent_of i) opt_.
Proof. intros H. eapply sf_bind; [apply sf_get_node, H|intros n]. apply sf_ret. intros x Hx. inx. Qed.
Lemma in_kids x n : In x (kids n) -> In x (n_children n). Proof. unfold kids. destruct (has_children _); [auto|intros []]. Qed.
Lemma sf_children_of {P} {HP : node_errs P} X i : In i X -> sf P X (children_of i) (fun l => l).
Proof. intros H. eapply sf_bind; [apply sf_get_node, H|intros n]. apply sf_ret. intros x Hx. inx. Qed.
Lemma sf_raw {P} {HP : node_errs P} X i : In i X -> sf P X (raw_children i) (fun l => l).
Proof. intros H. eapply sf_bind; [apply sf_get_node, H|intros n]. unfold kids. destruct (has_children _); [apply sf_ret; intros x Hx; inx|apply sf_raise; err]. Qed.
Lemma sf_set_raw {P} {HP : node_errs P} X i cs : In i X -> (forall c, In c cs -> In c X) -> sf P X (set_raw_children i cs) none_.
Proof. intros H Hc. apply sf_mod; [exact H|auto|]. intros n c E. right. apply Hc. apply in_kids in E. exact E. Qed.
Lemma sf_set_parent {P} {HP : node_errs P} X i p : In i X -> (forall q, p = Some q -> In q X) -> sf P X (set_parent i p) none_.
Proof.
  intros H Hp. assert (Hm : forall q, (forall r, q = Some r -> In r X) -> sf P X (mod_node i (set_n_parent q)) none_).
  { intros q Hq. apply sf_mod; [exact H| |auto]. intros n r E. right. apply Hq, E. }
  unfold set_parent. destruct p as [q|]; [|apply Hm; discriminate]. specialize (Hp q eq_refl).
  eapply sf_bind; [apply sf_cls_of, H|]. intros c. cbn [app none_]. destruct (possible_parents c) as [|d pp]; [apply Hm; intros r [= <-]; exact Hp|].
  eapply sf_bind; [apply sf_cls_of, Hp|]. intros e. cbn [app none_]. destruct (cls_mem e (d :: pp)); [apply Hm; intros r [= <-]; exact Hp|apply sf_raise; err].
Qed.
Ltac hard := fail.
Ltac leaf := fail.
Ltac side := solve [ inx | intros; inx | hard | intros ? [= <-]; inx | discriminate | exact I ].
Ltac sfs := repeat first [ solve [leaf] | first
  [ sret
  | (apply sf_raise; err)
  | (apply sf_cls_of; side) | (apply sf_getattr; side) | (apply sf_get_str; side) | (apply sf_setattr; side)
  | (apply sf_parent_of; side) | (apply sf_children_of; side) | (apply sf_raw; side) | (apply sf_set_raw; side) | (apply sf_set_parent; side)
  | apply sf_new | apply sf_log
  | match goal with
    | |- sf _ _ (bind _ _) _ => eapply sf_bind; [solve [sfs]|intros ?; cbn [app none_ opt_]]
    | |- sf _ _ (match ?x with _ => _ end) _ => destruct x
    | |- sf _ _ (if ?x then _ else _) _ => destruct x
    | |- sf _ _ (warn _ _) _ => unfold warn
    | |- sf _ _ (info _ _) _ => unfold info
    end ] ].
Lemma sf_append1 {P} {HP : node_errs P} X p c : In p X -> In c X -> sf P X (append1 p c) none_.
Proof. intros Hp Hc. unfold append1. sfs. Qed.
Lemma sf_append {P} {HP : node_errs P} X p cs : In p X -> (forall c, In c cs -> In c X) -> sf P X (append p cs) none_.
Proof. intros Hp Hc. unfold append. apply sf_iterM. intros c H. apply sf_append1; auto. Qed.
Lemma sf_prepend {P} {HP : node_errs P} X p cs : In p X -> (forall c, In c cs -> In c X) -> sf P X (prepend p cs) none_.
Proof. intros Hp Hc. unfold prepend. apply sf_iterM. intros c H. apply in_rev in H. specialize (Hc c H). unfold prepend1. sfs. Qed.
Lemma in_firstn {A} k (l : list A) x : In x (take k l) -> In x l.
Proof. intros H. rewrite <- (take_drop k l). apply in_app_iff. left. exact H. Qed.
Lemma in_skipn {A} k (l : list A) x : In x (drop k l) -> In x l.
Proof. intros H. rewrite <- (take_drop k l). apply in_app_iff. right. exact H. Qed.
Lemma in_delete x k l : In x (delete_at k l) -> In x l.
Proof. unfold delete_at. rewrite in_app_iff. intros [H|H]; [eapply in_firstn, H|eapply in_skipn, H]. Qed.
Lemma in_insert x k y l : In x (insert_at k y l) -> x = y \/ In x l.
Proof.
  unfold insert_at. rewrite in_app_iff. intros [H|[H|H]]; [right; eapply in_firstn, H|left; symmetry; exact H|right; eapply in_skipn, H].
Qed.
Ltac hard ::= let H := fresh in intros ? H; first [apply in_delete in H | apply in_insert in H]; inx.
Lemma sf_remove {P} {HP : node_errs P} X p c : In p X -> In c X -> sf P X (remove p c) none_.
Proof.
  intros Hp Hc. unfold remove. sfs.
Qed.
Ltac leaf ::= apply sf_remove; inx.
Lemma sf_remove_self {P} {HP : node_errs P} X i : In i X -> sf P X (remove_self i) none_.
Proof. intros H. unfold remove_self. sfs. Qed.
Lemma sf_insert_all {P} {HP : node_errs P} X p reps : In p X -> (forall c, In c reps -> In c X) -> forall k, sf P X (insert_all p k reps) none_.
Proof.
  intros Hp. induction reps as [|r reps IH]; intros Hr k; cbn [insert_all]; [sret|].
  assert (Hr0 : In r X) by (apply Hr; left; reflexivity).
  eapply sf_bind; [apply sf_raw, Hp|intros cs]. eapply sf_bind; [apply sf_set_raw; [inx|]|intros u; cbn [app none_]].
  { intros x Hx. apply in_insert in Hx as [->|Hx]; inx. }
  eapply sf_bind; [apply sf_set_parent; side|intros u2; cbn [app none_]]. eapply sf_more; [apply IH; intros c Hc; apply Hr; right; exact Hc|]. intros x Hx. inx.
Qed.
Lemma sf_replace {P} {HP : node_errs P} X i reps : In i X -> (forall c, In c reps -> In c X) -> sf P X (replace_self i reps) none_.
Proof.
  intros H Hr. unfold replace_self. sfs. apply sf_insert_all; [inx|]. intros c Hc. specialize (Hr c Hc). inx.
Qed.
Lemma sf_inst {P} {HP : node_errs P} X ds i : In i X -> sf P X (inst ds i) none_. Proof. intros H. unfold inst. sfs. Qed.
Lemma sf_first_go {P} {HP : node_errs P} X ds l : (forall c, In c l -> In c X) -> forall k, sf P X (first_of_type_go ds l k) optp_.
Proof.
  induction l as [|c l IH]; intros Hl k; cbn [first_of_type_go]; [sret|]. assert (Hc : In c X) by (apply Hl; left; reflexivity).
  eapply sf_bind; [apply sf_inst, Hc|]. intros b. cbn [app none_]. destruct b; [apply sf_ret; cbn [optp_]; intros x Hx; inx|]. apply IH. intros d Hd. apply Hl. right. exact Hd.
Qed.
Lemma sf_first_of {P} {HP : node_errs P} X i ds : In i X -> sf P X (first_of_type i ds) optp_.
Proof. intros H. unfold first_of_type. eapply sf_bind; [apply sf_children_of, H|]. intros cs. apply sf_first_go. intros c Hc. inx. Qed.
Lemma sf_last_of {P} {HP : node_errs P} X i ds : In i X -> sf P X (last_of_type i ds) optp_.
Proof.
  intros H. unfold last_of_type. eapply sf_bind; [apply sf_children_of, H|]. intros cs. eapply sf_bind; [apply sf_first_go; intros c Hc; apply in_rev in Hc; inx|].
  intros [[c k]|]; apply sf_ret; cbn [optp_]; intros x Hx; inx.
Qed.
Lemma sf_prev_any {P} {HP : node_errs P} X i : In i X -> sf P X (prev_sibling i SibAny) none_. Proof. intros H. unfold prev_sibling. sfs. Qed.
Lemma sf_next_any {P} {HP : node_errs P} X i : In i X -> sf P X (next_sibling i SibAny) opt_.
Proof. intros H. unfold next_sibling. sfs. apply sf_ret. intros x Hx. destruct (nth_error _ _) eqn:E; [|destruct Hx]. destruct Hx as [<-|[]]. apply nth_error_In in E. inx. Qed.
Lemma sf_lift {P} {HP : node_errs P} {A} X (r : res A) : (forall e, r = Err e -> P e) -> sf P X (lift r) none_.
Proof. intros H. unfold lift. destruct r; [sret|]. apply sf_raise, H. reflexivity. Qed.


Lemma good_there s : good s -> all_there s.
Proof.
  intros [_ [H1 _ _]] i n Hn. split.
  - intros p Hp. destruct (proj2 (H1 i p)) as (np & Hnp & _); [exists n; auto|]. eauto.
  - intros c Hc. destruct (proj1 (H1 c i)) as (nc & Hnc & _); [exists n; split; [assumption|apply elem_of_list_In; assumption]|]. eauto.
Qed.
