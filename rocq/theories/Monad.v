(** Inversion of successful runs of the model's computations. *)
From Verif Require Export NodeOps.
Global Arguments set_parent : simpl never.

Lemma bind_ok {A B} (m : M A) (k : A -> M B) s s' b :
  bind m k s = (s', Ok b) -> exists s1 a, m s = (s1, Ok a) /\ k a s1 = (s', Ok b).
Proof. unfold bind. destruct (m s) as [s1 [a|e]]; [eauto|discriminate]. Qed.
Lemma bind_eq {A B} (m : M A) (k : A -> M B) s s1 a :
  m s = (s1, Ok a) -> bind m k s = k a s1.
Proof. unfold bind. intros ->. reflexivity. Qed.
Lemma bind_err {A B} (m : M A) (k : A -> M B) s s' e :
  bind m k s = (s', Err e) ->
  m s = (s', Err e) \/ exists s1 a, m s = (s1, Ok a) /\ k a s1 = (s', Err e).
Proof.
  unfold bind. destruct (m s) as [s1 [a|e']]; [eauto|].
  intros H. left. congruence.
Qed.
Lemma ret_ok {A} (a b : A) s s' : ret a s = (s', Ok b) -> s' = s /\ b = a.
Proof. unfold ret. intros [= -> ->]. auto. Qed.
Lemma ret_err {A} (a : A) s s' e : ret a s = (s', Err e) -> False.
Proof. discriminate. Qed.
Lemma raise_ok {A} e s s' (b : A) : raise e s = (s', Ok b) -> False.
Proof. discriminate. Qed.
Lemma get_node_ok i s s' n : get_node i s = (s', Ok n) -> s' = s /\ st_heap s !! i = Some n.
Proof. unfold get_node. destruct (st_heap s !! i) eqn:E; intros [= <- <-]. auto. Qed.
Lemma get_node_eq i s n : st_heap s !! i = Some n -> get_node i s = (s, Ok n).
Proof. unfold get_node. intros ->. reflexivity. Qed.
Definition upd (s : st) (i : id) (n : node) : st :=
  MkSt (<[i := n]> (st_heap s)) (st_next s) (st_logs s).
Lemma put_node_ok i n s s' u : put_node i n s = (s', Ok u) -> s' = upd s i n.
Proof. unfold put_node. intros [= <-]. reflexivity. Qed.
Lemma mod_node_ok i f s s' u :
  mod_node i f s = (s', Ok u) -> exists n, st_heap s !! i = Some n /\ s' = upd s i (f n).
Proof.
  unfold mod_node. intros H. apply bind_ok in H as (s1 & n & H & H').
  apply get_node_ok in H as [-> H]. apply put_node_ok in H'. eauto.
Qed.
Lemma mod_node_eq i f s n :
  st_heap s !! i = Some n -> mod_node i f s = (upd s i (f n), Ok tt).
Proof. unfold mod_node, bind. intros H. rewrite (get_node_eq _ _ _ H). reflexivity. Qed.
Definition new (s : st) (n : node) : st :=
  MkSt (<[st_next s := n]> (st_heap s)) (S (st_next s)) (st_logs s).
Lemma alloc_ok n s s' i : alloc n s = (s', Ok i) -> i = st_next s /\ s' = new s n.
Proof. unfold alloc. intros [= <- <-]. auto. Qed.
Lemma new_node_ok c kw s s' i : new_node c kw s = (s', Ok i) -> i = st_next s /\ s' = new s (mk_node c kw).
Proof. apply alloc_ok. Qed.
Definition logged (s : st) (r : logrec) : st := MkSt (st_heap s) (st_next s) (st_logs s ++ [r]).
Lemma log_rec_ok r s s' u : log_rec r s = (s', Ok u) -> s' = logged s r.
Proof. unfold log_rec. intros [= <-]. reflexivity. Qed.
Lemma warn_ok nm m s s' u : warn nm m s = (s', Ok u) -> s' = logged s (MkLog nm WARNING m None).
Proof. apply log_rec_ok. Qed.
Lemma info_ok nm m s s' u : info nm m s = (s', Ok u) -> s' = logged s (MkLog nm INFO m None).
Proof. apply log_rec_ok. Qed.
Lemma getattr_ok i a s s' v :
  getattr i a s = (s', Ok v) ->
  s' = s /\ exists n, st_heap s !! i = Some n /\ n_attrs n !! a = Some v.
Proof.
  unfold getattr. intros H. apply bind_ok in H as (s1 & n & H & H').
  apply get_node_ok in H as [-> H]. destruct (n_attrs n !! a) eqn:E; [|discriminate].
  apply ret_ok in H' as [-> ->]. eauto.
Qed.
Lemma setattr_ok i a v s s' u :
  setattr i a v s = (s', Ok u) ->
  exists n, st_heap s !! i = Some n /\ s' = upd s i (set_n_attr a v n).
Proof. apply mod_node_ok. Qed.
Lemma cls_of_ok i s s' c :
  cls_of i s = (s', Ok c) -> s' = s /\ exists n, st_heap s !! i = Some n /\ c = n_cls n.
Proof.
  unfold cls_of. intros H. apply bind_ok in H as (s1 & n & H & H').
  apply get_node_ok in H as [-> H]. apply ret_ok in H' as [-> ->]. eauto.
Qed.
Lemma children_of_ok i s s' cs :
  children_of i s = (s', Ok cs) -> s' = s /\ exists n, st_heap s !! i = Some n /\ cs = kids n.
Proof.
  unfold children_of. intros H. apply bind_ok in H as (s1 & n & H & H').
  apply get_node_ok in H as [-> H]. apply ret_ok in H' as [-> ->]. eauto.
Qed.
Lemma parent_of_ok i s s' p :
  parent_of i s = (s', Ok p) -> s' = s /\ exists n, st_heap s !! i = Some n /\ p = n_parent n.
Proof.
  unfold parent_of. intros H. apply bind_ok in H as (s1 & n & H & H').
  apply get_node_ok in H as [-> H]. apply ret_ok in H' as [-> ->]. eauto.
Qed.
Lemma get_str_ok i a s s' x :
  get_str i a s = (s', Ok x) ->
  s' = s /\ exists n, st_heap s !! i = Some n /\ n_attrs n !! a = Some (VStr x).
Proof.
  unfold get_str. intros H. apply bind_ok in H as (s1 & v & H & H').
  apply getattr_ok in H as (-> & n & H1 & H2). destruct v; try discriminate.
  apply ret_ok in H' as [-> ->]. eauto.
Qed.
Lemma get_strs_ok i a s s' x :
  get_strs i a s = (s', Ok x) ->
  s' = s /\ exists n, st_heap s !! i = Some n /\ n_attrs n !! a = Some (VStrs x).
Proof.
  unfold get_strs. intros H. apply bind_ok in H as (s1 & v & H & H').
  apply getattr_ok in H as (-> & n & H1 & H2). destruct v; try discriminate.
  apply ret_ok in H' as [-> ->]. eauto.
Qed.
Lemma get_int_ok i a s s' x :
  get_int i a s = (s', Ok x) ->
  s' = s /\ exists n, st_heap s !! i = Some n /\ n_attrs n !! a = Some (VInt x).
Proof.
  unfold get_int. intros H. apply bind_ok in H as (s1 & v & H & H').
  apply getattr_ok in H as (-> & n & H1 & H2). destruct v; try discriminate.
  apply ret_ok in H' as [-> ->]. eauto.
Qed.
Lemma raw_children_ok i s s' cs :
  raw_children i s = (s', Ok cs) ->
  s' = s /\ exists n, st_heap s !! i = Some n /\ has_children (n_cls n) = true /\ cs = n_children n.
Proof.
  unfold raw_children. intros H. apply bind_ok in H as (s1 & n & H & H').
  apply get_node_ok in H as [-> H]. destruct (has_children (n_cls n)) eqn:E; [|discriminate].
  apply ret_ok in H' as [-> ->]. eauto 6.
Qed.
Lemma set_raw_children_ok i cs s s' u :
  set_raw_children i cs s = (s', Ok u) ->
  exists n, st_heap s !! i = Some n /\ s' = upd s i (set_n_children cs n).
Proof. apply mod_node_ok. Qed.
Lemma inst_ok ds i s s' b :
  inst ds i s = (s', Ok b) ->
  s' = s /\ exists n, st_heap s !! i = Some n /\ b = subclass_any (n_cls n) ds.
Proof.
  unfold inst. intros H. apply bind_ok in H as (s1 & c & H & H').
  apply cls_of_ok in H as (-> & n & H & ->). apply ret_ok in H' as [-> ->]. eauto.
Qed.

(** Invert one step of a successful run found among the hypotheses. *)
Ltac mstep1 :=
  match goal with
  | H : ret _ _ = (_, Ok _) |- _ => apply ret_ok in H as [? ?]; subst
  | H : ret _ _ = (_, Err _) |- _ => destruct (ret_err _ _ _ _ H)
  | H : raise _ _ = (_, Ok _) |- _ => destruct (raise_ok _ _ _ _ H)
  | H : get_node _ _ = (_, Ok _) |- _ => apply get_node_ok in H as [? H]; subst
  | H : put_node _ _ _ = (_, Ok _) |- _ => apply put_node_ok in H; subst
  | H : mod_node _ _ _ = (_, Ok _) |- _ =>
      let n := fresh "n" in apply mod_node_ok in H as (n & H & ?); subst
  | H : new_node _ _ _ = (_, Ok _) |- _ => apply new_node_ok in H as [? ?]; subst
  | H : warn _ _ _ = (_, Ok _) |- _ => apply warn_ok in H; subst
  | H : info _ _ _ = (_, Ok _) |- _ => apply info_ok in H; subst
  | H : getattr _ _ _ = (_, Ok _) |- _ =>
      let n := fresh "n" in let H2 := fresh H in apply getattr_ok in H as (? & n & H2 & H); subst
  | H : setattr _ _ _ _ = (_, Ok _) |- _ =>
      let n := fresh "n" in apply setattr_ok in H as (n & H & ?); subst
  | H : cls_of _ _ = (_, Ok _) |- _ =>
      let n := fresh "n" in apply cls_of_ok in H as (? & n & H & ?); subst
  | H : children_of _ _ = (_, Ok _) |- _ =>
      let n := fresh "n" in apply children_of_ok in H as (? & n & H & ?); subst
  | H : parent_of _ _ = (_, Ok _) |- _ =>
      let n := fresh "n" in apply parent_of_ok in H as (? & n & H & ?); subst
  | H : get_str _ _ _ = (_, Ok _) |- _ =>
      let n := fresh "n" in let H2 := fresh H in apply get_str_ok in H as (? & n & H2 & H); subst
  | H : get_strs _ _ _ = (_, Ok _) |- _ =>
      let n := fresh "n" in let H2 := fresh H in apply get_strs_ok in H as (? & n & H2 & H); subst
  | H : get_int _ _ _ = (_, Ok _) |- _ =>
      let n := fresh "n" in let H2 := fresh H in apply get_int_ok in H as (? & n & H2 & H); subst
  | H : raw_children _ _ = (_, Ok _) |- _ =>
      let n := fresh "n" in let H2 := fresh H in
      apply raw_children_ok in H as (? & n & H & H2 & ?); subst
  | H : set_raw_children _ _ _ = (_, Ok _) |- _ =>
      let n := fresh "n" in apply set_raw_children_ok in H as (n & H & ?); subst
  | H : inst _ _ _ = (_, Ok _) |- _ =>
      let n := fresh "n" in apply inst_ok in H as (? & n & H & ?); subst
  | H : bind _ _ _ = (_, Ok _) |- _ =>
      let s := fresh "s" in let a := fresh "a" in let H1 := fresh H in
      apply bind_ok in H as (s & a & H1 & H)
  end.
Ltac msteps := repeat mstep1.
(** [grab (remove _ _ _ = _) as H] names the hypothesis of that shape. *)
Tactic Notation "grab" open_constr(pat) "as" ident(H) :=
  match goal with X : ?t |- _ => unify t pat; rename X into H end.

Lemma upd_lookup s i n j :
  st_heap (upd s i n) !! j = if decide (i = j) then Some n else st_heap s !! j.
Proof.
  unfold upd; simpl. destruct (decide (i = j)) as [->|].
  - apply lookup_insert.
  - apply lookup_insert_ne. assumption.
Qed.
Lemma new_lookup s n j :
  st_heap (new s n) !! j = if decide (st_next s = j) then Some n else st_heap s !! j.
Proof.
  unfold new; simpl. destruct (decide (st_next s = j)) as [->|].
  - apply lookup_insert.
  - apply lookup_insert_ne. assumption.
Qed.
