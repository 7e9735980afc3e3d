(** Running a method in a memory which holds other nodes, too: the other nodes stay as they are,
    and the method does the same to its own nodes, whose identities are larger by a constant. *)
From Verif Require Export NodeOps.
Local Open Scope list_scope.

(** [sb_k]: by how much identities are larger; [sb_old], [sb_logs]: what is there already. *)
Record shiftby := MkShift { sb_k : nat; sb_old : gmap id node; sb_logs : list logrec; sb_ok : forall j, sb_k <= j -> sb_old !! j = None }.

Section Shift.
Context (b : shiftby).
Definition sh (i : id) : id := sb_k b + i.
Global Instance sh_inj : Inj (=) (=) sh.
Proof. intros x y. unfold sh. lia. Qed.
Definition sh_val (v : val) : val :=
  match v with VNode i => VNode (sh i) | VNodes l => VNodes (map sh l) | _ => v end.
Definition sh_node (n : node) : node := MkNode (n_cls n) (option_map sh (n_parent n)) (map sh (n_children n)) (sh_val <$> n_attrs n).
Definition sh_heap (h : gmap id node) : gmap id node := sb_old b ∪ kmap sh (sh_node <$> h).
Definition sh_st (s : st) : st := MkSt (sh_heap (st_heap s)) (sh (st_next s)) (sb_logs b ++ st_logs s).
Definition rmap {A B} (f : A -> B) (r : res A) : res B := match r with Ok a => Ok (f a) | Err e => Err e end.
Notation same := (fun x => x) (only parsing).
(** Identities are given out in order. *)
Definition numbered (s : st) : Prop := forall i n, st_heap s !! i = Some n -> i < st_next s.
Definition moves {A B} (f : A -> B) (m : M A) (m' : M B) : Prop := forall s, m' (sh_st s) = (sh_st (fst (m s)), rmap f (snd (m s))) /\ (numbered s -> numbered (fst (m s))).

Lemma old_none i : sb_old b !! sh i = None.
Proof. apply sb_ok. unfold sh. lia. Qed.
Lemma sh_lookup h i : sh_heap h !! sh i = sh_node <$> h !! i.
Proof. unfold sh_heap. rewrite lookup_union_r by apply old_none. rewrite lookup_kmap by apply sh_inj. apply lookup_fmap. Qed.
Lemma sh_insert h i n : sh_heap (<[i := n]> h) = <[sh i := sh_node n]> (sh_heap h).
Proof. unfold sh_heap. rewrite fmap_insert, kmap_insert by apply sh_inj. symmetry. apply insert_union_r, old_none. Qed.
Lemma truthy_sh v : truthy (sh_val v) = truthy v.
Proof. destruct v; try reflexivity. destruct l; reflexivity. Qed.
Lemma fmt_sh v : fmt_val (sh_val v) = fmt_val v.
Proof. destruct v; reflexivity. Qed.
Lemma eqb_sh i j : Nat.eqb (sh i) (sh j) = Nat.eqb i j.
Proof. destruct (Nat.eqb_spec i j) as [->|H]; [apply Nat.eqb_refl|]. apply Nat.eqb_neq. intros E. apply H, (inj sh), E. Qed.
Lemma kids_sh n : kids (sh_node n) = map sh (kids n).
Proof. unfold kids, sh_node. cbn [n_cls n_children]. destruct (has_children (n_cls n)); reflexivity. Qed.

Lemma moves_ret {A B} (f : A -> B) a a' : a' = f a -> moves f (ret a) (ret a').
Proof. intros -> s. split; [reflexivity|auto]. Qed.
Lemma moves_raise {A B} (f : A -> B) e : moves f (raise e) (raise e).
Proof. intros s. split; [reflexivity|auto]. Qed.
Lemma moves_bind {A B C D} (f : A -> B) (g : C -> D) m m' k k' : moves f m m' -> (forall a, moves g (k a) (k' (f a))) -> moves g (bind m k) (bind m' k').
Proof.
  intros H1 H2 s. unfold bind. destruct (H1 s) as [-> N1]. destruct (m s) as [s1 [a|e]]; cbn [fst snd rmap] in *; [|split; [reflexivity|exact N1]].
  destruct (H2 a s1) as [-> N2]. split; [reflexivity|]. intros H. apply N2, N1, H.
Qed.
Lemma moves_if {A B} (f : A -> B) (c : bool) m1 m2 m1' m2' : moves f m1 m1' -> moves f m2 m2' -> moves f (if c then m1 else m2) (if c then m1' else m2').
Proof. destruct c; auto. Qed.
Lemma moves_catch {A B} (f : A -> B) m m' h h' : moves f m m' -> (forall e, match h e, h' e with Some x, Some x' => moves f x x' | None, None => True | _, _ => False end) -> moves f (catch m h) (catch m' h').
Proof.
  intros H1 H2 s. unfold catch. destruct (H1 s) as [-> N1]. destruct (m s) as [s1 [a|e]]; cbn [fst snd rmap] in *; [split; [reflexivity|exact N1]|]. specialize (H2 e).
  destruct (h e), (h' e); try (exfalso; exact H2); [|split; [reflexivity|exact N1]]. destruct (H2 s1) as [-> N2]. split; [reflexivity|]. intros H. apply N2, N1, H.
Qed.
Lemma moves_mapM {A B C D} (p : A -> C) (f : B -> D) g g' l : (forall x, moves f (g x) (g' (p x))) -> moves (map f) (mapM g l) (mapM g' (map p l)).
Proof.
  intros H. induction l as [|x l IH]; cbn [mapM map]; [apply moves_ret; reflexivity|]. eapply moves_bind; [apply H|]. intros a.
  eapply moves_bind; [exact IH|]. intros bs. apply moves_ret. reflexivity.
Qed.
Lemma moves_iterM {A C} (p : A -> C) g g' l : (forall x, moves same (g x) (g' (p x))) -> moves same (iterM g l) (iterM g' (map p l)).
Proof. intros H. induction l as [|x l IH]; cbn [iterM map]; [apply moves_ret; reflexivity|]. eapply moves_bind; [apply H|]. intros a. exact IH. Qed.
Lemma moves_iterM' {A} (g g' : A -> M unit) l : (forall x, moves same (g x) (g' x)) -> moves same (iterM g l) (iterM g' l).
Proof. intros H. induction l as [|x l IH]; cbn [iterM]; [apply moves_ret; reflexivity|]. eapply moves_bind; [apply H|]. intros a. exact IH. Qed.
Lemma moves_mapM' {A B D} (f : B -> D) (g : A -> M B) g' l : (forall x, moves f (g x) (g' x)) -> moves (map f) (mapM g l) (mapM g' l).
Proof.
  intros H. induction l as [|x l IH]; cbn [mapM map]; [apply moves_ret; reflexivity|]. eapply moves_bind; [apply H|]. intros a.
  eapply moves_bind; [exact IH|]. intros bs. apply moves_ret. reflexivity.
Qed.
Lemma moves_get_node i : moves sh_node (get_node i) (get_node (sh i)).
Proof. intros s. unfold get_node. cbn [sh_st st_heap]. rewrite sh_lookup. destruct (st_heap s !! i); (split; [reflexivity|auto]). Qed.
Lemma moves_mod_node i f f' : (forall n, f' (sh_node n) = sh_node (f n)) -> moves same (mod_node i f) (mod_node (sh i) f').
Proof.
  intros H s. unfold mod_node, bind, get_node, put_node. cbn [sh_st st_heap]. rewrite sh_lookup. destruct (st_heap s !! i) as [n|] eqn:E; cbn [fmap option_fmap option_map fst snd rmap]; [|split; [reflexivity|auto]]. split.
  - unfold sh_st. cbn [st_heap st_next st_logs]. rewrite sh_insert, H. reflexivity.
  - intros N j m. cbn [st_heap st_next]. destruct (decide (i = j)) as [<-|Hj]; [intros _; exact (N _ _ E)|]. rewrite lookup_insert_ne by exact Hj. apply N.
Qed.
Lemma moves_alloc n n' : n' = sh_node n -> moves sh (alloc n) (alloc n').
Proof.
  intros -> s. unfold alloc. cbn. split; [unfold sh_st; cbn; rewrite sh_insert; unfold sh; rewrite Nat.add_succ_r; reflexivity|].
  intros N j m. cbn [st_heap st_next]. destruct (decide (st_next s = j)) as [<-|Hj]; [intros _; lia|]. rewrite lookup_insert_ne by exact Hj. intros E. specialize (N _ _ E). lia.
Qed.
Lemma moves_log r : moves same (log_rec r) (log_rec r).
Proof. intros s. unfold log_rec, sh_st. cbn. rewrite app_assoc. split; [reflexivity|auto]. Qed.
Lemma moves_warn a c : moves same (warn a c) (warn a c).
Proof. apply moves_log. Qed.
Lemma moves_info a c : moves same (info a c) (info a c).
Proof. apply moves_log. Qed.
Lemma moves_getattr i a : moves sh_val (getattr i a) (getattr (sh i) a).
Proof.
  unfold getattr. eapply moves_bind; [apply moves_get_node|]. intros n. cbn [sh_node n_attrs]. rewrite lookup_fmap.
  destruct (n_attrs n !! a); [apply moves_ret; reflexivity|apply moves_raise].
Qed.
Lemma moves_setattr i a v v' : v' = sh_val v -> moves same (setattr i a v) (setattr (sh i) a v').
Proof. intros ->. apply moves_mod_node. intros n. unfold set_n_attr, sh_node. cbn. rewrite fmap_insert. reflexivity. Qed.
Lemma moves_cls_of i : moves same (cls_of i) (cls_of (sh i)).
Proof. eapply moves_bind; [apply moves_get_node|]. intros n. apply moves_ret. reflexivity. Qed.
Lemma moves_children_of i : moves (map sh) (children_of i) (children_of (sh i)).
Proof. eapply moves_bind; [apply moves_get_node|]. intros n. apply moves_ret, kids_sh. Qed.
Lemma moves_parent_of i : moves (option_map sh) (parent_of i) (parent_of (sh i)).
Proof. eapply moves_bind; [apply moves_get_node|]. intros n. apply moves_ret. reflexivity. Qed.
Lemma moves_get_str i a : moves same (get_str i a) (get_str (sh i) a).
Proof. eapply moves_bind; [apply moves_getattr|]. intros []; cbn [sh_val]; (apply moves_ret; reflexivity) || apply moves_raise. Qed.
Lemma moves_get_strs i a : moves same (get_strs i a) (get_strs (sh i) a).
Proof. eapply moves_bind; [apply moves_getattr|]. intros []; cbn [sh_val]; (apply moves_ret; reflexivity) || apply moves_raise. Qed.
Lemma moves_get_int i a : moves same (get_int i a) (get_int (sh i) a).
Proof. eapply moves_bind; [apply moves_getattr|]. intros []; cbn [sh_val]; (apply moves_ret; reflexivity) || apply moves_raise. Qed.

(** ** Construction *)
Definition sh_kw (kw : list (attr * val)) : list (attr * val) := map (fun p => (p.1, sh_val p.2)) kw.
Lemma mk_attrs_sh c kw : mk_attrs c (sh_kw kw) = sh_val <$> mk_attrs c kw.
Proof.
  unfold mk_attrs. assert (G : forall l m m', m' = sh_val <$> m -> fold_left (fun m p => <[p.1 := p.2]> m) (sh_kw l) m' = sh_val <$> fold_left (fun (m : gmap attr val) p => <[p.1 := p.2]> m) l m).
  { induction l as [|[x v] l IH]; intros m m' ->; [reflexivity|]. cbn [sh_kw map fold_left fst snd]. apply IH. rewrite fmap_insert. reflexivity. }
  rewrite !fold_left_app. rewrite <- (G kw _ _ eq_refl). f_equal. rewrite <- (G (default_attrs c) ∅ ∅); [|symmetry; apply fmap_empty]. f_equal.
  destruct c; reflexivity.
Qed.
Lemma moves_new_node c kw kw' : kw' = sh_kw kw -> moves sh (new_node c kw) (new_node c kw').
Proof. intros ->. apply moves_alloc. unfold mk_node, sh_node. cbn [n_cls n_parent n_children n_attrs option_map map]. f_equal. apply mk_attrs_sh. Qed.
End Shift.
Notation same := (fun x => x) (only parsing).
Arguments moves b {A B} f m m'.

Create HintDb mv discriminated.
#[export] Hint Resolve moves_raise moves_get_node moves_log moves_warn moves_info moves_getattr moves_cls_of moves_children_of moves_parent_of moves_get_str moves_get_strs moves_get_int : mv.
(** One step of the proof that a method moves. *)
Ltac mv_norm := cbn [option_map map sh_val fst snd sh_kw] in *; rewrite ?truthy_sh, ?fmt_sh, ?eqb_sh.
Ltac mv1 :=
  lazymatch goal with
  | |- moves _ _ (bind _ _) (bind _ _) => eapply moves_bind; [|intro; cbn beta; cbv zeta; mv_norm]
  | |- moves _ _ (ret _) (ret _) => solve [apply moves_ret; reflexivity]
  | |- moves _ _ (raise _) (raise _) => apply moves_raise
  | |- moves _ _ (setattr _ _ _) (setattr _ _ _) => apply moves_setattr; try reflexivity
  | |- moves _ _ (new_node _ _) (new_node _ _) => apply moves_new_node; try reflexivity
  | |- moves _ _ (mod_node _ _) (mod_node _ _) => apply moves_mod_node; try (intros; reflexivity)
  | |- moves _ _ (if ?c then _ else _) (if ?c then _ else _) => apply moves_if
  | |- _ => solve [eauto 2 with mv]
  end.
