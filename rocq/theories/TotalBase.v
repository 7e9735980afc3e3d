(** Runs that return: no exception, given enough fuel. *)
From Verif Require Export Fuel TransformTyped.
From Verif Require Import Traverse TocLoop NodeOps Monad.
Local Open Scope list_scope.

Definition ends {A} (m : M A) (s : st) (Q : A -> st -> Prop) : Prop := exists s' a, m s = (s', Ok a) /\ Q a s'.
Lemma ends_ret {A} (a : A) s (Q : A -> st -> Prop) : Q a s -> ends (ret a) s Q.
Proof. intros H. exists s, a. auto. Qed.
Lemma ends_bind {A B} (m : M A) (k : A -> M B) s (R : A -> st -> Prop) Q :
  ends m s R -> (forall a s', m s = (s', Ok a) -> R a s' -> ends (k a) s' Q) -> ends (bind m k) s Q.
Proof.
  intros (s1 & a & E & HR) H. destruct (H a s1 E HR) as (s2 & b & E2 & HQ). exists s2, b. split; [|exact HQ].
  unfold bind. rewrite E. exact E2.
Qed.
Lemma ends_imp {A} (m : M A) s (Q Q' : A -> st -> Prop) : ends m s Q -> (forall a s', m s = (s', Ok a) -> Q a s' -> Q' a s') -> ends m s Q'.
Proof. intros (s' & a & E & H) I. exists s', a. auto. Qed.
(** It returns, or it raises [e] and [P] holds. *)
Definition gives {A} (P : Prop) (e : exn) (m : M A) (s : st) (Q : A -> st -> Prop) : Prop :=
  ends m s Q \/ (P /\ exists s', m s = (s', Err e)).
Lemma gives_run {A B} P e (m : M A) (k : A -> M B) s s1 a Q : m s = (s1, Ok a) -> gives P e (k a) s1 Q -> gives P e (bind m k) s Q.
Proof.
  intros E [(s2 & b & E2 & H)|[HP (s2 & E2)]]; [left; exists s2, b; split; [|exact H]|right; split; [exact HP|]; exists s2]; unfold bind; rewrite E; exact E2.
Qed.
Lemma gives_bind {A B} P e (m : M A) (k : A -> M B) s (R : A -> st -> Prop) Q :
  ends m s R -> (forall a s', m s = (s', Ok a) -> R a s' -> gives P e (k a) s' Q) -> gives P e (bind m k) s Q.
Proof. intros (s1 & a & E & HR) H. eapply gives_run; [exact E|]. apply H; assumption. Qed.
Lemma gives_imp {A} P e (m : M A) s (Q Q' : A -> st -> Prop) : gives P e m s Q -> (forall a s', m s = (s', Ok a) -> Q a s' -> Q' a s') -> gives P e m s Q'.
Proof. intros [H|H] I; [left; eapply ends_imp; eassumption|right; exact H]. Qed.
Lemma ends_get_node i s n (Q : node -> st -> Prop) : st_heap s !! i = Some n -> Q n s -> ends (get_node i) s Q.
Proof. intros H HQ. exists s, n. unfold get_node. rewrite H. auto. Qed.
Lemma ends_cls_of i s n (Q : cls -> st -> Prop) : st_heap s !! i = Some n -> Q (n_cls n) s -> ends (cls_of i) s Q.
Proof. intros H HQ. exists s, (n_cls n). unfold cls_of, bind, get_node. rewrite H. auto. Qed.
Lemma ends_children i s n (Q : list id -> st -> Prop) : st_heap s !! i = Some n -> Q (kids n) s -> ends (children_of i) s Q.
Proof. intros H HQ. exists s, (kids n). unfold children_of, bind, get_node. rewrite H. auto. Qed.
Lemma ends_parent i s n (Q : option id -> st -> Prop) : st_heap s !! i = Some n -> Q (n_parent n) s -> ends (parent_of i) s Q.
Proof. intros H HQ. exists s, (n_parent n). unfold parent_of, bind, get_node. rewrite H. auto. Qed.
Lemma ends_inst ds i s n (Q : bool -> st -> Prop) : st_heap s !! i = Some n -> Q (subclass_any (n_cls n) ds) s -> ends (inst ds i) s Q.
Proof. intros H HQ. exists s, (subclass_any (n_cls n) ds). unfold inst, cls_of, bind, get_node. rewrite H. auto. Qed.
Lemma ends_value i a s v (Q : val -> st -> Prop) : value (st_heap s) i a = Some v -> Q v s -> ends (getattr i a) s Q.
Proof.
  unfold value. intros H HQ. destruct (st_heap s !! i) as [n|] eqn:E; [|discriminate]. exists s, v. split; [|exact HQ].
  unfold getattr, bind, get_node. rewrite E, H. reflexivity.
Qed.
(** Attributes that the constructor sets are there, with values of their types. *)
Lemma has_attr s i n a : TI s -> st_heap s !! i = Some n -> In a (map fst (default_attrs (n_cls n))) ->
  exists v, value (st_heap s) i a = Some v /\ attr_shape a v = true /\ forall y, y ∈ nodes_in v -> is_Some (st_heap s !! y).
Proof.
  intros [Ht Hc] H Hin. destruct (Hc i n a H Hin) as [v Hv]. exists v. split; [unfold value; rewrite H; exact Hv|]. apply (Ht i n a v H Hv).
Qed.
Lemma ends_getattr i a s n (Q : val -> st -> Prop) : TI s -> st_heap s !! i = Some n -> In a (map fst (default_attrs (n_cls n))) ->
  (forall v, value (st_heap s) i a = Some v -> attr_shape a v = true -> Q v s) -> ends (getattr i a) s Q.
Proof. intros HT H Hin HQ. destruct (has_attr s i n a HT H Hin) as (v & Hv & Hs & _). eapply ends_value; eauto. Qed.
Lemma ends_get_str i a s n (Q : str -> st -> Prop) : TI s -> st_heap s !! i = Some n -> In a (map fst (default_attrs (n_cls n))) ->
  (forall v, attr_shape a v = true -> is_str v = true) ->
  (forall x, value (st_heap s) i a = Some (VStr x) -> Q x s) -> ends (get_str i a) s Q.
Proof.
  intros HT H Hin Hs HQ. unfold get_str. apply (ends_bind _ _ _ (fun v s' => s' = s /\ value (st_heap s) i a = Some v /\ attr_shape a v = true)).
  - eapply ends_getattr; eauto.
  - intros v s' _ (-> & Hv & Hsh). specialize (Hs v Hsh). destruct v; try discriminate Hs. apply ends_ret, HQ, Hv.
Qed.
Lemma ends_get_strs i a s n (Q : list str -> st -> Prop) : TI s -> st_heap s !! i = Some n -> In a (map fst (default_attrs (n_cls n))) ->
  (forall v, attr_shape a v = true -> is_strs v = true) ->
  (forall x, value (st_heap s) i a = Some (VStrs x) -> Q x s) -> ends (get_strs i a) s Q.
Proof.
  intros HT H Hin Hs HQ. unfold get_strs. apply (ends_bind _ _ _ (fun v s' => s' = s /\ value (st_heap s) i a = Some v /\ attr_shape a v = true)).
  - eapply ends_getattr; eauto.
  - intros v s' _ (-> & Hv & Hsh). specialize (Hs v Hsh). destruct v; try discriminate Hs. apply ends_ret, HQ, Hv.
Qed.
Lemma ends_setattr i a v s n (Q : unit -> st -> Prop) : st_heap s !! i = Some n -> Q tt (upd s i (set_n_attr a v n)) -> ends (setattr i a v) s Q.
Proof. intros H HQ. exists (upd s i (set_n_attr a v n)), tt. split; [|exact HQ]. unfold setattr, mod_node, bind, get_node. rewrite H. reflexivity. Qed.
Lemma ends_new c kw s (Q : id -> st -> Prop) : Q (st_next s) (new s (mk_node c kw)) -> ends (new_node c kw) s Q.
Proof. intros HQ. exists (new s (mk_node c kw)), (st_next s). split; [reflexivity|exact HQ]. Qed.
Lemma ends_warn l m s (Q : unit -> st -> Prop) : (forall r, Q tt (logged s r)) -> ends (warn l m) s Q.
Proof. intros HQ. eexists _, tt. split; [reflexivity|]. apply HQ. Qed.

(** Attributes of all nodes. *)
Lemma always c : In a_label (map fst (default_attrs c)) /\ In a_types (map fst (default_attrs c)) /\ In a_number (map fst (default_attrs c)) /\
  In a_nonum (map fst (default_attrs c)) /\ In a_handrail_depth (map fst (default_attrs c)) /\ In a_reftext_template (map fst (default_attrs c)).
Proof. destruct c; vm_compute; intuition. Qed.

(** ** Loops *)

Lemma mono_visit {A} cond (body : nat -> A -> id -> M A) acc i : (forall acc i, mono (fun f => body f acc i)) -> mono (fun f => visit cond (body f) acc i).
Proof. intros H. unfold visit. apply mono_bind; [apply mono_const|]. intros n. destruct (cond n); [apply H|apply mono_const]. Qed.
Lemma mono_foldM {A B} (g : nat -> A -> B -> M A) l : (forall acc x, mono (fun f => g f acc x)) -> forall acc, mono (fun f => foldM (g f) acc l).
Proof. intros H. induction l as [|x l IH]; intros acc; cbn [foldM]; [apply mono_const|]. apply mono_bind; [apply H|]. intros a. apply IH. Qed.
Lemma mono_ok {A} (m : nat -> M A) f f' s s' a : mono m -> f <= f' -> m f s = (s', Ok a) -> m f' s = (s', Ok a).
Proof. intros H Hf E. rewrite (H f f' s Hf); [exact E|]. unfold enough. rewrite E. discriminate. Qed.

Lemma fold_ends {A B} (g : nat -> A -> B -> M A) (J : list B -> A -> st -> Prop) : (forall acc x, mono (fun f => g f acc x)) ->
  forall l, (forall seen x rem acc s, l = seen ++ x :: rem -> J seen acc s -> exists f, ends (g f acc x) s (J (seen ++ [x]))) ->
  forall acc s, J [] acc s -> exists f, ends (fun s => foldM (g f) acc l s) s (J l).
Proof.
  intros Hm l Hstep.
  assert (H : forall rem seen acc s, l = seen ++ rem -> J seen acc s -> exists f, ends (fun s => foldM (g f) acc rem s) s (J l)).
  { induction rem as [|x rem IH]; intros seen acc s El HJ.
    - exists 0, s, acc. split; [reflexivity|]. rewrite El, app_nil_r. exact HJ.
    - destruct (Hstep seen x rem acc s El HJ) as (f1 & s1 & a1 & E1 & J1).
      destruct (IH (seen ++ [x]) a1 s1) as (f2 & s2 & a2 & E2 & J2); [rewrite <- app_assoc; exact El|exact J1|].
      exists (f1 + f2), s2, a2. split; [|exact J2]. cbn [foldM]. unfold bind.
      rewrite (mono_ok (fun f => g f acc x) f1 (f1 + f2) s s1 a1 (Hm acc x) ltac:(lia) E1).
      exact (mono_ok (fun f => foldM (g f) a1 rem) f2 (f1 + f2) s1 s2 a2 (mono_foldM g rem Hm a1) ltac:(lia) E2). }
  intros acc s. apply (H l []). reflexivity.
Qed.
Lemma fold_loop {A} (Inv : nat -> st -> list id -> Prop) cond (body : nat -> A -> id -> M A) :
  (forall acc i, mono (fun f => body f acc i)) ->
  (forall f s i rem acc s' acc' n,
     Inv f s (i :: rem) -> st_heap s !! i = Some n -> visit cond (body f) acc i s = (s', Ok acc') ->
     Inv f s' rem /\ forall j, j ∈ i :: rem -> kids_same (st_heap s) (st_heap s') j) ->
  forall t acc s f s' a, (forall f, Inv f s (doc_order t)) -> kid_tree (st_heap s) t ->
  foldM (visit cond (body f)) acc (doc_order t) s = (s', Ok a) ->
  exists f, for_traverse f cond (body f) acc (root t) s = (s', Ok a).
Proof.
  intros Hm Hstep t acc s f s' a HI Hk E. set (F := f + length (doc_order t)). exists F.
  rewrite (trav_eq (Inv F) cond (body F) (Hstep F) F t acc s (HI F) Hk ltac:(unfold F; lia)).
  apply (mono_ok (fun f => foldM (visit cond (body f)) acc (doc_order t)) f F); [|unfold F; lia|exact E].
  apply mono_foldM. intros. apply mono_visit, Hm.
Qed.

(** Loops whose body only sets attributes. *)
Lemma attr_ends {A} P cond (body : nat -> A -> id -> M A) (J : list id -> A -> st -> Prop) p t acc s :
  (forall acc i, mono (fun f => body f acc i)) -> (forall f acc i, changes (only P) (body f acc i)) ->
  tree_at (st_heap s) p t ->
  (forall seen x rem acc s, doc_order t = seen ++ x :: rem -> J seen acc s -> exists f, ends (visit cond (body f) acc x) s (J (seen ++ [x]))) ->
  J [] acc s ->
  exists f, ends (for_traverse f cond (body f) acc (root t)) s (J (doc_order t)).
Proof.
  intros Hm Hb Ht Hstep H0.
  destruct (fold_ends (fun f => visit cond (body f)) J (fun acc x => mono_visit cond body acc x Hm) (doc_order t) Hstep acc s H0) as (f & s' & a & E & HJ).
  destruct (fold_loop (fun _ _ _ => True) cond body Hm) with (t := t) (acc := acc) (s := s) (f := f) (s' := s') (a := a) as [F HF]; auto.
  - intros g s0 i rem a0 s1 a1 n _ Hi Hv. split; [exact I|]. intros j _.
    apply same_structure_kids, (only_structure P), (ch_run _ _ _ _ _ (ch_visit _ (only_refl P) (only_trans P) _ _ _ _ (Hb g a0 i)) Hv).
  - eapply tree_at_kid; eassumption.
  - exists F, s', a. auto.
Qed.
Lemma ends_visit {A} cond (body : A -> id -> M A) acc i s n Q : st_heap s !! i = Some n ->
  (cond n = true -> ends (body acc i) s Q) -> (cond n = false -> Q acc s) -> ends (visit cond body acc i) s Q.
Proof.
  intros H H1 H2. unfold visit. eapply ends_bind; [apply (ends_get_node i s n (fun m s' => m = n /\ s' = s)); auto|].
  intros m s' _ [-> ->]. destruct (cond n); [apply H1; reflexivity|apply ends_ret, H2; reflexivity].
Qed.
(** Types are kept. *)
Lemma ok_TI {A} X (m : M A) R Y s s' a : okM X m R Y -> TI s -> ex X s -> m s = (s', Ok a) -> TI s' /\ grows s s' /\ R a /\ ex (Y a) s'.
Proof. intros H Hs Hx E. destruct (H s Hs Hx) as (H1 & H2 & H3). rewrite E in *. cbn [fst snd] in *. destruct (H3 a eq_refl). auto. Qed.
Lemma ok_visit {A} X cond (body : A -> id -> M A) acc i (F : A -> list id) :
  okM (F acc ++ X) (body acc i) tt_ F -> okM (F acc ++ X) (visit cond body acc i) tt_ F.
Proof.
  intros H. unfold visit. eapply ok_bind; [apply ok_sa; sap|]. intros n _. cbn [app]. destruct (cond n); [exact H|].
  apply ok_ret; [exact I|]. intros x Hx. apply in_app_iff. auto.
Qed.
