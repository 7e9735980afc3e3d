(** Running a method of the base translator again, on a memory in which it has been run already:
    the nodes that the first run created are still there, types have been repeated, and the private
    flag of paragraphs is set, but the method gives the same. *)
From Verif Require Export ShiftTranslate TrProps.
Local Open Scope list_scope.

(** ** Types without repetitions *)
Lemma dedup_seen s1 s2 l : (forall y, In y s1 <-> In y s2) -> dedup_go s1 l = dedup_go s2 l.
Proof.
  revert s1 s2. induction l as [|y l IH]; intros s1 s2 E; [reflexivity|]. cbn [dedup_go].
  assert (str_mem y s1 = str_mem y s2) as -> by (apply eq_true_iff_eq; rewrite !str_mem_In; apply E). destruct (str_mem y s2); [apply IH, E|].
  f_equal. apply IH. intros z. cbn [In]. rewrite E. tauto.
Qed.
Lemma dedup_go_dedup s1 s2 l : (forall y, In y s2 -> In y s1) -> dedup_go s1 (dedup_go s2 l) = dedup_go s1 l.
Proof.
  revert s1 s2. induction l as [|y l IH]; intros s1 s2 E; [reflexivity|]. cbn [dedup_go]. destruct (str_mem y s2) eqn:E2.
  - apply str_mem_In in E2. rewrite IH by assumption. apply E, str_mem_In in E2. rewrite E2. reflexivity.
  - cbn [dedup_go]. destruct (str_mem y s1) eqn:E1.
    + apply IH. intros z [<-|Hz]; [apply str_mem_In, E1|apply E, Hz].
    + f_equal. apply IH. intros z [<-|Hz]; [left; reflexivity|right; apply E, Hz].
Qed.
Lemma dedup_In x l : In x (dedup l) <-> In x l.
Proof.
  unfold dedup. assert (G : forall seen, In x (dedup_go seen l) <-> In x l /\ ~ In x seen).
  { induction l as [|y l IH]; intros seen; cbn [dedup_go In]; [tauto|]. destruct (str_mem y seen) eqn:E.
    - rewrite IH. apply str_mem_In in E. split; [tauto|]. intros [[->|H] N]; tauto.
    - assert (N : ~ In y seen) by (intros H; apply str_mem_In in H; congruence). cbn [In]. rewrite IH. cbn [In].
      destruct (decide (x = y)) as [->|D]; [tauto|]. split; [intros [->|[H1 H2]]; tauto|]. intros [[->|H1] H2]; [tauto|]. right. split; [assumption|]. intros [->|H]; tauto. }
  rewrite G. cbn [In]. tauto.
Qed.
Lemma dedup_congr x add l m : dedup l = dedup m -> dedup ((x :: l) ++ add) = dedup ((x :: m) ++ add).
Proof.
  intros E. unfold dedup. rewrite !dedup_go_app. assert (I : forall y, In y l <-> In y m) by (intros y; rewrite <- (dedup_In y l), <- (dedup_In y m), E; reflexivity).
  f_equal.
  - cbn [dedup_go str_mem existsb]. f_equal. rewrite <- (dedup_go_dedup [x] [] l), <- (dedup_go_dedup [x] [] m) by (intros ? []). f_equal. exact E.
  - apply dedup_seen. intros y. rewrite !app_nil_r, <- !in_rev. cbn [In]. rewrite I. reflexivity.
Qed.
Lemma dedup_last x l : In x l -> dedup (l ++ [x]) = dedup l.
Proof.
  intros H. unfold dedup. rewrite dedup_go_app. cbn [dedup_go]. rewrite app_nil_r.
  assert (str_mem x (rev l) = true) as -> by (apply str_mem_In; apply in_rev in H; exact H). apply app_nil_r.
Qed.
Lemma dedup_twice x l : dedup (x :: x :: l) = dedup (x :: l).
Proof. unfold dedup. cbn [dedup_go]. destruct (str_mem x []) eqn:E; [discriminate|]. assert (str_mem x [x] = true) as -> by (apply str_mem_In; left; reflexivity). reflexivity. Qed.

(** ** The two memories *)
Definition t_last : str := lit "last".
Definition t_ref : str := lit "reference".
(** The type that the visit of a section adds. *)
Definition level_type (c : cls) : option str :=
  match dispatch visit_defined c with
  | Some CSection => match level c with Some lv => Some (lit "level-" ++ str_of_nat lv) | None => None end
  | _ => None
  end.
Definition is_reference (c : cls) : bool := match dispatch visit_defined c with Some CReference | Some CCite => true | _ => false end.

Create HintDb ag discriminated.
Section Again.
Context (s0 : st) (k : nat) (F0 : fresh_ok s0) (C0 : consistent (st_heap s0)).
Notation h0 := (st_heap s0).
Notation n1 := (st_next s0).
Definition ph (i : id) : id := if i <? n1 then i else i + k.
Lemma ph_old i : i < n1 -> ph i = i.
Proof. unfold ph. intros H. apply Nat.ltb_lt in H. rewrite H. reflexivity. Qed.
Lemma ph_new i : n1 <= i -> ph i = i + k.
Proof. unfold ph. intros H. apply Nat.ltb_ge in H. rewrite H. reflexivity. Qed.
Lemma ph_inj i j : ph i = ph j -> i = j.
Proof. unfold ph. destruct (Nat.ltb_spec i n1), (Nat.ltb_spec j n1); lia. Qed.
Lemma ph_ge i : n1 <= i <-> n1 <= ph i.
Proof. unfold ph. destruct (Nat.ltb_spec i n1); lia. Qed.
Definition ph_val (v : val) : val := match v with VNode i => VNode (ph i) | VNodes l => VNodes (map ph l) | _ => v end.
Definition ph_node (n : node) : node := MkNode (n_cls n) (option_map ph (n_parent n)) (map ph (n_children n)) (ph_val <$> n_attrs n).

(** The last step of a proof, which the visit of the proof marks as such. *)
Definition stepb (y : id) : bool := match h0 !! y with Some n => subclass_any (n_cls n) [CStep] | None => false end.
Definition marked (x : id) : bool :=
  match h0 !! x with
  | Some n => match n_parent n with
              | Some p => match h0 !! p with
                          | Some q => match dispatch visit_defined (n_cls q) with
                                      | Some CProof => match find stepb (rev (kids q)) with Some y => Nat.eqb y x | None => false end
                                      | _ => false
                                      end
                          | None => false
                          end
              | None => false
              end
  | None => false
  end.
(** The paragraphs that the end of a formula inside them marks. *)
Definition mathb (y : id) : bool :=
  match h0 !! y with Some n => match dispatch leave_defined (n_cls n) with Some CMathBlock => true | _ => false end | None => false end.
Definition opened (p : id) : bool :=
  match h0 !! p with Some q => subclass_any (n_cls q) [CBaseParagraph] && existsb mathb (removelast (kids q)) | None => false end.
Definition can (c : cls) (i : id) (ty : list str) : list str :=
  match level_type c with
  | Some L => dedup (L :: ty)
  | None => if is_reference c then (if str_mem t_ref ty then ty else t_ref :: ty)
            else if marked i then dedup (ty ++ [t_last]) else ty
  end.
Definition canv (c : cls) (i : id) (v : val) : val := match v with VStrs ty => VStrs (can c i ty) | _ => v end.
Definition canon (i : id) (n : node) : node :=
  MkNode (n_cls n) (n_parent n) (kids n)
    (if opened i then delete a_must_close_p_tag (alter (canv (n_cls n) i) a_types (n_attrs n)) else alter (canv (n_cls n) i) a_types (n_attrs n)).
Definition agree (i : id) (n n' : node) : Prop := canon i n' = ph_node (canon i n).

Lemma canon_attr i n a : a <> a_types -> a <> a_must_close_p_tag -> n_attrs (canon i n) !! a = n_attrs n !! a.
Proof. intros H1 H2. cbn [canon n_attrs]. destruct (opened i); [rewrite lookup_delete_ne by congruence|]; apply lookup_alter_ne; congruence. Qed.
Lemma canon_types i n : n_attrs (canon i n) !! a_types = canv (n_cls n) i <$> n_attrs n !! a_types.
Proof. cbn [canon n_attrs]. destruct (opened i); [rewrite lookup_delete_ne by congruence|]; apply lookup_alter. Qed.
Lemma canon_flag i n : opened i = false -> n_attrs (canon i n) !! a_must_close_p_tag = n_attrs n !! a_must_close_p_tag.
Proof. intros E. cbn [canon n_attrs]. rewrite E. apply lookup_alter_ne. congruence. Qed.
Lemma agree_cls i n n' : agree i n n' -> n_cls n' = n_cls n.
Proof. intros E. apply (f_equal n_cls) in E. exact E. Qed.
Lemma agree_parent i n n' : agree i n n' -> n_parent n' = option_map ph (n_parent n).
Proof. intros E. apply (f_equal n_parent) in E. exact E. Qed.
Lemma agree_kids i n n' : agree i n n' -> kids n' = map ph (kids n).
Proof. intros E. apply (f_equal n_children) in E. exact E. Qed.
Lemma agree_attrs i n n' : agree i n n' -> n_attrs (canon i n') = ph_val <$> n_attrs (canon i n).
Proof. intros E. apply (f_equal n_attrs) in E. exact E. Qed.
Lemma agree_intro i n n' : n_cls n' = n_cls n -> n_parent n' = option_map ph (n_parent n) -> kids n' = map ph (kids n) -> n_attrs (canon i n') = ph_val <$> n_attrs (canon i n) -> agree i n n'.
Proof. intros H1 H2 H3 H4. unfold agree. change (canon i n') with (MkNode (n_cls n') (n_parent n') (kids n') (n_attrs (canon i n'))). rewrite H1, H2, H3, H4. reflexivity. Qed.
Lemma agree_attr i n n' a : agree i n n' -> a <> a_types -> a <> a_must_close_p_tag -> n_attrs n' !! a = ph_val <$> n_attrs n !! a.
Proof. intros E H1 H2. rewrite <- (canon_attr i n' a), <- (canon_attr i n a) by assumption. rewrite (agree_attrs _ _ _ E). apply lookup_fmap. Qed.
Lemma agree_flag i n n' : agree i n n' -> opened i = false -> n_attrs n' !! a_must_close_p_tag = ph_val <$> n_attrs n !! a_must_close_p_tag.
Proof. intros E H. rewrite <- (canon_flag i n'), <- (canon_flag i n) by assumption. rewrite (agree_attrs _ _ _ E). apply lookup_fmap. Qed.
Lemma agree_types i n n' ty : agree i n n' -> n_attrs n !! a_types = Some (VStrs ty) ->
  exists ty', n_attrs n' !! a_types = Some (VStrs ty') /\ can (n_cls n) i ty' = can (n_cls n) i ty.
Proof.
  intros E H. pose proof (agree_attrs _ _ _ E) as A. apply (f_equal (lookup a_types)) in A. rewrite lookup_fmap, !canon_types, H, (agree_cls _ _ _ E) in A. cbn in A.
  destruct (n_attrs n' !! a_types) as [v|]; [|discriminate]. cbn in A. injection A as A. destruct v; try discriminate. injection A as A. eauto.
Qed.

(** What the translator may change. *)
Record grew (i : id) (n n' : node) : Prop := {
  gr_cls : n_cls n' = n_cls n;
  gr_types : forall ty, n_attrs n !! a_types = Some (VStrs ty) -> exists ty', n_attrs n' !! a_types = Some (VStrs ty') /\ (forall x, In x ty -> In x ty') /\
    (forall L, level_type (n_cls n) = Some L -> head ty = Some L -> head ty' = Some L);
  gr_flag : n_attrs n !! a_must_close_p_tag = Some (VBool true) -> n_attrs n' !! a_must_close_p_tag = Some (VBool true);
  gr_canon : i < n1 -> canon i n' = canon i n
}.
Lemma grew_refl i n : grew i n n.
Proof. split; auto. intros ty H. exists ty. auto. Qed.
Lemma grew_trans i n n' n'' : grew i n n' -> grew i n' n'' -> grew i n n''.
Proof.
  intros [A1 A2 A3 A4] [B1 B2 B3 B4]. split; [congruence| |auto|intros H; rewrite B4, A4; auto].
  intros ty H. destruct (A2 ty H) as (ty' & H' & I' & L'). destruct (B2 ty' H') as (ty'' & H'' & I'' & L''). exists ty''. split; [assumption|]. split; [auto|]. intros L E1 E2. apply L''; [congruence|]. apply L'; assumption.
Qed.
Record grown (a b : st) : Prop := {
  gn_next : st_next a <= st_next b;
  gn_node : forall i n, st_heap a !! i = Some n -> exists n', st_heap b !! i = Some n' /\ grew i n n'
}.
Lemma grown_refl a : grown a a.
Proof. split; [lia|]. intros i n H. exists n. split; [assumption|apply grew_refl]. Qed.
Lemma grown_trans a b c : grown a b -> grown b c -> grown a c.
Proof.
  intros [A1 A2] [B1 B2]. split; [lia|]. intros i n H. destruct (A2 i n H) as (n' & H' & G'). destruct (B2 i n' H') as (n'' & H'' & G''). exists n''. split; [assumption|eapply grew_trans; eassumption].
Qed.

Record rel (a b : st) : Prop := {
  r_next : st_next b = st_next a + k;
  r_start : grown s0 a;
  r_fresh : fresh_ok a;
  r_fresh' : fresh_ok b;
  r_apart : forall i n, n1 <= i -> st_heap a !! i = Some n -> forall y, In y (kids n) -> n1 <= y;
  r_kind : forall i n, n1 <= i -> st_heap a !! i = Some n -> In (n_cls n) [CParagraph; CSpan; CText];
  r_old : forall i n, i < n1 -> st_heap a !! i = Some n -> is_Some (h0 !! i);
  r_node : forall i n, st_heap a !! i = Some n -> exists n', st_heap b !! ph i = Some n' /\ agree i n n'
}.

(** ** Conditions that persist *)
Record pre := MkPre { pr : st -> st -> Prop; pr_ok : forall a b a' b', grown a a' -> grown b b' -> pr a b -> pr a' b' }.
Definition any : pre.
Proof. exists (fun _ _ => True). auto. Defined.

Definition sim {A B} (P : pre) (f : A -> B) (Q : A -> Prop) (m : M A) (m' : M B) : Prop :=
  forall a b a1 x, rel a b -> pr P a b -> m a = (a1, Ok x) -> exists b1, m' b = (b1, Ok (f x)) /\ rel a1 b1 /\ grown a a1 /\ grown b b1 /\ Q x.
Notation yes := (fun _ => True).

Lemma sim_ret {A B} P (f : A -> B) (Q : A -> Prop) x x' : x' = f x -> Q x -> sim P f Q (ret x) (ret x').
Proof. intros -> HQ a b a1 y R HP [= <- <-]. exists b. split; [reflexivity|]. split; [assumption|]. split; [apply grown_refl|]. split; [apply grown_refl|assumption]. Qed.
Lemma sim_raise {A B} P (f : A -> B) Q e m' : sim P f Q (raise e) m'.
Proof. intros a b a1 y R HP [=]. Qed.
Lemma sim_bind {A B C D} P (f : A -> B) (g : C -> D) Q Q' m m' c c' :
  sim P f Q m m' -> (forall x, Q x -> sim P g Q' (c x) (c' (f x))) -> sim P g Q' (bind m c) (bind m' c').
Proof.
  intros H1 H2 a b a2 y R HP E. apply bind_ok in E as (a1 & x & E1 & E2). destruct (H1 _ _ _ _ R HP E1) as (b1 & F1 & R1 & G1 & G1' & HQ).
  destruct (H2 x HQ a1 b1 a2 y R1 (pr_ok P _ _ _ _ G1 G1' HP) E2) as (b2 & F2 & R2 & G2 & G2' & HQ').
  exists b2. split; [rewrite (bind_eq _ _ _ _ _ F1); exact F2|]. split; [assumption|]. split; [eapply grown_trans; eassumption|]. split; [eapply grown_trans; eassumption|assumption].
Qed.
Lemma sim_weak {A B} P (f : A -> B) (Q Q' : A -> Prop) m m' : (forall x, Q x -> Q' x) -> sim P f Q m m' -> sim P f Q' m m'.
Proof. intros H S a b a1 x R HP E. destruct (S _ _ _ _ R HP E) as (b1 & ? & ? & ? & ? & ?). exists b1. auto 10. Qed.
Lemma sim_pre {A B} (P P' : pre) (f : A -> B) Q m m' : (forall a b, pr P a b -> pr P' a b) -> sim P' f Q m m' -> sim P f Q m m'.
Proof. intros H S a b a1 x R HP E. apply (S a b a1 x R (H _ _ HP) E). Qed.
Lemma sim_get_node {C D} P (g : C -> D) Q' i c c' : (forall n n', agree i n n' -> sim P g Q' (c n) (c' n')) -> sim P g Q' (bind (get_node i) c) (bind (get_node (ph i)) c').
Proof.
  intros H a b a2 y R HP E. apply bind_ok in E as (a1 & n & E1 & E2). apply get_node_ok in E1 as [-> Hn]. destruct (r_node _ _ R _ _ Hn) as (n' & Hn' & A).
  rewrite (bind_eq _ _ _ _ _ (get_node_eq _ _ _ Hn')). exact (H n n' A a b a2 y R HP E2).
Qed.
Lemma sim_mapM {A B C D} P (p : A -> C) (f : B -> D) Q g g' l : (forall x, sim P f Q (g x) (g' (p x))) -> sim P (map f) (List.Forall Q) (mapM g l) (mapM g' (map p l)).
Proof.
  intros H. induction l as [|x l IH]; cbn [mapM map]; [apply sim_ret; [reflexivity|constructor]|]. eapply sim_bind; [apply H|]. intros y Hy.
  eapply sim_bind; [exact IH|]. intros ys Hys. apply sim_ret; [reflexivity|constructor; assumption].
Qed.
Lemma sim_mapM' {A B D} P (f : B -> D) Q (g g' : A -> M B) (g'' : A -> M D) l : (forall x, sim P f Q (g x) (g'' x)) -> sim P (map f) (List.Forall Q) (mapM g l) (mapM g'' l).
Proof.
  intros H. induction l as [|x l IH]; cbn [mapM map]; [apply sim_ret; [reflexivity|constructor]|]. eapply sim_bind; [apply H|]. intros y Hy.
  eapply sim_bind; [exact IH|]. intros ys Hys. apply sim_ret; [reflexivity|constructor; assumption].
Qed.
Lemma sim_iterM' {A} P (g g' : A -> M unit) l : (forall x, sim P (fun x => x) yes (g x) (g' x)) -> sim P (fun x => x) yes (iterM g l) (iterM g' l).
Proof. intros H. induction l as [|x l IH]; cbn [iterM]; [apply sim_ret; auto|]. eapply sim_bind; [apply H|]. intros [] _. exact IH. Qed.
Lemma sim_log P r : sim P (fun x => x) yes (log_rec r) (log_rec r).
Proof.
  intros a b a1 x R HP [= <- <-]. eexists. split; [reflexivity|].
  assert (G : forall s, grown s (logged s r)) by (intros s; split; [reflexivity|]; intros i n H; exists n; split; [exact H|apply grew_refl]).
  split; [|split; [apply G|split; [apply G|exact I]]]. destruct R as [R1 R2 R3 R3' R4 Rk Ro R5]. split; try assumption. eapply grown_trans; [exact R2|apply G].
Qed.
Lemma sim_getattr P i a : a <> a_types -> a <> a_must_close_p_tag -> sim P ph_val yes (getattr i a) (getattr (ph i) a).
Proof.
  intros H1 H2. unfold getattr. apply sim_get_node. intros n n' A. rewrite (agree_attr _ _ _ _ A H1 H2). destruct (n_attrs n !! a); [apply sim_ret; auto|apply sim_raise].
Qed.
Lemma sim_cls_of P i : sim P (fun x => x) yes (cls_of i) (cls_of (ph i)).
Proof. apply sim_get_node. intros n n' A. apply sim_ret; [apply (agree_cls _ _ _ A)|exact I]. Qed.
Lemma sim_children_of P i : sim P (map ph) yes (children_of i) (children_of (ph i)).
Proof. apply sim_get_node. intros n n' A. apply sim_ret; [apply (agree_kids _ _ _ A)|exact I]. Qed.
Lemma sim_parent_of P i : sim P (option_map ph) yes (parent_of i) (parent_of (ph i)).
Proof. apply sim_get_node. intros n n' A. apply sim_ret; [apply (agree_parent _ _ _ A)|exact I]. Qed.
Lemma sim_get_str P i a : a <> a_types -> a <> a_must_close_p_tag -> sim P (fun x => x) yes (get_str i a) (get_str (ph i) a).
Proof. intros H1 H2. eapply sim_bind; [apply sim_getattr; assumption|]. intros [] _; cbn [ph_val]; (apply sim_ret; [reflexivity|exact I]) || apply sim_raise. Qed.
Lemma sim_get_strs P i a : a <> a_types -> a <> a_must_close_p_tag -> sim P (fun x => x) yes (get_strs i a) (get_strs (ph i) a).
Proof. intros H1 H2. eapply sim_bind; [apply sim_getattr; assumption|]. intros [] _; cbn [ph_val]; (apply sim_ret; [reflexivity|exact I]) || apply sim_raise. Qed.

(** ** New nodes *)
Lemma new_none i : n1 <= i -> h0 !! i = None.
Proof. intros H. destruct (h0 !! i) as [n|] eqn:E; [|reflexivity]. apply F0 in E. lia. Qed.
Lemma new_plain i : n1 <= i -> marked i = false /\ opened i = false.
Proof. intros H. apply new_none in H. unfold marked, opened. rewrite H. auto. Qed.
Definition plain_val (v : val) : bool := match v with VNode _ | VNodes _ => false | _ => true end.
Lemma agree_new i n : n_parent n = None -> kids n = [] -> (forall x v, n_attrs n !! x = Some v -> plain_val v = true) -> agree i n n.
Proof.
  intros Hp Hk Hv. unfold agree, ph_node, canon. cbn [n_cls n_parent n_children n_attrs]. rewrite Hp, Hk. cbn [option_map map]. f_equal.
  assert (E : ph_val <$> n_attrs n = n_attrs n).
  { apply map_eq. intros x. rewrite lookup_fmap. destruct (n_attrs n !! x) as [v|] eqn:E; [|reflexivity]. apply Hv in E. cbn. f_equal. destruct v; try reflexivity; discriminate. }
  assert (E2 : ph_val <$> alter (canv (n_cls n) i) a_types (n_attrs n) = alter (canv (n_cls n) i) a_types (n_attrs n)).
  { apply map_eq. intros x. rewrite lookup_fmap. destruct (decide (x = a_types)) as [->|D].
    - rewrite lookup_alter. destruct (n_attrs n !! a_types) as [v|] eqn:Ev; [|reflexivity]. apply Hv in Ev. cbn. f_equal. destruct v; try reflexivity; discriminate.
    - rewrite lookup_alter_ne by congruence. rewrite <- lookup_fmap, E. reflexivity. }
  destruct (opened i); [rewrite fmap_delete|]; rewrite E2; reflexivity.
Qed.
Lemma grown_new s n : fresh_ok s -> grown s (new s n).
Proof. intros F. split; [cbn; lia|]. intros i m H. exists m. split; [|apply grew_refl]. cbn. rewrite lookup_insert_ne; [assumption|]. apply F in H. lia. Qed.
Lemma fresh_new s n : fresh_ok s -> fresh_ok (new s n).
Proof. intros F i m. cbn. destruct (decide (st_next s = i)) as [<-|D]; [intros _; lia|]. rewrite lookup_insert_ne by assumption. intros H. apply F in H. lia. Qed.
Lemma fresh_upd s i n m : st_heap s !! i = Some m -> fresh_ok s -> fresh_ok (upd s i n).
Proof. intros H F j m'. cbn. destruct (decide (i = j)) as [<-|D]; [intros _; exact (F _ _ H)|]. rewrite lookup_insert_ne by assumption. apply F. Qed.
Lemma sim_alloc P n : In (n_cls n) [CParagraph; CSpan; CText] -> n_parent n = None -> kids n = [] -> (forall x v, n_attrs n !! x = Some v -> plain_val v = true) ->
  sim P ph (fun i => n1 <= i) (alloc n) (alloc n).
Proof.
  intros Hc Hp Hk Hv a b a1 x R HP E. apply alloc_ok in E as [-> ->]. destruct R as [R1 R2 R3 R3' R4 Rk Ro R5].
  assert (N : n1 <= st_next a) by apply R2. exists (new b n). split; [unfold alloc; rewrite R1, (ph_new _ N); unfold new; rewrite R1; reflexivity|].
  split; [|split; [apply grown_new, R3|split; [apply grown_new, R3'|exact N]]]. split.
  - cbn. lia.
  - eapply grown_trans; [exact R2|apply grown_new, R3].
  - apply fresh_new, R3.
  - apply fresh_new, R3'.
  - intros i m Hi. cbn. destruct (decide (st_next a = i)) as [<-|D]; [rewrite lookup_insert; intros [= <-]; rewrite Hk; intros ? []|].
    rewrite lookup_insert_ne by assumption. apply R4, Hi.
  - intros i m Hi. cbn. destruct (decide (st_next a = i)) as [<-|D]; [rewrite lookup_insert; intros [= <-]; exact Hc|]. rewrite lookup_insert_ne by assumption. apply Rk, Hi.
  - intros i m Hi. cbn. rewrite lookup_insert_ne by lia. apply Ro, Hi.
  - intros i m. cbn. destruct (decide (st_next a = i)) as [<-|D].
    + rewrite lookup_insert. intros [= <-]. exists n. rewrite R1, <- (ph_new _ N), lookup_insert. split; [reflexivity|apply agree_new; assumption].
    + rewrite lookup_insert_ne by assumption. intros H. destruct (R5 i m H) as (m' & Hm & A). exists m'. split; [|assumption].
      rewrite R1, <- (ph_new _ N), lookup_insert_ne; [assumption|]. intros E. apply ph_inj in E. congruence.
Qed.
(** Changing one node. *)
Lemma grown_upd s i n n' : st_heap s !! i = Some n -> grew i n n' -> grown s (upd s i n').
Proof.
  intros H G. split; [reflexivity|]. intros j m Hj. cbn. destruct (decide (i = j)) as [<-|D].
  - exists n'. rewrite lookup_insert. split; [reflexivity|]. assert (m = n) as -> by congruence. exact G.
  - exists m. rewrite lookup_insert_ne by assumption. split; [assumption|apply grew_refl].
Qed.
Lemma rel_upd a b i n n' m m' : rel a b -> st_heap a !! i = Some n -> st_heap b !! ph i = Some n' ->
  grew i n m -> agree i m m' -> (n1 <= i -> forall y, In y (kids m) -> n1 <= y) -> rel (upd a i m) (upd b (ph i) m').
Proof.
  intros [R1 R2 R3 R3' R4 Rk Ro R5] Hn Hn' G A K. split.
  - exact R1.
  - eapply grown_trans; [exact R2|eapply grown_upd; eassumption].
  - eapply fresh_upd; eassumption.
  - eapply fresh_upd; eassumption.
  - intros j q Hj. cbn. destruct (decide (i = j)) as [<-|D]; [rewrite lookup_insert; intros [= <-]; apply K, Hj|]. rewrite lookup_insert_ne by assumption. apply R4, Hj.
  - intros j q Hj. cbn. destruct (decide (i = j)) as [<-|D]; [rewrite lookup_insert; intros [= <-]; rewrite (gr_cls _ _ _ G); exact (Rk _ _ Hj Hn)|]. rewrite lookup_insert_ne by assumption. apply Rk, Hj.
  - intros j q Hj. cbn. destruct (decide (i = j)) as [<-|D]; [intros _; exact (Ro _ _ Hj Hn)|]. rewrite lookup_insert_ne by assumption. apply Ro, Hj.
  - intros j q. cbn. destruct (decide (i = j)) as [<-|D].
    + rewrite lookup_insert. intros [= <-]. exists m'. rewrite lookup_insert. auto.
    + rewrite lookup_insert_ne by assumption. intros Hj. destruct (R5 j q Hj) as (q' & Hq & Aq). exists q'. split; [|assumption]. rewrite lookup_insert_ne; [assumption|].
      intros E. apply ph_inj in E. congruence.
Qed.
Lemma sim_mod_new P i f f' : n1 <= i -> (forall n, n_cls (f n) = n_cls n /\ n_attrs (f n) = n_attrs n) -> (forall n, n_cls (f' n) = n_cls n /\ n_attrs (f' n) = n_attrs n) ->
  (forall n n', agree i n n' -> agree i (f n) (f' n')) -> (forall n, (forall y, In y (kids n) -> n1 <= y) -> forall y, In y (kids (f n)) -> n1 <= y) ->
  sim P (fun x => x) yes (mod_node i f) (mod_node (ph i) f').
Proof.
  intros N H1 H2 H3 H4 a b a1 [] R HP E. apply mod_node_ok in E as (n & Hn & ->). destruct (r_node _ _ R _ _ Hn) as (n' & Hn' & A).
  exists (upd b (ph i) (f' n')). split; [apply mod_node_eq, Hn'|].
  assert (G : grew i n (f n)).
  { destruct (H1 n) as [E1 E2]. split; [assumption| | |lia]. { intros ty Ht. exists ty. rewrite E2. auto. } rewrite E2. auto. }
  assert (G' : grew (ph i) n' (f' n')).
  { destruct (H2 n') as [E1 E2]. apply ph_ge in N. split; [assumption| | |lia]. { intros ty Ht. exists ty. rewrite E2. auto. } rewrite E2. auto. }
  split; [|split; [eapply grown_upd; eassumption|split; [eapply grown_upd; eassumption|exact I]]].
  eapply rel_upd; [exact R|exact Hn|exact Hn'|exact G|apply H3, A|]. intros _. apply H4. intros y. exact (r_apart _ _ R i n N Hn y).
Qed.
Lemma sim_set_parent P i p : n1 <= i -> sim P (fun x => x) yes (set_parent i p) (set_parent (ph i) (option_map ph p)).
Proof.
  intros N. unfold set_parent.
  assert (G : forall p, sim P (fun x => x) yes (mod_node i (set_n_parent p)) (mod_node (ph i) (set_n_parent (option_map ph p)))).
  { clear p. intros p. apply sim_mod_new; [exact N|split; reflexivity|split; reflexivity| |].
    - intros n n' A. apply agree_intro; [exact (agree_cls _ _ _ A)|reflexivity|exact (agree_kids _ _ _ A)|exact (agree_attrs _ _ _ A)].
    - intros n H y. exact (H y). }
  destruct p as [q|]; cbn [option_map]; [|exact (G None)]. eapply sim_bind; [apply sim_cls_of|]. intros c _. cbn beta. destruct (possible_parents c) as [|d l]; [exact (G (Some q))|].
  eapply sim_bind; [apply sim_cls_of|]. intros d' _. cbn beta. destruct (cls_mem d' (d :: l)); [exact (G (Some q))|apply sim_raise].
Qed.
Lemma sim_raw_children P i : sim P (map ph) (fun l => n1 <= i -> forall y, In y l -> n1 <= y) (raw_children i) (raw_children (ph i)).
Proof.
  intros a b a1 x R HP E. unfold raw_children in *. apply bind_ok in E as (a2 & n & E1 & E2). apply get_node_ok in E1 as [-> Hn]. destruct (r_node _ _ R _ _ Hn) as (n' & Hn' & A).
  destruct (has_children (n_cls n)) eqn:Hc; [|discriminate]. apply ret_ok in E2 as [-> ->]. exists b. rewrite (bind_eq _ _ _ _ _ (get_node_eq _ _ _ Hn')), (agree_cls _ _ _ A), Hc.
  pose proof (agree_kids _ _ _ A) as K. unfold kids in K. rewrite (agree_cls _ _ _ A), Hc in K. rewrite K. split; [reflexivity|]. split; [assumption|]. split; [apply grown_refl|]. split; [apply grown_refl|].
  intros N y Hy. apply (r_apart _ _ R i n N Hn). unfold kids. rewrite Hc. exact Hy.
Qed.
Lemma sim_set_raw_children P i cs : n1 <= i -> (forall y, In y cs -> n1 <= y) -> sim P (fun x => x) yes (set_raw_children i cs) (set_raw_children (ph i) (map ph cs)).
Proof.
  intros N H. apply sim_mod_new; [exact N|split; reflexivity|split; reflexivity| |].
  - intros n n' A. apply agree_intro; [exact (agree_cls _ _ _ A)|exact (agree_parent _ _ _ A)| |exact (agree_attrs _ _ _ A)].
    unfold kids. cbn [set_n_children n_cls n_children]. rewrite (agree_cls _ _ _ A). destruct (has_children (n_cls n)); reflexivity.
  - intros n _ y. unfold kids. cbn [set_n_children n_cls n_children]. destruct (has_children (n_cls n)); [apply H|intros []].
Qed.
Lemma sim_append1 P i j : n1 <= i -> n1 <= j -> sim P (fun x => x) yes (append1 i j) (append1 (ph i) (ph j)).
Proof.
  intros Ni Nj. unfold append1. eapply sim_bind; [apply sim_raw_children|]. intros cs Hcs. eapply sim_bind; [apply sim_parent_of|]. intros [q|] _; cbn [option_map]; [apply sim_raise|].
  change [ph j] with (map ph [j]). rewrite <- map_app. eapply (sim_bind P (fun x : unit => x)); [apply sim_set_raw_children; [exact Ni|]|].
  - intros y Hy. apply in_app_iff in Hy as [Hy|[<-|[]]]; [apply Hcs; assumption|exact Nj].
  - intros [] _. exact (sim_set_parent P j (Some i) Nj).
Qed.

(** ** Reading *)
Lemma ph_truthy v : truthy (ph_val v) = truthy v.
Proof. destruct v; try reflexivity. destruct l; reflexivity. Qed.
Lemma ph_fmt v : fmt_val (ph_val v) = fmt_val v.
Proof. destruct v; reflexivity. Qed.
Lemma ph_eqb i j : Nat.eqb (ph i) (ph j) = Nat.eqb i j.
Proof. destruct (Nat.eqb_spec i j) as [->|H]; [apply Nat.eqb_refl|]. apply Nat.eqb_neq. intros E. apply H, ph_inj, E. Qed.
Lemma ph_index x l : index_of (ph x) (map ph l) = index_of x l.
Proof. induction l as [|y l IH]; [reflexivity|]. cbn [map index_of]. rewrite ph_eqb, IH. reflexivity. Qed.
Lemma ph_rev (l : list id) : rev (map ph l) = map ph (rev l).
Proof. symmetry. apply map_rev. Qed.
Lemma ph_nth (l : list id) j : nth_error (map ph l) j = option_map ph (nth_error l j).
Proof. revert j; induction l as [|x l IH]; intros [|j]; try reflexivity. apply IH. Qed.
Lemma ph_str_or_empty v : str_or_empty (ph_val v) = str_or_empty v.
Proof. unfold str_or_empty. rewrite ph_truthy, ph_fmt. reflexivity. Qed.
Lemma ph_is_one v : is_one (ph_val v) = is_one v.
Proof. destruct v; reflexivity. Qed.
Lemma ph_length (l : list id) : length (map ph l) = length l.
Proof. apply map_length. Qed.

Lemma sim_warn P x c : sim P (fun x => x) yes (warn x c) (warn x c).
Proof. apply sim_log. Qed.
Lemma sim_info P x c : sim P (fun x => x) yes (info x c) (info x c).
Proof. apply sim_log. Qed.
Hint Resolve sim_warn sim_info sim_cls_of sim_children_of sim_parent_of : ag.
Ltac ag_norm := cbn beta; cbv zeta; cbn [option_map map ph_val fst snd]; rewrite ?ph_truthy, ?ph_fmt, ?ph_eqb, ?ph_index, ?ph_rev, ?ph_nth, ?ph_str_or_empty, ?ph_is_one, ?ph_length.
Ltac ag1 :=
  lazymatch goal with
  | |- sim ?P ?g _ (@bind ?A _ ?m _) (bind ?m' _) =>
      tryif plain A then (apply (sim_bind P (fun x : A => x) _ (fun _ => True)); [|let y := fresh "a" in intros y _; ag_norm]) else (eapply sim_bind; [|let y := fresh "a" in let h := fresh "Q" in intros y h])
  | |- sim _ _ _ (ret _) (ret _) => solve [apply sim_ret; [reflexivity|exact I]]
  | |- sim _ _ _ (raise _) _ => apply sim_raise
  | |- sim _ _ _ (getattr _ _) (getattr _ _) => apply sim_getattr; discriminate
  | |- sim _ _ _ (get_str _ _) (get_str _ _) => apply sim_get_str; discriminate
  | |- sim _ _ _ (get_strs _ _) (get_strs _ _) => apply sim_get_strs; discriminate
  | |- sim _ _ _ (match ?x with _ => _ end) (match ?x with _ => _ end) => let E := fresh "E" in destruct x eqn:E; ag_norm
  | |- sim _ _ _ (match ?x with _ => _ end) (match option_map _ ?x with _ => _ end) => destruct x; ag_norm
  | |- sim _ _ _ (match ?x with _ => _ end) (match map _ ?x with _ => _ end) => destruct x; ag_norm
  | |- sim _ _ _ (match ?x with _ => _ end) (match ph_val ?x with _ => _ end) => destruct x; ag_norm
  | |- _ => solve [eauto 3 with ag]
  end.
Ltac ag := repeat (ag_norm; ag1).
Ltac agb := ag1; [ag|ag_norm].
Lemma sim_inst P ds i : sim P (fun x => x) yes (inst ds i) (inst ds (ph i)).
Proof. unfold inst. ag. Qed.
Hint Resolve sim_inst : ag.
Definition ph_idx (p : id * nat) : id * nat := (ph p.1, p.2).
Lemma sim_first_go P ds l j : sim P (option_map ph_idx) yes (first_of_type_go ds l j) (first_of_type_go ds (map ph l) j).
Proof. revert j. induction l as [|x l IH]; intros j; cbn [first_of_type_go map]; ag. Qed.
Hint Resolve sim_first_go : ag.
Lemma sim_first_of_type P i ds : sim P (option_map ph_idx) yes (first_of_type i ds) (first_of_type (ph i) ds).
Proof. unfold first_of_type. ag. Qed.
Lemma sim_last_of_type P i ds : sim P (option_map ph_idx) yes (last_of_type i ds) (last_of_type (ph i) ds).
Proof. unfold last_of_type. eapply sim_bind; [apply sim_children_of|]. intros cs _. rewrite ph_rev. eapply sim_bind; [apply sim_first_go|]. intros [[x j]|] _; cbn [option_map ph_idx fst snd]; ag. Qed.
Lemma sim_next_any P i : sim P (option_map ph) yes (next_sibling i SibAny) (next_sibling (ph i) SibAny).
Proof. unfold next_sibling. eapply sim_bind; [apply sim_parent_of|]. intros [q|] _; cbn [option_map]; ag. Qed.
Lemma sim_anc_loop P fuel ds o : sim P (option_map ph) yes (anc_loop fuel ds o) (anc_loop fuel ds (option_map ph o)).
Proof. revert o. induction fuel as [|f IH]; intros [q|]; cbn [anc_loop option_map]; ag. Qed.
Lemma sim_first_ancestor P fuel i ds : sim P (option_map ph) yes (first_ancestor_of_type fuel i ds) (first_ancestor_of_type fuel (ph i) ds).
Proof. unfold first_ancestor_of_type. ag. apply sim_anc_loop. Qed.
Hint Resolve sim_first_ancestor sim_first_of_type sim_last_of_type sim_next_any : ag.
Lemma sim_full_number P fuel i : sim P (fun x => x) yes (full_number fuel i) (full_number fuel (ph i)).
Proof.
  revert i. induction fuel as [|fuel IH]; intros i; cbn [full_number]; [apply sim_raise|]. cbv zeta. agb. destruct (subclass a CManuscript); [ag|]. agb. destruct (truthy a0); [ag|].
  agb. eapply (sim_bind P (option_map ph) _ yes); [destruct a1 as [x|]; ag_norm; ag|]. intros an _. eapply sim_bind; [ag|]. intros num _. ag_norm. destruct an as [y|]; ag_norm; [|ag].
  ag1; [apply IH|]. destruct a2 as [[|ch r]|]; [ag| |ag]. ag1; [apply IH|ag].
Qed.
Hint Resolve sim_full_number : ag.
Lemma sim_reftext P fuel i : sim P (fun x => x) yes (reftext fuel i) (reftext fuel (ph i)).
Proof. unfold reftext. ag. Qed.
Lemma ph_val_eqb v w : val_eqb (ph_val v) (ph_val w) = val_eqb v w.
Proof.
  destruct v, w; try reflexivity; cbn [ph_val val_eqb as_num]; [apply ph_eqb|].
  destruct (decide (l = l0)) as [->|H]; [rewrite decide_True by reflexivity; reflexivity|].
  rewrite decide_False; [reflexivity|]. intros E. apply H. clear H. revert l0 E. induction l as [|x l IH]; intros [|y l0] E; try discriminate; [reflexivity|].
  injection E as E1 E2. apply ph_inj in E1 as ->. f_equal. apply IH, E2.
Qed.
Hint Resolve sim_reftext : ag.

(** ** Commands *)
Definition ph_tok (t : tok) : tok := match t with TText i s => TText (ph i) s | _ => t end.
Fixpoint ph_cmd (c : cmd) : cmd :=
  match c with
  | KText t => KText (map ph_tok t)
  | KTextDefer t d => KTextDefer (map ph_tok t) (map ph_tok d)
  | KOpenClose g t => KOpenClose g (map ph_tok t)
  | KOpenManual g t => KOpenManual g (map ph_tok t)
  | KOpen g => KOpen g
  | KExternal i => KExternal (ph i)
  | KBatchDefer l => KBatchDefer (map ph_cmd l)
  | KBatch l => KBatch (map ph_cmd l)
  end.
Definition ph_tst (t : tst) : tst := MkT (map ph_tok (body t)) (map ph_cmd (deferred t)).
Definition ph_pair (p : cmd * tst) : cmd * tst := (ph_cmd p.1, ph_tst p.2).
(** The trees that commands translate are new. *)
Fixpoint cmd_ok (c : cmd) : Prop :=
  match c with
  | KExternal i => n1 <= i
  | KBatchDefer l | KBatch l => (fix go l := match l with [] => True | x :: r => cmd_ok x /\ go r end) l
  | _ => True
  end.
Lemma batch_ok l : cmd_ok (KBatch l) <-> List.Forall cmd_ok l.
Proof. induction l as [|x l IH]; [split; [constructor|intros; exact I]|]. cbn [cmd_ok]. split; [intros [H1 H2]; constructor; [exact H1|apply IH, H2]|intros H; inversion H; subst; split; [assumption|apply IH; assumption]]. Qed.
Lemma batch_defer_ok l : cmd_ok (KBatchDefer l) <-> List.Forall cmd_ok l.
Proof. exact (batch_ok l). Qed.
Definition tst_ok (t : tst) : Prop := List.Forall cmd_ok (deferred t).
Definition pair_ok (p : cmd * tst) : Prop := cmd_ok p.1 /\ tst_ok p.2.
Lemma ph_defers c : defers (ph_cmd c) = defers c.
Proof. destruct c; reflexivity. Qed.
Lemma ph_nl_if c : map ph_tok (nl_if c) = nl_if c.
Proof. destruct c; reflexivity. Qed.
Lemma ph_close_text g : map ph_tok (close_text g) = close_text g.
Proof. unfold close_text. rewrite !map_app, !ph_nl_if. reflexivity. Qed.
Lemma ph_deferred_text c : deferred_text (ph_cmd c) = option_map (map ph_tok) (deferred_text c).
Proof. destruct c; try reflexivity. cbn [ph_cmd deferred_text option_map]. rewrite ph_close_text. reflexivity. Qed.
Definition ext_sim (ext ext' : id -> M (list tok)) : Prop := forall P i, n1 <= i -> sim P (map ph_tok) yes (ext i) (ext' (ph i)).
Lemma sim_make_text P ext ext' c : ext_sim ext ext' -> cmd_ok c -> sim P (map ph_tok) yes (make_text ext c) (make_text ext' (ph_cmd c)).
Proof.
  intros He Hc. destruct c; cbn [make_text ph_cmd]; try apply sim_raise; try (apply sim_ret; [rewrite ?map_app, ?ph_nl_if; reflexivity|exact I]). apply He. exact Hc.
Qed.
Lemma ph_emit t ts : emit (map ph_tok t) (ph_tst ts) = ph_tst (emit t ts).
Proof. unfold emit, ph_tst. cbn. rewrite map_app. reflexivity. Qed.
Lemma sim_exec_items P ext ext' items ds ts : ext_sim ext ext' -> List.Forall cmd_ok items -> List.Forall cmd_ok ds -> tst_ok ts ->
  sim P (fun p => (map ph_cmd p.1, ph_tst p.2)) (fun p => List.Forall cmd_ok p.1 /\ tst_ok p.2) (exec_items ext items ds ts) (exec_items ext' (map ph_cmd items) (map ph_cmd ds) (ph_tst ts)).
Proof.
  intros He Hi. revert ds ts. induction Hi as [|c r Hc Hr IH]; intros ds ts Hd Ht; cbn [exec_items map]; [apply sim_ret; [reflexivity|auto]|]. cbv zeta.
  eapply sim_bind; [apply sim_make_text; [exact He|exact Hc]|]. intros t _. rewrite ph_emit, ph_deferred_text.
  destruct (deferred_text c) as [d|]; cbn [option_map]; [|apply IH; assumption].
  change [KText (map ph_tok d)] with (map ph_cmd [KText d]). rewrite <- map_app. apply IH; [|assumption]. apply List.Forall_app. split; [assumption|repeat constructor].
Qed.
Lemma sim_execute P ext ext' : ext_sim ext ext' -> forall c ts, cmd_ok c -> tst_ok ts -> sim P ph_tst tst_ok (execute ext c ts) (execute ext' (ph_cmd c) (ph_tst ts)).
Proof.
  intros He. fix IH 1. intros c ts Hc Ht.
  assert (D : forall c : cmd, cmd_ok c -> sim P ph_tst tst_ok (let! t := make_text ext c in ret (match deferred_text c with Some d => defer (KText d) (emit t ts) | None => emit t ts end))
    (let! t := make_text ext' (ph_cmd c) in ret (match deferred_text (ph_cmd c) with Some d => defer (KText d) (emit t (ph_tst ts)) | None => emit t (ph_tst ts) end))).
  { clear IH c Hc. intros c Hc. eapply sim_bind; [apply sim_make_text; [exact He|exact Hc]|]. intros t _. rewrite ph_emit, ph_deferred_text. apply sim_ret; [destruct (deferred_text c); reflexivity|].
    destruct (deferred_text c); [|exact Ht]. constructor; [exact I|exact Ht]. }
  destruct c as [t|t d|g t|g t|g|r|items|items].
  - exact (D (KText t) I).
  - exact (D (KTextDefer t d) I).
  - exact (D (KOpenClose g t) I).
  - exact (D (KOpenManual g t) I).
  - exact (D (KOpen g) I).
  - exact (D (KExternal r) Hc).
  - cbn [execute ph_cmd]. eapply sim_bind; [apply (sim_exec_items P ext ext' items [] ts He); [apply batch_defer_ok, Hc|constructor|exact Ht]|]. intros [ds ts'] [H1 H2]. cbn [fst snd] in *. apply sim_ret.
    + unfold defer, ph_tst. cbn. rewrite map_rev. reflexivity.
    + constructor; [|exact H2]. apply batch_ok. apply List.Forall_forall. intros x Hx. apply in_rev in Hx. revert x Hx. apply List.Forall_forall, H1.
  - cbn [execute ph_cmd]. clear D. revert ts Ht Hc. induction items as [|x r IHr]; intros ts Ht Hc; cbn [map]; [apply sim_ret; [reflexivity|exact Ht]|].
    destruct Hc as [Hx Hr]. eapply sim_bind; [apply IH; [exact Hx|exact Ht]|]. intros ts' Ht'. apply IHr; [exact Ht'|exact Hr].
Qed.
Lemma sim_items_of P c : cmd_ok c -> sim P (map ph_cmd) (List.Forall cmd_ok) (items_of c) (items_of (ph_cmd c)).
Proof. destruct c; cbn [items_of ph_cmd]; intros H; try apply sim_raise; (apply sim_ret; [reflexivity|apply batch_ok, H]). Qed.

(** ** Conditions on the node *)
Definition has (x : str) (s : st) (i : id) : Prop := exists n ty, st_heap s !! i = Some n /\ n_attrs n !! a_types = Some (VStrs ty) /\ In x ty.
Definition starts (x : str) (s : st) (i : id) : Prop :=
  exists n ty, st_heap s !! i = Some n /\ level_type (n_cls n) = Some x /\ n_attrs n !! a_types = Some (VStrs ty) /\ head ty = Some x.
Definition flagged (s : st) (i : id) : Prop := exists n, st_heap s !! i = Some n /\ n_attrs n !! a_must_close_p_tag = Some (VBool true).
Lemma has_grown x s s' i : grown s s' -> has x s i -> has x s' i.
Proof. intros G (n & ty & Hn & Ht & Hx). destruct (gn_node _ _ G _ _ Hn) as (n' & Hn' & [_ E _ _]). destruct (E _ Ht) as (ty' & Ht' & I' & _). exists n', ty'. auto. Qed.
Lemma starts_grown x s s' i : grown s s' -> starts x s i -> starts x s' i.
Proof.
  intros G (n & ty & Hn & Hl & Ht & Hx). destruct (gn_node _ _ G _ _ Hn) as (n' & Hn' & [E1 E _ _]). destruct (E _ Ht) as (ty' & Ht' & _ & L). exists n', ty'. rewrite E1. auto.
Qed.
Lemma flagged_grown s s' i : grown s s' -> flagged s i -> flagged s' i.
Proof. intros G (n & Hn & Hf). destruct (gn_node _ _ G _ _ Hn) as (n' & Hn' & [_ _ E _]). exists n'. auto. Qed.
Definition of_cls (p : cls -> bool) (s : st) (i : id) : Prop := exists n, st_heap s !! i = Some n /\ p (n_cls n) = true.
Lemma of_cls_grown p s s' i : grown s s' -> of_cls p s i -> of_cls p s' i.
Proof. intros G (n & Hn & Hp). destruct (gn_node _ _ G _ _ Hn) as (n' & Hn' & [E _ _ _]). exists n'. rewrite E. auto. Qed.
(** A node that may be visited: if it is the last step of a proof, it is marked as such. *)
Definition visitable (i : id) : pre.
Proof.
  exists (fun a b => marked i = true -> has t_last a i /\ has t_last b (ph i)). intros a b a' b' G1 G2 H E. destruct (H E). split; eapply has_grown; eassumption.
Defined.
Definition tagclass (c : cls) : bool := match level_type c with Some _ => false | None => negb (is_reference c) end.
Definition taggable (i : id) : pre.
Proof.
  exists (fun a b => (of_cls tagclass a i /\ (marked i = true -> has t_last a i /\ has t_last b (ph i))) \/ exists L, starts L a i /\ starts L b (ph i)).
  intros a b a' b' G1 G2 [[H1 H2]|(L & H1 & H2)]; [left|right].
  - split; [eapply of_cls_grown; eassumption|]. intros E. destruct (H2 E). split; eapply has_grown; eassumption.
  - exists L. split; eapply starts_grown; eassumption.
Defined.
Definition class_is (p : cls -> bool) (i : id) : pre.
Proof. exists (fun a b => of_cls p a i). intros a b a' b' G1 G2 H. eapply of_cls_grown; eassumption. Defined.
Definition leavable (i : id) : pre.
Proof.
  exists (fun a b => opened i = true -> flagged a i /\ flagged b (ph i)). intros a b a' b' G1 G2 H E. destruct (H E). split; eapply flagged_grown; eassumption.
Defined.

Lemma step_classes c : subclass_any c [CStep] = true -> tagclass c = true /\ dispatch visit_defined c = Some CStep /\ subclass c CURL = false.
Proof. destruct c; vm_compute; intros H; try discriminate; auto. Qed.
Lemma canon_cls i n n0 : canon i n = canon i n0 -> n_cls n = n_cls n0.
Proof. intros E. exact (f_equal n_cls E). Qed.
Lemma canon_parent i n n0 : canon i n = canon i n0 -> n_parent n = n_parent n0.
Proof. intros E. exact (f_equal n_parent E). Qed.
Lemma canon_kids i n n0 : canon i n = canon i n0 -> kids n = kids n0.
Proof. intros E. exact (f_equal n_children E). Qed.
Lemma old_node a b i n : rel a b -> st_heap a !! i = Some n -> i < n1 -> exists n0, h0 !! i = Some n0 /\ canon i n = canon i n0.
Proof.
  intros R Hn Hi. destruct (r_old _ _ R _ _ Hi Hn) as [n0 Hn0]. exists n0. split; [assumption|]. destruct (gn_node _ _ (r_start _ _ R) _ _ Hn0) as (n' & Hn' & G).
  assert (n' = n) as -> by congruence. apply (gr_canon _ _ _ G Hi).
Qed.
Lemma marked_old i : marked i = true -> i < n1.
Proof. unfold marked. destruct (h0 !! i) as [n|] eqn:E; [|discriminate]. intros _. exact (F0 _ _ E). Qed.
Lemma find_some_true {A} (f : A -> bool) l x : find f l = Some x -> f x = true.
Proof. intros H. apply find_some in H. apply H. Qed.
Lemma marked_inv x : marked x = true -> exists n p q, h0 !! x = Some n /\ n_parent n = Some p /\ h0 !! p = Some q /\ dispatch visit_defined (n_cls q) = Some CProof /\
  find stepb (rev (kids q)) = Some x /\ subclass_any (n_cls n) [CStep] = true.
Proof.
  unfold marked. destruct (h0 !! x) as [n|] eqn:En; [|discriminate]. destruct (n_parent n) as [p|] eqn:Ep; [|discriminate]. destruct (h0 !! p) as [q|] eqn:Eq; [|discriminate].
  destruct (dispatch visit_defined (n_cls q)) as [d|] eqn:Ed; [|discriminate]. destruct d; try discriminate. destruct (find stepb (rev (kids q))) as [y|] eqn:Ef; [|discriminate].
  intros E. apply Nat.eqb_eq in E as ->. exists n, p, q. repeat (split; [first [assumption|reflexivity]|]). apply find_some_true in Ef. unfold stepb in Ef. rewrite En in Ef. exact Ef.
Qed.
Lemma marked_class a b i n : rel a b -> st_heap a !! i = Some n -> marked i = true -> subclass_any (n_cls n) [CStep] = true.
Proof.
  intros R Hn Hm. destruct (old_node _ _ _ _ R Hn (marked_old _ Hm)) as (n0 & Hn0 & E). destruct (marked_inv _ Hm) as (m & p & q & H1 & _ & _ & _ & _ & H2).
  assert (m = n0) as -> by congruence. rewrite (canon_cls _ _ _ E). exact H2.
Qed.

(** Changing the types of a node. *)
Definition mild (c : cls) (i : id) (f : list str -> list str) : Prop :=
  forall l, can c i (f l) = can c i l /\ (forall x, In x l -> In x (f l)) /\ (forall L, level_type c = Some L -> head l = Some L -> head (f l) = Some L).
Definition typed_as (n : node) (ty : list str) : node := set_n_attr a_types (VStrs ty) n.
Lemma grew_typed i n ty f : n_attrs n !! a_types = Some (VStrs ty) -> (i < n1 -> mild (n_cls n) i f) -> (forall x, In x ty -> In x (f ty)) ->
  (forall L, level_type (n_cls n) = Some L -> head ty = Some L -> head (f ty) = Some L) -> grew i n (typed_as n (f ty)).
Proof.
  intros Ht Hm H1 H2. split; [reflexivity| | |].
  - intros ty' Ht'. assert (ty' = ty) as -> by congruence. exists (f ty). split; [apply lookup_insert|]. auto.
  - intros Hf. cbn. rewrite lookup_insert_ne by discriminate. exact Hf.
  - intros Hi. destruct (Hm Hi ty) as (E & _ & _). unfold canon, typed_as. cbn [set_n_attr n_cls n_parent n_children n_attrs kids].
    assert (X : alter (canv (n_cls n) i) a_types (<[a_types:=VStrs (f ty)]> (n_attrs n)) = alter (canv (n_cls n) i) a_types (n_attrs n)).
    { apply map_eq. intros y. destruct (decide (y = a_types)) as [->|D].
      - rewrite !lookup_alter, lookup_insert, Ht. cbn. rewrite E. reflexivity.
      - rewrite !lookup_alter_ne, lookup_insert_ne by congruence. reflexivity. }
    rewrite X. reflexivity.
Qed.
Lemma agree_typed i n n' ty ty' : agree i n n' -> can (n_cls n) i ty' = can (n_cls n) i ty -> agree i (typed_as n ty) (typed_as n' ty').
Proof.
  intros A E. apply agree_intro; [exact (agree_cls _ _ _ A)|exact (agree_parent _ _ _ A)|exact (agree_kids _ _ _ A)|]. pose proof (agree_attrs _ _ _ A) as B. pose proof (agree_cls _ _ _ A) as C.
  apply map_eq. intros y. rewrite lookup_fmap. destruct (decide (y = a_types)) as [->|D].
  - rewrite !canon_types. cbn [typed_as set_n_attr n_attrs n_cls]. rewrite !lookup_insert. cbn. rewrite C, E. reflexivity.
  - apply (f_equal (lookup y)) in B. rewrite lookup_fmap in B. unfold canon in *. cbn [typed_as set_n_attr n_attrs n_cls] in *.
    destruct (opened i).
    + destruct (decide (y = a_must_close_p_tag)) as [->|D2]; [rewrite !lookup_delete; reflexivity|]. rewrite !lookup_delete_ne, !lookup_alter_ne in B |- * by congruence. rewrite !lookup_insert_ne by congruence. exact B.
    + rewrite !lookup_alter_ne in B |- * by congruence. rewrite !lookup_insert_ne by congruence. exact B.
Qed.
Lemma retype a b i n ty f : rel a b -> st_heap a !! i = Some n -> n_attrs n !! a_types = Some (VStrs ty) -> mild (n_cls n) i f ->
  exists n' ty', st_heap b !! ph i = Some n' /\ n_cls n' = n_cls n /\ n_attrs n' !! a_types = Some (VStrs ty') /\ can (n_cls n) i ty' = can (n_cls n) i ty /\
    rel (upd a i (typed_as n (f ty))) (upd b (ph i) (typed_as n' (f ty'))) /\ grown a (upd a i (typed_as n (f ty))) /\ grown b (upd b (ph i) (typed_as n' (f ty'))).
Proof.
  intros R Hn Ht Hm. destruct (r_node _ _ R _ _ Hn) as (n' & Hn' & A). destruct (agree_types _ _ _ _ A Ht) as (ty' & Ht' & E). exists n', ty'.
  pose proof (agree_cls _ _ _ A) as C. repeat (split; [assumption|]).
  assert (G : grew i n (typed_as n (f ty))) by (apply grew_typed; [assumption|intros _; assumption|apply Hm|apply Hm]).
  assert (G' : grew (ph i) n' (typed_as n' (f ty'))).
  { apply grew_typed; [assumption| |apply Hm|rewrite C; apply Hm]. intros Hi. rewrite C. assert (i < n1) by (destruct (Nat.lt_ge_cases i n1) as [|Hg]; [assumption|apply ph_ge in Hg; lia]).
    rewrite ph_old by assumption. exact Hm. }
  split; [|split; eapply grown_upd; eassumption].
  eapply rel_upd; [exact R|exact Hn|exact Hn'|exact G| |].
  - apply agree_typed; [assumption|]. destruct (Hm ty') as (-> & _). destruct (Hm ty) as (-> & _). assumption.
  - intros Hi y. exact (r_apart _ _ R i n Hi Hn y).
Qed.

(** ** Visit methods *)
Lemma head_cons (x : str) l : head l = Some x -> exists r, l = x :: r.
Proof. destruct l as [|y r]; [discriminate|]. intros [= ->]. eauto. Qed.
Lemma sim_node_tag_full i tag add inner outer sel : sim (taggable i) ph_cmd cmd_ok (node_tag_full i tag add inner outer sel) (node_tag_full (ph i) tag add inner outer sel).
Proof.
  intros a b a1 x R HP E. unfold node_tag_full in *. apply bind_ok in E as (a2 & c & E1 & E). apply cls_of_ok in E1 as (-> & n & Hn & ->).
  apply bind_ok in E as (a2 & ty & E1 & E). apply get_strs_ok in E1 as (-> & n2 & Hn2 & Ht). assert (n2 = n) as -> by congruence. clear Hn2.
  destruct (r_node _ _ R _ _ Hn) as (n' & Hn' & A). destruct (agree_types _ _ _ _ A Ht) as (ty' & Ht' & Ec).
  assert (D : dedup ty' = dedup ty).
  { destruct HP as [[(m & Hm & Hc) Hl]|(L & (m & l & Hm & Hc & Hl & Hh) & (m' & l' & Hm' & Hc' & Hl' & Hh'))].
    - assert (m = n) as -> by congruence. unfold can in Ec. unfold tagclass in Hc. destruct (level_type (n_cls n)); [discriminate|]. apply negb_true_iff in Hc. rewrite Hc in Ec. destruct (marked i); [|congruence].
      destruct (Hl eq_refl) as [(q & l & Hq & Hql & Hx) (q' & l' & Hq' & Hql' & Hx')]. assert (q = n) as -> by congruence. assert (q' = n') as -> by congruence.
      assert (l = ty) as -> by congruence. assert (l' = ty') as -> by congruence. rewrite !dedup_last in Ec by assumption. exact Ec.
    - assert (m = n) as -> by congruence. assert (m' = n') as -> by congruence. assert (l = ty) as -> by congruence. assert (l' = ty') as -> by congruence.
      apply head_cons in Hh as [r ->]. apply head_cons in Hh' as [r' ->]. unfold can in Ec. rewrite Hc, !dedup_twice in Ec. exact Ec. }
  assert (S : sim any ph_cmd cmd_ok
    (let! label := getattr i a_label in let! nodeid := getattr i a_nodeid in ret (KOpen (MkTag (lit tag) (str_or_empty label) (dedup ((name_lower (n_cls n) :: ty) ++ add)) inner outer sel (match nodeid with VNone => None | v => Some (fmt_val v) end))))
    (let! label := getattr (ph i) a_label in let! nodeid := getattr (ph i) a_nodeid in ret (KOpen (MkTag (lit tag) (str_or_empty label) (dedup ((name_lower (n_cls n) :: ty') ++ add)) inner outer sel (match nodeid with VNone => None | v => Some (fmt_val v) end))))).
  { agb. eapply sim_bind; [ag|]. intros v _. apply sim_ret; [|exact I]. cbn [ph_cmd]. rewrite (dedup_congr _ add _ _ D). destruct v; reflexivity. }
  destruct (S a b a1 x R I E) as (b1 & Eb & Rest). exists b1. split; [|exact Rest]. rewrite <- Eb, <- (agree_cls _ _ _ A).
  unfold cls_of. unfold bind at 1 2. rewrite (get_node_eq _ _ _ Hn'). cbn [ret]. unfold bind at 1. unfold get_strs, getattr at 1, bind, get_node. rewrite Hn', Ht'. reflexivity.
Qed.
Lemma sim_node_tag i tag : sim (taggable i) ph_cmd cmd_ok (node_tag i tag) (node_tag (ph i) tag).
Proof. apply sim_node_tag_full. Qed.
Lemma sim_node_tag_inline i tag : sim (taggable i) ph_cmd cmd_ok (node_tag_inline i tag) (node_tag_inline (ph i) tag).
Proof. apply sim_node_tag_full. Qed.
Hint Resolve sim_node_tag_full sim_node_tag sim_node_tag_inline : ag.
Ltac ag_ok := solve [exact I | assumption | repeat (match goal with |- context [if ?c then _ else _] => destruct c | |- context [match ?c with _ => _ end] => is_var c; destruct c end); cbn [cmd_ok app]; repeat first [exact I | assumption | split]].
Ltac ag_eq := cbn [fst snd ph_cmd ph_tst ph_tok ph_pair option_map map]; rewrite ?map_app; repeat (ag_norm; match goal with |- context [option_map _ ?c] => is_var c; destruct c; cbn [option_map] | |- context [if ?c then _ else _] => destruct c | |- context [match ?c with [] => _ | _ => _ end] => is_var c; destruct c end); reflexivity.
Ltac agr := lazymatch goal with |- sim _ _ _ (ret _) (ret _) => apply sim_ret; [first [reflexivity|ag_eq]|ag_ok] end.
Ltac ag ::= repeat (ag_norm; first [agr|ag1]).
Lemma sim_visit_manuscript i : sim (taggable i) ph_cmd cmd_ok (visit_manuscript i) (visit_manuscript (ph i)).
Proof. unfold visit_manuscript. ag. Qed.
Lemma sim_visit_author i : sim (taggable i) ph_cmd cmd_ok (visit_author i) (visit_author (ph i)).
Proof. unfold visit_author. ag. Qed.
Lemma sim_visit_abstract i : sim (taggable i) ph_cmd cmd_ok (visit_abstract i) (visit_abstract (ph i)).
Proof. unfold visit_abstract. ag. Qed.
Lemma sim_visit_paragraph i : sim (taggable i) ph_cmd cmd_ok (visit_paragraph i) (visit_paragraph (ph i)).
Proof. unfold visit_paragraph. ag. Qed.
Lemma sim_visit_step i : sim (taggable i) ph_cmd cmd_ok (visit_step i) (visit_step (ph i)).
Proof. unfold visit_step. ag. Qed.
Lemma sim_visit_contents i : sim (taggable i) ph_cmd cmd_ok (visit_contents i) (visit_contents (ph i)).
Proof. unfold visit_contents. ag. Qed.
Lemma sim_visit_note fuel i : sim (taggable i) ph_cmd cmd_ok (visit_note fuel i) (visit_note fuel (ph i)).
Proof. unfold visit_note. ag. Qed.
Lemma sim_visit_math i : sim (taggable i) ph_cmd cmd_ok (visit_math i) (visit_math (ph i)).
Proof. unfold visit_math. ag. Qed.
Lemma sim_visit_mathblock i : sim (taggable i) ph_cmd cmd_ok (visit_mathblock i) (visit_mathblock (ph i)).
Proof. unfold visit_mathblock. ag. Qed.
Lemma sim_visit_sourcecode hl i : sim (taggable i) ph_cmd cmd_ok (visit_sourcecode hl i) (visit_sourcecode hl (ph i)).
Proof. unfold visit_sourcecode. ag. Qed.
Lemma sim_visit_code i : sim (taggable i) ph_cmd cmd_ok (visit_code i) (visit_code (ph i)).
Proof. unfold visit_code. ag. Qed.
Lemma sim_visit_codeblock i : sim (taggable i) ph_cmd cmd_ok (visit_codeblock i) (visit_codeblock (ph i)).
Proof. unfold visit_codeblock. ag. Qed.
Lemma sim_visit_algorithm i : sim (taggable i) ph_cmd cmd_ok (visit_algorithm i) (visit_algorithm (ph i)).
Proof. unfold visit_algorithm. ag. Qed.
Lemma sim_visit_text i : sim (taggable i) ph_cmd cmd_ok (visit_text i) (visit_text (ph i)).
Proof. unfold visit_text. ag. Qed.
Lemma sim_visit_error i : sim (taggable i) ph_cmd cmd_ok (visit_error i) (visit_error (ph i)).
Proof. unfold visit_error. ag. Qed.
Lemma sim_visit_construct i : sim (taggable i) ph_cmd cmd_ok (visit_construct i) (visit_construct (ph i)).
Proof. unfold visit_construct. ag. Qed.
Lemma sim_visit_bibliography i : sim (taggable i) ph_cmd cmd_ok (visit_bibliography i) (visit_bibliography (ph i)).
Proof. unfold visit_bibliography. ag. Qed.
Lemma sim_visit_subproof i : sim (taggable i) ph_cmd cmd_ok (visit_subproof i) (visit_subproof (ph i)).
Proof. unfold visit_subproof. ag. Qed.
Lemma sim_visit_draft i : sim (taggable i) ph_cmd cmd_ok (visit_draft i) (visit_draft (ph i)).
Proof. unfold visit_draft. ag. Qed.
Lemma sim_visit_figure fuel i : sim (taggable i) ph_cmd cmd_ok (visit_figure fuel i) (visit_figure fuel (ph i)).
Proof. unfold visit_figure. ag. Qed.
Lemma sim_visit_caption fuel i : sim (taggable i) ph_cmd cmd_ok (visit_caption fuel i) (visit_caption fuel (ph i)).
Proof. unfold visit_caption. ag. Qed.

(** The default method shows the types. *)
Definition nodeclass (c : cls) : bool := tagclass c && negb (subclass_any c [CStep]).
Lemma sim_types i : sim (class_is nodeclass i) ph_val yes (getattr i a_types) (getattr (ph i) a_types).
Proof.
  intros a b a1 v R (n & Hn & Hc) E. apply getattr_ok in E as (-> & m & Hm & Hv). assert (m = n) as -> by congruence. destruct (r_node _ _ R _ _ Hn) as (n' & Hn' & A).
  exists b. split; [|split; [assumption|split; [apply grown_refl|split; [apply grown_refl|exact I]]]].
  unfold nodeclass in Hc. apply andb_true_iff in Hc as [H1 H2]. apply negb_true_iff in H2.
  assert (Em : marked i = false) by (destruct (marked i) eqn:Em; [|reflexivity]; rewrite (marked_class _ _ _ _ R Hn Em) in H2; discriminate).
  assert (K : forall l, can (n_cls n) i l = l).
  { intros l. unfold can. unfold tagclass in H1. destruct (level_type (n_cls n)); [discriminate|]. apply negb_true_iff in H1. rewrite H1, Em. reflexivity. }
  assert (K2 : forall w, canv (n_cls n) i w = w) by (intros []; cbn [canv]; rewrite ?K; reflexivity).
  pose proof (agree_attrs _ _ _ A) as B. apply (f_equal (lookup a_types)) in B. rewrite lookup_fmap, !canon_types, Hv, (agree_cls _ _ _ A) in B. cbn in B. rewrite K2 in B.
  unfold getattr. rewrite (bind_eq _ _ _ _ _ (get_node_eq _ _ _ Hn')). destruct (n_attrs n' !! a_types) as [w|]; [|discriminate]. cbn in B. rewrite K2 in B. injection B as ->. reflexivity.
Qed.
Lemma sim_repr_attr i a : In a [a_label; a_types; a_nonum; a_number; a_target; a_overwrite_reftext] -> sim (class_is nodeclass i) (fun x => x) yes (repr_attr i a) (repr_attr (ph i) a).
Proof.
  intros Ha. unfold repr_attr. apply (sim_bind _ ph_val _ yes).
  - destruct (decide (a = a_types)) as [->|D]; [apply sim_types|]. apply sim_getattr; [assumption|]. intros ->. cbn in Ha. repeat destruct Ha as [Ha|Ha]; congruence.
  - intros v _. destruct v; cbn [ph_val]; ag.
Qed.
Lemma sim_mapM_in {A B D} P (f : B -> D) Q (g : A -> M B) (g' : A -> M D) l : (forall x, In x l -> sim P f Q (g x) (g' x)) -> sim P (map f) (List.Forall Q) (mapM g l) (mapM g' l).
Proof.
  intros H. induction l as [|x l IH]; cbn [mapM map]; [apply sim_ret; [reflexivity|constructor]|]. eapply sim_bind; [apply H; left; reflexivity|]. intros y Hy.
  eapply sim_bind; [apply IH; intros z Hz; apply H; right; exact Hz|]. intros ys Hys. apply sim_ret; [reflexivity|constructor; assumption].
Qed.
Lemma sim_visit_node i : sim (class_is nodeclass i) ph_cmd cmd_ok (visit_node i) (visit_node (ph i)).
Proof.
  unfold visit_node. eapply (sim_bind _ (fun x : str => x) _ yes); [|intros r _; apply sim_ret; [reflexivity|ag_ok]]. unfold repr_node. agb.
  eapply (sim_bind _ (map (fun x : list str => x))); [apply sim_mapM_in; intros x Hx; apply sim_repr_attr; cbn in *; tauto|]. intros xs _. rewrite map_id.
  eapply sim_bind; [apply sim_parent_of|]. intros p _. eapply (sim_bind _ (fun x : list str => x) _ yes); [destruct p; cbn [option_map]; ag|]. intros ps _.
  eapply (sim_bind _ (map (fun x : list str => x)) _ yes).
  { destruct (subclass a CBaseReference); [|ag]. eapply sim_weak; [|apply sim_mapM_in; intros x Hx; apply sim_repr_attr; cbn in *; tauto]. intros; exact I. }
  intros ys _. rewrite map_id. cbv zeta. eapply sim_bind; [apply sim_children_of|]. intros cs _.
  destruct cs as [|x cs]; [ag|]. change (map ph (x :: cs)) with (ph x :: map ph cs). cbv iota. change (ph x :: map ph cs) with (map ph (x :: cs)).
  eapply (sim_bind _ (map (fun x : str => x))); [apply (sim_mapM _ ph (fun x : str => x) yes); intros y; eapply (sim_bind _ (fun x : cls => x) _ yes); [apply sim_cls_of|intros e _; apply sim_ret; [reflexivity|exact I]]|]. intros names _. rewrite map_id. ag.
Qed.
Lemma sim_visit_span i : sim (taggable i) ph_cmd cmd_ok (visit_span i) (visit_span (ph i)).
Proof.
  unfold visit_span. eapply sim_bind; [ag|]. intros nt Hnt. eapply (sim_bind _ (map (map ph_cmd)) _ (List.Forall (List.Forall cmd_ok))).
  - apply sim_mapM_in. intros p Hp. eapply sim_bind; [apply sim_getattr; intros E; cbn in Hp; repeat destruct Hp as [<-|Hp]; try discriminate; destruct Hp|].
    intros v _. rewrite ph_truthy. apply sim_ret; [destruct (truthy v); reflexivity|]. destruct (truthy v); [constructor; [exact I|constructor]|constructor].
  - intros cmds Hc. apply sim_ret; [cbn [ph_cmd map]; rewrite concat_map; reflexivity|]. apply batch_defer_ok. constructor; [exact Hnt|].
    clear Hnt. induction Hc as [|x l Hx Hl IH]; [constructor|]. cbn. apply List.Forall_app. auto.
Qed.
(** ** Titles *)
Lemma mk_attrs_plain c kw : forallb (fun p => plain_val p.2) (default_attrs c ++ kw) = true -> forall x v, mk_attrs c kw !! x = Some v -> plain_val v = true.
Proof.
  unfold mk_attrs. assert (G : forall l (m : gmap attr val), forallb (fun p => plain_val p.2) l = true -> (forall x v, m !! x = Some v -> plain_val v = true) ->
    forall x v, fold_left (fun m p => <[p.1 := p.2]> m) l m !! x = Some v -> plain_val v = true).
  { induction l as [|[y w] l IH]; intros m Hl Hm; [exact Hm|]. cbn [forallb fold_left fst snd] in *. apply andb_true_iff in Hl as [H1 H2]. apply IH; [exact H2|].
    intros x v. destruct (decide (y = x)) as [<-|D]; [rewrite lookup_insert; intros [= <-]; exact H1|]. rewrite lookup_insert_ne by assumption. apply Hm. }
  intros H. apply G; [exact H|]. intros x v Hv. rewrite lookup_empty in Hv. discriminate.
Qed.
Lemma sim_new_node P c kw : In c [CParagraph; CSpan; CText] -> forallb (fun p => plain_val p.2) (default_attrs c ++ kw) = true -> sim P ph (fun i => n1 <= i) (new_node c kw) (new_node c kw).
Proof.
  intros Hc Hk. apply sim_alloc; [exact Hc|reflexivity| |apply mk_attrs_plain, Hk]. unfold kids, mk_node. cbn [n_cls n_children]. destruct (has_children c); reflexivity.
Qed.
Lemma sim_title P label desc : sim P ph (fun i => n1 <= i) (make_title_node label desc) (make_title_node label desc).
Proof.
  unfold make_title_node. eapply sim_bind; [apply sim_new_node; [left; reflexivity|reflexivity]|]. intros para Np. cbv zeta.
  assert (G : forall cl x, sim P (fun u => u) yes
    match x with [] => ret tt | _ => let! span := new_node CSpan [(a_types, VStrs [cl])] in let! t := new_node CText [(a_text, VStr x)] in do! append span [t] in append para [span] end
    match x with [] => ret tt | _ => let! span := new_node CSpan [(a_types, VStrs [cl])] in let! t := new_node CText [(a_text, VStr x)] in do! append span [t] in append (ph para) [span] end).
  { intros cl x. destruct x as [|ch x]; [apply sim_ret; auto|]. eapply sim_bind; [apply sim_new_node; [right; left; reflexivity|reflexivity]|]. intros span Ns. cbn beta.
    eapply sim_bind; [apply sim_new_node; [right; right; left; reflexivity|reflexivity]|]. intros t Nt. cbn beta. unfold append. cbn [iterM].
    eapply (sim_bind _ (fun u : unit => u) _ yes); [|intros [] _].
    - eapply (sim_bind _ (fun u : unit => u) _ yes); [apply sim_append1; assumption|]. intros [] _. apply sim_ret; auto.
    - eapply (sim_bind _ (fun u : unit => u) _ yes); [apply sim_append1; assumption|]. intros [] _. apply sim_ret; auto. }
  eapply (sim_bind _ (fun u : unit => u) _ yes); [apply G|]. intros [] _. eapply (sim_bind _ (fun u : unit => u) _ yes); [apply G|]. intros [] _. apply sim_ret; [reflexivity|exact Np].
Qed.
Hint Resolve sim_title : ag.
Lemma sim_visit_theorem fuel i : sim (taggable i) ph_cmd cmd_ok (visit_theorem fuel i) (visit_theorem fuel (ph i)).
Proof. unfold visit_theorem. ag. Qed.
Lemma sim_visit_sketch i : sim (taggable i) ph_cmd cmd_ok (visit_sketch i) (visit_sketch (ph i)).
Proof. unfold visit_sketch. ag. Qed.
(** ** Bibliography *)
Lemma sim_label_text P i : sim P (fun x => x) yes (label_text i) (label_text (ph i)).
Proof. unfold label_text. ag. Qed.
Hint Resolve sim_label_text : ag.
Lemma sim_strip_dots P v : sim P (fun x => x) yes (strip_dots v) (strip_dots (ph_val v)).
Proof. unfold strip_dots. ag. Qed.
Lemma ph_tok_join sep xs : map ph_tok (tok_join sep xs) = tok_join (map ph_tok sep) (map (map ph_tok) xs).
Proof. induction xs as [|x [|y r] IH]; try reflexivity. cbn [tok_join map] in *. rewrite !map_app, IH. reflexivity. Qed.
Lemma ph_backlink ls idx : map (map ph_tok) (backlink_tags ls idx) = backlink_tags ls idx.
Proof. revert idx. induction ls as [|l r IH]; intros idx; [reflexivity|]. cbn [backlink_tags map]. rewrite IH. reflexivity. Qed.
Definition ph_parts (p : list tok * list tok * list tok) : list tok * list tok * list tok := (map ph_tok p.1.1, map ph_tok p.1.2, map ph_tok p.2).
Lemma sim_bibitem_parts P i : sim P ph_parts yes (bibitem_parts i) (bibitem_parts (ph i)).
Proof.
  unfold bibitem_parts. eapply sim_bind; [ag|]. intros author _. eapply sim_bind; [ag|]. intros title _. eapply sim_bind; [ag|]. intros number _. eapply sim_bind; [ag|]. intros kind _.
  agb. rename a into label.
  change (VStr (lit "article")) with (ph_val (VStr (lit "article"))) at 2. change (VStr (lit "book")) with (ph_val (VStr (lit "book"))) at 2. rewrite !ph_val_eqb.
  eapply (sim_bind P (map ph_val) _ yes); [ag|]. intros venue _. eapply sim_bind; [ag|]. intros year _. eapply (sim_bind P (map ph_val) _ yes); [ag|]. intros y _.
  eapply (sim_bind P (map (fun x : str => x))).
  { match goal with |- sim _ _ _ (mapM _ ?l) (mapM _ ?l') => replace l' with (map ph_val l) end; [apply sim_mapM; apply sim_strip_dots|]. rewrite !map_app. f_equal. destruct (truthy number); reflexivity. }
  intros parts _. rewrite map_id. eapply sim_bind; [ag|]. intros doi _. ag_norm. eapply (sim_bind P (map ph_tok) _ yes); [ag|]. intros dt _. agb. apply sim_ret; [|exact I]. unfold ph_parts. cbn [fst snd]. f_equal.
  destruct a as [|x r]; [reflexivity|]. rewrite !map_app, ph_tok_join, ph_backlink. reflexivity.
Qed.
Lemma ph_bibitem_text p : bibitem_text (ph_parts p) = map ph_tok (bibitem_text p).
Proof. destruct p as [[x d] y]. unfold bibitem_text, ph_parts. cbn [fst snd]. rewrite !map_app. destruct d; reflexivity. Qed.
Lemma sim_visit_bibitem i : sim (taggable i) ph_cmd cmd_ok (visit_bibitem i) (visit_bibitem (ph i)).
Proof. unfold visit_bibitem. eapply sim_bind; [apply sim_bibitem_parts|]. intros p _. eapply sim_bind; [ag|]. intros nt Hnt. apply sim_ret; [rewrite ph_bibitem_text; reflexivity|ag_ok]. Qed.

(** ** Methods that change types *)
Lemma get_strs_eq i a s n l : st_heap s !! i = Some n -> n_attrs n !! a = Some (VStrs l) -> get_strs i a s = (s, Ok l).
Proof. intros Hn Hl. unfold get_strs, getattr, bind, get_node. rewrite Hn, Hl. reflexivity. Qed.
Lemma cls_of_eq i s n : st_heap s !! i = Some n -> cls_of i s = (s, Ok (n_cls n)).
Proof. intros Hn. unfold cls_of, bind, get_node. rewrite Hn. reflexivity. Qed.
Definition sectclass (c : cls) : bool := match dispatch visit_defined c with Some CSection => true | _ => false end.
Lemma sim_visit_section fuel i : sim (class_is sectclass i) ph_cmd cmd_ok (visit_section fuel i) (visit_section fuel (ph i)).
Proof.
  intros a b a1 x R (n & Hn & Hc) E. unfold visit_section in *. apply bind_ok in E as (a2 & c & E1 & E). apply cls_of_ok in E1 as (-> & m & Hm & ->). assert (m = n) as -> by congruence. clear Hm.
  destruct (level (n_cls n)) as [lv|] eqn:El; [|discriminate]. set (L := lit "level-" ++ str_of_nat lv) in *.
  assert (Lt : level_type (n_cls n) = Some L). { unfold sectclass in Hc. unfold level_type. destruct (dispatch visit_defined (n_cls n)) as [[]|]; try discriminate. rewrite El. reflexivity. }
  apply bind_ok in E as (a2 & ty & E1 & E). apply get_strs_ok in E1 as (-> & m & Hm & Ht). assert (m = n) as -> by congruence. clear Hm.
  apply bind_ok in E as (a2 & [] & E1 & E). apply setattr_ok in E1 as (m & Hm & ->). assert (m = n) as -> by congruence. clear Hm.
  assert (Mi : mild (n_cls n) i (cons L)).
  { intros l. unfold can. rewrite Lt. split; [apply dedup_twice|]. split; [right; assumption|]. intros L' [= <-] _. reflexivity. }
  destruct (retype _ _ _ _ _ _ R Hn Ht Mi) as (n' & ty' & Hn' & Hc' & Ht' & Ec & R2 & G2 & G2'). fold (typed_as n (L :: ty)) in E.
  set (a2 := upd a i (typed_as n (L :: ty))) in *. set (b2 := upd b (ph i) (typed_as n' (L :: ty'))) in *.
  assert (S : sim (taggable i) ph_cmd cmd_ok
    (let! nonum := getattr i a_nonum in let! title := getattr i a_title in
     let! h := (if truthy nonum then ret (fmt_val title) else let! f := full_number fuel i in ret (fmt_opt f ++ lit ". " ++ fmt_val title)) in
     let! nt := node_tag i "section" in ret (KBatchDefer [nt; heading lv [TRaw h]]))
    (let! nonum := getattr (ph i) a_nonum in let! title := getattr (ph i) a_title in
     let! h := (if truthy nonum then ret (fmt_val title) else let! f := full_number fuel (ph i) in ret (fmt_opt f ++ lit ". " ++ fmt_val title)) in
     let! nt := node_tag (ph i) "section" in ret (KBatchDefer [nt; heading lv [TRaw h]]))) by ag.
  assert (HP : pr (taggable i) a2 b2).
  { right. exists L. split; [exists (typed_as n (L :: ty)), (L :: ty)|exists (typed_as n' (L :: ty')), (L :: ty')]; unfold a2, b2; cbn [upd st_heap typed_as set_n_attr n_cls n_attrs]; rewrite !lookup_insert; rewrite ?Hc'; auto. }
  destruct (S _ _ _ _ R2 HP E) as (b1 & Eb & R1 & G1 & G1' & Q). exists b1. split; [|split; [exact R1|split; [eapply grown_trans; eassumption|split; [eapply grown_trans; eassumption|exact Q]]]].
  rewrite (bind_eq _ _ _ _ _ (cls_of_eq _ _ _ Hn')), Hc', El. rewrite (bind_eq _ _ _ _ _ (get_strs_eq _ _ _ _ _ Hn' Ht')). fold L.
  unfold setattr. rewrite (bind_eq _ _ _ _ _ (mod_node_eq _ _ _ _ Hn')). exact Eb.
Qed.
(** Links: the type "reference" is added, once. *)
Definition linkclass (c : cls) : bool := Bool.eqb (subclass c CURL) (negb (is_reference c)) && match level_type c with None => negb (subclass_any c [CStep]) | Some _ => false end.
Definition ph_target (t : href_target) : href_target := match t with HNode i => HNode (ph i) | HStr x => HStr x end.
Definition ref_types (c : cls) (l : list str) : list str := if negb (subclass c CURL) && negb (str_mem t_ref l) then t_ref :: l else l.
Lemma ref_types_can a b c i n l : rel a b -> st_heap a !! i = Some n -> n_cls n = c -> linkclass c = true -> ref_types c l = can c i l.
Proof.
  intros R Hn Ec Hc. unfold linkclass in Hc. apply andb_true_iff in Hc as [H1 H2]. destruct (level_type c) eqn:El; [discriminate|]. apply negb_true_iff in H2. apply Bool.eqb_prop in H1.
  assert (Em : marked i = false) by (destruct (marked i) eqn:Em; [|reflexivity]; pose proof (marked_class _ _ _ _ R Hn Em) as X; rewrite Ec, H2 in X; discriminate).
  unfold ref_types, can. rewrite H1, El, Em, negb_involutive. destruct (is_reference c); [|reflexivity]. cbn [andb]. destruct (str_mem t_ref l); reflexivity.
Qed.
Lemma ref_types_mild a b c i n : rel a b -> st_heap a !! i = Some n -> n_cls n = c -> linkclass c = true -> mild c i (ref_types c).
Proof.
  intros R Hn Ec Hc l. pose proof (ref_types_can a b c i n) as K. rewrite <- (K (ref_types c l)), <- (K l) by assumption. split; [|split].
  - unfold ref_types. destruct (subclass c CURL); [reflexivity|]. cbn [negb andb]. destruct (str_mem t_ref l) eqn:E; cbn [negb].
    + rewrite E. reflexivity.
    + assert (str_mem t_ref (t_ref :: l) = true) as -> by (apply str_mem_In; left; reflexivity). reflexivity.
  - intros x Hx. unfold ref_types. destruct (_ && _); [right|]; assumption.
  - intros L HL. unfold linkclass in Hc. rewrite HL in Hc. rewrite andb_false_r in Hc. discriminate.
Qed.
Lemma cls_eqb_true c d : cls_eqb c d = true -> c = d.
Proof. destruct c, d; try reflexivity; discriminate. Qed.
Lemma cls_eqb_same c : cls_eqb c c = true.
Proof. destruct c; reflexivity. Qed.
Lemma sim_make_ahref fuel i t href id_ add : sim (class_is linkclass i) (map ph_tok) yes (make_ahref fuel i t href id_ add) (make_ahref fuel (ph i) (ph_target t) href id_ add).
Proof.
  intros a b a1 x R (n & Hn & Hc) E. unfold make_ahref in *. apply bind_ok in E as (a2 & c & E1 & E). apply cls_of_ok in E1 as (-> & m & Hm & ->). assert (m = n) as -> by congruence. clear Hm.
  destruct (r_node _ _ R _ _ Hn) as (n' & Hn' & A). rewrite (bind_eq _ _ _ _ _ (cls_of_eq _ _ _ Hn')), (agree_cls _ _ _ A). set (c := n_cls n) in *.
  match type of E with ?m a = _ => match goal with |- exists b1, ?m' b = _ /\ _ => assert (S : sim (class_is (fun d => cls_eqb d c) i) (map ph_tok) yes m m') end end.
  2: { apply (S a b a1 x R); [|exact E]. exists n. split; [exact Hn|apply cls_eqb_same]. }
  clearbody c. clear a b a1 x R n Hn E n' Hn' A. eapply (sim_bind _ (fun c : unit => c) _ yes); [destruct t as [t|[|]]; cbn [ph_target]; ag|]. intros [] _.
  apply sim_get_node. intros n0 n0' A0. rewrite (agree_attr _ _ _ a_overwrite_reftext A0) by discriminate.
  eapply (sim_bind _ (fun x : str => x) _ yes).
  { destruct (n_attrs n0 !! a_overwrite_reftext) as [v|]; cbn [fmap option_fmap option_map]; [rewrite ph_truthy, ph_fmt; destruct (truthy v); [ag|]|]; destruct t; cbn [ph_target]; ag. }
  intros reftxt _. clear n0 n0' A0. intros a b a1 x R (n & Hn & Hd) E. apply cls_eqb_true in Hd.
  apply bind_ok in E as (a2 & ty & E1 & E). apply get_strs_ok in E1 as (-> & m & Hm & Ht). assert (m = n) as -> by congruence. clear Hm.
  cbv zeta in E |- *. change (if negb (subclass c CURL) && negb (str_mem (lit "reference") ty) then lit "reference" :: ty else ty) with (ref_types c ty) in E. apply bind_ok in E as (a2 & [] & E1 & E). apply setattr_ok in E1 as (m & Hm & ->). assert (m = n) as -> by congruence. clear Hm. apply ret_ok in E as [-> ->].
  assert (Mi := ref_types_mild _ _ c i n R Hn Hd Hc). rewrite <- Hd in Mi at 1.
  destruct (retype _ _ _ _ _ _ R Hn Ht Mi) as (n' & ty' & Hn' & Hc' & Ht' & Ec & R2 & G2 & G2').
  exists (upd b (ph i) (typed_as n' (ref_types c ty'))). split; [|auto 10]. rewrite (bind_eq _ _ _ _ _ (get_strs_eq _ _ _ _ _ Hn' Ht')). change (if negb (subclass c CURL) && negb (str_mem (lit "reference") ty') then lit "reference" :: ty' else ty') with (ref_types c ty').
  unfold setattr. rewrite (bind_eq _ _ _ _ _ (mod_node_eq _ _ _ _ Hn')). unfold ret.
  assert (ref_types c ty' = ref_types c ty) as Er by (rewrite !(ref_types_can _ _ c i n _ R Hn Hd Hc); rewrite Hd in Ec; exact Ec).
  rewrite Er. reflexivity.
Qed.
Lemma sim_ahref_node fuel i t href id_ add : sim (class_is linkclass i) (map ph_tok) yes (make_ahref fuel i (HNode t) href id_ add) (make_ahref fuel (ph i) (HNode (ph t)) href id_ add).
Proof. exact (sim_make_ahref fuel i (HNode t) href id_ add). Qed.
Lemma sim_ahref_str fuel i t href id_ add : sim (class_is linkclass i) (map ph_tok) yes (make_ahref fuel i (HStr t) href id_ add) (make_ahref fuel (ph i) (HStr t) href id_ add).
Proof. exact (sim_make_ahref fuel i (HStr t) href id_ add). Qed.
Hint Resolve sim_ahref_node sim_ahref_str : ag.
Lemma sim_visit_reference fuel i : sim (class_is linkclass i) ph_cmd cmd_ok (visit_reference fuel i) (visit_reference fuel (ph i)).
Proof. unfold visit_reference. ag. Qed.
Lemma sim_visit_url fuel i : sim (class_is linkclass i) ph_cmd cmd_ok (visit_url fuel i) (visit_url fuel (ph i)).
Proof. unfold visit_url. ag. Qed.
Lemma sim_cite_tags fuel i label ts idx : sim (class_is linkclass i) (map (map ph_tok)) yes (cite_tags fuel i label ts idx) (cite_tags fuel (ph i) label (map ph ts) idx).
Proof. revert idx. induction ts as [|t ts IH]; intros idx; cbn [cite_tags map]; ag. Qed.
Lemma sim_visit_cite fuel i : sim (class_is linkclass i) ph_cmd cmd_ok (visit_cite fuel i) (visit_cite fuel (ph i)).
Proof.
  unfold visit_cite. eapply sim_bind; [ag|]. intros tv _. destruct tv as [| | | | | | |ts|]; try apply sim_raise. cbn [ph_val].
  assert (G : forall ts, sim (class_is linkclass i) ph_cmd cmd_ok (let! label := label_text i in let! xs := cite_tags fuel i label ts 0 in ret (KText ([raw "["; TOpen (lit "span") [AQ (lit "id") label]] ++ tok_join [raw ", "] xs ++ [ctag "span"; raw "]"])))
    (let! label := label_text (ph i) in let! xs := cite_tags fuel (ph i) label (map ph ts) 0 in ret (KText ([raw "["; TOpen (lit "span") [AQ (lit "id") label]] ++ tok_join [raw ", "] xs ++ [ctag "span"; raw "]"])))).
  { clear ts. intros ts. agb. eapply sim_bind; [apply sim_cite_tags|]. intros xs _. apply sim_ret; [|exact I]. cbn [ph_cmd]. rewrite !map_app, ph_tok_join. reflexivity. }
  destruct ts as [|t [|u r]]; [exact (G [])| |exact (G (t :: u :: r))]. clear G. cbn [map]. ag.
Qed.

(** ** Proofs *)
Lemma old_child i n0 y : h0 !! i = Some n0 -> In y (kids n0) -> exists m, h0 !! y = Some m /\ n_parent m = Some i.
Proof. intros H Hy. apply (cons_parent _ C0). exists n0. split; [assumption|]. apply elem_of_list_In. assumption. Qed.
Lemma first_go_find s l : (forall y, In y l -> exists m, st_heap s !! y = Some m /\ stepb y = subclass_any (n_cls m) [CStep]) ->
  forall j s' r, first_of_type_go [CStep] l j s = (s', Ok r) -> s' = s /\ option_map fst r = find stepb l.
Proof.
  induction l as [|y l IH]; intros H j s' r E; cbn [first_of_type_go find] in *; [apply ret_ok in E as [-> ->]; auto|].
  apply bind_ok in E as (s1 & v & E1 & E). unfold inst in E1. apply bind_ok in E1 as (s2 & c & E1 & E2). apply cls_of_ok in E1 as (-> & m & Hm & ->). apply ret_ok in E2 as [-> ->].
  destruct (H y (or_introl eq_refl)) as (m' & Hm' & ->). assert (m' = m) as -> by congruence.
  destruct (subclass_any (n_cls m) [CStep]); [apply ret_ok in E as [-> ->]; auto|]. apply IH in E; [assumption|]. intros z Hz. apply H. right. exact Hz.
Qed.
Lemma last_step a b i n n0 s' r : rel a b -> st_heap a !! i = Some n -> h0 !! i = Some n0 -> canon i n = canon i n0 -> last_of_type i [CStep] a = (s', Ok r) ->
  s' = a /\ option_map fst r = find stepb (rev (kids n0)).
Proof.
  intros R Hn Hn0 Ec E. unfold last_of_type in E. apply bind_ok in E as (a2 & cs & E1 & E). apply children_of_ok in E1 as (-> & m & Hm & ->). assert (m = n) as -> by congruence. rewrite (canon_kids _ _ _ Ec) in E.
  apply bind_ok in E as (a2 & q & E1 & E). apply first_go_find in E1 as [-> <-].
  - destruct q as [[y j]|]; apply ret_ok in E as [-> ->]; auto.
  - intros y Hy. apply in_rev in Hy. destruct (old_child _ _ _ Hn0 Hy) as (m0 & Hm0 & _). destruct (gn_node _ _ (r_start _ _ R) _ _ Hm0) as (m & Hm' & G). exists m. split; [assumption|].
    unfold stepb. rewrite Hm0, (gr_cls _ _ _ G). reflexivity.
Qed.
Lemma visit_proof_again i a b a1 x n : rel a b -> st_heap a !! i = Some n -> dispatch visit_defined (n_cls n) = Some CProof -> visit_proof i a = (a1, Ok x) ->
  exists b1, visit_proof (ph i) b = (b1, Ok (ph_cmd x)) /\ rel a1 b1 /\ grown a a1 /\ grown b b1 /\ cmd_ok x /\
    (forall y m, h0 !! y = Some m -> n_parent m = Some i -> marked y = true -> has t_last a1 y /\ has t_last b1 (ph y)).
Proof.
  intros R Hn Hd E. assert (Hi : i < n1).
  { destruct (Nat.lt_ge_cases i n1) as [|Hg]; [assumption|]. pose proof (r_kind _ _ R _ _ Hg Hn) as K. cbn in K. repeat destruct K as [K|K]; [rewrite <- K in Hd; discriminate..|destruct K]. }
  destruct (old_node _ _ _ _ R Hn Hi) as (n0 & Hn0 & Ec). unfold visit_proof in *. apply bind_ok in E as (a2 & l & E1 & E).
  destruct (sim_last_of_type any i [CStep] a b a2 l R I E1) as (b2 & F1 & R2 & _ & Gb2 & _). destruct (last_step _ _ _ _ _ _ _ R Hn Hn0 Ec E1) as [-> El].
  rewrite (bind_eq _ _ _ _ _ F1). apply bind_ok in E as (a3 & [] & E2 & E).
  assert (T : exists b3, (match option_map ph_idx l with Some (l, _) => let! ts := get_strs l a_types in setattr l a_types (VStrs (ts ++ [lit "last"])) | None => ret tt end) b2 = (b3, Ok tt) /\ rel a3 b3 /\ grown a a3 /\ grown b2 b3 /\
    (forall y m, h0 !! y = Some m -> n_parent m = Some i -> marked y = true -> has t_last a3 y /\ has t_last b3 (ph y))).
  { assert (Mk : forall y m, h0 !! y = Some m -> n_parent m = Some i -> marked y = true -> find stepb (rev (kids n0)) = Some y).
    { intros y m Hy Hp Hm. destruct (marked_inv _ Hm) as (m' & p & q & H1 & H2 & H3 & _ & H4 & _). assert (m' = m) as -> by congruence. assert (p = i) as -> by congruence. assert (q = n0) as -> by congruence. exact H4. }
    destruct l as [[y j]|]; cbn [option_map ph_idx fst snd] in *.
    - apply bind_ok in E2 as (a4 & ty & E3 & E4). apply get_strs_ok in E3 as (-> & m & Hm & Ht). apply setattr_ok in E4 as (m2 & Hm2 & ->). assert (m2 = m) as -> by congruence. clear Hm2.
      symmetry in El. assert (Hy : In y (kids n0)) by (apply find_some in El as [Hy _]; apply in_rev in Hy; exact Hy).
      destruct (old_child _ _ _ Hn0 Hy) as (m0 & Hm0 & Hp0).
      assert (Hmk : marked y = true). { unfold marked. rewrite Hm0, Hp0, Hn0, <- (canon_cls _ _ _ Ec), Hd, El. apply Nat.eqb_refl. }
      pose proof (marked_class _ _ _ _ R Hm Hmk) as Hst. destruct (step_classes _ Hst) as (Htc & _ & _).
      assert (Mi : mild (n_cls m) y (fun l => l ++ [t_last])).
      { intros l. unfold can. unfold tagclass in Htc. destruct (level_type (n_cls m)); [discriminate|]. apply negb_true_iff in Htc. rewrite Htc, Hmk. split; [apply dedup_last, in_app_iff; right; left; reflexivity|].
        split; [intros z Hz; apply in_app_iff; left; exact Hz|discriminate]. }
      destruct (retype _ _ _ _ _ _ R2 Hm Ht Mi) as (m' & ty' & Hm' & Hc' & Ht' & _ & R3 & G3 & G3'). eexists. split; [|split; [exact R3|split; [exact G3|split; [exact G3'|]]]].
      + rewrite (bind_eq _ _ _ _ _ (get_strs_eq _ _ _ _ _ Hm' Ht')). unfold setattr. apply (mod_node_eq _ _ _ _ Hm').
      + intros z mz Hz Hpz Hmz. pose proof (Mk _ _ Hz Hpz Hmz) as K. assert (z = y) as -> by congruence. split; eexists _, _; cbn [upd st_heap]; rewrite lookup_insert; (split; [reflexivity|]); cbn [typed_as set_n_attr n_attrs]; rewrite lookup_insert; (split; [reflexivity|]); apply in_app_iff; right; left; reflexivity.
    - apply ret_ok in E2 as [-> _]. exists b2. split; [reflexivity|]. split; [assumption|]. split; [apply grown_refl|]. split; [apply grown_refl|]. intros y m Hy Hp Hm. pose proof (Mk _ _ Hy Hp Hm). congruence. }
  destruct T as (b3 & F3 & R3 & G3 & G3' & H3). rewrite (bind_eq _ _ _ _ _ F3).
  match type of E with ?m a3 = _ => match goal with |- exists b1, ?m' b3 = _ /\ _ => assert (S : sim (taggable i) ph_cmd cmd_ok m m') by ag end end.
  assert (HP : pr (taggable i) a3 b3).
  { left. split.
    - apply (of_cls_grown _ _ _ _ G3). exists n. split; [assumption|]. unfold tagclass, level_type, is_reference. rewrite Hd. reflexivity.
    - intros Hm. pose proof (marked_class _ _ _ _ R Hn Hm) as K. apply step_classes in K as (_ & K & _). congruence. }
  destruct (S _ _ _ _ R3 HP E) as (b1 & Eb & R1 & G1 & G1' & Q). exists b1. split; [exact Eb|]. split; [exact R1|]. split; [eapply grown_trans; eassumption|]. split; [eapply grown_trans; [exact Gb2|eapply grown_trans; eassumption]|]. split; [exact Q|].
  intros y m Hy Hp Hm. destruct (H3 y m Hy Hp Hm). split; eapply has_grown; eassumption.
Qed.
(** ** All visit methods *)
Lemma base_visit_again hl fuel i a b a1 x : rel a b -> pr (visitable i) a b -> base_visit hl fuel i a = (a1, Ok x) ->
  exists b1, base_visit hl fuel (ph i) b = (b1, Ok (ph_cmd x)) /\ rel a1 b1 /\ grown a a1 /\ grown b b1 /\ cmd_ok x /\
    (forall y m, h0 !! y = Some m -> n_parent m = Some i -> marked y = true -> has t_last a1 y /\ has t_last b1 (ph y)).
Proof.
  intros R HP E. unfold base_visit in *. apply bind_ok in E as (a2 & c & E1 & E). apply cls_of_ok in E1 as (-> & n & Hn & ->). destruct (r_node _ _ R _ _ Hn) as (n' & Hn' & A).
  rewrite (bind_eq _ _ _ _ _ (cls_of_eq _ _ _ Hn')), (agree_cls _ _ _ A). destruct (dispatch visit_defined (n_cls n)) as [d|] eqn:Ed; [|discriminate].
  destruct (decide (d = CProof)) as [->|Dp]; [exact (visit_proof_again _ _ _ _ _ _ R Hn Ed E)|].
  assert (Nm : forall y m, h0 !! y = Some m -> n_parent m = Some i -> marked y = true -> False).
  { intros y m Hy Hp Hm. destruct (marked_inv _ Hm) as (m' & p & q & H1 & H2 & H3 & H4 & _). assert (m' = m) as -> by congruence. assert (p = i) as -> by congruence.
    destruct (gn_node _ _ (r_start _ _ R) _ _ H3) as (q' & Hq' & G). assert (q' = n) as -> by congruence. rewrite (gr_cls _ _ _ G) in Ed. congruence. }
  assert (Fin : forall P m m', sim P ph_cmd cmd_ok m m' -> pr P a b -> m a = (a1, Ok x) -> exists b1, m' b = (b1, Ok (ph_cmd x)) /\ rel a1 b1 /\ grown a a1 /\ grown b b1 /\ cmd_ok x /\
    (forall y m, h0 !! y = Some m -> n_parent m = Some i -> marked y = true -> has t_last a1 y /\ has t_last b1 (ph y))).
  { intros P m m' S HPP Em. destruct (S _ _ _ _ R HPP Em) as (b1 & ? & ? & ? & ? & ?). exists b1. repeat (split; [assumption|]). intros y q Hy Hp Hm. destruct (Nm y q Hy Hp Hm). }
  assert (Tg : tagclass (n_cls n) = true -> pr (taggable i) a b) by (intros Ht; left; split; [exists n; auto|exact HP]).
  assert (Lv : d <> CSection -> level_type (n_cls n) = None) by (intros D; unfold level_type; rewrite Ed; destruct d; congruence).
  assert (Rf : d <> CReference -> d <> CCite -> is_reference (n_cls n) = false) by (intros D1 D2; unfold is_reference; rewrite Ed; destruct d; congruence).
  assert (T2 : d <> CSection -> d <> CReference -> d <> CCite -> pr (taggable i) a b) by (intros D1 D2 D3; apply Tg; unfold tagclass; rewrite Lv, Rf by assumption; reflexivity).
  destruct (decide (d = CSection)) as [->|D1]; [eapply Fin; [apply sim_visit_section| |exact E]; exists n; split; [exact Hn|unfold sectclass; rewrite Ed; reflexivity]|].
  assert (Lk : forall c, (dispatch visit_defined c = Some CReference \/ dispatch visit_defined c = Some CCite \/ dispatch visit_defined c = Some CURL) -> linkclass c = true).
  { clear. intros c. destruct c; vm_compute; intros [H|[H|H]]; try discriminate; reflexivity. }
  destruct (decide (d = CReference)) as [->|D2]; [eapply Fin; [apply sim_visit_reference|exists n; split; [exact Hn|apply Lk; tauto]|exact E]|].
  destruct (decide (d = CCite)) as [->|D3]; [eapply Fin; [apply sim_visit_cite|exists n; split; [exact Hn|apply Lk; tauto]|exact E]|].
  destruct (decide (d = CURL)) as [->|D4]; [eapply Fin; [apply sim_visit_url|exists n; split; [exact Hn|apply Lk; tauto]|exact E]|].
  specialize (T2 D1 D2 D3). clear Tg Lv Rf Lk Nm.
  assert (Md : cls_mem d visit_defined = true) by (unfold dispatch in Ed; exact (find_some_true _ _ _ Ed)).
  destruct d; try discriminate Md; try congruence; cbn [visit_method] in E |- *;
    try (eapply Fin; [|exact T2|exact E]; first [apply sim_visit_manuscript|apply sim_visit_author|apply sim_visit_abstract|apply sim_visit_paragraph|apply sim_visit_step|apply sim_node_tag|apply sim_visit_contents|apply sim_visit_note|apply sim_visit_math
      |apply sim_visit_mathblock|apply sim_visit_sourcecode|apply sim_visit_code|apply sim_visit_codeblock|apply sim_visit_algorithm|apply sim_visit_text|apply sim_visit_error|apply sim_visit_span|apply sim_visit_construct|apply sim_visit_theorem
      |apply sim_visit_subproof|apply sim_visit_sketch|apply sim_visit_bibliography|apply sim_visit_bibitem|apply sim_visit_draft|apply sim_visit_figure|apply sim_visit_caption|apply sim_node_tag_full|apply sim_ret; [reflexivity|exact I]]).
  eapply Fin; [apply sim_visit_node| |exact E]. exists n. split; [exact Hn|]. clear - Ed. revert Ed. destruct (n_cls n); vm_compute; intros H; try discriminate; reflexivity.
Qed.

(** ** Leave methods *)
Lemma sim_leave_node P ts : tst_ok ts -> sim P ph_pair pair_ok (leave_node ts) (leave_node (ph_tst ts)).
Proof. unfold leave_node. destruct ts as [bd [|c r]]; cbn; intros H; [apply sim_raise|]. unfold tst_ok in H. cbn in H. inversion H; subst. apply sim_ret; [reflexivity|split; assumption]. Qed.
Lemma sim_leave_abstract P i ts : tst_ok ts -> sim P ph_pair pair_ok (leave_abstract i ts) (leave_abstract (ph i) (ph_tst ts)).
Proof.
  intros Ht. unfold leave_abstract. agb. agb. eapply sim_bind; [apply sim_leave_node, Ht|]. intros r [H1 H2]. apply sim_ret.
  - unfold ph_pair. cbn [fst snd ph_cmd]. rewrite !map_app. destruct a, a0; reflexivity.
  - split; [|exact H2]. cbn [fst]. apply batch_ok. apply List.Forall_app. split; [destruct a; repeat constructor|]. apply List.Forall_app. split; [destruct a0; repeat constructor|]. repeat constructor. exact H1.
Qed.
Lemma ph_insert_before_last x l : insert_before_last (ph_cmd x) (map ph_cmd l) = map ph_cmd (insert_before_last x l).
Proof. unfold insert_before_last. rewrite <- map_rev. destruct (rev l) as [|y r]; [reflexivity|]. cbn [map]. rewrite map_app, map_rev. reflexivity. Qed.
Lemma insert_before_last_ok x l : cmd_ok x -> List.Forall cmd_ok l -> List.Forall cmd_ok (insert_before_last x l).
Proof.
  intros Hx Hl. unfold insert_before_last. assert (Hr : List.Forall cmd_ok (rev l)) by (apply List.Forall_rev, Hl). destruct (rev l) as [|y r]; [repeat constructor; assumption|].
  inversion Hr; subst. apply List.Forall_app. split; [apply List.Forall_rev; assumption|repeat constructor; assumption].
Qed.
Lemma sim_leave_proof P ts : tst_ok ts -> sim P ph_pair pair_ok (leave_proof ts) (leave_proof (ph_tst ts)).
Proof.
  intros Ht. unfold leave_proof. eapply sim_bind; [apply sim_leave_node, Ht|]. intros r [H1 H2]. eapply sim_bind; [apply (sim_items_of P r.1), H1|]. intros items Hi. apply sim_ret.
  - unfold ph_pair. cbn [fst snd ph_cmd]. rewrite <- ph_insert_before_last. reflexivity.
  - split; [|exact H2]. cbn [fst]. apply batch_ok, insert_before_last_ok; [exact I|exact Hi].
Qed.
Lemma sim_leave_paragraph i ts : tst_ok ts -> sim (leavable i) ph_pair pair_ok (leave_paragraph i ts) (leave_paragraph (ph i) (ph_tst ts)).
Proof.
  intros Ht. unfold leave_paragraph. eapply sim_bind; [apply sim_leave_node, Ht|]. intros r [H1 H2]. eapply (sim_bind _ (fun x : bool => x) _ yes).
  - intros a b a1 x R HP E. unfold flag in *. apply bind_ok in E as (a2 & n & E1 & E). apply get_node_ok in E1 as [-> Hn]. apply ret_ok in E as [-> ->]. destruct (r_node _ _ R _ _ Hn) as (n' & Hn' & A).
    exists b. split; [|split; [assumption|split; [apply grown_refl|split; [apply grown_refl|exact I]]]]. rewrite (bind_eq _ _ _ _ _ (get_node_eq _ _ _ Hn')). unfold ret. do 2 f_equal.
    destruct (opened i) eqn:Eo.
    + destruct (HP Eo) as [(m & Hm & Hf) (m' & Hm' & Hf')]. assert (m = n) as -> by congruence. assert (m' = n') as -> by congruence. rewrite Hf, Hf'. reflexivity.
    + rewrite (agree_flag _ _ _ A Eo). destruct (n_attrs n !! a_must_close_p_tag); [apply ph_truthy|reflexivity].
  - intros m _. destruct m; [|apply sim_ret; [reflexivity|split; assumption]]. eapply sim_bind; [apply (sim_items_of _ r.1), H1|]. intros items Hi. apply sim_ret; [reflexivity|].
    split; [|exact H2]. cbn [fst]. apply batch_ok. constructor; [exact I|exact Hi].
Qed.
Lemma index_next (i : id) cs : forall j y, index_of i cs = Some j -> nth_error cs (S j) = Some y -> In i (removelast cs).
Proof.
  induction cs as [|x cs IH]; intros j y Hj Hy; [discriminate|]. cbn [index_of] in Hj. destruct cs as [|z cs]; [destruct j; discriminate|]. change (removelast (x :: z :: cs)) with (x :: removelast (z :: cs)).
  destruct (Nat.eqb_spec i x) as [->|D]; [left; reflexivity|]. destruct (index_of i (z :: cs)) as [j'|]; [|discriminate]. injection Hj as <-. right. exact (IH j' y eq_refl Hy).
Qed.
Lemma next_index (i : id) cs : forall j, In i (removelast cs) -> index_of i cs = Some j -> nth_error cs (S j) <> None.
Proof.
  induction cs as [|x cs IH]; intros j Hi Hj; [discriminate|]. cbn [index_of] in Hj. destruct cs as [|z cs]; [destruct Hi|]. change (removelast (x :: z :: cs)) with (x :: removelast (z :: cs)) in Hi.
  destruct (Nat.eqb_spec i x) as [->|D]; [injection Hj as <-; discriminate|]. destruct (index_of i (z :: cs)) as [j'|]; [|discriminate]. injection Hj as <-. destruct Hi as [Hi|Hi]; [congruence|]. exact (IH j' Hi eq_refl).
Qed.
Definition flag_on (n : node) : node := set_n_attr a_must_close_p_tag (VBool true) n.
Lemma flag_again a b q m m' : rel a b -> st_heap a !! q = Some m -> st_heap b !! ph q = Some m' -> opened q = true ->
  rel (upd a q (flag_on m)) (upd b (ph q) (flag_on m')) /\ grown a (upd a q (flag_on m)) /\ grown b (upd b (ph q) (flag_on m')).
Proof.
  intros R Hm Hm' Ho. assert (Hq : q < n1) by (unfold opened in Ho; destruct (h0 !! q) as [z|] eqn:E; [exact (F0 _ _ E)|discriminate]).
  assert (K : forall z, canon q (flag_on z) = canon q z).
  { intros z. unfold canon, flag_on. cbn [set_n_attr n_cls n_parent n_children n_attrs kids]. rewrite Ho. f_equal. apply map_eq. intros y.
    destruct (decide (y = a_must_close_p_tag)) as [->|D]; [rewrite !lookup_delete; reflexivity|]. rewrite !lookup_delete_ne by congruence.
    destruct (decide (y = a_types)) as [->|D2]; [rewrite !lookup_alter, lookup_insert_ne by congruence; reflexivity|]. rewrite !lookup_alter_ne, lookup_insert_ne by congruence. reflexivity. }
  assert (G : forall z, grew q z (flag_on z)).
  { intros z. split; [reflexivity| | |intros _; apply K].
    - intros ty Hty. exists ty. cbn. rewrite lookup_insert_ne by discriminate. auto.
    - intros _. apply lookup_insert. }
  destruct (r_node _ _ R _ _ Hm) as (m2 & Hm2 & A). assert (m2 = m') as -> by congruence.
  split; [|split; eapply grown_upd; [eassumption|apply G|eassumption|rewrite ph_old by assumption; apply G]].
  eapply rel_upd; [exact R|exact Hm|exact Hm'|apply G| |lia]. unfold agree. rewrite !K. exact A.
Qed.
Lemma leave_mathblock_again i ts a b a1 r n : rel a b -> st_heap a !! i = Some n -> dispatch leave_defined (n_cls n) = Some CMathBlock -> tst_ok ts -> leave_mathblock i ts a = (a1, Ok r) ->
  exists b1, leave_mathblock (ph i) (ph_tst ts) b = (b1, Ok (ph_pair r)) /\ rel a1 b1 /\ grown a a1 /\ grown b b1 /\ pair_ok r /\
    (forall p q m, h0 !! i = Some m -> n_parent m = Some p -> h0 !! p = Some q -> subclass_any (n_cls q) [CBaseParagraph] = true -> In i (removelast (kids q)) -> flagged a1 p /\ flagged b1 (ph p)).
Proof.
  intros R Hn Hd Ht E. assert (Hi : i < n1).
  { destruct (Nat.lt_ge_cases i n1) as [|Hg]; [assumption|]. pose proof (r_kind _ _ R _ _ Hg Hn) as K. cbn in K. repeat destruct K as [K|K]; [rewrite <- K in Hd; discriminate..|destruct K]. }
  destruct (old_node _ _ _ _ R Hn Hi) as (n0 & Hn0 & Ec). unfold leave_mathblock in *. apply bind_ok in E as (a2 & r0 & E1 & E).
  destruct (sim_leave_node any ts Ht _ _ _ _ R I E1) as (b2 & F1 & R2 & G2 & Gb2 & [Hr1 Hr2]). rewrite (bind_eq _ _ _ _ _ F1).
  assert (a2 = a) as -> by (unfold leave_node in E1; destruct (deferred ts); [discriminate|apply ret_ok in E1 as [-> _]; reflexivity]).
  apply bind_ok in E as (a3 & p & E2 & E). destruct (sim_parent_of any i _ _ _ _ R2 I E2) as (b3 & F2 & R3 & _ & Gb3 & _). rewrite (bind_eq _ _ _ _ _ F2).
  apply parent_of_ok in E2 as (-> & m & Hm & ->). assert (m = n) as -> by congruence. clear Hm. pose proof (canon_parent _ _ _ Ec) as Ep. rewrite Ep in *. clear F1 F2 E1.
  assert (Gb : grown b b3) by (eapply grown_trans; eassumption). clear R R2 G2 Gb2 Gb3 b2.
  destruct (n_parent n0) as [q|] eqn:Eq; cbn [option_map] in *.
  2: { cbn [bind ret] in E |- *. unfold bind, ret in E. cbn [negb] in E. injection E as <- <-. exists b3. split; [reflexivity|]. split; [assumption|]. split; [apply grown_refl|]. split; [assumption|]. split; [split; assumption|]. intros p z m Hm Hp. congruence. }
  apply bind_ok in E as (a4 & v & E2 & E). destruct (sim_inst any [CBaseParagraph] q _ _ _ _ R3 I E2) as (b4 & F2 & R4 & _ & Gb4 & _). rewrite (bind_eq _ _ _ _ _ F2). clear F2.
  unfold inst in E2. apply bind_ok in E2 as (a5 & c & E2 & E2'). apply cls_of_ok in E2 as (-> & m & Hm & ->). apply ret_ok in E2' as [-> ->].
  destruct (proj2 (cons_parent _ C0 i q)) as (q0 & Hq0 & Hk0); [exists n0; auto|]. assert (Hq : q < n1) by exact (F0 _ _ Hq0).
  destruct (old_node _ _ _ _ R4 Hm Hq) as (q1 & Hq1 & Ecq). assert (q1 = q0) as -> by congruence. clear Hq1. rewrite (canon_cls _ _ _ Ecq) in E |- *.
  assert (Gb' : grown b b4) by (eapply grown_trans; eassumption). clear R3 Gb Gb4 b3.
  destruct (subclass_any (n_cls q0) [CBaseParagraph]) eqn:Esub; cbn [negb] in *.
  2: { apply ret_ok in E as [-> ->]. exists b4. split; [reflexivity|]. split; [assumption|]. split; [apply grown_refl|]. split; [assumption|]. split; [split; assumption|]. intros p z mm H1 H2 H3 H4. congruence. }
  apply bind_ok in E as (a4 & nx & E2 & E). destruct (sim_next_any any i _ _ _ _ R4 I E2) as (b5 & F2 & R5 & _ & Gb5 & _). rewrite (bind_eq _ _ _ _ _ F2). clear F2.
  assert (Nx : a4 = a /\ exists j, index_of i (kids q0) = Some j /\ nx = nth_error (kids q0) (S j)).
  { unfold next_sibling in E2. apply bind_ok in E2 as (s1 & o & E2 & E3). apply parent_of_ok in E2 as (-> & z & Hz & ->). assert (z = n) as -> by congruence. rewrite Ep in E3.
    apply bind_ok in E3 as (s1 & cs & E2 & E3). apply children_of_ok in E2 as (-> & z & Hz' & ->). assert (z = m) as -> by congruence. rewrite (canon_kids _ _ _ Ecq) in E3.
    destruct (index_of i (kids q0)) as [j|]; [|discriminate]. apply ret_ok in E3 as [-> ->]. split; [reflexivity|]. exists j. auto. }
  destruct Nx as (-> & j & Hj & Hnx). assert (Gb : grown b b5) by (eapply grown_trans; eassumption). clear R4 Gb' Gb5 b4.
  destruct nx as [y|]; cbn [option_map].
  2: { apply ret_ok in E as [-> ->]. exists b5. split; [reflexivity|]. split; [assumption|]. split; [apply grown_refl|]. split; [assumption|]. split; [split; assumption|].
       intros p z mm H1 H2 H3 H4 H5. exfalso. assert (mm = n0) as -> by congruence. assert (p = q) as -> by congruence. assert (z = q0) as -> by congruence. apply (next_index _ _ _ H5 Hj). congruence. }
  symmetry in Hnx. pose proof (index_next _ _ _ _ Hj Hnx) as Hin.
  assert (Ho : opened q = true). { unfold opened. rewrite Hq0, Esub. cbn [andb]. apply existsb_exists. exists i. split; [assumption|]. unfold mathb. rewrite Hn0, <- (canon_cls _ _ _ Ec), Hd. reflexivity. }
  apply bind_ok in E as (a4 & [] & E3 & E). apply setattr_ok in E3 as (z & Hz & ->). assert (z = m) as -> by congruence. clear Hz. fold (flag_on m) in E.
  destruct (r_node _ _ R5 _ _ Hm) as (m' & Hm' & A). destruct (flag_again _ _ _ _ _ R5 Hm Hm' Ho) as (R6 & G6 & Gb6).
  unfold setattr. rewrite (bind_eq _ _ _ _ _ (mod_node_eq _ _ _ _ Hm')). fold (flag_on m').
  apply bind_ok in E as (a5 & items & E4 & E). destruct (sim_items_of any r0.1 Hr1 _ _ _ _ R6 I E4) as (b7 & F7 & R7 & G7 & Gb7 & Hit). cbn [ph_pair fst snd]. rewrite (bind_eq _ _ _ _ _ F7).
  apply ret_ok in E as [-> ->]. exists b7. split; [unfold ret, ph_pair; cbn [fst snd ph_cmd]; rewrite map_app; reflexivity|]. split; [assumption|]. split; [eapply grown_trans; eassumption|].
  split; [eapply grown_trans; [exact Gb|eapply grown_trans; eassumption]|]. split.
  - split; [|exact Hr2]. cbn [fst]. apply batch_ok, List.Forall_app. split; [exact Hit|repeat constructor].
  - intros p z mm H1 H2 H3 H4 H5. assert (mm = n0) as -> by congruence. assert (p = q) as -> by congruence.
    split; [apply (flagged_grown _ _ _ G7)|apply (flagged_grown _ _ _ Gb7)]; eexists; cbn [upd st_heap]; rewrite lookup_insert; (split; [reflexivity|]); apply lookup_insert.
Qed.
Lemma base_leave_again fuel i ts a b a1 r : rel a b -> pr (leavable i) a b -> tst_ok ts -> base_leave fuel i ts a = (a1, Ok r) ->
  exists b1, base_leave fuel (ph i) (ph_tst ts) b = (b1, Ok (ph_pair r)) /\ rel a1 b1 /\ grown a a1 /\ grown b b1 /\ pair_ok r /\
    (forall p q m, mathb i = true -> h0 !! i = Some m -> n_parent m = Some p -> h0 !! p = Some q -> subclass_any (n_cls q) [CBaseParagraph] = true -> In i (removelast (kids q)) -> flagged a1 p /\ flagged b1 (ph p)).
Proof.
  intros R HP Ht E. unfold base_leave in *. apply bind_ok in E as (a2 & c & E1 & E). apply cls_of_ok in E1 as (-> & n & Hn & ->). destruct (r_node _ _ R _ _ Hn) as (n' & Hn' & A).
  rewrite (bind_eq _ _ _ _ _ (cls_of_eq _ _ _ Hn')), (agree_cls _ _ _ A). destruct (dispatch leave_defined (n_cls n)) as [d|] eqn:Ed; [|discriminate].
  destruct (decide (d = CMathBlock)) as [->|Dm].
  { destruct (leave_mathblock_again _ _ _ _ _ _ _ R Hn Ed Ht E) as (b1 & H1 & H2 & H3 & H4 & H5 & H6). exists b1. repeat (split; [assumption|]). intros p q m _. apply H6. }
  assert (Fin : forall P m m', sim P ph_pair pair_ok m m' -> pr P a b -> m a = (a1, Ok r) -> exists b1, m' b = (b1, Ok (ph_pair r)) /\ rel a1 b1 /\ grown a a1 /\ grown b b1 /\ pair_ok r /\
    (forall p q m, mathb i = true -> h0 !! i = Some m -> n_parent m = Some p -> h0 !! p = Some q -> subclass_any (n_cls q) [CBaseParagraph] = true -> In i (removelast (kids q)) -> flagged a1 p /\ flagged b1 (ph p))).
  { intros P m m' S HPP Em. destruct (S _ _ _ _ R HPP Em) as (b1 & ? & ? & ? & ? & ?). exists b1. repeat (split; [assumption|]). intros p q m0 Hb Hh0. exfalso. unfold mathb in Hb. rewrite Hh0 in Hb.
    destruct (gn_node _ _ (r_start _ _ R) _ _ Hh0) as (z & Hz & G). assert (z = n) as -> by congruence. rewrite <- (gr_cls _ _ _ G), Ed in Hb. destruct d; congruence. }
  destruct d; cbn [leave_method] in E |- *; try congruence;
    first [eapply Fin; [apply sim_leave_paragraph, Ht|exact HP|exact E] | eapply (Fin any); [|exact I|exact E]; first [apply sim_leave_abstract, Ht|apply sim_leave_proof, Ht|apply sim_leave_node, Ht]].
Qed.

(** ** The loop *)
Definition ph_act (x : action) : action := match x with Visit i => Visit (ph i) | Leave i => Leave (ph i) end.
(** What has been marked for the actions that wait in the stack, [above] being the ones that come first. *)
Definition pending (m : id) (l : list action) : Prop := In (Visit m) l \/ In (Leave m) l.
Fixpoint stack_ok (a b : st) (above l : list action) : Prop :=
  match l with
  | [] => True
  | Visit x :: r => pr (visitable x) a b /\ stack_ok a b (Visit x :: above) r
  | Leave p :: r => (opened p = true -> (flagged a p /\ flagged b (ph p)) \/ exists m q, h0 !! p = Some q /\ In m (removelast (kids q)) /\ mathb m = true /\ pending m above) /\
                    stack_ok a b (Leave p :: above) r
  end.
Lemma stack_mono a b a' b' l : grown a a' -> grown b b' -> forall above above', stack_ok a b above l ->
  (forall m p q, mathb m = true -> opened p = true -> h0 !! p = Some q -> In m (removelast (kids q)) -> pending m above -> pending m above' \/ (flagged a' p /\ flagged b' (ph p))) ->
  stack_ok a' b' above' l.
Proof.
  intros Ga Gb. induction l as [|[x|p] l IH]; intros above above' H K; [exact I| |]; cbn [stack_ok] in *; destruct H as [H1 H2].
  - split; [exact (pr_ok (visitable x) _ _ _ _ Ga Gb H1)|]. apply (IH _ _ H2). intros m p q Hm Ho Hq Hi [[E|H]|[E|H]]; [left; left; left; exact E| |discriminate|].
    + destruct (K m p q Hm Ho Hq Hi (or_introl H)) as [[?|?]|?]; [left; left; right; assumption|left; right; right; assumption|right; assumption].
    + destruct (K m p q Hm Ho Hq Hi (or_intror H)) as [[?|?]|?]; [left; left; right; assumption|left; right; right; assumption|right; assumption].
  - split.
    + intros Ho. destruct (H1 Ho) as [[F1 F2]|(m & q & Hq & Hi & Hm & Hp)]; [left; split; eapply flagged_grown; eassumption|].
      destruct (K m p q Hm Ho Hq Hi Hp) as [?|?]; [right; exists m, q; auto|left; assumption].
    + apply (IH _ _ H2). intros m z q Hm Hoz Hq Hi [[E|H]|[E|H]]; [discriminate| |left; right; left; exact E|].
      * destruct (K m z q Hm Hoz Hq Hi (or_introl H)) as [[?|?]|?]; [left; left; right; assumption|left; right; right; assumption|right; assumption].
      * destruct (K m z q Hm Hoz Hq Hi (or_intror H)) as [[?|?]|?]; [left; left; right; assumption|left; right; right; assumption|right; assumption].
Qed.
Lemma stack_visits a b l cs : forall above, (forall x, In x cs -> pr (visitable x) a b) -> stack_ok a b (rev (map Visit cs) ++ above) l -> stack_ok a b above (map Visit cs ++ l).
Proof.
  induction cs as [|x cs IH]; intros above Hv H; [exact H|]. cbn [map app stack_ok rev] in *. split; [apply Hv; left; reflexivity|]. apply IH; [intros y Hy; apply Hv; right; exact Hy|].
  rewrite <- app_assoc in H. exact H.
Qed.
Lemma mathblock_visited c : dispatch leave_defined c = Some CMathBlock -> dispatch visit_defined c = Some CMathBlock.
Proof. destruct c; vm_compute; intros H; try discriminate; reflexivity. Qed.
Lemma mathb_defers hl fuel i a b a1 x : rel a b -> mathb i = true -> base_visit hl fuel i a = (a1, Ok x) -> defers x = true.
Proof.
  intros R Hm E. unfold mathb in Hm. destruct (h0 !! i) as [n0|] eqn:E0; [|discriminate]. destruct (gn_node _ _ (r_start _ _ R) _ _ E0) as (n & Hn & G).
  unfold base_visit in E. apply bind_ok in E as (a2 & c & E1 & E). apply cls_of_ok in E1 as (-> & m & Hm' & ->). assert (m = n) as -> by congruence. rewrite (gr_cls _ _ _ G) in E.
  destruct (dispatch leave_defined (n_cls n0)) as [[]|] eqn:Ed; try discriminate. rewrite (mathblock_visited _ Ed) in E. cbn [visit_method] in E. unfold visit_mathblock in E.
  apply bind_ok in E as (a3 & p & _ & E). apply bind_ok in E as (a4 & ok & _ & E). destruct ok; [|discriminate]. cbn [negb] in E. apply bind_ok in E as (a5 & nt & _ & E). apply ret_ok in E as [_ ->]. reflexivity.
Qed.
Lemma removelast_In {A} (x : A) l : In x (removelast l) -> In x l.
Proof. induction l as [|y l IH]; [intros []|]. destruct l as [|z l]; [intros []|]. intros [->|H]; [left; reflexivity|right; apply IH, H]. Qed.
Lemma tr_loop_again hl ext ext' f0 : ext_sim ext ext' -> forall fuel l ts a b a1 r, rel a b -> tst_ok ts -> stack_ok a b [] l ->
  tr_loop (base_tc hl) ext f0 fuel l ts a = (a1, Ok r) ->
  exists b1, tr_loop (base_tc hl) ext' f0 fuel (map ph_act l) (ph_tst ts) b = (b1, Ok (ph_tst r)) /\ rel a1 b1 /\ grown a a1 /\ grown b b1 /\ tst_ok r.
Proof.
  intros He. induction fuel as [|fuel IH]; intros [|[i|i] l] ts a b a1 r R Ht Hl E; cbn [tr_loop map ph_act] in *; try discriminate;
    try (apply ret_ok in E as [-> ->]; exists b; split; [reflexivity|]; split; [assumption|]; split; [apply grown_refl|]; split; [apply grown_refl|assumption]).
  - destruct Hl as [Hv Hl]. cbn [base_tc tc_visit] in *. apply bind_ok in E as (a2 & c & E1 & E). destruct (base_visit_again _ _ _ _ _ _ _ R Hv E1) as (b2 & F1 & R2 & G2 & Gb2 & Hc & Hx).
    rewrite (bind_eq _ _ _ _ _ F1). apply bind_ok in E as (a3 & cs & E2 & E). destruct (sim_children_of any i _ _ _ _ R2 I E2) as (b3 & F2 & R3 & _ & Gb3 & _). rewrite (bind_eq _ _ _ _ _ F2).
    apply children_of_ok in E2 as (-> & n & Hn & ->). apply bind_ok in E as (a4 & ts' & E3 & E). destruct (sim_execute any _ _ He c ts Hc Ht _ _ _ _ R3 I E3) as (b4 & F4 & R4 & G4 & Gb4 & Ht'). rewrite (bind_eq _ _ _ _ _ F4).
    assert (Ga : grown a a4) by (eapply grown_trans; eassumption). assert (Gb23 : grown b2 b4) by (eapply grown_trans; eassumption). assert (Gb : grown b b4) by (eapply grown_trans; eassumption).
    rewrite ph_defers.
    assert (S : stack_ok a4 b4 [] (map Visit (kids n) ++ (if defers c then [Leave i] else []) ++ l)).
    { apply stack_visits.
      - intros x Hxi Hm. assert (HX : has t_last a2 x /\ has t_last b2 (ph x)).
        { destruct (Nat.lt_ge_cases i n1) as [Hi|Hi].
          + destruct (old_node _ _ _ _ R2 Hn Hi) as (n0 & Hn0 & Ec). rewrite (canon_kids _ _ _ Ec) in Hxi. destruct (old_child _ _ _ Hn0 Hxi) as (m & Hm0 & Hp). exact (Hx x m Hm0 Hp Hm).
          + pose proof (r_apart _ _ R2 _ _ Hi Hn x Hxi). apply marked_old in Hm. lia. }
        destruct HX as [X1 X2]. split; [exact (has_grown _ _ _ _ G4 X1)|exact (has_grown _ _ _ _ Gb23 X2)].
      - rewrite app_nil_r. assert (Hl' : stack_ok a4 b4 ((if defers c then [Leave i] else []) ++ rev (map Visit (kids n))) l).
        { apply (stack_mono _ _ _ _ _ Ga Gb _ _ Hl). intros m p q Hm Ho Hq Hi [[E'|[]]|[E'|[]]]; [|discriminate]. injection E' as ->. rewrite (mathb_defers _ _ _ _ _ _ _ R Hm E1). left. right. left. reflexivity. }
        destruct (defers c); [|exact Hl']. cbn [app stack_ok] in *. split; [|exact Hl']. intros Ho. right. unfold opened in Ho. destruct (h0 !! i) as [q|] eqn:Eq; [|discriminate].
        apply andb_true_iff in Ho as [_ Ho]. apply existsb_exists in Ho as (m & Hm & Hb). exists m, q. split; [reflexivity|]. split; [assumption|]. split; [assumption|]. left. apply in_rev. rewrite rev_involutive. apply in_map.
        destruct (old_node _ _ _ _ R2 Hn (F0 _ _ Eq)) as (n0 & Hn0 & Ec). assert (n0 = q) as -> by congruence. rewrite (canon_kids _ _ _ Ec). apply removelast_In, Hm. }
    destruct (IH _ _ _ _ _ _ R4 Ht' S E) as (b5 & F5 & R5 & G5 & Gb5 & Ht5). exists b5. split.
    + rewrite <- F5. f_equal. rewrite !map_app, !map_map. destruct (defers c); reflexivity.
    + split; [assumption|]. split; [eapply grown_trans; eassumption|]. split; [eapply grown_trans; eassumption|assumption].
  - destruct Hl as [Hv Hl]. cbn [base_tc tc_leave] in *. assert (HP : pr (leavable i) a b). { intros Ho. destruct (Hv Ho) as [?|(m & q & _ & _ & _ & [[]|[]])]. assumption. }
    apply bind_ok in E as (a2 & c & E1 & E). destruct (base_leave_again _ _ _ _ _ _ _ R HP Ht E1) as (b2 & F1 & R2 & G2 & Gb2 & [Hc1 Hc2] & Hx). rewrite (bind_eq _ _ _ _ _ F1).
    apply bind_ok in E as (a3 & ts' & E3 & E). cbn [ph_pair fst snd]. destruct (sim_execute any _ _ He c.1 c.2 Hc1 Hc2 _ _ _ _ R2 I E3) as (b3 & F3 & R3 & G3 & Gb3 & Ht'). rewrite (bind_eq _ _ _ _ _ F3).
    assert (Ga : grown a a3) by (eapply grown_trans; eassumption). assert (Gb : grown b b3) by (eapply grown_trans; eassumption).
    assert (Hl' : stack_ok a3 b3 [] l).
    { apply (stack_mono _ _ _ _ _ Ga Gb _ _ Hl). intros m p q Hm Ho Hq Hi [[E'|[]]|[E'|[]]]; [discriminate|]. injection E' as E'; subst m; right.
      destruct (old_child _ _ _ Hq (removelast_In _ _ Hi)) as (z & Hz & Hp).
      destruct (Hx p q z Hm Hz Hp Hq) as [X1 X2]; [|assumption|split; [exact (flagged_grown _ _ _ G3 X1)|exact (flagged_grown _ _ _ Gb3 X2)]]. unfold opened in Ho. rewrite Hq in Ho. apply andb_true_iff in Ho as [Ho _]. exact Ho. }
    destruct (IH _ _ _ _ _ _ R3 Ht' Hl' E) as (b5 & F5 & R5 & G5 & Gb5 & Ht5). exists b5. split; [exact F5|]. split; [assumption|]. split; [eapply grown_trans; eassumption|]. split; [eapply grown_trans; eassumption|assumption].
Qed.
Lemma run_again hl ext ext' P fuel i : ext_sim ext ext' -> marked i = false -> sim P (map ph_tok) yes (run_translator (base_tc hl) ext fuel i) (run_translator (base_tc hl) ext' fuel (ph i)).
Proof.
  intros He Hi. unfold run_translator. eapply (sim_bind _ ph_tst _ yes).
  - intros a b a1 x R HP E. destruct (tr_loop_again hl ext ext' fuel He fuel [Visit i] (MkT [] []) a b a1 x R) as (b1 & F & R1 & G & Gb & _); [constructor| |exact E|].
    + split; [|exact I]. intros H. congruence.
    + exists b1. split; [exact F|]. auto.
  - intros ts _. destruct ts as [bd [|c r]]; cbn; [apply sim_ret; [reflexivity|exact I]|apply sim_raise].
Qed.
Lemma ext_again hl fuel depth : ext_sim (translate_ext hl depth fuel) (translate_ext hl depth fuel).
Proof.
  induction depth as [|depth IH]; intros P i Hi; [apply sim_raise|]. cbn [translate_ext]. apply run_again; [exact IH|]. destruct (marked i) eqn:E; [|reflexivity]. apply marked_old in E. lia.
Qed.
Lemma translate_again hl fuel i : marked i = false -> sim any (map ph_tok) yes (translate hl fuel i) (translate hl fuel (ph i)).
Proof. intros Hi. unfold translate. eapply sim_bind; [apply sim_info|]. intros _ _. apply run_again; [apply ext_again|exact Hi]. Qed.
Lemma render_ph l : Html.render (map ph_tok l) = Html.render l.
Proof. unfold Html.render. rewrite map_map. f_equal. apply map_ext. intros []; reflexivity. Qed.
End Again.
