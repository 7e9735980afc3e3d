(** The statements and subproofs added to the steps of a proof. *)
From Verif Require Export TreeFacts Labels.
From Verif Require Import Queries Built Meta ResolveAll NodeOps Monad.

Lemma ancestor_same h h' x :
  (forall y, y = x \/ ancestor h x y -> forall q, parent_is h' y q -> parent_is h y q) ->
  forall z, ancestor h' x z -> ancestor h x z.
Proof.
  intros Hp z Ha. cut (forall y, (y = x \/ ancestor h x y) -> forall z, ancestor h' y z -> ancestor h x z).
  { intros H. apply (H x); auto. }
  intros y Hy z' Hz. induction Hz as [y q Hq|y q z' Hq Hz IH].
  - apply Hp in Hq; [|assumption]. destruct Hy as [-> |Hy]; [constructor; assumption|].
    eapply ancestor_trans; [exact Hy|constructor; assumption].
  - apply IH. right. apply Hp in Hq; [|assumption]. destruct Hy as [-> |Hy]; [constructor; assumption|].
    eapply ancestor_trans; [exact Hy|constructor; assumption].
Qed.
Lemma root_no_ancestor h x n y : h !! x = Some n -> n_parent n = None -> ~ ancestor h x y.
Proof. intros Hx Hn Ha. inversion Ha as [? ? (m & Hm & E)|? ? ? (m & Hm & E)]; congruence. Qed.

(** A new node that receives the parentless nodes [cs]. *)
Lemma new_wrapper c s s1 w s' (cs : list id) u :
  good s -> has_children c = true -> (forall x, x ∈ cs -> is_Some (st_heap s !! x)) ->
  new_node c [] s = (s1, Ok w) -> append w cs s1 = (s', Ok u) ->
  good s' /\ w = st_next s /\ st_next s' = S (st_next s) /\ st_logs s' = st_logs s /\
  st_heap s' !! w = Some (MkNode c None cs (n_attrs (mk_node c []))) /\
  (forall j n, st_heap s !! j = Some n ->
     st_heap s' !! j = Some (set_n_parent (if decide (j ∈ cs) then Some w else n_parent n) n)) /\
  (forall j, st_heap s !! j = None -> j <> w -> st_heap s' !! j = None).
Proof.
  intros [Hf Hc] Hhc Hex Hnew Happ. apply new_node_ok in Hnew as [-> ->].
  destruct (consistent_fresh s (mk_node c []) Hf Hc eq_refl eq_refl) as [Hc1 Hf1].
  assert (Hw : st_heap (new s (mk_node c [])) !! st_next s = Some (mk_node c [])).
  { rewrite new_lookup. apply decide_True. reflexivity. }
  assert (Hwcs : st_next s ∉ cs).
  { intros Hin. destruct (Hex _ Hin) as [m Hm]. apply Hf in Hm. lia. }
  pose proof Happ as Happ0. apply append_ok in Happ as ([Hn Hl] & He & Hnd & _ & Hall).
  assert (Hold : forall j n, st_heap s !! j = Some n -> st_heap (new s (mk_node c [])) !! j = Some n).
  { intros j n Hj. rewrite new_lookup. pose proof (Hf _ _ Hj). rewrite decide_False by lia. assumption. }
  split; [split|].
  - eapply fresh_edited; [split; [exact Hn|exact Hl]|exact He|assumption].
  - eapply append_consistent; [exact Hc1| |exact Happ0]. split; [assumption|].
    intros x Hx. split; [|split].
    + rewrite elem_of_list_In in Hx. destruct (Hall _ Hx) as (_ & nc & _ & H1 & H2 & _). eauto.
    + intros ->. contradiction.
    + eapply root_no_ancestor; [exact Hw|reflexivity].
  - split; [reflexivity|]. split; [rewrite Hn; reflexivity|]. split; [rewrite Hl; reflexivity|]. split.
    + rewrite He, Hw. rewrite (decide_False (P := st_next s ∈ cs)) by assumption.
      rewrite (decide_True (P := st_next s = st_next s)) by reflexivity. reflexivity.
    + split.
      * intros j n Hj. rewrite He, (Hold _ _ Hj). pose proof (Hf _ _ Hj).
        rewrite (decide_False (P := j = st_next s)) by lia. reflexivity.
      * intros j Hj Hne. rewrite He, new_lookup, decide_False by auto. rewrite Hj. reflexivity.
Qed.

(** What became of the children of a step. *)
Definition stmt_attrs : gmap attr val :=
  <[a_handrail_depth := VInt 1]> (n_attrs (mk_node CStatement [])).
Definition sub_attrs : gmap attr val := n_attrs (mk_node CSubproof []).

Definition wrapper_node (n : node) : Prop :=
  (n_cls n = CStatement /\ n_attrs n = stmt_attrs) \/ (n_cls n = CSubproof /\ n_attrs n = sub_attrs).

(** [i] had the children [pre ++ post]; now it has a new Statement [w] with the
    children [pre], followed by [tail]; the parents of the nodes [moved] are now [v]. *)
Record wrapped (s s' : st) (i : id) (pre moved tail : list id) (v : id) : Prop := {
  wr_good : good s';
  wr_next : st_next s < st_next s';
  wr_logs : st_logs s' = st_logs s;
  wr_stmt : st_heap s' !! st_next s = Some (MkNode CStatement (Some i) pre stmt_attrs);
  wr_old : forall j n, st_heap s !! j = Some n -> st_heap s' !! j =
    Some (MkNode (n_cls n)
            (if decide (j ∈ pre) then Some (st_next s) else if decide (j ∈ moved) then Some v else n_parent n)
            (if decide (j = i) then st_next s :: tail else n_children n) (n_attrs n));
  wr_dom : forall j m, st_heap s !! j = None -> st_heap s' !! j = Some m -> wrapper_node m
}.

Lemma step_or_sub_inst h x : is_instance h [CStep; CSubproof] x <-> step_or_sub h x.
Proof.
  split.
  - intros (n & d & Hn & Hd & H). apply subclass_derives in H. unfold step_or_sub, class_of.
    destruct Hd as [<-|[<-|[]]]; destruct (n_cls n) eqn:E; vm_compute in H; try discriminate; eauto.
  - intros [(n & Hn & H)|(n & Hn & H)]; exists n, (n_cls n); (split; [assumption|]); (split; [|constructor]);
      rewrite H; simpl; auto.
Qed.

Inductive step_split (s s' : st) (i : id) : list id -> Prop :=
| split_none : s' = s -> step_split s s' i []
| split_statement cs : cs <> [] -> (forall x, x ∈ cs -> ~ step_or_sub (st_heap s) x) ->
    wrapped s s' i cs [] [] i -> st_next s' = S (st_next s) -> step_split s s' i cs
| split_steps pre c post : (forall x, x ∈ pre -> ~ step_or_sub (st_heap s) x) ->
    class_of (st_heap s) c CStep ->
    wrapped s s' i pre (c :: post) [S (st_next s)] (S (st_next s)) -> st_next s' = S (S (st_next s)) ->
    st_heap s' !! S (st_next s) = Some (MkNode CSubproof (Some i) (c :: post) sub_attrs) ->
    step_split s s' i (pre ++ c :: post)
| split_subproof pre c : (forall x, x ∈ pre -> ~ step_or_sub (st_heap s) x) ->
    class_of (st_heap s) c CSubproof ->
    wrapped s s' i pre [] [c] i -> st_next s' = S (st_next s) -> step_split s s' i (pre ++ [c]).

Lemma kids_cls n : has_children (n_cls n) = true -> kids n = n_children n.
Proof. unfold kids. intros ->. reflexivity. Qed.
Lemma class_step_children n : n_cls n = CStep -> kids n = n_children n.
Proof. intros E. apply kids_cls. rewrite E. reflexivity. Qed.

(** Detaching the children of [i] and putting the first ones into a new statement. *)
Lemma statement_part s s1 s2 s3 s4 i n (pre post : list id) w u1 u2 u4 hd :
  good s -> st_heap s !! i = Some n -> n_cls n = CStep -> kids n = pre ++ post ->
  clear i s = (s1, Ok u1) -> new_node CStatement [] s1 = (s2, Ok w) ->
  append w pre s2 = (s3, Ok u2) -> get_int w a_handrail_depth s3 = (s3, Ok hd) ->
  setattr w a_handrail_depth (VInt (hd + 1)) s3 = (s4, Ok u4) ->
  good s4 /\ w = st_next s /\ st_next s4 = S (st_next s) /\ st_logs s4 = st_logs s /\
  st_heap s4 !! w = Some (MkNode CStatement None pre stmt_attrs) /\
  (forall j m, st_heap s !! j = Some m -> st_heap s4 !! j =
     Some (MkNode (n_cls m) (if decide (j ∈ pre) then Some w else if decide (j ∈ pre ++ post) then None else n_parent m)
             (if decide (j = i) then [] else n_children m) (n_attrs m))) /\
  (forall j, st_heap s !! j = None -> j <> w -> st_heap s4 !! j = None).
Proof.
  intros Hg Hi Hcl Hk Hclr Hnew Happ Hgi Hset.
  assert (Hg1 : good s1).
  { pose proof (clear_consistent _ _ _ _ (proj2 Hg) Hclr) as Hc1.
    apply clear_ok in Hclr as (Hr & np & Hp & _ & He). split; [|assumption]. eapply fresh_edited; eauto. apply Hg. }
  apply clear_ok in Hclr as ([Hn1 Hl1] & np & Hp & _ & He). rewrite Hi in Hp. injection Hp as <-.
  rewrite <- (class_step_children n Hcl), Hk in He.
  assert (Hex : forall x, x ∈ pre -> is_Some (st_heap s1 !! x)).
  { intros x Hx. pose proof (kids_some _ _ _ (proj2 Hg) Hi) as Hks. rewrite list.Forall_forall in Hks.
    destruct (Hks x) as [m Hm]; [rewrite Hk; apply elem_of_app; auto|].
    rewrite (edited_lookup _ _ _ _ _ _ He Hm). eauto. }
  destruct (new_wrapper CStatement s1 s2 w s3 pre u2 Hg1 eq_refl Hex Hnew Happ) as (Hg3 & -> & Hn3 & Hl3 & Hw & Hold & Hdom).
  apply get_int_ok in Hgi as (_ & nw & Hw' & Hhd). rewrite Hw in Hw'. injection Hw' as <-.
  change (Some (VInt 0) = Some (VInt hd)) in Hhd. injection Hhd as <-.
  apply setattr_ok in Hset as (nw & Hw' & ->). rewrite Hw in Hw'. injection Hw' as <-.
  split.
  { eapply only_good; [|exact Hg3]. apply (only_upd (fun j a => j = st_next s1 /\ a = a_handrail_depth) s3 _ _ _ Hw); try reflexivity.
    intros a Ha. simpl. rewrite lookup_insert_ne; [reflexivity|]. intros <-. apply Ha. auto. }
  split; [assumption|]. split; [simpl; congruence|]. split; [simpl; congruence|]. split.
  - rewrite upd_lookup. rewrite decide_True by reflexivity. unfold set_n_attr, stmt_attrs. simpl. reflexivity.
  - split.
    + intros j m Hj. pose proof (proj1 Hg _ _ Hj) as Hlt. rewrite upd_lookup, decide_False by lia.
      rewrite (Hold j _ (edited_lookup _ _ _ _ _ _ He Hj)). unfold set_n_parent. simpl. reflexivity.
    + intros j Hj Hne. rewrite upd_lookup, decide_False by auto. apply Hdom; [|assumption].
      rewrite He, Hj. reflexivity.
Qed.

(** The new children of the step do not contain the step. *)
Lemma final_append s s4 s' i n (l : list id) (u : unit) :
  good s -> good s4 -> st_heap s !! i = Some n -> 
  (forall j m, st_heap s !! j = Some m -> j ∉ kids n -> exists m', st_heap s4 !! j = Some m' /\ n_parent m' = n_parent m) ->
  (forall x, x ∈ l -> is_Some (st_heap s !! x) -> x ∈ kids n) ->
  append i l s4 = (s', Ok u) -> good s'.
Proof.
  intros Hg Hg4 Hi Hpar Hl Happ. pose proof Happ as Happ0.
  apply append_ok in Happ as (Hr & He & Hnd & _ & Hall).
  split; [eapply fresh_edited; [exact Hr|exact He|apply Hg4]|].
  assert (Hni : i ∉ kids n).
  { intros Hin. apply (cons_acyclic _ (proj2 Hg) i). constructor. apply (cons_parent _ (proj2 Hg)). exists n. auto. }
  assert (Hkid : forall x, x ∈ kids n -> ancestor (st_heap s) x i).
  { intros x Hx. constructor. apply (cons_parent _ (proj2 Hg)). exists n. auto. }
  assert (Hno : forall x, ~ (ancestor (st_heap s) i x /\ x ∈ kids n)).
  { intros x [Ha Hx]. apply (cons_acyclic _ (proj2 Hg) i). eapply ancestor_trans; [exact Ha|auto]. }
  assert (Hanc : forall z, ancestor (st_heap s4) i z -> ancestor (st_heap s) i z).
  { apply ancestor_same. intros y Hy q (m' & Hm' & Eq).
    assert (exists m, st_heap s !! y = Some m) as [m Hm].
    { destruct Hy as [-> |Hy]; [eauto|].
      assert (forall x z, ancestor (st_heap s) x z -> is_Some (st_heap s !! z)) as Hs.
      { clear - Hg. induction 1 as [x p Hp|x p z Hp Ha IH]; [|assumption].
        apply (cons_parent _ (proj2 Hg)) in Hp as (m & Hm & _). eauto. }
      destruct (Hs _ _ Hy). eauto. }
    exists m. split; [assumption|].
    destruct (Hpar y m Hm) as (m2 & Hm2 & E2).
    - intros Hin. destruct Hy as [-> |Hy]; [contradiction|]. apply (Hno y). auto.
    - congruence. }
  eapply append_consistent; [apply Hg4| |exact Happ0]. split; [assumption|].
  intros x Hx. split; [|split].
  - rewrite elem_of_list_In in Hx. destruct (Hall _ Hx) as (_ & nc & _ & H1 & H2 & _). eauto.
  - intros ->. apply Hni. apply Hl; eauto.
  - intros Ha. apply Hanc in Ha. apply (Hno x). split; [assumption|]. apply Hl; [assumption|].
    clear - Ha Hg. induction Ha as [x p Hp|x p z Hp Ha IH]; [|assumption].
    apply (cons_parent _ (proj2 Hg)) in Hp as (m & Hm & _). eauto.
Qed.

Lemma first_match_split h ds l r : first_match h ds l r ->
  match r with
  | Some (c, k) => exists pre post, l = pre ++ c :: post /\ k = length pre /\ take k l = pre /\ drop k l = c :: post /\
      nth_error l k = Some c /\ (forall x, x ∈ pre -> ~ is_instance h ds x) /\ is_instance h ds c
  | None => forall x, x ∈ l -> ~ is_instance h ds x
  end.
Proof.
  destruct r as [[c k]|]; [|auto]. intros (Hk & Hc & Hpre).
  destruct (nth_error_split _ _ Hk) as (pre & post & -> & <-). exists pre, post.
  split; [reflexivity|]. split; [reflexivity|].
  rewrite take_app, drop_app. split; [reflexivity|]. split; [reflexivity|]. split; [assumption|]. split; [|assumption].
  intros x Hx. apply elem_of_list_In in Hx. apply In_nth_error in Hx as [j Hj].
  apply (Hpre j x).
  - apply nth_error_Some. congruence.
  - rewrite nth_error_app1; [assumption|]. apply nth_error_Some. congruence.
Qed.

Lemma subproof_body_ok s s' i n (u : unit) :
  good s -> st_heap s !! i = Some n -> n_cls n = CStep ->
  subproof_body tt i s = (s', Ok u) -> step_split s s' i (kids n).
Proof.
  intros Hg Hi Hcl H. unfold subproof_body in H.
  apply bind_ok in H as (s0 & cs & Hcs & H). apply children_of_ok in Hcs as (-> & n' & Hn' & ->).
  rewrite Hi in Hn'. injection Hn' as <-.
  destruct (kids n) as [|k0 ks] eqn:Ek; [msteps; constructor; reflexivity|]. rewrite <- Ek in *.
  apply bind_ok in H as (s0 & f & Hf & H). apply first_of_type_ok in Hf as (-> & n' & Hn' & Hf).
  rewrite Hi in Hn'. injection Hn' as <-. apply first_match_split in Hf.
  apply bind_ok in H as (s1 & u1 & Hclr & H).
  apply bind_ok in H as (s2 & w & Hnew & H).
  apply bind_ok in H as (s3 & u3 & Happ & H).
  apply bind_ok in H as (s3' & hd & Hgi & H). pose proof (get_int_ok _ _ _ _ _ Hgi) as (-> & _).
  apply bind_ok in H as (s4 & u4 & Hset & H).
  assert (Hnd : NoDup (kids n)) by (eapply cons_nodup; [apply Hg|eassumption]).
  assert (Hparent : forall x m, x ∈ kids n -> st_heap s !! x = Some m -> n_parent m = Some i).
  { intros x m Hx Hm. assert (parent_is (st_heap s) x i) as (m' & Hm' & E) by (apply (cons_parent _ (proj2 Hg)); exists n; auto).
    congruence. }
  assert (Hself : i ∉ kids n).
  { intros Hin. apply (cons_acyclic _ (proj2 Hg) i). constructor. apply (cons_parent _ (proj2 Hg)). exists n. auto. }
  destruct f as [[c k]|].
  - destruct Hf as (pre & post & El & -> & Etk & Edr & Enth & Hpre & Hc). cbv zeta in H. rewrite Etk in Happ. rewrite Enth, Edr in H.
    destruct (statement_part s s1 s2 s3 s4 i n pre (c :: post) w u1 u3 u4 hd) as (Hg4 & -> & Hn4 & Hl4 & Hw & Hold & Hdom); auto.
    assert (Hpar4 : forall j m, st_heap s !! j = Some m -> j ∉ kids n -> exists m', st_heap s4 !! j = Some m' /\ n_parent m' = n_parent m).
    { intros j m Hj Hnin. rewrite (Hold j m Hj). eexists. split; [reflexivity|]. simpl. rewrite El in Hnin.
      rewrite !decide_False; auto. intros Hin. apply Hnin. apply elem_of_app. auto. }
    apply bind_ok in H as (s5 & b1 & Hb1 & H). apply inst_ok in Hb1 as (-> & nc4 & Hnc4 & ->).
    apply bind_ok in H as (s5 & b2 & Hb2 & H). apply inst_ok in Hb2 as (-> & nc5 & Hnc5 & ->).
    rewrite Hnc4 in Hnc5. injection Hnc5 as <-.
    assert (exists nc, st_heap s !! c = Some nc /\ (n_cls nc = CStep \/ n_cls nc = CSubproof)) as (nc & Hnc & Hcc).
    { apply step_or_sub_inst in Hc as [(nc & Hnc & Hcc)|(nc & Hnc & Hcc)]; eauto. }
    rewrite (Hold c nc Hnc) in Hnc4. injection Hnc4 as <-. cbn [n_cls] in H.
    assert (Hsid : forall x m, st_heap s !! x = Some m -> x <> st_next s) by (intros x m Hm; apply (proj1 Hg) in Hm; lia).
    assert (Hin_c : c ∈ kids n) by (rewrite El; apply elem_of_app; right; constructor).
    rewrite El. destruct Hcc as [Hcc|Hcc]; rewrite Hcc in H.
    + change (subclass_any CStep [CStep]) with true in H. cbv iota in H.
      apply bind_ok in H as (s6 & sp & H6 & H). apply bind_ok in H6 as (s5 & sp' & Hnsp & H6).
      apply bind_ok in H6 as (s6' & u6 & Hasp & H6). apply ret_ok in H6 as [-> ->].
      destruct (new_wrapper CSubproof s4 s5 sp' s6' (c :: post) u6 Hg4 eq_refl) as (Hg6 & -> & Hn6 & Hl6 & Hw6 & Hold6 & Hdom6); auto.
      { intros x Hx. pose proof (kids_some _ _ _ (proj2 Hg) Hi) as Hks. rewrite list.Forall_forall in Hks.
        destruct (Hks x) as [m Hm]; [rewrite El; apply elem_of_app; auto|]. rewrite (Hold x m Hm). eauto. }
      assert (Hold6' : forall j m, st_heap s !! j = Some m -> st_heap s6' !! j =
        Some (MkNode (n_cls m) (if decide (j ∈ pre) then Some (st_next s) else if decide (j ∈ c :: post) then Some (S (st_next s)) else n_parent m)
             (if decide (j = i) then [] else n_children m) (n_attrs m))).
      { intros j m Hj. rewrite (Hold6 j _ (Hold j m Hj)). unfold set_n_parent. simpl. rewrite Hn4. f_equal. f_equal.
        rewrite El in Hnd. apply NoDup_app in Hnd as (_ & Hd & _).
        destruct (decide (j ∈ c :: post)) as [Hin|Hin].
        - rewrite decide_False; [reflexivity|]. intros Hp. apply (Hd j Hp). assumption.
        - destruct (decide (j ∈ pre)); [reflexivity|]. rewrite decide_False; [reflexivity|]. rewrite elem_of_app. tauto. }
      assert (Hg' : good s').
      { eapply (final_append s s6' s' i n _ _ Hg Hg6 Hi); [| |exact H].
        - intros j m Hj Hnin. rewrite (Hold6' j m Hj). eexists. split; [reflexivity|]. simpl. rewrite El in Hnin.
          rewrite elem_of_app in Hnin. rewrite !decide_False by tauto. reflexivity.
        - intros x Hx [m Hm]. rewrite !elem_of_cons in Hx. apply (proj1 Hg) in Hm.
          destruct Hx as [-> |[-> |Hx]]; [lia|lia|inversion Hx]. }
      apply append_ok in H as ([Hn' Hl'] & He & _ & _ & _).
      eapply split_steps.
      * intros x Hx. rewrite <- step_or_sub_inst. auto.
      * exists nc. auto.
      * split; [assumption|lia|congruence| | |].
        -- assert (Hw6' : st_heap s6' !! st_next s = Some (MkNode CStatement None pre stmt_attrs)).
           { rewrite (Hold6 _ _ Hw). unfold set_n_parent. simpl. rewrite decide_False; [reflexivity|].
             intros Hin. pose proof (kids_some _ _ _ (proj2 Hg) Hi) as Hks. rewrite list.Forall_forall in Hks.
             destruct (Hks (st_next s)) as [m Hm]; [rewrite El; apply elem_of_app; auto|]. apply (Hsid _ _ Hm). reflexivity. }
           rewrite He, Hw6'. simpl. rewrite decide_True by constructor.
           rewrite decide_False; [reflexivity|]. intros E. apply (Hsid _ _ Hi). congruence.
        -- intros j m Hj. rewrite He, (Hold6' j m Hj). simpl. rewrite Hn4.
           rewrite (decide_False (P := j ∈ [st_next s; S (st_next s)])).
           ++ f_equal. f_equal. destruct (decide (j = i)); reflexivity.
           ++ rewrite !elem_of_cons. apply (proj1 Hg) in Hj. intros [?|[?|Hx]]; [lia|lia|inversion Hx].
        -- intros j m Hj Hm. apply (edited_lookup_inv _ _ _ _ _ _ He) in Hm as (m6 & Hm6 & ->).
           destruct (decide (j = st_next s4)) as [-> |Hne6].
           { rewrite Hw6 in Hm6. injection Hm6 as <-. right. split; reflexivity. }
           destruct (decide (j = st_next s)) as [-> |Hne].
           { rewrite (Hold6 _ _ Hw) in Hm6. injection Hm6 as <-. left. split; reflexivity. }
           rewrite (Hdom6 j (Hdom j Hj Hne) Hne6) in Hm6. discriminate.
      * lia.
      * rewrite <- Hn4. rewrite He, Hw6. simpl. rewrite decide_True by (do 2 constructor).
        rewrite decide_False; [reflexivity|]. apply (proj1 Hg) in Hi. lia.
    + change (subclass_any CSubproof [CStep]) with false in H. change (subclass_any CSubproof [CSubproof]) with true in H. cbv iota in H.
      destruct (Nat.eqb_spec (length pre) (length (kids n) - 1)) as [Elen|]; [|apply bind_ok in H as (? & ? & Hx & _); discriminate].
      apply bind_ok in H as (s6 & sp & H6 & H). apply ret_ok in H6 as [-> ->].
      assert (post = []) as ->.
      { rewrite El, app_length in Elen. simpl in Elen. destruct post; [reflexivity|simpl in Elen; lia]. }
      assert (Hg' : good s').
      { eapply (final_append s s4 s' i n _ _ Hg Hg4 Hi); [assumption| |exact H].
        intros x Hx [m Hm]. rewrite !elem_of_cons in Hx. apply (proj1 Hg) in Hm.
        destruct Hx as [-> |[-> |Hx]]; [lia|assumption|inversion Hx]. }
      apply append_ok in H as ([Hn' Hl'] & He & _ & _ & _).
      eapply split_subproof.
      * intros x Hx. rewrite <- step_or_sub_inst. auto.
      * exists nc. auto.
      * split; [assumption|lia|congruence| | |].
        -- rewrite He, Hw. simpl. rewrite decide_True by constructor.
           rewrite decide_False; [reflexivity|]. intros E. apply (Hsid _ _ Hi). congruence.
        -- intros j m Hj. rewrite He, (Hold j m Hj). simpl. f_equal. f_equal.
           ++ pose proof (Hsid _ _ Hj) as Hjs. rewrite El in Hnd. apply NoDup_app in Hnd as (_ & Hd & _).
              destruct (decide (j = c)) as [-> |Hjc].
              ** rewrite decide_True by (do 2 constructor). rewrite decide_False.
                 --- rewrite (Hparent c m Hin_c Hj). reflexivity.
                 --- intros Hp. apply (Hd c Hp). constructor.
              ** rewrite (decide_False (P := j ∈ [_; _])).
                 --- destruct (decide (j ∈ pre)); [reflexivity|].
                     rewrite decide_False; [reflexivity|]. rewrite elem_of_app, elem_of_list_singleton. tauto.
                 --- rewrite !elem_of_cons. intros [?|[?|Hx]]; [contradiction|contradiction|inversion Hx].
           ++ destruct (decide (j = i)); reflexivity.
        -- intros j m Hj Hm. apply (edited_lookup_inv _ _ _ _ _ _ He) in Hm as (m6 & Hm6 & ->).
           destruct (decide (j = st_next s)) as [-> |Hne].
           { rewrite Hw in Hm6. injection Hm6 as <-. left. split; reflexivity. }
           rewrite (Hdom j Hj Hne) in Hm6. discriminate.
      * lia.
  - cbv zeta in H. rewrite take_ge in Happ by lia.
    rewrite (proj2 (nth_error_None (kids n) (length (kids n)))) in H by lia.
    destruct (statement_part s s1 s2 s3 s4 i n (kids n) [] w u1 u3 u4 hd) as (Hg4 & -> & Hn4 & Hl4 & Hw & Hold & Hdom); auto.
    { rewrite app_nil_r. reflexivity. }
    assert (Hg' : good s').
    { eapply (final_append s s4 s' i n _ _ Hg Hg4 Hi); [| |exact H].
      - intros j m Hj Hnin. rewrite (Hold j m Hj). eexists. split; [reflexivity|]. simpl. rewrite app_nil_r.
        rewrite !decide_False by assumption. reflexivity.
      - intros x Hx [m Hm]. rewrite !elem_of_cons in Hx. apply (proj1 Hg) in Hm. destruct Hx as [-> |Hx]; [lia|inversion Hx]. }
    apply append_ok in H as ([Hn' Hl'] & He & _ & _ & _).
    apply split_statement.
    + rewrite Ek. discriminate.
    + intros x Hx. rewrite <- step_or_sub_inst. auto.
    + assert (Hsid : forall x m, st_heap s !! x = Some m -> x <> st_next s) by (intros x m Hm; apply (proj1 Hg) in Hm; lia).
      split; [assumption|lia|congruence| | |].
      * rewrite He, Hw. simpl. rewrite decide_True by constructor.
        rewrite decide_False; [reflexivity|]. intros E. apply (Hsid _ _ Hi). congruence.
      * intros j m Hj. rewrite He, (Hold j m Hj). simpl. f_equal. pose proof (Hsid _ _ Hj) as Hjs.
        rewrite (decide_False (P := j ∈ [st_next s])) by (rewrite elem_of_list_singleton; assumption).
        rewrite app_nil_r. f_equal.
        -- destruct (decide (j ∈ kids n)); reflexivity.
        -- destruct (decide (j = i)); reflexivity.
      * intros j m Hj Hm. apply (edited_lookup_inv _ _ _ _ _ _ He) in Hm as (m6 & Hm6 & ->).
        destruct (decide (j = st_next s)) as [-> |Hne].
        { rewrite Hw in Hm6. injection Hm6 as <-. left. split; reflexivity. }
        rewrite (Hdom j Hj Hne) in Hm6. discriminate.
    + lia.
Qed.

(** *** Induction over [restructured] *)
Section restructured_ind.
  Context (h h' : gmap id node) (P : tree -> tree -> Prop).
  Hypothesis Hother : forall i ts ts', ~ class_of h i CStep -> Forall2 (restructured h h') ts ts' -> Forall2 P ts ts' -> P (T i ts) (T i ts').
  Hypothesis Hleaf : forall i, class_of h i CStep -> P (T i []) (T i []).
  Hypothesis Hstatement : forall i ts w ts',
    class_of h i CStep -> ts <> [] -> (forall t, t ∈ ts -> ~ step_or_sub h (root t)) ->
    h !! w = None -> class_of h' w CStatement ->
    Forall2 (restructured h h') ts ts' -> Forall2 P ts ts' -> P (T i ts) (T i [T w ts']).
  Hypothesis Hsteps : forall i pre c post w v pre' post',
    class_of h i CStep -> (forall t, t ∈ pre -> ~ step_or_sub h (root t)) -> class_of h (root c) CStep ->
    h !! w = None -> class_of h' w CStatement -> h !! v = None -> class_of h' v CSubproof ->
    Forall2 (restructured h h') pre pre' -> Forall2 (restructured h h') (c :: post) post' ->
    Forall2 P pre pre' -> Forall2 P (c :: post) post' ->
    P (T i (pre ++ c :: post)) (T i [T w pre'; T v post']).
  Hypothesis Hsubproof : forall i pre c w pre' c',
    class_of h i CStep -> (forall t, t ∈ pre -> ~ step_or_sub h (root t)) -> class_of h (root c) CSubproof ->
    h !! w = None -> class_of h' w CStatement ->
    Forall2 (restructured h h') pre pre' -> Forall2 P pre pre' -> restructured h h' c c' -> P c c' ->
    P (T i (pre ++ [c])) (T i [T w pre'; c']).
  Fixpoint restructured_ind' t t' (H : restructured h h' t t') {struct H} : P t t' :=
    let fix go ts ts' (F : Forall2 (restructured h h') ts ts') {struct F} : Forall2 P ts ts' :=
      match F with
      | Forall2_nil _ => Forall2_nil _
      | Forall2_cons _ _ HR HF => Forall2_cons _ _ (restructured_ind' _ _ HR) (go _ _ HF)
      end in
    match H with
    | rs_other _ _ i ts ts' H1 H2 => Hother i ts ts' H1 H2 (go _ _ H2)
    | rs_leaf _ _ i H1 => Hleaf i H1
    | rs_statement _ _ i ts w ts' H1 H2 H3 H4 H5 H6 => Hstatement i ts w ts' H1 H2 H3 H4 H5 H6 (go _ _ H6)
    | rs_steps _ _ i pre c post w v pre' post' H1 H2 H3 H4 H5 H6 H7 H8 H9 =>
        Hsteps i pre c post w v pre' post' H1 H2 H3 H4 H5 H6 H7 H8 H9 (go _ _ H8) (go _ _ H9)
    | rs_subproof _ _ i pre c w pre' c' H1 H2 H3 H4 H5 H6 H7 =>
        Hsubproof i pre c w pre' c' H1 H2 H3 H4 H5 H6 (go _ _ H6) H7 (restructured_ind' _ _ H7)
    end.
End restructured_ind.

Lemma restructured_root h h' t t' : restructured h h' t t' -> root t' = root t.
Proof. destruct 1; reflexivity. Qed.
Lemma restructured_roots h h' ts ts' : Forall2 (restructured h h') ts ts' -> map root ts' = map root ts.
Proof. induction 1 as [|t t' ts ts' H _ IH]; [reflexivity|]. simpl. rewrite IH, (restructured_root _ _ _ _ H). reflexivity. Qed.

(** Classes never change, so the relation can be stated for an earlier heap. *)
Lemma class_of_iff h h1 x c : class_in h x = class_in h1 x -> class_of h x c <-> class_of h1 x c.
Proof.
  unfold class_in, class_of. intros E. split; intros (n & Hn & Hc); rewrite Hn in E; simpl in E.
  - destruct (h1 !! x) as [m|]; [|discriminate]. injection E as E. exists m. split; congruence.
  - destruct (h !! x) as [m|]; [|discriminate]. injection E as E. exists m. split; congruence.
Qed.
Lemma restructured_earlier h h1 h' t t' :
  restructured h1 h' t t' ->
  (forall x, h1 !! x = None -> h !! x = None) ->
  (forall x, x ∈ doc_order t -> class_in h x = class_in h1 x) ->
  restructured h h' t t'.
Proof.
  intros H Hn. induction H as [i ts ts' H1 H2 IH|i H1|i ts w ts' H1 H2 H3 H4 H5 H6 IH
    |i pre c post w v pre' post' H1 H2 H3 H4 H5 H6 H7 H8 H9 IH1 IH2
    |i pre c w pre' c' H1 H2 H3 H4 H5 H6 IH1 H7 IH2] using restructured_ind'; intros Hc.
  all: assert (Hi : class_in h i = class_in h1 i) by (apply Hc; constructor).
  all: rewrite doc_order_T in Hc.
  all: assert (Hfor : forall us us', Forall2 (λ t t' : tree,
         (∀ x : nat, x ∈ doc_order t → class_in h x = class_in h1 x) → restructured h h' t t') us us' ->
         (forall x, x ∈ doc_orders us -> class_in h x = class_in h1 x) -> Forall2 (restructured h h') us us')
    by (clear; induction 1 as [|t t' us us' H _ IH]; intros Hx; constructor;
        [apply H; intros x Hin; apply Hx; rewrite doc_orders_cons; apply elem_of_app; auto
        |apply IH; intros x Hin; apply Hx; rewrite doc_orders_cons; apply elem_of_app; auto]).
  all: assert (Hroot : forall us t, t ∈ us -> (forall x, x ∈ doc_orders us -> class_in h x = class_in h1 x) -> class_in h (root t) = class_in h1 (root t))
    by (intros us t Hin Hx; apply Hx; apply elem_doc_orders; exists t; split; [assumption|apply root_in_doc_order]).
  all: assert (Hnss : forall us, (forall x, x ∈ doc_orders us -> class_in h x = class_in h1 x) -> (∀ t : tree, t ∈ us → ¬ step_or_sub h1 (root t)) -> (∀ t : tree, t ∈ us → ¬ step_or_sub h (root t)))
    by (intros us Hx Hus t Hin; unfold step_or_sub in *; rewrite !(class_of_iff h h1) by eauto; auto).

  - apply rs_other; [rewrite (class_of_iff h h1); assumption|]. apply Hfor; [assumption|].
    intros x Hx. apply Hc. constructor. assumption.
  - apply rs_leaf. rewrite (class_of_iff h h1); assumption.
  - assert (Hts : forall x, x ∈ doc_orders ts -> class_in h x = class_in h1 x) by (intros x Hx; apply Hc; constructor; assumption).
    apply rs_statement; [rewrite (class_of_iff h h1); assumption|assumption|apply Hnss; assumption|apply Hn; assumption|assumption|apply Hfor; assumption].
  - assert (Hpre : forall x, x ∈ doc_orders pre -> class_in h x = class_in h1 x).
    { intros x Hx; apply Hc. right. rewrite doc_orders_app. apply elem_of_app. auto. }
    assert (Hpost : forall x, x ∈ doc_orders (c :: post) -> class_in h x = class_in h1 x).
    { intros x Hx; apply Hc. right. rewrite doc_orders_app. apply elem_of_app. auto. }
    apply rs_steps; [rewrite (class_of_iff h h1); assumption|apply Hnss; assumption| |apply Hn; assumption|assumption|apply Hn; assumption|assumption|apply Hfor; assumption|apply Hfor; assumption].
    rewrite (class_of_iff h h1); [assumption|]. eapply Hroot; [|exact Hpost]. constructor.
  - assert (Hpre : forall x, x ∈ doc_orders pre -> class_in h x = class_in h1 x).
    { intros x Hx; apply Hc. right. rewrite doc_orders_app. apply elem_of_app. auto. }
    assert (Hpost : forall x, x ∈ doc_orders [c] -> class_in h x = class_in h1 x).
    { intros x Hx; apply Hc. right. rewrite doc_orders_app. apply elem_of_app. auto. }
    apply rs_subproof; [rewrite (class_of_iff h h1); assumption|apply Hnss; assumption| |apply Hn; assumption|assumption|apply Hfor; assumption|].
    { rewrite (class_of_iff h h1); [assumption|]. eapply Hroot; [|exact Hpost]. constructor. }
    apply IH2. intros x Hx. apply Hpost. unfold doc_orders. simpl. rewrite app_nil_r. assumption.
Qed.

(** Moving a subtree. *)
Lemma tree_at_move h h' p p' t :
  consistent h -> tree_at h p t ->
  (forall x n, x ∈ doc_order t -> h !! x = Some n -> exists n', h' !! x = Some n' /\ kids n' = kids n /\
     n_parent n' = if decide (x = root t) then p' else n_parent n) ->
  tree_at h' p' t.
Proof.
  intros Hc Ht Hx. pose proof (tree_at_nodup _ _ _ Hc Ht) as Hnd.
  destruct t as [i cs]. apply tree_at_inv in Ht as (n & Hi & Hp & Hk & Hcs).
  destruct (Hx i n) as (n' & Hi' & Hk' & Hp'); [constructor|assumption|].
  simpl in Hp'. rewrite decide_True in Hp' by reflexivity.
  econstructor; [exact Hi'|assumption|congruence|].
  rewrite list.Forall_forall in *. intros c Hin. rewrite doc_order_T in Hnd. apply list.NoDup_cons in Hnd as [Hni _].
  pose proof (tree_at_tmap h h' (fun x => x) (Some i) c (Hcs c Hin)) as Htm.
  simpl in Htm. rewrite tmap_id in Htm by reflexivity. apply Htm.
  intros x m Hxc Hm. assert (x ∈ doc_orders cs) by (apply elem_doc_orders; eauto).
  destruct (Hx x m) as (m' & E1 & E2 & E3); [constructor; assumption|assumption|].
  simpl in E3. rewrite decide_False in E3 by (intros ->; contradiction).
  exists m'. split; [assumption|]. split; [rewrite E3; destruct (n_parent m); reflexivity|].
  rewrite map_id. assumption.
Qed.

(** The effect on a forest. *)
Record sub_post (s s' : st) (ts ts' : list tree) : Prop := {
  sp_good : good s';
  sp_next : st_next s <= st_next s';
  sp_logs : st_logs s' = st_logs s;
  sp_rel : Forall2 (restructured (st_heap s) (st_heap s')) ts ts';
  sp_tree : Forall2 (fun t t' => forall p, tree_at (st_heap s) p t -> tree_at (st_heap s') p t') ts ts';
  sp_frame : forall j n, j ∉ doc_orders ts -> st_heap s !! j = Some n -> st_heap s' !! j = Some n;
  sp_old : forall j n, st_heap s !! j = Some n -> exists n', st_heap s' !! j = Some n' /\
    n_cls n' = n_cls n /\ n_attrs n' = n_attrs n;
  sp_new : forall j n', st_heap s !! j = None -> st_heap s' !! j = Some n' -> wrapper_node n'
}.

Lemma not_fresh s j n : good s -> st_heap s !! j = Some n -> j < st_next s.
Proof. intros [Hf _]. apply Hf. Qed.
Lemma none_above s j : good s -> st_next s <= j -> st_heap s !! j = None.
Proof. intros Hg Hj. destruct (st_heap s !! j) eqn:E; [|reflexivity]. apply (not_fresh _ _ _ Hg) in E. lia. Qed.

Lemma wrapped_class s s' i pre moved tail v x :
  good s -> wrapped s s' i pre moved tail v -> is_Some (st_heap s !! x) -> class_in (st_heap s) x = class_in (st_heap s') x.
Proof. intros Hg W [n Hn]. unfold class_in. rewrite Hn, (wr_old _ _ _ _ _ _ _ W _ _ Hn). reflexivity. Qed.
Lemma wrapped_mono s s' i pre moved tail v x :
  wrapped s s' i pre moved tail v -> st_heap s' !! x = None -> st_heap s !! x = None.
Proof.
  intros W Hx. destruct (st_heap s !! x) as [n|] eqn:E; [|reflexivity].
  rewrite (wr_old _ _ _ _ _ _ _ W _ _ E) in Hx. discriminate.
Qed.

(** The subtrees of the children of a step after the step has been split. *)
Lemma wrapped_subtree s s' i pre moved tail v c (cs : list tree) n p' :
  good s -> wrapped s s' i pre moved tail v -> st_heap s !! i = Some n -> kids n = map root cs ->
  c ∈ cs -> tree_at (st_heap s) (Some i) c -> i ∉ doc_order c ->
  (forall x, x ∈ pre -> x ∈ kids n) -> (forall x, x ∈ moved -> x ∈ kids n) ->
  p' = (if decide (root c ∈ pre) then Some (st_next s) else if decide (root c ∈ moved) then Some v else Some i) ->
  tree_at (st_heap s') p' c.
Proof.
  intros Hg W Hi Hk Hc Ht Hni Hpre Hmov ->. eapply tree_at_move; [apply Hg|exact Ht|].
  intros x m Hx Hm. rewrite (wr_old _ _ _ _ _ _ _ W _ _ Hm). eexists. split; [reflexivity|].
  rewrite (decide_False (P := x = i)) by (intros ->; contradiction). split; [reflexivity|]. simpl.
  destruct (decide (x = root c)) as [-> |Hne].
  - destruct (decide (root c ∈ pre)); [reflexivity|]. destruct (decide (root c ∈ moved)); [reflexivity|].
    destruct c as [r rs]. apply tree_at_inv in Ht as (mr & Hmr & Hp & _). simpl in Hm. congruence.
  - assert (Hnk : x ∉ kids n).
    { intros Hin. destruct (tree_at_parent_in _ _ _ _ Ht Hx) as [?|(q & Hq & Hqc)]; [contradiction|].
      assert (parent_is (st_heap s) x i) as Hpi by (apply (cons_parent _ (proj2 Hg)); exists n; auto).
      assert (q = i) as -> by (destruct Hq as (? & ? & ?), Hpi as (? & ? & ?); congruence). contradiction. }
    rewrite !decide_False by auto. reflexivity.
Qed.
Lemma wrapped_other s s' i pre moved tail v p t n :
  good s -> wrapped s s' i pre moved tail v -> st_heap s !! i = Some n -> tree_at (st_heap s) p t ->
  i ∉ doc_order t -> (forall x, x ∈ pre \/ x ∈ moved -> x ∉ doc_order t) -> tree_at (st_heap s') p t.
Proof.
  intros Hg W Hi Ht Hni Hd.
  pose proof (tree_at_tmap (st_heap s) (st_heap s') (fun x => x) p t Ht) as Htm.
  rewrite tmap_id in Htm by reflexivity. replace (option_map (fun x => x) p) with p in Htm by (destruct p; reflexivity).
  apply Htm. intros x m Hx Hm. rewrite (wr_old _ _ _ _ _ _ _ W _ _ Hm). eexists. split; [reflexivity|]. simpl.
  rewrite (decide_False (P := x ∈ pre)) by (intros ?; apply (Hd x); auto).
  rewrite (decide_False (P := x ∈ moved)) by (intros ?; apply (Hd x); auto).
  split; [destruct (n_parent m); reflexivity|]. rewrite map_id. unfold kids. simpl.
  rewrite (decide_False (P := x = i)) by (intros ->; contradiction). reflexivity.
Qed.

Lemma restructured_other_inv h h' w ts t' :
  restructured h h' (T w ts) t' -> ~ class_of h w CStep -> exists ts', t' = T w ts' /\ Forall2 (restructured h h') ts ts'.
Proof. intros H Hn. inversion H; subst; try contradiction. eauto. Qed.
Lemma restructured_earliers h h1 h' ts ts' :
  Forall2 (restructured h1 h') ts ts' ->
  (forall x, h1 !! x = None -> h !! x = None) ->
  (forall x, x ∈ doc_orders ts -> class_in h x = class_in h1 x) ->
  Forall2 (restructured h h') ts ts'.
Proof.
  intros H Hn. induction H as [|t t' ts ts' H _ IH]; intros Hc; constructor.
  - eapply restructured_earlier; [exact H|assumption|]. intros x Hx. apply Hc. rewrite doc_orders_cons. apply elem_of_app. auto.
  - apply IH. intros x Hx. apply Hc. rewrite doc_orders_cons. apply elem_of_app. auto.
Qed.
Lemma rooted_some h ts x : Forall (fun t => exists p, tree_at h p t) ts -> x ∈ doc_orders ts -> is_Some (h !! x).
Proof.
  rewrite list.Forall_forall. intros H Hx. apply elem_doc_orders in Hx as (t & Ht & Hx).
  destruct (H t Ht) as [p Hp]. eapply tree_at_some; eassumption.
Qed.

(** Putting a split step together with what happened below and beside it. *)
Lemma after_wrap s s1 s' i n pre moved tail v cs us ts us' ts' :
  good s -> wrapped s s1 i pre moved tail v -> sub_post s1 s' (us ++ ts) (us' ++ ts') -> length us = length us' ->
  st_heap s !! i = Some n -> kids n = map root cs -> st_next s :: tail = map root us -> n_cls n = CStep ->
  i ∉ pre -> i ∉ moved ->
  Forall (fun t => exists p, tree_at (st_heap s) p t) (cs ++ ts) ->
  Forall (tree_at (st_heap s1) (Some i)) us ->
  i ∉ doc_orders (us ++ ts) ->
  (forall x, x ∈ doc_orders us -> x ∈ doc_orders cs \/ st_next s <= x) ->
  (forall x, x ∈ pre \/ x ∈ moved -> x ∈ doc_orders cs /\ x ∉ doc_orders ts) ->
  (forall t p, t ∈ ts -> tree_at (st_heap s) p t -> tree_at (st_heap s1) p t) ->
  (Forall2 (restructured (st_heap s1) (st_heap s')) us us' -> restructured (st_heap s) (st_heap s') (T i cs) (T i us')) ->
  sub_post s s' (T i cs :: ts) (T i us' :: ts').
Proof.
  intros Hg W SP Hlen Hi Hk Htail Hcl Hip Him Hall Hus Hni Hsub Hmv Hts Hrel.
  assert (Hmono : forall x, st_heap s1 !! x = None -> st_heap s !! x = None) by (intros x; eapply wrapped_mono; eassumption).
  pose proof (sp_rel _ _ _ _ SP) as HR. apply list.Forall2_app_inv in HR as [HR1 HR2]; [|assumption].
  pose proof (sp_tree _ _ _ _ SP) as HT. apply list.Forall2_app_inv in HT as [HT1 HT2]; [|assumption].
  pose proof (wr_old _ _ _ _ _ _ _ W _ _ Hi) as Hi1.
  rewrite (decide_False (P := i ∈ pre)) in Hi1 by assumption.
  rewrite (decide_False (P := i ∈ moved)) in Hi1 by assumption.
  rewrite (decide_True (P := i = i)) in Hi1 by reflexivity.
  pose proof (sp_frame _ _ _ _ SP _ _ Hni Hi1) as Hi'.
  constructor.
  - apply SP.
  - pose proof (sp_next _ _ _ _ SP). pose proof (wr_next _ _ _ _ _ _ _ W). lia.
  - rewrite (sp_logs _ _ _ _ SP). apply W.
  - constructor; [auto|]. eapply restructured_earliers; [exact HR2|assumption|].
    intros x Hx. eapply wrapped_class; [exact Hg|exact W|]. eapply rooted_some; [exact Hall|].
    rewrite doc_orders_app. apply elem_of_app. auto.
  - constructor.
    + intros p Ht. apply tree_at_inv in Ht as (m & Hm & Hp & _). assert (m = n) as -> by congruence.
      econstructor; [exact Hi'|exact Hp| |].
      * unfold kids. simpl. rewrite Hcl. change (has_children CStep) with true. cbv iota.
        rewrite (restructured_roots _ _ _ _ HR1). assumption.
      * clear - HT1 Hus. induction HT1 as [|u u' us us' H _ IH]; constructor.
        -- apply list.Forall_cons in Hus as [Hu _]. auto.
        -- apply IH. apply list.Forall_cons in Hus as [_ Hu]. assumption.
    + clear - HT2 Hts. induction HT2 as [|t t' ts ts' H _ IH]; constructor.
      * intros p Hp. apply H. apply Hts; [constructor|assumption].
      * apply IH. intros u p Hu. apply Hts. constructor. assumption.
  - intros j m Hj Hm. rewrite doc_orders_cons, doc_order_T in Hj.
    assert (Hji : j <> i) by (intros ->; apply Hj; simpl; constructor).
    assert (Hjc : j ∉ doc_orders cs) by (intros ?; apply Hj; simpl; constructor; apply elem_of_app; auto).
    assert (Hjt : j ∉ doc_orders ts) by (intros ?; apply Hj; simpl; constructor; apply elem_of_app; auto).
    pose proof (wr_old _ _ _ _ _ _ _ W _ _ Hm) as Hm1.
    rewrite (decide_False (P := j ∈ pre)) in Hm1 by (intros ?; apply Hjc; apply Hmv; auto).
    rewrite (decide_False (P := j ∈ moved)) in Hm1 by (intros ?; apply Hjc; apply Hmv; auto).
    rewrite (decide_False (P := j = i)) in Hm1 by assumption.
    apply (sp_frame _ _ _ _ SP).
    + rewrite doc_orders_app, elem_of_app. intros [Hin|?]; [|contradiction].
      apply Hsub in Hin as [?|Hge]; [contradiction|]. apply (not_fresh _ _ _ Hg) in Hm. lia.
    + rewrite Hm1. destruct m; reflexivity.
  - intros j m Hm. pose proof (wr_old _ _ _ _ _ _ _ W _ _ Hm) as Hm1.
    destruct (sp_old _ _ _ _ SP _ _ Hm1) as (m' & E1 & E2 & E3). simpl in *. eauto.
  - intros j m' Hj Hm'. destruct (st_heap s1 !! j) as [m|] eqn:E; [|eapply sp_new; eassumption].
    destruct (sp_old _ _ _ _ SP _ _ E) as (m2 & E1 & E2 & E3). rewrite Hm' in E1. injection E1 as <-.
    destruct (wr_dom _ _ _ _ _ _ _ W j m Hj E) as [[Hc Ha]|[Hc Ha]]; [left|right]; split; congruence.
Qed.

Lemma trav_loop_cons_ok {A} fuel cond (body : A -> id -> M A) acc i rest s s' r :
  trav_loop (S fuel) cond body acc (i :: rest) s = (s', Ok r) ->
  exists n s1 acc' n1, st_heap s !! i = Some n /\ (if cond n then body acc i else ret acc) s = (s1, Ok acc') /\
    st_heap s1 !! i = Some n1 /\ trav_loop fuel cond body acc' (kids n1 ++ rest) s1 = (s', Ok r).
Proof.
  intros H. simpl in H. apply bind_ok in H as (s0 & n & Hn & H). apply get_node_ok in Hn as [-> Hn].
  apply bind_ok in H as (s1 & acc' & Hb & H). apply bind_ok in H as (s2 & cs & Hc & H).
  apply children_of_ok in Hc as (-> & n1 & Hn1 & ->). eauto 10.
Qed.
Lemma elem_roots (x : id) ts : x ∈ map root ts -> x ∈ doc_orders ts.
Proof.
  intros Hx. apply elem_of_list_fmap in Hx as (t & -> & Ht). apply elem_doc_orders. exists t.
  split; [assumption|apply root_in_doc_order].
Qed.
Lemma roots_of_tree h i ts : Forall (tree_at h (Some i)) ts -> Forall (fun t => exists p, tree_at h p t) ts.
Proof. apply Forall_impl. eauto. Qed.

Lemma sub_post_nil s : good s -> sub_post s s [] [].
Proof.
  intros Hg. constructor; auto.
  - intros j n Hn. eauto.
  - intros j n' E1 E2. congruence.
Qed.
Lemma sub_loop : forall fuel ts s s' (u : unit),
  good s -> Forall (fun t => exists p, tree_at (st_heap s) p t) ts -> NoDup (doc_orders ts) ->
  trav_loop fuel (cond_class CStep) subproof_body tt (map root ts) s = (s', Ok u) ->
  exists ts', sub_post s s' ts ts'.
Proof.
  induction fuel as [|fuel IH]; intros ts s s' u Hg Hts Hnd H.
  { destruct ts as [|t ts]; [|discriminate]. simpl in H. apply ret_ok in H as [<- _]. exists [].
    apply sub_post_nil. assumption. }
  destruct ts as [|[i cs] ts].
  { simpl in H. apply ret_ok in H as [<- _]. exists [].
    apply sub_post_nil. assumption. }
  apply list.Forall_cons in Hts as [[p Ht] Hts].
  apply trav_loop_cons_ok in H as (n & s1 & [] & n1 & Hi & Hb & Hi1 & H).
  pose proof Ht as Ht0. apply tree_at_inv in Ht as (n0 & Hn0 & Hp & Hk & Hcs).
  simpl in Hn0, Hi. assert (n0 = n) as -> by congruence. clear Hn0. simpl in Hi1.
  rewrite doc_orders_cons, doc_order_T in Hnd. simpl in Hnd. apply list.NoDup_cons in Hnd as [Hnin Hnd].
  rewrite <- doc_orders_app in Hnin, Hnd.
  assert (Hall : Forall (fun t => exists p, tree_at (st_heap s) p t) (cs ++ ts)).
  { apply list.Forall_app. split; [eapply roots_of_tree; eassumption|assumption]. }
  assert (Hniks : i ∉ kids n).
  { intros Hin. rewrite Hk in Hin. apply elem_roots in Hin. apply Hnin. rewrite doc_orders_app. apply elem_of_app. auto. }
  unfold cond_class in Hb. destruct (subclass (n_cls n) CStep) eqn:Estep.
  2:{ (* not a step *)
    apply ret_ok in Hb as [<- _]. assert (n1 = n) as -> by congruence. rewrite Hk, <- map_app in H.
    destruct (IH _ _ _ _ Hg Hall Hnd H) as (r & SP).
    destruct (proj1 (list.Forall2_app_inv_l _ _ _ _) (sp_rel _ _ _ _ SP)) as (cs' & ts' & HR1 & HR2 & ->).
    pose proof (sp_tree _ _ _ _ SP) as HT. apply list.Forall2_app_inv in HT as [HT1 HT2]; [|eapply Forall2_length; eassumption].
    exists (T i cs' :: ts'). pose proof (sp_frame _ _ _ _ SP _ _ Hnin Hi) as Hi'.
    constructor; try apply SP.
    - constructor; [|assumption]. apply rs_other; [|assumption]. intros (m & Hm & Ec). rewrite Hi in Hm. injection Hm as <-.
      rewrite Ec in Estep. discriminate.
    - constructor; [|assumption]. intros q Hq. apply tree_at_inv in Hq as (m & Hm & Hpm & _).
      assert (m = n) as -> by congruence. econstructor; [exact Hi'|assumption| |].
      + rewrite (restructured_roots _ _ _ _ HR1). assumption.
      + clear - HT1 Hcs. induction HT1 as [|u u' us us' H _ IH]; constructor.
        * apply list.Forall_cons in Hcs as [Hu _]. auto.
        * apply IH. apply list.Forall_cons in Hcs as [_ Hu]. assumption.
    - intros j m Hj Hm. apply (sp_frame _ _ _ _ SP); [|assumption]. intros Hin. apply Hj.
      rewrite doc_orders_cons, doc_order_T. simpl. constructor. rewrite doc_orders_app in Hin. assumption. }
  rewrite subclass_step in Estep. destruct (cls_eqb_spec (n_cls n) CStep) as [Ecls|]; [|discriminate]. clear Estep. rename Ecls into Estep.
  assert (Hcof : class_of (st_heap s) i CStep) by (exists n; auto).
  pose proof (subproof_body_ok _ _ _ _ _ Hg Hi Estep Hb) as Hsplit.
  assert (Hd : forall x, x ∈ doc_orders cs -> x ∉ doc_orders ts).
  { rewrite doc_orders_app in Hnd. apply NoDup_app in Hnd as (_ & Hd & _). exact Hd. }
  assert (Hkids_doc : forall x, x ∈ kids n -> x ∈ doc_orders cs /\ x ∉ doc_orders ts).
  { intros x Hx. rewrite Hk in Hx. apply elem_roots in Hx. auto. }
  assert (Hlt : forall x, x ∈ doc_orders (cs ++ ts) -> x < st_next s).
  { intros x Hx. destruct (rooted_some _ _ _ Hall Hx) as [m Hm]. eapply not_fresh; eassumption. }
  remember (kids n) as ks eqn:Eks. destruct Hsplit as [Es|ks Hne Hno W Hnx|pre c post Hno Hc W Hnx Hv|pre c Hno Hc W Hnx].
  - (* no children *)
    subst s1. destruct cs; [|discriminate]. assert (n1 = n) as -> by congruence. rewrite <- Eks in H. simpl in H.
    destruct (IH _ _ _ _ Hg Hts Hnd H) as (ts' & SP). exists (T i [] :: ts').
    constructor; try apply SP.
    + constructor; [|apply SP]. apply rs_leaf. assumption.
    + constructor; [|apply SP]. intros q Hq. apply tree_at_inv in Hq as (m & Hm & Hpm & _).
      assert (m = n) as -> by congruence. econstructor; [apply (sp_frame _ _ _ _ SP _ _ Hnin Hi)|assumption|congruence|constructor].
    + intros j m Hj Hm. apply (sp_frame _ _ _ _ SP); [|assumption]. intros Hin. apply Hj.
      rewrite doc_orders_cons. apply elem_of_app. auto.
  - (* one statement *)
    pose proof (wr_old _ _ _ _ _ _ _ W _ _ Hi) as E1. rewrite Hi1 in E1. injection E1 as ->.
    unfold kids in H. simpl in H. rewrite Estep in H. change (has_children CStep) with true in H. cbv iota in H.
    rewrite (decide_True (P := i = i)) in H by reflexivity.
    assert (Hcs1 : Forall (tree_at (st_heap s1) (Some (st_next s))) cs).
    { rewrite list.Forall_forall in *. intros c Hc.
      eapply (wrapped_subtree s s1 i ks [] [] i c cs n); eauto.
      - congruence.
      - intros Hin. apply Hnin. rewrite doc_orders_app. apply elem_of_app. left. apply elem_doc_orders. eauto.
      - intros x Hx. congruence.
      - intros x Hx. inversion Hx.
      - rewrite decide_True; [reflexivity|]. rewrite Hk. apply elem_of_list_fmap. eauto. }
    assert (Hst : tree_at (st_heap s1) (Some i) (T (st_next s) cs)).
    { econstructor; [apply W|reflexivity| |assumption]. exact Hk. }
    assert (Hts1 : forall t q, t ∈ ts -> tree_at (st_heap s) q t -> tree_at (st_heap s1) q t).
    { intros t q Hin Ht. eapply wrapped_other; eauto.
      - intros Hin'. apply Hnin. rewrite doc_orders_app. apply elem_of_app. right. apply elem_doc_orders. eauto.
      - intros x [Hx|Hx]; [|inversion Hx]. intros Hin'. destruct (Hkids_doc x Hx) as [_ Hn]. apply Hn. apply elem_doc_orders. eauto. }
    change (st_next s :: map root ts) with (map root (T (st_next s) cs :: ts)) in H.
    destruct (IH (T (st_next s) cs :: ts) s1 s' u) as (r & SP); auto.
    + apply W.
    + constructor; [eauto|]. rewrite list.Forall_forall in *. intros t Hin. destruct (Hts t Hin) as [q Hq]. eauto.
    + rewrite doc_orders_cons, doc_order_T. simpl. rewrite <- doc_orders_app. constructor; [|assumption].
      intros Hin. apply Hlt in Hin. lia.
    + pose proof (sp_rel _ _ _ _ SP) as HR. inversion HR as [|? u' ? ts' HR1 HR2]; subst r.
      exists (T i [u'] :: ts').
      eapply (after_wrap s s1 s' i n ks [] [] i cs [T (st_next s) cs] ts [u'] ts'); auto; try congruence.
      * inversion 1.
      * rewrite doc_orders_app, doc_orders_cons, doc_order_T. simpl. rewrite app_nil_r. rewrite elem_of_cons, elem_of_app.
        rewrite doc_orders_app, elem_of_app in Hnin. apply (not_fresh _ _ _ Hg) in Hi. intros [?|?]; [lia|auto].
      * intros y. unfold doc_orders. simpl. rewrite app_nil_r. rewrite elem_of_cons. intros [-> |Hx]; auto.
      * intros y [Hx|Hx]; [auto|inversion Hx].
      * intros HR'. inversion HR' as [|? ? ? ? HRu _]; subst.
        apply restructured_other_inv in HRu as (cs' & -> & HRcs).
        2:{ intros (m & Hm & Em). rewrite (wr_stmt _ _ _ _ _ _ _ W) in Hm. injection Hm as <-. discriminate. }
        apply rs_statement; auto.
        -- intros ->. apply Hne. rewrite Hk. reflexivity.
        -- intros t Hin. apply Hno. rewrite Hk. apply elem_of_list_fmap. eauto.
        -- apply none_above; auto.
        -- destruct (sp_old _ _ _ _ SP _ _ (wr_stmt _ _ _ _ _ _ _ W)) as (m & Hm & Em & _). exists m. auto.
        -- eapply restructured_earliers; [exact HRcs|intros y; eapply wrapped_mono; eassumption|].
           intros y Hy. eapply wrapped_class; [exact Hg|exact W|]. eapply rooted_some; [exact Hall|].
           rewrite doc_orders_app. apply elem_of_app. auto.
  - (* statement and new subproof *)
    symmetry in Hk. apply map_eq_app in Hk as (precs & postcs' & -> & Epre & Epost).
    destruct postcs' as [|ct postcs]; [discriminate|].
    pose proof (wr_old _ _ _ _ _ _ _ W _ _ Hi) as E1. rewrite Hi1 in E1. injection E1 as ->.
    unfold kids in H. simpl in H. rewrite Estep in H. change (has_children CStep) with true in H. cbv iota in H.
    rewrite (decide_True (P := i = i)) in H by reflexivity.
    assert (Hndk : NoDup (kids n)) by (eapply cons_nodup; [apply Hg|exact Hi]). rewrite <- Eks in Hndk.
    apply NoDup_app in Hndk as (_ & Hdk & _).
    assert (Hsubt : forall t, t ∈ precs ++ ct :: postcs -> tree_at (st_heap s1)
       (if decide (root t ∈ pre) then Some (st_next s) else if decide (root t ∈ c :: post) then Some (S (st_next s)) else Some i) t).
    { intros t Hin. rewrite list.Forall_forall in Hcs.
      eapply (wrapped_subtree s s1 i pre (c :: post) [S (st_next s)] (S (st_next s)) t (precs ++ ct :: postcs) n); eauto.
      - rewrite <- Eks, map_app. congruence.
      - intros Hin'. apply Hnin. rewrite doc_orders_app. apply elem_of_app. left. apply elem_doc_orders. eauto.
      - intros x Hx. rewrite <- Eks. apply elem_of_app. auto.
      - intros x Hx. rewrite <- Eks. apply elem_of_app. auto. }
    assert (Hpre1 : Forall (tree_at (st_heap s1) (Some (st_next s))) precs).
    { apply list.Forall_forall. intros t Hin. specialize (Hsubt t). rewrite decide_True in Hsubt.
      - apply Hsubt. apply elem_of_app. auto.
      - rewrite <- Epre. apply elem_of_list_fmap. eauto. }
    assert (Hpost1 : Forall (tree_at (st_heap s1) (Some (S (st_next s)))) (ct :: postcs)).
    { apply list.Forall_forall. intros t Hin. specialize (Hsubt t).
      assert (root t ∈ c :: post) as Hr by (rewrite <- Epost; apply elem_of_list_fmap; eauto).
      rewrite decide_False in Hsubt by (intros Hp'; apply (Hdk _ Hp'); assumption).
      rewrite decide_True in Hsubt by assumption. apply Hsubt. apply elem_of_app. auto. }
    assert (Hst : Forall (tree_at (st_heap s1) (Some i)) [T (st_next s) precs; T (S (st_next s)) (ct :: postcs)]).
    { constructor; [|constructor; [|constructor]].
      - econstructor; [apply W|reflexivity|exact (eq_sym Epre)|assumption].
      - econstructor; [exact Hv|reflexivity|exact (eq_sym Epost)|assumption]. }
    assert (Hts1 : forall t q, t ∈ ts -> tree_at (st_heap s) q t -> tree_at (st_heap s1) q t).
    { intros t q Hin Ht. eapply wrapped_other; eauto.
      - intros Hin'. apply Hnin. rewrite doc_orders_app. apply elem_of_app. right. apply elem_doc_orders. eauto.
      - intros x Hx. intros Hin'. destruct (Hkids_doc x) as [_ Hn]; [apply elem_of_app; assumption|]. apply Hn. apply elem_doc_orders. eauto. }
    assert (Edoc : doc_orders [T (st_next s) precs; T (S (st_next s)) (ct :: postcs)] =
                   st_next s :: doc_orders precs ++ S (st_next s) :: doc_orders (ct :: postcs)).
    { rewrite !doc_orders_cons, !doc_order_T. simpl. rewrite app_nil_r. reflexivity. }
    change ([st_next s; S (st_next s)] ++ map root ts) with (map root ([T (st_next s) precs; T (S (st_next s)) (ct :: postcs)] ++ ts)) in H.
    destruct (IH ([T (st_next s) precs; T (S (st_next s)) (ct :: postcs)] ++ ts) s1 s' u) as (r & SP); auto.
    + apply W.
    + apply list.Forall_app. split; [eapply roots_of_tree; exact Hst|]. rewrite list.Forall_forall in *. intros t Hin. destruct (Hts t Hin) as [q Hq]. eauto.
    + rewrite doc_orders_app, Edoc. rewrite doc_orders_app, doc_orders_app in Hnd.
      assert (Hlt' : forall x, x ∈ doc_orders precs \/ x ∈ doc_orders (ct :: postcs) \/ x ∈ doc_orders ts -> x < st_next s).
      { intros x Hx. apply Hlt. rewrite !doc_orders_app, !elem_of_app. tauto. }
      simpl. rewrite <- app_assoc in *. simpl. constructor.
      * rewrite elem_of_app, elem_of_cons, elem_of_app. intros [Hx|[Hx|Hx]]; [|lia|]; apply Nat.lt_irrefl with (st_next s), Hlt'; tauto.
      * rewrite <- (Permutation_middle (doc_orders precs)).
        constructor; [|assumption]. rewrite !elem_of_app. intros Hx. apply Nat.lt_irrefl with (st_next s).
        apply Nat.lt_trans with (S (st_next s)); [lia|]. apply Hlt'. rewrite doc_orders_cons, elem_of_app. tauto.
    + destruct (proj1 (list.Forall2_app_inv_l _ _ _ _) (sp_rel _ _ _ _ SP)) as (us' & ts' & HR1 & HR2 & ->).
      exists (T i us' :: ts').
      eapply (after_wrap s s1 s' i n pre (c :: post) [S (st_next s)] (S (st_next s)) (precs ++ ct :: postcs) _ ts us' ts'); eauto.
      * eapply Forall2_length; eassumption.
      * rewrite <- Eks, map_app. congruence.
      * intros Hin. apply Hniks. apply elem_of_app. auto.
      * intros Hin. apply Hniks. apply elem_of_app. auto.
      * rewrite doc_orders_app, Edoc. simpl. rewrite elem_of_cons, elem_of_app, elem_of_app, elem_of_cons.
        rewrite !doc_orders_app, !elem_of_app in Hnin. apply (not_fresh _ _ _ Hg) in Hi.
        intros [?|[[?|[?|?]]|?]]; try lia; tauto.
      * intros x. rewrite Edoc, elem_of_cons, elem_of_app, elem_of_cons, doc_orders_app, elem_of_app.
        intros [-> |[?|[-> |?]]]; auto.
      * intros x Hx. apply Hkids_doc. apply elem_of_app. assumption.
      * intros HR'. inversion HR' as [|? u1' ? ? HRu HRv]; subst.
        inversion HRv as [|? u2' ? ? HRu2 HRv2]; subst. inversion HRv2; subst.
        apply restructured_other_inv in HRu as (pre' & -> & HRpre).
        2:{ intros (m & Hm & Em). rewrite (wr_stmt _ _ _ _ _ _ _ W) in Hm. injection Hm as <-. discriminate. }
        apply restructured_other_inv in HRu2 as (post' & -> & HRpost).
        2:{ intros (m & Hm & Em). rewrite Hv in Hm. injection Hm as <-. discriminate. }
        injection Epost as Ec Epost.
        apply rs_steps; auto.
        -- intros t Hin. apply Hno. apply elem_of_list_fmap. eauto.
        -- rewrite Ec. assumption.
        -- apply none_above; auto.
        -- destruct (sp_old _ _ _ _ SP _ _ (wr_stmt _ _ _ _ _ _ _ W)) as (m & Hm & Em & _). exists m. auto.
        -- apply none_above; auto.
        -- destruct (sp_old _ _ _ _ SP _ _ Hv) as (m & Hm & Em & _). exists m. auto.
        -- eapply restructured_earliers; [exact HRpre|intros y; eapply wrapped_mono; eassumption|].
           intros y Hy. eapply wrapped_class; [exact Hg|exact W|]. eapply rooted_some; [exact Hall|].
           rewrite !doc_orders_app, !elem_of_app. auto.
        -- eapply restructured_earliers; [exact HRpost|intros y; eapply wrapped_mono; eassumption|].
           intros y Hy. eapply wrapped_class; [exact Hg|exact W|]. eapply rooted_some; [exact Hall|].
           rewrite !doc_orders_app, !elem_of_app. auto.
  - (* statement and the existing subproof *)
    symmetry in Hk. apply map_eq_app in Hk as (precs & postcs' & -> & Epre & Epost).
    destruct postcs' as [|ct [|]]; [discriminate| |discriminate]. injection Epost as Ec.
    pose proof (wr_old _ _ _ _ _ _ _ W _ _ Hi) as E1. rewrite Hi1 in E1. injection E1 as ->.
    unfold kids in H. simpl in H. rewrite Estep in H. change (has_children CStep) with true in H. cbv iota in H.
    rewrite (decide_True (P := i = i)) in H by reflexivity.
    assert (Hndk : NoDup (kids n)) by (eapply cons_nodup; [apply Hg|exact Hi]). rewrite <- Eks in Hndk.
    apply NoDup_app in Hndk as (_ & Hdk & _).
    assert (Hsubt : forall t, t ∈ precs ++ [ct] -> tree_at (st_heap s1)
       (if decide (root t ∈ pre) then Some (st_next s) else if decide (root t ∈ []) then Some i else Some i) t).
    { intros t Hin. rewrite list.Forall_forall in Hcs.
      eapply (wrapped_subtree s s1 i pre [] [c] i t (precs ++ [ct]) n); eauto.
      - rewrite <- Eks, map_app. simpl. congruence.
      - intros Hin'. apply Hnin. rewrite doc_orders_app. apply elem_of_app. left. apply elem_doc_orders. eauto.
      - intros x Hx. rewrite <- Eks. apply elem_of_app. auto.
      - intros x Hx. inversion Hx. }
    assert (Hpre1 : Forall (tree_at (st_heap s1) (Some (st_next s))) precs).
    { apply list.Forall_forall. intros t Hin. specialize (Hsubt t). rewrite decide_True in Hsubt.
      - apply Hsubt. apply elem_of_app. auto.
      - rewrite <- Epre. apply elem_of_list_fmap. eauto. }
    assert (Hct1 : tree_at (st_heap s1) (Some i) ct).
    { specialize (Hsubt ct). rewrite decide_False in Hsubt.
      - apply Hsubt. apply elem_of_app. right. constructor.
      - rewrite Ec. intros Hp'. apply (Hdk _ Hp'). constructor. }
    assert (Hst : Forall (tree_at (st_heap s1) (Some i)) [T (st_next s) precs; ct]).
    { constructor; [|constructor; [assumption|constructor]].
      econstructor; [apply W|reflexivity|exact (eq_sym Epre)|assumption]. }
    assert (Hts1 : forall t q, t ∈ ts -> tree_at (st_heap s) q t -> tree_at (st_heap s1) q t).
    { intros t q Hin Ht. eapply wrapped_other; eauto.
      - intros Hin'. apply Hnin. rewrite doc_orders_app. apply elem_of_app. right. apply elem_doc_orders. eauto.
      - intros x [Hx|Hx]; [|inversion Hx]. intros Hin'. destruct (Hkids_doc x) as [_ Hn]; [apply elem_of_app; auto|]. apply Hn. apply elem_doc_orders. eauto. }
    assert (Edoc : doc_orders [T (st_next s) precs; ct] = st_next s :: doc_orders (precs ++ [ct])).
    { rewrite doc_orders_app, doc_orders_cons, !doc_order_T. reflexivity. }
    rewrite <- Ec in H.
    change ([st_next s; root ct] ++ map root ts) with (map root ([T (st_next s) precs; ct] ++ ts)) in H.
    destruct (IH ([T (st_next s) precs; ct] ++ ts) s1 s' u) as (r & SP); auto.
    + apply W.
    + apply list.Forall_app. split; [eapply roots_of_tree; exact Hst|]. rewrite list.Forall_forall in *. intros t Hin. destruct (Hts t Hin) as [q Hq]. eauto.
    + rewrite doc_orders_app, Edoc. simpl. rewrite <- doc_orders_app. constructor; [|assumption].
      intros Hin. apply Hlt in Hin. lia.
    + destruct (proj1 (list.Forall2_app_inv_l _ _ _ _) (sp_rel _ _ _ _ SP)) as (us' & ts' & HR1 & HR2 & ->).
      exists (T i us' :: ts').
      eapply (after_wrap s s1 s' i n pre [] [c] i (precs ++ [ct]) _ ts us' ts'); eauto.
      * eapply Forall2_length; eassumption.
      * rewrite <- Eks, map_app. simpl. congruence.
      * simpl. congruence.
      * intros Hin. apply Hniks. apply elem_of_app. auto.
      * inversion 1.
      * rewrite doc_orders_app, Edoc. simpl. rewrite <- doc_orders_app, elem_of_cons.
        apply (not_fresh _ _ _ Hg) in Hi. intros [?|?]; [lia|contradiction].
      * intros x. rewrite Edoc, elem_of_cons. intros [-> |?]; auto.
      * intros x [Hx|Hx]; [|inversion Hx]. apply Hkids_doc. apply elem_of_app. auto.
      * intros HR'. inversion HR' as [|? u1' ? ? HRu HRv]; subst.
        inversion HRv as [|? u2' ? ? HRu2 HRv2]; subst. inversion HRv2; subst.
        apply restructured_other_inv in HRu as (pre' & -> & HRpre).
        2:{ intros (m & Hm & Em). rewrite (wr_stmt _ _ _ _ _ _ _ W) in Hm. injection Hm as <-. discriminate. }
        apply rs_subproof; auto.
        -- intros t Hin. apply Hno. apply elem_of_list_fmap. eauto.
        -- apply none_above; auto.
        -- destruct (sp_old _ _ _ _ SP _ _ (wr_stmt _ _ _ _ _ _ _ W)) as (m & Hm & Em & _). exists m. auto.
        -- eapply restructured_earliers; [exact HRpre|intros y; eapply wrapped_mono; eassumption|].
           intros y Hy. eapply wrapped_class; [exact Hg|exact W|]. eapply rooted_some; [exact Hall|].
           rewrite !doc_orders_app, !elem_of_app. auto.
        -- eapply restructured_earlier; [exact HRu2|intros y; eapply wrapped_mono; eassumption|].
           intros y Hy. eapply wrapped_class; [exact Hg|exact W|]. eapply rooted_some; [exact Hall|].
           rewrite !doc_orders_app, !elem_of_app. left. right. unfold doc_orders. simpl. rewrite app_nil_r. assumption.
Qed.

Lemma add_necessary_subproofs_ok fuel t s s' (u : unit) :
  manuscript s t -> add_necessary_subproofs fuel (root t) s = (s', Ok u) ->
  exists t', sub_post s s' [t] [t'] /\ manuscript s' t' /\ restructured (st_heap s) (st_heap s') t t'.
Proof.
  intros Hms H. pose proof (manuscript_good _ _ Hms) as Hg. destruct (ms_document _ _ Hms) as [Ht Hnd].
  unfold add_necessary_subproofs, for_traverse in H. change [root t] with (map root [t]) in H.
  apply sub_loop in H as (ts' & SP); [|assumption|constructor; [eauto|constructor]|].
  2:{ rewrite doc_orders_cons. simpl. rewrite app_nil_r. assumption. }
  pose proof (sp_rel _ _ _ _ SP) as HR. inversion HR as [|? t' ? l HR1 HR2]; subst. inversion HR2; subst.
  exists t'. split; [assumption|]. split; [|assumption].
  pose proof (sp_tree _ _ _ _ SP) as HT. inversion HT as [|? ? ? ? HT1 _]; subst.
  destruct (sp_good _ _ _ _ SP) as [Hf' Hc']. split; [assumption|assumption|].
  apply HT1 in Ht. split; [assumption|]. eapply tree_at_nodup; eassumption.
Qed.

(** Nothing is lost or reordered: without the new nodes, the document order is the old one. *)
Lemma flat_filter {A} (g : A -> bool) (f : tree -> list A) ts :
  List.filter g (flat_map f ts) = flat_map (fun t => List.filter g (f t)) ts.
Proof. induction ts as [|t ts IH]; [reflexivity|]. simpl. rewrite filter_app, IH. reflexivity. Qed.
Definition existed (h : gmap id node) (x : id) : bool := bool_decide (is_Some (h !! x)).
Lemma existed_none h x : h !! x = None -> existed h x = false.
Proof. unfold existed. intros ->. apply bool_decide_eq_false. intros [? ?]. discriminate. Qed.
Lemma existed_some h x : is_Some (h !! x) -> existed h x = true.
Proof. unfold existed. apply bool_decide_eq_true. Qed.
Lemma restructured_order h h' t t' :
  restructured h h' t t' -> (forall x, x ∈ doc_order t -> is_Some (h !! x)) ->
  List.filter (existed h) (doc_order t') = doc_order t.
Proof.
  intros H. induction H as [i ts ts' H1 H2 IH|i H1|i ts w ts' H1 H2 H3 H4 H5 H6 IH
    |i pre c post w v pre' post' H1 H2 H3 H4 H5 H6 H7 H8 H9 IH1 IH2
    |i pre c w pre' c' H1 H2 H3 H4 H5 H6 IH1 H7 IH2] using restructured_ind'; intros Hc.
  all: assert (Hi : existed h i = true) by (apply existed_some; apply Hc; constructor).
  all: rewrite doc_order_T in Hc.
  all: assert (Hfor : forall us us', Forall2 (λ t t' : tree,
         (∀ x : nat, x ∈ doc_order t → is_Some (h !! x)) → List.filter (existed h) (doc_order t') = doc_order t) us us' ->
         (forall x, x ∈ doc_orders us -> is_Some (h !! x)) -> List.filter (existed h) (doc_orders us') = doc_orders us)
    by (clear; induction 1 as [|t t' us us' H _ IH]; intros Hx; [reflexivity|]; rewrite !doc_orders_cons, filter_app, H, IH; auto;
        [intros x Hin; apply Hx; rewrite doc_orders_cons; apply elem_of_app; auto
        |intros x Hin; apply Hx; rewrite doc_orders_cons; apply elem_of_app; auto]).
  - rewrite !doc_order_T. simpl. rewrite Hi. f_equal. apply Hfor; [assumption|]. intros x Hx. apply Hc. constructor. assumption.
  - simpl. rewrite Hi. reflexivity.
  - rewrite !doc_order_T, doc_orders_cons, doc_order_T. simpl. rewrite Hi, (existed_none _ _ H4). f_equal.
    rewrite app_nil_r. apply Hfor; [assumption|]. intros x Hx. apply Hc. constructor. assumption.
  - rewrite !doc_order_T, !doc_orders_cons, !doc_order_T. simpl. rewrite Hi, (existed_none _ _ H4). f_equal.
    rewrite app_nil_r, filter_app. simpl. rewrite (existed_none _ _ H6), doc_orders_app.
    f_equal; (apply Hfor; [assumption|]); intros x Hx; apply Hc; right; rewrite doc_orders_app; apply elem_of_app; auto.
  - rewrite !doc_order_T, !doc_orders_cons, !doc_order_T. simpl. rewrite Hi, (existed_none _ _ H4). f_equal.
    rewrite app_nil_r, filter_app, doc_orders_app. f_equal.
    + apply Hfor; [assumption|]. intros x Hx; apply Hc; right; rewrite doc_orders_app; apply elem_of_app; auto.
    + unfold doc_orders. simpl. rewrite app_nil_r. apply IH2. intros x Hx. apply Hc. right.
      rewrite doc_orders_app. apply elem_of_app. right. unfold doc_orders. simpl. rewrite app_nil_r. assumption.
Qed.

(** The new nodes are statements and subproofs. *)
Lemma sub_post_new s s' ts ts' x n' :
  sub_post s s' ts ts' -> st_heap s' !! x = Some n' -> st_heap s !! x = None ->
  n_cls n' = CStatement \/ n_cls n' = CSubproof.
Proof. intros SP Hx Hn. destruct (sp_new _ _ _ _ SP _ _ Hn Hx) as [[? _]|[? _]]; auto. Qed.

(** The shape of every step. *)
Definition step_shape (h : gmap id node) (cs : list id) : Prop :=
  cs = [] \/ (exists w, cs = [w] /\ class_of h w CStatement) \/
  (exists w v, cs = [w; v] /\ class_of h w CStatement /\ class_of h v CSubproof).
Lemma restructured_shape h h' t t' :
  restructured h h' t t' ->
  (forall x, x ∈ doc_order t -> is_Some (h !! x)) ->
  (forall x n, h !! x = Some n -> exists n', h' !! x = Some n' /\ n_cls n' = n_cls n) ->
  forall p, tree_at h' p t' -> forall x n, x ∈ doc_order t' -> h' !! x = Some n -> n_cls n = CStep -> step_shape h' (kids n).
Proof.
  intros H Hex Hcls. revert Hex.
  induction H as [i ts ts' H1 H2 IH|i H1|i ts w ts' H1 H2 H3 H4 H5 H6 IH
    |i pre c post w v pre' post' H1 H2 H3 H4 H5 H6 H7 H8 H9 IH1 IH2
    |i pre c w pre' c' H1 H2 H3 H4 H5 H6 IH1 H7 IH2] using restructured_ind'; intros Hex p Ht x n Hx Hn Hstep.
  all: apply tree_at_inv in Ht as (m & Hm & Hp & Hk & Hcs).
  all: rewrite doc_order_T in Hx, Hex; apply elem_of_cons in Hx.
  all: assert (Hfor : forall us us' q, Forall2 (λ t t' : tree,
         (∀ x : nat, x ∈ doc_order t → is_Some (h !! x)) → forall p, tree_at h' p t' ->
          forall x n, x ∈ doc_order t' -> h' !! x = Some n -> n_cls n = CStep -> step_shape h' (kids n)) us us' ->
         (forall x, x ∈ doc_orders us -> is_Some (h !! x)) -> Forall (tree_at h' q) us' ->
         forall x n, x ∈ doc_orders us' -> h' !! x = Some n -> n_cls n = CStep -> step_shape h' (kids n))
    by (clear; induction 1 as [|t t' us us' H _ IH]; intros Hx Hf x n Hin Hn Hs; [inversion Hin|];
        apply list.Forall_cons in Hf as [Hf1 Hf2]; rewrite doc_orders_cons in Hin; apply elem_of_app in Hin as [Hin|Hin];
        [eapply H; eauto; intros y Hy; apply Hx; rewrite doc_orders_cons; apply elem_of_app; auto
        |eapply IH; eauto; intros y Hy; apply Hx; rewrite doc_orders_cons; apply elem_of_app; auto]).
  - destruct Hx as [-> |Hx].
    + exfalso. destruct (Hex i) as [n0 Hn0]; [constructor|]. apply H1. exists n0. split; [assumption|].
      destruct (Hcls _ _ Hn0) as (n1 & Hn1 & E). congruence.
    + eapply Hfor; eauto. intros y Hy. apply Hex. constructor. assumption.
  - destruct Hx as [-> |Hx]; [|inversion Hx]. left. assert (n = m) as -> by congruence. assumption.
  - destruct Hx as [-> |Hx].
    + right. left. exists w. assert (n = m) as -> by congruence. auto.
    + apply list.Forall_cons in Hcs as [Hcs _]. apply tree_at_inv in Hcs as (mw & Hmw & _ & Hkw & Hcw).
      rewrite doc_orders_cons, doc_order_T in Hx. unfold doc_orders at 2 in Hx. simpl in Hx. rewrite app_nil_r in Hx.
      apply elem_of_cons in Hx as [-> |Hx].
      * destruct H5 as (mw' & Hmw' & E). congruence.
      * eapply Hfor; eauto. intros y Hy. apply Hex. constructor. assumption.
  - destruct Hx as [-> |Hx].
    + right. right. exists w, v. assert (n = m) as -> by congruence. auto.
    + apply list.Forall_cons in Hcs as [Hcs1 Hcs]. apply list.Forall_cons in Hcs as [Hcs2 _].
      apply tree_at_inv in Hcs1 as (mw & Hmw & _ & Hkw & Hcw). apply tree_at_inv in Hcs2 as (mv & Hmv & _ & Hkv & Hcv).
      rewrite !doc_orders_cons, !doc_order_T, elem_of_app, elem_of_app, !elem_of_cons in Hx.
      destruct Hx as [[-> |Hx]|[[-> |Hx]|Hx]].
      * destruct H5 as (mw' & Hmw' & E). congruence.
      * eapply (Hfor pre pre'); eauto. intros y Hy. apply Hex. right. rewrite doc_orders_app. apply elem_of_app. auto.
      * destruct H7 as (mw' & Hmw' & E). congruence.
      * eapply (Hfor (c :: post) post'); eauto. intros y Hy. apply Hex. right. rewrite doc_orders_app. apply elem_of_app. auto.
      * inversion Hx.
  - destruct Hx as [-> |Hx].
    + right. right. exists w, (root c'). assert (n = m) as -> by congruence. split; [assumption|]. split; [assumption|].
      rewrite (restructured_root _ _ _ _ H7). destruct H3 as (mc & Hmc & E). destruct (Hcls _ _ Hmc) as (mc' & Hmc' & E').
      exists mc'. split; [assumption|congruence].
    + apply list.Forall_cons in Hcs as [Hcs1 Hcs]. apply list.Forall_cons in Hcs as [Hcs2 _].
      apply tree_at_inv in Hcs1 as (mw & Hmw & _ & Hkw & Hcw).
      rewrite !doc_orders_cons, !doc_order_T, elem_of_app, elem_of_app, !elem_of_cons in Hx.
      destruct Hx as [[-> |Hx]|[Hx|Hx]].
      * destruct H5 as (mw' & Hmw' & E). congruence.
      * eapply (Hfor pre pre'); eauto. intros y Hy. apply Hex. right. rewrite doc_orders_app. apply elem_of_app. auto.
      * refine (IH2 _ (Some i) Hcs2 x n Hx Hn Hstep). intros y Hy. apply Hex. right. rewrite doc_orders_app. apply elem_of_app. right.
        unfold doc_orders. simpl. rewrite app_nil_r. assumption.
      * inversion Hx.
Qed.
