(** Translating a document a second time. *)
From Verif Require Export Again SpecTyped.
Local Open Scope list_scope.

(** ** Translating twice *)
Lemma ph_val_id s k v : (forall y, y ∈ nodes_in v -> ph s k y = y) -> ph_val s k v = v.
Proof.
  destruct v; cbn; intros H; try reflexivity; f_equal; [apply H; set_solver|]. rewrite <- map_id. apply map_ext_in. intros y Hy. apply H. apply elem_of_list_In, Hy.
Qed.
Lemma ph_node_id s k i n : (forall p, n_parent n = Some p -> ph s k p = p) -> (forall y, In y (kids n) -> ph s k y = y) ->
  (forall a v y, n_attrs n !! a = Some v -> y ∈ nodes_in v -> ph s k y = y) -> ph_node s k (canon s i n) = canon s i n.
Proof.
  intros Hp Hk Ha. unfold ph_node, canon. cbn [n_cls n_parent n_children n_attrs]. f_equal.
  - destruct (n_parent n) as [p|]; [|reflexivity]. cbn. f_equal. apply Hp. reflexivity.
  - rewrite <- map_id. apply map_ext_in. exact Hk.
  - apply map_eq. intros a. rewrite lookup_fmap. 
    assert (X : forall v, alter (canv s (n_cls n) i) a_types (n_attrs n) !! a = Some v -> ph_val s k v = v).
    { intros v Hv. apply ph_val_id. intros y Hy. destruct (decide (a = a_types)) as [->|D].
      - rewrite lookup_alter in Hv. destruct (n_attrs n !! a_types) as [w|] eqn:Ew; [|discriminate]. cbn in Hv. injection Hv as <-. destruct w; cbn in Hy; try (exfalso; set_solver); apply (Ha _ _ _ Ew); exact Hy.
      - rewrite lookup_alter_ne in Hv by congruence. apply (Ha _ _ _ Hv Hy). }
    destruct (opened s i); [destruct (decide (a = a_must_close_p_tag)) as [->|D]; [rewrite lookup_delete; reflexivity|rewrite lookup_delete_ne by congruence]|];
      (destruct (alter (canv s (n_cls n) i) a_types (n_attrs n) !! a) as [v|] eqn:Ev; [|reflexivity]; cbn; f_equal; apply X; reflexivity).
Qed.
Theorem translate_twice hl f s i n s' h : fresh_ok s -> consistent (st_heap s) -> st_heap s !! i = Some n -> n_parent n = None ->
  (forall j m a v y, st_heap s !! j = Some m -> n_attrs m !! a = Some v -> y ∈ nodes_in v -> is_Some (st_heap s !! y)) ->
  translate hl f i s = (s', Ok h) -> exists s'' h', translate hl f i s' = (s'', Ok h') /\ render h' = render h.
Proof.
  intros Fr Co Hi Hp Hl E. assert (Mi : marked s i = false) by (unfold marked; rewrite Hi, Hp; reflexivity). assert (Li : i < st_next s) by exact (Fr _ _ Hi).
  assert (R0 : rel s 0 s s).
  { split; try assumption; try lia; try apply grown_refl; try (intros j m Hj Hm; pose proof (Fr _ _ Hm); lia).
    - intros j m Hj Hm. eauto.
    - intros j m Hm. assert (Z : forall y, ph s 0 y = y) by (intros y; unfold ph; destruct (y <? st_next s); lia). exists m. rewrite Z. split; [assumption|]. unfold agree. symmetry. apply ph_node_id; intros; apply Z. }
  destruct (translate_again s 0 Fr Co hl f i Mi _ _ _ _ R0 I E) as (b1 & _ & R1 & G1 & _ & _).
  set (k := st_next s' - st_next s). assert (R : rel s k s s').
  { split; try assumption; try apply grown_refl; try (intros j m Hj Hm; pose proof (Fr _ _ Hm); lia).
    - pose proof (gn_next _ _ _ G1). unfold k. lia.
    - exact (r_fresh _ _ _ _ R1).
    - intros j m Hj Hm. eauto.
    - intros j m Hm. pose proof (Fr _ _ Hm) as Lj. destruct (gn_node _ _ _ G1 _ _ Hm) as (m' & Hm' & G). exists m'. rewrite ph_old by assumption. split; [assumption|]. unfold agree. rewrite (gr_canon _ _ _ _ G Lj). symmetry.
      assert (Z : forall y, is_Some (st_heap s !! y) -> ph s k y = y) by (intros y [z Hz]; apply ph_old; exact (Fr _ _ Hz)).
      apply ph_node_id; [intros p Hpp|intros y Hy|intros a v y Hv Hy]; apply Z.
      + destruct (proj2 (cons_parent _ Co j p)) as (q & Hq & _); [exists m; auto|]. eauto.
      + destruct (old_child s Co j m y Hm Hy) as (q & Hq & _). eauto.
      + exact (Hl _ _ _ _ _ Hm Hv Hy). }
  destruct (translate_again s k Fr Co hl f i Mi _ _ _ _ R I E) as (s'' & F2 & _). rewrite (ph_old s k i Li) in F2. exists s'', (map (ph_tok s k) h). split; [exact F2|apply render_ph].
Qed.

Theorem base_repeatable hl f s t s' h : manuscript s t ->
  (forall j m a v y, st_heap s !! j = Some m -> n_attrs m !! a = Some v -> y ∈ nodes_in v -> is_Some (st_heap s !! y)) ->
  translate hl f (root t) s = (s', Ok h) -> exists s'' h', translate hl f (root t) s' = (s'', Ok h') /\ render h' = render h.
Proof.
  intros [Fr Co [Do _]] Hl E. destruct t as [i ts]. inversion Do as [p i' n cs Hi Hp Hk Hc]. subst. exact (translate_twice hl f s i n s' h Fr Co Hi Hp Hl E).
Qed.
From Verif Require Import TrDemo.
Lemma trdoc_linked : forall j m a v y, st_heap trdoc_st !! j = Some m -> n_attrs m !! a = Some v -> y ∈ nodes_in v -> is_Some (st_heap trdoc_st !! y).
Proof.
  assert (H : all_nodes trdoc_st (fun _ n => forallb (fun p => forallb (alive trdoc_st) (nodes_in p.2)) (map_to_list (n_attrs n))) = true) by (vm_compute; reflexivity).
  intros j m a v y Hj Ha Hy. pose proof (all_nodes_ok _ _ j m H Hj) as G. cbv beta in G. rewrite forallb_forall in G.
  assert (Hin : In (a, v) (map_to_list (n_attrs m))) by (apply elem_of_list_In, elem_of_map_to_list; exact Ha).
  specialize (G _ Hin). cbv beta in G. rewrite forallb_forall in G. apply alive_ok, G, elem_of_list_In, Hy.
Qed.
