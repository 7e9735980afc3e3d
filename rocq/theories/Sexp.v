(** Proofs about [sexp], [==] and meta data. *)
From Verif Require Export Queries.

(** ** sexp *)

Fixpoint pp (tab ind : nat) (t : ctree) : str :=
  match t with
  | CT c cs => [10%N] ++ repeat 32%N ind ++ lit "(" ++ cls_name c
               ++ flat_map (pp tab (ind + tab)) cs ++ lit ")"
  end.
Definition show_item (h : gmap id node) (tab : nat) (x : option (nat * tree)) : str :=
  match x with None => lit ")" | Some (ind, t) => pp tab ind (shape h t) end.
Definition stack_item (x : option (nat * tree)) : option (nat * id) :=
  match x with None => None | Some (ind, t) => Some (ind, root t) end.
Definition item_cost (x : option (nat * tree)) : nat :=
  match x with None => 1 | Some (_, t) => 2 * length (doc_order t) end.
Definition item_ok (h : gmap id node) (x : option (nat * tree)) : Prop :=
  match x with None => True | Some (_, t) => kid_tree h t end.
Definition total (f : option (nat * tree) -> nat) (l : list (option (nat * tree))) : nat :=
  fold_right (fun x n => f x + n) 0 l.
Lemma total_app f l m : total f (l ++ m) = total f l + total f m.
Proof. induction l; simpl; lia. Qed.
Lemma total_kids ind cs :
  total item_cost (map (fun t => Some (ind, t)) cs) = 2 * length (doc_orders cs).
Proof.
  induction cs as [|c cs IH]; [reflexivity|]. simpl. unfold doc_orders in *. simpl.
  rewrite app_length. lia.
Qed.

Lemma sexp_loop_eq tab : forall fuel stack exp s,
  Forall (item_ok (st_heap s)) stack -> total item_cost stack <= fuel ->
  sexp_loop fuel tab (map stack_item stack) exp s
  = (s, Ok (exp ++ flat_map (show_item (st_heap s) tab) stack)).
Proof.
  induction fuel as [|fuel IH]; intros stack exp s Hok Hlen.
  - destruct stack as [|[[ind [i cs]]|] stack]; simpl in Hlen; try lia.
    simpl. rewrite app_nil_r. reflexivity.
  - destruct stack as [|[[ind [i cs]]|] stack].
    + simpl. rewrite app_nil_r. reflexivity.
    + apply list.Forall_cons in Hok as [Ht Hok]. simpl in Ht. inversion Ht as [? n ? Hi Hk Hcs]; subst.
      cbn [map stack_item sexp_loop root]. unfold cls_of, children_of, bind.
      rewrite !(get_node_eq _ _ _ Hi). unfold ret. rewrite !(get_node_eq _ _ _ Hi). rewrite Hk.
      assert (E : map (fun c => Some (ind + tab, c)) (map root cs) ++ None :: map stack_item stack
                  = map stack_item (map (fun t => Some (ind + tab, t)) cs ++ None :: stack)).
      { rewrite map_app, !map_map. reflexivity. }
      rewrite E. rewrite IH.
      * f_equal. f_equal. rewrite flat_map_app. cbn [flat_map show_item shape pp].
        rewrite Hi. rewrite <- !app_assoc. do 5 f_equal.
        rewrite !flat_map_concat_map, !map_map. simpl. reflexivity.
      * apply list.Forall_app. split; [|constructor; [exact I|assumption]].
        apply list.Forall_forall. intros x Hx. apply elem_of_list_fmap in Hx as (t & -> & Hx).
        simpl. rewrite list.Forall_forall in Hcs. auto.
      * rewrite total_app, total_kids. simpl in *. unfold doc_orders. lia.
    + apply list.Forall_cons in Hok as [_ Hok]. cbn [map stack_item sexp_loop].
      rewrite IH; [|assumption|simpl in *; lia]. simpl. rewrite <- app_assoc. reflexivity.
Qed.
Lemma sexp_loop_fuel tab : forall fuel stack exp s s' r,
  Forall (item_ok (st_heap s)) stack ->
  sexp_loop fuel tab (map stack_item stack) exp s = (s', Ok r) -> total item_cost stack <= fuel.
Proof.
  induction fuel as [|fuel IH]; intros stack exp s s' r Hok H.
  - destruct stack as [|[[ind [i cs]]|] stack]; try discriminate. simpl. lia.
  - destruct stack as [|[[ind [i cs]]|] stack]; [simpl; lia| |].
    + apply list.Forall_cons in Hok as [Ht Hok]. simpl in Ht. inversion Ht as [? n ? Hi Hk Hcs]; subst.
      cbn [map stack_item sexp_loop root] in H. msteps.
      grab (st_heap _ !! i = Some n0) as Hn0. grab (st_heap _ !! i = Some n1) as Hn1.
      assert (n1 = n) as -> by congruence. rewrite Hk in H.
      assert (E : map (fun c => Some (ind + tab, c)) (map root cs) ++ None :: map stack_item stack
                  = map stack_item (map (fun t => Some (ind + tab, t)) cs ++ None :: stack)).
      { rewrite map_app, !map_map. reflexivity. }
      rewrite E in H. apply IH in H.
      * rewrite total_app, total_kids in H. simpl in *. unfold doc_orders in *. lia.
      * apply list.Forall_app. split; [|constructor; [exact I|assumption]].
        apply list.Forall_forall. intros x Hx. apply elem_of_list_fmap in Hx as (t & -> & Hx).
        simpl. rewrite list.Forall_forall in Hcs. auto.
    + apply list.Forall_cons in Hok as [_ Hok]. cbn [map stack_item sexp_loop] in H.
      apply IH in H; [|assumption]. simpl. lia.
Qed.
Lemma sexp_ok fuel tab t s s' r :
  kid_tree (st_heap s) t -> sexp fuel tab (root t) s = (s', Ok r) ->
  s' = s /\ [10%N] ++ r = pp tab 0 (shape (st_heap s) t).
Proof.
  intros Ht H. unfold sexp in H. apply bind_ok in H as (s1 & e & H & H').
  change [Some (0, root t)] with (map stack_item [Some (0, t)]) in H.
  assert (Hok : Forall (item_ok (st_heap s)) [Some (0, t)]) by (constructor; [exact Ht|constructor]).
  pose proof (sexp_loop_fuel _ _ _ _ _ _ _ Hok H) as Hlen.
  rewrite sexp_loop_eq in H by assumption. injection H as <- <-. injection H' as <- <-.
  split; [reflexivity|]. simpl. destruct (shape (st_heap s) t). rewrite app_nil_r. reflexivity.
Qed.
Lemma sexp_total fuel tab t s :
  kid_tree (st_heap s) t -> 2 * length (doc_order t) <= fuel ->
  exists r, sexp fuel tab (root t) s = (s, Ok r).
Proof.
  intros Ht Hlen. unfold sexp, bind.
  change [Some (0, root t)] with (map stack_item [Some (0, t)]).
  rewrite sexp_loop_eq; [eexists; reflexivity| |].
  - constructor; [exact Ht|constructor].
  - simpl. lia.
Qed.

(** Reading back. *)
Definition delim (c : N) : bool := ((c =? 10) || (c =? 41))%N.
Lemma cls_name_no_delim c : forallb (fun x => negb (delim x)) (cls_name c) = true.
Proof. destruct c; vm_compute; reflexivity. Qed.
Lemma cls_name_inj a b : cls_name a = cls_name b -> a = b.
Proof.
  assert (H : forallb (fun a => forallb (fun b => implb (str_eqb (cls_name a) (cls_name b)) (cls_eqb a b))
                                  all_cls) all_cls = true) by (vm_compute; reflexivity).
  intros E. rewrite forallb_forall in H. specialize (H a (all_cls_complete a)).
  rewrite forallb_forall in H. specialize (H b (all_cls_complete b)).
  rewrite E, str_eqb_refl in H. simpl in H. destruct (cls_eqb_spec a b); congruence.
Qed.
Definition starts_delim (x : str) : Prop := exists c r, x = c :: r /\ delim c = true.
Lemma name_split a b x y :
  forallb (fun x => negb (delim x)) a = true -> forallb (fun x => negb (delim x)) b = true ->
  starts_delim x -> starts_delim y -> a ++ x = b ++ y -> a = b /\ x = y.
Proof.
  revert b. induction a as [|c a IH]; intros [|d b] Ha Hb Hx Hy E; simpl in *.
  - auto.
  - destruct Hx as (c & r & -> & Hc). injection E as -> _. rewrite Hc in Hb. discriminate.
  - destruct Hy as (e & r & -> & Hc). injection E as -> _. rewrite Hc in Ha. discriminate.
  - injection E as <- E. apply andb_true_iff in Ha as [_ Ha]. apply andb_true_iff in Hb as [_ Hb].
    destruct (IH b Ha Hb Hx Hy E). subst. auto.
Qed.
Lemma ctree_ind' (P : ctree -> Prop) :
  (forall c cs, Forall P cs -> P (CT c cs)) -> forall t, P t.
Proof.
  intros H. fix IH 1. intros [c cs]. apply H.
  induction cs as [|d cs IHc]; constructor; [apply IH|exact IHc].
Qed.
Lemma pp_starts tab ind t : exists r, pp tab ind t = 10%N :: r.
Proof. destruct t. eexists. reflexivity. Qed.
Lemma pps_starts tab ind cs x : starts_delim (flat_map (pp tab ind) cs ++ lit ")" ++ x).
Proof.
  destruct cs as [|c cs]; simpl.
  - exists 41%N, x. auto.
  - destruct (pp_starts tab ind c) as [r ->]. exists 10%N. eexists. split; reflexivity.
Qed.
Lemma pp_inj tab t : forall ind t' x y,
  pp tab ind t ++ x = pp tab ind t' ++ y -> t = t' /\ x = y.
Proof.
  induction t as [c cs IH] using ctree_ind'. intros ind [c' cs'] x y E.
  cbn [pp] in E. rewrite <- !app_assoc in E. apply app_inv_head in E. apply app_inv_head in E.
  apply app_inv_head in E.
  apply name_split in E as [Hn E]; try apply cls_name_no_delim; try apply pps_starts.
  apply cls_name_inj in Hn. subst c'.
  assert (cs = cs' /\ x = y) as [-> ->]; [|auto].
  revert cs' E. induction cs as [|t cs IHcs]; intros [|t' cs'] E; simpl in E.
  - injection E as ->. auto.
  - destruct (pp_starts tab (ind + tab) t') as [r Hr]. rewrite Hr in E. discriminate.
  - destruct (pp_starts tab (ind + tab) t) as [r Hr]. rewrite Hr in E. discriminate.
  - apply list.Forall_cons in IH as [IHt IH]. rewrite <- !app_assoc in E.
    apply IHt in E as [-> E]. apply IHcs in E as [-> ->]; auto.
Qed.
Lemma sexp_determines fuel fuel' tab t t' s1 s1' s2 s2' r :
  kid_tree (st_heap s1) t -> kid_tree (st_heap s2) t' ->
  sexp fuel tab (root t) s1 = (s1', Ok r) -> sexp fuel' tab (root t') s2 = (s2', Ok r) ->
  shape (st_heap s1) t = shape (st_heap s2) t'.
Proof.
  intros Ht Ht' H H'. apply sexp_ok in H as [_ H]; [|assumption]. apply sexp_ok in H' as [_ H']; [|assumption].
  rewrite H in H'. apply (pp_inj tab _ 0 _ [] []). rewrite !app_nil_r. assumption.
Qed.

(** ** Equality *)

Lemma strs_eqb_refl l : strs_eqb l l = true.
Proof. induction l; [reflexivity|]. simpl. rewrite str_eqb_refl. assumption. Qed.
Lemma val_eqb_refl v : val_eqb v v = true.
Proof.
  destruct v; unfold val_eqb; simpl; auto using str_eqb_refl, strs_eqb_refl, Nat.eqb_refl, Z.eqb_refl.
  - rewrite decide_True by reflexivity. reflexivity.
  - rewrite !Z.eqb_refl. reflexivity.
Qed.
Lemma parent_eq_refl n : parent_eq n n = true.
Proof. unfold parent_eq. destruct (n_parent n); [apply Nat.eqb_refl|reflexivity]. Qed.
Lemma attrs_eq_refl n : comparable n -> forallb (attr_eq n n) (eq_attrs (n_cls n)) = true.
Proof.
  intros H. apply forallb_forall. intros a Ha. destruct (H a Ha) as [v Hv].
  unfold attr_eq. rewrite Hv. apply val_eqb_refl.
Qed.
Lemma node_eq_go_refl f (l : list id) :
  (fix go (l m : list id) : option bool :=
     match l, m with
     | [], [] => Some true
     | u :: l', v :: m' =>
         if Nat.eqb u v then go l' m'
         else match f u v with Some true => go l' m' | r => r end
     | _, _ => Some false
     end) l l = Some true.
Proof. induction l; [reflexivity|]. rewrite Nat.eqb_refl. assumption. Qed.
Lemma node_eq_refl fuel h x n :
  h !! x = Some n -> comparable n -> node_eq (S fuel) h x x = Some true.
Proof.
  intros Hx Hc. cbn [node_eq]. rewrite Hx.
  assert (E : cls_eqb (n_cls n) (n_cls n) = true) by (destruct (cls_eqb_spec (n_cls n) (n_cls n)); congruence).
  rewrite E, andb_false_r. rewrite attrs_eq_refl, parent_eq_refl by assumption. simpl.
  destruct (has_children (n_cls n)); [|reflexivity]. apply node_eq_go_refl.
Qed.
(** Equal nodes agree on parent, label, types, nonum and number. *)
Lemma node_eq_agree fuel h x y nx ny :
  h !! x = Some nx -> h !! y = Some ny -> node_eq fuel h x y = Some true ->
  n_parent nx = n_parent ny /\
  forall a, In a [a_label; a_types; a_nonum; a_number] ->
    exists v w, n_attrs nx !! a = Some v /\ n_attrs ny !! a = Some w /\
      (val_eqb v w = true \/ val_eqb w v = true).
Proof.
  intros Hx Hy H. destruct fuel as [|fuel]; [discriminate|]. cbn [node_eq] in H. rewrite Hx, Hy in H.
  assert (Hgen : forall a b, forallb (attr_eq a b) (eq_attrs (n_cls a)) = true ->
    forall k, In k [a_label; a_types; a_nonum; a_number] ->
    exists v w, n_attrs a !! k = Some v /\ n_attrs b !! k = Some w /\ val_eqb v w = true).
  { intros a b Hf k Hk. rewrite forallb_forall in Hf.
    assert (attr_eq a b k = true) as Hak by (apply Hf; unfold eq_attrs; apply in_or_app; auto).
    unfold attr_eq in Hak. destruct (n_attrs a !! k), (n_attrs b !! k); try discriminate. eauto. }
  assert (Hpar : forall a b, parent_eq a b = true -> n_parent a = n_parent b).
  { intros a b. unfold parent_eq. destruct (n_parent a), (n_parent b); try discriminate; auto.
    intros E. apply Nat.eqb_eq in E. congruence. }
  destruct (subclass (n_cls ny) (n_cls nx) && negb (cls_eqb (n_cls ny) (n_cls nx))).
  - destruct (forallb (attr_eq ny nx) (eq_attrs (n_cls ny))) eqn:E1; [|discriminate].
    destruct (parent_eq ny nx) eqn:E2; [|discriminate].
    split; [symmetry; auto|]. intros a Ha. destruct (Hgen _ _ E1 a Ha) as (v & w & ? & ? & ?). eauto 8.
  - destruct (forallb (attr_eq nx ny) (eq_attrs (n_cls nx))) eqn:E1; [|discriminate].
    destruct (parent_eq nx ny) eqn:E2; [|discriminate].
    split; [auto|]. intros a Ha. destruct (Hgen _ _ E1 a Ha) as (v & w & ? & ? & ?). eauto 8.
Qed.

(** ** Meta keys *)

Lemma metakeys_inherited c b k : base c = Some b -> In k (metakeys b) -> In k (metakeys c).
Proof.
  intros E H. unfold metakeys, chain in *. rewrite <- chain_complete.
  change (In k (flat_map newmetakeys (c :: match base c with Some b => chain_fuel 8 b | None => [] end))).
  rewrite E. simpl. apply in_or_app. right. exact H.
Qed.
Lemma metakeys_common c k :
  In k [lit "label"; lit "types"; lit "nonum"; lit "reftext"] -> In k (metakeys c).
Proof.
  intros H. assert (derives c CNode) as Hd by (apply subclass_derives; destruct c; reflexivity).
  unfold metakeys. apply in_flat_map. exists CNode. split; [apply derives_chain, Hd|]. exact H.
Qed.

(** ** ingest_dict_as_meta *)

(** The attribute a meta key is stored under. *)
Definition meta_attr (k : str) : attr :=
  if str_eqb k (lit "reftext") then a_reftext_template else attr_of_name k.
