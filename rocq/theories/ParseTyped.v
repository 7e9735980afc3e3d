(** The parser gives every attribute a value of its type. *)
From Verif Require Export SpecTyped ParseReady.
From Verif Require Import TreeFacts Built Consistency NodeOps Monad.
Local Open Scope string_scope.
Local Open Scope list_scope.

(** Of its type, and without reference to a node made by the parser, which starts in [s0]. *)
Definition plain_val (a : attr) (v : val) : Prop := attr_shape a v = true /\ nodes_in v = [].
Definition simple (s0 : st) (a : attr) (v : val) : Prop := attr_shape a v = true /\ forall y, y ∈ nodes_in v -> is_Some (st_heap s0 !! y).
Definition all_simple (s0 s : st) : Prop := forall i n a v, st_heap s !! i = Some n -> n_attrs n !! a = Some v -> simple s0 a v.
Lemma plain_simple s0 a v : plain_val a v -> simple s0 a v.
Proof. intros [H1 H2]. split; [exact H1|]. rewrite H2. intros y Hy. inversion Hy. Qed.
Lemma mk_attrs_in c kw a v : mk_attrs c kw !! a = Some v -> In (a, v) (default_attrs c ++ kw).
Proof.
  unfold mk_attrs. assert (H : forall l (m : gmap attr val), fold_left (fun m p => <[p.1 := p.2]> m) l m !! a = Some v -> In (a, v) l \/ m !! a = Some v).
  { induction l as [|[b w] l IH]; cbn [fold_left fst snd]; intros m E; [auto|]. destruct (IH _ E) as [H|H]; [left; right; exact H|].
    destruct (decide (b = a)) as [-> |Hn]; [rewrite lookup_insert in H; injection H as ->; left; left; reflexivity|].
    rewrite lookup_insert_ne in H by assumption. auto. }
  intros E. destruct (H _ _ E) as [H1|H1]; [exact H1|]. rewrite lookup_empty in H1. discriminate H1.
Qed.
Definition simpleb (p : attr * val) : bool := attr_shape p.1 p.2 && match nodes_in p.2 with [] => true | _ => false end.
Lemma simpleb_ok p : simpleb p = true -> plain_val p.1 p.2.
Proof. unfold simpleb, plain_val. rewrite andb_true_iff. intros [H1 H2]. split; [exact H1|]. destruct (nodes_in p.2); [reflexivity|discriminate H2]. Qed.
Lemma defaults_simple c a v : In (a, v) (default_attrs c) -> plain_val a v.
Proof.
  intros H. assert (E : forallb (fun c => forallb simpleb (default_attrs c)) all_cls = true) by (vm_compute; reflexivity).
  rewrite forallb_forall in E. specialize (E c (all_cls_complete c)). rewrite forallb_forall in E. exact (simpleb_ok _ (E _ H)).
Qed.
Lemma mk_attrs_simple s0 c kw a v : Forall (fun p => simple s0 p.1 p.2) kw -> mk_attrs c kw !! a = Some v -> simple s0 a v.
Proof.
  intros Hk H. apply mk_attrs_in in H. apply in_app_iff in H as [H|H]; [apply plain_simple; eapply defaults_simple, H|]. rewrite List.Forall_forall in Hk. exact (Hk _ H).
Qed.
Lemma key_shape a v w : attr_shape a w = true -> is_str v && is_str w || is_strs v && is_strs w = true -> plain_val a v.
Proof.
  intros H E. split.
  - destruct v, w; try discriminate E; exact H.
  - destruct v, w; try discriminate E; reflexivity.
Qed.
Lemma pair_simple k v key x : key_typed k = true -> parse_pair k v = Ok (key, x) ->
  plain_val (attr_of_name key) x /\ (str_eqb key (lit "reftext") = true -> plain_val a_reftext_template x).
Proof.
  intros Hk H. unfold key_typed in Hk. apply andb_true_iff in Hk as [Hk _]. unfold parse_pair in H. unfold is_type in Hk.
  assert (G : forall w, attr_shape (attr_of_name key) w && attr_shape (key_attr key) w = true -> is_str x && is_str w || is_strs x && is_strs w = true ->
    plain_val (attr_of_name key) x /\ (str_eqb key (lit "reftext") = true -> plain_val a_reftext_template x)).
  { intros w Hw E. apply andb_true_iff in Hw as [H1 H2]. split; [exact (key_shape _ _ _ H1 E)|]. intros Er. unfold key_attr in H2. rewrite Er in H2. exact (key_shape _ _ _ H2 E). }
  destruct (str_eqb (c_type k) (lit "metakey_list")).
  { destruct (key_name k) as [k0|]; [|discriminate H]. destruct v as [v|]; [|discriminate H]. injection H as <- <-. exact (G _ Hk eq_refl). }
  destruct (str_eqb (c_type k) (lit "metakey_text") || str_eqb (c_type k) (lit "metakey_any")).
  { destruct (key_name k) as [k0|]; [|discriminate H]. destruct v as [v|]; [|discriminate H]. injection H as <- <-. exact (G _ Hk eq_refl). }
  destruct (str_eqb (c_type k) (lit "metakey_bool")).
  { destruct (key_name k) as [k0|]; [|discriminate H]. injection H as <- <-. apply andb_true_iff in Hk as [H1 H2].
    split; [split; [exact H1|reflexivity]|]. intros Er. split; [|reflexivity]. unfold key_attr in H2. rewrite Er in H2. exact H2. }
  destruct (str_eqb _ _); discriminate H.
Qed.
Lemma simple_mod s0 i f : (forall n, n_attrs (f n) = n_attrs n) -> keeps (all_simple s0) (mod_node i f).
Proof.
  intros Hf s Hs. unfold mod_node, bind, get_node. destruct (st_heap s !! i) as [n|] eqn:E; [|exact Hs]. cbn [fst put_node].
  intros j m a v Hj. change (st_heap (upd s i (f n)) !! j = Some m) in Hj. rewrite upd_lookup in Hj. destruct (decide (i = j)); [|eapply Hs, Hj].
  injection Hj as <-. rewrite Hf. eapply Hs, E.
Qed.
Lemma simple_both s0 fuel c : keys_typed c -> keeps (all_simple s0) (parse fuel c) /\ keeps (all_simple s0) (abs_loop fuel (MkPst None None) [(None, alone c)]).
Proof.
  intros Hc. apply p_both with (errors := True) (okv := simple s0) (key_ok := fun d => key_typed d = true).
  - intros r s Hs. exact Hs.
  - intros k v key x Hk E. destruct (pair_simple _ _ _ _ Hk E) as [H1 H2]. split; [apply plain_simple, H1|intros Er; apply plain_simple, H2, Er].
  - intros d k v Hd Ht E. unfold key_typed in Hd. apply andb_true_iff in Hd as [_ Hd]. rewrite Ht, E in Hd. exact (plain_simple _ _ _ (key_shape _ (VStr _) _ Hd eq_refl)).
  - intros a x H. apply plain_simple. split; [|reflexivity]. cbn [In] in H. decompose [or] H; subst; reflexivity || contradiction.
  - apply plain_simple. split; reflexivity.
  - intros k. apply plain_simple. split; reflexivity.
  - intros l. apply plain_simple. split; reflexivity.
  - intros p. split; apply plain_simple; split; reflexivity.
  - intros t k kw H. unfold ast_type in H. destruct (find _ _) as [p|] eqn:E; [|discriminate H]. apply find_some in E as [E _]. injection H as H.
    assert (Hall : forallb (fun p => forallb simpleb p.2.2) ast_types = true) by (vm_compute; reflexivity).
    rewrite forallb_forall in Hall. specialize (Hall p E). rewrite H in Hall. cbn [snd] in Hall. rewrite forallb_forall in Hall.
    apply List.Forall_forall. intros q Hq. apply plain_simple, simpleb_ok, Hall, Hq.
  - intros i a s s' v Hs H. apply getattr_ok in H as (-> & n & Hn & Hv). exact (Hs _ _ _ _ Hn Hv).
  - intros i a v Hv s Hs. unfold setattr, mod_node, bind, get_node. destruct (st_heap s !! i) as [n|] eqn:E; [|exact Hs]. cbn [fst put_node].
    intros j m b w Hj. change (st_heap (upd s i (set_n_attr a v n)) !! j = Some m) in Hj. rewrite upd_lookup in Hj. destruct (decide (i = j)); [|eapply Hs, Hj].
    injection Hj as <-. unfold set_n_attr. cbn [n_attrs]. destruct (decide (a = b)) as [<-|Hn]; [rewrite lookup_insert; intros [= <-]; exact Hv|].
    rewrite lookup_insert_ne by assumption. eapply Hs, E.
  - intros i p. unfold set_parent. destruct p as [p|]; [|apply simple_mod; reflexivity].
    assert (Hcl : forall j, keeps (all_simple s0) (cls_of j)) by (intros j; unfold cls_of; apply keeps_bind; [apply keeps_get_node|intros; apply keeps_ret]).
    apply keeps_bind; [apply Hcl|intros k]. destruct (possible_parents k); [apply simple_mod; reflexivity|].
    apply keeps_bind; [apply Hcl|intros d]. destruct (cls_mem _ _); [apply simple_mod; reflexivity|apply keeps_raise].
  - intros i cs. apply simple_mod. reflexivity.
  - intros k kw _ Hkw s Hs j m a v Hj. unfold new_node, alloc in Hj. cbn [fst] in Hj. change (st_heap (new s (mk_node k kw)) !! j = Some m) in Hj.
    rewrite new_lookup in Hj. destruct (decide _); [|eapply Hs, Hj]. injection Hj as <-. apply mk_attrs_simple, Hkw.
  - intros _ kw Hkw s Hs j m a v Hj. unfold new_node, alloc in Hj. cbn [fst] in Hj. change (st_heap (new s (mk_node CError kw)) !! j = Some m) in Hj.
    rewrite new_lookup in Hj. destruct (decide _); [|eapply Hs, Hj]. injection Hj as <-. apply mk_attrs_simple, Hkw.
  - split; [left; exact I|exact Hc].
Qed.
Lemma parse_simple s0 fuel c : keys_typed c -> keeps (all_simple s0) (parse fuel c).
Proof. intros Hc. apply (simple_both s0 fuel c Hc). Qed.
Lemma complete_mod i f : (forall n, n_cls (f n) = n_cls n) -> (forall n a, is_Some (n_attrs n !! a) -> is_Some (n_attrs (f n) !! a)) -> keeps complete (mod_node i f).
Proof.
  intros Hc Hf s Hs. unfold mod_node, bind, get_node. destruct (st_heap s !! i) as [n|] eqn:E; [|exact Hs]. cbn [fst put_node].
  intros j m a Hj. change (st_heap (upd s i (f n)) !! j = Some m) in Hj. rewrite upd_lookup in Hj. destruct (decide (i = j)); [|eapply Hs, Hj].
  injection Hj as <-. rewrite Hc. intros Ha. apply Hf. eapply Hs; eassumption.
Qed.
Lemma complete_new k kw : keeps complete (new_node k kw).
Proof.
  intros s Hs j m a Hj. unfold new_node, alloc in Hj. cbn [fst] in Hj. change (st_heap (new s (mk_node k kw)) !! j = Some m) in Hj.
  rewrite new_lookup in Hj. destruct (decide _); [|eapply Hs, Hj]. injection Hj as <-. apply mk_attrs_default.
Qed.
Lemma complete_set i a v : keeps complete (setattr i a v).
Proof.
  apply complete_mod; [reflexivity|]. intros n b H. unfold set_n_attr. cbn [n_attrs]. destruct (decide (a = b)) as [<-|Hn]; [rewrite lookup_insert; eauto|].
  rewrite lookup_insert_ne by assumption. exact H.
Qed.
Lemma complete_parent i p : keeps complete (set_parent i p).
Proof.
  assert (Hm : forall q, keeps complete (mod_node i (set_n_parent q))) by (intros q; apply complete_mod; [reflexivity|auto]).
  unfold set_parent. destruct p as [p|]; [|apply Hm].
  assert (Hcl : forall j, keeps complete (cls_of j)) by (intros j; unfold cls_of; apply keeps_bind; [apply keeps_get_node|intros; apply keeps_ret]).
  apply keeps_bind; [apply Hcl|intros k]. destruct (possible_parents k); [apply Hm|].
  apply keeps_bind; [apply Hcl|intros d]. destruct (cls_mem _ _); [apply Hm|apply keeps_raise].
Qed.
Lemma complete_children i cs : keeps complete (set_raw_children i cs).
Proof. apply complete_mod; [reflexivity|auto]. Qed.
Lemma complete_both fuel c : keeps complete (parse fuel c) /\ keeps complete (abs_loop fuel (MkPst None None) [(None, alone c)]).
Proof.
  apply p_both with (errors := True) (okv := fun _ _ => True) (key_ok := fun _ => True); auto.
  - intros r s Hs. exact Hs.
  - intros. apply List.Forall_forall. auto.
  - intros. apply complete_set.
  - apply complete_parent.
  - apply complete_children.
  - intros. apply complete_new.
  - intros. apply complete_new.
  - split; auto.
Qed.
Lemma parse_complete fuel c : keeps complete (parse fuel c). Proof. apply complete_both. Qed.
Lemma parsed_typed fuel c s s' r : keys_typed c -> typed s -> complete s -> parse fuel c s = (s', Ok r) ->
  (forall x, is_Some (st_heap s !! x) -> is_Some (st_heap s' !! x)) -> typed s' /\ complete s'.
Proof.
  intros Hc Ht Hcm H Hg. pose proof (parse_simple s fuel c Hc s Ht) as G0. pose proof (parse_complete fuel c s Hcm) as G1. rewrite H in G0, G1. cbn [fst] in *.
  split; [|exact G1]. intros i n a v Hn Hv. destruct (G0 _ _ _ _ Hn Hv) as [H1 H2]. split; [exact H1|]. intros y Hy. apply Hg, H2, Hy.
Qed.

(** ** Error nodes *)

(** The nodes from [k] on are not Error nodes. *)
Definition errorless_from (k : nat) (s : st) : Prop := k <= st_next s /\ forall i n, k <= i -> st_heap s !! i = Some n -> n_cls n <> CError.
Lemma errorless_mod_from k i f : (forall n, n_cls (f n) = n_cls n) -> keeps (errorless_from k) (mod_node i f).
Proof.
  intros Hf s [H0 Hs]. unfold mod_node, bind, get_node. destruct (st_heap s !! i) as [n|] eqn:E; [|split; assumption]. cbn [fst put_node]. split; [exact H0|].
  intros j m Hk Hj. change (st_heap (upd s i (f n)) !! j = Some m) in Hj. rewrite upd_lookup in Hj. destruct (decide (i = j)) as [->|]; [|eapply Hs; eassumption].
  injection Hj as <-. rewrite Hf. eapply Hs; eassumption.
Qed.
Lemma parse_errorless_from k fuel c : (forall d, In d (c_preorder c) -> is_type "ERROR" d = false) -> keeps (errorless_from k) (parse fuel c).
Proof.
  intros H. apply p_parse with (errors := False) (okv := fun _ _ => True) (key_ok := fun _ => True); auto.
  - intros r s Hs. exact Hs.
  - intros. apply List.Forall_forall. auto.
  - intros i a v _. apply errorless_mod_from. reflexivity.
  - intros i p. unfold set_parent. destruct p as [p|]; [|apply errorless_mod_from; reflexivity].
    assert (Hc : forall j, keeps (errorless_from k) (cls_of j)) by (intros j; unfold cls_of; apply keeps_bind; [apply keeps_get_node|intros; apply keeps_ret]).
    apply keeps_bind; [apply Hc|intros d]. destruct (possible_parents d); [apply errorless_mod_from; reflexivity|].
    apply keeps_bind; [apply Hc|intros d2]. destruct (cls_mem _ _); [apply errorless_mod_from; reflexivity|apply keeps_raise].
  - intros i cs. apply errorless_mod_from. reflexivity.
  - intros d kw Hk _ s [H0 Hs]. unfold new_node, alloc. cbn [fst]. split; [cbn [st_next]; lia|]. intros j m Hkj Hj. change (st_heap (new s (mk_node d kw)) !! j = Some m) in Hj.
    rewrite new_lookup in Hj. destruct (decide _); [|eapply Hs; eassumption]. injection Hj as <-. exact (made_no_error _ Hk).
  - intros [].
  - split; [right; exact H|auto].
Qed.

(** Where the parser may start and what it leaves: what transform expects. *)
Definition sane (s : st) : Prop := good s /\ all_comparable s /\ typed s /\ complete s.
Lemma empty_sane : sane empty_st.
Proof.
  split; [exact empty_good|]. assert (H : forall i n, st_heap empty_st !! i = Some n -> False).
  { intros i n Hi. cbn [st_heap empty_st] in Hi. rewrite lookup_empty in Hi. discriminate Hi. }
  split; [intros i n Hi; destruct (H _ _ Hi)|]. split; intros i n; intros; exfalso; eapply H; eassumption.
Qed.
Lemma parse_from fuel c s s' r : source c -> (forall d, In d (c_preorder c) -> is_type "ERROR" d = false) -> keys_typed c -> sane s ->
  parse fuel c s = (s', Ok r) ->
  exists t, root t = r /\ SpecResult.ready s' t /\ sane s' /\ SpecParse.holds (st_heap s') None t (sourced c (norm (mirrored c))) /\
    (forall j, j ∈ doc_order t -> st_heap s !! j = None) /\ (forall j n, st_heap s !! j = Some n -> st_heap s' !! j = Some n).
Proof.
  intros Hc He Hk (Hg & Hb & Ht & Hcm) H. destruct (parse_ok _ _ _ _ _ Hc Hg H) as (us & Hg' & Hh & Hnew & Hold & _).
  assert (Hkeep : forall j n, st_heap s !! j = Some n -> st_heap s' !! j = Some n).
  { intros j n Hj. rewrite Hold; [exact Hj|]. exact (proj1 Hg _ _ Hj). }
  pose proof (parse_comparable fuel c s Hb) as Hb'. rewrite H in Hb'. cbn [fst] in Hb'.
  destruct (parsed_typed _ _ _ _ _ Hk Ht Hcm H) as [Ht' Hcm']; [intros x [n Hn]; eauto|].
  exists (T r us). split; [reflexivity|].
  pose proof (holds_tree_at _ _ _ _ Hh) as Hta. destruct Hg' as [Hf Hcons].
  assert (Hm : manuscript s' (T r us)) by (split; [assumption|assumption|]; split; [assumption|]; eapply tree_at_nodup; eassumption).
  split.
  { split; [exact Hm|]. split; [exact Hb'|]. intros x Hx (n & Hn & Hcl). exfalso.
    assert (H0 : errorless_from (st_next s) s).
    { split; [apply le_n|]. intros i m Hi Hm'. assert (i < st_next s); [|lia]. exact (proj1 Hg _ _ Hm'). }
    pose proof (parse_errorless_from (st_next s) fuel c He s H0) as [_ G]. rewrite H in G. refine (G x n _ Hn Hcl). apply Hnew, elem_of_list_In, Hx. }
  split; [split; [split; assumption|auto]|]. split; [exact Hh|]. split; [|exact Hkeep].
  intros j Hj. apply elem_of_list_In, Hnew in Hj. destruct (st_heap s !! j) as [n|] eqn:E; [|reflexivity]. exfalso. assert (j < st_next s); [|lia]. exact (proj1 Hg _ _ E).
Qed.
