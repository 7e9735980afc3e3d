(** What the parser keeps true of every node, and that its result can be transformed. *)
From Verif Require Import TreeFacts Meta TocBuild Queries.
From Verif Require Export NormOrder ParseFuel Comparable SpecResult.
From Verif Require Import Consistency NodeProofs NodeOps Monad.
Local Open Scope string_scope.
Local Open Scope list_scope.

(** The classes of the nodes that the parser makes. *)
Definition parser_made (c : cls) : bool := negb (cls_mem c [CError; CReference; CBaseReference; CNode; CNodeWithChildren; CHeading; CBaseParagraph]).
Lemma made_no_error c : parser_made c = true -> c <> CError.
Proof. intros H ->. discriminate H. Qed.
Section Keep.
Variable P : st -> Prop.
Variable errors : Prop.
Hypothesis Hlog : forall r, keeps P (log_rec r).
(** The values that attributes may get, and the meta data for which they do. *)
Variable okv : attr -> val -> Prop.
Variable key_ok : cst -> Prop.
Hypothesis Hkey : forall k v key x, key_ok k -> parse_pair k v = Ok (key, x) ->
  okv (attr_of_name key) x /\ (str_eqb key (lit "reftext") = true -> okv a_reftext_template x).
Hypothesis Hbib : forall d k v, key_ok d -> is_type "bibitempair" d = true -> named_children d = [k; v] ->
  okv (attr_of_name (c_text (pl_node k))) (VStr (c_text (pl_node v))).
Hypothesis Hstr : forall a x, In a [a_text; a_title; a_kind; a_label; a_target; a_overwrite_reftext; a_src] -> okv a (VStr x).
Hypothesis Hasis : okv a_asis (VBool true).
Hypothesis Hnum : forall k, okv a_target (VInt k).
Hypothesis Hlist : forall l, okv a_targetlabels (VStrs l).
Hypothesis Hspan : forall p, okv a_start_point (point p) /\ okv a_end_point (point p).
Hypothesis Hast : forall t k kw, ast_type t = Some (k, kw) -> Forall (fun p => okv p.1 p.2) kw.
Hypothesis Hget : forall i a s s' v, P s -> getattr i a s = (s', Ok v) -> okv a v.
Hypothesis Hset : forall i a v, okv a v -> keeps P (setattr i a v).
Hypothesis Hpar : forall i p, keeps P (set_parent i p).
Hypothesis Hchi : forall i cs, keeps P (set_raw_children i cs).
Hypothesis Hnew : forall c kw, parser_made c = true -> Forall (fun p => okv p.1 p.2) kw -> keeps P (new_node c kw).
Hypothesis Herr : errors -> forall kw, Forall (fun p => okv p.1 p.2) kw -> keeps P (new_node CError kw).

Ltac ks := repeat first
  [ solve [auto]
  | apply keeps_get_node | apply keeps_ret | apply keeps_raise | apply keeps_raw_children | apply keeps_parent_of | apply keeps_children_of
  | (apply Hset; first [apply Hstr; cbn [In]; tauto|apply Hlist|apply Hnum]) | apply Hpar | apply Hchi | apply Hlog | (apply Hnew; [reflexivity|solve [constructor; auto|auto]])
  | apply keeps_bind; [|intros]
  | apply keeps_iterM; intros
  | match goal with |- keeps P (match ?x with _ => _ end) => destruct x end
  | match goal with |- keeps P (if ?x then _ else _) => destruct x end ].
Lemma p_getattr i a : keeps P (getattr i a). Proof. unfold getattr. ks. Qed.
Lemma p_cls_of i : keeps P (cls_of i). Proof. unfold cls_of. ks. Qed.
Lemma p_get_str i a : keeps P (get_str i a). Proof. unfold get_str. pose proof p_getattr. ks. Qed.
Lemma p_inst ds i : keeps P (inst ds i). Proof. unfold inst. pose proof p_cls_of. ks. Qed.
Lemma p_append p cs : keeps P (append p cs). Proof. unfold append, append1. pose proof p_cls_of. ks. Qed.
Lemma p_prepend p cs : keeps P (prepend p cs). Proof. unfold prepend, prepend1. pose proof p_cls_of. ks. Qed.
Lemma p_remove p c : keeps P (remove p c). Proof. unfold remove. ks. Qed.
Lemma p_remove_self i : keeps P (remove_self i). Proof. unfold remove_self. pose proof p_remove. ks. Qed.
Lemma p_insert_all p reps : forall k, keeps P (insert_all p k reps). Proof. induction reps; intros k; cbn [insert_all]; ks. Qed.
Lemma p_replace_self i cs : keeps P (replace_self i cs). Proof. unfold replace_self. pose proof p_remove. pose proof p_insert_all. ks. Qed.
Lemma p_mapM {A B} (f : A -> M B) l : (forall a, keeps P (f a)) -> keeps P (mapM f l). Proof. intros H. induction l; cbn [mapM]; ks. Qed.
Lemma p_first_go ds l : forall k, keeps P (first_of_type_go ds l k). Proof. pose proof p_inst. induction l; intros; cbn [first_of_type_go]; ks. Qed.
Lemma p_first i ds : keeps P (first_of_type i ds). Proof. unfold first_of_type. pose proof p_first_go. ks. Qed.
Lemma p_last i ds : keeps P (last_of_type i ds). Proof. unfold last_of_type. pose proof p_first_go. ks. Qed.
Lemma p_first_inst d l : keeps P (first_inst d l). Proof. pose proof p_inst. induction l; cbn [first_inst]; ks. Qed.
Lemma p_prev i a : keeps P (prev_sibling i a). Proof. unfold prev_sibling. pose proof p_first_inst. ks. Qed.
Lemma p_next i a : keeps P (next_sibling i a). Proof. unfold next_sibling. pose proof p_first_inst. ks. Qed.
Lemma p_loop {A} cond (body : A -> id -> M A) : (forall acc i, keeps P (body acc i)) -> forall fuel acc stk, keeps P (trav_loop fuel cond body acc stk).
Proof. intros H. induction fuel; intros acc [|i stk]; cbn [trav_loop]; ks. Qed.
Lemma p_py_setattr i k v : okv (attr_of_name k) v -> keeps P (py_setattr i k v).
Proof. intros H. unfold py_setattr. destruct (str_mem _ _); [apply keeps_raise|]. destruct (str_eqb _ _); [apply keeps_raise|]. apply Hset, H. Qed.
Definition dict_ok (d : list (str * val)) : Prop :=
  Forall (fun p => okv (attr_of_name p.1) p.2 /\ (str_eqb p.1 (lit "reftext") = true -> okv a_reftext_template p.2)) d.
Lemma dict_set_ok d k v : dict_ok d -> okv (attr_of_name k) v -> (str_eqb k (lit "reftext") = true -> okv a_reftext_template v) -> dict_ok (dict_set d k v).
Proof.
  intros Hd H1 H2. unfold dict_set. destruct (existsb _ _).
  - unfold dict_ok in *. rewrite List.Forall_forall in *. intros p Hp. apply in_map_iff in Hp as (q & <- & Hq). specialize (Hd q Hq).
    destruct (str_eqb q.1 k) eqn:E; [|exact Hd]. cbn [fst snd]. apply str_eqb_eq in E. rewrite E. auto.
  - unfold dict_ok. apply Forall_app. split; [exact Hd|]. constructor; [auto|constructor].
Qed.
Lemma parse_pairs_ok : forall l d d', (forall p, In p l -> forall q, In q (named_children (pl_node p)) -> key_ok (pl_node q)) -> dict_ok d ->
  parse_pairs l d = Ok d' -> dict_ok d'.
Proof.
  induction l as [|p l IH]; intros d d' Hk Hd H; cbn [parse_pairs] in H; [injection H as <-; exact Hd|].
  assert (Hp : forall q, In q (named_children (pl_node p)) -> key_ok (pl_node q)) by (apply Hk; left; reflexivity).
  destruct (match named_children (pl_node p) with [k] => _ | [k; v] => _ | _ => _ end) as [[k v]|e] eqn:E; [|discriminate H].
  assert (HK : okv (attr_of_name k) v /\ (str_eqb k (lit "reftext") = true -> okv a_reftext_template v)).
  { destruct (named_children (pl_node p)) as [|q1 [|q2 [|q3 r]]]; try discriminate E; eapply Hkey; try exact E; apply Hp; left; reflexivity. }
  eapply IH; [|apply dict_set_ok; [exact Hd|apply HK|apply HK]|exact H]. intros q Hq. apply Hk. right. exact Hq.
Qed.
Lemma dict_get_in d k v : dict_get d k = Some v -> exists p, In p d /\ p.2 = v /\ str_eqb p.1 k = true.
Proof. unfold dict_get. destruct (find _ d) as [p|] eqn:E; [|discriminate]. intros [= <-]. apply find_some in E as [H1 H2]. eauto. Qed.
Lemma dict_values d : dict_ok d -> Forall (fun p => okv (attr_of_name p.1) p.2) (reftext_to_template d).
Proof.
  intros Hd. unfold reftext_to_template. assert (Hd1 : Forall (fun p => okv (attr_of_name p.1) p.2) d) by (eapply List.Forall_impl; [|exact Hd]; intros p Hp; apply Hp).
    destruct (dict_get d _) as [v|] eqn:E; [|exact Hd1]. apply dict_get_in in E as (p & Hp & <- & Ek). unfold dict_ok in Hd. rewrite List.Forall_forall in Hd.
    pose proof (proj2 (Hd p Hp) Ek) as Hv. unfold dict_del. apply List.Forall_forall. intros q Hq. apply filter_In in Hq as [Hq _].
    unfold dict_set in Hq. destruct (existsb _ _).
    - apply in_map_iff in Hq as (q0 & <- & Hq0). destruct (str_eqb q0.1 _) eqn:E0; [|apply (Hd q0 Hq0)]. apply str_eqb_eq in E0. cbn [fst snd]. rewrite E0. exact Hv.
    - apply in_app_iff in Hq as [Hq|[<-|[]]]; [apply (Hd q Hq)|]. exact Hv.
Qed.
Lemma p_ingest_dict i d : dict_ok d -> keeps P (ingest_dict_as_meta i d).
Proof.
  intros Hd. unfold ingest_dict_as_meta. pose proof (dict_values d Hd) as Hr.
  induction Hr as [|p l Hp Hl IH]; cbn [iterM]; [apply keeps_ret|]. apply keeps_bind; [apply p_py_setattr, Hp|intros _; exact IH].
Qed.
Lemma p_attach p i : keeps P (attach p i). Proof. unfold attach. pose proof p_cls_of. pose proof p_append. ks. Qed.
Lemma p_nth k c : keeps P (nth_named k c). Proof. unfold nth_named. ks. Qed.

Definition calm (c : cst) : Prop := (errors \/ forall d, In d (c_preorder c) -> is_type "ERROR" d = false) /\ forall d, In d (c_preorder c) -> key_ok d.
Definition calm_type (t : str) : Prop := errors \/ str_eqb t (lit "ERROR") = false.
Lemma calm_of c : calm c -> calm_type (c_type c).
Proof. intros [[H|H] _]; [left; assumption|right]. apply (H c). destruct c. left. reflexivity. Qed.
Lemma calm_child c d : calm c -> In d (c_children c) -> calm d.
Proof.
  assert (Hin : In d (c_children c) -> forall e, In e (c_preorder d) -> In e (c_preorder c)).
  { intros Hd e He. destruct c as [t f n x sp ep cs]. right. apply in_flat_map. eauto. }
  intros [H HK] Hd. split; [|intros e He; apply HK, Hin; assumption]. destruct H as [H|H]; [left; assumption|right]. intros e He. apply H, Hin; assumption.
Qed.
Lemma calm_named c x : calm c -> In x (named_children c) -> calm (pl_node x).
Proof.
  intros H Hx. eapply calm_child; [exact H|]. unfold named_children in Hx. apply filter_In in Hx as [Hx _].
  unfold places in Hx. apply places_from_in in Hx. assumption.
Qed.
Lemma calm_key c : calm c -> key_ok c.
Proof. intros [_ H]. apply H. destruct c. left. reflexivity. Qed.
Lemma calm_field name c q : calm c -> field_child name c = Some q -> calm (pl_node q).
Proof. intros H E. eapply calm_child; [exact H|]. unfold field_child in E. apply find_some in E as [E _]. unfold places in E. apply places_from_in in E. assumption. Qed.
Lemma p_ingest i c : calm c -> keeps P (ingest_meta i c).
Proof.
  intros Hc. unfold ingest_meta, lift. destruct (field_child "meta" c) as [m|] eqn:E; [|apply keeps_ret]. pose proof (calm_field _ _ _ Hc E) as Hm.
  unfold parse_meta. destruct (parse_pairs _ []) as [d|e] eqn:Ed; [|intros s Hs; exact Hs].
  assert (Hd : dict_ok d).
  { eapply parse_pairs_ok; [|constructor|exact Ed]. intros p Hp q Hq. apply filter_In in Hp as [Hp _]. apply calm_key. eapply calm_named; [|exact Hq]. eapply calm_named; eassumption. }
  intros s Hs. apply (p_ingest_dict i d Hd s Hs).
Qed.
Lemma ast_class t k kw : ast_type t = Some (k, kw) -> parser_made k = true.
Proof.
  unfold ast_type. destruct (find _ _) as [p|] eqn:E; [|discriminate]. apply find_some in E as [E _]. intros [= H]. 
  assert (Hall : forallb (fun p => parser_made p.2.1) ast_types = true) by (vm_compute; reflexivity).
  rewrite forallb_forall in Hall. specialize (Hall p E). rewrite H in Hall. exact Hall.
Qed.
Lemma span_ok c : Forall (fun p => okv p.1 p.2) (span_attrs c).
Proof. unfold span_attrs. constructor; [apply Hspan|]. constructor; [apply Hspan|constructor]. Qed.
Lemma p_make t c : calm_type t -> keeps P (make_node t c).
Proof.
  intros Ht. unfold make_node. destruct (ast_type t) as [[k kw]|] eqn:E.
  - apply keeps_bind; [apply Hnew; [apply (ast_class _ _ _ E)|apply Forall_app; split; [apply (Hast _ _ _ E)|apply span_ok]]|intros]. ks.
  - destruct Ht as [He| ->]; [|apply keeps_raise]. destruct (str_eqb _ _); [|apply keeps_raise]. apply keeps_bind; [apply Hlog|intros; apply Herr; [exact He|constructor; [apply Hstr; cbn [In]; tauto|apply span_ok]]].
Qed.
Lemma p_bind_get {B} i a (k : val -> M B) : (forall v, okv a v -> keeps P (k v)) -> keeps P (bind (getattr i a) k).
Proof.
  intros Hk s Hs. unfold bind. pose proof (p_getattr i a s Hs) as H1. destruct (getattr i a s) as [s1 [v|e]] eqn:E; [|exact H1].
  apply Hk; [exact (Hget _ _ _ _ _ Hs E)|exact H1].
Qed.
Lemma p_add_asis t i c : keeps P (add_asis t i c).
Proof.
  unfold add_asis. pose proof p_append. destruct (type_in _ _); [|ks]. destruct (rev _); [ks|]. destruct (is_type _ _); [|ks].
  apply keeps_bind; [|ks]. destruct (type_in _ _).
  - apply p_bind_get. intros v Hv. apply Hnew; [reflexivity|]. constructor; [apply Hstr; cbn [In]; tauto|]. constructor; [exact Hv|constructor].
  - apply Hnew; [reflexivity|]. constructor; [apply Hstr; cbn [In]; tauto|]. constructor; [exact Hasis|constructor].
Qed.
Lemma p_step_node v p t x c skip : calm_type t -> calm c -> keeps P (step_node v p t x c skip).
Proof.
  intros Ht Hc. unfold step_node. pose proof span_ok. pose proof p_getattr. pose proof p_append. pose proof p_nth. pose proof p_get_str.
  apply keeps_bind; [apply p_make, Ht|intros i]. apply keeps_bind; [apply p_ingest, Hc|intros _].
  apply keeps_bind; [apply p_add_asis|intros _]. apply keeps_bind; [unfold wrap_claim; ks|intros i2].
  apply keeps_bind; [unfold set_kind; ks|intros _]. apply keeps_bind; [unfold set_target; ks|intros s1].
  apply keeps_bind; [unfold set_prev; ks|intros _]. apply keeps_bind; [unfold set_cite; ks|intros s2].
  apply keeps_bind; [unfold pad_text; ks|intros _]. apply keeps_bind; [apply p_attach|intros _]. apply keeps_ret.
Qed.
Lemma field_in name c q : field_child name c = Some q -> In (pl_node q) (c_children c).
Proof. unfold field_child. intros H. apply find_some in H as [H _]. unfold places in H. apply places_from_in in H. assumption. Qed.
(** What is left on the stack is calm. *)
Lemma pushed_calm c skip x : calm c -> In x (pushed skip c) -> calm (pl_node x).
Proof. intros H Hx. unfold pushed in Hx. apply filter_In in Hx as [Hx _]. eapply calm_named; eassumption. Qed.
Definition calm_stack (es : list entry) : Prop := forall e, In e es -> calm (pl_node e.2).
Lemma under_calm p l : (forall x, In x l -> calm (pl_node x)) -> calm_stack (under p l).
Proof. intros H e He. unfold under in He. apply in_map_iff in He as (x & <- & Hx). apply H, Hx. Qed.
Lemma step_node_calm v p t x c skip s s' r : calm c -> step_node v p t x c skip s = (s', Ok r) -> calm_stack r.2.
Proof.
  intros Hc. unfold step_node. intros H. repeat (apply bind_ok in H as (? & ? & ? & H)). apply ret_ok in H as [_ ->].
  cbn [snd]. apply under_calm. intros y. apply pushed_calm, Hc.
Qed.
Lemma nth_named_keeps_place k c s s' f : nth_named k c s = (s', Ok f) -> calm c -> calm (pl_node f).
Proof. intros H Hc. eapply calm_named; [exact Hc|]. eapply nth_named_in, H. Qed.
Lemma p_bind_calm {A B} (m : M A) (k : A -> M B) (Q : A -> Prop) :
  keeps P m -> (forall s s' a, m s = (s', Ok a) -> Q a) -> (forall a, Q a -> keeps P (k a)) -> keeps P (bind m k).
Proof.
  intros Hm HQ Hk s Hs. unfold bind. specialize (Hm s Hs). specialize (HQ s). destruct (m s) as [s1 [a|e]]; [|exact Hm].
  apply Hk; [eapply HQ; reflexivity|exact Hm].
Qed.
Lemma p_step v p x : calm (pl_node x) -> keeps P (step v p x).
Proof.
  intros Hc. unfold step. pose proof p_append. pose proof p_nth. pose proof p_attach. pose proof span_ok.
  destruct (is_type "comment" _); [ks|]. destruct (_ && _). { unfold step_bibliography. ks. }
  destruct (is_type "bibtex" _). { unfold step_bibtex, warn. ks. }
  destruct (is_type "bibitem" _). { unfold step_bibitem, field_text. pose proof (calm_named (pl_node x)) as Hn.
    assert (Hi : forall b, keeps P (iterM (set_pair b) (map pl_node (List.filter (fun p => is_type "bibitempair" (pl_node p)) (named_children (pl_node x)))))).
    { intros b. assert (Hf : Forall (fun d => key_ok d /\ is_type "bibitempair" d = true) (map pl_node (List.filter (fun p => is_type "bibitempair" (pl_node p)) (named_children (pl_node x))))).
      { apply List.Forall_forall. intros d Hd. apply in_map_iff in Hd as (q & <- & Hq). apply filter_In in Hq as [Hq Ht]. split; [apply calm_key, Hn; assumption|exact Ht]. }
      induction Hf as [|d l [Hd1 Hd2] _ IH]; cbn [iterM]; [apply keeps_ret|]. apply keeps_bind; [|intros _; exact IH]. unfold set_pair.
      destruct (named_children d) as [|k [|w [|z r]]] eqn:E; try apply keeps_raise. apply p_py_setattr. eapply Hbib; eassumption. }
    ks. }
  destruct (_ || _).
  { unfold step_section. destruct (ast_type _) as [[k kw]|] eqn:E; [|ks]. pose proof (fun i => p_ingest i (pl_node x) Hc). apply keeps_bind; [apply Hnew; [apply (ast_class _ _ _ E)|apply Forall_app; split; [apply (Hast _ _ _ E)|apply span_ok]]|intros i]. ks. }
  destruct (type_in _ _).
  { eapply p_bind_calm; [apply p_nth|intros s s' a Ha; exact (nth_named_keeps_place _ _ _ _ _ Ha Hc)|]. intros f Hf.
    destruct (is_type "table" _); [ks|]. apply p_step_node; [apply calm_of, Hf|exact Hc]. }
  destruct (is_type "td" _). { ks. }
  destruct (is_type "paragraph" _).
  { eapply p_bind_calm; [apply p_nth|intros s s' a Ha; exact (nth_named_keeps_place _ _ _ _ _ Ha Hc)|]. intros f Hf.
    destruct (type_in _ _); (apply p_step_node; [apply calm_of; assumption|assumption]). }
  destruct (type_in _ _).
  { destruct (field_child _ _) as [g|] eqn:E; [|ks]. apply p_step_node; [apply calm_of|exact Hc]. eapply calm_child; [exact Hc|]. eapply field_in, E. }
  apply p_step_node; [apply calm_of, Hc|exact Hc].
Qed.
Lemma step_calm v p x s s' r : calm (pl_node x) -> step v p x s = (s', Ok r) -> calm_stack r.2.
Proof.
  intros Hc. assert (H0 : calm_stack []) by (intros e []).
  unfold step. destruct (is_type "comment" _); [intros H; apply ret_ok in H as [_ ->]; exact H0|].
  destruct (_ && _).
  { unfold step_bibliography. intros H. apply bind_ok in H as (? & ? & ? & H). destruct (ps_root v); [|discriminate H].
    apply bind_ok in H as (? & ? & ? & H). apply ret_ok in H as [_ ->]. exact H0. }
  destruct (is_type "bibtex" _).
  { unfold step_bibtex. destruct (ps_bib v); intros H; apply bind_ok in H as (? & ? & ? & H); apply ret_ok in H as [_ ->]; [|exact H0].
    cbn [snd]. apply under_calm. intros y Hy. apply filter_In in Hy as [Hy _]. eapply calm_named; eassumption. }
  destruct (is_type "bibitem" _).
  { unfold step_bibitem. intros H. repeat (apply bind_ok in H as (? & ? & ? & H)). destruct p; [|discriminate H].
    apply bind_ok in H as (? & ? & ? & H). apply ret_ok in H as [_ ->]. exact H0. }
  destruct (_ || _).
  { unfold step_section. destruct (ast_type _) as [[k kw]|]; intros H; [|discriminate H].
    repeat (apply bind_ok in H as (? & ? & ? & H)). apply ret_ok in H as [_ ->]. cbn [snd]. apply under_calm. intros y. apply pushed_calm, Hc. }
  assert (H1 : forall f, calm (pl_node f) -> calm_stack [(p, f)]) by (intros f Hf e [<-|[]]; exact Hf).
  destruct (type_in _ _).
  { intros H. apply bind_ok in H as (s1 & f & Hf & H). pose proof (nth_named_keeps_place _ _ _ _ _ Hf Hc) as Hcf. destruct (is_type "table" _).
    - apply ret_ok in H as [_ ->]. apply H1, Hcf.
    - eapply step_node_calm; [exact Hc|exact H]. }
  destruct (is_type "td" _).
  { intros H. apply bind_ok in H as (s1 & f & Hf & H). pose proof (nth_named_keeps_place _ _ _ _ _ Hf Hc) as Hcf. apply ret_ok in H as [_ ->]. apply H1, Hcf. }
  destruct (is_type "paragraph" _).
  { intros H. apply bind_ok in H as (s1 & f & Hf & H). pose proof (nth_named_keeps_place _ _ _ _ _ Hf Hc) as Hcf. destruct (type_in _ _);
    eapply step_node_calm; [exact Hcf|exact H|exact Hc|exact H]. }
  destruct (type_in _ _).
  { destruct (field_child _ _); intros H; [|discriminate H]. eapply step_node_calm; [exact Hc|exact H]. }
  apply step_node_calm, Hc.
Qed.
Lemma p_abs_loop : forall fuel v stk, calm_stack stk -> keeps P (abs_loop fuel v stk).
Proof.
  induction fuel as [|fuel IH]; intros v [|[p x] stk] Hs; cbn [abs_loop]; try apply keeps_ret; try apply keeps_raise.
  assert (Hx : calm (pl_node x)) by exact (Hs (p, x) (or_introl eq_refl)).
  eapply p_bind_calm; [apply p_step, Hx|intros s s' a Ha; exact (step_calm _ _ _ _ _ _ Hx Ha)|]. intros r Hr. apply IH.
  intros e He. apply in_app_iff in He as [He|He]; [apply Hr, He|apply Hs; right; exact He].
Qed.
Lemma p_normalize fuel r : keeps P (normalize_text fuel r).
Proof.
  unfold normalize_text. pose proof p_getattr. pose proof p_cls_of. pose proof p_get_str. pose proof p_inst. pose proof p_append. pose proof p_prepend.
  pose proof p_remove_self. pose proof p_replace_self. pose proof p_first. pose proof p_last. pose proof p_prev. pose proof p_next.
  assert (Ht : forall x, keeps P (new_node CText [(a_text, VStr x)])) by (intros x; apply Hnew; [reflexivity|constructor; [apply Hstr; cbn [In]; tauto|constructor]]).
  assert (Hu : forall i f, keeps P (update_text i f)) by (intros; unfold update_text; ks).
  assert (Hw : forall i f, keeps P (when_text i f)) by (intros; unfold when_text, is_text; ks).
  assert (Hm : forall l, keeps P (merge_run l)).
  { intros l. unfold merge_run. destruct l as [|x [|y l]]; try apply keeps_ret. apply keeps_bind; [ks|intros]. apply keeps_bind; [apply p_mapM; ks|intros]. ks. }
  destruct r as [r|]; [|ks]. unfold for_traverse. apply p_loop. intros acc i. unfold normalize_body.
  apply keeps_bind; [ks|intros]. apply keeps_bind; [apply p_mapM; intros; unfold is_text; ks|intros].
  apply keeps_bind; [ks|intros]. apply keeps_bind; [unfold strip_ends; ks|intros]. apply keeps_bind; [unfold strip_paragraph; ks|intros].
  apply keeps_bind; [unfold pad_construct; ks|intros]. apply keeps_bind; [unfold squeeze_children; ks|intros].
  apply keeps_bind; [unfold space_after; ks|intros]. unfold escape_node. ks.
Qed.
(** The loop and the whole. *)
Lemma p_both fuel c : calm c -> keeps P (parse fuel c) /\ keeps P (abs_loop fuel (MkPst None None) [(None, alone c)]).
Proof.
  intros Hc. assert (Hl : keeps P (abs_loop fuel (MkPst None None) [(None, alone c)])) by (apply p_abs_loop; intros e [<-|[]]; exact Hc). split; [|exact Hl].
  unfold parse, info. apply keeps_bind; [apply Hlog|intros _]. apply keeps_bind; [apply Hlog|intros _].
  apply keeps_bind; [|intros; ks]. assert (Ha : keeps P (abstractify fuel c)).
  { unfold abstractify. apply keeps_bind; [exact Hl|intros]. apply keeps_bind; [apply p_normalize|intros; ks]. }
  intros s Hs. specialize (Ha s Hs). unfold catch. destruct (abstractify fuel c s) as [s1 [a|e]]; [exact Ha|]. destruct e; exact Ha.
Qed.
Lemma p_parse fuel c : calm c -> keeps P (parse fuel c).
Proof. intros Hc. apply (p_both fuel c Hc). Qed.
End Keep.

Lemma parse_comparable fuel c : keeps all_comparable (parse fuel c).
Proof.
  apply p_parse with (errors := True) (okv := fun _ _ => True) (key_ok := fun _ => True); auto.
  - apply k_log.
  - intros. apply List.Forall_forall. auto.
  - intros. apply k_setattr.
  - apply comparable_set_parent.
  - apply comparable_set_children.
  - intros. apply k_alloc.
  - intros. apply k_alloc.
  - split; auto.
Qed.
Definition errorless (s : st) : Prop := forall i n, st_heap s !! i = Some n -> n_cls n <> CError.
Lemma errorless_mod i f : (forall n, n_cls (f n) = n_cls n) -> keeps errorless (mod_node i f).
Proof.
  intros Hf s Hs. unfold mod_node, bind, get_node. destruct (st_heap s !! i) as [n|] eqn:E; [|exact Hs]. cbn [fst put_node].
  intros j m Hj. change (st_heap (upd s i (f n)) !! j = Some m) in Hj. rewrite upd_lookup in Hj. destruct (decide (i = j)); [|eapply Hs, Hj].
  injection Hj as <-. rewrite Hf. eapply Hs, E.
Qed.
Lemma parse_errorless fuel c : (forall d, In d (c_preorder c) -> is_type "ERROR" d = false) -> keeps errorless (parse fuel c).
Proof.
  intros H. apply p_parse with (errors := False) (okv := fun _ _ => True) (key_ok := fun _ => True); auto.
  - intros r s Hs. exact Hs.
  - intros. apply List.Forall_forall. auto.
  - intros i a v _. apply errorless_mod. reflexivity.
  - intros i p. unfold set_parent. destruct p as [p|]; [|apply errorless_mod; reflexivity].
    assert (Hc : forall j, keeps errorless (cls_of j)) by (intros j; unfold cls_of; apply keeps_bind; [apply keeps_get_node|intros; apply keeps_ret]).
    apply keeps_bind; [apply Hc|intros k]. destruct (possible_parents k); [apply errorless_mod; reflexivity|].
    apply keeps_bind; [apply Hc|intros d]. destruct (cls_mem _ _); [apply errorless_mod; reflexivity|apply keeps_raise].
  - intros i cs. apply errorless_mod. reflexivity.
  - intros k kw Hk _ s Hs j m Hj. unfold new_node, alloc in Hj. cbn [fst] in Hj. change (st_heap (new s (mk_node k kw)) !! j = Some m) in Hj.
    rewrite new_lookup in Hj. destruct (decide _); [|eapply Hs, Hj]. injection Hj as <-. exact (made_no_error _ Hk).
  - intros [].
  - split; [right; exact H|auto].
Qed.
Lemma empty_good : good empty_st.
Proof.
  assert (H : forall i n, st_heap empty_st !! i = Some n -> False).
  { intros i n Hi. cbn [st_heap empty_st] in Hi. rewrite lookup_empty in Hi. discriminate Hi. }
  split; [intros i n Hi; destruct (H _ _ Hi)|]. split.
  - intros x p. split; intros (n & Hn & _); destruct (H _ _ Hn).
  - intros p n Hn. destruct (H _ _ Hn).
  - intros x Hx. destruct Hx as [? ? (n & Hn & _)|? ? ? (n & Hn & _)]; destruct (H _ _ Hn).
Qed.
Lemma parsed_manuscript fuel c s s' r : source c -> good s -> parse fuel c s = (s', Ok r) ->
  exists t, root t = r /\ manuscript s' t /\ SpecParse.holds (st_heap s') None t (sourced c (norm (mirrored c))).
Proof.
  intros Hc Hg H. destruct (parse_ok _ _ _ _ _ Hc Hg H) as (us & [Hf Hcons] & Hh & _). exists (T r us). split; [reflexivity|]. split; [|exact Hh].
  pose proof (holds_tree_at _ _ _ _ Hh) as Ht. split; [assumption|assumption|]. split; [assumption|]. eapply tree_at_nodup; eassumption.
Qed.
Lemma parsed_ready fuel c s' r : source c -> (forall d, In d (c_preorder c) -> is_type "ERROR" d = false) -> parse fuel c empty_st = (s', Ok r) ->
  exists t, root t = r /\ SpecResult.ready s' t /\ SpecParse.holds (st_heap s') None t (sourced c (norm (mirrored c))).
Proof.
  intros Hc He H. destruct (parsed_manuscript _ _ _ _ _ Hc empty_good H) as (t & Hr & Hm & Hh). exists t. split; [assumption|]. split; [|assumption].
  split; [assumption|]. split.
  - assert (H0 : all_comparable empty_st) by (intros i n Hi; cbn [st_heap empty_st] in Hi; rewrite lookup_empty in Hi; discriminate Hi).
    pose proof (parse_comparable fuel c empty_st H0) as Hk. rewrite H in Hk. exact Hk.
  - assert (H0 : errorless empty_st) by (intros i n Hi; cbn [st_heap empty_st] in Hi; rewrite lookup_empty in Hi; discriminate Hi).
    pose proof (parse_errorless fuel c He empty_st H0) as Hk. rewrite H in Hk. intros x Hx (n & Hn & Hcl). destruct (Hk x n Hn). exact Hcl.
Qed.
