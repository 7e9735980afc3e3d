(** From documents without markup characters the translators write tags and texts that can be
    read back. *)
From Verif Require Export ReadBack Handrails.
From Verif Require Import TrFrame TrLeave.
From Verif Require Import NodeOps Monad.
Local Open Scope string_scope.
Local Open Scope list_scope.

(** ** Strings *)

Lemma lacks_in c s : lacks c s = true <-> ~ In c s.
Proof.
  unfold lacks. rewrite forallb_forall. split.
  - intros H Hc. specialize (H c Hc). rewrite N.eqb_refl in H. discriminate H.
  - intros H d Hd. apply negb_true_iff, N.eqb_neq. intros ->. contradiction.
Qed.
Lemma lacks_join c sep l : lacks c sep = true -> forallb (lacks c) l = true -> lacks c (join sep l) = true.
Proof.
  intros Hs. induction l as [|x l IH]; [reflexivity|]. cbn [forallb]. intros H. apply andb_true_iff in H as [Hx Hl].
  destruct l as [|y l]; [exact Hx|]. change (join sep (x :: y :: l)) with (x ++ sep ++ join sep (y :: l)).
  rewrite !lacks_app, Hx, Hs, IH by assumption. reflexivity.
Qed.
Lemma in_join x sep l c : In x l -> In c x -> In c (join sep l).
Proof.
  induction l as [|y l IH]; [contradiction|]. intros [->|Hx] Hc.
  - destruct l; cbn; [assumption|]. apply in_or_app. left. assumption.
  - destruct l as [|z l]; [contradiction|]. change (join sep (y :: z :: l)) with (y ++ sep ++ join sep (z :: l)).
    apply in_or_app. right. apply in_or_app. right. apply IH; assumption.
Qed.
Lemma lacks_strs c l : lacks c (fmt_val (VStrs l)) = true -> forallb (lacks c) l = true.
Proof.
  intros H. apply forallb_forall. intros x Hx. apply lacks_in. intros Hc. apply lacks_in in H. apply H. cbn [fmt_val]. unfold repr_strs.
  apply in_or_app. right. apply in_or_app. left. eapply in_join; [apply in_map, Hx|]. cbn beta. apply in_or_app. right. apply in_or_app. left. assumption.
Qed.
Lemma strs_lacks c l : lacks c (lit "[', ]") = true -> forallb (lacks c) l = true -> lacks c (fmt_val (VStrs l)) = true.
Proof.
  intros Hc H. cbn [fmt_val]. unfold repr_strs.
  assert (E : lacks c (lit "[") = true /\ lacks c (lit "'") = true /\ lacks c (lit ", ") = true /\ lacks c (lit "]") = true).
  { change (lit "[', ]") with (lit "[" ++ lit "'" ++ lit ", " ++ lit "]") in Hc. rewrite !lacks_app in Hc.
    apply andb_true_iff in Hc as [? Hc]. apply andb_true_iff in Hc as [? Hc]. apply andb_true_iff in Hc as [? Hc]. auto. }
  destruct E as (E1 & E2 & E3 & E4). rewrite !lacks_app, E1, E4, lacks_join; [reflexivity|assumption|].
  apply forallb_forall. intros x Hx. apply in_map_iff in Hx as (y & <- & Hy). rewrite forallb_forall in H. rewrite !lacks_app, E2, H by assumption. reflexivity.
Qed.
Lemma lacks_incl c a b : incl a b -> lacks c b = true -> lacks c a = true.
Proof. intros Hi H. apply lacks_in. apply lacks_in in H. auto. Qed.
Lemma lacks_rev c s : lacks c s = true -> lacks c (rev s) = true.
Proof. apply lacks_incl. intros x Hx. apply in_rev. assumption. Qed.
Lemma all_incl c a b : incl a b -> forallb (lacks c) b = true -> forallb (lacks c) a = true.
Proof. rewrite !forallb_forall. auto. Qed.
Lemma dedup_go_incl l : forall seen, incl (dedup_go seen l) l.
Proof.
  induction l as [|x l IH]; intros seen; [apply incl_refl|]. cbn. destruct (str_mem x seen); [apply incl_tl, IH|].
  apply incl_cons; [left; reflexivity|apply incl_tl, IH].
Qed.
Lemma lacks_uint c u : is_digit c = false -> lacks c (uint_str u) = true.
Proof.
  intros H. apply lacks_in. intros Hc. unfold is_digit in H. revert Hc. induction u; cbn; intros Hc; try contradiction;
    destruct Hc as [<-|Hc]; try discriminate H; auto.
Qed.
Lemma lacks_nat c n : is_digit c = false -> lacks c (str_of_nat n) = true.
Proof. intros H. apply lacks_uint, H. Qed.
Lemma lacks_Z c z : is_digit c = false -> c <> 45%N -> lacks c (str_of_Z z) = true.
Proof.
  intros H Hc. destruct z; try (apply lacks_uint, H). change (negb (45 =? c)%N && lacks c (uint_str (N.to_uint (Npos p))) = true).
  rewrite lacks_uint by assumption. destruct (N.eqb_spec 45 c); [congruence|reflexivity].
Qed.
Lemma lstrip_incl p s : incl (lstrip_by p s) s.
Proof. induction s as [|c s IH]; cbn; [apply incl_refl|]. destruct (p c); [apply incl_tl, IH|apply incl_refl]. Qed.
Lemma strip_incl p s : incl (strip_by p s) s.
Proof.
  intros x Hx. apply lstrip_incl in Hx. unfold rstrip_by in Hx. apply in_rev in Hx. apply lstrip_incl in Hx. apply in_rev in Hx. assumption.
Qed.
Lemma fmt_field_lacks c s : forall acc name rest, fmt_field s acc = Some (name, rest) -> lacks c s = true -> lacks c rest = true.
Proof.
  induction s as [|d s IH]; intros acc name rest H Hs; [discriminate H|]. cbn in H, Hs. apply andb_true_iff in Hs as [_ Hs].
  destruct (d =? 125)%N; [injection H as _ <-; assumption|]. eapply IH; eassumption.
Qed.
Lemma fmt_go_lacks c fuel : forall k n s out r, lacks c k = true -> lacks c n = true -> lacks c s = true -> lacks c out = true ->
  fmt_go fuel k n s out = FmtOk r -> lacks c r = true.
Proof.
  induction fuel as [|fuel IH]; intros k n s out r Hk Hn Hs Ho H; [discriminate H|]. cbn [fmt_go] in H.
  destruct s as [|d s]; [injection H as <-; apply lacks_rev; assumption|]. cbn in Hs. apply andb_true_iff in Hs as [Hd Hs].
  assert (G : forall u, lacks c u = true -> lacks c (d :: u) = true) by (intros u Hu; cbn; rewrite Hd; exact Hu).
  destruct (d =? 123)%N eqn:E1.
  - apply N.eqb_eq in E1 as ->. destruct s as [|e s]; [discriminate H|].
    destruct (e =? 123)%N.
    + eapply IH; [exact Hk|exact Hn| |apply G; exact Ho|exact H]. cbn in Hs. apply andb_true_iff in Hs. apply Hs.
    + destruct (fmt_field (e :: s) []) as [[name rest]|] eqn:E; [|discriminate H]. pose proof (fmt_field_lacks c _ _ _ _ E Hs) as Hr.
      destruct (str_eqb name (lit "nodeclass")); [|destruct (str_eqb name (lit "number"))].
      * eapply IH; [exact Hk|exact Hn|exact Hr| |exact H]. rewrite lacks_app, lacks_rev by assumption. exact Ho.
      * eapply IH; [exact Hk|exact Hn|exact Hr| |exact H]. rewrite lacks_app, lacks_rev by assumption. exact Ho.
      * destruct name as [|x name]; [discriminate H|]. destruct (forallb is_digit (x :: name)); [discriminate H|].
        revert H. match goal with |- (if ?b then _ else _) = _ -> _ => destruct b end; intros H; discriminate H.
  - destruct (d =? 125)%N eqn:E2.
    + apply N.eqb_eq in E2 as ->. destruct s as [|e s]; [discriminate H|]. destruct (e =? 125)%N; [|discriminate H].
      eapply IH; [exact Hk|exact Hn| |apply G; exact Ho|exact H]. cbn in Hs. apply andb_true_iff in Hs. apply Hs.
    + eapply IH; [exact Hk|exact Hn|exact Hs|apply G; exact Ho|exact H].
Qed.
Lemma format_lacks c t k n r : lacks c t = true -> lacks c k = true -> lacks c n = true -> py_format t k n = FmtOk r -> lacks c r = true.
Proof. intros Ht Hk Hn H. unfold py_format in H. eapply fmt_go_lacks; [exact Hk|exact Hn|exact Ht| |exact H]. reflexivity. Qed.
Lemma names_lack c : lacks LT (cls_name c) = true /\ lacks QUOTE (cls_name c) = true.
Proof. destruct c; split; reflexivity. Qed.
Lemma lower_names_lack c : lacks LT (lower (cls_name c)) = true /\ lacks QUOTE (lower (cls_name c)) = true.
Proof. destruct c; split; reflexivity. Qed.
Lemma capital_names_lack c : lacks LT (capitalize (lower (cls_name c))) = true.
Proof. destruct c; reflexivity. Qed.

(** ** Tokens and commands *)

Lemma all_cons {X} (p : X -> bool) x l : p x = true -> forallb p l = true -> forallb p (x :: l) = true.
Proof. intros H1 H2. cbn [forallb]. rewrite H1. exact H2. Qed.
Definition toks (ts : list tok) : bool := forallb clean_tok ts.
Lemma toks_app a b : toks (a ++ b) = toks a && toks b. Proof. apply forallb_app. Qed.
Definition clean_tag (g : tagspec) : bool :=
  tag_name (tg_tag g) && lacks QUOTE (tg_id g) && forallb (lacks QUOTE) (tg_classes g) && match tg_nodeid g with Some k => lacks QUOTE k | None => true end.
Fixpoint clean_cmd (c : cmd) : bool :=
  match c with
  | KText t => toks t
  | KTextDefer t d => toks t && toks d
  | KOpenClose g t | KOpenManual g t => clean_tag g && toks t
  | KOpen g => clean_tag g
  | KExternal _ => true
  | KBatchDefer l | KBatch l => forallb clean_cmd l
  end.
Lemma make_tag_clean tag i cl sel k kw : tag_name tag = true -> lacks QUOTE i = true -> forallb (lacks QUOTE) cl = true ->
  match k with Some x => lacks QUOTE x | None => true end = true -> forallb (fun p => word p.1 && lacks QUOTE p.2) kw = true ->
  clean_tok (make_tag tag i cl sel k kw) = true.
Proof.
  intros H1 H2 H3 H4 H5. unfold make_tag. cbn [clean_tok]. rewrite H1, !forallb_app. cbn [andb].
  assert (forallb clean_attrib (match i with [] => [] | _ => [AQ (lit "id") i] end) = true) as -> by (destruct i; [reflexivity|cbn [forallb clean_attrib]; rewrite H2; reflexivity]).
  assert (forallb clean_attrib (match cl with [] => [] | _ => [AQ (lit "class") (join (lit " ") cl)] end) = true) as ->.
  { destruct cl; [reflexivity|]. cbn [forallb clean_attrib]. rewrite lacks_join; [reflexivity|reflexivity|assumption]. }
  assert (forallb clean_attrib (flat_map (fun p => match p.2 with [] => [] | _ => [AQ p.1 p.2] end) kw) = true) as ->.
  { induction kw as [|[a b] kw IH]; [reflexivity|]. cbn [forallb] in H5. apply andb_true_iff in H5 as [H5 H6]. cbn [flat_map]. rewrite forallb_app, IH by assumption.
    destruct b; [reflexivity|]. cbn [forallb clean_attrib fst snd] in *. rewrite H5. reflexivity. }
  destruct sel, k; cbn [forallb clean_attrib]; rewrite ?H4; reflexivity.
Qed.
Lemma clean_tag_mk t i c a b s k : tag_name t = true -> lacks QUOTE i = true -> forallb (lacks QUOTE) c = true ->
  match k with Some x => lacks QUOTE x | None => true end = true -> clean_tag (MkTag t i c a b s k) = true.
Proof. intros H1 H2 H3 H4. unfold clean_tag. cbn [tg_tag tg_id tg_classes tg_nodeid]. rewrite H1, H2, H3. exact H4. Qed.
Lemma start_clean g : clean_tag g = true -> clean_tok (start_tag g) = true.
Proof.
  unfold clean_tag. rewrite !andb_true_iff. intros [[[H1 H2] H3] H4]. apply make_tag_clean; auto.
Qed.
Lemma nl_clean b : toks (nl_if b) = true. Proof. destruct b; reflexivity. Qed.
Lemma close_clean g : clean_tag g = true -> toks (close_text g) = true.
Proof.
  unfold clean_tag. rewrite !andb_true_iff. intros [[[H1 H2] H3] H4]. unfold close_text. rewrite !toks_app, !nl_clean. cbn [toks forallb clean_tok]. rewrite H1. reflexivity.
Qed.
Lemma deferred_clean c d : clean_cmd c = true -> deferred_text c = Some d -> toks d = true.
Proof.
  destruct c; cbn; intros H E; try discriminate E; injection E as <-; [apply andb_true_iff in H; apply H|apply close_clean, H].
Qed.
Definition clean_tst (u : tst) : Prop := toks (body u) = true /\ forallb clean_cmd (deferred u) = true.

(** ** Computations *)

Section Plain.
Context (hl : str -> str -> str) (src : bool).
Notation PH s := (plain_heap hl src (st_heap s)).
Definition pl {X} (m : M X) (Q : X -> Prop) : Prop := forall s s' r, PH s -> m s = (s', Ok r) -> PH s' /\ Q r.
Definition any {X} (_ : X) : Prop := True.
Lemma pl_ret {X} (x : X) (Q : X -> Prop) : Q x -> pl (ret x) Q.
Proof. intros H s s' r Hs E. apply ret_ok in E as [-> ->]. auto. Qed.
Lemma pl_raise {X} e (Q : X -> Prop) : pl (raise e) Q.
Proof. intros s s' r Hs E. discriminate E. Qed.
Lemma pl_bind {X Y} (m : M X) (k : X -> M Y) (P : X -> Prop) Q : pl m P -> (forall x, P x -> pl (k x) Q) -> pl (bind m k) Q.
Proof. intros H1 H2 s s' r Hs E. apply bind_ok in E as (s1 & x & E1 & E2). apply H1 in E1 as [Hs1 Hx]; [|assumption]. eapply H2; eassumption. Qed.
Lemma pl_weaken {X} (m : M X) (P Q : X -> Prop) : pl m P -> (forall x, P x -> Q x) -> pl m Q.
Proof. intros H1 H2 s s' r Hs E. apply H1 in E as [? ?]; auto. Qed.
Local Notation plain_node := (plain_node hl src).
Lemma pl_get_node i : pl (get_node i) plain_node.
Proof.
  intros s s' r Hs E. unfold get_node in E. destruct (st_heap s !! i) eqn:Ei; [|discriminate E]. injection E as <- <-. split; [assumption|].
  eapply Hs; eassumption.
Qed.
Lemma pl_put_node i n : plain_node n -> pl (put_node i n) any.
Proof.
  intros Hn s s' r Hs E. unfold put_node in E. injection E as <- _. split; [|exact I]. intros x m Hx. cbn in Hx.
  destruct (decide (i = x)) as [->|Hne]; [rewrite lookup_insert in Hx; injection Hx as <-; exact Hn|].
  rewrite lookup_insert_ne in Hx by assumption. eapply Hs; eassumption.
Qed.
Lemma pl_mod_node i f : (forall n, plain_node n -> plain_node (f n)) -> pl (mod_node i f) any.
Proof. intros Hf. eapply pl_bind; [apply pl_get_node|]. intros n Hn. apply pl_put_node, Hf, Hn. Qed.
Lemma pl_alloc n : plain_node n -> pl (alloc n) any.
Proof.
  intros Hn s s' r Hs E. unfold alloc in E. injection E as <- _. split; [|exact I]. intros x m Hx. cbn in Hx.
  destruct (decide (st_next s = x)) as [<-|Hne]; [rewrite lookup_insert in Hx; injection Hx as <-; exact Hn|].
  rewrite lookup_insert_ne in Hx by assumption. eapply Hs; eassumption.
Qed.
Lemma pl_log r : pl (log_rec r) any.
Proof. intros s s' x Hs E. unfold log_rec in E. injection E as <- _. split; [assumption|exact I]. Qed.
Lemma pl_mapM {X Y} (f : X -> M Y) Q l : (forall x, pl (f x) Q) -> pl (mapM f l) (Forall Q).
Proof.
  intros Hf. induction l; cbn [mapM]; [apply pl_ret; constructor|]. eapply pl_bind; [apply Hf|]. intros b Hb.
  eapply pl_bind; [exact IHl|]. intros bs Hbs. apply pl_ret. constructor; assumption.
Qed.
Lemma pl_iterM {X} (f : X -> M unit) l : (forall x, pl (f x) any) -> pl (iterM f l) any.
Proof. intros Hf. induction l; cbn [iterM]; [apply pl_ret; exact I|]. eapply pl_bind; [apply Hf|]. intros _ _. exact IHl. Qed.
Lemma pl_getattr i a : pl (getattr i a) (plain_attr hl src a).
Proof.
  unfold getattr. eapply pl_bind; [apply pl_get_node|]. intros n Hn. destruct (n_attrs n !! a) eqn:E; [apply pl_ret, (pn_attr _ _ _ Hn), E|apply pl_raise].
Qed.
Lemma pl_setattr i a v : plain_attr hl src a v -> a <> a_number -> pl (setattr i a v) any.
Proof.
  intros Hv Ha. apply pl_mod_node. intros n Hn. split; unfold set_n_attr; cbn [n_attrs n_cls].
  - intros b w Hb. destruct (decide (a = b)) as [->|Hne]; [rewrite lookup_insert in Hb; injection Hb as <-; assumption|].
    rewrite lookup_insert_ne in Hb by assumption. apply (pn_attr _ _ _ Hn), Hb.
  - intros w Hc Hb. rewrite lookup_insert_ne in Hb by assumption. apply (pn_number _ _ _ Hn _ Hc Hb).
Qed.
Lemma pl_get_str i a : pl (get_str i a) (fun u => plain_attr hl src a (VStr u)).
Proof. unfold get_str. eapply pl_bind; [apply pl_getattr|]. intros v Hv. destruct v; try apply pl_raise. apply pl_ret. assumption. Qed.
Lemma pl_get_strs i a : pl (get_strs i a) (fun u => plain_attr hl src a (VStrs u)).
Proof. unfold get_strs. eapply pl_bind; [apply pl_getattr|]. intros v Hv. destruct v; try apply pl_raise. apply pl_ret. assumption. Qed.
Lemma pl_get_int i a : pl (get_int i a) any.
Proof. unfold get_int. eapply pl_bind; [apply pl_getattr|]. intros v Hv. destruct v; try apply pl_raise. apply pl_ret. exact I. Qed.
Lemma pl_cls_of i : pl (cls_of i) any.
Proof. eapply pl_bind; [apply pl_get_node|]. intros. apply pl_ret. exact I. Qed.
Lemma pl_children_of i : pl (children_of i) any.
Proof. eapply pl_bind; [apply pl_get_node|]. intros. apply pl_ret. exact I. Qed.
Lemma pl_parent_of i : pl (parent_of i) any.
Proof. eapply pl_bind; [apply pl_get_node|]. intros. apply pl_ret. exact I. Qed.
Lemma pl_inst ds i : pl (inst ds i) any.
Proof. eapply pl_bind; [apply pl_cls_of|]. intros. apply pl_ret. exact I. Qed.
Lemma pl_raw_children i : pl (raw_children i) any.
Proof. unfold raw_children. eapply pl_bind; [apply pl_get_node|]. intros. destruct (has_children _); [apply pl_ret; exact I|apply pl_raise]. Qed.
Lemma pl_set_raw_children i l : pl (set_raw_children i l) any.
Proof. apply pl_mod_node. intros n [H1 H2]. split; assumption. Qed.
Ltac pstep0 :=
  match goal with
  | |- pl (bind (getattr _ _) _) _ => eapply pl_bind; [apply pl_getattr|intros ? ?]
  | |- pl (bind (get_str _ _) _) _ => eapply pl_bind; [apply pl_get_str|intros ? ?]
  | |- pl (bind (get_strs _ _) _) _ => eapply pl_bind; [apply pl_get_strs|intros ? ?]
  | |- pl (bind (get_int _ _) _) _ => eapply pl_bind; [apply pl_get_int|intros ? _]
  | |- pl (bind (cls_of _) _) _ => eapply pl_bind; [apply pl_cls_of|intros ? _]
  | |- pl (bind (children_of _) _) _ => eapply pl_bind; [apply pl_children_of|intros ? _]
  | |- pl (bind (parent_of _) _) _ => eapply pl_bind; [apply pl_parent_of|intros ? _]
  | |- pl (bind (inst _ _) _) _ => eapply pl_bind; [apply pl_inst|intros ? _]
  | |- pl (bind (raw_children _) _) _ => eapply pl_bind; [apply pl_raw_children|intros ? _]
  | |- pl (bind (set_raw_children _ _) _) _ => eapply pl_bind; [apply pl_set_raw_children|intros ? _]
  | |- pl (bind (get_node _) _) _ => eapply pl_bind; [apply pl_get_node|intros ? ?]
  | |- pl (bind (warn _ _) _) _ => eapply pl_bind; [apply pl_log|intros ? _]
  | |- pl (raise _) _ => apply pl_raise
  | |- pl (match ?x with _ => _ end) _ => destruct x
  | |- pl (if ?x then _ else _) _ => destruct x
  | |- pl (ret _) any => apply pl_ret; exact I
  | |- pl (ret _) (fun _ => True) => apply pl_ret; exact I
  end.
Ltac pq := repeat pstep0.
Lemma pl_first_inst d l : pl (first_inst d l) any.
Proof. induction l; cbn [first_inst]; pq. assumption. Qed.
Lemma pl_next_sibling i a : pl (next_sibling i a) any.
Proof. unfold next_sibling. pq; try apply pl_first_inst; try (apply pl_ret; exact I). Qed.
Lemma pl_set_parent i p : pl (set_parent i p) any.
Proof. unfold set_parent. pq; apply pl_mod_node; intros ? [? ?]; split; assumption. Qed.
Lemma pl_append p l : pl (append p l) any.
Proof. unfold append. apply pl_iterM. intros x. unfold append1. pq. apply pl_set_parent. Qed.
Lemma pl_first_of_type_go ds l : forall k, pl (first_of_type_go ds l k) any.
Proof. induction l; intros k; cbn [first_of_type_go]; pq; auto. Qed.
Lemma pl_first_of_type i ds : pl (first_of_type i ds) any.
Proof. unfold first_of_type. pq. apply pl_first_of_type_go. Qed.
Lemma pl_last_of_type i ds : pl (last_of_type i ds) any.
Proof. unfold last_of_type. eapply pl_bind; [apply pl_children_of|intros cs _]. eapply pl_bind; [apply pl_first_of_type_go|intros r _]. pq. Qed.
Lemma pl_anc_loop ds fuel : forall cur, pl (anc_loop fuel ds cur) any.
Proof. induction fuel; intros [q|]; cbn [anc_loop]; pq; auto. Qed.
Lemma pl_first_ancestor f i ds : pl (first_ancestor_of_type f i ds) any.
Proof. unfold first_ancestor_of_type. pq. apply pl_anc_loop. Qed.
Lemma pl_trav {X} cond (b : X -> id -> M X) fuel : (forall a i, pl (b a i) any) -> forall a st, pl (trav_loop fuel cond b a st) any.
Proof.
  intros Hb. induction fuel; intros a [|i l]; cbn [trav_loop]; try (apply pl_ret; exact I); try apply pl_raise.
  pstep0. eapply (pl_bind _ _ any); [destruct (cond _); [apply Hb|apply pl_ret; exact I]|intros ? _]. pstep0. apply IHfuel.
Qed.
Lemma pl_traverse f cond i : pl (traverse f cond i) any.
Proof. unfold traverse, for_traverse. eapply (pl_bind _ _ any); [apply pl_trav; intros; apply pl_ret; exact I|intros ? _]. apply pl_ret. exact I. Qed.

(** *** What is known of attributes *)

Lemma text_of_attr a v : plain_attr hl src a v -> bool_decide (a ∈ text_attrs false) = true -> lacks LT (fmt_val v) = true.
Proof. intros H E. apply bool_decide_eq_true in E. apply (pa_text _ _ _ _ H). unfold text_attrs in *. apply elem_of_app in E as [E|E]; [apply elem_of_app; auto|inversion E]. Qed.
Lemma quoted_of_attr a v : plain_attr hl src a v -> bool_decide (a ∈ quoted_attrs) = true -> lacks QUOTE (fmt_val v) = true.
Proof. intros H E. apply bool_decide_eq_true in E. apply (pa_quoted _ _ _ _ H E). Qed.
Lemma text_or_empty a v : plain_attr hl src a v -> bool_decide (a ∈ text_attrs false) = true -> lacks LT (str_or_empty v) = true.
Proof. intros H E. unfold str_or_empty. destruct (truthy v); [eapply text_of_attr; eassumption|reflexivity]. Qed.
Lemma quoted_or_empty a v : plain_attr hl src a v -> bool_decide (a ∈ quoted_attrs) = true -> lacks QUOTE (str_or_empty v) = true.
Proof. intros H E. unfold str_or_empty. destruct (truthy v); [eapply quoted_of_attr; eassumption|reflexivity]. Qed.
Lemma text_strs a l : plain_attr hl src a (VStrs l) -> bool_decide (a ∈ text_attrs false) = true -> forallb (lacks LT) l = true.
Proof. intros H E. apply lacks_strs. eapply text_of_attr; eassumption. Qed.
Lemma quoted_strs a l : plain_attr hl src a (VStrs l) -> bool_decide (a ∈ quoted_attrs) = true -> forallb (lacks QUOTE) l = true.
Proof. intros H E. apply lacks_strs. eapply quoted_of_attr; eassumption. Qed.
Lemma types_plain l : forallb (lacks LT) l = true -> forallb (lacks QUOTE) l = true -> plain_attr hl src a_types (VStrs l).
Proof.
  intros H1 H2. split; intros; try discriminate; apply strs_lacks; (reflexivity || assumption).
Qed.
Lemma flag_plain a b : (a = a_must_close_p_tag \/ a = a_followed_by_dot) -> plain_attr hl src a (VBool b).
Proof.
  intros Ha. destruct Ha; subst; split; intros; try discriminate; destruct b; reflexivity.
Qed.
Lemma text_plain u : harmless u = true -> plain_attr hl src a_text (VStr u).
Proof.
  intros H. split; intros; try discriminate; try congruence; exfalso.
  - match goal with K : _ ∈ _ |- _ => revert K end. unfold text_attrs. destruct src; cbn [app]; apply (bool_decide_eq_false_1 (a_text ∈ _)); reflexivity.
  - match goal with K : _ ∈ _ |- _ => revert K end. apply (bool_decide_eq_false_1 (a_text ∈ quoted_attrs)); reflexivity.
Qed.
Definition simple_attr (p : attr * val) : bool :=
  lacks LT (fmt_val p.2) && lacks QUOTE (fmt_val p.2) && negb (bool_decide (p.1 = a_lang) && truthy p.2).
Lemma simple_plain a v : simple_attr (a, v) = true -> plain_attr hl src a v.
Proof.
  unfold simple_attr. cbn [fst snd]. rewrite !andb_true_iff, negb_true_iff. intros [[H1 H2] H3]. split; intros; subst; auto.
  - apply lacks_harmless. exact H1.
  - rewrite bool_decide_eq_true_2 in H3 by reflexivity. cbn in H3. congruence.
Qed.
Definition plain_pair (p : attr * val) : Prop := plain_attr hl src p.1 p.2 /\ (p.1 = a_number -> lacks QUOTE (fmt_val p.2) = true).
Lemma mk_plain c kw : forallb simple_attr (default_attrs c) = true -> Forall plain_pair kw -> plain_node (mk_node c kw).
Proof.
  intros H1 H2. unfold mk_node, mk_attrs.
  assert (H3 : Forall plain_pair (default_attrs c ++ kw)).
  { apply Forall_app. split; [|assumption]. rewrite forallb_forall in H1. apply list.Forall_forall. intros [b w] Hb.
    apply elem_of_list_In, H1 in Hb. split; [apply simple_plain, Hb|]. intros _. cbn [snd]. unfold simple_attr in Hb. apply andb_true_iff in Hb as [Hb _]. apply andb_true_iff in Hb as [_ Hb]. exact Hb. }
  assert (G : forall l (m : gmap attr val), Forall plain_pair l -> (forall a v, m !! a = Some v -> plain_pair (a, v)) ->
     forall a v, fold_left (fun m (p : attr * val) => <[p.1 := p.2]> m) l m !! a = Some v -> plain_pair (a, v)).
  { clear. induction l as [|[b w] l IH]; intros m Hl Hm; [exact Hm|]. apply list.Forall_cons in Hl as [Hb Hl]. apply IH; [assumption|].
    intros a v. cbn. destruct (decide (b = a)) as [->|Hne]; [rewrite lookup_insert; intros [= <-]; assumption|].
    rewrite lookup_insert_ne by assumption. apply Hm. }
  assert (K : forall a v, n_attrs (MkNode c None [] (fold_left (fun m (p : attr * val) => <[p.1 := p.2]> m) (default_attrs c ++ kw) ∅)) !! a = Some v -> plain_pair (a, v)).
  { apply (G _ ∅ H3). intros b w Hb. rewrite lookup_empty in Hb. discriminate Hb. }
  split; [intros a v Hv; apply (K a v Hv)|intros v _ Hv; apply (K a_number v Hv); reflexivity].
Qed.
Lemma pl_new_node c kw : forallb simple_attr (default_attrs c) = true -> Forall plain_pair kw -> pl (new_node c kw) any.
Proof. intros H1 H2. apply pl_alloc, mk_plain; assumption. Qed.

Definition both (x : str) : Prop := lacks LT x = true /\ lacks QUOTE x = true.
Lemma lt_of x : both x -> lacks LT x = true. Proof. intros [H _]; exact H. Qed.
Lemma quote_of x : both x -> lacks QUOTE x = true. Proof. intros [_ H]; exact H. Qed.
Ltac lk1 :=
  match goal with
  | |- true = true => reflexivity
  | H : ?x |- ?x => exact H
  | |- both _ => split
  | |- (_ && _)%bool = true => apply andb_true_iff; split
  | |- lacks _ (_ ++ _) = true => rewrite lacks_app; apply andb_true_iff; split
  | |- lacks _ (lit _) = true => reflexivity
  | |- lacks _ [] = true => reflexivity
  | |- lacks _ (_ :: _) = true => reflexivity
  | |- lacks _ (str_of_nat _) = true => apply lacks_nat; reflexivity
  | |- lacks LT (cls_name _) = true => apply names_lack
  | |- lacks QUOTE (cls_name _) = true => apply names_lack
  | |- lacks LT (name_lower _) = true => apply lower_names_lack
  | |- lacks QUOTE (name_lower _) = true => apply lower_names_lack
  | |- lacks LT (capitalize (name_lower _)) = true => apply capital_names_lack
  | H : plain_attr _ _ _ ?v |- lacks LT (fmt_val ?v) = true => apply (text_of_attr _ _ H); reflexivity
  | H : plain_attr _ _ _ ?v |- lacks QUOTE (fmt_val ?v) = true => apply (quoted_of_attr _ _ H); reflexivity
  | H : plain_attr _ _ _ ?v |- lacks LT (str_or_empty ?v) = true => apply (text_or_empty _ _ H); reflexivity
  | H : plain_attr _ _ _ ?v |- lacks QUOTE (str_or_empty ?v) = true => apply (quoted_or_empty _ _ H); reflexivity
  | H : plain_attr _ _ _ (VStr ?v) |- lacks LT ?v = true => apply (text_of_attr _ _ H); reflexivity
  | H : plain_attr _ _ _ (VStrs ?v) |- forallb (lacks LT) ?v = true => apply (text_strs _ _ H); reflexivity
  | H : plain_attr _ _ _ (VStrs ?v) |- forallb (lacks QUOTE) ?v = true => apply (quoted_strs _ _ H); reflexivity
  | H : both ?x |- lacks LT ?x = true => apply (lt_of _ H)
  | H : both ?x |- lacks QUOTE ?x = true => apply (quote_of _ H)
  | |- lacks _ (match ?f with Some y => y | None => lit "None" end) = true => change (match f with Some y => y | None => lit "None" end) with (fmt_opt f)
  | |- lacks _ (join _ _) = true => apply lacks_join
  | |- forallb _ (_ ++ _) = true => rewrite forallb_app; apply andb_true_iff; split
  | |- forallb _ (_ :: _) = true => apply all_cons
  | |- forallb _ [] = true => reflexivity
  | |- forallb (lacks _) (dedup _) = true => eapply all_incl; [apply dedup_go_incl|]
  | |- toks (_ ++ _) = true => rewrite toks_app; apply andb_true_iff; split
  | |- toks (_ :: _) = true => apply all_cons
  | |- toks [] = true => reflexivity
  | |- forallb clean_tok ?l = true => change (toks l = true)
  | |- clean_tok (make_tag _ _ _ _ _ _) = true => apply make_tag_clean
  | |- clean_tok (TRaw _) = true => cbn [clean_tok]
  | |- clean_tok (TText _ _) = true => cbn [clean_tok]
  | |- clean_tok (raw _) = true => reflexivity
  | |- clean_tok (ctag _) = true => reflexivity
  | |- clean_tok (otag _ _) = true => reflexivity
  | |- clean_tok nl = true => reflexivity
  | |- clean_cmd (open_close _ _ _ _ _) = true => unfold open_close
  | |- clean_cmd (open_manual _ _ _ _) = true => unfold open_manual
  | |- clean_cmd (open_tag _ _ _ _) = true => unfold open_tag
  | |- clean_cmd (par _ _) = true => unfold par
  | |- clean_cmd (heading _ _) = true => unfold heading
  | |- clean_cmd halmos = true => reflexivity
  | |- clean_cmd (KText ?t) = true => change (toks t = true)
  | |- clean_cmd (KTextDefer ?t ?d) = true => change ((toks t && toks d)%bool = true)
  | |- clean_cmd (KOpenClose ?g ?t) = true => change ((clean_tag g && toks t)%bool = true)
  | |- clean_cmd (KOpenManual ?g ?t) = true => change ((clean_tag g && toks t)%bool = true)
  | |- clean_cmd (KOpen ?g) = true => change (clean_tag g = true)
  | |- clean_cmd (KExternal _) = true => reflexivity
  | |- clean_cmd (KBatchDefer ?l) = true => change (forallb clean_cmd l = true)
  | |- clean_cmd (KBatch ?l) = true => change (forallb clean_cmd l = true)
  | |- clean_tag (MkTag _ _ _ _ _ _ _) = true => apply clean_tag_mk
  | |- match None with Some _ => _ | None => _ end = true => reflexivity
  | |- tag_name (lit _) = true => reflexivity
  | |- word _ = true => reflexivity
  | |- context [fst (_, _)] => cbn [fst snd]
  | |- context [snd (_, _)] => cbn [fst snd]
  | |- tag_name (lit _ ++ _) = true => reflexivity
  | |- context [if truthy ?v then _ else _] => destruct (truthy v)
  end.
Ltac lk := cbn beta in *; repeat lk1.

Lemma pl_full_number fuel : forall i, pl (full_number fuel i) (fun o => lacks LT (fmt_opt o) = true).
Proof.
  induction fuel as [|f IH]; intros i; cbn [full_number]; cbv zeta; [apply pl_raise|]. pstep0. destruct (subclass _ _); [apply pl_ret; reflexivity|].
  pstep0. destruct (truthy _); [apply pl_ret; reflexivity|].
  eapply pl_bind; [apply pl_first_ancestor|intros anc _].
  eapply (pl_bind _ _ any). { destruct anc; [apply pl_ret; exact I|]. pstep0. apply pl_first_ancestor. }
  intros anc2 _. pstep0.
  assert (G : pl (ret (Some (if truthy x1 then fmt_val x1 else []))) (fun o => lacks LT (fmt_opt o) = true)) by (apply pl_ret; cbn [fmt_opt]; lk).
  destruct anc2 as [a|]; [|exact G]. eapply pl_bind; [apply IH|]. intros [[|c r]|] Hf; [exact G| |exact G].
  eapply pl_bind; [apply IH|]. intros f2 Hf2. apply pl_ret. cbn [fmt_opt]. lk.
Qed.
(** The class of [i] is known. *)
Definition at_class (i : id) (c : cls) (s : st) : Prop := forall n, st_heap s !! i = Some n -> n_cls n = c.
Definition plc {X} (i : id) (c : cls) (m : M X) (Q : X -> Prop) : Prop :=
  forall s s' r, PH s -> at_class i c s -> m s = (s', Ok r) -> PH s' /\ Q r.
Lemma plc_pl {X} i c (m : M X) Q : pl m Q -> plc i c m Q.
Proof. intros H s s' r Hs _ E. eapply H; eassumption. Qed.
Lemma plc_bind {X Y} i c (m : M X) (k : X -> M Y) P Q : quiet m -> plc i c m P -> (forall x, P x -> plc i c (k x) Q) -> plc i c (bind m k) Q.
Proof.
  intros Hq H1 H2 s s' r Hs Hc E. apply bind_ok in E as (s1 & x & E1 & E2). pose proof (quiet_heap _ _ _ _ Hq E1) as [Eh _].
  apply H1 in E1 as [Hs1 Hx]; [|assumption|assumption]. eapply H2; [eassumption|eassumption| |eassumption]. intros n. rewrite Eh. apply Hc.
Qed.
Lemma pl_with_class {X} i (k : cls -> M X) Q : (forall c, plc i c (k c) Q) -> pl (bind (cls_of i) k) Q.
Proof.
  intros Hk s s' r Hs E. apply bind_ok in E as (s1 & c & E1 & E2). unfold cls_of, bind, get_node in E1. destruct (st_heap s !! i) as [n|] eqn:Ei; [|discriminate E1].
  apply ret_ok in E1 as [-> ->]. eapply Hk; [exact Hs| |exact E2]. intros m Hm. congruence.
Qed.
Lemma anc_loop_class ds fuel : forall cur s s' a, anc_loop fuel ds cur s = (s', Ok (Some a)) -> exists n, st_heap s !! a = Some n /\ cls_mem (n_cls n) ds = true /\ s' = s.
Proof.
  induction fuel; intros [q|] s s' a E; cbn [anc_loop] in E; try discriminate.
  apply bind_ok in E as (s1 & c & E1 & E2). unfold cls_of, bind, get_node in E1. destruct (st_heap s !! q) as [n|] eqn:Eq; [|discriminate E1].
  apply ret_ok in E1 as [-> ->]. destruct (cls_mem (n_cls n) ds) eqn:Ec.
  - apply ret_ok in E2 as [-> E2]. injection E2 as ->. eauto.
  - apply bind_ok in E2 as (s2 & p & E1 & E2). unfold parent_of, bind, get_node in E1. rewrite Eq in E1. apply ret_ok in E1 as [-> ->]. eapply IHfuel, E2.
Qed.
Lemma within_known c : forallb (fun d => negb (cls_eqb d CUnknownBibitem)) (number_within c) = true.
Proof. destruct c; reflexivity. Qed.
Lemma first_ancestor_class f i ds s s' a : first_ancestor_of_type f i ds s = (s', Ok (Some a)) ->
  forallb (fun d => negb (cls_eqb d CUnknownBibitem)) ds = true -> exists n, st_heap s' !! a = Some n /\ n_cls n <> CUnknownBibitem.
Proof.
  intros E H. unfold first_ancestor_of_type in E. apply bind_ok in E as (s1 & p & _ & E2). destruct (anc_loop_class _ _ _ _ _ _ E2) as (n & Hn & Hc & ->).
  exists n. split; [assumption|]. intros K. rewrite K in Hc. unfold cls_mem in Hc. apply existsb_exists in Hc as (d & Hd & He).
  rewrite forallb_forall in H. apply H in Hd. destruct (cls_eqb_spec CUnknownBibitem d); [subst d; discriminate Hd|discriminate He].
Qed.
Lemma full_number_quote fuel : forall i c, c <> CUnknownBibitem -> plc i c (full_number fuel i) (fun o => lacks QUOTE (fmt_opt o) = true).
Proof.
  induction fuel as [|f IH]; intros i c Hc s s' r Hs Hi E.
  { discriminate E. }
  split; [eapply pl_full_number; eassumption|].
  pose proof (quiet_heap _ _ _ _ (q_full_number (S f) i) E) as [Eh _].
  cbn [full_number] in E. apply bind_ok in E as (s1 & c1 & E1 & E). pose proof (quiet_heap _ _ _ _ (q_cls_of _) E1) as [Eh1 _].
  destruct (subclass _ _); [apply ret_ok in E as [_ ->]; reflexivity|].
  apply bind_ok in E as (s2 & nn & E2 & E). pose proof (quiet_heap _ _ _ _ (q_getattr _ _) E2) as [Eh2 _].
  destruct (truthy _); [apply ret_ok in E as [_ ->]; reflexivity|].
  apply bind_ok in E as (s3 & anc & E3 & E). pose proof (quiet_heap _ _ _ _ (q_first_ancestor _ _ _) E3) as [Eh3 _].
  apply bind_ok in E as (s4 & anc2 & E4 & E). cbv beta zeta in E.
  assert (A : st_heap s4 = st_heap s3 /\ forall a, anc2 = Some a -> exists n, st_heap s4 !! a = Some n /\ n_cls n <> CUnknownBibitem).
  { destruct anc as [a|].
    - apply ret_ok in E4 as [-> ->]. split; [reflexivity|]. intros ? [= <-]. eapply first_ancestor_class; [exact E3|apply within_known].
    - apply bind_ok in E4 as (s5 & u & E5 & E6). pose proof (quiet_heap _ _ _ _ (q_log _) E5) as [Eh5 _]. pose proof (quiet_heap _ _ _ _ (q_first_ancestor _ _ _) E6) as [Eh6 _].
      split; [congruence|]. intros a ->. eapply first_ancestor_class; [exact E6|reflexivity]. }
  destruct A as [Eh4 A].
  assert (HP4 : PH s4) by (rewrite Eh4, Eh3, Eh2, Eh1; exact Hs).
  apply bind_ok in E as (s5 & v & E5 & E). pose proof (quiet_heap _ _ _ _ (q_getattr _ _) E5) as [Eh5 _].
  assert (Hv : lacks QUOTE (fmt_val v) = true).
  { apply bind_ok in E5 as (s6 & n & E6 & E7). unfold get_node in E6. destruct (st_heap s4 !! i) as [m|] eqn:Em; [|discriminate E6]. injection E6 as <- <-.
    destruct (n_attrs m !! a_number) eqn:En; [|discriminate E7]. apply ret_ok in E7 as [_ ->].
    eapply (pn_number _ _ _ (HP4 _ _ Em)); [|exact En]. rewrite (Hi m); [assumption|]. rewrite <- Em. congruence. }
  assert (G : forall t t' r0, ret (A := option str) (Some (if truthy v then fmt_val v else [])) t = (t', Ok r0) -> lacks QUOTE (fmt_opt r0) = true).
  { intros t t' r0 K. apply ret_ok in K as [_ ->]. cbn [fmt_opt]. destruct (truthy v); [exact Hv|reflexivity]. }
  destruct anc2 as [a|]; [|eapply G, E].
  destruct (A a eq_refl) as (na & Hna & Hca).
  assert (IH' : forall t, st_heap t = st_heap s4 -> forall t' o, full_number f a t = (t', Ok o) -> lacks QUOTE (fmt_opt o) = true).
  { intros t Et t' o K. refine (proj2 (IH a (n_cls na) Hca t t' o _ _ K)); [rewrite Et; exact HP4|]. intros m Hm. rewrite Et in Hm. congruence. }
  apply bind_ok in E as (s6 & o & E6 & E). pose proof (quiet_heap _ _ _ _ (q_full_number _ _) E6) as [Eh6 _].
  destruct o as [[|x xs]|]; [eapply G, E| |eapply G, E].
  apply bind_ok in E as (s7 & o2 & E7 & E). apply IH' in E7; [|congruence]. apply ret_ok in E as [_ ->]. cbn [fmt_opt]. lk.
Qed.
Lemma pl_reftext f i : pl (reftext f i) (fun x => lacks LT x = true).
Proof.
  unfold reftext. do 2 pstep0. eapply pl_bind; [apply pl_full_number|]. intros o Ho.
  destruct (py_format _ _ _) as [r| | | |] eqn:E; try apply pl_raise. apply pl_ret. eapply lacks_incl; [apply strip_incl|].
  eapply format_lacks; [| | |exact E]; lk.
Qed.
Lemma pl_node_tag_full i t add a b c : tag_name (lit t) = true -> forallb (lacks QUOTE) add = true -> pl (node_tag_full i t add a b c) (fun k => clean_cmd k = true).
Proof. intros Ht Ha. unfold node_tag_full. do 4 pstep0. apply pl_ret. lk. all: destruct x2; try reflexivity; lk. Qed.
Lemma pl_label_text i : pl (label_text i) both.
Proof. unfold label_text. pstep0. apply pl_ret. lk. Qed.
Lemma pl_flag i a : pl (flag i a) any.
Proof. unfold flag. pstep0. apply pl_ret. exact I. Qed.
Lemma pl_items_of c : clean_cmd c = true -> pl (items_of c) (fun l => forallb clean_cmd l = true).
Proof. intros H. destruct c; try apply pl_raise; apply pl_ret; exact H. Qed.
Lemma pl_repr_attr i a : bool_decide (a ∈ text_attrs false) = true \/ a = a_target -> pl (repr_attr i a) (fun l => forallb (lacks LT) l = true).
Proof.
  intros Ha. unfold repr_attr. pstep0. rename H into Hx.
  assert (An : lacks LT (attr_name a) = true) by (destruct Ha as [Ha| ->]; [|reflexivity]; destruct a; try discriminate Ha; reflexivity).
  assert (G : match x with VNode _ | VNodes _ => True | _ => lacks LT (fmt_val x) = true end).
  { destruct Ha as [Ha| ->]; [pose proof (text_of_attr _ _ Hx Ha); destruct x; auto|].
    destruct x; auto; apply (proj1 (pa_target _ _ _ _ Hx eq_refl (fun y E => ltac:(discriminate E)))). }
  destruct x; try apply pl_raise; apply pl_ret; lk.
Qed.
Lemma concat_lacks c l : Forall (fun x => forallb (lacks c) x = true) l -> forallb (lacks c) (concat l) = true.
Proof. induction 1 as [|x l Hx _ IH]; [reflexivity|]. cbn [concat]. rewrite forallb_app, Hx, IH. reflexivity. Qed.
Lemma pl_mapM_in {X Y} (f : X -> M Y) Q l : (forall x, In x l -> pl (f x) Q) -> pl (mapM f l) (Forall Q).
Proof.
  intros Hf. induction l as [|x l IHl]; cbn [mapM]; [apply pl_ret; constructor|]. eapply pl_bind; [apply Hf; left; reflexivity|]. intros b Hb.
  eapply pl_bind; [apply IHl; intros y Hy; apply Hf; right; exact Hy|]. intros bs Hbs. apply pl_ret. constructor; assumption.
Qed.
Lemma pl_repr_node i : pl (repr_node i) (fun x => lacks LT x = true).
Proof.
  unfold repr_node. pstep0. eapply pl_bind.
  { apply pl_mapM_in. intros a [<-|[<-|[<-|[<-|[]]]]]; apply pl_repr_attr; left; reflexivity. }
  intros xs Hxs. pstep0. eapply (pl_bind _ _ (fun l => forallb (lacks LT) l = true)).
  { destruct x0 as [q|]; [|apply pl_ret; reflexivity]. pstep0. apply pl_ret. lk. }
  intros ps Hps. eapply (pl_bind _ _ (fun l => forallb (lacks LT) (concat l) = true)).
  { destruct (subclass _ _); [|apply pl_ret; reflexivity]. eapply pl_weaken; [|intros l; apply concat_lacks].
    apply pl_mapM_in. intros a [<-|[<-|[]]]; apply pl_repr_attr; [right|left]; reflexivity. }
  intros ys Hys. cbv zeta. pstep0. apply concat_lacks in Hxs. destruct x1 as [|k cs].
  - apply pl_ret. lk.
  - eapply pl_bind; [apply (pl_mapM _ (fun x => lacks LT x = true)); intros e; pstep0; apply pl_ret; lk|].
    intros names Hn. apply pl_ret. lk. apply forallb_forall. intros z Hz. rewrite list.Forall_forall in Hn. apply Hn, elem_of_list_In, Hz.
Qed.

(** *** Visit methods *)

Notation cl m := (pl m (fun k => clean_cmd k = true)).
Lemma pl_node_tag i t : tag_name (lit t) = true -> cl (node_tag i t).
Proof. intros H. apply pl_node_tag_full; [assumption|reflexivity]. Qed.
Lemma pl_node_tag_inline i t : tag_name (lit t) = true -> cl (node_tag_inline i t).
Proof. intros H. apply pl_node_tag_full; [assumption|reflexivity]. Qed.
Ltac pstep :=
  match goal with
  | |- pl (bind (node_tag _ _) _) _ => eapply pl_bind; [apply pl_node_tag; reflexivity|intros ? ?]
  | |- pl (bind (node_tag_inline _ _) _) _ => eapply pl_bind; [apply pl_node_tag_inline; reflexivity|intros ? ?]
  | |- pl (bind (node_tag_full _ _ _ _ _ _) _) _ => eapply pl_bind; [apply pl_node_tag_full; reflexivity|intros ? ?]
  | |- pl (bind (full_number _ _) _) _ => eapply pl_bind; [apply pl_full_number|intros ? ?]
  | |- pl (bind (reftext _ _) _) _ => eapply pl_bind; [apply pl_reftext|intros ? ?]
  | |- pl (bind (label_text _) _) _ => eapply pl_bind; [apply pl_label_text|intros ? ?]
  | |- pl (bind (flag _ _) _) _ => eapply pl_bind; [apply pl_flag|intros ? _]
  | |- pl (bind (items_of _) _) _ => eapply pl_bind; [apply pl_items_of; lk|intros ? ?]
  | |- pl (bind (first_of_type _ _) _) _ => eapply pl_bind; [apply pl_first_of_type|intros ? _]
  | |- pl (bind (last_of_type _ _) _) _ => eapply pl_bind; [apply pl_last_of_type|intros ? _]
  | |- pl (bind (next_sibling _ _) _) _ => eapply pl_bind; [apply pl_next_sibling|intros ? _]
  | |- pl (bind (repr_node _) _) _ => eapply pl_bind; [apply pl_repr_node|intros ? ?]
  | |- pl (bind (append _ _) _) _ => eapply pl_bind; [apply pl_append|intros ? _]
  | |- pl (node_tag _ _) _ => apply pl_node_tag; reflexivity
  | |- pl (node_tag_inline _ _) _ => apply pl_node_tag_inline; reflexivity
  | |- pl (node_tag_full _ _ _ _ _ _) _ => apply pl_node_tag_full; reflexivity
  | |- _ => pstep0
  end.
Ltac pv := repeat pstep; try apply pl_ret; lk.
Lemma pv_node i : cl (visit_node i). Proof. unfold visit_node. pv. Qed.
Lemma pv_manuscript i : cl (visit_manuscript i). Proof. unfold visit_manuscript. pv. Qed.
Lemma pv_author i : cl (visit_author i). Proof. unfold visit_author. cbv zeta. pv. Qed.
Lemma pv_abstract i : cl (visit_abstract i). Proof. unfold visit_abstract. pv. Qed.
Lemma pv_paragraph i : cl (visit_paragraph i).
Proof. unfold visit_paragraph. do 3 pstep. apply pl_ret. lk; destruct x0; reflexivity. Qed.
Lemma lv_heading lv ct : lv = 2 \/ lv = 3 \/ lv = 4 -> toks ct = true -> clean_cmd (heading lv ct) = true.
Proof. intros [E|[E|E]] H; subst lv; unfold heading; cbn [clean_cmd]; apply andb_true_iff; split; try exact H; reflexivity. Qed.
Lemma levels c lv : level c = Some lv -> lv = 2 \/ lv = 3 \/ lv = 4.
Proof. destruct c; cbn; intros H; inversion H; auto. Qed.
Lemma pv_section f i : cl (visit_section f i).
Proof.
  unfold visit_section. pstep. destruct (level x) as [lv|] eqn:E; [|apply pl_raise]. apply levels in E. pstep.
  eapply pl_bind; [apply pl_setattr; [apply types_plain; lk|discriminate]|intros _ _]. pstep. pstep.
  eapply (pl_bind _ _ (fun h => lacks LT h = true)).
  { destruct (truthy x1); [apply pl_ret; lk|]. pstep. apply pl_ret. lk. }
  intros h Hh. pstep. apply pl_ret. lk. destruct E as [E|[E|E]]; subst lv; reflexivity.
Qed.
Lemma pv_contents i : cl (visit_contents i). Proof. unfold visit_contents. pv. Qed.
Lemma pv_note f i : cl (visit_note f i). Proof. unfold visit_note. pv. Qed.
Lemma pv_math i : cl (visit_math i). Proof. unfold visit_math. pv. Qed.
Lemma pv_mathblock i : cl (visit_mathblock i).
Proof.
  unfold visit_mathblock. pstep. eapply (pl_bind _ _ any). { destruct x; [apply pl_inst|apply pl_ret; exact I]. }
  intros ok _. destruct ok; cbn [negb]; [|apply pl_raise]. pv.
Qed.
Lemma pv_sourcecode i : cl (visit_sourcecode hl i).
Proof.
  unfold visit_sourcecode. pstep. pstep. apply pl_ret. destruct (truthy x) eqn:E; lk.
  - apply (pa_lang _ _ _ _ H eq_refl E); apply (pa_body _ _ _ _ H0 _ eq_refl eq_refl).
  - apply (pa_body _ _ _ _ H0 _ eq_refl eq_refl).
Qed.
Lemma pv_text i : cl (visit_text i).
Proof. unfold visit_text. pstep. apply pl_ret. lk. apply (pa_body _ _ _ _ H _ eq_refl eq_refl). Qed.
Lemma pv_error i : cl (visit_error i).
Proof. unfold visit_error. pstep. pstep. apply pl_ret. lk. apply (pa_body _ _ _ _ H0 _ eq_refl eq_refl). Qed.
Lemma concat_cmds l : Forall (fun x => forallb clean_cmd x = true) l -> forallb clean_cmd (concat l) = true.
Proof. induction 1 as [|x l Hx _ IH]; [reflexivity|]. cbn [concat]. rewrite forallb_app, Hx, IH. reflexivity. Qed.
Lemma pv_span i : cl (visit_span i).
Proof.
  unfold visit_span. pstep. eapply pl_bind.
  { apply (pl_mapM_in _ (fun x => forallb clean_cmd x = true)). intros p Hp. pstep. apply pl_ret. destruct (truthy _); [|reflexivity].
    destruct Hp as [<-|[<-|[<-|[<-|[<-|[]]]]]]; reflexivity. }
  intros cs Hcs. apply pl_ret. lk. apply concat_cmds, Hcs.
Qed.
Lemma pl_make_ahref f i t h x l : match t with HStr u => lacks LT u = true | HNode _ => True end ->
  lacks QUOTE h = true -> lacks QUOTE x = true -> forallb (lacks QUOTE) l = true -> pl (make_ahref f i t h x l) (fun ts => toks ts = true).
Proof.
  intros Ht Hh Hx Hl. unfold make_ahref. cbv zeta. pstep.
  eapply (pl_bind _ _ any). { destruct t as [t|[|c u]]; [apply pl_ret; exact I|apply pl_raise|apply pl_ret; exact I]. }
  intros _ _. pstep. eapply (pl_bind _ _ (fun r => lacks LT r = true)).
  { assert (G : pl match t with HNode t => reftext f t | HStr s => ret s end (fun r => lacks LT r = true)) by (destruct t; [apply pl_reftext|apply pl_ret; exact Ht]).
    destruct (n_attrs x1 !! a_overwrite_reftext) as [v|] eqn:E; [|exact G]. apply H in E. destruct (truthy v); [apply pl_ret; lk|exact G]. }
  intros r Hr. pstep.
  match goal with |- context [if ?b then lit "reference" :: ?y else ?y] => set (ty := if b then lit "reference" :: y else y);
    assert (T1 : forallb (lacks LT) ty = true) by (unfold ty; destruct b; lk); assert (T2 : forallb (lacks QUOTE) ty = true) by (unfold ty; destruct b; lk) end.
  eapply pl_bind; [apply pl_setattr; [apply types_plain; assumption|discriminate]|intros _ _]. apply pl_ret. lk.
Qed.
Lemma pv_reference f i : cl (visit_reference f i).
Proof.
  unfold visit_reference. pstep. destruct x; try apply pl_raise. pstep.
  eapply pl_bind; [apply pl_make_ahref; [exact I|lk|reflexivity|reflexivity]|]. intros ts Hts. apply pl_ret. lk.
Qed.
Lemma pv_url f i : cl (visit_url f i).
Proof.
  unfold visit_url. pstep. destruct x; try apply pl_raise. destruct (pa_target _ _ _ _ H eq_refl (fun y E => ltac:(discriminate E))) as [H1 H2].
  eapply pl_bind; [apply pl_make_ahref; [exact H1|exact H2|reflexivity|reflexivity]|]. intros ts Hts. apply pl_ret. lk.
Qed.
Lemma pl_make_title l d : lacks LT l = true -> lacks LT d = true -> pl (make_title_node l d) any.
Proof.
  intros Hl Hd. unfold make_title_node. cbv zeta.
  assert (G : forall para cl s, forallb (lacks LT) [cl] = true -> forallb (lacks QUOTE) [cl] = true -> lacks LT s = true ->
    pl match s with [] => ret tt | _ => let! span := new_node CSpan [(a_types, VStrs [cl])] in
        let! t := new_node CText [(a_text, VStr s)] in do! append span [t] in append para [span] end any).
  { intros para cl s H1 H2 H3. destruct s as [|c s]; [apply pl_ret; exact I|].
    eapply pl_bind; [apply pl_new_node; [reflexivity|constructor; [split; cbn [fst snd]; [apply types_plain; assumption|discriminate]|constructor]]|intros sp _].
    eapply pl_bind; [apply pl_new_node; [reflexivity|constructor; [split; cbn [fst snd]; [apply text_plain, lacks_harmless; assumption|discriminate]|constructor]]|intros tx _].
    pstep. apply pl_append. }
  eapply pl_bind; [apply pl_new_node; [reflexivity|constructor; [split; cbn [fst snd]; [apply types_plain; reflexivity|discriminate]|constructor]]|intros para _].
  eapply pl_bind; [apply G; [reflexivity|reflexivity|exact Hl]|intros _ _]. eapply pl_bind; [apply G; [reflexivity|reflexivity|exact Hd]|intros _ _].
  apply pl_ret. exact I.
Qed.
Lemma pv_theorem f i : cl (visit_theorem f i).
Proof.
  unfold visit_theorem. do 3 pstep. eapply (pl_bind _ _ (fun h => lacks LT h = true)).
  { destruct (negb _ && _); [pstep; apply pl_ret; lk|apply pl_ret; reflexivity]. }
  intros num Hn. pstep. eapply pl_bind; [apply pl_make_title; lk|intros t _]. pv.
Qed.
Lemma pv_subproof i : cl (visit_subproof i). Proof. unfold visit_subproof. pv. Qed.
Lemma pv_sketch i : cl (visit_sketch i).
Proof. unfold visit_sketch. eapply pl_bind; [apply pl_make_title; reflexivity|intros t _]. pv. Qed.
Lemma pv_proof i : cl (visit_proof i).
Proof.
  unfold visit_proof. pstep. eapply (pl_bind _ _ any).
  { destruct x as [[l k]|]; [|apply pl_ret; exact I]. pstep. apply pl_setattr; [apply types_plain; lk|discriminate]. }
  intros _ _. pstep. eapply pl_bind; [apply pl_make_title; [lk|reflexivity]|intros t _]. pv.
Qed.
Lemma pl_cite_tags f i l ts : both l -> forall n, pl (cite_tags f i l ts n) (Forall (fun x => toks x = true)).
Proof.
  intros Hl. induction ts as [|t ts IH]; intros n; cbn [cite_tags]; [apply pl_ret; constructor|]. pstep.
  eapply pl_bind; [apply pl_make_ahref; [exact I|lk|lk|reflexivity]|]. intros y Hy. eapply pl_bind; [apply IH|]. intros ys Hys. apply pl_ret. constructor; assumption.
Qed.
Lemma tok_join_clean sep xs : toks sep = true -> Forall (fun x => toks x = true) xs -> toks (tok_join sep xs) = true.
Proof.
  intros Hs. induction 1 as [|x xs Hx Hxs IH]; [reflexivity|]. destruct xs as [|y xs]; [exact Hx|].
  change (tok_join sep (x :: y :: xs)) with (x ++ sep ++ tok_join sep (y :: xs)). rewrite !toks_app, Hx, Hs, IH. reflexivity.
Qed.
Lemma pv_cite f i : cl (visit_cite f i).
Proof.
  assert (G : forall ts, cl (let! label := label_text i in let! xs := cite_tags f i label ts 0 in
    ret (KText ([raw "["; TOpen (lit "span") [AQ (lit "id") label]] ++ tok_join [raw ", "] xs ++ [ctag "span"; raw "]"])))).
  { intros ts. pstep. eapply pl_bind; [apply pl_cite_tags; assumption|]. intros xs Hxs. apply pl_ret. lk.
    - cbn [clean_tok forallb clean_attrib]. rewrite (quote_of _ H). reflexivity.
    - apply tok_join_clean; [reflexivity|assumption]. }
  unfold visit_cite. pstep. destruct x as [| | | | | | |ts|]; try apply pl_raise. destruct ts as [|t [|t2 ts]]; [apply G| |apply G].
  do 3 pstep. eapply pl_bind; [apply pl_make_ahref; [exact I|lk|lk|]|].
  - apply all_cons; [reflexivity|]. destruct (subclass _ _); reflexivity.
  - intros y Hy. apply pl_ret. lk.
Qed.
Lemma pv_bibliography i : cl (visit_bibliography i). Proof. unfold visit_bibliography. pv. Qed.
Lemma backlinks_clean ls : forallb (lacks QUOTE) ls = true -> forall n, Forall (fun x => toks x = true) (backlink_tags ls n).
Proof.
  induction ls as [|l ls IH]; intros H n; [constructor|]. cbn [forallb] in H. apply andb_true_iff in H as [H1 H2]. cbn [backlink_tags].
  constructor; [|apply IH; assumption]. lk.
Qed.
Definition parts_clean (p : list tok * list tok * list tok) : Prop := toks p.1.1 = true /\ toks p.1.2 = true /\ toks p.2 = true.
Lemma pl_strip_dots v : lacks LT (fmt_val v) = true -> pl (strip_dots v) (fun x => lacks LT x = true).
Proof. intros H. destruct v; try apply pl_raise. apply pl_ret. eapply lacks_incl; [apply strip_incl|exact H]. Qed.
Lemma pl_bibitem_parts i : pl (bibitem_parts i) parts_clean.
Proof.
  unfold bibitem_parts. cbv zeta. do 5 pstep.
  eapply (pl_bind _ _ (Forall (fun v => lacks LT (fmt_val v) = true))).
  { destruct (val_eqb _ _); [|destruct (val_eqb _ _); [|apply pl_ret; constructor]]; pstep; destruct (truthy _);
      try (pstep; apply pl_ret; constructor); apply pl_ret; constructor; [lk|constructor|lk|constructor]. }
  intros venue Hv. pstep. eapply (pl_bind _ _ (Forall (fun v => lacks LT (fmt_val v) = true))).
  { destruct (truthy _); [apply pl_ret; constructor; [lk|constructor]|]. pstep. apply pl_ret. constructor. }
  intros yr Hy. eapply pl_bind.
  { apply (pl_mapM_in _ (fun x => lacks LT x = true)). intros v Hin. apply pl_strip_dots. apply in_app_or in Hin as [Hin|Hin].
    - assert (K : lacks LT (fmt_val (VStr (lit """" ++ fmt_val x0 ++ lit """"))) = true) by (cbn [fmt_val]; lk).
      assert (K2 : lacks LT (fmt_val (VStr (fmt_val x1 ++ lit "."))) = true) by (cbn [fmt_val]; lk).
      destruct (truthy x1); cbn [In] in Hin; repeat (destruct Hin as [<-|Hin]; [first [exact K|exact K2|lk]|]); contradiction.
    - rewrite list.Forall_forall in Hv, Hy. apply in_app_or in Hin as [Hin|Hin]; [apply Hv|apply Hy]; apply elem_of_list_In, Hin. }
  intros parts Hp. pstep. eapply (pl_bind _ _ (fun t => toks t = true)).
  { destruct (truthy _); [apply pl_ret; lk|]. pstep. apply pl_ret. reflexivity. }
  intros dt Hdt. pstep. apply pl_ret. split; [|split; [exact Hdt|]]; cbn [fst snd].
  - lk. apply forallb_forall. intros z Hz. rewrite list.Forall_forall in Hp. apply Hp, elem_of_list_In, Hz.
  - match goal with |- toks (match ?l with _ => _ end) = true => destruct l as [|b bs] eqn:E end; [reflexivity|]. rewrite <- E in *. clear E.
    lk; try reflexivity. apply tok_join_clean; [reflexivity|]. apply backlinks_clean. lk.
Qed.
Lemma bibitem_text_clean p : parts_clean p -> toks (bibitem_text p) = true.
Proof. intros (H1 & H2 & H3). destruct p as [[text dt] back]. cbn [fst snd bibitem_text] in *. lk. destruct dt; [reflexivity|]. lk. Qed.
Lemma pv_bibitem i : cl (visit_bibitem i).
Proof. unfold visit_bibitem. eapply pl_bind; [apply pl_bibitem_parts|]. intros p Hp. pstep. apply pl_ret. lk. apply bibitem_text_clean, Hp. Qed.
Lemma pv_draft i : cl (visit_draft i). Proof. unfold visit_draft. pv. Qed.
Lemma pv_figure f i c : c <> CUnknownBibitem -> plc i c (visit_figure f i) (fun k => clean_cmd k = true).
Proof.
  intros Hc. unfold visit_figure. eapply plc_bind; [apply q_node_tag_full|apply plc_pl, pl_node_tag; reflexivity|intros nt Hnt].
  eapply plc_bind; [apply q_getattr|apply plc_pl, pl_getattr|intros lb Hlb].
  eapply plc_bind; [apply q_getattr|apply plc_pl, pl_getattr|intros pa Hpa].
  eapply plc_bind; [apply q_cls_of|apply plc_pl, pl_cls_of|intros d _].
  eapply plc_bind; [apply q_full_number|apply full_number_quote, Hc|intros fn Hfn]. apply plc_pl. pstep. apply pl_ret. lk; destruct (is_one _); lk.
Qed.
Lemma pv_caption f i : cl (visit_caption f i).
Proof. unfold visit_caption. pstep. destruct x; [|apply pl_raise]. do 2 pstep. apply pl_ret. destruct (subclass _ _); lk. Qed.
Lemma pv_method f m i c : (m = CFigure -> c <> CUnknownBibitem) -> plc i c (visit_method hl f m i) (fun k => clean_cmd k = true).
Proof.
  intros Hm. destruct m; cbn [visit_method]; try (apply pv_figure, Hm; reflexivity); clear Hm; apply plc_pl;
  lazymatch goal with
  | |- pl (visit_node _) _ => apply pv_node
  | |- pl (visit_manuscript _) _ => apply pv_manuscript
  | |- pl (visit_author _) _ => apply pv_author
  | |- pl (visit_abstract _) _ => apply pv_abstract
  | |- pl (visit_paragraph _) _ => apply pv_paragraph
  | |- pl (visit_section _ _) _ => apply pv_section
  | |- pl (visit_contents _) _ => apply pv_contents
  | |- pl (visit_note _ _) _ => apply pv_note
  | |- pl (visit_math _) _ => apply pv_math
  | |- pl (visit_mathblock _) _ => apply pv_mathblock
  | |- pl (visit_sourcecode _ _) _ => apply pv_sourcecode
  | |- pl (visit_error _) _ => apply pv_error
  | |- pl (visit_text _) _ => apply pv_text
  | |- pl (visit_span _) _ => apply pv_span
  | |- pl (visit_reference _ _) _ => apply pv_reference
  | |- pl (visit_url _ _) _ => apply pv_url
  | |- pl (visit_theorem _ _) _ => apply pv_theorem
  | |- pl (visit_sketch _) _ => apply pv_sketch
  | |- pl (visit_proof _) _ => apply pv_proof
  | |- pl (visit_cite _ _) _ => apply pv_cite
  | |- pl (visit_bibliography _) _ => apply pv_bibliography
  | |- pl (visit_bibitem _) _ => apply pv_bibitem
  | |- pl (visit_draft _) _ => apply pv_draft
  | |- pl (visit_caption _ _) _ => apply pv_caption
  | |- pl (visit_subproof _) _ => apply pv_subproof
  | |- pl (ret (KText [])) _ => apply pl_ret; reflexivity
  | |- _ => unfold visit_step, visit_code, visit_construct, visit_codeblock, visit_algorithm; pv
  end.
Qed.

(** *** Leave methods *)

Definition clean_step (u : tst) (r : cmd * tst) : Prop := clean_cmd r.1 = true /\ clean_tst r.2.
Notation cll m u := (clean_tst u -> pl m (clean_step u)).
Lemma pl_leave_node u : cll (leave_node u) u.
Proof.
  intros [H1 H2]. unfold leave_node. destruct (deferred u) as [|c l] eqn:E; [apply pl_raise|]. cbn [forallb] in H2. apply andb_true_iff in H2 as [H2 H3].
  apply pl_ret. split; [exact H2|]. split; [exact H1|exact H3].
Qed.
Lemma pl_leave_abstract i u : cll (leave_abstract i u) u.
Proof.
  intros Hu. unfold leave_abstract. do 2 pstep. eapply pl_bind; [apply pl_leave_node, Hu|]. intros [c v] [Hc Hv]. apply pl_ret. split; [|exact Hv].
  cbn [fst snd] in *. destruct x, x0; lk.
Qed.
Lemma pl_leave_mathblock i u : cll (leave_mathblock i u) u.
Proof.
  intros Hu. unfold leave_mathblock. eapply pl_bind; [apply pl_leave_node, Hu|]. intros [c v] [Hc Hv]. pstep.
  eapply (pl_bind _ _ any). { destruct x; [apply pl_inst|apply pl_ret; exact I]. }
  intros b _. destruct (negb b); [apply pl_ret; split; assumption|]. pstep. destruct x0; [|apply pl_ret; split; assumption].
  destruct x; [|apply pl_raise]. eapply pl_bind; [apply pl_setattr; [apply flag_plain; auto|discriminate]|intros _ _]. cbn [fst snd] in *. pstep. apply pl_ret. split; [|exact Hv].
  cbn [fst]. lk.
Qed.
Lemma pl_leave_paragraph i u : cll (leave_paragraph i u) u.
Proof.
  intros Hu. unfold leave_paragraph. eapply pl_bind; [apply pl_leave_node, Hu|]. intros [c v] [Hc Hv]. pstep.
  destruct x; [|apply pl_ret; split; assumption]. cbn [fst snd] in *. pstep. apply pl_ret. split; [|exact Hv]. cbn [fst]. lk.
Qed.
Lemma before_last_clean x l : clean_cmd x = true -> forallb clean_cmd l = true -> forallb clean_cmd (insert_before_last x l) = true.
Proof.
  intros Hx Hl. unfold insert_before_last. destruct (rev l) as [|y r] eqn:E; [lk|].
  assert (forallb clean_cmd (rev l) = true) as H by (apply forallb_forall; intros z Hz; rewrite forallb_forall in Hl; apply Hl, in_rev, Hz).
  rewrite E in H. cbn [forallb] in H. apply andb_true_iff in H as [H1 H2]. rewrite forallb_app. apply andb_true_iff. split; [|lk].
  apply forallb_forall; intros z Hz; rewrite forallb_forall in H2; apply H2, in_rev, Hz.
Qed.
Lemma insert_nth_clean k x l : clean_cmd x = true -> forallb clean_cmd l = true -> forallb clean_cmd (insert_nth k x l) = true.
Proof.
  intros Hx Hl. unfold insert_nth. rewrite <- (take_drop k l), forallb_app in Hl. apply andb_true_iff in Hl as [H1 H2].
  rewrite forallb_app. cbn [forallb]. rewrite Hx, H1, H2. reflexivity.
Qed.
Lemma pl_leave_proof u : cll (leave_proof u) u.
Proof.
  intros Hu. unfold leave_proof. eapply pl_bind; [apply pl_leave_node, Hu|]. intros [c v] [Hc Hv]. cbn [fst snd] in *. pstep. apply pl_ret. split; [|exact Hv].
  cbn [fst]. lk. apply before_last_clean; [reflexivity|assumption].
Qed.
Lemma pl_leave_method m i u : cll (leave_method m i u) u.
Proof.
  intros Hu. destruct m; cbn [leave_method]; try (apply pl_leave_node, Hu); [apply pl_leave_abstract, Hu|apply pl_leave_paragraph, Hu|..];
  first [apply pl_leave_mathblock, Hu|apply pl_leave_proof, Hu|idtac].
Qed.

(** *** The loop *)

Definition clean_ext (ext : id -> M (list tok)) : Prop := forall x, pl (ext x) (fun ts => toks ts = true).
Lemma close_tag_clean g : clean_tag g = true -> toks [TClose (tg_tag g)] = true.
Proof. unfold clean_tag. rewrite !andb_true_iff. intros [[[H1 H2] H3] H4]. cbn [toks forallb clean_tok]. rewrite H1. reflexivity. Qed.
Lemma start_toks g : clean_tag g = true -> toks [start_tag g] = true.
Proof. intros H. apply all_cons; [apply start_clean, H|reflexivity]. Qed.
Lemma pl_make_text ext c : clean_ext ext -> clean_cmd c = true -> pl (make_text ext c) (fun ts => toks ts = true).
Proof.
  intros Hx Hc. destruct c as [t|t d|g t|g t|g|x|l|l]; cbn [make_text]; cbn [clean_cmd] in Hc; try apply pl_raise; try apply Hx; apply pl_ret; try assumption.
  - apply andb_true_iff in Hc as [Hc1 Hc2]. assumption.
  - apply andb_true_iff in Hc as [Hc1 Hc2]. rewrite !toks_app, !nl_clean, start_toks, close_tag_clean, Hc2 by assumption. reflexivity.
  - apply andb_true_iff in Hc as [Hc1 Hc2]. rewrite !toks_app, !nl_clean, start_toks, Hc2 by assumption. reflexivity.
  - rewrite !toks_app, !nl_clean, start_toks by assumption. reflexivity.
Qed.
Lemma pl_exec_items ext items : clean_ext ext -> forall ds u, forallb clean_cmd items = true -> forallb clean_cmd ds = true -> clean_tst u ->
  pl (exec_items ext items ds u) (fun r => forallb clean_cmd r.1 = true /\ clean_tst r.2).
Proof.
  intros Hx. induction items as [|c items IH]; intros ds u Hi Hd Hu; cbn [exec_items]; [apply pl_ret; split; assumption|].
  cbn [forallb] in Hi. apply andb_true_iff in Hi as [Hc Hi]. cbv zeta. eapply pl_bind; [apply pl_make_text; assumption|]. intros t Ht. apply IH; [assumption| |].
  - destruct (deferred_text c) as [d|] eqn:E; [|assumption]. rewrite forallb_app, Hd. cbn [forallb clean_cmd andb]. rewrite (deferred_clean _ _ Hc E). reflexivity.
  - destruct Hu as [H1 H2]. split; [cbn [emit body]; rewrite toks_app, H1, Ht; reflexivity|exact H2].
Qed.
Lemma pl_execute ext : clean_ext ext -> forall c u, clean_cmd c = true -> clean_tst u -> pl (execute ext c u) clean_tst.
Proof.
  intros Hx. assert (G : forall c u, clean_cmd c = true -> clean_tst u -> pl (let! t := make_text ext c in let ts := emit t u in
    ret (match deferred_text c with Some d => defer (KText d) ts | None => ts end)) clean_tst).
  { intros c u Hc [H1 H2]. eapply pl_bind; [apply pl_make_text; assumption|]. intros t Ht. apply pl_ret. cbv zeta.
    destruct (deferred_text c) as [d|] eqn:E; (split; [cbn [emit defer body]; rewrite toks_app, H1, Ht; reflexivity|]); [|exact H2].
    cbn [emit defer deferred forallb clean_cmd]. rewrite (deferred_clean _ _ Hc E). exact H2. }
  fix IH 1. intros c u Hc Hu. destruct c as [| | | | | |items|items]; cbn [execute]; try (apply G; assumption).
  - eapply pl_bind; [apply pl_exec_items; [assumption|exact Hc|reflexivity|exact Hu]|]. intros [l v] [Hl [H1 H2]]. apply pl_ret. cbn [fst snd] in *.
    split; [exact H1|]. cbn [defer deferred forallb clean_cmd]. rewrite H2, andb_true_r. apply forallb_forall. intros z Hz. rewrite forallb_forall in Hl.
    apply Hl, in_rev, Hz.
  - cbn [clean_cmd] in Hc. revert u Hu. induction items as [|x items IHi]; intros u Hu; [apply pl_ret; exact Hu|].
    cbn [forallb] in Hc. apply andb_true_iff in Hc as [Hx' Hc]. eapply pl_bind; [apply IH; assumption|]. intros v Hv. apply IHi; assumption.
Qed.
Record clean_tc (tc : tclass) : Prop := {
  ct_visit : forall f i, pl (tc_visit tc f i) (fun k => clean_cmd k = true);
  ct_leave : forall f i u, clean_tst u -> pl (tc_leave tc f i u) (clean_step u)
}.
Lemma pl_tr_loop tc ext f0 : clean_tc tc -> clean_ext ext -> forall f stack u, clean_tst u -> pl (tr_loop tc ext f0 f stack u) clean_tst.
Proof.
  intros Hc Hx. induction f as [|f IH]; intros [|[i|i] stack] u Hu; cbn [tr_loop]; try apply pl_raise; try (apply pl_ret; exact Hu).
  - eapply pl_bind; [apply Hc|]. intros c Hcc. pstep. eapply pl_bind; [apply pl_execute; assumption|]. intros v Hv. apply IH, Hv.
  - eapply pl_bind; [apply Hc, Hu|]. intros [c v] [Hcc Hv]. cbn [fst snd] in *. eapply pl_bind; [apply pl_execute; assumption|]. intros w Hw. apply IH, Hw.
Qed.
Lemma pl_run tc ext f i : clean_tc tc -> clean_ext ext -> pl (run_translator tc ext f i) (fun ts => toks ts = true).
Proof.
  intros Hc Hx. unfold run_translator. eapply pl_bind; [apply pl_tr_loop; [assumption|assumption|split; reflexivity]|]. intros u [H1 H2].
  destruct (deferred u); [apply pl_ret; exact H1|apply pl_raise].
Qed.
Lemma base_clean : clean_tc (base_tc hl).
Proof.
  split; cbn [base_tc tc_visit tc_leave].
  - intros f i. unfold base_visit. apply pl_with_class. intros c. destruct (dispatch _ c) eqn:E; [|apply plc_pl, pl_raise].
    apply pv_method. intros -> ->. discriminate E.
  - intros f i u Hu. unfold base_leave. pstep. destruct (dispatch _ _); [apply pl_leave_method, Hu|apply pl_raise].
Qed.
Lemma ext_clean d f : clean_ext (translate_ext hl d f).
Proof. induction d as [|d IH]; intros x; cbn [translate_ext]; [apply pl_raise|]. apply pl_run; [apply base_clean|exact IH]. Qed.
Lemma pl_translate f i : pl (translate hl f i) (fun ts => toks ts = true).
Proof. unfold translate. eapply pl_bind; [apply pl_log|intros _ _]. apply pl_run; [apply base_clean|apply ext_clean]. Qed.

(** *** The translator with handrails *)

Notation clis m := (pl m (fun l => forallb clean_cmd l = true)).
Lemma nls_clean n : clean_tok (nls n) = true.
Proof. cbn [nls clean_tok]. cbn. induction n; [reflexivity|exact IHn]. Qed.
Lemma div_clean c ts : lacks QUOTE (lit c) = true -> toks ts = true -> toks (div_classes c ts) = true.
Proof.
  intros Hc Ht. unfold div_classes. rewrite !toks_app, Ht. cbn [toks forallb clean_tok otag map clean_attrib fst snd]. rewrite Hc. reflexivity.
Qed.
Lemma span_clean c ts : lacks QUOTE (lit c) = true -> toks ts = true -> toks (span_classes c ts) = true.
Proof.
  intros Hc Ht. unfold span_classes. rewrite !toks_app, Ht. cbn [toks forallb clean_tok otag map clean_attrib fst snd]. rewrite Hc. reflexivity.
Qed.
Lemma zone_clean c ts : lacks QUOTE (lit c) = true -> toks ts = true -> clean_cmd (zone c ts) = true.
Proof. intros Hc Ht. unfold zone. lk. Qed.
Lemma label_clean l : lacks LT l = true -> toks (hr_menu_label l) = true.
Proof. intros Hl. unfold hr_menu_label. rewrite toks_app, div_clean; [reflexivity|reflexivity|]. rewrite !toks_app, span_clean; [reflexivity|reflexivity|]. lk. Qed.
Lemma item_clean a b c : lacks QUOTE (lit (String.append "hr-menu-item" a)) = true -> lacks QUOTE (lit (String.append "icon " b)) = true ->
  lacks LT (lit c) = true -> toks (menu_item a b c) = true.
Proof.
  intros Ha Hb Hc. unfold menu_item. rewrite toks_app, div_clean; [reflexivity|assumption|]. rewrite !toks_app, !span_clean; try reflexivity; [|assumption].
  apply all_cons; [exact Hc|reflexivity].
Qed.
Lemma tail_toks l : toks l = true -> toks (tail l) = true.
Proof. destruct l; [auto|]. cbn [toks forallb tail]. intros H. apply andb_true_iff in H. apply H. Qed.
Lemma collapse_zone_clean b : clean_cmd (hr_collapse_zone b) = true. Proof. destruct b; reflexivity. Qed.
Lemma menu_zone_clean l a b c : lacks LT l = true -> clean_cmd (hr_menu_zone l a b c) = true.
Proof.
  intros Hl. unfold hr_menu_zone. cbv zeta. apply zone_clean; [reflexivity|].
  match goal with |- context [tail ?m] => assert (toks m = true) as Hm end.
  { rewrite !toks_app. repeat (apply andb_true_iff; split); try reflexivity; try (destruct a, b, c; reflexivity).
    destruct l; [reflexivity|]. rewrite !toks_app, label_clean by assumption. reflexivity. }
  rewrite !toks_app, tail_toks by assumption. reflexivity.
Qed.
Lemma icon_clean ic : match ic with Some x => lacks QUOTE x = true | None => True end -> clean_cmd (hr_info_zone_icon ic) = true.
Proof.
  intros H. unfold hr_info_zone_icon. apply zone_clean; [reflexivity|]. apply div_clean; [reflexivity|]. destruct ic as [x|]; [|reflexivity].
  rewrite !toks_app. unfold info_icon. cbn [toks forallb]. rewrite nls_clean. cbn [clean_tok forallb clean_attrib]. rewrite lacks_app, H. reflexivity.
Qed.
Lemma number_clean f y : lacks LT (fmt_opt f) = true -> clean_cmd (hr_info_zone_number f y) = true.
Proof.
  intros H. unfold hr_info_zone_number. apply zone_clean; [reflexivity|]. apply div_clean; [reflexivity|]. destruct f as [x|]; [|reflexivity]. cbn [fmt_opt] in H.
  destruct y; (apply div_clean; [reflexivity|]); cbn [toks forallb clean_tok]; rewrite !lacks_app, H; reflexivity.
Qed.
Lemma content_open_clean : clean_cmd (KOpen hr_content_tag) = true. Proof. reflexivity. Qed.
Lemma pl_hr_from_node i add sel : forallb (lacks QUOTE) add = true -> pl (hr_from_node i add sel) (fun k => clean_cmd k = true).
Proof.
  intros Ha. unfold hr_from_node. pstep. unfold depth_of. pstep. apply pl_node_tag_full; [reflexivity|]. lk; try (destruct (_ =? _)%Z; reflexivity);
  destruct (_ <? _)%Z; reflexivity.
Qed.
Lemma pl_link_of i : pl (link_of i) any.
Proof. unfold link_of. pstep. apply pl_ret. exact I. Qed.
Lemma pl_icon_of i : pl (icon_of i) (fun ic => match ic with Some x => lacks QUOTE x = true | None => True end).
Proof.
  unfold icon_of. pstep. apply pl_ret. destruct (n_attrs x !! a_icon) as [v|] eqn:E; [|exact I]. apply H in E.
  assert (lacks QUOTE (fmt_val v) = true) by (apply (quoted_of_attr _ _ E); reflexivity). destruct v; exact I || assumption.
Qed.
Lemma handrail_clean hr b menu bz : clean_cmd hr = true -> clean_cmd menu = true -> clean_cmd bz = true ->
  forallb clean_cmd [hr; hr_collapse_zone b; menu; bz; hr_spacer_zone; KOpen hr_content_tag] = true.
Proof. intros H1 H2 H3. cbn [forallb]. rewrite H1, H2, H3, collapse_zone_clean. reflexivity. Qed.
Lemma pl_replace f i add l b t : forallb (lacks QUOTE) add = true -> lacks LT l = true -> clis (replace_node_with_handrails f i add l b t).
Proof.
  intros Ha Hl. unfold replace_node_with_handrails. eapply pl_bind; [apply pl_hr_from_node, Ha|]. intros hr Hhr.
  eapply (pl_bind _ _ (fun x => lacks LT x = true)). { destruct l; [apply pl_reftext|apply pl_ret; exact Hl]. }
  intros x Hx. eapply pl_bind; [apply pl_link_of|intros link _]. apply pl_ret. apply handrail_clean; [exact Hhr|apply menu_zone_clean, Hx|reflexivity].
Qed.
Lemma pl_subproof_handrails i : clis (subproof_handrails i).
Proof. unfold subproof_handrails. eapply pl_bind; [apply pl_hr_from_node; reflexivity|]. intros hr Hhr. apply pl_ret. apply handrail_clean; [exact Hhr|reflexivity|reflexivity]. Qed.
Lemma pl_step_handrails f i : clis (step_handrails f i).
Proof.
  unfold step_handrails. pstep. eapply pl_bind; [apply pl_link_of|intros link _]. pstep.
  eapply (pl_bind _ _ (fun k => clean_cmd k = true)).
  { destruct x as [[s k]|]; [|apply pl_ret, menu_zone_clean; assumption]. pstep. destruct x; apply pl_ret, menu_zone_clean; assumption. }
  intros menu Hm. eapply pl_bind; [apply pl_hr_from_node; reflexivity|]. intros hr Hhr. apply pl_ret. apply handrail_clean; [exact Hhr|exact Hm|reflexivity].
Qed.
Lemma take_clean k l : forallb clean_cmd l = true -> forallb clean_cmd (take k l) = true /\ forallb clean_cmd (drop k l) = true.
Proof. intros H. rewrite <- (take_drop k l), forallb_app in H. apply andb_true_iff in H. exact H. Qed.
Lemma lookup_clean l k x : forallb clean_cmd l = true -> l !! k = Some x -> clean_cmd x = true.
Proof. intros H E. rewrite forallb_forall in H. apply H, elem_of_list_In, elem_of_list_lookup. exists k. exact E. Qed.
Lemma insert_clean l k x : forallb clean_cmd l = true -> clean_cmd x = true -> forallb clean_cmd (<[k := x]> l) = true.
Proof.
  intros H Hx. revert k. induction l as [|y l IH]; intros k; [reflexivity|]. cbn [forallb] in H. apply andb_true_iff in H as [H1 H2].
  destruct k; cbn; [rewrite Hx; exact H2|]. rewrite H1. apply IH, H2.
Qed.
Lemma removelast_clean l : forallb clean_cmd l = true -> forallb clean_cmd (removelast l) = true.
Proof.
  induction l as [|x l IH]; [reflexivity|]. cbn [forallb]. intros H. apply andb_true_iff in H as [H1 H2]. cbn [removelast].
  destruct l; [reflexivity|]. apply all_cons; [exact H1|apply IH, H2].
Qed.
Lemma hr_tag_clean d c : forallb (lacks QUOTE) c = true -> clean_tag (hr_tag d c) = true.
Proof. intros H. unfold hr_tag. lk. destruct (_ <? _)%Z; reflexivity. Qed.
Lemma pl_wrap_item k items cl ic b l t : forallb clean_cmd items = true -> forallb (lacks QUOTE) cl = true ->
  match ic with Some x => lacks QUOTE x = true | None => True end -> lacks LT l = true -> clis (wrap_item k items cl ic b l t).
Proof.
  intros Hi Hc Hic Hl. unfold wrap_item. cbv zeta. destruct (items !! k) as [x|] eqn:E; [|apply pl_raise]. apply pl_ret.
  pose proof (hr_tag_clean 0 _ Hc) as Hg. rewrite !forallb_app. rewrite (proj1 (take_clean k items Hi)), (proj2 (take_clean (S k) items Hi)), andb_true_r, andb_true_l.
  cbn [forallb]. rewrite collapse_zone_clean, (menu_zone_clean _ _ _ _ Hl), (lookup_clean _ _ _ Hi E), (icon_clean _ Hic).
  cbn [clean_cmd]. rewrite Hg, (close_clean _ Hg). reflexivity.
Qed.
Lemma pl_source_div r : src = true -> pl (source_div r) (fun k => clean_cmd k = true).
Proof.
  intros Hs. unfold source_div. pstep. destruct (n_attrs x !! a_src) as [v|] eqn:E; [|apply pl_raise]. apply H in E. apply pl_ret.
  cbn [clean_cmd]. apply div_clean; [reflexivity|]. cbn [toks forallb clean_tok]. rewrite (pa_text _ _ _ _ E); [reflexivity|].
  rewrite Hs. apply (bool_decide_eq_true_1 (a_src ∈ _)). reflexivity.
Qed.
Lemma sn_quote n : lacks QUOTE (Handrails.sn n) = true. Proof. apply lacks_nat. reflexivity. Qed.
Lemma circle_clean o a b c : match o with Some x => lacks QUOTE x = true | None => True end -> clean_tok (circle o a b c) = true.
Proof.
  intros H. unfold circle. cbn [clean_tok].
  assert (G : forall k n, clean_attrib (AQ k (Handrails.sn n)) = word k) by (intros; cbn [clean_attrib]; rewrite sn_quote, andb_true_r; reflexivity).
  assert (forallb clean_attrib (match o with None => [] | Some x => [AQ (lit "id") x] end) = true) as E1 by
    (destruct o; [cbn [forallb clean_attrib]; rewrite H; reflexivity|reflexivity]).
  rewrite !forallb_app, E1. cbn [forallb]. rewrite !G. destruct c; reflexivity.
Qed.
Lemma pl_circles w n r : pl (minimap_circles w n r) (Forall (fun x => toks x = true)).
Proof.
  unfold minimap_circles. cbv zeta. pstep. destruct x; try apply pl_raise. pstep. destruct (radius x); [|apply pl_raise]. pstep. apply pl_ret.
  destruct w; (constructor; [|constructor; [|constructor]]); cbn [toks forallb]; rewrite ?circle_clean; try reflexivity; try exact I.
  - cbn [clean_tok forallb clean_attrib]. rewrite lacks_app, (quote_of _ H0). reflexivity.
  - rewrite lacks_app, (quote_of _ H0). reflexivity.
Qed.
Lemma pl_minimap_all w rs : forall n, pl (minimap_all w n rs) (Forall (fun x => toks x = true)).
Proof.
  induction rs as [|r rs IH]; intros n; cbn [minimap_all]; [apply pl_ret; constructor|]. eapply pl_bind; [apply pl_circles|]. intros x Hx.
  eapply pl_bind; [apply IH|]. intros xs Hxs. apply pl_ret, Forall_app. split; assumption.
Qed.
Lemma svg_clean fo h : fo = "scroll"%string \/ fo = "mouse"%string -> toks (svg_start fo h) = true.
Proof.
  intros Hf. unfold svg_start. cbv zeta. unfold toks.
  repeat (apply all_cons; [first [apply nls_clean|cbn [clean_tok forallb clean_attrib]; rewrite ?lacks_app, ?sn_quote; destruct Hf as [-> | ->]; reflexivity]|]).
  reflexivity.
Qed.
Lemma pl_make_minimap f i fo w : fo = "scroll"%string \/ fo = "mouse"%string -> clis (make_minimap f i fo w).
Proof.
  intros Hf. unfold make_minimap. eapply pl_bind; [apply pl_traverse|intros refs _]. eapply pl_bind; [apply pl_minimap_all|]. intros cs Hcs. cbv zeta. apply pl_ret.
  cbn [forallb clean_cmd]. rewrite !toks_app, svg_clean, tok_join_clean; try assumption; try reflexivity.
Qed.
Lemma first_classes_clean g l : (forall c, forallb (lacks QUOTE) c = true -> forallb (lacks QUOTE) (g c) = true) -> forallb clean_cmd l = true ->
  forallb clean_cmd (map_first_classes g l) = true.
Proof.
  intros Hg Hl. destruct l as [|[| | | |t| | |] l]; try exact Hl. cbn [forallb clean_cmd map_first_classes] in *. apply andb_true_iff in Hl as [H1 H2]. rewrite H2.
  unfold clean_tag in *. cbn [tg_tag tg_id tg_classes tg_nodeid]. rewrite !andb_true_iff in H1. destruct H1 as [[[H1 H3] H4] H5]. rewrite H1, H3, H5, (Hg _ H4). reflexivity.
Qed.
Lemma hv_manuscript_cl b root f i : (b = true -> src = true) -> cl (hv_manuscript b root f i).
Proof.
  intros Hb. unfold hv_manuscript. eapply pl_bind; [apply pv_manuscript|]. intros c Hc. pstep. pstep.
  eapply (pl_bind _ _ (fun l => forallb clean_cmd l = true)).
  { destruct (truthy x0); [apply pl_wrap_item; try reflexivity; try exact I; assumption|apply pl_ret; assumption]. }
  intros l Hl. eapply (pl_bind _ _ (fun l => forallb clean_cmd l = true)).
  { destruct b; [|apply pl_ret; exact Hl]. eapply pl_bind; [apply pl_source_div, Hb, eq_refl|]. intros d Hd. apply pl_ret. apply insert_nth_clean; assumption. }
  intros l2 Hl2. pstep. destruct x1 as [[t k]|]; [|apply pl_ret; exact Hl2].
  eapply pl_bind; [apply pl_make_minimap; auto|]. intros mm Hmm. apply pl_ret. cbn [clean_cmd]. rewrite !forallb_app, Hmm.
  rewrite (proj1 (take_clean 3 _ Hl2)), (proj2 (take_clean 3 _ Hl2)). reflexivity.
Qed.
Lemma hv_author_cl f i : cl (hv_author f i).
Proof.
  unfold hv_author. eapply pl_bind; [apply pv_author|]. intros c Hc. eapply pl_bind; [apply pl_replace; reflexivity|]. intros hr Hhr. pstep. apply pl_ret.
  cbn [clean_cmd]. rewrite forallb_app, Hhr. apply (take_clean 2), removelast_clean. assumption.
Qed.
Lemma pl_wrap_heading f i ic l : forallb clean_cmd l = true -> match ic with Some x => lacks QUOTE x = true | None => True end -> clis (wrap_heading f i ic l).
Proof.
  intros Hl Hic. unfold wrap_heading. pstep. eapply pl_bind; [apply pl_link_of|intros link _]. apply pl_wrap_item; try reflexivity; assumption.
Qed.
Lemma hv_section_cl f i : cl (hv_section f i).
Proof.
  unfold hv_section. eapply pl_bind; [apply pv_section|]. intros c Hc. pstep. eapply pl_bind; [apply pl_icon_of|]. intros ic Hic.
  eapply pl_bind; [apply pl_wrap_heading; eassumption|]. intros l Hl. apply pl_ret. exact Hl.
Qed.
Lemma hv_abstract_cl f i : cl (hv_abstract f i).
Proof.
  unfold hv_abstract. eapply pl_bind; [apply pv_abstract|]. intros c Hc. pstep.
  eapply pl_bind; [apply pl_wrap_heading; [eassumption|exact I]|]. intros l Hl. apply pl_ret. exact Hl.
Qed.
Lemma hv_contents_cl f i : cl (hv_contents f i).
Proof.
  unfold hv_contents. eapply pl_bind; [apply pv_contents|]. intros c Hc. pstep.
  eapply pl_bind; [apply pl_wrap_heading; [eassumption|exact I]|]. intros l Hl. eapply pl_bind; [apply pl_make_minimap; auto|]. intros mm Hmm. apply pl_ret.
  cbn [clean_cmd]. rewrite !forallb_app, Hmm, removelast_clean by assumption. cbn [andb].
  destruct (rev l) as [|y r] eqn:E; [reflexivity|]. apply all_cons; [|reflexivity]. rewrite forallb_forall in Hl. apply Hl, in_rev. rewrite E. left. reflexivity.
Qed.
Lemma hv_bibliography_cl f i : cl (hv_bibliography f i).
Proof.
  unfold hv_bibliography. eapply pl_bind; [apply pv_bibliography|]. intros c Hc. pstep. pstep.
  eapply pl_bind; [apply pl_wrap_heading; [apply insert_clean; assumption|exact I]|]. intros l Hl. apply pl_ret. exact Hl.
Qed.
Lemma hv_paragraph_cl f i : cl (hv_paragraph f i).
Proof.
  unfold hv_paragraph. eapply pl_bind; [apply pv_paragraph|]. intros c Hc. eapply pl_bind; [apply pl_replace; reflexivity|]. intros hr Hhr. cbv zeta. pstep. apply pl_ret.
  cbn [clean_cmd]. rewrite forallb_app. apply andb_true_iff. split; [|apply (take_clean 1); assumption].
  apply first_classes_clean; [|exact Hhr]. intros q Hq. destruct (str_mem _ _); lk.
Qed.
Lemma hv_labeled_cl f b t i : (forall x, cl (b x)) -> cl (hv_labeled f b t i).
Proof.
  intros Hb. unfold hv_labeled. eapply pl_bind; [apply Hb|]. intros c Hc. eapply pl_bind; [apply pl_replace; reflexivity|]. intros hr Hhr. pstep. apply pl_ret.
  cbn [clean_cmd]. rewrite forallb_app, Hhr. apply (take_clean 1). assumption.
Qed.
Lemma remove_first_lacks x l : forallb (lacks QUOTE) l = true -> forallb (lacks QUOTE) (remove_first x l) = true.
Proof.
  induction l as [|y l IH]; [reflexivity|]. cbn [forallb remove_first]. intros H. apply andb_true_iff in H as [H1 H2]. destruct (str_eqb x y); [exact H2|].
  apply all_cons; [exact H1|apply IH, H2].
Qed.
Lemma hv_subproof_cl i : cl (hv_subproof i).
Proof.
  unfold hv_subproof. eapply pl_bind; [apply pl_subproof_handrails|]. intros hr Hhr. apply pl_ret. cbn [clean_cmd].
  apply first_classes_clean; [|exact Hhr]. intros q Hq. apply remove_first_lacks, Hq.
Qed.
Lemma hv_step_cl f i : cl (hv_step f i).
Proof. unfold hv_step. eapply pl_bind; [apply pl_step_handrails|]. intros hr Hhr. apply pl_ret. exact Hhr. Qed.
Lemma hv_math_cl i : cl (hv_math i).
Proof.
  unfold hv_math. eapply pl_bind; [apply pv_math|]. intros c Hc. pstep. destruct x as [s|]; [|apply pl_ret; exact Hc]. pstep.
  destruct (negb x); [apply pl_ret; exact Hc|]. pstep. destruct x0 as [|ch rest]; [apply pl_ret; exact Hc|]. destruct (N.eqb ch 46); [|apply pl_ret; exact Hc].
  eapply pl_bind; [apply pl_setattr; [apply flag_plain; auto|discriminate]|intros _ _]. pstep. eapply pl_bind.
  { apply pl_setattr; [apply text_plain|discriminate]. pose proof (pa_body _ _ _ _ H _ eq_refl eq_refl) as Hb. cbn [harmless] in Hb. apply andb_true_iff in Hb. apply Hb. }
  intros _ _. apply pl_ret. lk.
Qed.
Lemma hv_mathblock_cl f i : cl (hv_mathblock f i).
Proof.
  unfold hv_mathblock. pstep. eapply (pl_bind _ _ (fun x => lacks LT x = true)).
  { destruct (truthy x); [apply pl_ret; reflexivity|]. pstep. apply pl_ret. eapply lacks_incl; [apply strip_incl|]. lk. }
  intros l Hl. eapply pl_bind; [apply pl_replace; [reflexivity|exact Hl]|]. intros hr Hhr. cbv zeta. apply pl_ret. lk; try reflexivity.
  apply first_classes_clean; [|exact Hhr]. intros q Hq. lk.
Qed.
Lemma hv_bibitem_cl f i : cl (hv_bibitem f i).
Proof.
  unfold hv_bibitem. eapply pl_bind; [apply pl_bibitem_parts|]. intros [[text dt] back] Hp. pstep. cbv zeta.
  eapply pl_bind; [apply pl_wrap_item; [|reflexivity|reflexivity|reflexivity]|].
  { lk. apply bibitem_text_clean, Hp. }
  intros hr Hhr. destruct Hp as (H1 & H2 & H3). cbn [fst snd] in *. destruct dt as [|a dt].
  - pstep. apply pl_ret. exact Hhr.
  - apply pl_ret. cbn [clean_cmd]. cbn [toks forallb] in H2. apply andb_true_iff in H2 as [Ha _].
    apply insert_nth_clean; [reflexivity|]. apply insert_nth_clean; [reflexivity|]. apply insert_clean; [apply insert_clean; [exact Hhr|]|].
    + lk.
    + lk; try assumption; reflexivity.
Qed.
Lemma insert_info_cl k x u r : clean_step u r -> clean_cmd x = true -> pl (insert_info k x r) (clean_step u).
Proof.
  intros [H1 H2] Hx. unfold insert_info. pstep. apply pl_ret. split; [|exact H2]. cbn [fst clean_cmd].
  destruct k; [apply insert_nth_clean; assumption|apply before_last_clean; assumption].
Qed.
Lemma hv_method b root f m i c : (b = true -> src = true) -> (m = CFigure -> c <> CUnknownBibitem) ->
  plc i c (hvisit_method hl b root f m i) (fun k => clean_cmd k = true).
Proof.
  intros Hb Hm. destruct m; cbn [hvisit_method]; try (apply pv_method; assumption).
  all: clear Hm; apply plc_pl; lazymatch goal with
  | |- pl (hv_manuscript _ _ _ _) _ => apply hv_manuscript_cl, Hb
  | |- pl (hv_author _ _) _ => apply hv_author_cl
  | |- pl (hv_section _ _) _ => apply hv_section_cl
  | |- pl (hv_abstract _ _) _ => apply hv_abstract_cl
  | |- pl (hv_contents _ _) _ => apply hv_contents_cl
  | |- pl (hv_bibliography _ _) _ => apply hv_bibliography_cl
  | |- pl (hv_paragraph _ _) _ => apply hv_paragraph_cl
  | |- pl (hv_labeled _ (visit_theorem _) _ _) _ => apply hv_labeled_cl; intros; apply pv_theorem
  | |- pl (hv_labeled _ visit_sketch _ _) _ => apply hv_labeled_cl; intros; apply pv_sketch
  | |- pl (hv_labeled _ visit_proof _ _) _ => apply hv_labeled_cl; intros; apply pv_proof
  | |- pl (hv_subproof _) _ => apply hv_subproof_cl
  | |- pl (hv_step _ _) _ => apply hv_step_cl
  | |- pl (hv_math _) _ => apply hv_math_cl
  | |- pl (hv_mathblock _ _) _ => apply hv_mathblock_cl
  | |- pl (hv_bibitem _ _) _ => apply hv_bibitem_cl
  end.
Qed.
Lemma hl_icon k i u (m : M (cmd * tst)) : pl m (clean_step u) ->
  pl (let! r := m in let! ic := icon_of i in insert_info k (hr_info_zone_icon ic) r) (clean_step u).
Proof.
  intros Hm. eapply pl_bind; [exact Hm|]. intros r Hr. eapply pl_bind; [apply pl_icon_of|]. intros ic Hic. apply insert_info_cl; [exact Hr|apply icon_clean, Hic].
Qed.
Lemma hl_number k y f i u (m : M (cmd * tst)) : pl m (clean_step u) ->
  pl (let! r := m in let! fn := full_number f i in insert_info k (hr_info_zone_number fn y) r) (clean_step u).
Proof.
  intros Hm. eapply pl_bind; [exact Hm|]. intros r Hr. pstep. apply insert_info_cl; [exact Hr|]. apply number_clean. assumption.
Qed.
Lemma hl_math_cl i u : clean_tst u -> pl (hl_math i u) (clean_step u).
Proof.
  intros Hu. unfold hl_math. eapply pl_bind; [apply pl_leave_node, Hu|]. intros [c v] [Hc Hv]. pstep. destruct x; [|apply pl_ret; split; assumption].
  cbn [fst snd] in *. pstep. apply pl_ret. split; [|exact Hv]. cbn [fst]. lk.
Qed.
Lemma hl_method f m i u : clean_tst u -> pl (hleave_method f m i u) (clean_step u).
Proof.
  intros Hu. destruct m; cbn [hleave_method]; try (apply pl_leave_method, Hu).
  all: first [apply hl_math_cl, Hu|apply hl_icon; apply pl_leave_node, Hu|apply hl_icon; apply pl_leave_paragraph, Hu
             |apply hl_number; apply pl_leave_node, Hu|apply hl_number; apply pl_leave_mathblock, Hu].
Qed.
Lemma hr_clean b root : (b = true -> src = true) -> clean_tc (hr_tc hl b root).
Proof.
  intros Hb. split; cbn [hr_tc tc_visit tc_leave].
  - intros f i. unfold hr_visit. apply pl_with_class. intros c. destruct (dispatch _ c) eqn:E; [|apply plc_pl, pl_raise].
    apply hv_method; [exact Hb|]. intros -> ->. discriminate E.
  - intros f i u Hu. unfold hr_leave. pstep. destruct (dispatch _ _); [apply hl_method, Hu|apply pl_raise].
Qed.
Lemma pl_translate_handrails b f i : (b = true -> src = true) -> pl (translate_handrails hl b f i) (fun ts => toks ts = true).
Proof. intros Hb. unfold translate_handrails. eapply pl_bind; [apply pl_log|intros _ _]. apply pl_run; [apply hr_clean, Hb|apply ext_clean]. Qed.
End Plain.

Lemma all_clean ts : toks ts = true -> Forall (fun t => clean_tok t = true) ts.
Proof. intros H. apply list.Forall_forall. intros t Ht. unfold toks in H. rewrite forallb_forall in H. apply H, elem_of_list_In, Ht. Qed.
Lemma translate_read hl f i s s' h : plain_heap hl false (st_heap s) -> translate hl f i s = (s', Ok h) -> read_html (render h) = letters h.
Proof. intros Hp E. apply read_render, all_clean. eapply pl_translate; eassumption. Qed.
Lemma handrails_read hl b f i s s' h : plain_heap hl b (st_heap s) -> translate_handrails hl b f i s = (s', Ok h) -> read_html (render h) = letters h.
Proof. intros Hp E. apply read_render, all_clean. eapply (pl_translate_handrails hl b); [|eassumption|eassumption]. auto. Qed.
