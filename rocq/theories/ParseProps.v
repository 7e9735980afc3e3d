(** The normalised manuscript as the heap holds it, and the report of syntax errors. *)
From Verif Require Import TreeFacts Meta TocBuild.
From Verif Require Export ParseEnds ParseDemo.
From Verif Require Import Consistency NodeProofs NodeOps Monad.
Local Open Scope string_scope.
Local Open Scope list_scope.

(** ** Specification *)

(** The node [i] is a text. *)
Definition text_at_id (h : gmap id node) (i : id) : Prop := exists n, h !! i = Some n /\ subclass (n_cls n) CText = true.
(** [x] and [y] are next to each other. *)
Definition adjacent {X} (x y : X) (l : list X) : Prop := exists l1 l2, l = l1 ++ x :: y :: l2.
(** Syntax nodes whose children become nodes: the file, sections, and paragraphs which do not start
    with an item or a caption. *)
Definition container (c : cst) : bool :=
  type_in ["source_file"; "section"; "subsection"; "subsubsection"] (c_type c) ||
  is_type "paragraph" c && match named_children c with x :: _ => negb (type_in ["item"; "caption"] (c_type (pl_node x))) | [] => false end.
(** [d] is a syntax error at [c] or below, on a way through containers, and not part of a title. *)
Inductive error_in : cst -> cst -> Prop :=
| error_here d : is_type "ERROR" d = true -> error_in d d
| error_below c d x : container c = true -> In x (places c) -> c_named (pl_node x) = true -> str_mem (c_type (pl_node x)) push_types = true ->
    c_field (pl_node x) = None -> error_in (pl_node x) d -> error_in c d.

(** ** Nodes of the heap *)

Lemma holds_inside h t : forall p a i, SpecParse.holds h p t a -> In i (doc_order t) ->
  exists q us b, SpecParse.holds h q (T i us) b /\ In b (a_preorder a) /\ (b = a /\ t = T i us \/ exists u, In u (a_kids a) /\ In b (a_preorder u)).
Proof.
  induction t as [j us IH] using tree_ind'. intros p a i H Hi. inversion H as [? ? n ? ts Hn Hp Hk Hts]; subst.
  destruct Hi as [<-|Hi].
  - exists (n_parent n), us, (A (n_cls n) (n_attrs n) ts). split; [assumption|]. split; [left; reflexivity|]. left. auto.
  - assert (Hx : exists q vs b u, SpecParse.holds h q (T i vs) b /\ In u ts /\ In b (a_preorder u)).
    { clear H Hk. induction Hts as [|u b us ts Hu Hts IHl]; [destruct Hi|]. apply list.Forall_cons in IH as [IHu IH]. rewrite doc_orders_cons in Hi.
      apply in_app_iff in Hi as [Hi|Hi].
      - destruct (IHu _ _ _ Hu Hi) as (q & vs & b' & H1 & H2 & _). exists q, vs, b', b. split; [assumption|]. split; [left; reflexivity|assumption].
      - destruct (IHl IH Hi) as (q & vs & b' & u' & H1 & H2 & H3). exists q, vs, b', u'. split; [assumption|]. split; [right; assumption|assumption]. }
    destruct Hx as (q & vs & b & u & H1 & H2 & H3). exists q, vs, b. split; [assumption|]. split.
    + right. apply in_flat_map. eauto.
    + right. exists u. auto.
Qed.
Lemma texts_apart_adjacent ts t u : texts_apart ts -> adjacent t u ts -> text_node t = true -> text_node u = true -> False.
Proof.
  intros H (l1 & l2 & ->). induction l1 as [|x l1 IH]; [intros; apply (proj1 H); auto|]. apply IH. destruct H as [_ H]. exact H.
Qed.
Lemma holds_class h p i us a n : SpecParse.holds h p (T i us) a -> h !! i = Some n -> a_class a = n_cls n /\ a_attrs a = n_attrs n.
Proof. intros H Hn. inversion H as [? ? n' ? ts Hn' Hp Hk Hts]; subst. assert (n' = n) as -> by congruence. split; reflexivity. Qed.
Lemma Forall2_adjacent {X Y} (R : X -> Y -> Prop) l1 : forall l x y r ys, l = l1 ++ x :: y :: r -> Forall2 R l ys ->
  exists x' y', adjacent x' y' ys /\ R x x' /\ R y y'.
Proof.
  induction l1 as [|z l1 IH]; intros l x y r ys -> H; cbn [app] in H.
  - inversion H as [|? x' ? ? Hx H1]; subst. inversion H1 as [|? y' ? ys' Hy H2]; subst. exists x', y'. split; [exists [], ys'; reflexivity|auto].
  - inversion H as [|? z' ? ys' Hz H1]; subst. destruct (IH _ _ _ _ _ eq_refl H1) as (x' & y' & (m1 & m2 & ->) & Hx & Hy).
    exists x', y'. split; [exists (z' :: m1), m2; reflexivity|auto].
Qed.
Definition everywhere (a : atree) : Prop := forall x, In x (a_preorder a) -> texts_apart (a_kids x) /\ (text_node x = true -> tight (text_of x)).
Lemma everywhere_sourced c a : text_node a = false -> everywhere a -> everywhere (sourced c a).
Proof.
  destruct a as [k m ts]. intros Ht H x Hx. cbn [sourced] in Hx. destruct Hx as [<-|Hx].
  - split; [exact (proj1 (H _ (or_introl eq_refl)))|]. unfold text_node in *. cbn [a_class] in *. congruence.
  - apply H. right. exact Hx.
Qed.
Lemma parse_everywhere fuel c s s' r : source c -> good s -> parse fuel c s = (s', Ok r) -> everywhere (sourced c (norm (mirrored c))).
Proof.
  intros Hc Hg H. destruct (parse_ok _ _ _ _ _ Hc Hg H) as (us & _ & Hh & _).
  assert (El : leafy (mirrored c)).
  { unfold parse in H. apply bind_ok in H as (s1 & u1 & H1 & H). unfold info, log_rec in H1. injection H1 as <- <-.
    apply bind_ok in H as (s2 & u2 & H2 & H). unfold info, log_rec in H2. injection H2 as <- <-. cbn [st_heap st_next st_logs] in H.
    match type of H with bind _ _ ?S = _ => set (s0 := S) in H end. assert (Hg0 : good s0) by exact Hg.
    apply bind_ok in H as (s1 & r1 & H1 & H).
    assert (Ha : abstractify fuel c s0 = (s1, Ok r1)).
    { unfold catch in H1. destruct (abstractify fuel c s0) as [s2 [x|e]]; [congruence|]. destruct e; discriminate H1. }
    unfold abstractify in Ha. apply bind_ok in Ha as (s2 & v & H2 & Ha). destruct (abs_loop_mirrors _ _ _ _ _ Hc Hg0 H2) as (t & _ & Hm & _).
    eapply holds_leafy, Hm. }
  apply everywhere_sourced.
  - unfold mirrored. rewrite norm_eq. reflexivity.
  - intros x Hx. apply (norm_everywhere (mirrored c)); [reflexivity|exact El|exact Hx].
Qed.
Lemma parsed_texts_apart fuel c s s' r : source c -> good s -> parse fuel c s = (s', Ok r) ->
  exists t, root t = r /\ manuscript s' t /\
    forall p n a b, In p (doc_order t) -> st_heap s' !! p = Some n -> adjacent a b (kids n) ->
      ~ (text_at_id (st_heap s') a /\ text_at_id (st_heap s') b).
Proof.
  intros Hc Hg H. pose proof (parse_everywhere _ _ _ _ _ Hc Hg H) as He.
  destruct (parsed_manuscript _ _ _ _ _ Hc Hg H) as (t & Hr & Hm & Hh). exists t. split; [assumption|]. split; [assumption|].
  intros p n a b Hp Hn Had [(na & Ha & Hta) (nb & Hb & Htb)]. destruct (holds_inside _ _ _ _ _ Hh Hp) as (q & us & x & Hx & Hin & _).
  inversion Hx as [? ? n' ? ts Hn' Hp' Hk Hts]; subst. assert (n' = n) as -> by congruence. destruct Had as (l1 & l2 & E).
  rewrite Hk in E. assert (Hsplit : exists us1 ua ub us2, us = us1 ++ ua :: ub :: us2 /\ root ua = a /\ root ub = b).
  { apply map_eq_app in E as (us1 & us2 & -> & _ & E2). apply map_eq_cons in E2 as (ua & us3 & -> & Ea & E3). apply map_eq_cons in E3 as (ub & us4 & -> & Eb & _).
    exists us1, ua, ub, us4. auto. }
  destruct Hsplit as (us1 & ua & ub & us2 & -> & <- & <-). destruct (Forall2_adjacent _ _ _ _ _ _ _ eq_refl Hts) as (xa & xb & Had & Hxa & Hxb).
  destruct (He _ Hin) as [Hap _]. cbn [a_kids] in Hap. destruct ua as [ia ua], ub as [ib ub]. cbn [root] in *.
  destruct (holds_class _ _ _ _ _ _ Hxa Ha) as [Ca _]. destruct (holds_class _ _ _ _ _ _ Hxb Hb) as [Cb _].
  eapply texts_apart_adjacent; [exact Hap|exact Had| |]; unfold text_node; [rewrite Ca|rewrite Cb]; assumption.
Qed.
Lemma parsed_texts_tight fuel c s s' r : source c -> good s -> parse fuel c s = (s', Ok r) ->
  exists t, root t = r /\ manuscript s' t /\
    forall i n x, In i (doc_order t) -> st_heap s' !! i = Some n -> subclass (n_cls n) CText = true -> n_attrs n !! a_text = Some (VStr x) -> tight x.
Proof.
  intros Hc Hg H. pose proof (parse_everywhere _ _ _ _ _ Hc Hg H) as He.
  destruct (parsed_manuscript _ _ _ _ _ Hc Hg H) as (t & Hr & Hm & Hh). exists t. split; [assumption|]. split; [assumption|].
  intros i n x Hi Hn Ht Hx. destruct (holds_inside _ _ _ _ _ Hh Hi) as (q & us & a & Ha & Hin & _).
  destruct (holds_class _ _ _ _ _ _ Ha Hn) as [Ca Cm]. destruct (He _ Hin) as [_ Hti]. unfold text_node, text_of in Hti. rewrite Ca, Cm, Hx in Hti. auto.
Qed.

(** ** Whitespace *)

Lemma squeeze_words s : tidy (chars (squeeze s)) = tidy (chars s).
Proof. apply tidy_same, (same_squeeze (fun s => s)), wordwise_id. Qed.

(** ** Errors *)

Lemma request_pushed q x skip c : In x (pushed skip c) -> In q (snd (out x)) -> In q (requests_of (handed_on skip (places_and_outcomes c))).
Proof. intros Hx Hq. rewrite handed_on_eq. unfold requests_of. apply in_flat_map. exists (out x). split; [apply in_map, Hx|exact Hq]. Qed.
Lemma unfielded_pushed name c x : In x (places c) -> c_named (pl_node x) = true -> str_mem (c_type (pl_node x)) push_types = true -> c_field (pl_node x) = None ->
  In x (pushed (match field_child name c with Some q => [pl_pos q] | None => [] end) c).
Proof.
  intros Hx Hn Ht Hf. unfold pushed, named_children. apply filter_In. split; [apply filter_In; auto|]. rewrite Ht. cbn [andb].
  destruct (field_child name c) as [q|] eqn:E; [|reflexivity]. cbn [existsb]. rewrite orb_false_r. apply negb_true_iff, Nat.eqb_neq. intros Ep.
  unfold field_child in E. apply find_some in E as [Hq Hfq]. assert (Hinj : forall l k prev x q, In x (places_from k prev l) -> In q (places_from k prev l) -> pl_pos x = pl_pos q -> x = q).
  { clear. induction l as [|c l IH]; intros k prev x q Hx Hq E; [destruct Hx|]. cbn [places_from] in Hx, Hq.
    assert (Hge : forall l k prev y, In y (places_from k prev l) -> k <= pl_pos y).
    { clear. induction l as [|c l IH]; intros k prev y Hy; [destruct Hy|]. cbn [places_from] in Hy. destruct Hy as [<-|Hy]; [apply le_n|]. apply IH in Hy. lia. }
    destruct Hx as [<-|Hx], Hq as [<-|Hq].
    - reflexivity.
    - apply Hge in Hq. cbn [pl_pos] in E. lia.
    - apply Hge in Hx. cbn [pl_pos] in E. lia.
    - eapply IH; eassumption. }
  rewrite <- (Hinj _ _ _ _ _ Hx Hq Ep), Hf in Hfq. discriminate Hfq.
Qed.
Lemma container_type c : container c = true -> is_type "source_file" c = true \/ is_type "section" c = true \/ is_type "subsection" c = true \/ is_type "subsubsection" c = true \/
  is_type "paragraph" c = true /\ exists x, nth_error (named_children c) 0 = Some x /\ type_in ["item"; "caption"] (c_type (pl_node x)) = false.
Proof.
  unfold container. intros H. apply orb_true_iff in H as [H|H].
  - unfold type_in, str_mem in H. cbn [map existsb] in H. rewrite !orb_true_iff in H. unfold is_type. destruct H as [H|[H|[H|[H|H]]]]; auto. discriminate H.
  - apply andb_true_iff in H as [H1 H2]. right. right. right. right. split; [exact H1|]. destruct (named_children c) as [|x l]; [discriminate H2|]. exists x. split; [reflexivity|].
    apply negb_true_iff, H2.
Qed.
Lemma is_type_eq t c : is_type t c = true -> c_type c = lit t. Proof. apply is_type_true. Qed.
Lemma container_out c d x : container (pl_node c) = true -> In x (places (pl_node c)) -> c_named (pl_node x) = true -> str_mem (c_type (pl_node x)) push_types = true ->
  c_field (pl_node x) = None -> In (RErr d) (snd (out x)) -> In (RErr d) (snd (out c)).
Proof.
  intros Hc Hx Hn Ht Hf Hd. rewrite out_eq. unfold mirror_at.
  assert (Hp : In x (pushed [] (pl_node c))).
  { unfold pushed, named_children. apply filter_In. split; [apply filter_In; auto|]. rewrite Ht. reflexivity. }
  destruct (container_type _ Hc) as [E|[E|[E|[E|[E (y & Hy & Hty)]]]]]; apply is_type_eq in E.
  1-4: unfold is_type; rewrite E; cbn -[handed_on skipped_title requests_of section_attrs nodes_of node_class places_and_outcomes lit]; 
       apply (request_pushed _ x); [apply (unfielded_pushed "title"); assumption|exact Hd].
  unfold is_type. rewrite E. rewrite first_named_eq, Hy. cbn [option_map].
  cbn -[as_node type_in places_and_outcomes]. rewrite Hty. unfold as_node. cbn [snd]. apply in_app_iff. right.
  apply (request_pushed _ x); [|exact Hd]. exact Hp.
Qed.
Lemma error_requested c d : error_in c d -> forall x, pl_node x = c -> In (RErr d) (snd (out x)).
Proof.
  induction 1 as [d Hd|c d y Hc Hy Hn Ht Hf _ IH]; intros x Ex.
  - rewrite out_eq. unfold mirror_at. rewrite Ex. apply is_type_eq in Hd. unfold is_type. rewrite Hd.
    cbn -[as_node type_in places_and_outcomes]. unfold as_node. cbn -[handed_on skipped_parts places_and_outcomes requests_of]. rewrite Ex. left. reflexivity.
  - subst c. eapply container_out; try eassumption. apply IH. reflexivity.
Qed.
Lemma warned d l : forall b, In (RErr d) l -> In (MkLog logger_parse WARNING (lit "The CST contains errors.") (Some (c_start d))) (warnings b l).
Proof.
  induction l as [|q l IH]; intros b H; [destruct H|]. destruct H as [-> |H]; [left; reflexivity|].
  destruct q as [|c|c]; cbn [warnings]; [apply IH, H|apply in_app_iff; right; apply IH, H|right; apply IH, H].
Qed.
Lemma parse_warns fuel c d s s' r : source c -> good s -> parse fuel c s = (s', Ok r) -> error_in c d ->
  In (MkLog logger_parse WARNING (lit "The CST contains errors.") (Some (c_start d))) (st_logs s').
Proof.
  intros Hc Hg H He. destruct (parse_ok _ _ _ _ _ Hc Hg H) as (us & _ & _ & _ & _ & Hl). rewrite Hl. apply in_app_iff. right. unfold parse_records.
  apply in_app_iff. right. apply warned. destruct Hc as [Hsf _]. pose proof (error_requested _ _ He (alone c) eq_refl) as Hd.
  rewrite out_eq in Hd. unfold mirror_at in Hd. cbn [alone pl_node] in Hd. apply is_type_eq in Hsf. unfold is_type in Hd. rewrite Hsf in Hd.
  cbn -[handed_on skipped_title requests_of section_attrs nodes_of node_class places_and_outcomes lit] in Hd. exact Hd.
Qed.
Lemma parse_log fuel c s s' r : source c -> good s -> parse fuel c s = (s', Ok r) -> st_logs s' = st_logs s ++ parse_records c.
Proof. intros Hc Hg H. destruct (parse_ok _ _ _ _ _ Hc Hg H) as (us & _ & _ & _ & _ & Hl). exact Hl. Qed.

(** ** Every node is kept *)

Lemma leafy_inside x t : leafy t -> In x (a_preorder t) -> text_node t = true -> x = t.
Proof. destruct t as [c m ts]. intros [H _] Hx Ht. assert (ts = []) as -> by exact (H Ht). destruct Hx as [<-|[]]. reflexivity. Qed.
Fixpoint a_size (t : atree) : nat := match t with A _ _ ts => S (list_sum (map a_size ts)) end.
Lemma kid_size u t : In u (a_kids t) -> a_size u < a_size t.
Proof.
  destruct t as [c m ts]. cbn [a_kids a_size]. intros H. enough (a_size u <= list_sum (map a_size ts)) by lia. induction ts as [|v ts IH]; [destruct H|].
  unfold list_sum in *. cbn [map fold_right]. destruct H as [-> |H]; [lia|]. specialize (IH H). lia.
Qed.
Lemma norm_inside : forall k t x, a_size t <= k -> leafy t -> text_node t = false -> In x (a_preorder t) -> text_node x = false -> In (norm x) (a_preorder (norm t)).
Proof.
  induction k as [|k IH]; intros t x Hk Hl Ht Hx Hxt; [destruct t; cbn [a_size] in Hk; lia|].
  destruct (preorder_kids _ _ Hx) as [-> |(u & Hu & Hxu)]; [destruct (norm t); left; reflexivity|].
  pose proof (kid_size _ _ Hu) as Hs. destruct t as [c m ts]. cbn [a_kids] in Hu. pose proof (leafy_kids _ _ _ Hl) as Hlk. rewrite List.Forall_forall in Hlk.
  assert (Hut : text_node u = false).
  { destruct (text_node u) eqn:E; [|reflexivity]. rewrite (leafy_inside _ _ (Hlk _ Hu) Hxu E) in Hxt. congruence. }
  specialize (IH u x ltac:(lia) (Hlk _ Hu) Hut Hxu Hxt). destruct (norm_others c m ts) as (w & E).
  assert (Hin : In (norm u) (a_kids (norm (A c m ts)))).
  { assert (Hf : In (norm u) (non_texts (a_kids (norm (A c m ts))))).
    { rewrite E. apply in_app_iff. right. apply in_map. unfold non_texts. apply filter_In. rewrite Hut. auto. }
    unfold non_texts in Hf. apply filter_In in Hf. apply Hf. }
  destruct (norm (A c m ts)) as [c' m' ts']. right. apply in_flat_map. exists (norm u). auto.
Qed.
Lemma parse_leafy fuel c s s' r : source c -> good s -> parse fuel c s = (s', Ok r) -> leafy (mirrored c).
Proof.
  intros Hc Hg H. unfold parse in H. apply bind_ok in H as (s1 & u1 & H1 & H). unfold info, log_rec in H1. injection H1 as <- <-.
  apply bind_ok in H as (s2 & u2 & H2 & H). unfold info, log_rec in H2. injection H2 as <- <-. cbn [st_heap st_next st_logs] in H.
  match type of H with bind _ _ ?S = _ => set (s0 := S) in H end. assert (Hg0 : good s0) by exact Hg.
  apply bind_ok in H as (s1 & r1 & H1 & H).
  assert (Ha : abstractify fuel c s0 = (s1, Ok r1)).
  { unfold catch in H1. destruct (abstractify fuel c s0) as [s2 [x|e]]; [congruence|]. destruct e; discriminate H1. }
  unfold abstractify in Ha. apply bind_ok in Ha as (s2 & v & H2 & Ha). destruct (abs_loop_mirrors _ _ _ _ _ Hc Hg0 H2) as (t & _ & Hm & _).
  eapply holds_leafy, Hm.
Qed.
Lemma parse_keeps_nodes fuel c s s' r : source c -> good s -> parse fuel c s = (s', Ok r) ->
  forall x, In x (a_preorder (mirrored c)) -> text_node x = false -> x = mirrored c \/ In (norm x) (a_preorder (sourced c (norm (mirrored c)))).
Proof.
  intros Hc Hg H x Hx Hxt. pose proof (parse_leafy _ _ _ _ _ Hc Hg H) as Hl.
  destruct (preorder_kids _ _ Hx) as [-> |(u & Hu & Hxu)]; [left; reflexivity|right]. destruct (mirrored c) as [k m ts] eqn:Em. cbn [a_kids] in Hu.
  assert (Hkt : text_node (A k m ts) = false) by (rewrite <- Em; reflexivity).
  pose proof (leafy_kids _ _ _ Hl) as Hlk. rewrite List.Forall_forall in Hlk.
  assert (Hut : text_node u = false).
  { destruct (text_node u) eqn:E; [|reflexivity]. rewrite (leafy_inside _ _ (Hlk _ Hu) Hxu E) in Hxt. congruence. }
  pose proof (norm_inside _ u x (le_n _) (Hlk _ Hu) Hut Hxu Hxt) as Hn. destruct (norm_others k m ts) as (w & E).
  assert (Hin : In (norm u) (a_kids (norm (A k m ts)))).
  { assert (Hf : In (norm u) (non_texts (a_kids (norm (A k m ts))))).
    { rewrite E. apply in_app_iff. right. apply in_map. unfold non_texts. apply filter_In. rewrite Hut. auto. }
    unfold non_texts in Hf. apply filter_In in Hf. apply Hf. }
  destruct (norm (A k m ts)) as [c' m' ts']. right. apply in_flat_map. exists (norm u). auto.
Qed.

(** ** Verbatim texts *)

Lemma strip_fixed s : squeeze (rstrip (lstrip s)) = rstrip (lstrip s).
Proof.
  destruct (string_parts s) as [H|(w1 & x & w2 & -> & H1 & H2 & H3 & H4)].
  - assert (E : lstrip s = []). { rewrite <- (app_nil_r s), lstrip_white by assumption. reflexivity. } rewrite E. reflexivity.
  - rewrite lstrip_white by assumption. rewrite lstrip_solid_app by assumption. rewrite rstrip_white, rstrip_solid by assumption.
    pose proof (squeeze_exact [] x [] (List.Forall_nil _) (List.Forall_nil _) H3 H4) as E. cbn [one_space app] in E. rewrite app_nil_r in E. exact E.
Qed.
Lemma strip_parts s : exists w1 w2, s = w1 ++ rstrip (lstrip s) ++ w2 /\ blank w1 /\ blank w2.
Proof.
  destruct (lstrip_split s) as (w1 & E1 & H1). destruct (rstrip_split (lstrip s)) as (w2 & E2 & H2). exists w1, w2.
  split; [rewrite <- E2; exact E1|]. split; assumption.
Qed.
Lemma verbatim_kept c m k a s : subclass c CConstruct = false -> subclass k CText = true -> verbatim_text (A k a []) = true -> a !! a_text = Some (VStr s) ->
  exists w1 x w2, s = w1 ++ x ++ w2 /\ blank w1 /\ blank w2 /\ a_kids (norm (A c m [A k a []])) = [A k (<[a_text := VStr x]> a) []].
Proof.
  intros Hc Hk Hv Ha. destruct (strip_parts s) as (w1 & w2 & E & H1 & H2). exists w1, (rstrip (lstrip s)), w2. split; [assumption|]. split; [assumption|]. split; [assumption|].
  rewrite norm_eq. cbn [a_kids]. set (t := A k a []). assert (Ht : text_node t = true) by exact Hk.
  assert (R : forall f g b, (b !! a_text = Some (VStr g)) -> retext f (A k b []) = A k (<[a_text := VStr (f g)]> b) []).
  { intros f g b Hb. unfold retext, text_of. cbn [a_attrs]. rewrite Hb. reflexivity. }
  assert (I : forall (b : gmap attr val) u v, <[a_text := VStr u]> (<[a_text := VStr v]> b) = <[a_text := VStr u]> b) by (intros; apply insert_insert).
  assert (El : local c m [t] = [A k (<[a_text := VStr (rstrip (lstrip s))]> a) []]).
  { unfold local, prefixed. rewrite Hc. cbn [merge_texts]. rewrite Ht. cbn [rev app joined at_start]. unfold if_text at 2. rewrite Ht. unfold t.
    rewrite (R lstrip s a Ha). unfold at_end. cbn [rev app at_start]. unfold if_text at 2. change (text_node (A k _ [])) with (subclass k CText). rewrite Hk.
    rewrite (R rstrip (lstrip s)) by apply lookup_insert. rewrite I. cbn [map rev app]. unfold if_text. change (text_node (A k _ [])) with (subclass k CText). rewrite Hk.
    rewrite (R squeeze (rstrip (lstrip s))) by apply lookup_insert. rewrite I, strip_fixed. reflexivity. }
  rewrite El. cbn [map set_apart app]. f_equal. unfold norm1. change (text_node (A k _ [])) with (subclass k CText). rewrite Hk. unfold readable.
  change (text_node (A k _ [])) with (subclass k CText). rewrite Hk. unfold verbatim_text in *. cbn [a_attrs] in *. rewrite lookup_insert_ne by discriminate. rewrite Hv. reflexivity.
Qed.
