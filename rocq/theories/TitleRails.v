(** The title of the page that make writes with the linter, when it uses the translator with handrails. *)
From Verif Require Export TitlePage Frames.
From Verif Require Import NodeOps Monad.
Local Open Scope string_scope.
Local Open Scope list_scope.

(** ** Running the commands *)

Notation quiet := (forallb (fun t => calm (render_tok t))).
Lemma quiet_calm l : quiet l = true -> calm (Html.render l) = true.
Proof.
  induction l as [|t l IH]; [reflexivity|]. cbn [forallb]. intros H. apply andb_true_iff in H as [H1 H2].
  change (Html.render (t :: l)) with (render_tok t ++ Html.render l). apply calm_app; [exact H1|apply IH, H2].
Qed.
Definition plain_text (c : cmd) : option (list tok) :=
  match c with
  | KText t | KTextDefer t _ => Some t
  | KOpenClose g content => Some (nl_if (tg_outer g) ++ [start_tag g] ++ nl_if (tg_inner g) ++ content ++ nl_if (tg_inner g) ++ [TClose (tg_tag g)] ++ nl_if (tg_outer g))
  | KOpenManual g content => Some (nl_if (tg_outer g) ++ [start_tag g] ++ nl_if (tg_inner g) ++ content)
  | KOpen g => Some (nl_if (tg_outer g) ++ [start_tag g] ++ nl_if (tg_inner g))
  | _ => None
  end.
Lemma plain_made ext c t s s' u : plain_text c = Some t -> make_text ext c s = (s', Ok u) -> u = t.
Proof. intros H E. destruct c; try discriminate H; injection H as <-; cbn [make_text] in E; apply ret_ok in E as [_ ->]; reflexivity. Qed.
Definition quiet_cmd (c : cmd) : bool := match plain_text c with Some t => quiet t | None => false end.
Lemma exec_split ext x tx B : plain_text x = Some tx -> forall A ds ts s s' r, forallb quiet_cmd A = true ->
  exec_items ext (A ++ x :: B) ds ts s = (s', Ok r) -> exists pre post, quiet pre = true /\ body r.2 = body ts ++ pre ++ tx ++ post.
Proof.
  intros Hx. induction A as [|a A IH]; intros ds ts s s' r Ha E; cbn [app exec_items] in E; apply bind_ok in E as (s1 & t & E1 & E).
  - rewrite (plain_made _ _ _ _ _ _ Hx E1) in E. apply exec_items_adds in E as [o E]. exists [], o. split; [reflexivity|]. rewrite E. unfold emit. cbn [body]. rewrite <- app_assoc. reflexivity.
  - cbn [forallb] in Ha. apply andb_true_iff in Ha as [Ha1 Ha2]. unfold quiet_cmd in Ha1. destruct (plain_text a) as [ta|] eqn:Ea; [|discriminate Ha1]. rewrite (plain_made _ _ _ _ _ _ Ea E1) in E.
    destruct (IH _ _ _ _ _ Ha2 E) as (pre & post & P1 & P2). exists (ta ++ pre), post. rewrite forallb_app, Ha1, P1. split; [reflexivity|]. rewrite P2. unfold emit. cbn [body]. rewrite <- !app_assoc. reflexivity.
Qed.

(** ** Handrails only add *)

Lemma insert_info_body k x r s s' q : insert_info k x r s = (s', Ok q) -> body q.2 = body r.2.
Proof. unfold insert_info. intros E. repeat (apply bind_ok in E as (? & ? & _ & E)). destruct k; apply ret_ok in E as [_ ->]; reflexivity. Qed.
Lemma leave_node_body ts s s' r : leave_node ts s = (s', Ok r) -> body r.2 = body ts.
Proof. unfold leave_node. intros E. destruct (deferred ts); [discriminate E|]. apply ret_ok in E as [_ ->]. reflexivity. Qed.
Lemma hleave_body fuel m i ts s s' r : hleave_method fuel m i ts s = (s', Ok r) -> body r.2 = body ts.
Proof.
  intros E.
  assert (I : forall s s' r, hl_icon1 i ts s = (s', Ok r) -> body r.2 = body ts).
  { intros a b x H. unfold hl_icon1 in H. apply bind_ok in H as (s1 & q & Eq & H). apply bind_ok in H as (s2 & ic & _ & H). apply insert_info_body in H. rewrite H. eapply leave_node_body, Eq. }
  destruct m; cbn [hleave_method] in E; try exact (leave_body _ _ _ _ _ _ E); try exact (I _ _ _ E).
  - unfold hl_author in E. apply bind_ok in E as (s1 & q & Eq & H). apply bind_ok in H as (s2 & ic & _ & H). apply insert_info_body in H. rewrite H. eapply leave_node_body, Eq.
  - unfold hl_paragraph in E. apply bind_ok in E as (s1 & q & Eq & H). apply bind_ok in H as (s2 & ic & _ & H). apply insert_info_body in H. rewrite H. exact (leave_body CParagraph _ _ _ _ _ Eq).
  - unfold hl_math in E. apply bind_ok in E as (s1 & q & Eq & E). apply leave_node_body in Eq. apply bind_ok in E as (s2 & fl & _ & E). destruct fl.
    + apply bind_ok in E as (s3 & it & _ & E). apply ret_ok in E as [_ ->]. exact Eq.
    + apply ret_ok in E as [_ ->]. exact Eq.
  - unfold hl_mathblock in E. apply bind_ok in E as (s1 & q & Eq & H). apply bind_ok in H as (s2 & ic & _ & H). apply insert_info_body in H. rewrite H. exact (leave_body CMathBlock _ _ _ _ _ Eq).
  - unfold hl_step in E. apply bind_ok in E as (s1 & q & Eq & H). apply bind_ok in H as (s2 & ic & _ & H). apply insert_info_body in H. rewrite H. eapply leave_node_body, Eq.
Qed.
Lemma hloop_adds hl b rt ext f0 : forall fuel stack ts s s' ts', tr_loop (hr_tc hl b rt) ext f0 fuel stack ts s = (s', Ok ts') -> adds ts ts'.
Proof.
  induction fuel as [|fuel IH]; intros [|a stack] ts s s' ts' E; cbn [tr_loop] in E; try (apply ret_ok in E as [_ ->]; apply adds_refl); [discriminate E|].
  destruct a as [i|i].
  - apply bind_ok in E as (s1 & c & _ & E). apply bind_ok in E as (s2 & cs & _ & E). apply bind_ok in E as (s3 & t & Et & E).
    eapply adds_trans; [eapply execute_adds, Et|eapply IH, E].
  - apply bind_ok in E as (s1 & r & Er & E). apply bind_ok in E as (s3 & t & Et & E).
    assert (B : body r.2 = body ts).
    { cbn [hr_tc tc_leave] in Er. unfold hr_leave in Er. apply bind_ok in Er as (s4 & k & _ & Er). destruct (dispatch _ _); [|discriminate Er]. eapply hleave_body, Er. }
    destruct (execute_adds _ _ _ _ _ _ Et) as [o1 E1]. destruct (IH _ _ _ _ _ E) as [o2 E2]. exists (o1 ++ o2). rewrite E2, E1, B, app_assoc. reflexivity.
Qed.

(** ** Before the heading *)

Notation same_heap := (fun a b : st => st_heap b = st_heap a).
Lemma traverse_heap fuel cond i s s' r : traverse fuel cond i s = (s', Ok r) -> st_heap s' = st_heap s.
Proof.
  intros E. unfold traverse in E. apply bind_ok in E as (s1 & l & E & E2). apply ret_ok in E2 as [-> _].
  assert (K : changes same_heap (for_traverse fuel cond (fun acc i => ret (i :: acc)) [] i)).
  { apply ch_for_traverse; [reflexivity|congruence|]. intros acc x. apply ch_ret. reflexivity. }
  specialize (K s). rewrite E in K. exact K.
Qed.
Lemma calm_open tag ats : match tag with c :: _ => negb (N.eqb c 104) | [] => false end && lacks LT tag = true ->
  forallb (fun a => match a with AQ k v | AU k v => lacks LT k && lacks LT v end) ats = true -> calm (render_tok (TOpen tag ats)) = true /\ calm (render_tok (TSelf tag ats)) = true.
Proof.
  intros H1 H2. apply andb_true_iff in H1 as [H1 H3]. apply attribs_calm in H2. destruct tag as [|c tag]; [discriminate H1|].
  assert (K : forall z, lacks LT z = true -> calm (lit "<" ++ (c :: tag) ++ concat (map render_attrib ats) ++ z) = true).
  { intros z Hz. change (calm (60%N :: c :: (tag ++ concat (map render_attrib ats) ++ z)) = true). cbn [calm]. rewrite H1. change (N.eqb 60 LT) with true. cbn [andb].
    apply (calm_lacks (c :: tag ++ concat (map render_attrib ats) ++ z)). change (lacks LT ((c :: tag) ++ concat (map render_attrib ats) ++ z) = true). rewrite !lacks_app, H3, H2, Hz. reflexivity. }
  split; cbn [render_tok]; apply K; reflexivity.
Qed.
Lemma circle_calm o cy r fill : (forall x, o = Some x -> lacks LT x = true) -> calm (render_tok (circle o cy r fill)) = true.
Proof.
  intros H. apply (calm_open (lit "circle")); [reflexivity|]. rewrite !forallb_app. rewrite !andb_true_iff. repeat split.
  - destruct o as [x|]; [|reflexivity]. cbn [forallb]. rewrite (H x eq_refl). reflexivity.
  - cbn [forallb]. unfold Handrails.sn. rewrite !lacks_nat by reflexivity. reflexivity.
  - destruct fill; reflexivity.
  - cbn [forallb]. unfold Handrails.sn. rewrite !lacks_nat by reflexivity. reflexivity.
Qed.
Section Rails.
Context (src : bool).
Notation tidy_node := (tidy_node src).
Lemma circles_calm num ref s s' l : (forall x n, st_heap s !! x = Some n -> tidy_node n) -> minimap_circles true num ref s = (s', Ok l) -> st_heap s' = st_heap s /\ forallb quiet l = true.
Proof.
  intros TT E. unfold minimap_circles in E. apply bind_ok in E as (s1 & t & E1 & E). apply getattr_ok in E1 as (-> & n & Hn & Ht). destruct t; try discriminate E.
  apply bind_ok in E as (s1 & c & E1 & E). apply cls_of_ok in E1 as (-> & n1 & Hn1 & ->). destruct (radius _) as [r|]; [|discriminate E].
  apply bind_ok in E as (s1 & lb & E1 & E). unfold label_text in E1. apply bind_ok in E1 as (s2 & v & E2 & E1). apply getattr_ok in E2 as (-> & n2 & Hn2 & Hv). apply ret_ok in E1 as [-> ->]. apply ret_ok in E as [-> ->].
  split; [reflexivity|]. destruct (TT _ _ Hn2) as [TA _]. pose proof (tidy_lt src _ _ (TA _ _ Hv)) as L. specialize (L ltac:(discriminate) ltac:(discriminate) ltac:(discriminate) ltac:(discriminate)).
  assert (L3 : lacks LT (lit "mm-" ++ fmt_val v) = true) by (rewrite lacks_app, L; reflexivity). cbn [forallb]. rewrite !circle_calm by (intros x Hx; try discriminate Hx; injection Hx as <-; exact L3).
  replace (calm (render_tok (ctag "a"))) with true by reflexivity. cbn [andb]. rewrite !andb_true_r.
  apply (calm_open (lit "a")); [reflexivity|]. assert (L2 : lacks LT (lit "#" ++ fmt_val v) = true) by (rewrite lacks_app, L; reflexivity). set (w := lit "#" ++ fmt_val v) in *. clearbody w. cbn [forallb]. rewrite L2. reflexivity.
Qed.
Lemma all_circles refs : forall num s s' l, (forall x n, st_heap s !! x = Some n -> tidy_node n) -> minimap_all true num refs s = (s', Ok l) -> st_heap s' = st_heap s /\ forallb quiet l = true.
Proof.
  induction refs as [|r refs IH]; intros num s s' l TT E; cbn [minimap_all] in E; [apply ret_ok in E as [-> ->]; split; reflexivity|].
  apply bind_ok in E as (s1 & x & E1 & E). apply circles_calm in E1 as [H1 Q1]; [|exact TT]. apply bind_ok in E as (s2 & xs & E2 & E). apply IH in E2 as [H2 Q2]; [|rewrite H1; exact TT].
  apply ret_ok in E as [-> ->]. split; [congruence|]. rewrite forallb_app, Q1, Q2. reflexivity.
Qed.
Lemma joined_calm l : forallb quiet l = true -> quiet (tok_join [nls 4] l) = true.
Proof.
  induction l as [|x l IH]; [reflexivity|]. cbn [forallb]. intros H. apply andb_true_iff in H as [H1 H2]. destruct l as [|y l]; [exact H1|].
  change (tok_join [nls 4] (x :: y :: l)) with (x ++ [nls 4] ++ tok_join [nls 4] (y :: l)). rewrite !forallb_app, H1, (IH H2). reflexivity.
Qed.
Lemma svg_calm height : quiet (svg_start "scroll" height) = true.
Proof.
  unfold svg_start. cbv zeta. assert (H1 : lacks LT (Handrails.sn height) = true) by (apply lacks_nat; reflexivity). assert (H2 : lacks LT (Handrails.sn (height - 48)) = true) by (apply lacks_nat; reflexivity).
  set (a := Handrails.sn height) in *. set (b := Handrails.sn (height - 48)) in *. clearbody a b.
  assert (K1 : calm (render_tok (TOpen (lit "svg") [aq "xmlns" "http://www.w3.org/2000/svg"; AQ (lit "viewBox") (lit "0 0 32 " ++ a)%list;
                      aq "fill" "#3C4952"; aq "preserveAspectRatio" "xMinYMid meet"; aq "stroke-width" "0"])) = true).
  { assert (H3 : lacks LT (lit "0 0 32 " ++ a) = true) by (rewrite lacks_app, H1; reflexivity). set (z := lit "0 0 32 " ++ a) in *. clearbody z.
    refine (proj1 (calm_open (lit "svg") _ _ _)); [reflexivity|]. unfold aq. cbn [forallb]. rewrite H3. reflexivity. }
  assert (K2 : calm (render_tok (TSelf (lit "rect") [aq "x" "14"; aq "y" "24"; aq "width" "4"; AQ (lit "height") b])) = true).
  { refine (proj2 (calm_open (lit "rect") _ _ _)); [reflexivity|]. unfold aq. cbn [forallb]. rewrite H2. reflexivity. }
  set (x := TOpen (lit "svg") _) in *. set (y := TSelf (lit "rect") [aq "x" "14"; _; _; _]) in *. clearbody x y. cbn [forallb]. rewrite K1, K2. vm_compute. reflexivity.
Qed.
Lemma minimap_calm fuel i s s' l : (forall x n, st_heap s !! x = Some n -> tidy_node n) -> make_minimap fuel i "scroll" true s = (s', Ok l) -> st_heap s' = st_heap s /\ forallb quiet_cmd l = true.
Proof.
  intros TT E. unfold make_minimap in E. apply bind_ok in E as (s1 & refs & E1 & E). apply traverse_heap in E1. apply bind_ok in E as (s2 & cs & E2 & E).
  apply all_circles in E2 as [H2 Q2]; [|rewrite E1; exact TT]. apply ret_ok in E as [-> ->]. split; [congruence|].
  cbn [forallb]. unfold quiet_cmd. cbn [plain_text]. rewrite !forallb_app, (joined_calm _ Q2), svg_calm; reflexivity.
Qed.
End Rails.

(** ** The first tags *)

Lemma tidy_src v : Tidy.tidy true a_src v -> lacks LT (fmt_val v) = true.
Proof.
  intros H. assert (K : forall s, Tidy.fine true a_src s -> lacks LT s = true) by (intros s [Hs _]; exact Hs).
  destruct v; cbn [Tidy.tidy fmt_val] in *; try reflexivity; try discriminate H; try (apply K; assumption); try (destruct b; reflexivity).
  - apply lacks_Z; [reflexivity|discriminate].
  - apply (strs_lacks LT); [reflexivity|]. apply forallb_forall. intros x Hx. apply K. rewrite list.Forall_forall in H. apply H, elem_of_list_In, Hx.
  - rewrite !lacks_app, !lacks_Z; try reflexivity; discriminate.
Qed.
Lemma put_before k (A B l : list cmd) x : k <= length A -> forallb quiet_cmd A = true -> forallb quiet_cmd l = true ->
  exists A', take k (A ++ x :: B) ++ l ++ drop k (A ++ x :: B) = A' ++ x :: B /\ forallb quiet_cmd A' = true /\ length A <= length A'.
Proof.
  intros Hk HA Hl. exists (take k A ++ l ++ drop k A). split; [|split].
  - rewrite take_app_le, drop_app_le by exact Hk. rewrite <- !app_assoc. reflexivity.
  - rewrite <- (take_drop k A), forallb_app in HA. apply andb_true_iff in HA as [H1 H2]. rewrite !forallb_app, H1, H2, Hl. reflexivity.
  - rewrite <- (take_drop k A) at 1. rewrite !app_length. lia.
Qed.
Definition h1_of (title : str) : list tok := [TOpen (lit "h1") []; TRaw title; TClose (lit "h1")].
Lemma rails_first hl src b rt ext f0 fuel i s s' ts' n title : (forall x m, st_heap s !! x = Some m -> tidy_node src m) -> (b = true -> src = true) ->
  st_heap s !! i = Some n -> n_cls n = CManuscript -> n_attrs n !! a_title = Some (VStr title) -> title <> [] ->
  tr_loop (hr_tc hl b rt) ext f0 fuel [Visit i] (MkT [] []) s = (s', Ok ts') ->
  exists pre post, quiet pre = true /\ body ts' = pre ++ h1_of title ++ post.
Proof.
  intros TT Hb Hi Hc Ht Hne El. destruct fuel as [|fuel]; [discriminate El|]. cbn [tr_loop] in El.
  apply bind_ok in El as (s3 & c & Ev & El). cbn [hr_tc tc_visit] in Ev. unfold hr_visit in Ev. apply bind_ok in Ev as (s4 & k & Ek & Ev).
  apply cls_of_ok in Ek as (-> & m & Em & ->). rewrite Hi in Em. injection Em as <-. rewrite Hc in Ev.
  change (dispatch visit_defined CManuscript) with (Some CManuscript) in Ev. cbn [hvisit_method] in Ev. unfold hv_manuscript in Ev.
  apply bind_ok in Ev as (s5 & c0 & E0 & Ev). unfold visit_manuscript, node_tag, node_tag_full in E0.
  apply bind_ok in E0 as (s6 & nt & En & E0). apply bind_ok in En as (s7 & k & Ek & En). apply cls_of_ok in Ek as (-> & m & Em & ->). rewrite Hi in Em. injection Em as <-. rewrite Hc in En.
  apply bind_ok in En as (s7 & types & E1 & En). apply get_strs_ok in E1 as (-> & m & Em & E1). rewrite Hi in Em. injection Em as <-.
  apply bind_ok in En as (s8 & label & E2 & En). apply getattr_ok in E2 as (-> & m & Em & E2). rewrite Hi in Em. injection Em as <-.
  apply bind_ok in En as (s9 & nodeid & E3 & En). apply getattr_ok in E3 as (-> & m & Em & E3). rewrite Hi in Em. injection Em as <-. apply ret_ok in En as [-> ->].
  apply bind_ok in E0 as (s10 & v & E4 & E0). apply getattr_ok in E4 as (-> & m & Em & E4). rewrite Hi in Em. injection Em as <-. rewrite Ht in E4. injection E4 as <-.
  apply ret_ok in E0 as [-> ->].
  assert (Tr : truthy (VStr title) = true) by (destruct title; [congruence|reflexivity]). rewrite Tr in Ev. cbn [items_of app] in Ev.
  destruct (TT i n Hi) as [TA _].
  assert (Qn : quiet_cmd (KOpen (MkTag (lit "div") (str_or_empty label) (dedup ((name_lower CManuscript :: types) ++ [])) true true false (match nodeid with VNone => None | v => Some (fmt_val v) end))) = true).
  { unfold quiet_cmd. cbn [plain_text tg_outer tg_inner]. pose proof (start_calm label types nodeid) as G. set (g := start_tag _) in *. cbn [nl_if app forallb]. rewrite G; [reflexivity| | |].
    - pose proof (tidy_lt src _ _ (TA _ _ E2)) as L. unfold str_or_empty. destruct (truthy label); [apply L; discriminate|reflexivity].
    - pose proof (TA _ _ E1) as L. cbn [Tidy.tidy] in L. apply forallb_forall. intros x Hx. pose proof (proj1 (list.Forall_forall _ _) L x (proj2 (elem_of_list_In _ _) Hx)) as [K _]. exact K.
    - apply (tidy_lt src _ _ (TA _ _ E3)); discriminate. }
  set (nt := KOpen _) in *. clearbody nt.
  apply bind_ok in Ev as (s11 & items & Ei & Ev). apply ret_ok in Ei as [-> ->].
  apply bind_ok in Ev as (s12 & v & E5 & Ev). apply getattr_ok in E5 as (-> & m & Em & E5). rewrite Hi in Em. injection Em as <-. rewrite Ht in E5. injection E5 as <-. rewrite Tr in Ev.
  apply bind_ok in Ev as (s13 & items & Ei & Ev). unfold wrap_item in Ei.
  change ([open_tag "body" [] true true; open_tag "div" [lit "manuscriptwrapper"] true true; nt; open_tag "section" [lit "level-1"] true true; heading 1 [TRaw (fmt_val (VStr title))]] !! 4) with (Some (heading 1 [TRaw title])) in Ei.
  cbn iota in Ei. apply ret_ok in Ei as [-> Ei].
  set (x := heading 1 [TRaw title]) in *.
  assert (K : exists A B, items = A ++ x :: B /\ forallb quiet_cmd A = true /\ 3 <= length A).
  { eexists (take 4 _ ++ [_; _; _; _; _; _]), _. rewrite Ei. split; [|split].
    - rewrite <- app_assoc. cbn [app]. reflexivity.
    - cbn [take app forallb]. rewrite Qn. vm_compute. reflexivity.
    - cbn [take app length]. lia. }
  clear Ei. destruct K as (A & B & -> & QA & LA).
  apply bind_ok in Ev as (s14 & items & Ei & Ev).
  assert (K : st_heap s14 = st_heap s /\ exists A', items = A' ++ x :: B /\ forallb quiet_cmd A' = true /\ 3 <= length A').
  { destruct b; [|apply ret_ok in Ei as [-> ->]; eauto]. apply bind_ok in Ei as (s15 & d & Ed & Ei). apply ret_ok in Ei as [-> ->].
    unfold source_div in Ed. apply bind_ok in Ed as (s16 & n1 & En1 & Ed). apply get_node_ok in En1 as [-> En1]. destruct (n_attrs n1 !! a_src) as [v|] eqn:Ev1; [|discriminate Ed]. apply ret_ok in Ed as [-> ->].
    split; [reflexivity|]. unfold insert_nth. destruct (put_before 2 A B [KText (div_classes "rsm-source hide" [TRaw (fmt_val v)])] x) as (A' & P1 & P2 & P3); [lia|exact QA| |exists A'; split; [exact P1|]; split; [exact P2|lia]].
    destruct (TT _ _ En1) as [TA1 _]. assert (L : lacks LT (fmt_val v) = true) by (rewrite (Hb eq_refl) in TA1; exact (tidy_src _ (TA1 _ _ Ev1))).
    cbn [forallb]. unfold quiet_cmd, div_classes. cbn [plain_text app forallb render_tok]. rewrite (calm_lacks _ L). reflexivity. }
  destruct K as (H14 & A1 & -> & QA1 & LA1). clear Ei A QA LA.
  apply bind_ok in Ev as (s15 & toc & Et & Ev). apply first_of_type_ok in Et as [-> _].
  assert (K : exists A' s16, c = KBatchDefer (A' ++ x :: B) /\ forallb quiet_cmd A' = true /\ s3 = s16).
  { destruct toc as [[t q]|]; [|apply ret_ok in Ev as [-> ->]; eauto]. apply bind_ok in Ev as (s16 & mm & Em & Ev). apply (minimap_calm src) in Em as [Hh Qm]; [|rewrite H14; exact TT]. apply ret_ok in Ev as [-> ->].
    destruct (put_before 3 A1 B ([KText [otag "div" [("class", "float-minimap-wrapper")]]] ++ mm ++ [KText [ctag "div"]]) x) as (A' & P1 & P2 & P3); [exact LA1|exact QA1|rewrite !forallb_app, Qm; reflexivity|].
    exists A', s16. split; [|auto]. f_equal. rewrite <- P1, <- !app_assoc. reflexivity. }
  destruct K as (A & s16 & -> & QA & ->).
  apply bind_ok in El as (s17 & cs & _ & El). apply bind_ok in El as (s18 & ts & Ee & El). apply hloop_adds in El as [o El].
  cbn [execute] in Ee. apply bind_ok in Ee as (s19 & r & Er & Ee). apply ret_ok in Ee as [-> ->].
  destruct (exec_split ext x _ B eq_refl A _ _ _ _ _ QA Er) as (pre & post & P1 & P2).
  exists (pre ++ [Html.nl]), (Html.nl :: post ++ o).
  split; [rewrite forallb_app, P1; reflexivity|]. rewrite El. unfold defer. cbn [body]. rewrite P2. cbn [app body]. unfold x. rewrite <- !app_assoc. reflexivity.
Qed.

(** ** From the source *)

Lemma h1_found pre title post : quiet pre = true -> lacks LT title = true -> ~ In 10%N title -> extract_title (Html.render (pre ++ h1_of title ++ post)) = title.
Proof.
  intros H1 H2 H3. unfold Html.render. rewrite map_app, concat_app.
  change (concat (map render_tok (h1_of title ++ post))) with (lit "<h1>" ++ title ++ lit "</h1>" ++ concat (map render_tok post)).
  apply title_found; [exact (quiet_calm _ H1)|exact H2|exact H3].
Qed.
Lemma rails_title ts hl fuel text h m i title src : clean_source (ts text) -> no_markup src (ts text) ->
  a_attrs (manuscript_of (ts text)) !! a_title = Some (VStr title) -> title <> [] -> ~ In 10%N title ->
  pieces ts hl fuel true src text h m i -> extract_title (Html.render h) = title.
Proof.
  intros C NM Ht Hne Hn (s1 & s2 & d & Hp & Htf & Htr).
  destruct (td_parse src (ts text) NM fuel empty_st s1 i) as [T1 _]; [intros x n Hx; cbn in Hx; rewrite lookup_empty in Hx; discriminate Hx|exact Hp|].
  destruct (td_transform src fuel [] i s1 s2 d T1 Htf) as [T2 _].
  destruct (parse_from _ _ _ _ _ (cl_source _ C) (cl_errors _ C) (cl_keys _ C) empty_sane Hp) as (t & Hr & R & (Hgd & Hb & Hty & Hco) & Hh & _ & _).
  assert (Hd : transforms_to s1 t s2) by (exists fuel, d; rewrite Hr; exact Htf).
  destruct (transform_result s1 t s2 R Hty Hco Hd) as (t' & f & cites & RS). pose proof (rs_transformed _ _ _ _ _ _ RS) as TF.
  assert (Hm : exists n, st_heap s1 !! i = Some n /\ n_cls n = CManuscript /\ n_attrs n !! a_title = Some (VStr title)).
  { unfold manuscript_of in Ht. destruct (mirrored (ts text)) as [k0 m0 us0] eqn:Em. unfold mirrored in Em. injection Em as <- _ _. cbn [norm a_attrs sourced] in Ht, Hh.
    inversion Hh as [p j n us ks Hj _ _ _ Et Ek]; subst. exists n. split; [exact Hj|]. split; [congruence|]. rewrite <- Ht.
    match goal with K : n_attrs n = _ |- _ => rewrite K end. rewrite lookup_insert_ne by discriminate. match goal with K : n_cls n = _ |- _ => rewrite K end. reflexivity. }
  destruct Hm as (n & Hn1 & Hc & Hti).
  destruct (tf_node _ _ _ _ _ TF i) as (n0 & n' & E0 & E1 & Ec & Ea); [rewrite <- Hr; destruct t; left|intros [K|[K|K]]; destruct K as (nk & Ek & Kk); rewrite Hn1 in Ek; injection Ek as <-; congruence|].
  rewrite Hn1 in E0. injection E0 as <-.
  assert (Hti' : n_attrs n' !! a_title = Some (VStr title)).
  { rewrite Ea; [exact Hti|]. unfold transform_attr. intuition discriminate. }
  cbn iota in Htr. unfold translate_handrails in Htr. apply bind_ok in Htr as (s3 & [] & E2 & Htr).
  assert (Hh3 : st_heap s3 = st_heap s2) by (unfold info, log_rec in E2; injection E2 as <-; reflexivity).
  unfold run_translator in Htr. apply bind_ok in Htr as (s4 & ts4 & El & Htr). destruct (deferred ts4); [|discriminate Htr]. apply ret_ok in Htr as [_ ->].
  destruct (rails_first hl src src i (translate_ext hl fuel fuel) fuel fuel i s3 s4 ts4 n' title) as (pre & post & P1 & ->).
  - rewrite Hh3. exact T2.
  - auto.
  - rewrite Hh3. exact E1.
  - congruence.
  - exact Hti'.
  - exact Hne.
  - exact El.
  - destruct (T2 i n' E1) as [TA TN]. apply h1_found; [exact P1| |exact Hn]. apply (tidy_lt src _ _ (TA _ _ Hti')); discriminate.
Qed.
(** With the linter or without. *)
Lemma page_title_any ts hl pkg fuel source path hr lnt c w w' title : fresh_ok (w_mem w) ->
  (forall text, given source path (w_fs w) text -> clean_source (ts text) /\ no_markup lnt (ts text) /\
     a_attrs (manuscript_of (ts text)) !! a_title = Some (VStr title)) -> title <> [] -> ~ In 10%N title ->
  make_rsm ts hl pkg fuel source path hr lnt c w = (w', Ok PNone) ->
  exists text h m i top, given source path (w_fs w) text /\ pieces ts hl fuel lnt lnt text h m i /\
    absent (lit "<title>") top /\ absent (lit "</head>") top /\ w_fs w' !! lit "index.html" = Some (page top title (Html.render h)).
Proof.
  intros Hf C Hne Hn H. destruct lnt; [|eapply page_title_made; eassumption].
  destruct (any_make ts hl pkg fuel _ _ _ _ _ _ _ _ Hf H) as [[_ [K|[e K]]]|(_ & text & h & m & i & p & Hg & Hp & Hb & Hw)]; try discriminate K.
  destruct (C text Hg) as (C1 & C2 & C3). pose proof (rails_title _ _ _ _ _ _ _ _ _ C1 C2 C3 Hne Hn Hp) as E.
  destruct page_shape as (top & A1 & A2 & _ & A4). destruct (A4 (Html.render h)) as (tt' & Ht & Em). exists text, h, m, i, top. split; [exact Hg|]. split; [exact Hp|]. split; [exact A1|]. split; [exact A2|].
  destruct (build_files _ _ _ _ _ (assets_mentioned (Html.render h)) Hb) as (_ & _ & Hx & _). rewrite Hw, write_files, Hx, Em.
  rewrite <- E. do 2 f_equal. apply (title_fun (Html.render h)); [exact Ht|apply extract_title_of].
Qed.
