(** The title of the page that make writes is the title of the manuscript. *)
From Verif Require Export InputRead BuildProofs RenderAny.
From Verif Require Import NodeOps Monad.
Local Open Scope string_scope.
Local Open Scope list_scope.

(** ** Finding the heading *)

Fixpoint calm (s : str) : bool :=
  match s with
  | [] => true
  | c :: r => (if N.eqb c LT then match r with d :: _ => negb (N.eqb d 104) | [] => false end else true) && calm r
  end.
Lemma calm_app a b : calm a = true -> calm b = true -> calm (a ++ b) = true.
Proof.
  induction a as [|c a IH]; [auto|]. cbn [calm app]. intros H Hb. apply andb_true_iff in H as [H1 H2]. rewrite (IH H2 Hb), andb_true_r.
  destruct (N.eqb c LT); [|reflexivity]. destruct a; [discriminate H1|exact H1].
Qed.
Lemma calm_lacks s : lacks LT s = true -> calm s = true.
Proof.
  induction s as [|c s IH]; [reflexivity|]. cbn [lacks forallb calm]. intros H. apply andb_true_iff in H as [H1 H2]. rewrite (IH H2), andb_true_r.
  destruct (N.eqb c LT) eqn:E; [|reflexivity]. apply N.eqb_eq in E. subst. discriminate H1.
Qed.
Lemma calm_search s r : calm s = true -> re_search (lit "<h1>") (lit "</h1>") (s ++ r) = re_search (lit "<h1>") (lit "</h1>") r.
Proof.
  induction s as [|c s IH]; [reflexivity|]. cbn [calm]. intros H. apply andb_true_iff in H as [H1 H2]. cbn [app re_search].
  replace (match_here (lit "<h1>") (lit "</h1>") (c :: s ++ r)) with (@None (str * str)); [apply IH, H2|].
  unfold match_here. change (lit "<h1>") with (60 :: 104 :: 49 :: 62 :: [])%N. cbn [prefixb].
  destruct (N.eqb 60 c) eqn:E; [|reflexivity]. apply N.eqb_eq in E. subst c. change (N.eqb 60 LT) with true in H1. destruct s as [|d s]; [discriminate H1|].
  cbn [app]. destruct (N.eqb 104 d) eqn:E; [|reflexivity]. apply N.eqb_eq in E. subst d. discriminate H1.
Qed.
Lemma lazy_found t r : lacks LT t = true -> ~ In 10%N t -> forall acc, lazy_to (lit "</h1>") (t ++ lit "</h1>" ++ r) acc = Some (rev acc ++ t, r).
Proof.
  induction t as [|c t IH]; intros Hl Hn acc.
  - rewrite app_nil_r. change (lit "</h1>") with (60 :: 47 :: 104 :: 49 :: 62 :: [])%N. cbn. reflexivity.
  - cbn [lacks forallb] in Hl. apply andb_true_iff in Hl as [H1 H2]. cbn [app lazy_to]. change (lit "</h1>") with (60 :: 47 :: 104 :: 49 :: 62 :: [])%N at 1. cbn [prefixb].
    destruct (N.eqb 60 c) eqn:E; [apply N.eqb_eq in E; subst c; discriminate H1|]. cbn [andb].
    destruct (N.eqb c 10) eqn:En; [apply N.eqb_eq in En; subst c; exfalso; apply Hn; left; reflexivity|].
    rewrite IH; [|exact H2|intros K; apply Hn; right; exact K]. cbn [rev]. rewrite <- app_assoc. reflexivity.
Qed.
Lemma title_found s t r : calm s = true -> lacks LT t = true -> ~ In 10%N t -> extract_title (s ++ lit "<h1>" ++ t ++ lit "</h1>" ++ r) = t.
Proof.
  intros Hs Hl Hn. unfold extract_title. rewrite (calm_search _ _ Hs).
  enough (E : match_here (lit "<h1>") (lit "</h1>") (lit "<h1>" ++ t ++ lit "</h1>" ++ r) = Some (t, r)).
  { remember (lit "<h1>" ++ t ++ lit "</h1>" ++ r) as z eqn:Ez. clear Ez. destruct z; cbn [re_search]; rewrite E; reflexivity. }
  unfold match_here. replace (prefixb (lit "<h1>") (lit "<h1>" ++ t ++ lit "</h1>" ++ r)) with true by reflexivity.
  change (skipn (length (lit "<h1>")) (lit "<h1>" ++ t ++ lit "</h1>" ++ r)) with (t ++ lit "</h1>" ++ r). rewrite (lazy_found t r Hl Hn []). reflexivity.
Qed.

(** ** The translator only adds *)

Definition adds (ts ts' : tst) : Prop := exists o, body ts' = body ts ++ o.
Lemma adds_refl ts : adds ts ts. Proof. exists []. rewrite app_nil_r. reflexivity. Qed.
Lemma adds_trans a b c : adds a b -> adds b c -> adds a c.
Proof. intros [o E] [o' E']. exists (o ++ o'). rewrite E', E, app_assoc. reflexivity. Qed.
Lemma adds_emit t ts : adds ts (emit t ts). Proof. exists t. reflexivity. Qed.
Lemma exec_items_adds ext items : forall ds ts s s' r, exec_items ext items ds ts s = (s', Ok r) -> adds ts r.2.
Proof.
  induction items as [|c items IH]; intros ds ts s s' r E; cbn [exec_items] in E.
  - apply ret_ok in E as [_ ->]. apply adds_refl.
  - apply bind_ok in E as (s1 & t & _ & E). eapply adds_trans; [apply (adds_emit t)|]. eapply IH, E.
Qed.
Lemma execute_adds ext : forall c ts s s' ts', execute ext c ts s = (s', Ok ts') -> adds ts ts'.
Proof.
  fix rec 1. intros c ts s s' ts' E. destruct c; cbn [execute] in E;
    try (apply bind_ok in E as (s1 & tx & _ & E); apply ret_ok in E as [_ ->]; destruct (deferred_text _); [exists tx; reflexivity|apply adds_emit]).
  - apply bind_ok in E as (s1 & r & E1 & E). apply ret_ok in E as [_ ->]. apply exec_items_adds in E1. exact E1.
  - match type of E with (?g ?l ts s = _) => revert ts s s' ts' E; induction l as [|x l IH] end; intros ts s s' ts' E.
    + apply ret_ok in E as [_ ->]. apply adds_refl.
    + apply bind_ok in E as (s1 & t1 & E1 & E). eapply adds_trans; [eapply rec, E1|]. eapply IH, E.
Qed.
Lemma leave_body m i ts s s' r : leave_method m i ts s = (s', Ok r) -> body r.2 = body ts.
Proof.
  assert (N : forall s s' r, leave_node ts s = (s', Ok r) -> body r.2 = body ts).
  { intros a b x E. unfold leave_node in E. destruct (deferred ts); [discriminate E|]. apply ret_ok in E as [_ ->]. reflexivity. }
  intros E. destruct m; cbn [leave_method] in E; try exact (N _ _ _ E).
  - unfold leave_abstract in E. apply bind_ok in E as (s1 & k & _ & E). apply bind_ok in E as (s2 & k2 & _ & E). apply bind_ok in E as (s3 & q & Eq & E). apply ret_ok in E as [_ ->]. exact (N _ _ _ Eq).
  - unfold leave_paragraph in E. apply bind_ok in E as (s3 & q & Eq & E). apply bind_ok in E as (s1 & k & _ & E). destruct k.
    + apply bind_ok in E as (s2 & k2 & _ & E). apply ret_ok in E as [_ ->]. exact (N _ _ _ Eq).
    + apply ret_ok in E as [_ ->]. exact (N _ _ _ Eq).
  - unfold leave_mathblock in E. apply bind_ok in E as (s3 & q & Eq & E). apply bind_ok in E as (s1 & p & _ & E). apply bind_ok in E as (s2 & b & _ & E).
    destruct b; [|apply ret_ok in E as [_ ->]; exact (N _ _ _ Eq)]. apply bind_ok in E as (s4 & nx & _ & E). cbn [negb] in E.
    destruct nx as [y|]; [|apply ret_ok in E as [_ ->]; exact (N _ _ _ Eq)]. destruct p as [z|]; [|try discriminate E].
    + apply bind_ok in E as (s5 & u & _ & E). apply bind_ok in E as (s6 & u2 & _ & E). repeat (apply bind_ok in E as (? & ? & _ & E)). apply ret_ok in E as [_ ->]. exact (N _ _ _ Eq).
  - unfold leave_proof in E. apply bind_ok in E as (s3 & q & Eq & E). apply bind_ok in E as (s1 & p & _ & E). apply ret_ok in E as [_ ->]. exact (N _ _ _ Eq).
Qed.
Lemma loop_adds hl ext f0 : forall fuel stack ts s s' ts', tr_loop (base_tc hl) ext f0 fuel stack ts s = (s', Ok ts') -> adds ts ts'.
Proof.
  induction fuel as [|fuel IH]; intros [|a stack] ts s s' ts' E; cbn [tr_loop] in E; try (apply ret_ok in E as [_ ->]; apply adds_refl); [discriminate E|].
  destruct a as [i|i].
  - apply bind_ok in E as (s1 & c & _ & E). apply bind_ok in E as (s2 & cs & _ & E). apply bind_ok in E as (s3 & t & Et & E).
    eapply adds_trans; [eapply execute_adds, Et|eapply IH, E].
  - apply bind_ok in E as (s1 & r & Er & E). apply bind_ok in E as (s3 & t & Et & E).
    assert (B : body r.2 = body ts).
    { cbn [base_tc tc_leave] in Er. unfold base_leave in Er. apply bind_ok in Er as (s4 & k & _ & Er). destruct (dispatch _ _); [|discriminate Er]. eapply leave_body, Er. }
    destruct (execute_adds _ _ _ _ _ _ Et) as [o1 E1]. destruct (IH _ _ _ _ _ E) as [o2 E2]. exists (o1 ++ o2). rewrite E2, E1, B, app_assoc. reflexivity.
Qed.

(** ** The first tags *)

Definition before_title (label : val) (types : list str) (nodeid : val) : list tok :=
  [Html.nl; TOpen (lit "body") []; Html.nl; Html.nl; TOpen (lit "div") [AQ (lit "class") (lit "manuscriptwrapper")]; Html.nl;
   Html.nl; start_tag (MkTag (lit "div") (str_or_empty label) (dedup ((name_lower CManuscript :: types) ++ [])) true true false (match nodeid with VNone => None | v => Some (fmt_val v) end)); Html.nl;
   Html.nl; TOpen (lit "section") [AQ (lit "class") (lit "level-1")]; Html.nl; Html.nl].
Definition first_part (label : val) (types : list str) (nodeid : val) (title : str) : list tok :=
  before_title label types nodeid ++ [TOpen (lit "h1") []; TRaw title; TClose (lit "h1"); Html.nl].
Lemma first_tags hl ext f0 fuel i s s' ts' n title : st_heap s !! i = Some n -> n_cls n = CManuscript -> n_attrs n !! a_title = Some (VStr title) -> title <> [] ->
  tr_loop (base_tc hl) ext f0 fuel [Visit i] (MkT [] []) s = (s', Ok ts') ->
  exists label types nodeid h', n_attrs n !! a_types = Some (VStrs types) /\ n_attrs n !! a_label = Some label /\ n_attrs n !! a_nodeid = Some nodeid /\
    body ts' = first_part label types nodeid title ++ h'.
Proof.
  intros Hi Hc Ht Hne El. destruct fuel as [|fuel]; [discriminate El|]. cbn [tr_loop] in El.
  apply bind_ok in El as (s3 & c & Ev & El). cbn [base_tc tc_visit] in Ev. unfold base_visit in Ev. apply bind_ok in Ev as (s4 & k & Ek & Ev).
  apply cls_of_ok in Ek as (-> & m & Em & ->). rewrite Hi in Em. injection Em as <-. rewrite Hc in Ev.
  change (dispatch visit_defined CManuscript) with (Some CManuscript) in Ev. cbn [visit_method] in Ev. unfold visit_manuscript, node_tag, node_tag_full in Ev.
  apply bind_ok in Ev as (s5 & nt & En & Ev). apply bind_ok in En as (s6 & k & Ek & En). apply cls_of_ok in Ek as (-> & m & Em & ->). rewrite Hi in Em. injection Em as <-.
  apply bind_ok in En as (s7 & types & E1 & En). apply get_strs_ok in E1 as (-> & m & Em & E1). rewrite Hi in Em. injection Em as <-.
  apply bind_ok in En as (s8 & label & E2 & En). apply getattr_ok in E2 as (-> & m & Em & E2). rewrite Hi in Em. injection Em as <-.
  apply bind_ok in En as (s9 & nodeid & E3 & En). apply getattr_ok in E3 as (-> & m & Em & E3). rewrite Hi in Em. injection Em as <-. apply ret_ok in En as [-> ->].
  apply bind_ok in Ev as (s10 & v & E4 & Ev). apply getattr_ok in E4 as (-> & m & Em & E4). rewrite Hi in Em. injection Em as <-. rewrite Ht in E4. injection E4 as <-.
  apply ret_ok in Ev as [-> ->]. rewrite Hc in El.
  assert (Tr : truthy (VStr title) = true) by (destruct title; [congruence|reflexivity]). rewrite Tr in El.
  apply bind_ok in El as (s11 & cs & _ & El). apply bind_ok in El as (s12 & ts & Ee & El). apply loop_adds in El as [o El].
  exists label, types, nodeid, o. split; [exact E1|]. split; [exact E2|]. split; [exact E3|]. rewrite El. f_equal. clear El.
  cbn [execute app exec_items] in Ee. unfold open_tag, heading in Ee. cbn [make_text deferred_text] in Ee.
  apply bind_ok in Ee as (s13 & r & Ei & Ee). apply ret_ok in Ee as [_ ->]. cbn [body defer].
  repeat (apply bind_ok in Ei as (? & ? & Ex & Ei); apply ret_ok in Ex as [-> ->]). apply ret_ok in Ei as [_ ->]. reflexivity.
Qed.

(** ** The title *)

Lemma join_lacks c sep l : lacks c sep = true -> forallb (lacks c) l = true -> lacks c (join sep l) = true.
Proof.
  intros Hs. induction l as [|x l IH]; [reflexivity|]. cbn [forallb]. intros H. apply andb_true_iff in H as [H1 H2]. destruct l as [|y l]; [exact H1|].
  change (join sep (x :: y :: l)) with (x ++ sep ++ join sep (y :: l)). rewrite !lacks_app, H1, Hs. apply IH, H2.
Qed.
Lemma dedup_incl l : forall seen x, In x (dedup_go seen l) -> In x l.
Proof. induction l as [|y l IH]; intros seen x H; cbn [dedup_go] in H; [exact H|]. destruct (str_mem y seen); [right; eapply IH, H|]. destruct H as [->|H]; [left; reflexivity|right; eapply IH, H]. Qed.
Lemma attribs_calm l : forallb (fun a => match a with AQ k v | AU k v => lacks LT k && lacks LT v end) l = true -> lacks LT (concat (map render_attrib l)) = true.
Proof.
  induction l as [|a l IH]; [reflexivity|]. cbn [forallb map concat]. intros H. apply andb_true_iff in H as [H1 H2]. rewrite lacks_app, (IH H2), andb_true_r.
  destruct a; apply andb_true_iff in H1 as [K1 K2]; cbn [render_attrib]; rewrite !lacks_app, K1, K2; reflexivity.
Qed.
Lemma start_calm label types nodeid : lacks LT (str_or_empty label) = true -> forallb (lacks LT) types = true -> lacks LT (fmt_val nodeid) = true ->
  calm (render_tok (start_tag (MkTag (lit "div") (str_or_empty label) (dedup ((name_lower CManuscript :: types) ++ [])) true true false (match nodeid with VNone => None | v => Some (fmt_val v) end)))) = true.
Proof.
  intros H1 H2 H3. assert (D : forallb (lacks LT) (dedup ((name_lower CManuscript :: types) ++ [])) = true).
  { apply forallb_forall. intros y Hy. apply dedup_incl in Hy. rewrite app_nil_r in Hy. destruct Hy as [<-|Hy]; [reflexivity|]. rewrite forallb_forall in H2. apply H2, Hy. }
  set (d := dedup _) in *. clearbody d. unfold start_tag, make_tag. cbn [tg_tag tg_id tg_classes tg_sel tg_nodeid flat_map app]. cbn [render_tok].
  rewrite app_assoc. apply calm_app; [reflexivity|]. apply calm_lacks. rewrite lacks_app. apply andb_true_iff. split; [|reflexivity].
  apply attribs_calm. rewrite !forallb_app. rewrite !andb_true_iff. split; [|split; [|destruct nodeid; try (cbn [forallb]; rewrite H3); reflexivity]].
  - destruct (str_or_empty label); [reflexivity|]. cbn [forallb]. rewrite H1. reflexivity.
  - destruct d as [|x l]; [reflexivity|]. cbn [forallb]. rewrite andb_true_r. apply andb_true_iff. split; [reflexivity|]. apply join_lacks; [reflexivity|exact D].
Qed.
Lemma calm_concat l : forallb calm l = true -> calm (concat l) = true.
Proof. induction l as [|x l IH]; [reflexivity|]. cbn [forallb concat]. intros H. apply andb_true_iff in H as [H1 H2]. apply calm_app; auto. Qed.
Lemma page_titled label types nodeid title h : lacks LT (str_or_empty label) = true -> forallb (lacks LT) types = true -> lacks LT (fmt_val nodeid) = true ->
  lacks LT title = true -> ~ In 10%N title -> extract_title (Html.render (first_part label types nodeid title ++ h)) = title.
Proof.
  intros H1 H2 H3 H4 H5. unfold first_part. rewrite <- app_assoc. unfold Html.render. rewrite map_app, concat_app.
  change (concat (map render_tok ([TOpen (lit "h1") []; TRaw title; TClose (lit "h1"); Html.nl] ++ h))) with (lit "<h1>" ++ title ++ lit "</h1>" ++ [10%N] ++ concat (map render_tok h)).
  apply title_found; [|exact H4|exact H5]. apply calm_concat. unfold before_title. pose proof (start_calm label types nodeid H1 H2 H3) as G.
  set (g := start_tag _) in *. clearbody g. cbn [map forallb]. rewrite G. reflexivity.
Qed.

(** ** From the source *)

Lemma pieces_title ts hl fuel text h m i title : clean_source (ts text) -> no_markup false (ts text) ->
  a_attrs (manuscript_of (ts text)) !! a_title = Some (VStr title) -> title <> [] -> ~ In 10%N title ->
  pieces ts hl fuel false false text h m i -> extract_title (Html.render h) = title.
Proof.
  intros C NM Ht Hne Hn (s1 & s2 & d & Hp & Htf & Htr).
  destruct (td_parse false (ts text) NM fuel empty_st s1 i) as [T1 _]; [intros x n Hx; cbn in Hx; rewrite lookup_empty in Hx; discriminate Hx|exact Hp|].
  destruct (td_transform false fuel [] i s1 s2 d T1 Htf) as [T2 _].
  destruct (parse_from _ _ _ _ _ (cl_source _ C) (cl_errors _ C) (cl_keys _ C) empty_sane Hp) as (t & Hr & R & (Hgd & Hb & Hty & Hco) & Hh & _ & _).
  assert (Hd : transforms_to s1 t s2) by (exists fuel, d; rewrite Hr; exact Htf).
  destruct (transform_result s1 t s2 R Hty Hco Hd) as (t' & f & cites & RS). pose proof (rs_transformed _ _ _ _ _ _ RS) as TF.
  assert (Hm : exists n, st_heap s1 !! i = Some n /\ n_cls n = CManuscript /\ n_attrs n !! a_title = Some (VStr title)).
  { unfold manuscript_of in Ht. destruct (mirrored (ts text)) as [k0 m0 us0] eqn:Em. unfold mirrored in Em. injection Em as <- _ _. cbn [norm a_attrs sourced] in Ht, Hh.
    inversion Hh as [p j n us ks Hj _ _ _ Et Ek]; subst. exists n. split; [exact Hj|]. split; [congruence|]. rewrite <- Ht.
    match goal with K : n_attrs n = _ |- _ => rewrite K end. rewrite lookup_insert_ne by discriminate. match goal with K : n_cls n = _ |- _ => rewrite K end. reflexivity. }
  destruct Hm as (n & Hn1 & Hc & Hti).
  destruct (tf_node _ _ _ _ _ TF i) as (n0 & n' & E0 & E1 & Ec & Ea); [rewrite <- Hr; destruct t; left|intros [K|[K|K]]; destruct K as (nk & Ek & Kk); rewrite Hn1 in Ek; injection Ek as <-; congruence|].
  rewrite Hn1 in E0. injection E0 as <-.
  assert (Hti' : n_attrs n' !! a_title = Some (VStr title)).
  { rewrite Ea; [exact Hti|]. unfold transform_attr. intuition discriminate. }
  unfold translate in Htr. apply bind_ok in Htr as (s3 & [] & E2 & Htr).
  assert (Hi3 : st_heap s3 !! i = Some n') by (unfold info, log_rec in E2; injection E2 as <-; exact E1).
  unfold run_translator in Htr. apply bind_ok in Htr as (s4 & ts4 & El & Htr). destruct (deferred ts4); [|discriminate Htr]. apply ret_ok in Htr as [_ ->].
  destruct (first_tags _ _ _ _ _ _ _ _ _ _ Hi3 (eq_trans Ec Hc) Hti' Hne El) as (label & types & nodeid & h' & K1 & K2 & K3 & ->).
  destruct (T2 i n' E1) as [TA TN].
  apply page_titled; [| | | |exact Hn].
  - pose proof (tidy_lt false _ _ (TA _ _ K2)) as L. unfold str_or_empty. destruct (truthy label); [apply L; discriminate|reflexivity].
  - pose proof (TA _ _ K1) as L. cbn [tidy] in L. apply forallb_forall. intros x Hx. pose proof (proj1 (list.Forall_forall _ _) L x (proj2 (elem_of_list_In _ _) Hx)) as [K _]. exact K.
  - apply (tidy_lt false _ _ (TA _ _ K3)); discriminate.
  - apply (tidy_lt false _ _ (TA _ _ Hti')); discriminate.
Qed.
Lemma page_title_made ts hl pkg fuel source path hr c w w' title : fresh_ok (w_mem w) ->
  (forall text, given source path (w_fs w) text -> clean_source (ts text) /\ no_markup false (ts text) /\
     a_attrs (manuscript_of (ts text)) !! a_title = Some (VStr title)) -> title <> [] -> ~ In 10%N title ->
  make_rsm ts hl pkg fuel source path hr false c w = (w', Ok PNone) ->
  exists text h m i top, given source path (w_fs w) text /\ pieces ts hl fuel false false text h m i /\
    absent (lit "<title>") top /\ absent (lit "</head>") top /\ w_fs w' !! lit "index.html" = Some (page top title (Html.render h)).
Proof.
  intros Hf C Hne Hn H. destruct (any_make ts hl pkg fuel _ _ _ _ _ _ _ _ Hf H) as [[_ [K|[e K]]]|(_ & text & h & m & i & p & Hg & Hp & Hb & Hw)]; try discriminate K.
  destruct (C text Hg) as (C1 & C2 & C3). pose proof (pieces_title _ _ _ _ _ _ _ _ C1 C2 C3 Hne Hn Hp) as E.
  destruct page_shape as (top & A1 & A2 & _ & A4). destruct (A4 (Html.render h)) as (tt' & Ht & Em). exists text, h, m, i, top. split; [exact Hg|]. split; [exact Hp|]. split; [exact A1|]. split; [exact A2|].
  destruct (build_files _ _ _ _ _ (assets_mentioned (Html.render h)) Hb) as (_ & _ & Hx & _). rewrite Hw, write_files, Hx, Em.
  rewrite <- E. do 2 f_equal. apply (title_fun (Html.render h)); [exact Ht|apply extract_title_of].
Qed.
