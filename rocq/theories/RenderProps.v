(** The properties of render, from the source to the HTML. *)
From Verif Require Export RenderTexts.
From Verif Require Import TrProps ParseTyped TreeFacts Forget Result ResolveAll Monad NodeOps.
Local Open Scope string_scope.
Local Open Scope list_scope.

Lemma first_unique {A} (P : A -> Prop) l1 l2 l3 l4 x y : l1 ++ x :: l2 = l3 ++ y :: l4 -> P x -> P y -> (forall z, z ∈ l1 -> ~ P z) -> (forall z, z ∈ l3 -> ~ P z) -> x = y.
Proof.
  revert l3. induction l1 as [|a l1 IH]; intros [|b l3] E Hx Hy H1 H3; cbn in E; injection E as E1 E2.
  - exact E1.
  - subst b. destruct (H3 x); [constructor|exact Hx].
  - subst a. destruct (H1 y); [constructor|exact Hy].
  - apply (IH l3 E2 Hx Hy); intros z Hz; [apply H1|apply H3]; constructor; exact Hz.
Qed.
Lemma later_in h t x : x ∈ later_contents h t -> x ∈ doc_order t.
Proof.
  unfold later_contents. intros H. apply elem_of_list_In in H. assert (G : In x (List.filter (is_contents h) (doc_order t))).
  { destruct (List.filter (is_contents h) (doc_order t)); [destruct H|right; exact H]. }
  apply filter_In in G as [G _]. apply elem_of_list_In, G.
Qed.
Section Props.
Context (ts : str -> cst) (hl : str -> str -> str) (pkg : list (str * str)) (fuel : nat).
Lemma manuscript_class c : a_class (sourced c (manuscript_of c)) = CManuscript.
Proof. unfold manuscript_of. unfold mirrored. cbn [norm sourced]. reflexivity. Qed.
(** All that happens between the source and the HTML. *)
Lemma front_result text s0 s1 i s2 d : clean_source (ts text) -> sane s0 -> parse fuel (ts text) s0 = (s1, Ok i) -> transform fuel [] i s1 = (s2, Ok d) ->
  exists t t' f cites, root t = i /\ root t' = i /\ manuscript s1 t /\ SpecParse.holds (st_heap s1) None t (sourced (ts text) (manuscript_of (ts text))) /\
    result s1 t s2 t' f cites.
Proof.
  intros C Hs Hp Ht. destruct (parse_from _ _ _ _ _ (cl_source _ C) (cl_errors _ C) (cl_keys _ C) Hs Hp) as (t & Hr & R & (_ & _ & Hty & Hco) & Hh & _ & _).
  destruct (transform_result s1 t s2 R Hty Hco) as (t' & f & cites & RS).
  { exists fuel, d. rewrite Hr. exact Ht. }
  exists t, t', f, cites. split; [exact Hr|]. split; [rewrite (tf_root _ _ _ _ _ (rs_transformed _ _ _ _ _ _ RS)); exact Hr|]. split; [exact (proj1 R)|]. split; assumption.
Qed.
Lemma rendered_nested source path hr add c w w' out : sane (w_mem w) ->
  (forall text, given source path (w_fs w) text -> clean_source (ts text) /\ formulas_placed (manuscript_of (ts text))) ->
  w_mem w = empty_st ->
  render_rsm ts hl pkg fuel source path hr add c w = (w', Ok (PObj (OText out))) -> out <> [] ->
  exists text h i, given source path (w_fs w) text /\ pieces ts hl fuel hr (hr && add) text h (w_mem w') i /\ out = Html.render h /\ nested h.
Proof.
  intros Hs Hc Hw H Ho. apply render_does in H as (_ & [E|(text & s1 & i & s2 & d & h & Hg & Hp & Ht & Htr & E)]); injection E as ->; [congruence|].
  exists text, h, i. split; [exact Hg|]. split; [rewrite Hw in Hp; exists s1, s2, d; auto|]. split; [reflexivity|]. destruct (Hc _ Hg) as [C F]. destruct (front_result _ _ _ _ _ _ C Hs Hp Ht) as (t & t' & f & cites & Hr & Hr' & M & Hh & RS).
  assert (MP : math_placed s2 t') by (eapply math_after; [exact M|exact Hh|apply sourced_placed, F|apply manuscript_class|exact RS]).
  pose proof (tf_manuscript _ _ _ _ _ (rs_transformed _ _ _ _ _ _ RS)) as M'. unfold translation in Htr. rewrite <- Hr' in Htr. destruct hr; [eapply nested_hand|eapply nested_base]; eauto.
Qed.
Lemma sourced_attrs k a b : In b (a_preorder (sourced k a)) -> exists b0, In b0 (a_preorder a) /\ a_class b = a_class b0 /\ a_kids b = a_kids b0 /\ forall x, x <> a_src -> a_attrs b !! x = a_attrs b0 !! x.
Proof.
  destruct a as [c m us]. cbn [sourced a_preorder]. intros [<-|H].
  - exists (A c m us). split; [left; reflexivity|]. do 2 (split; [reflexivity|]). intros x Hx. cbn [a_attrs]. apply lookup_insert_ne. congruence.
  - exists b. split; [right; exact H|]. auto.
Qed.
Lemma sourced_attrs' k a b : In b (a_preorder a) -> exists b0, In b0 (a_preorder (sourced k a)) /\ a_class b0 = a_class b /\ a_kids b0 = a_kids b /\ forall x, x <> a_src -> a_attrs b0 !! x = a_attrs b !! x.
Proof.
  destruct a as [c m us]. cbn [sourced a_preorder]. intros [<-|H].
  - eexists. split; [left; reflexivity|]. do 2 (split; [reflexivity|]). intros x Hx. cbn [a_attrs]. apply lookup_insert_ne. congruence.
  - exists b. split; [right; exact H|]. auto.
Qed.
Lemma sourced_text k a b b0 l : a_class b = a_class b0 -> (forall x, x <> a_src -> a_attrs b !! x = a_attrs b0 !! x) -> text_shown hl (sourced k a) b l -> text_shown hl a b0 l.
Proof.
  intros Hc Ha H.
  assert (Es : forall x, x <> a_src -> string_at x b = string_at x b0) by (intros x Hx; unfold string_at; rewrite Ha by exact Hx; reflexivity).
  assert (Et : string_at a_text b = string_at a_text b0) by (apply Es; discriminate). assert (El : string_at a_lang b = string_at a_lang b0) by (apply Es; discriminate).
  assert (Etg : a_attrs b !! a_target = a_attrs b0 !! a_target) by (apply Ha; discriminate).
  assert (Elb : forall u v : atree, (forall x, x <> a_src -> a_attrs u !! x = a_attrs v !! x) -> forall lbl, carries lbl u -> carries lbl v).
  { intros u v Huv lbl [H1 H2]. split; [exact H1|]. rewrite <- Huv by discriminate. exact H2. }
  inversion H as [Hx|Hx Hy|Hx Hy|lbl Hx Hy Hz|lbl x Hx Hy Hz Hw|H1 H2 H3 H4]; subst; rewrite ?Et, ?El in *; rewrite Hc in *.
  - apply ts_text. assumption.
  - apply ts_plain_code; congruence.
  - apply ts_code; congruence.
  - apply ts_unknown; [assumption|congruence|]. intros x Hin Hcar. destruct (sourced_attrs' k _ _ Hin) as (x0 & Hx0 & _ & _ & Hx0a). apply (Hz x0 Hx0). revert Hcar. apply Elb. intros y Hy'. symmetry. apply Hx0a, Hy'.
  - destruct (sourced_attrs _ _ _ Hz) as (x0 & Hx0 & _ & _ & Hx0a). eapply ts_known; [assumption|rewrite <- Etg; eassumption|exact Hx0|]. eapply Elb; eassumption.
  - apply ts_other; assumption.
Qed.
Lemma sourced_texts k a l : texts_shown hl (sourced k a) l -> texts_shown hl a l.
Proof.
  intros (ls & F & ->). exists ls. split; [|reflexivity]. pose proof (fun b b0 l => sourced_text k a b b0 l) as ST. revert ST F.
  generalize (text_shown hl (sourced k a)) (text_shown hl a). destruct a as [c m us]. cbn [sourced a_preorder]. intros P Q ST F.
  inversion F as [|x l0 xs ls0 H1 H2]; subst. constructor.
  - refine (ST _ (A c m us) l0 _ _ H1); [reflexivity|]. intros y Hy. cbn [a_attrs]. apply lookup_insert_ne. congruence.
  - eapply Forall2_impl; [exact H2|]. intros x l1 H. eapply ST; [reflexivity|auto|exact H].
Qed.
Lemma sourced_contents k a : contents_empty a -> contents_empty (sourced k a).
Proof. intros H x Hx Hc. destruct (sourced_in _ _ _ Hx) as (x0 & H0 & E1 & E2). rewrite E2. apply H; congruence. Qed.
Lemma rendered_texts source path add c w w' out : sane (w_mem w) ->
  (forall text, given source path (w_fs w) text -> clean_source (ts text) /\ contents_empty (manuscript_of (ts text))) ->
  w_mem w = empty_st ->
  render_rsm ts hl pkg fuel source path false add c w = (w', Ok (PObj (OText out))) -> out <> [] ->
  exists text h t, given source path (w_fs w) text /\ pieces ts hl fuel false false text h (w_mem w') (root t) /\ out = Html.render h /\ tree_at (st_heap (w_mem w')) None t /\
    texts_shown hl (manuscript_of (ts text)) (map snd (shown_of t h)).
Proof.
  intros Hs Hc Hw H Ho. apply render_does in H as (_ & [E|(text & s1 & i & s2 & d & h & Hg & Hp & Ht & Htr & E)]); injection E as ->; [congruence|].
  destruct (Hc _ Hg) as [C F]. destruct (front_result _ _ _ _ _ _ C Hs Hp Ht) as (t & t' & f & cites & Hr & Hr' & M & Hh & RS).
  exists text, h, t'. split; [exact Hg|]. split; [rewrite Hr'; rewrite Hw in Hp; exists s1, s2, d; auto|]. split; [reflexivity|]. unfold translation in Htr. cbn [andb] in Htr. rewrite <- Hr' in Htr.
  pose proof (tf_manuscript _ _ _ _ _ (rs_transformed _ _ _ _ _ _ RS)) as M'.
  split; [eapply keeps_base; eauto|]. rewrite (out_texts _ _ _ _ _ _ (rs_translatable _ _ _ _ _ _ RS) Htr).
  eapply sourced_texts. eapply texts_after; [exact M|exact Hh|apply sourced_contents, F|exact RS].
Qed.
(** A reference to the first node with a label is a link to it. *)
Lemma in_after s t s' t' f cites x : result s t s' t' f cites -> manuscript s t -> x ∈ doc_order t ->
  (forall y, y ∈ later_contents (st_heap s) t -> kids_are (st_heap s) y []) -> x ∉ later_contents (st_heap s) t -> f x ∈ doc_order t'.
Proof.
  intros R M Hx Hk Hl. pose proof (rs_transformed _ _ _ _ _ _ R) as TF.
  pose proof (order_after s t s' t' f (fun z => Nat.eqb z (f x)) TF M) as E. cbv beta in E.
  assert (G : In (f x) (List.filter (fun z => Nat.eqb z (f x)) (doc_order t'))).
  { rewrite E.
    - apply filter_In. split; [apply in_map, elem_of_list_In, Hx|apply Nat.eqb_refl].
    - intros y Hy Hn. apply Nat.eqb_neq. intros ->. apply Hn. apply elem_of_list_In, in_map, elem_of_list_In, Hx.
    - intros y Hy. split; [apply Hk, Hy|]. apply Nat.eqb_neq. intros Ef. apply Hl. rewrite <- (tf_inj _ _ _ _ _ TF y x); [exact Hy| |exact Hx|exact Ef].
      eapply later_in; exact Hy. }
  apply filter_In in G as [G _]. apply elem_of_list_In, G.
Qed.
Lemma later_kids s t a : SpecParse.holds (st_heap s) None t a -> contents_empty a -> forall y, y ∈ later_contents (st_heap s) t -> kids_are (st_heap s) y [].
Proof.
  intros Hh Hce x Hx. pose proof (holds_all _ _ _ _ Hh) as HA. pose proof (later_class _ _ _ Hx) as Hc.
  assert (Hxt : x ∈ doc_order t). { eapply later_in; exact Hx. }
  destruct (holds_find _ _ _ _ HA Hxt) as (b & Hb & S). pose proof S as (n & us & Hn & Ecl & _ & Hk & Hf).
  assert (Ecb : a_class b = CContents) by (destruct Hc as (m & Hm & Em); congruence).
  exists n. split; [exact Hn|]. rewrite Hk. rewrite (Hce b Hb Ecb) in Hf. inversion Hf. reflexivity.
Qed.
Lemma rendered_links source path add c w w' out : sane (w_mem w) ->
  (forall text, given source path (w_fs w) text -> clean_source (ts text) /\ contents_empty (manuscript_of (ts text))) ->
  w_mem w = empty_st ->
  render_rsm ts hl pkg fuel source path false add c w = (w', Ok (PObj (OText out))) -> out <> [] ->
  exists text h i, given source path (w_fs w) text /\ pieces ts hl fuel false false text h (w_mem w') i /\ out = Html.render h /\
    forall b lbl x, In b (a_preorder (manuscript_of (ts text))) -> a_class b = CPendingReference -> a_attrs b !! a_target = Some (VStr lbl) ->
      first_carrier (manuscript_of (ts text)) lbl x -> a_class x ∉ CContents :: CCite :: bare ->
      lit "#" ++ lbl ∈ SpecHtml.hrefs h /\ lbl ∈ SpecHtml.ids h.
Proof.
  intros Hs Hc Hw H Ho. apply render_does in H as (_ & [E|(text & s1 & i & s2 & d & h & Hg & Hp & Ht & Htr & E)]); injection E as ->; [congruence|].
  destruct (Hc _ Hg) as [C F]. destruct (front_result _ _ _ _ _ _ C Hs Hp Ht) as (t & t' & f & cites & Hr & Hr' & M & Hh & RS).
  exists text, h, i. split; [exact Hg|]. split; [rewrite Hw in Hp; exists s1, s2, d; auto|]. split; [reflexivity|]. unfold translation in Htr. cbn [andb] in Htr. rewrite <- Hr' in Htr.
  intros b lbl x Hb Hcb Htg Hx Hcx. pose proof (holds_all _ _ _ _ Hh) as HA.
  pose proof (later_kids _ _ _ Hh (sourced_contents _ _ F)) as LK. pose proof (rs_transformed _ _ _ _ _ _ RS) as TF.
  destruct (sourced_attrs' (ts text) _ _ Hb) as (b' & Hb' & Ecb & _ & Eab). destruct (holds_back _ _ _ _ HA Hb') as (j & Hj & Sj).
  assert (Hcj : class_of (st_heap s1) j CPendingReference) by (apply (stands_class _ _ _ _ Sj); congruence).
  destruct (rs_refs _ _ _ _ _ _ RS j Hj Hcj) as (lbl' & Hv & Hres).
  assert (lbl' = lbl). { rewrite (stands_value _ _ _ _ Sj), Eab in Hv by discriminate. congruence. } subst lbl'.
  assert (Hfx : exists y, first_labelled (st_heap s1) (doc_order t) lbl y /\ class_of (st_heap s1) y (a_class x)).
  { destruct Hx as (Hcar & l1 & l2 & El & Hl1). pose proof Hcar as [Hln _].
    assert (EL : exists x', a_preorder (sourced (ts text) (manuscript_of (ts text))) = match l1 with [] => [] | u :: r => (match u with A k m us => A k (<[a_src := VStr (c_text (ts text))]> m) us end) :: r end ++ x' :: l2 /\
      a_class x' = a_class x /\ forall q, q <> a_src -> a_attrs x' !! q = a_attrs x !! q).
    { destruct (manuscript_of (ts text)) as [k m us]. cbn [sourced a_preorder] in *. destruct l1 as [|u l1]; cbn [app] in El; injection El as E1 E2.
      - exists (A k (<[a_src := VStr (c_text (ts text))]> m) us). rewrite <- E1, E2. split; [reflexivity|]. split; [reflexivity|]. intros q Hq. cbn [a_attrs]. apply lookup_insert_ne. congruence.
      - exists x. rewrite <- E1, E2. auto. }
    destruct EL as (x' & EL & Ecx & Eax). set (l1' := match l1 with [] => [] | _ => _ end) in EL.
    rewrite EL in HA. apply Forall2_app_inv_r in HA as (k1 & k2 & F1 & F2 & Ek). inversion F2 as [|y ? k3 ? Sy F3]; subst.
    exists y. split; [|apply (stands_class _ _ _ _ Sy); exact Ecx]. split; [exact Hln|]. split.
    - apply (stands_carries _ _ _ _ Hln Sy). split; [exact Hln|]. rewrite Eax by discriminate. apply Hcar.
    - exists k1, k3. split; [exact Ek|]. intros z Hz. apply elem_of_list_lookup in Hz as [n Hz]. destruct (Forall2_lookup_l _ _ _ _ _ F1 Hz) as (bz & Hbz & Sz).
      intros Elz. apply (stands_carries _ _ _ _ Hln Sz) in Elz. destruct l1 as [|u r]; [discriminate Hbz|]. destruct n as [|n]; cbn in Hbz.
      + injection Hbz as <-. apply (Hl1 u (or_introl eq_refl)). destruct u as [k m us]. destruct Elz as [Ez1 Ez2]. split; [exact Ez1|]. cbn [a_attrs] in *. rewrite lookup_insert_ne in Ez2 by discriminate. exact Ez2.
      + apply (Hl1 bz); [right; apply elem_of_list_In, elem_of_list_lookup; eauto|exact Elz]. }
  destruct Hfx as (y & Hfy & Hcy).
  assert (Hj' : f j ∈ doc_order t').
  { eapply in_after; eauto. intros Hl. apply later_class in Hl. pose proof (class_det _ _ _ _ Hcj Hl). discriminate. }
  assert (Hyt : y ∈ doc_order t) by (destruct Hfy as (_ & _ & k1 & k2 & Ek & _); rewrite Ek; apply elem_of_app; right; constructor).
  assert (Hnp : ~ is_pending (st_heap s1) y). { intros [Hq|[Hq|Hq]]; pose proof (class_det _ _ _ _ Hcy Hq) as Eq; rewrite Eq in Hcx; apply Hcx, elem_of_list_In; cbn; tauto. }
  assert (Hy' : y ∈ doc_order t').
  { rewrite <- (tf_same _ _ _ _ _ TF y Hyt Hnp). eapply in_after; eauto. intros Hl. apply later_class in Hl. pose proof (class_det _ _ _ _ Hcy Hl) as Eq. apply Hcx. rewrite Eq. constructor. }
  destruct Hres as [(z & Hz & Hcr & Htv & _)|(Hno & _)]; [|destruct (Hno y Hfy)].
  assert (z = y).
  { destruct Hz as (_ & Lz & k1 & k2 & E1 & N1). destruct Hfy as (_ & Ly & k3 & k4 & E2 & N2). rewrite E1 in E2. exact (first_unique (fun q => label_of (st_heap s1) q = lbl) _ _ _ _ _ _ E2 Lz Ly N1 N2). } subst z.
  assert (El : label_of (st_heap s2) y = lbl) by (eapply (rs_first _ _ _ _ _ _ RS); eauto).
  assert (Hcy' : class_of (st_heap s2) y (a_class x)).
  { destruct (tf_node _ _ _ _ _ TF y Hyt Hnp) as (n & n' & Hn & Hn' & En & _). exists n'. split; [exact Hn'|]. destruct Hcy as (m & Hm & Em). congruence. }
  rewrite <- El. eapply (ref_links hl fuel s2 (w_mem w') t' h (rs_translatable _ _ _ _ _ _ RS) Htr (f j) y (a_class x)); auto.
  - rewrite El. apply Hfy.
  - intros Hq. apply Hcx. do 2 right. exact Hq.
  - intros Hq. apply Hcx. rewrite Hq. right. left.
Qed.
End Props.
