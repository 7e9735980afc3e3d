(** Translation always ends: the translator with handrails. *)
From Verif Require Export TrTotal5.
From Verif Require Import ResultSteps TrHand Fuel Queries Traverse NodeOps Monad.
Local Open Scope list_scope.

Definition hneeds (m : cls) : bool :=
  match m with CAuthor | CParagraph | CTheorem | CSketch | CProof | CSubproof | CStep | CMath | CMathBlock => true | _ => false end.
Definition batched (m : cls) : bool := match m with CCaption => true | _ => hneeds m end.
Lemma hleave_visit c m : dispatch hleave_defined c = Some m -> hneeds m = true -> exists m', dispatch visit_defined c = Some m' /\ batched m' = true.
Proof. intros H Hm. destruct c; vm_compute in H; injection H as <-; try discriminate Hm; eexists; split; reflexivity. Qed.
Lemma hvisit_batch hl src root f m i : batched m = true -> post (hvisit_method hl src root f m i) batch.
Proof.
  intros H. destruct m; try discriminate H; cbn [hvisit_method].
  all: unfold hv_author, hv_paragraph, hv_labeled, hv_subproof, hv_step, hv_mathblock; cbv zeta; try solve [pb].
  2: { cbn [visit_method]. unfold visit_caption. apply post_skip. intros [x|]; pb. }
  unfold hv_math, visit_math. apply (post_bind _ _ batch); [pb|]. intros c Hc. apply post_skip. intros [x|]; [|apply post_ret, Hc].
  apply post_skip. intros b. destruct (negb b); [apply post_ret, Hc|]. apply post_skip. intros [|y l]; [apply post_ret, Hc|].
  destruct (N.eqb y 46); [|apply post_ret, Hc]. pb.
Qed.
Lemma dispatch_hleave_some c : exists m, dispatch hleave_defined c = Some m.
Proof. destruct c; vm_compute; eexists; reflexivity. Qed.
Lemma hleave_abstract c m : dispatch hleave_defined c = Some m -> hneeds m = false -> dispatch leave_defined c = Some m /\ needs_batch m = false /\ m <> CParagraph.
Proof. intros H Hm. destruct c; vm_compute in H; injection H as <-; try discriminate Hm; repeat split; discriminate. Qed.
Lemma t_post {X} A s0 (m : M X) R Q : returns A s0 m R -> post m Q -> returns A s0 m (fun x => R x /\ Q x).
Proof. intros H P s Hs. destruct (H s Hs) as (s' & a & E & D & Ha). exists s', a. split; [exact E|]. split; [exact D|]. split; [exact Ha|]. eapply P, E. Qed.

Section Hand.
Context (A : list attr) (s0 : st) (Hg0 : good s0) (f : nat) (Hf : size (st_heap s0) <= f).
Context (HA : forall a, a ∈ A -> a ∈ trh_attrs) (HAt : a_types ∈ A) (HAm : a_must_close_p_tag ∈ A) (HAx : a_text ∈ A) (HAf : a_followed_by_dot ∈ A).
Context (Hty : wtyped s0) (Hco : complete s0) (Htp : forall t, fillable_at s0 t).
Notation ret_s := (returns A s0).

Lemma r_hr_from_node i n add sel : st_heap s0 !! i = Some n -> ret_s (hr_from_node i add sel) (fun _ => True).
Proof using.
  intros Hi. unfold hr_from_node. eapply t_bind; [eapply (t_get_strs _ _ _ _ _ Hi); [apply always|notin|auto]|]. intros ts _.
  eapply t_bind; [eapply t_depth, Hi|]. intros d _. eapply r_node_tag, Hi.
Qed.
Lemma r_link i n : st_heap s0 !! i = Some n -> ret_s (link_of i) (fun _ => True).
Proof using. intros Hi. unfold link_of. eapply t_bind; [eapply (r_always _ _ _ _ _ Hi); cbn; tauto|]. intros; apply t_ret, I. Qed.
Lemma r_icon i n : st_heap s0 !! i = Some n -> ret_s (icon_of i) (fun _ => True).
Proof using. intros Hi. unfold icon_of. eapply t_bind; [apply (t_get_node _ _ _ _ (fun _ => True) Hi); auto|]. intros; apply t_ret, I. Qed.
Lemma r_ref i n : st_heap s0 !! i = Some n -> ret_s (reftext f i) (fun _ => True).
Proof using Hg0 Hf HA Htp. intros Hi. eapply r_reftext; eauto. Qed.
Lemma r_replace i n add lab cin call : st_heap s0 !! i = Some n -> ret_s (replace_node_with_handrails f i add lab cin call) (fun _ => True).
Proof using Hg0 Hf HA Htp.
  intros Hi. unfold replace_node_with_handrails. eapply t_bind; [eapply r_hr_from_node, Hi|]. intros h _.
  eapply t_bind with (R := fun _ => True); [destruct lab; [eapply r_ref, Hi|apply t_ret, I]|]. intros l _. eapply t_bind; [eapply r_link, Hi|]. intros; apply t_ret, I.
Qed.
Lemma r_items_b c : batch c -> ret_s (items_of c) (fun l => c = KBatchDefer l).
Proof using. intros [l ->]. apply t_ret. reflexivity. Qed.
Lemma r_wrap index items cl ic cin lab link : index < length items -> ret_s (wrap_item index items cl ic cin lab link) (fun _ => True).
Proof using.
  intros Hl. unfold wrap_item. destruct (lookup_lt_is_Some_2 items index Hl) as [x Hx]. rewrite Hx. apply t_ret, I.
Qed.
Lemma r_wrap_heading i n ic items : st_heap s0 !! i = Some n -> 1 < length items -> ret_s (wrap_heading f i ic items) (fun _ => True).
Proof using Hg0 Hf HA Htp.
  intros Hi Hl. unfold wrap_heading. eapply t_bind; [eapply r_ref, Hi|]. intros l _. eapply t_bind; [eapply r_link, Hi|]. intros k _. apply r_wrap, Hl.
Qed.

(** *** The small map *)
Definition toc_fine (t : id) : Prop := forall x n, ancestor (st_heap s0) x t -> st_heap s0 !! x = Some n -> n_cls n = CReference ->
  exists y ny, n_attrs n !! a_target = Some (VNode y) /\ st_heap s0 !! y = Some ny /\ In (n_cls ny) [CSection; CSubsection; CSubsubsection].
Lemma during_tree p t s : tree_at (st_heap s0) p t -> during A s0 s -> tree_at (st_heap s) p t.
Proof using.
  intros Ht Hs. induction Ht as [p i n cs Hi Hp Hk Hcs IH] using tree_at_ind'. destruct (du_old _ _ _ Hs _ _ Hi) as (m & Hm & E1 & E2 & E3 & _).
  econstructor; [exact Hm|congruence| |exact IH]. unfold kids in *. rewrite E1, E3. exact Hk.
Qed.
Lemma tree_size p t : tree_at (st_heap s0) p t -> length (doc_order t) <= size (st_heap s0).
Proof using Hg0.
  intros Ht. pose proof (tree_at_nodup _ _ _ (proj2 Hg0) Ht) as Hnd. rewrite <- size_dom.
  rewrite <- (size_list_to_set (C := gset id) _ Hnd). apply subseteq_size. intros x Hx. apply elem_of_list_to_set in Hx. apply elem_of_dom. eapply tree_at_some; eassumption.
Qed.
Lemma r_circles ids num r n y ny : st_heap s0 !! r = Some n -> n_cls n = CReference -> n_attrs n !! a_target = Some (VNode y) -> st_heap s0 !! y = Some ny ->
  In (n_cls ny) [CSection; CSubsection; CSubsubsection] -> ret_s (minimap_circles ids num r) (fun _ => True).
Proof using HA.
  intros Hr Hc Ht Hy Hk. unfold minimap_circles. assert (Hu : used_ok CReference (n_cls n) = true) by (rewrite Hc; reflexivity).
  eapply t_bind; [eapply (r_used _ _ _ _ _ _ Hr Hu); cbn; tauto|]. intros v Hv. rewrite Hv in Ht by (apply (notA _ HA); notin). injection Ht as ->.
  eapply t_bind; [eapply t_cls_of, Hy|]. intros c ->.
  assert (Hrd : exists r0, radius (n_cls ny) = Some r0) by (destruct Hk as [<-|[<-|[<-|[]]]]; eexists; reflexivity). destruct Hrd as [r0 ->].
  eapply t_bind; [eapply r_label, Hy|]. intros; apply t_ret, I.
Qed.
Lemma r_minimap i n follow ids : st_heap s0 !! i = Some n -> n_cls n = CContents -> toc_fine i -> ret_s (make_minimap f i follow ids) (fun _ => True).
Proof using Hg0 Hf HA.
  intros Hi Hc Ht. unfold make_minimap. destruct (tree_exists _ _ _ (proj2 Hg0) Hi) as (t & <- & Htr).
  eapply t_bind with (R := fun l => forall x, In x l -> exists m, st_heap s0 !! x = Some m /\ n_cls m = CReference /\ ancestor (st_heap s0) x (root t)).
  - apply t_quiet; [apply q_traverse|]. intros s Hs. pose proof (during_tree _ _ _ Htr Hs) as Htr'.
    exists s. eexists. split; [apply (traverse_eq _ _ _ _ _ Htr'); pose proof (tree_size _ _ Htr); lia|]. intros x Hx. apply filter_In in Hx as [Hx Hh].
    apply elem_of_list_In in Hx. destruct (tree_at_some _ _ _ _ Htr Hx) as [m Hm]. destruct (du_old _ _ _ Hs _ _ Hm) as (m' & Hm' & E & _).
    unfold Traverse.holds in Hh. rewrite Hm' in Hh. unfold cond_class in Hh. rewrite E in Hh.
    assert (Hcm : n_cls m = CReference) by (destruct (n_cls m); vm_compute in Hh; try discriminate Hh; reflexivity).
    exists m. split; [exact Hm|]. split; [exact Hcm|]. destruct (tree_at_doc_order _ _ _ _ (proj2 Hg0) Htr Hx) as [->|H]; [congruence|exact H].
  - intros refs Hrefs. eapply t_bind with (R := fun _ => True); [|intros; apply t_ret, I].
    generalize 0. induction refs as [|r refs IH]; intros k; cbn [minimap_all]; [apply t_ret, I|].
    destruct (Hrefs r) as (m & Hm & Hcm & Hanc); [left; reflexivity|]. destruct (Ht r m Hanc Hm Hcm) as (y & ny & H1 & H2 & H3).
    eapply t_bind; [eapply (r_circles _ _ _ _ _ _ Hm Hcm H1 H2 H3)|]. intros a _. eapply t_bind; [apply IH; intros x Hx; apply Hrefs; right; exact Hx|]. intros; apply t_ret, I.
Qed.

(** *** Visit methods *)
Lemma r_hv_manuscript src root nr i n : st_heap s0 !! i = Some n -> used_ok CManuscript (n_cls n) = true ->
  st_heap s0 !! root = Some nr -> used_ok CManuscript (n_cls nr) = true ->
  (forall k m, k ∈ kids n -> st_heap s0 !! k = Some m -> n_cls m = CContents -> toc_fine k) ->
  ret_s (hv_manuscript src root f i) (fun _ => True).
Proof using Hg0 Hf HA Hco.
  intros Hi Hu Hr Hur Htoc. unfold hv_manuscript.
  eapply t_bind with (R := fun c => exists l v, c = KBatchDefer l /\ n_attrs n !! a_title = Some v /\ (truthy v = true -> 4 < length l)).
  { unfold visit_manuscript. eapply t_bind; [eapply r_node_tag, Hi|]. intros nt _. eapply t_bind; [eapply (r_used _ _ _ _ _ _ Hi Hu); cbn; tauto|]. intros v Hv.
    apply t_ret. eexists _, v. split; [reflexivity|]. split; [apply Hv, (notA _ HA); notin|]. intros ->. cbn. lia. }
  intros c (l & v & -> & Hv & Hl). eapply t_bind; [apply (r_items_b (KBatchDefer l)); eexists; reflexivity|]. intros l' E. injection E as <-.
  eapply t_bind; [eapply (r_used _ _ _ _ _ _ Hi Hu); cbn; tauto|]. intros v' Hv'. rewrite Hv' in Hv by (apply (notA _ HA); notin). injection Hv as ->.
  eapply t_bind with (R := fun _ => True); [destruct (truthy v); [apply r_wrap, Hl; reflexivity|apply t_ret, I]|]. intros items _.
  eapply t_bind with (R := fun _ => True).
  { destruct src; [|apply t_ret, I]. eapply t_bind with (R := fun _ => True); [|intros; apply t_ret, I]. unfold source_div.
    eapply t_bind; [apply (t_get_node _ _ _ _ (fun m => is_Some (n_attrs m !! a_src)) Hr)|].
    - intros m _ _ _ Ha. rewrite Ha by (apply (notA _ HA); notin). apply (Hco root nr a_src Hr). apply (used_in _ _ _ Hur). cbn; tauto.
    - intros m [w Hw]. rewrite Hw. apply t_ret, I. }
  intros items' _. eapply t_bind with (R := fun r => forall k j, r = Some (k, j) -> k ∈ kids n /\ forall m, st_heap s0 !! k = Some m -> n_cls m = CContents).
  { intros s Hs. destruct (t_first_of_type A s0 i [CContents] n Hi s Hs) as (s' & r & E & D & Hk). exists s', r. split; [exact E|]. split; [exact D|].
    intros k j ->. split; [eapply Hk; reflexivity|]. intros m Hm. clear Hk.
    unfold first_of_type in E. apply bind_ok in E as (s1 & ks & Ek & E). apply children_of_ok in Ek as (-> & _). revert E. generalize 0.
    induction ks as [|x ks IH]; intros z E; cbn [first_of_type_go] in E; [discriminate E|]. apply bind_ok in E as (s1 & b & Eb & E). apply inst_ok in Eb as (-> & nx & Hnx & ->).
    destruct (subclass_any (n_cls nx) [CContents]) eqn:Es.
    - apply ret_ok in E as [_ E]. injection E as -> ->. destruct (du_old _ _ _ Hs _ _ Hm) as (m' & Hm' & Ec & _). assert (m' = nx) as -> by congruence.
      rewrite <- Ec. destruct (n_cls nx); vm_compute in Es; try discriminate Es; reflexivity.
    - eapply IH, E. }
  intros [[t j]|] Ht; [|apply t_ret, I]. destruct (Ht t j eq_refl) as [Hk Hc]. destruct (kid_old _ Hg0 _ _ _ Hi Hk) as [m Hm].
  eapply t_bind; [eapply (r_minimap _ _ _ _ Hm (Hc _ Hm)); eapply Htoc; eauto|]. intros; apply t_ret, I.
Qed.
Lemma r_hv_author i n : st_heap s0 !! i = Some n -> used_ok CAuthor (n_cls n) = true ->
  (exists a v, In a [a_name; a_affiliation; a_email] /\ n_attrs n !! a = Some v /\ truthy v = true) -> ret_s (hv_author f i) (fun _ => True).
Proof using Hg0 Hf HA Htp.
  intros Hi Hu (a & v & Ha & Hv & Htv). unfold hv_author. eapply t_bind with (R := batch).
  { unfold visit_author.
    eapply t_bind; [eapply (r_used _ _ _ _ _ _ Hi Hu); cbn; tauto|]. intros v1 H1. specialize (H1 (notA _ HA a_name ltac:(notin))).
    eapply t_bind; [eapply (r_used _ _ _ _ _ _ Hi Hu); cbn; tauto|]. intros v2 H2. specialize (H2 (notA _ HA a_affiliation ltac:(notin))).
    eapply t_bind; [eapply (r_used _ _ _ _ _ _ Hi Hu); cbn; tauto|]. intros v3 H3. specialize (H3 (notA _ HA a_email ltac:(notin))).
    eapply t_bind; [eapply r_node_tag, Hi|]. intros nt _.
    assert (E : truthy v1 || truthy v2 || truthy v3 = true).
    { destruct Ha as [<-|[<-|[<-|[]]]].
      - assert (v1 = v) as -> by congruence. rewrite Htv. reflexivity.
      - assert (v2 = v) as -> by congruence. rewrite Htv. destruct (truthy v1); reflexivity.
      - assert (v3 = v) as -> by congruence. rewrite Htv. destruct (truthy v1), (truthy v2); reflexivity. }
    rewrite E. apply t_ret. eexists; reflexivity. }
  intros c Hc. eapply t_bind; [eapply r_replace, Hi|]. intros hr _. eapply t_bind; [apply r_items_b, Hc|]. intros; apply t_ret, I.
Qed.
Lemma r_headed {X} (m : M cmd) i n (k : list cmd -> M X) R : st_heap s0 !! i = Some n -> ret_s m (fun _ => True) -> post m (fun c => exists l, c = KBatchDefer l /\ 1 < length l) ->
  (forall l, 1 < length l -> ret_s (k l) R) -> ret_s (let! c := m in let! items := items_of c in k items) R.
Proof using.
  intros Hi Hm Hp Hk. eapply t_bind; [apply (t_post _ _ _ _ _ Hm Hp)|]. intros c [_ (l & -> & Hl)].
  eapply t_bind; [apply (r_items_b (KBatchDefer l)); eexists; reflexivity|]. intros l' E. injection E as <-. apply Hk, Hl.
Qed.
Lemma r_hv_section i n : st_heap s0 !! i = Some n -> dispatch visit_defined (n_cls n) = Some CSection -> ret_s (hv_section f i) (fun _ => True).
Proof using Hg0 Hf HA HAt Htp.
  intros Hi Hd. unfold hv_section. eapply (r_headed _ _ _ _ _ Hi); [eapply r_section; eassumption| |].
  - unfold visit_section. apply post_skip. intros c. destruct (level c); [|apply post_raise]. repeat (apply post_skip; intros). eapply post_ret. eexists. split; [reflexivity|]. cbn. lia.
  - intros l Hl. eapply t_bind; [eapply r_icon, Hi|]. intros ic _. eapply t_bind; [eapply r_wrap_heading; eassumption|]. intros; apply t_ret, I.
Qed.
Ltac hpost := repeat (apply post_skip; intros); eapply post_ret; eexists; split; [reflexivity|cbn; lia].
Lemma r_hv_abstract i n : st_heap s0 !! i = Some n -> ret_s (hv_abstract f i) (fun _ => True).
Proof using Hg0 Hf HA Htp.
  intros Hi. unfold hv_abstract. eapply (r_headed _ _ _ _ _ Hi); [unfold visit_abstract; eapply t_bind; [eapply r_node_tag, Hi|intros; apply t_ret, I]|unfold visit_abstract; hpost|].
  intros l Hl. eapply t_bind; [eapply r_wrap_heading; eassumption|]. intros; apply t_ret, I.
Qed.
Lemma r_hv_contents i n : st_heap s0 !! i = Some n -> n_cls n = CContents -> toc_fine i -> ret_s (hv_contents f i) (fun _ => True).
Proof using Hg0 Hf HA Htp.
  intros Hi Hc Ht. unfold hv_contents. eapply (r_headed _ _ _ _ _ Hi); [unfold visit_contents; eapply t_bind; [eapply r_node_tag, Hi|intros; apply t_ret, I]|unfold visit_contents; hpost|].
  intros l Hl. eapply t_bind; [eapply r_wrap_heading; eassumption|]. intros items _. eapply t_bind; [eapply r_minimap; eassumption|]. intros; apply t_ret, I.
Qed.
Lemma r_hv_bibliography i n : st_heap s0 !! i = Some n -> ret_s (hv_bibliography f i) (fun _ => True).
Proof using Hg0 Hf HA Htp.
  intros Hi. unfold hv_bibliography. eapply (r_headed _ _ _ _ _ Hi); [unfold visit_bibliography; eapply t_bind; [eapply r_node_tag, Hi|intros; apply t_ret, I]|unfold visit_bibliography; hpost|].
  intros l Hl. eapply t_bind; [eapply r_node_tag, Hi|]. intros nt _. eapply t_bind; [eapply (r_wrap_heading _ _ _ _ Hi); rewrite insert_length; exact Hl|]. intros; apply t_ret, I.
Qed.
Lemma r_hv_paragraph i n : st_heap s0 !! i = Some n -> used_ok CParagraph (n_cls n) = true -> ret_s (hv_paragraph f i) (fun _ => True).
Proof using Hg0 Hf HA Htp.
  intros Hi Hu. unfold hv_paragraph. eapply t_bind; [apply (t_post _ _ _ _ _ (r_paragraph A s0 i n Hi Hu) (visit_batch_par i))|]. intros c [_ Hc].
  eapply t_bind; [eapply r_replace, Hi|]. intros hr _. cbv zeta. eapply t_bind; [apply r_items_b, Hc|]. intros; apply t_ret, I.
Qed.
Lemma r_hv_labeled base ca i n : st_heap s0 !! i = Some n -> ret_s (base i) (fun _ => True) -> post (base i) batch -> ret_s (hv_labeled f base ca i) (fun _ => True).
Proof using Hg0 Hf HA Htp.
  intros Hi Hb Hp. unfold hv_labeled. eapply t_bind; [apply (t_post _ _ _ _ _ Hb Hp)|]. intros c [_ Hc].
  eapply t_bind; [eapply r_replace, Hi|]. intros hr _. eapply t_bind; [apply r_items_b, Hc|]. intros; apply t_ret, I.
Qed.
Lemma r_hv_subproof i n : st_heap s0 !! i = Some n -> ret_s (hv_subproof i) (fun _ => True).
Proof using.
  intros Hi. unfold hv_subproof, subproof_handrails. eapply t_bind with (R := fun _ => True); [|intros; apply t_ret, I].
  eapply t_bind; [eapply r_hr_from_node, Hi|]. intros; apply t_ret, I.
Qed.
Lemma r_hv_step i n : st_heap s0 !! i = Some n -> ret_s (hv_step f i) (fun _ => True).
Proof using Hg0 Hf HA Htp.
  intros Hi. unfold hv_step, step_handrails. eapply t_bind with (R := fun _ => True); [|intros; apply t_ret, I].
  eapply t_bind; [eapply t_first_of_type, Hi|]. intros sub Hsub. eapply t_bind; [eapply r_link, Hi|]. intros lk _. eapply t_bind; [eapply r_ref, Hi|]. intros lb _.
  eapply t_bind with (R := fun _ => True).
  - destruct sub as [[k j]|]; [|apply t_ret, I]. destruct (kid_old _ Hg0 _ _ _ Hi (Hsub k j eq_refl)) as [m Hm].
    eapply t_bind; [eapply t_first_of_type, Hm|]. intros [x|] _; apply t_ret, I.
  - intros mn _. eapply t_bind; [eapply r_hr_from_node, Hi|]. intros; apply t_ret, I.
Qed.
Lemma r_hv_math i n : st_heap s0 !! i = Some n -> ret_s (hv_math i) (fun _ => True).
Proof using Hg0 HAx HAf.
  intros Hi. unfold hv_math. eapply t_bind with (R := batch).
  { unfold visit_math. eapply t_bind; [eapply r_node_tag, Hi|]. intros nt _. apply t_ret. eexists; reflexivity. }
  intros c Hc. eapply t_bind; [eapply (t_next_sibling _ _ Hg0), Hi|]. intros [x|] Hx; [|apply t_ret, I]. destruct (Hx x eq_refl) as [m Hm].
  eapply t_bind; [eapply t_inst, Hm|]. intros b ->. destruct (subclass_any (n_cls m) [CText]) eqn:Es; [|apply t_ret, I]. cbn [negb].
  assert (Hcm : In a_text (map fst (default_attrs (n_cls m)))) by (destruct (n_cls m); vm_compute in Es; try discriminate Es; vm_compute; tauto).
  eapply t_bind; [eapply (t_get_str _ _ _ _ _ Hm); [exact Hcm|notin|auto]|]. intros [|y l] _; [apply t_ret, I|].
  destruct (N.eqb y 46); [|apply t_ret, I]. eapply t_bind; [eapply (t_setattr _ _ _ _ _ _ Hi HAf); [left; right; left|reflexivity|discriminate]|]. intros _ _.
  eapply t_bind; [apply r_items_b, Hc|]. intros it _. eapply t_bind; [eapply (t_setattr _ _ _ _ _ _ Hm HAx); [right; reflexivity|reflexivity|discriminate]|]. intros; apply t_ret, I.
Qed.
Lemma r_hv_mathblock i n : st_heap s0 !! i = Some n -> ret_s (hv_mathblock f i) (fun _ => True).
Proof using Hg0 Hf HA Htp.
  intros Hi. unfold hv_mathblock. eapply t_bind; [eapply (r_always _ _ _ _ _ Hi); cbn; tauto|]. intros nn _.
  eapply t_bind with (R := fun _ => True); [destruct (truthy nn); [apply t_ret, I|eapply t_bind; [eapply r_ref, Hi|intros; apply t_ret, I]]|]. intros l _.
  eapply t_bind; [eapply r_replace, Hi|]. intros; apply t_ret, I.
Qed.
Lemma r_hv_bibitem i n : st_heap s0 !! i = Some n -> used_ok CBibitem (n_cls n) = true -> proper_entry (st_heap s0) i -> ret_s (hv_bibitem f i) (fun _ => True).
Proof using Hf HA.
  intros Hi Hu Hp. unfold hv_bibitem. eapply t_bind; [eapply r_bibitem_parts; eassumption|]. intros [[tx dt] bk] _.
  eapply t_bind; [eapply r_node_tag, Hi|]. intros nt _. cbv zeta. eapply t_bind; [apply r_wrap; cbn; lia|]. intros hr _.
  destruct dt; [|apply t_ret, I]. eapply t_bind; [apply t_log|]. intros; apply t_ret, I.
Qed.
Record hvisitable (i : id) (n : node) : Prop := {
  hb_base : visitable s0 i n;
  hb_author : n_cls n = CAuthor -> exists a v, In a [a_name; a_affiliation; a_email] /\ n_attrs n !! a = Some v /\ truthy v = true;
  hb_toc : n_cls n = CContents -> toc_fine i;
  hb_kids : n_cls n = CManuscript -> forall k m, k ∈ kids n -> st_heap s0 !! k = Some m -> n_cls m = CContents -> toc_fine k
}.
Lemma r_hvisit_method hl src root nr m i n : st_heap s0 !! root = Some nr -> n_cls nr = CManuscript ->
  st_heap s0 !! i = Some n -> dispatch visit_defined (n_cls n) = Some m -> hvisitable i n ->
  ret_s (hvisit_method hl src root f m i) (fun _ => True).
Proof using All.
  intros Hr Hcr Hi Hd [V1 V2 V3 V4]. pose proof (used_visit _ _ Hd) as Hu.
  pose proof (r_visit_method A s0 Hg0 f Hf HA HAt Hty Hco Htp hl m i n Hi Hd V1) as G.
  destruct m; cbn [hvisit_method]; try exact G.
  all: match goal with
    | |- returns _ _ (hv_manuscript _ _ _ _) _ => idtac
    | |- returns _ _ (hv_author _ _) _ => idtac
    | |- returns _ _ (hv_contents _ _) _ => idtac
    | |- returns _ _ (hv_section _ _) _ => eapply r_hv_section; eassumption
    | |- returns _ _ (hv_abstract _ _) _ => eapply r_hv_abstract; eassumption
    | |- returns _ _ (hv_bibliography _ _) _ => eapply r_hv_bibliography; eassumption
    | |- returns _ _ (hv_paragraph _ _) _ => eapply r_hv_paragraph; eassumption
    | |- returns _ _ (hv_labeled _ _ _ _) _ => eapply r_hv_labeled; [exact Hi|exact G|unfold visit_theorem, visit_sketch, visit_proof; pb]
    | |- returns _ _ (hv_subproof _) _ => eapply r_hv_subproof; eassumption
    | |- returns _ _ (hv_step _ _) _ => eapply r_hv_step; eassumption
    | |- returns _ _ (hv_math _) _ => eapply r_hv_math; eassumption
    | |- returns _ _ (hv_mathblock _ _) _ => eapply r_hv_mathblock; eassumption
    | |- returns _ _ (hv_bibitem _ _) _ => eapply r_hv_bibitem; [exact Hi|exact Hu|apply (vb_entry _ _ _ V1); destruct (n_cls n); vm_compute in Hd; try discriminate Hd; reflexivity]
    end.
  - assert (Hc : n_cls n = CManuscript) by (destruct (n_cls n); vm_compute in Hd; try discriminate Hd; reflexivity).
    eapply (r_hv_manuscript _ _ _ _ _ Hi Hu Hr); [rewrite Hcr; reflexivity|apply V4, Hc].
  - assert (Hc : n_cls n = CAuthor) by (destruct (n_cls n); vm_compute in Hd; try discriminate Hd; reflexivity).
    eapply (r_hv_author _ _ Hi Hu), V2, Hc.
  - assert (Hc : n_cls n = CContents) by (destruct (n_cls n); vm_compute in Hd; try discriminate Hd; reflexivity).
    eapply (r_hv_contents _ _ Hi Hc), V3, Hc.
Qed.

(** *** Leave methods *)
Lemma r_insert_info k x c u : (exists l, c = KBatch l) -> ret_s (insert_info k x (c, u)) (fun _ => True).
Proof using. intros [l ->]. unfold insert_info. eapply t_bind; [apply r_items|]. intros; apply t_ret, I. Qed.
Lemma r_hleave_method m i n d : st_heap s0 !! i = Some n -> dispatch hleave_defined (n_cls n) = Some m -> (hneeds m = true -> exists l, d = KBatch l) ->
  (n_cls n = CMathBlock -> forall p np, n_parent n = Some p -> st_heap s0 !! p = Some np -> n_cls np = CParagraph) ->
  ret_s (hleave_method f m i (MkT [] [d])) (fun _ => True).
Proof using Hg0 Hf HAm.
  intros Hi Hd Hb Hpar. destruct (hneeds m) eqn:Em.
  - destruct (Hb eq_refl) as [l ->]. clear Hb.
    assert (Hicon : forall k, ret_s (let! r := leave_node (MkT [] [KBatch l]) in let! ic := icon_of i in insert_info k (hr_info_zone_icon ic) r) (fun _ => True)).
    { intros k. eapply t_bind; [apply r_leave_node|]. intros [c u] E. cbn in E. subst c. eapply t_bind; [eapply r_icon, Hi|]. intros ic _. apply r_insert_info. eauto. }
    destruct m; try discriminate Em; cbn [hleave_method].
    all: match goal with
      | |- returns _ _ (hl_author _ _) _ => apply Hicon
      | |- returns _ _ (hl_icon1 _ _) _ => apply Hicon
      | |- returns _ _ (hl_paragraph _ _) _ => unfold hl_paragraph; eapply t_bind; [eapply r_leave_paragraph, Hi|]; intros [c u] Hc; eapply t_bind; [eapply r_icon, Hi|]; intros ic _; apply r_insert_info, Hc
      | |- returns _ _ (hl_step _ _ _) _ => unfold hl_step; eapply t_bind; [apply r_leave_node|]; intros [c u] E; cbn in E; subst c; eapply t_bind; [eapply r_full; eassumption|]; intros x _; apply r_insert_info; eauto
      | |- returns _ _ (hl_math _ _) _ => unfold hl_math; eapply t_bind; [apply r_leave_node|]; intros [c u] E; cbn in E; subst c; eapply t_bind; [eapply t_flag, Hi|]; intros [] _; [eapply t_bind; [apply r_items|]; intros; apply t_ret, I|apply t_ret, I]
      | |- returns _ _ (hl_mathblock _ _ _) _ => idtac
      end.
    unfold hl_mathblock. eapply t_bind; [eapply (r_leave_mathblock A s0 Hg0 HAm _ _ _ Hi)|].
    + apply Hpar. destruct (n_cls n); vm_compute in Hd; try discriminate Hd; reflexivity.
    + intros [c u] Hc. eapply t_bind; [eapply r_full; eassumption|]. intros x _. apply r_insert_info, Hc.
  - destruct (hleave_abstract _ _ Hd Em) as (Hd' & Hnb & Hnp).
    assert (G : ret_s (leave_method m i (MkT [] [d])) (fun _ => True)).
    { eapply (r_leave_method A s0 Hg0 HAm _ _ _ _ Hi Hd'); [congruence| |exact Hpar]. intros E. rewrite E in Hd'. vm_compute in Hd'. congruence. }
    destruct m; try discriminate Em; exact G.
Qed.
End Hand.

Lemma hr_visit_at hl src root f i n s m : st_heap s !! i = Some n -> dispatch visit_defined (n_cls n) = Some m -> hr_visit hl src root f i s = hvisit_method hl src root f m i s.
Proof. intros Hi Hd. unfold hr_visit, cls_of, bind. rewrite (get_node_eq _ _ _ Hi). unfold ret. rewrite Hd. reflexivity. Qed.
Lemma hr_leave_at f i n s u m : st_heap s !! i = Some n -> dispatch hleave_defined (n_cls n) = Some m -> hr_leave f i u s = hleave_method f m i u s.
Proof. intros Hi Hd. unfold hr_leave, cls_of, bind. rewrite (get_node_eq _ _ _ Hi). unfold ret. rewrite Hd. reflexivity. Qed.
Lemma trh1 : a_types ∈ trh_attrs. Proof. left. Qed.
Lemma trh2 : a_must_close_p_tag ∈ trh_attrs. Proof. right. left. Qed.
Lemma trh3 : a_text ∈ trh_attrs. Proof. right. right. left. Qed.
Lemma trh4 : a_followed_by_dot ∈ trh_attrs. Proof. right. right. right. left. Qed.

Lemma hr_runs hl src s0 t p root0 nr : good s0 -> wtyped s0 -> complete s0 -> (forall x, fillable_at s0 x) ->
  st_heap s0 !! root0 = Some nr -> n_cls nr = CManuscript -> tree_at (st_heap s0) p t ->
  (forall x n, x ∈ doc_order t -> st_heap s0 !! x = Some n -> hvisitable s0 x n) -> forall s, during trh_attrs s0 s ->
  exists F h s', from (fun f => run_translator (hr_tc hl src root0) (translate_ext hl f f) f (root t) s) (s', Ok h) F /\ during trh_attrs s0 s'.
Proof.
  intros Hg0 Hty Hco Hfl Hr Hcr Ht HV s Hs. pose proof trh1 as T1. pose proof trh2 as T2. pose proof trh3 as T3. pose proof trh4 as T4.
  eapply (run_from trh_attrs s0 (hr_tc hl src root0) (fun f => translate_ext hl f f) (hr_tc_ok hl src root0 _ T1 T2 T3 T4) (size (st_heap s0))
    (fun x => forall n, st_heap s0 !! x = Some n -> hvisitable s0 x n)); [|apply hr_uniform|exact Ht|intros x Hx n Hn; apply HV; assumption|exact Hs].
  clear s Hs. intros i n s Hi HVi Ds. specialize (HVi n Hi). destruct (dispatch_visit_some (n_cls n)) as [m Hd].
  destruct (r_hvisit_method trh_attrs s0 Hg0 (size (st_heap s0)) (le_n _) (fun a Ha => Ha) T1 T2 T3 T4 Hty Hco Hfl hl src root0 nr m i n Hr Hcr Hi Hd HVi s Ds) as (sv & c & Hv & Dv & _).
  destruct (du_old _ _ _ Ds _ _ Hi) as (ns & Hns & Ec & _). exists sv, c. split; [|split; [exact Dv|split]].
  - apply (from_mono (fun f => hr_visit hl src root0 f i)); [apply mono_hr_visit|]. erewrite hr_visit_at; [exact Hv|exact Hns|rewrite Ec; exact Hd].
  - eapply open_runs; [exact T1|exact T2|exact Dv|eapply (sh_hvisit_method hl src root0 _ m i), Hv|eapply exts_hvisit; [apply Ds|exact Hv]].
  - intros d s2 Hcl D2. destruct (dispatch_hleave_some (n_cls n)) as [ml Hml].
    destruct (r_hleave_method trh_attrs s0 Hg0 (size (st_heap s0)) (le_n _) T2 ml i n d Hi Hml) with (s := s2) as (s3 & r & E & D3 & _).
    + intros Hb. destruct (hleave_visit _ _ Hml Hb) as (m' & Hd' & Hb'). assert (m' = m) as -> by congruence.
      eapply batch_closer; [|exact Hcl]. eapply (hvisit_batch hl src root0 _ m i Hb'), Hv.
    + intros E p' np Hp Hnp. destruct (vb_math _ _ _ (hb_base _ _ _ HVi) E) as (q & nq & Hq & Hnq & Hcq). congruence.
    + exact D2.
    + exists s3, r. split; [|exact D3]. destruct (du_old _ _ _ D2 _ _ Hi) as (n2 & Hn2 & E2 & _).
      apply (from_mono (fun f => hr_leave f i (MkT [] [d]))); [apply mono_hr_leave|]. erewrite hr_leave_at; [exact E|exact Hn2|rewrite E2; exact Hml].
Qed.

Definition translates_handrails_to (hl : str -> str -> str) (src : bool) (s : st) (t : tree) (h : list tok) (s' : st) : Prop :=
  exists F, forall f, F <= f -> translate_handrails hl src f (root t) s = (s', Ok h).
Theorem handrails_total hl src s t : handrails_doc s t -> exists h s', translates_handrails_to hl src s t h s'.
Proof.
  intros [TD HAu HTo]. pose proof TD as [[Hf Hc [Ht Hnd]] R T C _ Hrf _ _ _ Htp].
  set (s1 := (info logger_tlate (lit "Translating...") s).1).
  assert (E1 : info logger_tlate (lit "Translating...") s = (s1, Ok tt)) by reflexivity.
  assert (D1 : during trh_attrs s s1).
  { apply (during_heap _ _ s); [reflexivity..|]. apply during_refl; [split; assumption|apply wtyped_typed, T|exact C|].
    intros i n v Hi Hv. destruct (T _ _ _ _ Hi Hv) as [H _]. discriminate H. }
  pose proof R as (nr & Hnr & Hcr).
  assert (Hx : forall c x n, c ∈ doc_order t -> ancestor (st_heap s) x c -> st_heap s !! x = Some n -> x ∈ doc_order t).
  { intros c x n Hct Hanc _. clear HTo. induction Hanc as [x q Hp|x q y Hp Hanc IH].
    - destruct Hp as (nx & Hnx & Hpq). assert (Hpi : parent_is (st_heap s) x q) by (exists nx; auto). apply (cons_parent _ Hc) in Hpi as (m & Hm & Hk). eapply doc_order_closed; eassumption.
    - specialize (IH Hct). assert (Hpi : parent_is (st_heap s) x q) by exact Hp. apply (cons_parent _ Hc) in Hpi as (m & Hm & Hk). eapply doc_order_closed; eassumption. }
  assert (Htoc : forall c n, c ∈ doc_order t -> st_heap s !! c = Some n -> n_cls n = CContents -> toc_fine s c).
  { intros c n Hct Hn Hcc x nx Hanc Hnx Hcx. destruct (Hrf x) as [y Hy]; [eapply Hx; eassumption|exists nx; auto|].
    destruct (HTo c x y Hct) as (k & Hk & ny & Hny & Hky); [exists n; auto|exact Hanc|exists nx; auto|exact Hy|].
    exists y, ny. unfold value in Hy. rewrite Hnx in Hy. split; [exact Hy|]. split; [exact Hny|]. rewrite Hky. exact Hk. }
  destruct (hr_runs hl src s t None (root t) nr) with (s := s1) as (F & h & s' & H & _); try assumption.
  - split; assumption.
  - apply wtyped_typed, T.
  - intros x n tmpl Hn Hv. apply (Htp x). unfold value. rewrite Hn. exact Hv.
  - intros x n Hxt Hn. constructor.
    + eapply td_visitable; eassumption.
    + intros E. destruct (HAu x Hxt) as (a & v & Ha & Hv & Htv); [exists n; auto|]. unfold value in Hv. rewrite Hn in Hv. eauto.
    + intros E. eapply Htoc; eassumption.
    + intros E k m Hk Hm Hcm. eapply Htoc; [|exact Hm|exact Hcm]. eapply doc_order_closed; eassumption.
  - exists h, s', F. intros f Hle. unfold translate_handrails, bind. rewrite E1. apply (H f Hle).
Qed.
