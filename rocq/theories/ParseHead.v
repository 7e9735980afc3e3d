(** The node made for one syntax node, before its children are processed. *)
From Verif Require Import TreeFacts Meta TocBuild.
From Verif Require Export ParseSteps.
From Verif Require Import Consistency NodeProofs NodeOps Monad.
Local Open Scope string_scope.
Local Open Scope list_scope.

Lemma holds_frame h h' u : forall p a,
  holds h p u a -> (forall x, In x (doc_order u) -> h' !! x = h !! x) -> holds h' p u a.
Proof.
  induction u as [i us IH] using tree_ind'. intros p a H Hf. inversion H as [? ? n ? ts Hn Hp Hk Hts]; subst.
  apply holds_node; [rewrite Hf by (left; reflexivity); assumption|reflexivity|assumption|].
  assert (Hf' : forall x, In x (doc_orders us) -> h' !! x = h !! x) by (intros x Hx; apply Hf; right; exact Hx).
  clear Hf H Hk. revert IH Hf'. induction Hts as [|u a us ts Hu Hts IHl]; intros IH Hf'; [constructor|]. apply list.Forall_cons in IH as [IHu IH]. constructor.
  - apply IHu; [assumption|]. intros x Hx. apply Hf'. rewrite doc_orders_cons. apply in_app_iff. auto.
  - apply IHl; [assumption|]. intros x Hx. apply Hf'. rewrite doc_orders_cons. apply in_app_iff. auto.
Qed.
Lemma holds_frames h h' p us ts :
  Forall2 (holds h p) us ts -> (forall x, In x (doc_orders us) -> h' !! x = h !! x) -> Forall2 (holds h' p) us ts.
Proof.
  induction 1 as [|u a us ts Hu Hts IH]; intros Hf; constructor.
  - eapply holds_frame; [eassumption|]. intros x Hx. apply Hf. rewrite doc_orders_cons. apply in_app_iff. auto.
  - apply IH. intros x Hx. apply Hf. rewrite doc_orders_cons. apply in_app_iff. auto.
Qed.

(** A node made since [s], without parent so far, with the trees [us] below it. *)
Record draft (s s' : st) (i : id) (cl : cls) (m : gmap attr val) (us : list tree) (own : list atree) : Prop := {
  dr_good : good s';
  dr_lo : st_next s <= i;
  dr_hi : i < st_next s';
  dr_old : forall j, j < st_next s -> st_heap s' !! j = st_heap s !! j;
  dr_node : st_heap s' !! i = Some (MkNode cl None (map root us) m);
  dr_own : Forall2 (holds (st_heap s') (Some i)) us own;
  dr_ids : forall x, In x (doc_orders us) -> st_next s <= x /\ x < st_next s' /\ x <> i;
  dr_leaf : has_children cl = true \/ us = [];
}.
Lemma draft_attrs s s1 s2 i cl m us own f :
  draft s s1 i cl m us own -> attrs_became s1 s2 i f -> draft s s2 i cl (f m) us own.
Proof.
  intros [] H. pose proof (attrs_became_good _ _ _ _ dr_good0 H) as Hg.
  destruct H as (n & Hn & H1 & H2 & H3 & H4). rewrite dr_node0 in Hn. injection Hn as <-.
  split; try assumption; try (rewrite H3; assumption).
  - intros j Hj. rewrite H2 by lia. auto.
  - eapply holds_frames; [eassumption|]. intros x Hx. apply H2. apply dr_ids0 in Hx as (_ & _ & ?). assumption.
Qed.

Lemma make_node_draft t c s s' i b :
  good s -> make_node t c s = (s', Ok i) ->
  draft s s' i (node_class t) (first_attrs t c) [] [] /\ st_logs s' = st_logs s ++ warnings b (reported t c).
Proof.
  intros Hg H. apply (make_node_ok _ _ _ _ _ b) in H as (-> & Hn & Hg' & Hl & Hp); [|assumption].
  split; [|assumption]. split; try assumption; try lia.
  - intros j Hj. rewrite Hp. simpl. destruct (Nat.eqb_spec (st_next s) j); [lia|reflexivity].
  - rewrite Hp. simpl. rewrite Nat.eqb_refl. reflexivity.
  - constructor.
  - intros x [].
  - auto.
Qed.

Lemma new_draft s c kw : good s -> draft s (new s (mk_node c kw)) (st_next s) c (mk_attrs c kw) [] [].
Proof.
  intros Hg. split.
  - apply good_new. assumption.
  - lia.
  - simpl. lia.
  - intros j Hj. rewrite new_lookup, decide_False by lia. reflexivity.
  - rewrite new_lookup, decide_True by reflexivity. reflexivity.
  - constructor.
  - intros x [].
  - auto.
Qed.
Lemma new_append_draft s s1 s2 s3 i cl m c kw k u :
  draft s s1 i cl m [] [] -> new_node c kw s1 = (s2, Ok k) -> append i [k] s2 = (s3, Ok u) ->
  draft s s3 i cl m [T k []] [A c (mk_attrs c kw) []] /\ st_logs s3 = st_logs s1.
Proof.
  intros [] H1 H2. apply new_node_ok in H1 as [-> ->].
  pose proof (good_new _ c kw dr_good0) as Hg.
  assert (Hk : st_heap (new s1 (mk_node c kw)) !! st_next s1 = Some (mk_node c kw))
    by (rewrite new_lookup, decide_True; reflexivity).
  destruct (good_append _ _ _ _ _ _ Hg H2 Hk) as [Hg' _]; [lia| |].
  { destruct Hg as [_ Hc]. eapply childless_ancestor; [exact Hc|exact Hk|reflexivity]. }
  apply append_ok in H2 as ([Hn Hl] & He & _ & Hhc & _). simpl in Hn.
  destruct Hhc as (np & Hnp & Hhc); [discriminate|].
  assert (Hi : st_heap (new s1 (mk_node c kw)) !! i = Some (MkNode cl None [] m)).
  { rewrite new_lookup, decide_False by lia. assumption. }
  rewrite Hi in Hnp. injection Hnp as <-. simpl in Hhc.
  assert (Hi' := edited_lookup _ _ _ _ _ _ He Hi). assert (Hk' := edited_lookup _ _ _ _ _ _ He Hk).
  cbn beta in Hi', Hk'. rewrite decide_False, decide_True in Hi' by (try (intros Hx; apply elem_of_list_singleton in Hx); try reflexivity; lia).
  rewrite decide_True, decide_False in Hk' by (try (apply elem_of_list_singleton); try reflexivity; lia).
  split; [|assumption]. split; try assumption; try lia.
  - intros j Hj. rewrite He, new_lookup, decide_False by lia. rewrite dr_old0 by assumption.
    destruct (st_heap s !! j) as [[]|]; [|reflexivity].
    rewrite !decide_False; [reflexivity|lia|]. intros Hx. apply elem_of_list_singleton in Hx. lia.
  - constructor; [|constructor]. change (A c (mk_attrs c kw) []) with (A (n_cls (MkNode c (Some i) [] (mk_attrs c kw))) (n_attrs (MkNode c (Some i) [] (mk_attrs c kw))) []).
    apply holds_node; [exact Hk'|reflexivity|unfold kids; simpl; destruct (has_children c); reflexivity|constructor].
  - intros x [<-|[]]. lia.
  - auto.
Qed.

Lemma verbatim_ok t i c s s1 s2 cl m u :
  draft s s1 i cl m [] [] -> add_asis t i c s1 = (s2, Ok u) ->
  exists us, draft s s2 i cl m us (verbatim t m c) /\ st_logs s2 = st_logs s1.
Proof.
  intros Hd H. unfold add_asis in H.
  destruct (type_in ["math"; "code"; "mathblock"; "codeblock"; "algorithm"] t) eqn:Et.
  - unfold verbatim. destruct (rev (named_children c)) as [|a l]; [discriminate|]. simpl hd_error. simpl text_at.
    destruct (is_type "asis_text" (pl_node a)); [|discriminate].
    apply bind_ok in H as (s3 & k & H1 & H). destruct (type_in ["code"; "codeblock"] t) eqn:Ec.
    + apply bind_ok in H1 as (s4 & lang & H0 & H1). apply getattr_ok in H0 as (-> & n & Hn & Hl).
      pose proof (dr_node _ _ _ _ _ _ _ Hd) as Hn'. rewrite Hn in Hn'. injection Hn' as ->. simpl in Hl.
      rewrite Hl. simpl. exists [T k []]. eapply new_append_draft; eassumption.
    + assert (type_in ["math"; "mathblock"; "algorithm"] t = true) as ->.
      { apply type_in_true in Et as (z & [<-|[<-|[<-|[<-|[<-|[]]]]]] & ->); vm_compute in Ec; try discriminate; reflexivity. }
      exists [T k []]. eapply new_append_draft; eassumption.
  - apply ret_ok in H as [-> _]. exists []. split; [|reflexivity]. unfold verbatim.
    assert (type_in ["code"; "codeblock"] t = false) as ->.
    { destruct (type_in ["code"; "codeblock"] t) eqn:Ec; [|reflexivity].
      apply type_in_true in Ec as (z & [<-|[<-|[]]] & ->); vm_compute in Et; discriminate. }
    assert (type_in ["math"; "mathblock"; "algorithm"] t = false) as ->; [|assumption].
    destruct (type_in ["math"; "mathblock"; "algorithm"] t) eqn:Ec; [|reflexivity].
    apply type_in_true in Ec as (z & [<-|[<-|[<-|[]]]] & ->); vm_compute in Et; discriminate.
Qed.

Lemma wrap_claim_ok t i c s s1 s2 m us own i' :
  draft s s1 i (node_class t) m us own -> wrap_claim t i c s1 = (s2, Ok i') ->
  st_logs s2 = st_logs s1 /\
  ((type_in ["mathblock"] t && match m !! a_isclaim with Some v => truthy v | None => false end = false /\
    i' = i /\ s2 = s1) \/
   (type_in ["mathblock"] t && match m !! a_isclaim with Some v => truthy v | None => false end = true /\
    draft s s2 i' CClaimBlock (mk_attrs CClaimBlock (span_attrs c)) [T i us] [A CMathBlock m own])).
Proof.
  intros Hd H. unfold wrap_claim in H. destruct (type_in ["mathblock"] t) eqn:Et.
  2:{ apply ret_ok in H as [-> ->]. auto. }
  assert (node_class t = CMathBlock) as Hcl.
  { apply type_in_true in Et as (z & [<-|[]] & ->). vm_compute. reflexivity. }
  rewrite Hcl in Hd. simpl. apply bind_ok in H as (s3 & v & H1 & H).
  apply getattr_ok in H1 as (-> & n & Hn & Hv). pose proof Hd as Hd0. destruct Hd.
  rewrite dr_node0 in Hn. injection Hn as <-. simpl in Hv. rewrite Hv.
  destruct (truthy v); [|apply ret_ok in H as [-> ->]; auto].
  apply bind_ok in H as (s4 & b & H1 & H). apply bind_ok in H as (s5 & u & H2 & H). apply ret_ok in H as [-> ->].
  apply new_node_ok in H1 as [-> ->]. set (kw := span_attrs c) in *.
  pose proof (good_new _ CClaimBlock kw dr_good0) as Hg.
  set (nb := mk_node CClaimBlock kw) in *.
  assert (Hb : st_heap (new s1 nb) !! st_next s1 = Some nb) by (rewrite new_lookup, decide_True; reflexivity).
  assert (Hi : st_heap (new s1 nb) !! i = Some (MkNode CMathBlock None (map root us) m)).
  { rewrite new_lookup, decide_False by lia. assumption. }
  destruct (good_append _ _ _ _ _ _ Hg H2 Hi) as [Hg' _]; [lia|eapply orphan_ancestor; [exact Hb|reflexivity]|].
  apply append_ok in H2 as ([Hn Hl] & He & _ & _ & _). simpl in Hn.
  assert (Hi' := edited_lookup _ _ _ _ _ _ He Hi). assert (Hb' := edited_lookup _ _ _ _ _ _ He Hb).
  cbn beta in Hi', Hb'. rewrite decide_True, decide_False in Hi' by (try (apply elem_of_list_singleton); try reflexivity; lia).
  rewrite decide_False, decide_True in Hb' by (try (intros Hx; apply elem_of_list_singleton in Hx); try reflexivity; lia).
  split; [assumption|]. right. split; [reflexivity|].
  assert (Hsame : forall x, x <> i -> x <> st_next s1 -> st_heap s5 !! x = st_heap s1 !! x).
  { intros x H1 H2. rewrite He, new_lookup, decide_False by congruence.
    destruct (st_heap s1 !! x) as [[]|]; [|reflexivity]. rewrite !decide_False; [reflexivity|congruence|].
    intros Hx. apply elem_of_list_singleton in Hx. congruence. }
  split; try assumption; try lia.
  - intros j Hj. rewrite Hsame by lia. auto.
  - constructor; [|constructor].
    change (A CMathBlock m own) with (A (n_cls (MkNode CMathBlock (Some (st_next s1)) (map root us) m)) (n_attrs (MkNode CMathBlock (Some (st_next s1)) (map root us) m)) own).
    apply holds_node; [exact Hi'|reflexivity|reflexivity|].
    eapply holds_frames; [exact dr_own0|]. intros x Hx. apply dr_ids0 in Hx as (? & ? & ?). apply Hsame; lia.
  - intros x Hx. simpl in Hx. rewrite app_nil_r in Hx. destruct Hx as [<-|Hx]; [lia|]. apply dr_ids0 in Hx as (? & ? & ?). lia.
  - left. reflexivity.
Qed.

(** ** Attaching the node *)

(** The children added to [j], where [l] lists each new child with its parent. *)
Definition proj (l : list (id * id)) (j : id) : list id := map snd (List.filter (fun e => Nat.eqb (fst e) j) l).
(** Old nodes only got the children listed in [l]. *)
Definition delta (s s' : st) (l : list (id * id)) : Prop :=
  st_next s <= st_next s' /\
  forall j, j < st_next s -> st_heap s' !! j = option_map (add_kids (proj l j)) (st_heap s !! j).
Lemma add_kids_nil n : add_kids [] n = n.
Proof. destruct n. unfold add_kids. simpl. rewrite app_nil_r. reflexivity. Qed.
Lemma add_kids_app l1 l2 n : add_kids l2 (add_kids l1 n) = add_kids (l1 ++ l2) n.
Proof. unfold add_kids. simpl. rewrite app_assoc. reflexivity. Qed.
Lemma proj_app l1 l2 j : proj (l1 ++ l2) j = proj l1 j ++ proj l2 j.
Proof. unfold proj. rewrite filter_app, map_app. reflexivity. Qed.
Lemma delta_same s s' : st_next s <= st_next s' -> (forall j, j < st_next s -> st_heap s' !! j = st_heap s !! j) -> delta s s' [].
Proof.
  intros H1 H2. split; [assumption|]. intros j Hj. rewrite H2 by assumption.
  destruct (st_heap s !! j); [|reflexivity]. simpl. rewrite add_kids_nil. reflexivity.
Qed.
Lemma delta_trans s1 s2 s3 l1 l2 : delta s1 s2 l1 -> delta s2 s3 l2 -> delta s1 s3 (l1 ++ l2).
Proof.
  intros [H1 H2] [K1 K2]. split; [lia|]. intros j Hj. rewrite K2, H2 by lia.
  destruct (st_heap s1 !! j); [|reflexivity]. simpl. rewrite add_kids_app, proj_app. reflexivity.
Qed.

Definition attached (h : gmap id node) (parent : option id) : option id :=
  match parent with
  | Some p => match h !! p with Some n => if has_children (n_cls n) then Some p else None | None => None end
  | None => None
  end.
Definition link (p : option id) (i : id) : list (id * id) := match p with Some p => [(p, i)] | None => [] end.
(** A node made since [s], attached to [p], with the trees [us] below it. *)
Record placed (s s' : st) (p : option id) (i : id) (cl : cls) (m : gmap attr val) (us : list tree) (own : list atree) : Prop := {
  hd_good : good s';
  hd_lo : st_next s <= i;
  hd_hi : i < st_next s';
  hd_delta : delta s s' (link p i);
  hd_node : st_heap s' !! i = Some (MkNode cl p (map root us) m);
  hd_own : Forall2 (holds (st_heap s') (Some i)) us own;
  hd_ids : forall x, In x (doc_orders us) -> st_next s <= x /\ x < st_next s' /\ x <> i;
  hd_leaf : has_children cl = true \/ us = [];
}.
Definition valid (s : st) (parent : option id) : Prop := forall p, parent = Some p -> p < st_next s.
Lemma draft_head s s' i cl m us own : draft s s' i cl m us own -> placed s s' None i cl m us own.
Proof. intros []. split; try assumption. simpl. apply delta_same; [lia|assumption]. Qed.
Lemma append_head s s1 s2 p i cl m us own u :
  good s -> p < st_next s -> draft s s1 i cl m us own -> append p [i] s1 = (s2, Ok u) ->
  placed s s2 (Some p) i cl m us own /\ st_logs s2 = st_logs s1 /\
  exists n, st_heap s !! p = Some n /\ has_children (n_cls n) = true.
Proof.
  intros Hgs Hv [] H.
  assert (Hna : ~ ancestor (st_heap s1) p i).
  { intros Ha. apply (closed_ancestor (st_next s)) in Ha; [lia| |assumption].
    intros j n q Hj Hn Hq. rewrite dr_old0 in Hn by assumption. eapply (good_closed s Hgs); eassumption. }
  destruct (good_append _ _ _ _ _ _ dr_good0 H dr_node0) as [Hg' _]; [lia|assumption|].
  apply append_ok in H as ([Hn Hl] & He & _ & Hhc & _).
  destruct Hhc as (np & Hnp & Hhc); [discriminate|]. rewrite dr_old0 in Hnp by assumption.
  split; [|split; [assumption|exists np; auto]].
  assert (Hi' := edited_lookup _ _ _ _ _ _ He dr_node0). cbn beta in Hi'.
  rewrite decide_True, decide_False in Hi' by (try (apply elem_of_list_singleton); try reflexivity; lia).
  assert (Hsame : forall x, x <> i -> x <> p -> st_heap s2 !! x = st_heap s1 !! x).
  { intros x H1 H2. rewrite He. destruct (st_heap s1 !! x) as [[]|]; [|reflexivity].
    rewrite !decide_False; [reflexivity|congruence|]. intros Hx. apply elem_of_list_singleton in Hx. congruence. }
  split; try assumption; try lia.
  - split; [lia|]. intros j Hj. simpl. unfold proj. simpl. destruct (Nat.eqb_spec p j) as [<-|Hne].
    + rewrite He, dr_old0 by assumption. destruct (st_heap s !! p) as [[]|]; [|reflexivity]. simpl.
      rewrite decide_False, decide_True; [reflexivity|reflexivity|]. intros Hx. apply elem_of_list_singleton in Hx. lia.
    + rewrite Hsame, dr_old0 by lia. simpl. destruct (st_heap s !! j); [|reflexivity]. simpl. rewrite add_kids_nil. reflexivity.
  - eapply holds_frames; [eassumption|]. intros x Hx. apply dr_ids0 in Hx as (? & ? & ?). apply Hsame; lia.
  - intros x Hx. rewrite Hn. auto.
Qed.
Lemma attach_ok s s1 s2 parent i cl m us own u :
  good s -> valid s parent -> draft s s1 i cl m us own -> attach parent i s1 = (s2, Ok u) ->
  placed s s2 (attached (st_heap s) parent) i cl m us own /\ st_logs s2 = st_logs s1.
Proof.
  intros Hgs Hv Hd H. destruct parent as [p|]; simpl in H.
  - specialize (Hv p eq_refl). msteps. pose proof (dr_old _ _ _ _ _ _ _ Hd p Hv) as Eo.
    rewrite H0 in Eo. unfold attached. rewrite <- Eo. destruct (has_children (n_cls n)).
    + apply (append_head _ _ _ _ _ _ _ _ _ _ Hgs Hv Hd) in H as (H1 & H2 & _). auto.
    + msteps. split; [|reflexivity]. apply draft_head. assumption.
  - msteps. split; [|reflexivity]. apply draft_head. assumption.
Qed.

(** ** The three kinds of nodes *)

Lemma step_node_ok v parent t x skip s s' v' es b :
  good s -> valid s parent -> step_node v parent t x (pl_node x) skip s = (s', Ok (v', es)) ->
  exists i cl m us own,
    placed s s' (attached (st_heap s) parent) i cl m us own /\
    (forall ts, (has_children cl = false -> ts = []) -> shaped t x (pl_node x) ts = A cl m (own ++ ts)) /\
    v' = v /\ es = under (Some i) (pushed (skip ++ skipped_parts t (pl_node x)) (pl_node x)) /\
    st_logs s' = st_logs s ++ warnings b (reported t (pl_node x)).
Proof.
  intros Hg Hv H. set (c := pl_node x) in *. unfold step_node in H.
  apply bind_ok in H as (s1 & i & H1 & H). apply (make_node_draft _ _ _ _ _ b Hg) in H1 as [Hd Hl].
  apply bind_ok in H as (s2 & u2 & H2 & H). apply ingest_meta_ok in H2; [|rewrite (dr_node _ _ _ _ _ _ _ Hd); eauto].
  pose proof (draft_attrs _ _ _ _ _ _ _ _ _ Hd H2) as Hd2. destruct H2 as (_ & _ & _ & _ & _ & Hl2).
  apply bind_ok in H as (s3 & u3 & H3 & H). apply (verbatim_ok _ _ _ _ _ _ _ _ _ Hd2) in H3 as (us & Hd3 & Hl3).
  apply bind_ok in H as (s4 & i4 & H4 & H). apply (wrap_claim_ok _ _ _ _ _ _ _ _ _ _ Hd3) in H4 as (Hl4 & Hw).
  assert (exists s5 s6 l1 l2 u6,
    set_parts t i4 c s4 = (s5, Ok (l1 ++ l2)) /\ pad_text t i4 x c s5 = (s6, Ok u6) /\
    (do! attach parent i4 in ret (v, under (Some i4) (pushed (skip ++ l1 ++ l2) c))) s6 = (s', Ok (v', es))) as (s5 & s6 & l1 & l2 & u6 & H5 & H6 & H7).
  { apply bind_ok in H as (t1 & w1 & K1 & H). apply bind_ok in H as (t2 & w2 & K2 & H).
    apply bind_ok in H as (t3 & w3 & K3 & H). apply bind_ok in H as (t4 & w4 & K4 & H).
    apply bind_ok in H as (t5 & w5 & K5 & H). exists t4, t5, w2, w4, w5. split; [|auto].
    unfold set_parts. rewrite (bind_eq _ _ _ _ _ K1), (bind_eq _ _ _ _ _ K2), (bind_eq _ _ _ _ _ K3), (bind_eq _ _ _ _ _ K4).
    reflexivity. }
  clear H. set (m := with_meta c (first_attrs t c)) in *.
  assert (is_Some (st_heap s4 !! i4)) as Hs4.
  { destruct Hw as [(_ & -> & ->)|(_ & Hd4)]; [rewrite (dr_node _ _ _ _ _ _ _ Hd3)|rewrite (dr_node _ _ _ _ _ _ _ Hd4)]; eauto. }
  apply (set_parts_ok _ _ _ _ _ _ Hs4) in H5 as [H5 El]. rewrite El in H7.
  apply pad_text_ok in H6; [|eapply attrs_became_some; eassumption].
  pose proof (attrs_became_trans _ _ _ _ _ _ H5 H6) as H56. cbv beta in H56.
  pose proof H5 as (_ & _ & _ & _ & _ & Hl5). pose proof H6 as (_ & _ & _ & _ & _ & Hl6).
  apply bind_ok in H7 as (s7 & u7 & H7 & H8). apply ret_ok in H8 as [-> [= -> ->]].
  assert (Hlog : st_logs s6 = st_logs s ++ warnings b (reported t c)) by congruence.
  set (m' := (fun m => if type_in ["text"] t then on_text (padded x) (with_parts t c m) else with_parts t c m) m).
  assert (Em : node_attrs t x c = m') by reflexivity.
  assert (Hmb : type_in ["mathblock"] t = true -> m' = m).
  { intros Et. apply type_in_true in Et as (z & [<-|[]] & ->). reflexivity. }
  assert (Hcode : verbatim t m' c = verbatim t m c).
  { unfold verbatim. destruct (type_in ["code"; "codeblock"] t) eqn:Ec; [|reflexivity].
    apply type_in_true in Ec as (z & [<-|[<-|[]]] & ->); reflexivity. }
  assert (Hcl : type_in ["mathblock"] t && match m' !! a_isclaim with Some v => truthy v | None => false end =
                type_in ["mathblock"] t && match m !! a_isclaim with Some v => truthy v | None => false end).
  { destruct (type_in ["mathblock"] t); [rewrite Hmb by reflexivity|]; reflexivity. }
  destruct Hw as [(Ew & -> & ->)|(Ew & Hd4)].
  - pose proof (draft_attrs _ _ _ _ _ _ _ _ _ Hd3 H56) as Hd6. cbv beta in Hd6.
    apply (attach_ok _ _ _ _ _ _ _ _ _ _ Hg Hv Hd6) in H7 as [H7 Hl7].
    exists i, (node_class t), m', us, (verbatim t m c).
    split; [exact H7|]. split; [|split; [reflexivity|split; [reflexivity|congruence]]].
    intros ts Hts. unfold shaped. rewrite Em, Hcl, Ew, Hcode.
    destruct (has_children (node_class t)) eqn:Ehc; [reflexivity|]. rewrite Hts by reflexivity.
    destruct (dr_leaf _ _ _ _ _ _ _ Hd3) as [?|Hus]; [congruence|]. subst us.
    pose proof (dr_own _ _ _ _ _ _ _ Hd3) as Ho. inversion Ho. reflexivity.
  - apply andb_prop in Ew as [Et Ev]. pose proof (Hmb Et) as Em'.
    pose proof (draft_attrs _ _ _ _ _ _ _ _ _ Hd4 H56) as Hd6. cbv beta in Hd6.
    assert (Eid : (fun m => if type_in ["text"] t then on_text (padded x) (with_parts t c m) else with_parts t c m)
                  (mk_attrs CClaimBlock (span_attrs c)) = mk_attrs CClaimBlock (span_attrs c)).
    { apply type_in_true in Et as (z & [<-|[]] & ->). reflexivity. }
    cbv beta in Eid. rewrite Eid in Hd6.
    apply (attach_ok _ _ _ _ _ _ _ _ _ _ Hg Hv Hd6) in H7 as [H7 Hl7].
    exists i4, CClaimBlock, (mk_attrs CClaimBlock (span_attrs c)), [T i us], [A CMathBlock m (verbatim t m c)].
    split; [exact H7|]. split; [|split; [reflexivity|split; [reflexivity|congruence]]].
    intros ts _. unfold shaped. rewrite Em, Hcl, Et, Ev, Hcode, Em'. reflexivity.
Qed.

Lemma step_section_ok v parent c s s' v' es :
  good s -> valid s parent -> step_section v parent c s = (s', Ok (v', es)) ->
  exists i,
    placed s s' (attached (st_heap s) parent) i (node_class (c_type c)) (section_attrs c) [] [] /\
    v' = (if subclass (node_class (c_type c)) CManuscript then MkPst (Some i) (ps_bib v) else v) /\
    es = under (Some i) (pushed (skipped_title c) c) /\ st_logs s' = st_logs s /\ ast_type (c_type c) <> None.
Proof.
  intros Hg Hv H. unfold step_section in H. unfold node_class, section_attrs.
  destruct (ast_type (c_type c)) as [[k kw]|] eqn:Et; [|discriminate].
  apply bind_ok in H as (s1 & i & H1 & H). apply new_node_ok in H1 as [-> ->]. set (i := st_next s) in *.
  set (n0 := mk_node k (kw ++ span_attrs c)) in *.
  assert (Hd : draft s (new s n0) i k (mk_attrs k (kw ++ span_attrs c)) [] []).
  { apply new_draft. assumption. }
  apply bind_ok in H as (s2 & u2 & H2 & H).
  assert (H2' : attrs_became (new s n0) s2 i (with_field "title" a_title c)).
  { unfold with_field. destruct (field_child "title" c).
    - apply setattr_ok in H2 as (n & Hn & ->). apply attrs_became_set. assumption.
    - apply ret_ok in H2 as [-> _]. apply attrs_became_refl. rewrite (dr_node _ _ _ _ _ _ _ Hd). eauto. }
  pose proof (draft_attrs _ _ _ _ _ _ _ _ _ Hd H2') as Hd2.
  apply bind_ok in H as (s3 & u3 & H3 & H). apply ingest_meta_ok in H3; [|rewrite (dr_node _ _ _ _ _ _ _ Hd2); eauto].
  pose proof (draft_attrs _ _ _ _ _ _ _ _ _ Hd2 H3) as Hd3.
  apply bind_ok in H as (s4 & u4 & H4 & H). apply ret_ok in H as [-> [= -> ->]].
  apply (attach_ok _ _ _ _ _ _ _ _ _ _ Hg Hv Hd3) in H4 as [H4 Hl4].
  exists i. split; [exact H4|]. split; [reflexivity|]. split; [reflexivity|]. split; [|discriminate].
  destruct H2' as (_ & _ & _ & _ & _ & Hl2). destruct H3 as (_ & _ & _ & _ & _ & Hl3).
  rewrite Hl4, Hl3, Hl2. reflexivity.
Qed.

Lemma set_pair_ok i c s s' u :
  set_pair i c s = (s', Ok u) ->
  attrs_became s s' i (fun m => assign m (text_at (nth_error (named_children c) 0), VStr (text_at (nth_error (named_children c) 1)))).
Proof.
  unfold set_pair. destruct (named_children c) as [|k [|v [|]]]; intros H; try discriminate.
  apply py_setattr_ok in H as [(n & Hn & ->) _]. apply attrs_became_set. assumption.
Qed.
Lemma set_pairs_ok i l : forall s s' u,
  is_Some (st_heap s !! i) -> iterM (set_pair i) (map pl_node l) s = (s', Ok u) ->
  attrs_became s s' i (fold_left assign (map (fun p => (text_at (nth_error (named_children (pl_node p)) 0), VStr (text_at (nth_error (named_children (pl_node p)) 1)))) l)).
Proof.
  induction l as [|x l IH]; intros s s' u Hi H.
  - apply ret_ok in H as [-> _]. apply attrs_became_refl. assumption.
  - simpl map in H. apply iterM_cons_ok in H as (s1 & H1 & H). apply set_pair_ok in H1.
    apply IH in H; [|eapply attrs_became_some; eassumption]. exact (attrs_became_trans _ _ _ _ _ _ H1 H).
Qed.
Lemma field_text_ok f c s s' r : field_text f c s = (s', Ok r) -> s' = s /\ r = text_at (field_child f c).
Proof. unfold field_text. destruct (field_child f c); intros H; [|discriminate]. apply ret_ok in H as [-> ->]. auto. Qed.
Lemma step_bibitem_ok v parent c s s' v' es :
  good s -> valid s parent -> step_bibitem v parent c s = (s', Ok (v', es)) ->
  exists p i, parent = Some p /\
    placed s s' (Some p) i CBibitem (a_attrs (bibitem c)) [] [] /\
    v' = v /\ es = [] /\ st_logs s' = st_logs s /\ exists n, st_heap s !! p = Some n /\ has_children (n_cls n) = true.
Proof.
  intros Hg Hv H. unfold step_bibitem in H.
  apply bind_ok in H as (s1 & i & H1 & H). apply new_node_ok in H1 as [-> ->]. set (i := st_next s) in *.
  set (n0 := mk_node CBibitem []) in *.
  assert (Hd : draft s (new s n0) i CBibitem (mk_attrs CBibitem []) [] []).
  { apply new_draft. assumption. }
  apply bind_ok in H as (s2 & k & H2 & H). apply field_text_ok in H2 as [-> ->].
  apply bind_ok in H as (s3 & u3 & H3 & H). apply setattr_ok in H3 as (n3 & Hn3 & ->).
  pose proof (attrs_became_set _ _ a_kind (VStr (text_at (field_child "kind" c))) _ Hn3) as H3.
  pose proof (draft_attrs _ _ _ _ _ _ _ _ _ Hd H3) as Hd3. set (s3 := upd _ _ _) in *.
  apply bind_ok in H as (s4 & k4 & H4 & H). apply field_text_ok in H4 as [-> ->].
  apply bind_ok in H as (s5 & u5 & H5 & H). apply setattr_ok in H5 as (n5 & Hn5 & ->).
  pose proof (attrs_became_set _ _ a_label (VStr (text_at (field_child "label" c))) _ Hn5) as H5.
  pose proof (draft_attrs _ _ _ _ _ _ _ _ _ Hd3 H5) as Hd5. set (s5 := upd s3 _ _) in *.
  apply bind_ok in H as (s6 & u6 & H6 & H). apply set_pairs_ok in H6; [|rewrite (dr_node _ _ _ _ _ _ _ Hd5); eauto].
  pose proof (draft_attrs _ _ _ _ _ _ _ _ _ Hd5 H6) as Hd6.
  destruct parent as [p|]; [|discriminate].
  apply bind_ok in H as (s7 & u7 & H7 & H). apply ret_ok in H as [-> [= -> ->]].
  apply (append_head _ _ _ _ _ _ _ _ _ _ Hg (Hv p eq_refl) Hd6) in H7 as (H7 & Hl7 & Hn).
  exists p, i. split; [reflexivity|]. split; [exact H7|]. split; [reflexivity|]. split; [reflexivity|]. split; [|assumption].
  destruct H6 as (_ & _ & _ & _ & _ & Hl6). rewrite Hl7, Hl6. reflexivity.
Qed.
Lemma step_bibliography_ok v r s s' v' es :
  good s -> ps_root v = Some r -> r < st_next s -> step_bibliography v s = (s', Ok (v', es)) ->
  exists i, placed s s' (Some r) i CBibliography (mk_attrs CBibliography []) [] [] /\
    v' = MkPst (Some r) (Some i) /\ es = [] /\ st_logs s' = st_logs s.
Proof.
  intros Hg Hr Hlt H. unfold step_bibliography in H. rewrite Hr in H.
  apply bind_ok in H as (s1 & i & H1 & H). apply new_node_ok in H1 as [-> ->]. set (i := st_next s) in *.
  set (n0 := mk_node CBibliography []) in *.
  assert (Hd : draft s (new s n0) i CBibliography (mk_attrs CBibliography []) [] []).
  { apply new_draft. assumption. }
  apply bind_ok in H as (s2 & u2 & H2 & H). apply ret_ok in H as [-> [= -> ->]].
  apply (append_head _ _ _ _ _ _ _ _ _ _ Hg Hlt Hd) in H2 as (H2 & Hl & _).
  exists i. split; [exact H2|]. auto.
Qed.
