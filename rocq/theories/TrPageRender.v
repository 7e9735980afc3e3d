(** The page of a source without mistakes. *)
From Verif Require Import TrPage.
From Verif Require Import NodeOps Monad.
From Verif Require Export RenderTotal ParseGives MakeTotal.
Local Open Scope list_scope.

Definition shown_class (c : cls) : bool := match dispatch visit_defined c with Some CNode => false | _ => true end.
Definition plain_classes : list cls := [CNode; CNodeWithChildren; CHeading; CBaseParagraph; CBaseReference].
Definition shown_inv (s : st) : Prop := forall i n, st_heap s !! i = Some n -> ~ In (n_cls n) plain_classes.
Lemma shown_mod i f : (forall n, n_cls (f n) = n_cls n) -> keeps shown_inv (mod_node i f).
Proof.
  intros Hf s Hs. unfold mod_node, bind, get_node. destruct (st_heap s !! i) as [n|] eqn:E; [|exact Hs]. cbn [fst put_node].
  intros j m Hj. change (st_heap (upd s i (f n)) !! j = Some m) in Hj. rewrite upd_lookup in Hj. destruct (decide (i = j)); [|eapply Hs, Hj].
  injection Hj as <-. rewrite Hf. eapply Hs, E.
Qed.
Lemma shown_new c kw : ~ In c plain_classes -> keeps shown_inv (new_node c kw).
Proof.
  intros H1 s Hs j m Hj. unfold new_node, alloc in Hj. cbn [fst] in Hj. change (st_heap (new s (mk_node c kw)) !! j = Some m) in Hj.
  rewrite new_lookup in Hj. destruct (decide _); [|eapply Hs, Hj]. injection Hj as <-. assumption.
Qed.
Ltac notin := cbn; intros HF; repeat (destruct HF as [HF|HF]; [discriminate HF|]); destruct HF.
Lemma parse_shown fuel c : keeps shown_inv (parse fuel c).
Proof.
  apply p_parse with (errors := True) (okv := fun _ _ => True) (key_ok := fun _ => True); auto.
  - intros r s Hs. exact Hs.
  - intros. apply List.Forall_forall. auto.
  - intros i a v _. apply shown_mod. reflexivity.
  - intros i p. unfold set_parent. destruct p as [p|]; [|apply shown_mod; reflexivity].
    assert (Hc : forall j, keeps shown_inv (cls_of j)) by (intros j; unfold cls_of; apply keeps_bind; [apply keeps_get_node|intros; apply keeps_ret]).
    apply keeps_bind; [apply Hc|intros k]. destruct (possible_parents k); [apply shown_mod; reflexivity|].
    apply keeps_bind; [apply Hc|intros d]. destruct (cls_mem _ _); [apply shown_mod; reflexivity|apply keeps_raise].
  - intros i cs. apply shown_mod. reflexivity.
  - intros k kw Hk _. apply shown_new. intros HF. cbn in HF. repeat (destruct HF as [<-|HF]; [discriminate Hk|]). destruct HF.
  - intros. apply shown_new. notin.
  - split; auto.
Qed.

(** What transform leaves is shown. *)
Lemma not_shown c : dispatch visit_defined c = Some CNode -> In c (plain_classes ++ pending_classes).
Proof. destruct c; vm_compute; intros H; try discriminate H; auto 12. Qed.
Section Shown.
  Context (s : st) (t : tree) (s' : st) (t6 : tree) (f : id -> id) (cites : list (list id)).
  Context (R : result s t s' t6 f cites) (I : shown_inv s) (Hty : typed s').
  Lemma result_shown : showable s' t6.
  Proof using R I Hty.
    split.
    - intros x n Hx Hn E. apply not_shown in E. apply in_app_or in E as [E|E].
      + assert (Hc : class_of (st_heap s') x (n_cls n)) by (exists n; auto).
        destruct (class_old s t s' t6 f cites R x (n_cls n) Hx Hc) as (_ & _ & m & Hm & Ec).
        * intros HF. cbn in HF. cbn in E. destruct (n_cls n); intuition discriminate.
        * apply (I x m Hm). rewrite Ec. exact E.
      + apply (rs_pending _ _ _ _ _ _ R x Hx). cbn in E. destruct E as [E|[E|[E|[]]]]; [left|right; left|right; right]; exists n; auto.
    - intros x y Hx Hv. unfold aval in Hv. destruct (st_heap s' !! x) as [n|] eqn:Hn; [|discriminate Hv]. destruct (n_attrs n !! a_target) as [v|] eqn:Ev; [|discriminate Hv].
      destruct (Hty x n _ v Hn Ev) as [_ G]. apply G. cbn in Hv. subst v. constructor.
    - intros x ys y Hx Hv Hy. unfold aval in Hv. destruct (st_heap s' !! x) as [n|] eqn:Hn; [|discriminate Hv]. destruct (n_attrs n !! a_targets) as [v|] eqn:Ev; [|discriminate Hv].
      destruct (Hty x n _ v Hn Ev) as [_ G]. apply G. cbn in Hv. subst v. exact Hy.
  Qed.
End Shown.

Theorem any_page ts hl pkg fuel source path add c w w' out : fresh_ok (w_mem w) ->
  (forall text, given source path (w_fs w) text -> clean_source (ts text)) ->
  render_rsm ts hl pkg fuel source path false add c w = (w', Ok (PObj (OText out))) -> out <> [] ->
  exists text s t s' t' h m, given source path (w_fs w) text /\ reads_as (ts text) s t /\ transforms_to s t s' /\
    root t' = root t /\ tree_at (st_heap s') None t' /\ translate hl fuel (root t') s' = (m, Ok h) /\
    out = Html.render h /\ plain_page h = tree_page fuel hl s' t'.
Proof.
  intros Hf C H Ho. destruct (render_pieces _ _ _ _ _ _ _ _ _ _ _ _ Hf H Ho) as (text & h & m & i & Hg & (s & s' & d & Hp & Ht & Htr) & E).
  specialize (C text Hg).
  destruct (parse_from _ _ _ _ _ (cl_source _ C) (cl_errors _ C) (cl_keys _ C) empty_sane Hp) as (t & Hr & R & (Hgd & Hb & Hty & Hco) & Hh & _ & _).
  assert (Hd : transforms_to s t s') by (exists fuel, d; rewrite Hr; exact Ht).
  destruct (transform_result s t s' R Hty Hco Hd) as (t' & f & cites & RS).
  assert (I : shown_inv s).
  { assert (I0 : shown_inv empty_st) by (intros j n Hj; cbn in Hj; rewrite lookup_empty in Hj; discriminate Hj). pose proof (parse_shown fuel (ts text) empty_st I0) as G. rewrite Hp in G. exact G. }
  pose proof (result_shown _ _ _ _ _ _ RS I (rs_typed _ _ _ _ _ _ RS)) as S. pose proof (rs_transformed _ _ _ _ _ _ RS) as TF.
  pose proof (tf_manuscript _ _ _ _ _ TF) as M'. pose proof (tf_root _ _ _ _ _ TF) as Er.
  assert (Htr' : translate hl fuel (root t') s' = (m, Ok h)) by (rewrite Er, Hr; exact Htr).
  exists text, s, t, s', t', h, m. split; [exact Hg|]. split; [split; [exists fuel; rewrite Hr; exact Hp|exact (proj1 (ms_document _ _ (proj1 R)))]|].
  split; [exact Hd|]. split; [exact Er|]. split; [exact (proj1 (ms_document _ _ M'))|]. split; [exact Htr'|]. split; [exact E|].
  eapply page_assembled; eassumption.
Qed.
