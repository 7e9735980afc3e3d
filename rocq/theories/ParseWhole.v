(** The whole parser: the loop, then the normalisation. *)
From Verif Require Import TreeFacts Meta TocBuild Queries.
From Verif Require Export ParseMirror ParseOrder NormTree.
From Verif Require Import Consistency NodeProofs NodeOps Monad.
Local Open Scope string_scope.
Local Open Scope list_scope.

Definition sourced (c : cst) (t : atree) : atree := match t with A k m ts => A k (<[a_src := VStr (c_text c)]> m) ts end.
Definition parse_records (c : cst) : list logrec :=
  [MkLog logger_parse INFO (lit "Parsing...") None; MkLog logger_parse INFO (lit "Abstractifying...") None] ++
  warnings false (requests_of (handed_on (skipped_title c) (places_and_outcomes c))).
(** A new node has new nodes below it. *)
Lemma holds_new s h t : good s -> (forall j, j < st_next s -> h !! j = st_heap s !! j) ->
  forall p a, holds h p t a -> st_next s <= root t -> forall j, In j (doc_order t) -> st_next s <= j.
Proof.
  intros Hg Ho. induction t as [i us IH] using tree_ind'. intros p a H Hi j Hj. inversion H as [? ? n ? ts Hn Hp Hk Hts]; subst.
  cbn [root] in Hi. destruct Hj as [<-|Hj]; [assumption|]. clear H Hk. induction Hts as [|u b us ts Hu Hts IHl]; [destruct Hj|].
  apply list.Forall_cons in IH as [IHu IH]. rewrite doc_orders_cons in Hj. apply in_app_iff in Hj as [Hj|Hj]; [|auto].
  eapply IHu; [exact Hu| |exact Hj]. destruct (le_lt_dec (st_next s) (root u)) as [|Hlt]; [assumption|]. exfalso.
  inversion Hu as [? iu nu uus ? Hnu Hpu _ _]; subst. cbn [root] in Hlt. rewrite (Ho _ Hlt) in Hnu.
  destruct Hg as [Hf [Hcons _]]. destruct (proj2 (Hcons (root (T iu uus)) i) ltac:(exists nu; split; eassumption)) as (np & Hnp & _). specialize (Hf _ _ Hnp). lia.
Qed.
Lemma parse_ok fuel c s s' r : source c -> good s -> parse fuel c s = (s', Ok r) ->
  exists us, good s' /\ holds (st_heap s') None (T r us) (sourced c (norm (mirrored c))) /\
    (forall j, In j (doc_order (T r us)) -> st_next s <= j) /\
    (forall j, j < st_next s -> st_heap s' !! j = st_heap s !! j) /\
    st_logs s' = st_logs s ++ parse_records c.
Proof.
  intros Hc Hg H. unfold parse in H.
  apply bind_ok in H as (s1 & u1 & H1 & H). unfold info, log_rec in H1. injection H1 as <- <-.
  apply bind_ok in H as (s2 & u2 & H2 & H). unfold info, log_rec in H2. injection H2 as <- <-. cbn [st_heap st_next st_logs] in H.
  match type of H with bind _ _ ?S = _ => set (s0 := S) in H end.
  assert (Hg0 : good s0) by exact Hg. apply bind_ok in H as (s1 & [r'|] & H1 & H); [|discriminate H].
  assert (Ha : abstractify fuel c s0 = (s1, Ok (Some r'))).
  { unfold catch in H1. destruct (abstractify fuel c s0) as [s2 [x|e]]; [congruence|]. destruct e; discriminate H1. }
  clear H1. unfold abstractify in Ha. apply bind_ok in Ha as (s2 & v & H2 & Ha). apply bind_ok in Ha as (s3 & u3 & H3 & Ha).
  apply ret_ok in Ha as [-> Er]. destruct (abs_loop_mirrors _ _ _ _ _ Hc Hg0 H2) as (t & Et & Hh & Hg2 & Hr & Ho & Hl).
  assert (Hnew : forall j, In j (doc_order t) -> st_next s0 <= j) by (eapply holds_new; [exact Hg0|exact Ho|exact Hh|exact Hr]).
  rewrite Et in H3, Er. injection Er as ->. destruct t as [i us]. cbn [root] in *. unfold mirrored in Hh.
  destruct (normalize_ok _ _ _ _ _ _ _ _ _ Hg2 Hh ltac:(reflexivity) H3) as (Hg3 & us3 & Hh3 & W3).
  fold (mirrored c) in Hh3. destruct (norm (mirrored c)) as [k m ts] eqn:En.
  destruct (holds_fam _ _ _ _ _ _ _ Hg3 Hh3) as (ps & -> & -> & F3).
  apply bind_ok in H as (s4 & u4 & H4 & H). apply ret_ok in H as [-> ->]. apply setattr_ok in H4 as (n & Hn & ->).
  pose proof (attrs_became_set s3 i a_src (VStr (c_text c)) n Hn) as Hb. pose proof (fam_own _ _ _ _ _ _ _ _ F3 Hb) as F4.
  pose proof (fam_holds _ _ _ _ _ _ F4) as H4. pose proof (fm_good _ _ _ _ _ _ F4) as Hg4. destruct W3 as [W1 W2 W3 W4].
  assert (Hnx : st_next s0 <= st_next s2).
  { destruct (le_lt_dec (st_next s0) (st_next s2)); [assumption|]. exfalso. inversion Hh as [? ? n2 ? ? Hn2 _ _ _]; subst.
    destruct Hg2 as [Hf2 _]. specialize (Hf2 _ _ Hn2). lia. }
  assert (Hnew3 : forall j, In j (doc_order (T i (map fst ps))) -> st_next s0 <= j).
  { intros j Hj. apply W4 in Hj as [Hj|Hj]; [auto|lia]. }
  exists (map fst ps). split; [exact Hg4|]. split; [exact H4|]. split; [exact Hnew3|]. split.
  - intros j Hj. cbn [upd st_heap] in *. rewrite lookup_insert_ne by (change (st_next s) with (st_next s0) in Hj; lia).
    change (st_next s) with (st_next s0) in Hj. rewrite W3; [apply Ho, Hj|lia|]. intros Hx. specialize (Hnew j Hx). lia.
  - cbn [upd st_logs]. rewrite W2, Hl. unfold s0, parse_records. cbn [st_logs].
    rewrite <- !app_assoc. reflexivity.
Qed.
