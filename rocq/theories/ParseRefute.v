(** Sources for which the parser does not do what a user expects. *)
From Verif Require Import TreeFacts Meta TocBuild.
From Verif Require Export ParseProps.
From Verif Require Import Consistency NodeProofs NodeOps Monad.
Local Open Scope string_scope.
Local Open Scope list_scope.

Definition succeeds (c : cst) : bool := match parse 200 c empty_st with (_, Ok _) => true | _ => false end.
Lemma succeeds_ok c : succeeds c = true -> exists s' r, parse 200 c empty_st = (s', Ok r).
Proof. unfold succeeds. destruct (parse 200 c empty_st) as [s' [r|e]]; [eauto|discriminate]. Qed.
(** The classes and texts of the manuscript of [c]. *)
Definition result (c : cst) : list atree := a_preorder (sourced c (norm (mirrored c))).
Definition has_class (k : cls) (c : cst) : bool := existsb (fun x => cls_eqb (a_class x) k) (result c).
Lemma has_class_false k c x : has_class k c = false -> In x (result c) -> a_class x <> k.
Proof.
  unfold has_class. intros H Hx E. assert (Ht : existsb (fun x => cls_eqb (a_class x) k) (result c) = true).
  { apply existsb_exists. exists x. split; [assumption|]. rewrite E. destruct k; reflexivity. }
  congruence.
Qed.
Lemma result_class fuel c s' r i n t : source c -> parse fuel c empty_st = (s', Ok r) -> SpecParse.holds (st_heap s') None t (sourced c (norm (mirrored c))) ->
  In i (doc_order t) -> st_heap s' !! i = Some n -> exists x, In x (result c) /\ a_class x = n_cls n /\ a_attrs x = n_attrs n.
Proof.
  intros Hc H Hh Hi Hn. destruct (holds_inside _ _ _ _ _ Hh Hi) as (q & us & a & Ha & Hin & _). destruct (holds_class _ _ _ _ _ _ Ha Hn) as [Ca Cm].
  exists a. auto.
Qed.

(** An error is reported and is not in the manuscript. *)
Lemma error_lost : exists c d s' r t, source c /\ error_in c d /\ parse 200 c empty_st = (s', Ok r) /\ root t = r /\ manuscript s' t /\
  forall i n, In i (doc_order t) -> st_heap s' !! i = Some n -> n_cls n <> CError.
Proof.
  destruct (succeeds_ok demo_error ltac:(vm_compute; reflexivity)) as (s' & r & H).
  assert (Hc : source demo_error) by (vm_compute; auto). destruct (parsed_manuscript _ _ _ _ _ Hc empty_good H) as (t & Hr & Hm & Hh).
  exists demo_error, (nd "ERROR" 1 8 "" []), s', r, t. split; [assumption|]. split.
  { eapply error_below with (x := MkPlace 0 None _ None); try (vm_compute; (reflexivity || auto)).
    eapply error_below with (x := MkPlace 1 (Some _) (nd "ERROR" 1 8 "" []) (Some _)); try (vm_compute; (reflexivity || auto)). apply error_here. reflexivity. }
  split; [assumption|]. split; [assumption|]. split; [assumption|]. intros i n Hi Hn.
  destruct (result_class _ _ _ _ _ _ _ Hc H Hh Hi Hn) as (x & Hx & <- & _). eapply has_class_false; [|exact Hx]. vm_compute. reflexivity.
Qed.
(** A text of the source becomes part of the report of an error. *)
Lemma text_swallowed : exists c d s' r t, source c /\ In d (c_preorder c) /\ is_type "text" d = true /\ c_text d = lit "after" /\
  parse 200 c empty_st = (s', Ok r) /\ root t = r /\ manuscript s' t /\
  forall i n, In i (doc_order t) -> st_heap s' !! i = Some n -> n_cls n <> CText.
Proof.
  destruct (succeeds_ok demo_error_first ltac:(vm_compute; reflexivity)) as (s' & r & H).
  assert (Hc : source demo_error_first) by (vm_compute; auto). destruct (parsed_manuscript _ _ _ _ _ Hc empty_good H) as (t & Hr & Hm & Hh).
  exists demo_error_first, (leaf "text" 1 12 "after"), s', r, t. split; [assumption|]. split; [vm_compute; auto|]. split; [reflexivity|]. split; [reflexivity|].
  split; [assumption|]. split; [assumption|]. split; [assumption|]. intros i n Hi Hn.
  destruct (result_class _ _ _ _ _ _ _ Hc H Hh Hi Hn) as (x & Hx & <- & _). eapply has_class_false; [|exact Hx]. vm_compute. reflexivity.
Qed.
(** An error among the meta data is not reported. *)
Lemma error_silent : exists c d s' r, source c /\ In d (c_preorder c) /\ is_type "ERROR" d = true /\ parse 200 c empty_st = (s', Ok r) /\
  forall m, In m (st_logs s') -> lg_level m <> WARNING.
Proof.
  destruct (succeeds_ok demo_error_meta ltac:(vm_compute; reflexivity)) as (s' & r & H).
  assert (Hc : source demo_error_meta) by (vm_compute; auto).
  exists demo_error_meta, (nd "ERROR" 2 0 "" []), s', r. split; [assumption|]. split; [vm_compute; auto 10|]. split; [reflexivity|]. split; [assumption|].
  rewrite (parse_log _ _ _ _ _ Hc empty_good H). assert (E : parse_records demo_error_meta = [MkLog logger_parse INFO (lit "Parsing...") None; MkLog logger_parse INFO (lit "Abstractifying...") None]) by (vm_compute; reflexivity).
  rewrite E. intros m [<-|[<-|[]]]; discriminate.
Qed.
(** An item outside of a list makes the parser raise the exception of the node. *)
Lemma stray_item : exists c s' m, source c /\ parse 200 c empty_st = (s', Err (ENode m)).
Proof.
  destruct (parse 200 demo_stray_item empty_st) as [s' [r|e]] eqn:E.
  - exfalso. assert (H : succeeds demo_stray_item = false) by (vm_compute; reflexivity). unfold succeeds in H. rewrite E in H. discriminate H.
  - assert (H : match parse 200 demo_stray_item empty_st with (_, Err (ENode _)) => true | _ => false end = true) by (vm_compute; reflexivity).
    rewrite E in H. exists demo_stray_item, s'. destruct e as [m| | | | | | | | | | | | | | |]; try discriminate H. exists m. split; [vm_compute; auto|exact E].
Qed.
(** The indentation of the first line of a listing is lost. *)
Lemma indentation_lost : exists c d s' r t, source c /\ In d (c_preorder c) /\ is_type "asis_text" d = true /\
  parse 200 c empty_st = (s', Ok r) /\ root t = r /\ manuscript s' t /\
  forall i n, In i (doc_order t) -> st_heap s' !! i = Some n -> n_attrs n !! a_text <> Some (VStr (c_text d)).
Proof.
  destruct (succeeds_ok demo_code ltac:(vm_compute; reflexivity)) as (s' & r & H).
  assert (Hc : source demo_code) by (vm_compute; auto). destruct (parsed_manuscript _ _ _ _ _ Hc empty_good H) as (t & Hr & Hm & Hh).
  exists demo_code, (leaf "asis_text" 2 0 "    x = 1"), s', r, t. split; [assumption|]. split; [vm_compute; auto|]. split; [reflexivity|].
  split; [assumption|]. split; [assumption|]. split; [assumption|]. intros i n Hi Hn.
  destruct (result_class _ _ _ _ _ _ _ Hc H Hh Hi Hn) as (x & Hx & _ & <-). intros E.
  assert (F : forallb (fun x => negb (str_eqb (shown a_text (a_attrs x)) (lit "    x = 1"))) (result demo_code) = true) by (vm_compute; reflexivity).
  rewrite forallb_forall in F. specialize (F x Hx). unfold shown in F. rewrite E in F. rewrite str_eqb_refl in F. discriminate F.
Qed.
