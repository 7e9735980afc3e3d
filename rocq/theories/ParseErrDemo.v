(** Sources for which the parser raises each of its exceptions. *)
From Verif Require Import TreeFacts.
From Verif Require Export ParseErr ParseDemo.
From Verif Require Import Consistency NodeProofs NodeOps Monad.
Local Open Scope string_scope.
Local Open Scope list_scope.

Definition src (cs : list cst) : cst := nd "source_file" 0 0 "the source" cs.
(** A table cell without content, a listing with text to be parsed. *)
Definition bad_index : cst := src [nd "td" 1 0 "" []].
Definition bad_listing : cst := src [nd "block" 1 0 "" [fd "tag" (leaf "codeblock" 1 1 "codeblock"); leaf "text" 2 0 "x"]].
(** Meta data with a key and two values, with a key of an unknown kind, with meta data for a key, and with no value. *)
Definition meta_ (cs : list cst) : cst := src [nd "paragraph" 1 0 "" [fd "meta" (nd "blockmeta" 1 0 "" cs); leaf "text" 1 1 "x"]].
Definition bad_pair : cst := meta_ [nd "metapair" 1 0 "" [nd "metakey_text" 1 1 "" [leaf "label" 1 2 "label"]; leaf "metaval" 1 5 "a"; leaf "metaval" 1 6 "b"]].
Definition bad_key : cst := meta_ [nd "metapair" 1 0 "" [nd "metakey_colour" 1 1 "" [leaf "label" 1 2 "label"]; leaf "metaval" 1 5 "a"]].
Definition bad_type : cst := meta_ [nd "metapair" 1 0 "" [nd "meta_into_dict" 1 1 "" [leaf "label" 1 2 "label"]; leaf "metaval" 1 5 "a"]].
Definition bad_attr : cst := meta_ [nd "metapair" 1 0 "" [nd "metakey_text" 1 1 "" [leaf "label" 1 2 "label"]]].
Definition err (c : cst) : option exn := match (parse 300 c empty_st).2 with Ok _ => None | Err e => Some e end.
Lemma err_raises c e : is_type "source_file" c = true -> forallb no_source (c_children c) = true -> err c = Some e ->
  exists d s', source d /\ parse 300 d empty_st = (s', Err e).
Proof.
  intros H1 H2 H. exists c. unfold err in H. destruct (parse 300 c empty_st) as [s' [r|f]]; [discriminate|]. cbn in H. injection H as ->.
  exists s'. split; [split; assumption|reflexivity].
Qed.
Lemma each_raised :
  (exists c s', source c /\ parse 300 c empty_st = (s', Err EIndex)) /\
  (exists c s', source c /\ parse 300 c empty_st = (s', Err EValue)) /\
  (exists c s', source c /\ parse 300 c empty_st = (s', Err EAssert)) /\
  (exists c s', source c /\ parse 300 c empty_st = (s', Err EKey)) /\
  (exists c s', source c /\ parse 300 c empty_st = (s', Err EType)) /\
  (exists c s', source c /\ parse 300 c empty_st = (s', Err (EParser (lit "Error abstractifying.")))).
Proof.
  split; [apply (err_raises bad_index); vm_compute; reflexivity|].
  split; [apply (err_raises bad_pair); vm_compute; reflexivity|].
  split; [apply (err_raises bad_listing); vm_compute; reflexivity|].
  split; [apply (err_raises bad_key); vm_compute; reflexivity|].
  split; [apply (err_raises bad_type); vm_compute; reflexivity|].
  apply (err_raises bad_attr); vm_compute; reflexivity.
Qed.
