(** Property C65: the exceptions of the parser (rsm/tsparser.py). *)
From Verif Require Import ParseErrDemo.
From Verif Require Import TreeFacts NodeProofs.

(** Whatever the syntax tree, the parser returns a manuscript or raises one of the exceptions listed in
    [parser_raises]; in particular no AttributeError leaves it.  Missing: they are not all RSMParserError. *)
Theorem C65_exceptions_partial : forall fuel c s s' e, source c -> good s -> 7 * c_size c <= fuel ->
  parse fuel c s = (s', Err e) -> parser_raises e.
Proof. exact parse_raises. Qed.
Print Assumptions C65_exceptions_partial.
(** The list is no longer than needed (the exceptions of nodes are in C65_parser_error_only_refuted). *)
Theorem C65_exceptions_occur :
  (exists c s', source c /\ parse 300 c empty_st = (s', Err EIndex)) /\
  (exists c s', source c /\ parse 300 c empty_st = (s', Err EValue)) /\
  (exists c s', source c /\ parse 300 c empty_st = (s', Err EAssert)) /\
  (exists c s', source c /\ parse 300 c empty_st = (s', Err EKey)) /\
  (exists c s', source c /\ parse 300 c empty_st = (s', Err EType)) /\
  (exists c s', source c /\ parse 300 c empty_st = (s', Err (EParser (lit "Error abstractifying.")))).
Proof. exact each_raised. Qed.
Print Assumptions C65_exceptions_occur.
(** The trees of the witnesses are small enough. *)
Example C65_nonvacuous : forallb (fun c => 7 * c_size c <=? 300) [bad_index; bad_pair; bad_listing; bad_key; bad_type; bad_attr] = true.
Proof. vm_compute. reflexivity. Qed.
