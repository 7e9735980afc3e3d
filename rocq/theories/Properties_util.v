(** Properties C51-C54: escaped strings (rsm/util.py). *)
From Verif Require Import EscProofs EscSplit.
Local Open Scope string_scope.
Local Open Scope list_scope.

(** ** C51 *)

(** [es_chars] lists the set of escapable characters in any order. *)
Theorem C51_escape_exact_partial : forall e, ~ In backslash (es_chars e) -> NoDup (es_chars e) ->
  escape e = unescape (es_chars e) (es_src e).
Proof. exact escape_exact. Qed.
Print Assumptions C51_escape_exact_partial.
Theorem C51_order_irrelevant_partial : forall s l l', ~ In backslash l -> NoDup l -> Permutation l l' ->
  escape (MkE s l) = escape (MkE s l').
Proof. exact escape_order. Qed.
Print Assumptions C51_order_irrelevant_partial.
Theorem C51_no_backslash_no_change : forall l s, ~ In backslash s -> unescape l s = s.
Proof. exact unescape_plain. Qed.
Print Assumptions C51_no_backslash_no_change.
(** The set that the parser uses. *)
Example C51_nonvacuous : ~ In backslash (lit ":%$`*{#") /\ NoDup (lit ":%$`*{#") /\
  escape (MkE (lit "a\: \\: \b \{") (lit ":%$`*{#")) = lit "a: \: \b {".
Proof.
  split; [vm_compute; intuition discriminate|]. split; [|vm_compute; reflexivity].
  apply (bool_decide_unpack _). vm_compute. exact I.
Qed.
(** With the backslash escapable, the result depends on the order of the set. *)
Theorem C51_order_irrelevant_refuted : exists s l l', NoDup l /\ Permutation l l' /\ escape (MkE s l) <> escape (MkE s l').
Proof. exact escape_order_matters. Qed.
Print Assumptions C51_order_irrelevant_refuted.

(** ** C52 *)

Theorem C52_find_first_unescaped : forall e c start fin a b, In c (es_chars e) ->
  from_to (es_src e) start fin = (a, b) ->
  exists r, es_find e [c] start fin true = Ok r /\ least (unescaped c (es_src e)) a b r.
Proof. exact find_first. Qed.
Print Assumptions C52_find_first_unescaped.
Theorem C52_find_other_characters : forall e c start fin a b sk, (sk = false \/ ~ In c (es_chars e)) ->
  from_to (es_src e) start fin = (a, b) ->
  exists r, es_find e [c] start fin sk = Ok r /\ least (here c (es_src e)) a b r.
Proof. exact find_plain. Qed.
Print Assumptions C52_find_other_characters.
(** Any other search string, the empty one included. *)
Theorem C52_find_any_string : forall e sub start fin a b sk, (sk = false \/ escapable e sub = false) ->
  (start <= Z.of_nat (length (es_src e)))%Z -> from_to (es_src e) start fin = (a, b) ->
  exists r, es_find e sub start fin sk = Ok r /\ least (occurs sub (es_src e) b) a (S b) r.
Proof. exact find_any. Qed.
Print Assumptions C52_find_any_string.
Theorem C52_find_beyond_end : forall e sub start fin sk, (Z.of_nat (length (es_src e)) < start)%Z ->
  es_find e sub start fin sk = Ok (-1)%Z.
Proof. exact find_beyond. Qed.
Print Assumptions C52_find_beyond_end.
Example C52_any_nonvacuous : escapable (MkE (lit "a::b::c") (lit ":")) (lit "::") = false /\
  es_find (MkE (lit "a::b::c") (lit ":")) (lit "::") 2 None true = Ok 4%Z /\
  es_find (MkE (lit "a::b::c") (lit ":")) (lit "::") 2 (Some 5%Z) true = Ok (-1)%Z /\
  es_find (MkE (lit "a::b::c") (lit ":")) [] 3 (Some 2%Z) true = Ok (-1)%Z /\
  es_find (MkE (lit "a::b::c") (lit ":")) [] 7 None true = Ok 7%Z /\
  es_find (MkE (lit "a::b::c") (lit ":")) [] 8 None true = Ok (-1)%Z.
Proof. vm_compute. auto 10. Qed.
Example C52_nonvacuous :
  es_find (MkE (lit "a\:b:c:") (lit ":")) (lit ":") 0 None true = Ok 4%Z /\
  es_find (MkE (lit "a\:b:c:") (lit ":")) (lit ":") (-2) None true = Ok 6%Z /\
  es_find (MkE (lit "a\:b:c:") (lit ":")) (lit ":") 0 (Some 4%Z) true = Ok (-1)%Z /\
  es_find (MkE (lit "a\:b:c:") (lit ":")) (lit ":") 0 None false = Ok 2%Z /\
  from_to (lit "a\:b:c:") (-2) None = (5, 7).
Proof. vm_compute. auto 10. Qed.

(** ** C53 *)

Theorem C53_index_found_partial : forall e c start fin a b k fuel, In c (es_chars e) ->
  from_to (es_src e) start fin = (a, b) -> least (unescaped c (es_src e)) a b (Z.of_nat k) ->
  length (es_src e) <= fuel -> es_index fuel e [c] start fin true = Ok (Z.of_nat k).
Proof. exact index_found. Qed.
Print Assumptions C53_index_found_partial.
Theorem C53_index_absent_partial : forall e c start fin a b fuel sk, from_to (es_src e) start fin = (a, b) ->
  (forall i, a <= i < b -> ~ here c (es_src e) i) -> es_index fuel e [c] start fin sk = Err EValue.
Proof. exact index_absent. Qed.
Print Assumptions C53_index_absent_partial.
Example C53_nonvacuous :
  es_index 7 (MkE (lit "a\:b:c:") (lit ":")) (lit ":") 0 None true = Ok 4%Z /\
  es_index 7 (MkE (lit "a\:b:c:") (lit ":")) (lit "z") 0 None true = Err EValue.
Proof. vm_compute. auto. Qed.
(** When all occurrences are escaped it returns -1, or never returns. *)
Theorem C53_index_raises_refuted : exists e c, In c (es_chars e) /\
  (forall i, ~ unescaped c (es_src e) i) /\ forall fuel, 2 <= fuel -> es_index fuel e [c] 0 None true = Ok (-1)%Z.
Proof. exact index_minus_ex. Qed.
Print Assumptions C53_index_raises_refuted.
Theorem C53_index_terminates_refuted : exists e c, In c (es_chars e) /\
  forall fuel, es_index fuel e [c] 0 None true = Err EOutOfFuel.
Proof. exact index_forever_ex. Qed.
Print Assumptions C53_index_terminates_refuted.

(** ** C54 *)

(** At a separator that is not escapable, or without regard to escapes. *)
Theorem C54_split_join_partial : forall e sep sk, sep <> [] -> (sk = false \/ escapable e sep = false) ->
  exists parts, es_split e (Some sep) sk = Ok parts /\ join sep parts = es_src e /\
    (forall c, sep = [c] -> Forall (fun p => ~ In c p) parts).
Proof. exact split_plain. Qed.
Print Assumptions C54_split_join_partial.
Example C54_nonvacuous : escapable (MkE (lit "a::b:c::") (lit ":")) (lit "::") = false /\
  es_split (MkE (lit "a::b:c::") (lit ":")) (Some (lit "::")) true = Ok [lit "a"; lit "b:c"; []] /\
  es_split (MkE (lit "a:b:c") (lit ":")) (Some (lit ":")) false = Ok [lit "a"; lit "b"; lit "c"].
Proof. vm_compute. auto. Qed.
(** At an escapable separator the parts are lost. *)
Theorem C54_split_join_refuted : exists e sep parts, escapable e sep = true /\
  es_split e (Some sep) true = Ok parts /\ join sep parts <> es_src e.
Proof. exact split_loses_ex. Qed.
Print Assumptions C54_split_join_refuted.
(** What is computed instead: the string is cut where an escapable character, whichever it is, has no
    backslash before it, and both the first and the last character of each part are dropped. *)
Theorem C54_cut_at_unescaped : forall e i,
  In i (cuts e) <-> 0 < i /\ exists c, In c (es_chars e) /\ unescaped c (es_src e) i.
Proof. exact cuts_spec. Qed.
Print Assumptions C54_cut_at_unescaped.
Theorem C54_parts_partial : forall e sep, escapable e sep = true ->
  es_split e (Some sep) true = Ok (parts (es_src e) 0 (cuts e)).
Proof. exact split_escapable. Qed.
Print Assumptions C54_parts_partial.
Theorem C54_number_of_parts : forall e sep, escapable e sep = true ->
  exists ps, es_split e (Some sep) true = Ok ps /\ length ps = S (length (cuts e)).
Proof. exact split_count. Qed.
Print Assumptions C54_number_of_parts.
Example C54_parts_nonvacuous : escapable (MkE (lit "one\:two:three:four") (lit ":")) (lit ":") = true /\
  cuts (MkE (lit "one\:two:three:four") (lit ":")) = [8; 14] /\
  es_split (MkE (lit "one\:two:three:four") (lit ":")) (Some (lit ":")) true = Ok [lit "ne\:tw"; lit "thre"; lit "fou"].
Proof. vm_compute. auto. Qed.
