(** Using a Transformer for several manuscripts. *)
From Verif Require Export SpecResult.
Local Open Scope list_scope.

(** Node [x] uses the label [l]: as its own, or to refer to something. *)
Definition uses (h : gmap id node) (x : id) (l : str) : Prop :=
  (label_of h x = l /\ l <> []) \/ value h x a_target = Some (VStr l) \/ (exists ks, value h x a_targetlabels = Some (VStrs ks) /\ l ∈ ks).
(** The document uses none of the labels in the dictionary. *)
Definition not_used (d : labels) (h : gmap id node) (t : tree) : Prop :=
  forall x l, x ∈ doc_order t -> uses h x l -> lookup_label d l = None.
(** Both calls of transform leave the same memory and log, and return (the first one with the
    additional dictionary) or raise the same. *)
Definition same_outcome (d : labels) (x y : st * res labels) : Prop :=
  fst x = fst y /\ match snd x, snd y with Ok a, Ok b => a = d ++ b | Err e, Err e' => e = e' | _, _ => False end.
