(** Specifications of the node methods, used by the properties of nodes. *)
From Verif Require Export Spec NodeOps.

Definition permitted (c d : cls) : Prop := possible_parents c = [] \/ In d (possible_parents c).

Inductive edit :=
| Construct (c : cls) (kw : list (attr * val))
| Append (p : id) (cs : list id)
| Prepend (p : id) (cs : list id)
| Remove (p c : id)
| RemoveSelf (c : id)
| Clear (p : id)
| ReplaceSelf (x : id) (rs : list id).

Definition run_edit (e : edit) : M unit :=
  match e with
  | Construct c kw => do! new_node c kw in ret tt
  | Append p cs => append p cs
  | Prepend p cs => prepend p cs
  | Remove p c => remove p c
  | RemoveSelf c => remove_self c
  | Clear p => clear p
  | ReplaceSelf x rs => replace_self x rs
  end.

(** [usable h p cs]: the nodes [cs] may be added below [p]: they are different
    nodes without parent, and none of them is [p] or an ancestor of [p]. *)
Definition usable (h : gmap id node) (p : id) (cs : list id) : Prop :=
  NoDup cs /\
  forall c, c ∈ cs -> (exists n, h !! c = Some n /\ n_parent n = None) /\ c <> p /\ ~ ancestor h p c.

Definition respects (h : gmap id node) (e : edit) : Prop :=
  match e with
  | Append p cs | Prepend p cs => usable h p cs
  | ReplaceSelf x rs => forall p, parent_is h x p -> usable h p rs
  | _ => True
  end.

Inductive history : st -> list edit -> st -> Prop :=
| hist_nil s : history s [] s
| hist_cons s e s1 l s2 :
    run_edit e s = (s1, Ok tt) -> history s1 l s2 -> history s (e :: l) s2.

(** All calls of a history respect the documented usage. *)
Inductive disciplined : st -> list edit -> Prop :=
| disc_nil s : disciplined s []
| disc_cons s e s1 l :
    respects (st_heap s) e -> run_edit e s = (s1, Ok tt) -> disciplined s1 l -> disciplined s (e :: l).

(** A history in which calls may be refused (raise). *)
Inductive any_history : st -> list edit -> st -> Prop :=
| any_nil s : any_history s [] s
| any_cons s e s1 r l s2 :
    run_edit e s = (s1, r) -> any_history s1 l s2 -> any_history s (e :: l) s2.

Definition first_match (h : gmap id node) (ds : list cls) (l : list id) (r : option (id * nat)) : Prop :=
  match r with
  | Some (c, k) => nth_error l k = Some c /\ is_instance h ds c /\
      forall j x, j < k -> nth_error l j = Some x -> ~ is_instance h ds x
  | None => forall x, x ∈ l -> ~ is_instance h ds x
  end.

Definition last_match (h : gmap id node) (ds : list cls) (l : list id) (r : option (id * nat)) : Prop :=
  match r with
  | Some (c, k) => nth_error l k = Some c /\ is_instance h ds c /\
      forall j x, k < j -> nth_error l j = Some x -> ~ is_instance h ds x
  | None => forall x, x ∈ l -> ~ is_instance h ds x
  end.

(** [x] has the siblings [before] and [after]. *)
Definition siblings (h : gmap id node) (x : id) (before after : list id) : Prop :=
  exists q nq, parent_is h x q /\ h !! q = Some nq /\ kids nq = before ++ x :: after.

(** Nearest matching element of a list, scanning from the end resp. the start. *)
Definition nearest_before (h : gmap id node) (d : cls) (b : list id) (r : option id) : Prop :=
  match r with
  | Some y => exists b1 b2, b = b1 ++ y :: b2 /\ is_instance h [d] y /\
                forall z, z ∈ b2 -> ~ is_instance h [d] z
  | None => forall z, z ∈ b -> ~ is_instance h [d] z
  end.

Definition nearest_after (h : gmap id node) (d : cls) (a : list id) (r : option id) : Prop :=
  match r with
  | Some y => exists a1 a2, a = a1 ++ y :: a2 /\ is_instance h [d] y /\
                forall z, z ∈ a1 -> ~ is_instance h [d] z
  | None => forall z, z ∈ a -> ~ is_instance h [d] z
  end.

(** The class meant by the argument of prev_sibling / next_sibling. *)
Definition sib_class (h : gmap id node) (x : id) (arg : sibling_arg) (d : cls) : Prop :=
  match arg with
  | SibAny => False
  | SibSelf => exists n, h !! x = Some n /\ d = n_cls n
  | SibCls c => d = c
  end.

(** [a] is the closest ancestor of [x] whose class is one of [ds]. *)
Definition closest_ancestor (h : gmap id node) (ds : list cls) (x : id) (r : option id) : Prop :=
  match r with
  | Some a => ancestor h x a /\ has_class h ds a /\
      forall b, ancestor h x b -> ancestor h b a -> ~ has_class h ds b
  | None => forall b, ancestor h x b -> ~ has_class h ds b
  end.

(** The attributes compared by [==] are set, as they are on every constructed node. *)
Definition comparable (n : node) : Prop := forall a, In a (eq_attrs (n_cls n)) -> is_Some (n_attrs n !! a).

Definition k_reftext := lit "reftext".

Definition k_template := lit "reftext_template".

(** Every node has one place: listed exactly by its parent, and only once. *)
Definition one_place (h : gmap id node) : Prop :=
  (forall x p, child_is h x p <-> parent_is h x p) /\
  (forall p n, h !! p = Some n -> NoDup (kids n)).
