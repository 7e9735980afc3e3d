(** Specifications: what a manuscript tree is, independently of the code. *)
From Verif Require Export Heap.

(** ** Trees in the heap *)

Inductive tree := T (i : id) (cs : list tree).
Definition root (t : tree) : id := match t with T i _ => i end.
Definition subs (t : tree) : list tree := match t with T _ cs => cs end.

(** The identities of a tree in depth-first pre-order, i.e. document order. *)
Fixpoint doc_order (t : tree) : list id :=
  match t with T i cs => i :: flat_map doc_order cs end.
Definition doc_orders (ts : list tree) : list id := flat_map doc_order ts.

(** [tree_at h p t]: in the heap [h], [t] is the subtree rooted at [root t],
    whose parent is [p]. *)
Inductive tree_at (h : gmap id node) : option id -> tree -> Prop :=
| TreeAt p i n cs :
    h !! i = Some n ->
    n_parent n = p ->
    kids n = map root cs ->
    Forall (tree_at h (Some i)) cs ->
    tree_at h p (T i cs).

(** A document: a tree without parent in which no node occurs twice. *)
Definition document (h : gmap id node) (t : tree) : Prop :=
  tree_at h None t /\ NoDup (doc_order t).

(** ** Consistency of a heap *)

Definition parent_is (h : gmap id node) (x p : id) : Prop :=
  exists n, h !! x = Some n /\ n_parent n = Some p.
Definition child_is (h : gmap id node) (x p : id) : Prop :=
  exists n, h !! p = Some n /\ x ∈ kids n.

(** [ancestor h x y]: [y] is reached from [x] by following parents at least once. *)
Inductive ancestor (h : gmap id node) : id -> id -> Prop :=
| anc_parent x p : parent_is h x p -> ancestor h x p
| anc_step x p y : parent_is h x p -> ancestor h p y -> ancestor h x y.

Record consistent (h : gmap id node) : Prop := {
  (* x is in p.children exactly when x.parent is p *)
  cons_parent : forall x p, child_is h x p <-> parent_is h x p;
  (* no node is listed twice *)
  cons_nodup : forall p n, h !! p = Some n -> NoDup (kids n);
  (* no node is its own ancestor *)
  cons_acyclic : forall x, ~ ancestor h x x
}.

(** The class restriction of nodes.py:77-79 and 396-401 ([possible_parents]). *)
Definition parents_permitted (h : gmap id node) : Prop :=
  forall x n p m, h !! x = Some n -> n_parent n = Some p -> h !! p = Some m ->
    possible_parents (n_cls n) = [] \/ In (n_cls m) (possible_parents (n_cls n)).

(** Every identity in use is below the next fresh one. *)
Definition fresh_ok (s : st) : Prop := forall i n, st_heap s !! i = Some n -> i < st_next s.

(** ** Descriptions of an edit *)

(** [edited h h' fp fk]: same nodes with the same class and attributes; the
    parent of [j] becomes [fp j old], its children [fk j old]. *)
Definition edited (h h' : gmap id node)
    (fp : id -> option id -> option id) (fk : id -> list id -> list id) : Prop :=
  forall j, h' !! j =
    match h !! j with
    | None => None
    | Some n => Some (MkNode (n_cls n) (fp j (n_parent n)) (fk j (n_children n)) (n_attrs n))
    end.
Definition same_heap (h h' : gmap id node) : Prop := forall j, h' !! j = h !! j.

(** Same nodes, classes, parents and children: only attributes may differ. *)
Definition same_structure (h h' : gmap id node) : Prop :=
  forall j, match h !! j, h' !! j with
            | Some n, Some n' =>
                n_cls n' = n_cls n /\ n_parent n' = n_parent n /\ n_children n' = n_children n
            | None, None => True
            | _, _ => False
            end.

(** ** Classes *)

(** [c] is [d] or inherits from it. *)
Inductive derives : cls -> cls -> Prop :=
| derives_refl c : derives c c
| derives_base c b d : base c = Some b -> derives b d -> derives c d.
(** [x] is an instance of one of the classes [ds]. *)
Definition is_instance (h : gmap id node) (ds : list cls) (x : id) : Prop :=
  exists n d, h !! x = Some n /\ In d ds /\ derives (n_cls n) d.
(** The class of [x] is exactly one of [ds]. *)
Definition has_class (h : gmap id node) (ds : list cls) (x : id) : Prop :=
  exists n, h !! x = Some n /\ In (n_cls n) ds.

(** ** The class structure of a tree *)

Inductive ctree := CT (c : cls) (cs : list ctree).
Fixpoint shape (h : gmap id node) (t : tree) : ctree :=
  match t with
  | T i cs => CT (match h !! i with Some n => n_cls n | None => CNode end) (map (shape h) cs)
  end.
