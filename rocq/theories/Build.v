(** Writing manuscript trees as terms, for examples and witnesses:
    [BT Section [title] [child; ...]] stands for the Python expression
    [Section(title=...).append([child, ...])]. *)
From Verif Require Export Transformer.

Inductive bt := BT (c : cls) (kw : list (attr * val)) (cs : list bt).

Fixpoint build (t : bt) : M id :=
  match t with
  | BT c kw cs =>
      let! i := new_node c kw in
      do! (fix go (l : list bt) : M unit :=
             match l with
             | [] => ret tt
             | x :: r => let! k := build x in do! append i [k] in go r
             end) cs in
      ret i
  end.

(** Plain text node. *)
Definition txt (s : string) : bt := BT CText [(a_text, VStr (lit s))] [].

(** Run a computation from the empty heap. *)
Definition run {A} (m : M A) : st * res A := m empty_st.
(** Decode ASCII code points to a Coq string for display in examples. *)
Definition show (s : str) : string :=
  fold_right (fun c r => String (ascii_of_N c) r) EmptyString s.
