(** Escaped characters, independently of [EscapedString]. *)
From Verif Require Export EscString.

(** Character [c] is at position [i] of [s], and no backslash is before it. *)
Definition here (c : char) (s : str) (i : nat) : Prop := nth_error s i = Some c.
Definition unescaped (c : char) (s : str) (i : nat) : Prop :=
  here c s i /\ forall j, i = S j -> nth_error s j <> Some backslash.
(** [r] is the least position from [a] to before [b] with [P], or -1 when there is none. *)
Definition least (P : nat -> Prop) (a b : nat) (r : Z) : Prop :=
  (r = (-1)%Z /\ forall i, a <= i < b -> ~ P i) \/
  (exists i, r = Z.of_nat i /\ a <= i < b /\ P i /\ forall j, a <= j < i -> ~ P j).
(** The bounds of a slice: negative ones are counted from the end; they are brought into the string. *)
Definition from_to (s : str) (start : Z) (fin : option Z) : nat * nat :=
  let norm k := Z.to_nat (Z.min (Z.of_nat (length s)) (if (k <? 0)%Z then k + Z.of_nat (length s) else k)) in
  (norm start, match fin with None => length s | Some k => norm k end).
(** [s] without the backslashes that are before a character of [chars]. *)
Fixpoint unescape (chars : list char) (s : str) : str :=
  match s with
  | [] => []
  | b :: r =>
      match r with
      | c :: _ => if N.eqb b backslash && existsb (N.eqb c) chars then unescape chars r else b :: unescape chars r
      | [] => [b]
      end
  end.
