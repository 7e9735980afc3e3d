(** Python strings as lists of Unicode code points, and the [str] methods that
    [rsm] uses.  These model CPython built-ins, not code in /repo; each comment
    says where /repo uses the method. *)
From Coq Require Export Ascii String ZArith NArith.
From stdpp Require Export base list numbers.
From Coq Require DecimalN DecimalPos.

Notation char := N (only parsing).
Notation str := (list N).

(** UTF-8 decoding of Coq byte strings, so that literals such as "⊢"
    (rsm/nodes.py:1185) denote the code points Python sees. *)
Fixpoint bytes_of (s : string) : list N :=
  match s with
  | EmptyString => []
  | String a r => N_of_ascii a :: bytes_of r
  end.

Fixpoint utf8 (l : list N) : list N :=
  match l with
  | [] => []
  | a :: r =>
      if (a <? 128)%N then a :: utf8 r
      else match r with
      | [] => []
      | b :: r2 =>
          if (a <? 224)%N then ((a - 192) * 64 + (b - 128))%N :: utf8 r2
          else match r2 with
          | [] => []
          | c :: r3 =>
              if (a <? 240)%N
              then ((a - 224) * 4096 + (b - 128) * 64 + (c - 128))%N :: utf8 r3
              else match r3 with
              | [] => []
              | d :: r4 =>
                  ((a - 240) * 262144 + (b - 128) * 4096 + (c - 128) * 64 + (d - 128))%N
                    :: utf8 r4
              end
          end
      end
  end.

Definition lit (s : string) : str := utf8 (bytes_of s).
Arguments lit : simpl never.

(** [==] on strings. *)
Fixpoint str_eqb (a b : str) : bool :=
  match a, b with
  | [], [] => true
  | x :: a', y :: b' => (x =? y)%N && str_eqb a' b'
  | _, _ => false
  end.

Lemma str_eqb_spec a b : reflect (a = b) (str_eqb a b).
Proof.
  revert b; induction a as [|x a IH]; intros [|y b]; simpl; try (constructor; congruence).
  destruct (N.eqb_spec x y) as [->|Hne]; simpl.
  - destruct (IH b) as [->|Hne]; constructor; congruence.
  - constructor; congruence.
Qed.

Lemma str_eqb_refl a : str_eqb a a = true.
Proof. destruct (str_eqb_spec a a); congruence. Qed.

Lemma str_eqb_eq a b : str_eqb a b = true <-> a = b.
Proof. destruct (str_eqb_spec a b); intuition congruence. Qed.

(** [x in list_of_strings]. *)
Definition str_mem (x : str) (l : list str) : bool := existsb (str_eqb x) l.

Lemma str_mem_In x l : str_mem x l = true <-> In x l.
Proof.
  unfold str_mem. rewrite existsb_exists. split.
  - intros (y & Hin & He). apply str_eqb_eq in He. subst; auto.
  - intros H. exists x. split; auto. apply str_eqb_refl.
Qed.

(** [str.isspace] on one code point: CPython's White_Space table plus the
    separators U+001C..U+001F. *)
Definition is_space (c : char) : bool :=
  ((9 <=? c) && (c <=? 13) || (28 <=? c) && (c <=? 32)
   || (c =? 133) || (c =? 160) || (c =? 5760)
   || (8192 <=? c) && (c <=? 8202)
   || (c =? 8232) || (c =? 8233) || (c =? 8239) || (c =? 8287) || (c =? 12288))%N.

(** [str.lstrip], [str.rstrip], [str.strip] with a predicate on characters. *)
Fixpoint lstrip_by (p : char -> bool) (s : str) : str :=
  match s with
  | [] => []
  | c :: r => if p c then lstrip_by p r else s
  end.
Definition rstrip_by (p : char -> bool) (s : str) : str := rev (lstrip_by p (rev s)).
Definition strip_by (p : char -> bool) (s : str) : str := lstrip_by p (rstrip_by p s).

Definition lstrip := lstrip_by is_space.
Definition rstrip := rstrip_by is_space.
Definition strip := strip_by is_space.
(** [str.strip(".")] and the like. *)
Definition strip_char (c : char) := strip_by (fun x => (x =? c)%N).

(** [s.startswith(p)] *)
Fixpoint prefixb (p s : str) : bool :=
  match p, s with
  | [], _ => true
  | x :: p', y :: s' => (x =? y)%N && prefixb p' s'
  | _ :: _, [] => false
  end.
(** [s.endswith(p)] *)
Definition suffixb (p s : str) : bool := prefixb (rev p) (rev s).

(** [s.find(sub)] from the start: least index of an occurrence. *)
Fixpoint find_at (sub s : str) : option nat :=
  if prefixb sub s then Some 0
  else match s with
       | [] => None
       | _ :: s' => match find_at sub s' with Some n => Some (S n) | None => None end
       end.
(** [sub in s] *)
Definition contains (sub s : str) : bool := match find_at sub s with Some _ => true | None => false end.

(** [s.replace(old, new)] for a non-empty [old]: left to right, non overlapping.
    ([skip] counts the characters of a match still to be dropped.)  The code
    never replaces the empty string. *)
Fixpoint replace_go (old new s : str) (skip : nat) : str :=
  match s with
  | [] => []
  | c :: s' =>
      match skip with
      | S k => replace_go old new s' k
      | 0 => if prefixb old s then new ++ replace_go old new s' (length old - 1)
             else c :: replace_go old new s' 0
      end
  end.
Definition replace (old new s : str) : str := replace_go old new s 0.

(** [sep.join(parts)] *)
Fixpoint join (sep : str) (parts : list str) : str :=
  match parts with
  | [] => []
  | [x] => x
  | x :: r => x ++ sep ++ join sep r
  end.

(** [s.split(sep)] for a one-character separator: never empty. *)
Fixpoint split_on (sep : char) (s : str) : list str :=
  match s with
  | [] => [[]]
  | c :: r =>
      if (c =? sep)%N then [] :: split_on sep r
      else match split_on sep r with
           | [] => [[c]]
           | w :: ws => (c :: w) :: ws
           end
  end.

(** [s.split()] (on white space, no empty words). *)
Fixpoint words_go (s : str) (cur : str) : list str :=
  match s with
  | [] => match cur with [] => [] | _ => [rev cur] end
  | c :: r => if is_space c
              then match cur with [] => words_go r [] | _ => rev cur :: words_go r [] end
              else words_go r (c :: cur)
  end.
Definition words (s : str) : list str := words_go s [].

(** [s.lower()] restricted to ASCII (used on class names only,
    rsm/translator.py:358, 538-541). *)
Definition lower_char (c : char) : char := if ((65 <=? c) && (c <=? 90))%N then (c + 32)%N else c.
Definition lower (s : str) : str := map lower_char s.

(** [str(n)] for integers. *)
Fixpoint uint_str (u : Decimal.uint) : str :=
  match u with
  | Decimal.Nil => []
  | Decimal.D0 u => 48%N :: uint_str u
  | Decimal.D1 u => 49%N :: uint_str u
  | Decimal.D2 u => 50%N :: uint_str u
  | Decimal.D3 u => 51%N :: uint_str u
  | Decimal.D4 u => 52%N :: uint_str u
  | Decimal.D5 u => 53%N :: uint_str u
  | Decimal.D6 u => 54%N :: uint_str u
  | Decimal.D7 u => 55%N :: uint_str u
  | Decimal.D8 u => 56%N :: uint_str u
  | Decimal.D9 u => 57%N :: uint_str u
  end.
Definition str_of_N (n : N) : str := uint_str (N.to_uint n).
Definition str_of_nat (n : nat) : str := str_of_N (N.of_nat n).
Definition str_of_Z (z : Z) : str :=
  match z with
  | Zneg p => 45%N :: str_of_N (Npos p)
  | _ => str_of_N (Z.to_N z)
  end.
Arguments str_of_N : simpl never.
Arguments str_of_nat : simpl never.
Arguments str_of_Z : simpl never.

Lemma uint_str_inj a b : uint_str a = uint_str b -> a = b.
Proof.
  revert b; induction a; intros b H; destruct b; simpl in H; try discriminate; auto;
    injection H as H; f_equal; auto.
Qed.
Lemma str_of_N_inj a b : str_of_N a = str_of_N b -> a = b.
Proof.
  unfold str_of_N. intros H%uint_str_inj.
  apply (f_equal N.of_uint) in H. rewrite !DecimalN.Unsigned.of_to in H. exact H.
Qed.
Lemma str_of_nat_inj a b : str_of_nat a = str_of_nat b -> a = b.
Proof. unfold str_of_nat. intros H%str_of_N_inj. lia. Qed.

(** [int(s)]: optional surrounding white space, optional sign, ASCII digits
    with single underscores between digits.  Non-ASCII decimal digits, which
    CPython also accepts, are treated as invalid. *)
Definition is_digit (c : char) : bool := ((48 <=? c) && (c <=? 57))%N.
Fixpoint int_digits (s : str) (acc : Z) (prev_digit : bool) : option Z :=
  match s with
  | [] => if prev_digit then Some acc else None
  | c :: r =>
      if is_digit c then int_digits r (acc * 10 + Z.of_N (c - 48))%Z true
      else if (c =? 95)%N && prev_digit then int_digits r acc false
      else None
  end.
Definition py_int (s : str) : option Z :=
  match strip s with
  | [] => None
  | c :: r =>
      if (c =? 45)%N then match int_digits r 0%Z false with Some z => Some (- z)%Z | None => None end
      else if (c =? 43)%N then int_digits r 0%Z false
      else int_digits (c :: r) 0%Z false
  end.

(** [str.format] with the two keyword arguments [nodeclass] and [number]
    (rsm/nodes.py:434).  Result: the string, or which exception is raised.
    Replacement fields with conversions, format specifications, attribute or
    index look-ups are outside the model ([FmtUnsupported]). *)
Inductive fmt_res := FmtOk (s : str) | FmtKeyError | FmtIndexError | FmtValueError | FmtUnsupported.

Fixpoint fmt_field (s : str) (acc : str) : option (str * str) :=
  match s with
  | [] => None
  | c :: r => if (c =? 125)%N then Some (rev acc, r) else fmt_field r (c :: acc)
  end.

Fixpoint fmt_go (fuel : nat) (nodeclass number s out : str) : fmt_res :=
  match fuel with
  | 0 => FmtUnsupported
  | S fuel =>
    match s with
    | [] => FmtOk (rev out)
    | c :: r =>
        if (c =? 123)%N then
          match r with
          | [] => FmtValueError
          | d :: r' =>
              if (d =? 123)%N then fmt_go fuel nodeclass number r' (123%N :: out)
              else match fmt_field r [] with
                   | None => FmtValueError
                   | Some (name, rest) =>
                       if str_eqb name (lit "nodeclass")
                       then fmt_go fuel nodeclass number rest (rev nodeclass ++ out)
                       else if str_eqb name (lit "number")
                       then fmt_go fuel nodeclass number rest (rev number ++ out)
                       else match name with
                            | [] => FmtIndexError
                            | _ => if forallb is_digit name then FmtIndexError
                                   else if existsb (fun x => (x =? 33) || (x =? 58) || (x =? 46) || (x =? 91) || (x =? 123))%N name
                                   then FmtUnsupported
                                   else FmtKeyError
                            end
                   end
          end
        else if (c =? 125)%N then
          match r with
          | d :: r' => if (d =? 125)%N then fmt_go fuel nodeclass number r' (125%N :: out)
                       else FmtValueError
          | [] => FmtValueError
          end
        else fmt_go fuel nodeclass number r (c :: out)
    end
  end.
Definition py_format (template nodeclass number : str) : fmt_res :=
  fmt_go (S (length template)) nodeclass number template [].
Arguments py_format : simpl never.
