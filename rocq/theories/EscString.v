(** Model of [EscapedString] (rsm/util.py:38-215), and of the methods of [str] it calls. *)
From Coq Require Import ZArith.
From Verif Require Export Heap.
Local Open Scope Z_scope.

(** ** Python's strings *)

Definition slen (s : str) : Z := Z.of_nat (length s).
Definition backslash : char := 92%N.
(** A bound of a slice: counted from the end when negative, then brought into the string. *)
Definition clamp (s : str) (k : Z) : Z := Z.max 0 (Z.min (slen s) (if k <? 0 then k + slen s else k)).
(** [s[a:b]] for bounds already brought into the string. *)
Definition sub_str (s : str) (a b : Z) : str := firstn (Z.to_nat b - Z.to_nat a) (skipn (Z.to_nat a) s).
(** [s[a:b]]. *)
Definition py_slice (s : str) (a b : Z) : str := sub_str s (clamp s a) (clamp s b).
(** [s[k]], [None] standing for IndexError. *)
Definition char_at (s : str) (k : Z) : option char :=
  let k := if k <? 0 then k + slen s else k in
  if k <? 0 then None else nth_error s (Z.to_nat k).
(** [s.find(sub, start, end)]. *)
Definition py_find (sub s : str) (start fin : Z) : Z :=
  if slen s <? start then -1
  else
    let a := clamp s start in
    match find_at sub (py_slice s start fin) with
    | Some k => if clamp s fin <? a then -1 else a + Z.of_nat k
    | None => -1
    end.
(** [s.split(sep)] for a non-empty separator; [cur] is the part being read, reversed, and [skip]
    the number of characters of the last separator still to be passed over. *)
Fixpoint split_go (sep s cur : str) (skip : nat) : list str :=
  match s with
  | [] => [rev cur]
  | c :: r =>
      match skip with
      | S skip => split_go sep r cur skip
      | O => if prefixb sep s then rev cur :: split_go sep r [] (length sep - 1) else split_go sep r (c :: cur) 0
      end
  end.
Definition py_split (sep s : str) : list str := split_go sep s [] 0.

(** ** EscapedString *)

(** rsm/util.py:39-41.  [es_chars] is the set of escapable characters, listed in the order in
    which a [for] loop meets them, which Python does not fix. *)
Record estr := MkE { es_src : str; es_chars : list char }.
Definition new_estr (src : str) (chars : option str) : estr :=
  MkE src (match chars with None => [] | Some l => nodup N.eq_dec l end).
(** [sub in self.escape_chars]: the elements of the set are strings of length one. *)
Definition escapable (e : estr) (sub : str) : bool :=
  match sub with [c] => existsb (N.eqb c) (es_chars e) | _ => false end.
(** rsm/util.py:56-60 *)
Definition escape (e : estr) : str :=
  fold_left (fun ret c => replace [backslash; c] [c] ret) (es_chars e) (es_src e).
(** rsm/util.py:62-63, 80-87: slices and stripped strings are made without escapable characters. *)
Definition es_slice (e : estr) (a b : Z) : estr := new_estr (py_slice (es_src e) a b) None.
Definition es_strip (e : estr) : estr := new_estr (strip (es_src e)) None.
Definition es_lstrip (e : estr) : estr := new_estr (lstrip (es_src e)) None.
Definition es_rstrip (e : estr) : estr := new_estr (rstrip (es_src e)) None.

(** The loop of rsm/util.py:106-109. *)
Fixpoint find_loop (fuel : nat) (s sub : str) (fin index : Z) : res Z :=
  match char_at s (index - 1) with
  | None => Err EIndex
  | Some c =>
      if N.eqb c backslash then
        let index := py_find sub s (index + 1) fin in
        if index <? 0 then Ok index
        else match fuel with O => Err EOutOfFuel | S fuel => find_loop fuel s sub fin index end
      else Ok index
  end.
(** rsm/util.py:89-110; the bound on the iterations is the length of the string. *)
Definition es_find (e : estr) (sub : str) (start : Z) (fin : option Z) (skip_escaped : bool) : res Z :=
  let s := es_src e in
  let fin := match fin with None => slen s | Some k => k end in
  if negb skip_escaped || negb (escapable e sub) then Ok (py_find sub s start fin)
  else
    let index := py_find sub s start fin in
    if index <? 1 then Ok index else find_loop (length s) s sub fin index.

(** rsm/util.py:112-123, 146-157, 159-164: searches from the right and replacing are not implemented for escapable characters. *)
Definition not_implemented : exn := EOther (lit "Leo should have implemented this but didn't").
(** [s.rfind(sub, start, end)]: the last occurrence in the slice. *)
Fixpoint rfind_at (sub s : str) : option nat :=
  match s with
  | [] => if prefixb sub [] then Some 0%nat else None
  | _ :: r => match rfind_at sub r with Some k => Some (S k) | None => if prefixb sub s then Some 0%nat else None end
  end.
Definition py_rfind (sub s : str) (start fin : Z) : Z :=
  if slen s <? start then -1
  else
    let a := clamp s start in
    match rfind_at sub (py_slice s start fin) with
    | Some k => if clamp s fin <? a then -1 else a + Z.of_nat k
    | None => -1
    end.
Definition es_rfind (e : estr) (sub : str) (start : Z) (fin : option Z) (skip_escaped : bool) : res Z :=
  let s := es_src e in
  let fin := match fin with None => slen s | Some k => k end in
  if negb skip_escaped || negb (escapable e sub) then Ok (py_rfind sub s start fin) else Err not_implemented.
Definition es_rindex (e : estr) (sub : str) (start : Z) (fin : option Z) (skip_escaped : bool) : res Z :=
  let s := es_src e in
  let fin := match fin with None => slen s | Some k => k end in
  if negb skip_escaped || negb (escapable e sub) then
    let k := py_rfind sub s start fin in if k <? 0 then Err EValue else Ok k
  else Err not_implemented.
Definition es_replace (e : estr) (old new : str) (skip_escaped : bool) : res estr :=
  if negb skip_escaped || negb (escapable e old) then Ok (new_estr (replace old new (es_src e)) None) else Err not_implemented.

(** The loop of rsm/util.py:142-143, which Python does not bound. *)
Fixpoint index_loop (fuel : nat) (s sub : str) (fin index : Z) : res Z :=
  match fuel with
  | O => Err EOutOfFuel
  | S fuel =>
      match char_at s (index - 1) with
      | None => Err EIndex
      | Some c => if N.eqb c backslash then index_loop fuel s sub fin (py_find sub s (index + 1) fin) else Ok index
      end
  end.
(** rsm/util.py:125-144; [str.index] raises ValueError where [str.find] returns -1. *)
Definition es_index (fuel : nat) (e : estr) (sub : str) (start : Z) (fin : option Z) (skip_escaped : bool) : res Z :=
  let s := es_src e in
  let fin := match fin with None => slen s | Some k => k end in
  let index := py_find sub s start fin in
  if index <? 0 then Err EValue
  else if negb skip_escaped || negb (escapable e sub) then Ok index
  else if index =? 0 then Ok index
  else index_loop fuel s sub fin index.

(** The loop of rsm/util.py:206-212, with [togo] characters to go. *)
Fixpoint runs_loop (togo : nat) (e : estr) (prev curr : Z) : list str :=
  match togo with
  | O => [py_slice (es_src e) (prev + 1) (curr - 1)]
  | S togo =>
      let here := match char_at (es_src e) curr with Some c => existsb (N.eqb c) (es_chars e) | None => false end in
      let free := (0 <? curr) && negb (match char_at (es_src e) (curr - 1) with Some c => N.eqb c backslash | None => false end) in
      if here && free then py_slice (es_src e) (prev + 1) (curr - 1) :: runs_loop togo e curr (curr + 1)
      else runs_loop togo e prev (curr + 1)
  end.
(** rsm/util.py:194-215 without a limit; [None] is the default separator, any white space. *)
Definition es_split (e : estr) (sep : option str) (skip_escaped : bool) : res (list str) :=
  match sep with
  | None => Ok (words (es_src e))
  | Some sep =>
      if negb skip_escaped || negb (escapable e sep) then
        match sep with [] => Err EValue | _ => Ok (py_split sep (es_src e)) end
      else Ok (runs_loop (length (es_src e)) e 0 0)
  end.
