(** HTML output as tokens, with the exact string each token stands for. *)
From Verif Require Export Heap.

(** An attribute of a tag: [k="v"], or [k=v] without quotes
    ([tabindex=0], translator.py:151). *)
Inductive attrib := AQ (k v : str) | AU (k v : str).

Inductive tok :=
| TOpen (tag : str) (ats : list attrib)     (* <tag ...> *)
| TClose (tag : str)                        (* </tag> *)
| TSelf (tag : str) (ats : list attrib)     (* <tag ... /> *)
| TRaw (s : str)                            (* text produced by the translator *)
| TText (i : nat) (s : str).                (* text of the node with identity [i] *)

Definition render_attrib (a : attrib) : str :=
  match a with
  | AQ k v => lit " " ++ k ++ lit "=""" ++ v ++ lit """"
  | AU k v => lit " " ++ k ++ lit "=" ++ v
  end.
Definition render_tok (t : tok) : str :=
  match t with
  | TOpen tag ats => lit "<" ++ tag ++ concat (map render_attrib ats) ++ lit ">"
  | TClose tag => lit "</" ++ tag ++ lit ">"
  | TSelf tag ats => lit "<" ++ tag ++ concat (map render_attrib ats) ++ lit " />"
  | TRaw s => s
  | TText _ s => s
  end.
(** The string that Python's [self.body] holds. *)
Definition render (ts : list tok) : str := concat (map render_tok ts).

Definition raw (s : string) : tok := TRaw (lit s).
Definition nl : tok := TRaw [10%N].

(** translator.py:131-158 [_make_tag].  [kw] are the keyword arguments, of
    which the empty ones are skipped; [nodeid] is [None] when not given. *)
Definition make_tag (tag id_ : str) (classes : list str) (sel : bool) (nodeid : option str)
    (kw : list (str * str)) : tok :=
  TOpen tag
    ((match id_ with [] => [] | _ => [AQ (lit "id") id_] end)
     ++ (match classes with [] => [] | _ => [AQ (lit "class") (join (lit " ") classes)] end)
     ++ flat_map (fun p => match p.2 with [] => [] | _ => [AQ p.1 p.2] end) kw
     ++ (if sel then [AU (lit "tabindex") (lit "0")] else [])
     ++ (match nodeid with Some k => [AQ (lit "data-nodeid") k] | None => [] end)).

(** [list(dict.fromkeys(l))]: duplicates removed, first occurrences kept in order
    (translator.py:359, 1214, 1410). *)
Fixpoint dedup_go (seen : list str) (l : list str) : list str :=
  match l with
  | [] => []
  | x :: r => if str_mem x seen then dedup_go seen r else x :: dedup_go (x :: seen) r
  end.
Definition dedup (l : list str) : list str := dedup_go [] l.

(** A start tag written out in the source as part of a string literal. *)
Definition otag (tag : string) (ats : list (string * string)) : tok :=
  TOpen (lit tag) (map (fun p => AQ (lit p.1) (lit p.2)) ats).
Definition ctag (tag : string) : tok := TClose (lit tag).
