(** Specification of the second half of the parser, the normalisation of texts, as a function on
    manuscripts without identities. *)
From Verif Require Export SpecParse.
Local Open Scope string_scope.
Local Open Scope list_scope.

Definition text_node (t : atree) : bool := subclass (a_class t) CText.
Definition text_of (t : atree) : str := match a_attrs t !! a_text with Some (VStr s) => s | _ => [] end.
Definition retext (f : str -> str) (t : atree) : atree := match t with A c m ts => A c (<[a_text := VStr (f (text_of t))]> m) ts end.
Definition if_text (f : atree -> atree) (t : atree) : atree := if text_node t then f t else t.
Definition space : atree := A CText (mk_attrs CText [(a_text, VStr (lit " "))]) [].

(** Adjacent texts become one, in the place of the first; [cur] is the run being read, reversed. *)
Definition joined (run : list atree) : list atree :=
  match run with
  | [] => []
  | [t] => [t]
  | t :: rest =>
      [retext (fun s => merged_text s (map text_of (removelast rest)) (text_of (List.last rest t))) t]
  end.
Fixpoint merge_texts (cur : list atree) (ts : list atree) : list atree :=
  match ts with
  | [] => joined (rev cur)
  | t :: r => if text_node t then merge_texts (t :: cur) r else joined (rev cur) ++ t :: merge_texts [] r
  end.
(** The text at the start loses the white space before it, that at the end the white space after. *)
Definition at_start (f : atree -> atree) (ts : list atree) : list atree :=
  match ts with [] => [] | t :: r => if_text f t :: r end.
Definition at_end (f : atree -> atree) (ts : list atree) : list atree := rev (at_start f (rev ts)).
(** A construct starts with its keyword, and a space before a text or a formula. *)
Definition keyword (w : str) : atree := A CKeyword (mk_attrs CKeyword []) [A CText (mk_attrs CText [(a_text, VStr w)]) []].
Definition opened (ts : list atree) : list atree :=
  match at_start (retext (fun s => lit " " ++ s)) ts with
  | [] => []
  | t :: r => (if subclass (a_class t) CMath then [space] else []) ++ t :: r
  end.
Definition prefixed (c : cls) (m : gmap attr val) (ts : list atree) : list atree :=
  if subclass c CConstruct then keyword (default [] (keyword_of (default VNone (m !! a_kind)))) :: opened ts else ts.
Definition local (c : cls) (m : gmap attr val) (ts : list atree) : list atree :=
  map (if_text (retext squeeze)) (prefixed c m (at_end (retext rstrip) (at_start (retext lstrip) (merge_texts [] ts)))).

(** Escaped characters. *)
Definition unescape_title (m : gmap attr val) : gmap attr val :=
  <[a_title := VStr (unescape (fmt_val (default VNone (m !! a_title))))]> m.
Definition own_title (c : cls) (m : gmap attr val) : gmap attr val :=
  let m := if subclass c CSection then unescape_title m else m in
  if subclass c CManuscript then unescape_title m else m.
Definition verbatim_text (t : atree) : bool := match a_attrs t !! a_asis with Some v => truthy v | None => false end.
Definition readable (t : atree) : atree := if text_node t && negb (verbatim_text t) then retext unescape t else t.
(** Two of the spaced classes side by side are set apart. *)
Definition spaced_class (t : atree) : bool := cls_mem (a_class t) spaced_classes.
Fixpoint set_apart (ts : list atree) : list atree :=
  match ts with
  | [] => []
  | t :: r =>
      t :: match r with u :: _ => if spaced_class t && spaced_class u then [space] else [] | [] => [] end ++ set_apart r
  end.
Fixpoint norm (t : atree) : atree :=
  match t with
  | A c m ts =>
      A c (own_title c m)
        (set_apart (map readable (local c m (map (fun u => if text_node u then u else norm u) ts))))
  end.

(** Texts have nothing below them. *)
Fixpoint leafy (t : atree) : Prop :=
  match t with A c m ts => (subclass c CText = true -> ts = []) /\ fold_right and True (map leafy ts) end.
