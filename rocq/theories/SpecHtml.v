(** What well nested HTML is, and what the HTML shows, independently of the translators. *)
From Verif Require Export Html Spec.

(** Elements without end tag (HTML standard, section "Void elements"). *)
Definition void_tags : list str :=
  map lit ["area"; "base"; "br"; "col"; "embed"; "hr"; "img"; "input"; "link"; "meta"; "source"; "track"; "wbr"]%string.

(** Well nested: a sequence of texts, self-closed or void elements, and elements whose
    content is well nested. *)
Inductive nested : list tok -> Prop :=
| nest_nil : nested []
| nest_raw s : nested [TRaw s]
| nest_text i s : nested [TText i s]
| nest_self tag ats : nested [TSelf tag ats]
| nest_void tag ats : In tag void_tags -> nested [TOpen tag ats]
| nest_elem tag ats ts : ~ In tag void_tags -> nested ts -> nested (TOpen tag ats :: ts ++ [TClose tag])
| nest_app a b : nested a -> nested b -> nested (a ++ b).

(** The texts of nodes shown by the HTML, in order. *)
Definition shown (ts : list tok) : list (id * str) :=
  omap (fun t => match t with TText i s => Some (i, s) | _ => None end) ts.
(** The attributes of the elements, in order. *)
Definition all_attribs (ts : list tok) : list attrib :=
  flat_map (fun t => match t with TOpen _ ats | TSelf _ ats => ats | _ => [] end) ts.
Definition values_of (k : str) (l : list attrib) : list str :=
  omap (fun a => match a with AQ k' v | AU k' v => if str_eqb k k' then Some v else None end) l.
(** The ids of the elements, and the destinations of the links. *)
Definition ids (ts : list tok) : list str := values_of (lit "id") (all_attribs ts).
Definition hrefs (ts : list tok) : list str := values_of (lit "href") (all_attribs ts).
