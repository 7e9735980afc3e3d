(** What each node contributes to the HTML: its text, the ids of its elements and the
    destinations of its links. *)
From Verif Require Export SpecHtml Translator.

Inductive mark := MText (i : id) (s : str) | MId (s : str) | MHref (s : str).
Definition attrib_marks (a : attrib) : list mark :=
  match a with AQ k v | AU k v =>
    if str_eqb (lit "id") k then [MId v] else if str_eqb (lit "href") k then [MHref v] else [] end.
Definition tok_marks (t : tok) : list mark :=
  match t with
  | TText i s => [MText i s]
  | TOpen _ ats | TSelf _ ats => flat_map attrib_marks ats
  | _ => []
  end.
(** The marks of the HTML, in order. *)
Definition marks (ts : list tok) : list mark := flat_map tok_marks ts.

(** The value of an attribute; [None] when there is no such node or attribute. *)
Definition aval (h : gmap id node) (i : id) (a : attr) : val :=
  match h !! i with Some n => match n_attrs n !! a with Some v => v | None => VNone end | None => VNone end.
Definition text_of (h : gmap id node) (i : id) : str := match aval h i a_text with VStr s => s | _ => [] end.
(** The id of the element of a node: its label, unless that is empty or [None]. *)
Definition id_mark (l : str) : list mark := match l with [] => [] | _ => [MId l] end.
Definition own_id (h : gmap id node) (i : id) : list mark := id_mark (str_or_empty (aval h i a_label)).
(** A link to a node: "#" and its label. *)
Definition anchor (h : gmap id node) (i : id) : str := fmt_val (aval h i a_label).
Definition link (h : gmap id node) (t : id) : mark := MHref (lit "#" ++ anchor h t).
Fixpoint cite_marks (h : gmap id node) (label : str) (ts : list id) (k : nat) : list mark :=
  match ts with [] => [] | t :: r => [MId (label ++ lit "-" ++ str_of_nat k); link h t] ++ cite_marks h label r (S k) end.

Definition node_marks (hl : str -> str -> str) (h : gmap id node) (i : id) : list mark :=
  match h !! i with
  | None => []
  | Some n =>
      match dispatch visit_defined (n_cls n) with
      | Some CText => [MText i (text_of h i)]
      | Some CError => own_id h i ++ [MText i (text_of h i)]
      | Some CSourceCode =>
          let lang := aval h i a_lang in
          [MText i (if truthy lang then hl (text_of h i) (fmt_val lang) else text_of h i)]
      | Some CReference => match aval h i a_target with VNode t => [link h t] | _ => [] end
      | Some CURL => match aval h i a_target with VStr s => [MHref s] | _ => [] end
      | Some CCite =>
          match aval h i a_targets with
          | VNodes [t] => own_id h i ++ [link h t]
          | VNodes ts => MId (anchor h i) :: cite_marks h (anchor h i) ts 0
          | _ => []
          end
      | Some CAuthor =>
          own_id h i ++ (if truthy (aval h i a_email) then [MHref (lit "mailto:" ++ fmt_val (aval h i a_email))] else [])
      | Some CBibitem =>
          own_id h i
          ++ (if truthy (aval h i a_doi)
              then [MId (anchor h i ++ lit "-doi"); MHref (lit "https://doi.org/" ++ fmt_val (aval h i a_doi))] else [])
          ++ match aval h i a_backlinks with VStrs ls => map (fun l => MHref (lit "#" ++ l)) ls | _ => [] end
      | Some CFigure => own_id h i ++ own_id h i
      | Some CNode | Some CAppendix | Some CCaption | None => []
      | Some _ => own_id h i
      end
  end.
