(** Reading the HTML text character by character, as a browser does; and which documents have
    no characters that a browser would take for markup. *)
From Verif Require Export SpecHtml.
Local Open Scope string_scope.
Local Open Scope list_scope.
Local Open Scope N_scope.

Definition LT := 60. Definition GT := 62. Definition QUOTE := 34. Definition SLASH := 47. Definition EQUALS := 61.
Definition is_letter (c : char) : bool := ((65 <=? c) && (c <=? 90)) || ((97 <=? c) && (c <=? 122)).
Definition is_blank (c : char) : bool := (c =? 32) || (c =? 10) || (c =? 9) || (c =? 13) || (c =? 12).
(** The characters that make a tag, or a comment, of a [<] before them. *)
Definition opens_tag (c : char) : bool := is_letter c || (c =? SLASH) || (c =? 33) || (c =? 63).

(** ** The reader *)

(** What the reader is in the middle of; words are collected in reverse. *)
Inductive mode :=
| Text                                                         (* outside of tags *)
| Less                                                         (* after [<] *)
| EndName (w : str)                                            (* after [</] *)
| Name (w : str)                                               (* in the name of a start tag *)
| Inside (tag : str) (ats : list attrib)                       (* between attributes *)
| Slash (tag : str) (ats : list attrib)                        (* after [/] *)
| Key (tag : str) (ats : list attrib) (w : str)                (* in the name of an attribute *)
| Equals (tag : str) (ats : list attrib) (k : str)             (* after [=] *)
| Quoted (q : char) (tag : str) (ats : list attrib) (k w : str) (* in a value with quotes *)
| Bare (tag : str) (ats : list attrib) (k w : str).            (* in a value without quotes *)

(** One character: the next mode, and what has been read. *)
Definition step (m : mode) (c : char) : mode * list tok :=
  match m with
  | Text => if c =? LT then (Less, []) else (Text, [TRaw [c]])
  | Less => if c =? SLASH then (EndName [], [])
            else if opens_tag c then (Name [c], [])
            else if c =? LT then (Less, [TRaw [LT]])
            else (Text, [TRaw [LT]; TRaw [c]])
  | EndName w => if c =? GT then (Text, [TClose (rev w)]) else (EndName (c :: w), [])
  | Name w => if c =? GT then (Text, [TOpen (rev w) []])
              else if c =? SLASH then (Slash (rev w) [], [])
              else if is_blank c then (Inside (rev w) [], [])
              else (Name (c :: w), [])
  | Inside tag ats => if c =? GT then (Text, [TOpen tag (rev ats)])
                      else if c =? SLASH then (Slash tag ats, [])
                      else if is_blank c then (Inside tag ats, [])
                      else (Key tag ats [c], [])
  | Slash tag ats => if c =? GT then (Text, [TSelf tag (rev ats)])
                     else if is_blank c then (Inside tag ats, [])
                     else (Key tag ats [c], [])
  | Key tag ats w => if c =? EQUALS then (Equals tag ats (rev w), [])
                     else if c =? GT then (Text, [TOpen tag (rev (AU (rev w) [] :: ats))])
                     else if is_blank c then (Inside tag (AU (rev w) [] :: ats), [])
                     else (Key tag ats (c :: w), [])
  | Equals tag ats k => if (c =? QUOTE) || (c =? 39) then (Quoted c tag ats k [], [])
                        else if c =? GT then (Text, [TOpen tag (rev (AU k [] :: ats))])
                        else (Bare tag ats k [c], [])
  | Quoted q tag ats k w => if c =? q then (Inside tag (AQ k (rev w) :: ats), []) else (Quoted q tag ats k (c :: w), [])
  | Bare tag ats k w => if c =? GT then (Text, [TOpen tag (rev (AU k (rev w) :: ats))])
                        else if is_blank c then (Inside tag (AU k (rev w) :: ats), [])
                        else (Bare tag ats k (c :: w), [])
  end.
Fixpoint read (m : mode) (s : str) : list tok :=
  match s with
  | [] => match m with Less => [TRaw [LT]] | _ => [] end
  | c :: r => let p := step m c in snd p ++ read (fst p) r
  end.
Definition read_html (s : str) : list tok := read Text s.

(** The same tokens, with the texts cut into characters. *)
Definition letters (ts : list tok) : list tok :=
  flat_map (fun t => match t with TRaw s | TText _ s => map (fun c => TRaw [c]) s | _ => [t] end) ts.
(** The characters outside of tags. *)
Definition text_shown (ts : list tok) : str := flat_map (fun t => match t with TRaw s | TText _ s => s | _ => [] end) ts.

(** ** Documents without markup characters *)

Definition lacks (c : char) (s : str) : bool := forallb (fun d => negb (d =? c)) s.
(** No [<] stands before a character that makes a tag of it, nor at the end. *)
Fixpoint harmless (s : str) : bool :=
  match s with
  | [] => true
  | c :: r => (if c =? LT then match r with d :: _ => negb (opens_tag d) | [] => false end else true) && harmless r
  end.

(** The attributes of nodes that are shown as text, and those written in attributes of HTML
    elements.  [src]: the source is shown too. *)
Definition text_attrs (src : bool) : list attr :=
  [a_title; a_name; a_affiliation; a_email; a_keywords; a_msc; a_overwrite_reftext; a_reftext_template; a_number;
   a_author; a_journal; a_publisher; a_year; a_label; a_types; a_nonum] ++ (if src then [a_src] else []).
Definition quoted_attrs : list attr :=
  [a_label; a_types; a_nodeid; a_email; a_lang; a_path; a_scale; a_doi; a_backlinks; a_icon].
(** [hl] is the code highlighter, not part of the program; it writes no tags for the languages used. *)
Record plain_attr (hl : str -> str -> str) (src : bool) (a : attr) (v : val) : Prop := {
  pa_text : a ∈ text_attrs src -> lacks LT (fmt_val v) = true;
  pa_quoted : a ∈ quoted_attrs -> lacks QUOTE (fmt_val v) = true;
  pa_target : a = a_target -> (forall y, v <> VNode y) -> lacks LT (fmt_val v) = true /\ lacks QUOTE (fmt_val v) = true;
  pa_body : forall u, a = a_text -> v = VStr u -> harmless u = true;
  pa_lang : a = a_lang -> truthy v = true -> forall u, harmless u = true -> harmless (hl u (fmt_val v)) = true
}.
(** Numbers are written in attributes too, but not that of an unknown bibliography item. *)
Record plain_node (hl : str -> str -> str) (src : bool) (n : node) : Prop := {
  pn_attr : forall a v, n_attrs n !! a = Some v -> plain_attr hl src a v;
  pn_number : forall v, n_cls n <> CUnknownBibitem -> n_attrs n !! a_number = Some v -> lacks QUOTE (fmt_val v) = true
}.
Definition plain_heap (hl : str -> str -> str) (src : bool) (h : gmap id node) : Prop :=
  forall x n, h !! x = Some n -> plain_node hl src n.

(** The texts [us] occur in [s] one after the other. *)
Fixpoint in_order (us : list str) (s : str) : Prop :=
  match us with
  | [] => True
  | u :: us => exists a b, s = (a ++ u ++ b)%list /\ in_order us b
  end.
