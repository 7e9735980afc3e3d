(** The object graph: attributes, values, nodes, heap, and the effect monad in
    which all methods of the model are written. *)
From stdpp Require Export gmap.
From Verif Require Export Str Classes.

(** Instance attribute names.  Every attribute assigned in rsm/nodes.py
    ([__init__] methods, lines 161-190 and 979-1560) or by the translator on nodes
    (rsm/translator.py [_must_close_p_tag], [_followed_by_dot]); [AOther] is any other
    name given to [setattr] (nodes.py:845-850, tsparser.py).  Not represented:
    [Code.source] and [CodeBlock.source], which nothing reads. *)
Inductive attr :=
| a_nodeid | a_label | a_types | a_handrail_depth | a_number | a_nonum
| a_reftext_template | a_start_point | a_end_point | a_text | a_asis | a_strong
| a_emphas | a_little | a_insert | a_delete | a_title | a_src
| a_date | a_name | a_affiliation | a_email | a_keywords | a_msc
| a_kind | a_isclaim | a_lang | a_overwrite_reftext | a_target | a_targetlabels
| a_targets | a_goals | a_stars | a_clocks | a_author | a_year
| a_journal | a_volume | a_publisher | a_doi | a_backlinks | a_path
| a_scale | a_icon | a_must_close_p_tag | a_followed_by_dot
| AOther (s : str).

Definition attr_code (a : attr) : nat + str :=
  match a with
  | a_nodeid => inl 0
  | a_label => inl 1
  | a_types => inl 2
  | a_handrail_depth => inl 3
  | a_number => inl 4
  | a_nonum => inl 5
  | a_reftext_template => inl 6
  | a_start_point => inl 7
  | a_end_point => inl 8
  | a_text => inl 9
  | a_asis => inl 10
  | a_strong => inl 11
  | a_emphas => inl 12
  | a_little => inl 13
  | a_insert => inl 14
  | a_delete => inl 15
  | a_title => inl 16
  | a_src => inl 17
  | a_date => inl 18
  | a_name => inl 19
  | a_affiliation => inl 20
  | a_email => inl 21
  | a_keywords => inl 22
  | a_msc => inl 23
  | a_kind => inl 24
  | a_isclaim => inl 25
  | a_lang => inl 26
  | a_overwrite_reftext => inl 27
  | a_target => inl 28
  | a_targetlabels => inl 29
  | a_targets => inl 30
  | a_goals => inl 31
  | a_stars => inl 32
  | a_clocks => inl 33
  | a_author => inl 34
  | a_year => inl 35
  | a_journal => inl 36
  | a_volume => inl 37
  | a_publisher => inl 38
  | a_doi => inl 39
  | a_backlinks => inl 40
  | a_path => inl 41
  | a_scale => inl 42
  | a_icon => inl 43
  | a_must_close_p_tag => inl 44
  | a_followed_by_dot => inl 45
  | AOther s => inr s
  end.
Definition attr_decode (x : nat + str) : option attr :=
  match x with
  | inl 0 => Some a_nodeid
  | inl 1 => Some a_label
  | inl 2 => Some a_types
  | inl 3 => Some a_handrail_depth
  | inl 4 => Some a_number
  | inl 5 => Some a_nonum
  | inl 6 => Some a_reftext_template
  | inl 7 => Some a_start_point
  | inl 8 => Some a_end_point
  | inl 9 => Some a_text
  | inl 10 => Some a_asis
  | inl 11 => Some a_strong
  | inl 12 => Some a_emphas
  | inl 13 => Some a_little
  | inl 14 => Some a_insert
  | inl 15 => Some a_delete
  | inl 16 => Some a_title
  | inl 17 => Some a_src
  | inl 18 => Some a_date
  | inl 19 => Some a_name
  | inl 20 => Some a_affiliation
  | inl 21 => Some a_email
  | inl 22 => Some a_keywords
  | inl 23 => Some a_msc
  | inl 24 => Some a_kind
  | inl 25 => Some a_isclaim
  | inl 26 => Some a_lang
  | inl 27 => Some a_overwrite_reftext
  | inl 28 => Some a_target
  | inl 29 => Some a_targetlabels
  | inl 30 => Some a_targets
  | inl 31 => Some a_goals
  | inl 32 => Some a_stars
  | inl 33 => Some a_clocks
  | inl 34 => Some a_author
  | inl 35 => Some a_year
  | inl 36 => Some a_journal
  | inl 37 => Some a_volume
  | inl 38 => Some a_publisher
  | inl 39 => Some a_doi
  | inl 40 => Some a_backlinks
  | inl 41 => Some a_path
  | inl 42 => Some a_scale
  | inl 43 => Some a_icon
  | inl 44 => Some a_must_close_p_tag
  | inl 45 => Some a_followed_by_dot
  | inl _ => None
  | inr s => Some (AOther s)
  end.
Lemma attr_decode_code a : attr_decode (attr_code a) = Some a.
Proof. destruct a; reflexivity. Qed.
Global Instance attr_code_inj : Inj (=) (=) attr_code.
Proof.
  intros a b H. pose proof (attr_decode_code a) as Ha. pose proof (attr_decode_code b) as Hb.
  rewrite H in Ha. congruence.
Qed.
Global Instance attr_eq_dec : EqDecision attr.
Proof.
  intros a b. destruct (decide (attr_code a = attr_code b)) as [H|H].
  - left. apply (inj attr_code), H.
  - right. intros ->. apply H. reflexivity.
Defined.
Global Instance attr_countable : Countable attr :=
  inj_countable attr_code attr_decode attr_decode_code.

(** Python attribute name of an [attr], and the converse used by [setattr]. *)
Definition attr_name (a : attr) : str :=
  match a with
  | a_nodeid => lit "nodeid"
  | a_label => lit "label"
  | a_types => lit "types"
  | a_handrail_depth => lit "handrail_depth"
  | a_number => lit "number"
  | a_nonum => lit "nonum"
  | a_reftext_template => lit "reftext_template"
  | a_start_point => lit "start_point"
  | a_end_point => lit "end_point"
  | a_text => lit "text"
  | a_asis => lit "asis"
  | a_strong => lit "strong"
  | a_emphas => lit "emphas"
  | a_little => lit "little"
  | a_insert => lit "insert"
  | a_delete => lit "delete"
  | a_title => lit "title"
  | a_src => lit "src"
  | a_date => lit "date"
  | a_name => lit "name"
  | a_affiliation => lit "affiliation"
  | a_email => lit "email"
  | a_keywords => lit "keywords"
  | a_msc => lit "msc"
  | a_kind => lit "kind"
  | a_isclaim => lit "isclaim"
  | a_lang => lit "lang"
  | a_overwrite_reftext => lit "overwrite_reftext"
  | a_target => lit "target"
  | a_targetlabels => lit "targetlabels"
  | a_targets => lit "targets"
  | a_goals => lit "goals"
  | a_stars => lit "stars"
  | a_clocks => lit "clocks"
  | a_author => lit "author"
  | a_year => lit "year"
  | a_journal => lit "journal"
  | a_volume => lit "volume"
  | a_publisher => lit "publisher"
  | a_doi => lit "doi"
  | a_backlinks => lit "backlinks"
  | a_path => lit "path"
  | a_scale => lit "scale"
  | a_icon => lit "icon"
  | a_must_close_p_tag => lit "_must_close_p_tag"
  | a_followed_by_dot => lit "_followed_by_dot"
  | AOther s => s
  end.
Definition known_attrs : list attr :=
  [a_nodeid; a_label; a_types; a_handrail_depth; a_number; a_nonum; a_reftext_template; a_start_point; a_end_point; a_text; a_asis; a_strong; a_emphas; a_little; a_insert; a_delete; a_title; a_src; a_date; a_name; a_affiliation; a_email; a_keywords; a_msc; a_kind; a_isclaim; a_lang; a_overwrite_reftext; a_target; a_targetlabels; a_targets; a_goals; a_stars; a_clocks; a_author; a_year; a_journal; a_volume; a_publisher; a_doi; a_backlinks; a_path; a_scale; a_icon; a_must_close_p_tag; a_followed_by_dot].
Definition attr_of_name (s : str) : attr :=
  match find (fun a => str_eqb (attr_name a) s) known_attrs with
  | Some a => a
  | None => AOther s
  end.

Notation id := nat (only parsing).

(** Values of attributes. *)
Inductive val :=
| VNone
| VBool (b : bool)
| VInt (z : Z)
| VFloat (repr : str)          (* only compared with 1.0 and printed *)
| VStr (s : str)
| VStrs (l : list str)         (* list of str *)
| VNode (i : id)
| VNodes (l : list id)         (* list of nodes *)
| VPoint (row col : Z).        (* tuple of two ints *)

(** [bool(v)]: nodes define neither __bool__ nor __len__, so they are true. *)
Definition truthy (v : val) : bool :=
  match v with
  | VNone => false
  | VBool b => b
  | VInt z => negb (Z.eqb z 0)
  | VFloat r => negb (str_eqb r (lit "0.0"))
  | VStr s => match s with [] => false | _ => true end
  | VStrs l => match l with [] => false | _ => true end
  | VNode _ => true
  | VNodes l => match l with [] => false | _ => true end
  | VPoint _ _ => true
  end.

(** [repr] of a list of strings; quotes and escapes inside the strings are not
    modelled (plain single-quoted items). *)
Definition repr_strs (l : list str) : str :=
  lit "[" ++ join (lit ", ") (map (fun s => lit "'" ++ s ++ lit "'") l) ++ lit "]".

(** [f"{v}"].  Nodes print as their repr, which is outside the model here:
    the code never formats one on the modelled paths. *)
Definition fmt_val (v : val) : str :=
  match v with
  | VNone => lit "None"
  | VBool true => lit "True"
  | VBool false => lit "False"
  | VInt z => str_of_Z z
  | VFloat r => r
  | VStr s => s
  | VStrs l => repr_strs l
  | VNode _ => lit "<node>"
  | VNodes _ => lit "<nodes>"
  | VPoint r c => lit "(" ++ str_of_Z r ++ lit ", " ++ str_of_Z c ++ lit ")"
  end.

Record node := MkNode {
  n_cls : cls;
  n_parent : option id;        (* _parent *)
  n_children : list id;        (* _children; unused for classes without children *)
  n_attrs : gmap attr val
}.

(** nodes.py:404-407 and 871-874: the [children] property. *)
Definition kids (n : node) : list id := if has_children (n_cls n) then n_children n else [].

Definition set_n_parent (p : option id) (n : node) : node :=
  MkNode (n_cls n) p (n_children n) (n_attrs n).
Definition set_n_children (cs : list id) (n : node) : node :=
  MkNode (n_cls n) (n_parent n) cs (n_attrs n).
Definition set_n_attr (a : attr) (v : val) (n : node) : node :=
  MkNode (n_cls n) (n_parent n) (n_children n) (<[a := v]> (n_attrs n)).

(** One record sent to a logger: child logger name, level, message and the
    position passed as [extra]. *)
Record logrec := MkLog {
  lg_name : str;
  lg_level : Z;
  lg_msg : str;
  lg_pos : option (Z * Z)
}.

Record st := MkSt {
  st_heap : gmap id node;
  st_next : id;                (* next fresh identity *)
  st_logs : list logrec        (* oldest first *)
}.

Inductive exn :=
| ENode (msg : str)            (* RSMNodeError *)
| ETransformer (msg : str)     (* RSMTransformerError *)
| ETranslator (msg : str)      (* RSMTranslatorError *)
| EParser (msg : str)          (* RSMParserError *)
| EApplication (msg : str)     (* RSMApplicationError *)
| EAttribute                   (* AttributeError *)
| EType                        (* TypeError *)
| EValue                       (* ValueError *)
| EKey                         (* KeyError *)
| EIndex                       (* IndexError *)
| EAssert                      (* AssertionError *)
| EStopIteration
| EOther (msg : str)           (* any other exception *)
| EUnsupported                 (* outside the model *)
| EDangling                    (* identity without a node: cannot happen in Python *)
| EOutOfFuel.                  (* the model's loop bound was too small *)

Inductive res (A : Type) := Ok (a : A) | Err (e : exn).
Arguments Ok {A} a.
Arguments Err {A} e.

Definition M (A : Type) : Type := st -> st * res A.

Definition ret {A} (a : A) : M A := fun s => (s, Ok a).
Definition raise {A} (e : exn) : M A := fun s => (s, Err e).
Definition bind {A B} (m : M A) (k : A -> M B) : M B := fun s =>
  match m s with
  | (s', Ok a) => k a s'
  | (s', Err e) => (s', Err e)
  end.
Declare Scope monad_scope.
Delimit Scope monad_scope with monad.
Notation "'let!' x ':=' m 'in' k" := (bind m (fun x => k))
  (at level 200, x name, m at level 100, k at level 200, right associativity) : monad_scope.
Notation "'do!' m 'in' k" := (bind m (fun _ => k))
  (at level 200, m at level 100, k at level 200, right associativity) : monad_scope.
Global Open Scope monad_scope.

(** [try m except <p>: h] *)
Definition catch {A} (m : M A) (h : exn -> option (M A)) : M A := fun s =>
  match m s with
  | (s', Ok a) => (s', Ok a)
  | (s', Err e) => match h e with Some m' => m' s' | None => (s', Err e) end
  end.

Fixpoint mapM {A B} (f : A -> M B) (l : list A) : M (list B) :=
  match l with
  | [] => ret []
  | a :: r => let! b := f a in let! bs := mapM f r in ret (b :: bs)
  end.
Fixpoint iterM {A} (f : A -> M unit) (l : list A) : M unit :=
  match l with
  | [] => ret tt
  | a :: r => do! f a in iterM f r
  end.
Fixpoint foldM {A B} (f : B -> A -> M B) (b : B) (l : list A) : M B :=
  match l with
  | [] => ret b
  | a :: r => let! b' := f b a in foldM f b' r
  end.

Definition get_node (i : id) : M node := fun s =>
  match st_heap s !! i with Some n => (s, Ok n) | None => (s, Err EDangling) end.
Definition put_node (i : id) (n : node) : M unit := fun s =>
  (MkSt (<[i := n]> (st_heap s)) (st_next s) (st_logs s), Ok tt).
Definition mod_node (i : id) (f : node -> node) : M unit :=
  let! n := get_node i in put_node i (f n).
(** Object creation: a fresh identity. *)
Definition alloc (n : node) : M id := fun s =>
  (MkSt (<[st_next s := n]> (st_heap s)) (S (st_next s)) (st_logs s), Ok (st_next s)).
Definition log_rec (r : logrec) : M unit := fun s =>
  (MkSt (st_heap s) (st_next s) (st_logs s ++ [r]), Ok tt).

Definition getattr (i : id) (a : attr) : M val :=
  let! n := get_node i in
  match n_attrs n !! a with Some v => ret v | None => raise EAttribute end.
Definition setattr (i : id) (a : attr) (v : val) : M unit := mod_node i (set_n_attr a v).
Definition cls_of (i : id) : M cls := let! n := get_node i in ret (n_cls n).
Definition children_of (i : id) : M (list id) := let! n := get_node i in ret (kids n).
Definition parent_of (i : id) : M (option id) := let! n := get_node i in ret (n_parent n).

(** Typed reads; using a value of another type where Python would fail is
    reported as the error Python raises there (AttributeError for a missing
    method, TypeError for a missing operator). *)
Definition get_str (i : id) (a : attr) : M str :=
  let! v := getattr i a in match v with VStr s => ret s | _ => raise EAttribute end.
Definition get_strs (i : id) (a : attr) : M (list str) :=
  let! v := getattr i a in match v with VStrs l => ret l | _ => raise EAttribute end.
Definition get_int (i : id) (a : attr) : M Z :=
  let! v := getattr i a in match v with VInt z => ret z | _ => raise EType end.

(** Levels of the logging module. *)
Definition DEBUG := 10%Z.
Definition INFO := 20%Z.
Definition LINT := 25%Z.
Definition WARNING := 30%Z.
Definition ERROR := 40%Z.

Definition warn (name : str) (msg : str) : M unit := log_rec (MkLog name WARNING msg None).
Definition info (name : str) (msg : str) : M unit := log_rec (MkLog name INFO msg None).

Definition empty_st : st := MkSt ∅ 0 [].
