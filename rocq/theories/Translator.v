(** rsm/translator.py: the base [Translator]. *)
From Verif Require Export Html NodeOps.

(** ** Edit commands (translator.py:164-508) *)

(** The arguments common to the tag commands. *)
Record tagspec := MkTag {
  tg_tag : str;
  tg_id : str;
  tg_classes : list str;
  tg_inner : bool;               (* newline_inner *)
  tg_outer : bool;               (* newline_outer *)
  tg_sel : bool;                 (* is_selectable *)
  tg_nodeid : option str;        (* custom_attrs["nodeid"] *)
}.

Inductive cmd :=
| KText (t : list tok)                          (* AppendText, :215-226 *)
| KTextDefer (t d : list tok)                   (* AppendTextAndDefer, :194-212 *)
| KOpenClose (g : tagspec) (content : list tok) (* AppendOpenCloseTag and subclasses, :229-261 *)
| KOpenManual (g : tagspec) (content : list tok)(* AppendOpenTagManualClose, :264-303 *)
| KOpen (g : tagspec)                           (* AppendOpenTag, AppendNodeTag, :306-343, 346-371 *)
| KExternal (root : id)                         (* AppendExternalTree(root), :466-473 *)
| KBatchDefer (items : list cmd)                (* AppendBatchAndDefer, :491-502 *)
| KBatch (items : list cmd).                    (* AppendBatch, :505-508 *)

(** [command.defers] *)
Definition defers (c : cmd) : bool :=
  match c with KTextDefer _ _ | KOpen _ | KBatchDefer _ => true | _ => false end.

Definition nl_if (b : bool) : list tok := if b then [nl] else [].
Definition start_tag (g : tagspec) : tok :=
  make_tag (tg_tag g) (tg_id g) (tg_classes g) (tg_sel g) (tg_nodeid g) [].
(** translator.py:335-340 [AppendOpenTag.make_deferred_text]; also :298-303 [close_command]. *)
Definition close_text (g : tagspec) : list tok :=
  nl_if (tg_inner g) ++ [TClose (tg_tag g)] ++ nl_if (tg_outer g).

(** [make_text] of each command; [ext] translates an external tree. *)
Definition make_text (ext : id -> M (list tok)) (c : cmd) : M (list tok) :=
  match c with
  | KText t => ret t
  | KTextDefer t _ => ret t
  | KOpenClose g content =>                                             (* :252-258 *)
      ret (nl_if (tg_outer g) ++ [start_tag g] ++ nl_if (tg_inner g) ++ content
           ++ nl_if (tg_inner g) ++ [TClose (tg_tag g)] ++ nl_if (tg_outer g))
  | KOpenManual g content =>                                            (* :287-293 *)
      ret (nl_if (tg_outer g) ++ [start_tag g] ++ nl_if (tg_inner g) ++ content)
  | KOpen g =>                                                          (* :327-333 *)
      ret (nl_if (tg_outer g) ++ [start_tag g] ++ nl_if (tg_inner g))
  | KExternal root => ext root
  | KBatchDefer _ | KBatch _ => raise (ETranslator (lit "Why are we here?"))   (* :487-488 *)
  end.
(** [make_deferred_text] of the commands that are [AppendTextAndDefer]. *)
Definition deferred_text (c : cmd) : option (list tok) :=
  match c with
  | KTextDefer _ d => Some d
  | KOpen g => Some (close_text g)
  | _ => None
  end.

(** State of a Translator: [self.body], [self.deferred] (top first). *)
Record tst := MkT { body : list tok; deferred : list cmd }.
Definition emit (t : list tok) (ts : tst) : tst := MkT (body ts ++ t) (deferred ts).
Definition defer (c : cmd) (ts : tst) : tst := MkT (body ts) (c :: deferred ts).

(** translator.py:494-502: the loop of [AppendBatchAndDefer.execute]; returns the closing
    texts in order of appearance. *)
Fixpoint exec_items (ext : id -> M (list tok)) (items : list cmd) (ds : list cmd) (ts : tst)
  : M (list cmd * tst) :=
  match items with
  | [] => ret (ds, ts)
  | c :: r =>
      let ds := match deferred_text c with Some d => ds ++ [KText d] | None => ds end in
      let! t := make_text ext c in
      exec_items ext r ds (emit t ts)
  end.

(** [execute] *)
Fixpoint execute (ext : id -> M (list tok)) (c : cmd) (ts : tst) {struct c} : M tst :=
  match c with
  | KBatchDefer items =>
      let! r := exec_items ext items [] ts in
      ret (defer (KBatch (rev r.1)) r.2)
  | KBatch items =>
      (fix go (l : list cmd) (ts : tst) : M tst :=
         match l with
         | [] => ret ts
         | x :: r => let! ts := execute ext x ts in go r ts
         end) items ts
  | _ =>
      let! t := make_text ext c in
      let ts := emit t ts in
      ret (match deferred_text c with Some d => defer (KText d) ts | None => ts end)
  end.

(** [batch.items]: AttributeError when the command is not a batch. *)
Definition items_of (c : cmd) : M (list cmd) :=
  match c with KBatch l | KBatchDefer l => ret l | _ => raise EAttribute end.
(** [list.insert(-1, x)]: before the last element. *)
Definition insert_before_last {A} (x : A) (l : list A) : list A :=
  match rev l with [] => [x] | y :: r => rev r ++ [x; y] end.
(** [list.insert(k, x)] *)
Definition insert_nth {A} (k : nat) (x : A) (l : list A) : list A := take k l ++ x :: drop k l.

(** ** Constructors of commands *)

Definition open_tag (tag : string) (classes : list str) (inner outer : bool) : cmd :=
  KOpen (MkTag (lit tag) [] classes inner outer false None).
Definition open_close (tag : string) (classes : list str) (inner outer : bool) (content : list tok) : cmd :=
  KOpenClose (MkTag (lit tag) [] classes inner outer false None) content.
Definition open_manual (tag : string) (classes : list str) (inner outer : bool) : cmd :=
  KOpenManual (MkTag (lit tag) [] classes inner outer false None) [].
(** :374-394 [AppendParagraph] *)
Definition par (classes : list str) (content : list tok) : cmd := open_close "p" classes false true content.
(** :397-419 [AppendHeading] *)
Definition heading (level : nat) (content : list tok) : cmd :=
  KOpenClose (MkTag (lit "h" ++ str_of_nat level) [] [] false true false None) content.
(** :446-463 [AppendHalmos] *)
Definition halmos : cmd := open_close "div" [lit "halmos"] false true [].

(** [if v: ... f"{v}"] *)
Definition str_or_empty (v : val) : str := if truthy v then fmt_val v else [].
Definition name_lower (c : cls) : str := lower (cls_name c).

(** :346-371 [AppendNodeTag] *)
Definition node_tag_full (i : id) (tag : string) (additional : list str) (inner outer sel : bool) : M cmd :=
  let! c := cls_of i in
  let! types := get_strs i a_types in
  let! label := getattr i a_label in
  let! nodeid := getattr i a_nodeid in
  ret (KOpen (MkTag (lit tag) (str_or_empty label)
                (dedup ((name_lower c :: types) ++ additional)) inner outer sel
                (match nodeid with VNone => None | v => Some (fmt_val v) end))).
Definition node_tag (i : id) (tag : string) : M cmd := node_tag_full i tag [] true true false.
Definition node_tag_inline (i : id) (tag : string) : M cmd := node_tag_full i tag [] false false false.

(** ** Visit methods *)

Definition logger_tlate : str := lit "RSM.tlate".
Definition fmt_opt (f : option str) : str := match f with Some x => x | None => lit "None" end.

(** nodes.py:199-210, 863-870 [__repr__], used by [visit_node] only. *)
Definition repr_attr (i : id) (a : attr) : M (list str) :=
  let! v := getattr i a in
  match v with
  | VNode _ | VNodes _ => raise EUnsupported
  | _ => ret (if truthy v then [attr_name a ++ lit "=" ++ fmt_val v] else [])
  end.
Definition repr_node (i : id) : M str :=
  let! c := cls_of i in
  let! xs := mapM (repr_attr i) [a_label; a_types; a_nonum; a_number] in
  let! p := parent_of i in
  let! ps := (match p with
              | None => ret [lit "parent=None"]
              | Some q => let! d := cls_of q in ret [lit "parent=" ++ cls_name d]
              end) in
  let! ys := (if subclass c CBaseReference
              then mapM (repr_attr i) [a_target; a_overwrite_reftext] else ret []) in
  let d := join (lit ", ") (concat xs ++ ps ++ concat ys) in
  let! cs := children_of i in
  match cs with
  | [] => ret (cls_name c ++ lit "(" ++ d ++ lit ")")
  | _ => let! names := mapM (fun k => let! e := cls_of k in ret (cls_name e)) cs in
         ret (cls_name c ++ lit "(" ++ d ++ lit ", [" ++ join (lit ", ") names ++ lit "])")
  end.

(** translator.py:579-585 *)
Definition visit_node (i : id) : M cmd :=
  let! r := repr_node i in
  ret (KBatchDefer [open_tag "div" [lit "node-with-no-class"] true true; KText [TRaw (r ++ [10%N])]]).

(** translator.py:596-607 *)
Definition visit_manuscript (i : id) : M cmd :=
  let! nt := node_tag i "div" in
  let! title := getattr i a_title in
  ret (KBatchDefer
         ([open_tag "body" [] true true;
           open_tag "div" [lit "manuscriptwrapper"] true true;
           nt;
           open_tag "section" [lit "level-1"] true true]
          ++ (if truthy title then [heading 1 [TRaw (fmt_val title)]] else []))).

(** translator.py:609-632 *)
Definition visit_author (i : id) : M cmd :=
  let! name := getattr i a_name in
  let! aff := getattr i a_affiliation in
  let! email := getattr i a_email in
  let! nt := node_tag i "div" in
  if truthy name || truthy aff || truthy email then
    let em := if truthy email
              then [make_tag (lit "a") [] [] false None [(lit "href", lit "mailto:" ++ fmt_val email)];
                    TRaw (fmt_val email); ctag "a"]
              else [] in
    ret (KBatchDefer
           ([nt; open_manual "div" [lit "paragraph"] true true]
            ++ (if truthy name then [par [] [TRaw (fmt_val name)]] else [])
            ++ (if truthy aff then [par [] [TRaw (fmt_val aff)]] else [])
            ++ (if truthy email then [par [] em] else [])
            ++ [KText [ctag "div"]]))
  else ret nt.

(** translator.py:634-640 *)
Definition visit_abstract (i : id) : M cmd :=
  let! nt := node_tag i "div" in
  ret (KBatchDefer [nt; heading 3 [raw "Abstract"]]).

(** translator.py:660-706 *)
Definition visit_paragraph (i : id) : M cmd :=
  let! nt := node_tag i "div" in
  let! f := first_of_type i [CMathBlock] in
  let! title := getattr i a_title in
  ret (KBatchDefer
         ([nt;
           match f with
           | Some _ => open_manual "p" [] false true
           | None => open_tag "p" [] false true
           end]
          ++ (if truthy title
              then [open_close "span" [lit "pg-label"] true true [TRaw (fmt_val title ++ lit ".")]]
              else []))).

(** translator.py:708-709 *)
Definition visit_step (i : id) : M cmd := node_tag i "div".

(** translator.py:711-721 *)
Definition visit_section (fuel : nat) (i : id) : M cmd :=
  let! c := cls_of i in
  match level c with
  | None => raise EAttribute
  | Some lv =>
      let! types := get_strs i a_types in
      do! setattr i a_types (VStrs ((lit "level-" ++ str_of_nat lv) :: types)) in
      let! nonum := getattr i a_nonum in
      let! title := getattr i a_title in
      let! h := (if truthy nonum then ret (fmt_val title)
                 else let! f := full_number fuel i in ret (fmt_opt f ++ lit ". " ++ fmt_val title)) in
      let! nt := node_tag i "section" in
      ret (KBatchDefer [nt; heading lv [TRaw h]])
  end.

(** translator.py:732-740 *)
Definition visit_contents (i : id) : M cmd :=
  let! nt := node_tag i "ul" in
  ret (KBatchDefer [open_tag "div" [lit "toc"] true true; heading 3 [raw "Table of Contents"];
                    open_tag "div" [lit "toc-wrapper"] true true; nt]).

(** translator.py:742-759 *)
Definition visit_note (fuel : nat) (i : id) : M cmd :=
  let! f := full_number fuel i in
  let! label := getattr i a_label in
  ret (KBatchDefer
         [open_tag "span" [lit "note"] true true;
          open_close "sup" [lit "note__number"] false true
            [otag "a" [("class"%string, "note__link"%string)]; TRaw (fmt_opt f); ctag "a"];
          KOpen (MkTag (lit "span") (str_or_empty label) [lit "note__content"] false true false None)]).

(** translator.py:761-768 *)
Definition visit_math (i : id) : M cmd :=
  let! nt := node_tag_inline i "span" in
  ret (KBatchDefer [nt; KTextDefer [raw "\("] [raw "\)"]]).

(** translator.py:770-784 *)
Definition visit_mathblock (i : id) : M cmd :=
  let! p := parent_of i in
  let! ok := (match p with None => ret false | Some q => inst [CParagraph] q end) in
  if negb ok then raise EAssert
  else
    let! nt := node_tag i "div" in
    ret (KBatchDefer [KText [ctag "p"]; nt;
                      KTextDefer [TRaw (lit "$$" ++ [10%N])] [TRaw ([10%N] ++ lit "$$")]]).

(** translator.py:815-832; [hl] is [util.highlight_code] (pygments, not modelled). *)
Definition visit_sourcecode (hl : str -> str -> str) (i : id) : M cmd :=
  let! lang := getattr i a_lang in
  let! text := get_str i a_text in
  ret (KBatchDefer
         [open_tag "code" (if truthy lang then [lit "highlight"; fmt_val lang] else []) false false;
          KText [TText i (if truthy lang then hl text (fmt_val lang) else text)]]).

(** translator.py:834-835, 837-843, 845-851 *)
Definition visit_code (i : id) : M cmd := node_tag_full i "span" [] false true false.
Definition visit_codeblock (i : id) : M cmd :=
  let! nt := node_tag i "div" in ret (KBatchDefer [nt; open_tag "pre" [] true true]).
Definition visit_algorithm (i : id) : M cmd :=
  let! label := getattr i a_label in
  ret (KBatchDefer [KOpen (MkTag (lit "div") (str_or_empty label) [lit "algorithm"] true true false None);
                    open_tag "pre" [lit "pseudocode"] true true]).

(** translator.py:853-854, 856-862 *)
Definition visit_text (i : id) : M cmd :=
  let! text := get_str i a_text in ret (KText [TText i text]).
Definition visit_error (i : id) : M cmd :=
  let! nt := node_tag_inline i "span" in
  let! text := get_str i a_text in ret (KBatchDefer [nt; KText [TText i text]]).

(** translator.py:864-877; [Span.attr_to_tag], nodes.py:1005-1011 *)
Definition span_tags : list (attr * string) :=
  [(a_strong, "strong"%string); (a_emphas, "em"%string); (a_little, "small"%string);
   (a_insert, "ins"%string); (a_delete, "del"%string)].
Definition visit_span (i : id) : M cmd :=
  let! nt := node_tag_inline i "span" in
  let! cmds := mapM (fun p => let! v := getattr i p.1 in
                              ret (if truthy v then [open_tag p.2 [] false false] else [])) span_tags in
  ret (KBatchDefer (nt :: concat cmds)).

(** translator.py:879-880 *)
Definition visit_construct (i : id) : M cmd := node_tag_inline i "span".

(** translator.py:882-911 [_make_ahref_tag_text].  The target is a node or, for [URL], a
    string.  [node.types] is mutated. *)
Inductive href_target := HNode (t : id) | HStr (s : str).
Definition make_ahref (fuel : nat) (i : id) (target : href_target) (href id_ : str)
    (additional : list str) : M (list tok) :=
  let! c := cls_of i in
  do! (match target with
       | HStr [] => raise (ETranslator (lit "Found a node without a target"))
       | _ => ret tt
       end) in
  let! n := get_node i in
  let! reftxt := (match n_attrs n !! a_overwrite_reftext with
                  | Some v => if truthy v then ret (fmt_val v)
                              else match target with HNode t => reftext fuel t | HStr s => ret s end
                  | None => match target with HNode t => reftext fuel t | HStr s => ret s end
                  end) in
  let! types := get_strs i a_types in
  let types' := if negb (subclass c CURL) && negb (str_mem (lit "reference") types)
                then lit "reference" :: types else types in
  do! setattr i a_types (VStrs types') in
  ret [make_tag (lit "a") id_ (types' ++ additional) false None [(lit "href", href)];
       TRaw reftxt; ctag "a"].

(** The label of a node, as interpolated in a link. *)
Definition label_text (i : id) : M str := let! l := getattr i a_label in ret (fmt_val l).

(** translator.py:913-916, 918-921 *)
Definition visit_reference (fuel : nat) (i : id) : M cmd :=
  let! t := getattr i a_target in
  match t with
  | VNode t =>
      let! l := label_text t in
      let! x := make_ahref fuel i (HNode t) (lit "#" ++ l) [] [] in ret (KText x)
  | _ => raise EAttribute
  end.
Definition visit_url (fuel : nat) (i : id) : M cmd :=
  let! t := getattr i a_target in
  match t with
  | VStr s => let! x := make_ahref fuel i (HStr s) s [] [] in ret (KText x)
  | VNone => raise (ETranslator (lit "Found a node without a target"))
  | _ => raise EUnsupported
  end.

(** translator.py:926-938 [_make_title_node] *)
Definition make_title_node (label desc : str) : M id :=
  let! para := new_node CParagraph [(a_types, VStrs [lit "hr-label"])] in
  let piece (cl s : str) : M unit :=
    match s with
    | [] => ret tt
    | _ =>
        let! span := new_node CSpan [(a_types, VStrs [cl])] in
        let! t := new_node CText [(a_text, VStr s)] in
        do! append span [t] in
        append para [span]
    end in
  do! piece (lit "label") label in
  do! piece (lit "desc") desc in
  ret para.

(** [str.capitalize] for class names. *)
Definition capitalize (s : str) : str :=
  match s with
  | [] => []
  | c :: r => (if ((97 <=? c) && (c <=? 122))%N then (c - 32)%N else c) :: lower r
  end.

(** translator.py:940-953 *)
Definition visit_theorem (fuel : nat) (i : id) : M cmd :=
  let! c := cls_of i in
  let! nonum := getattr i a_nonum in
  let! number := getattr i a_number in
  let! num := (if negb (truthy nonum) && truthy number
               then let! f := full_number fuel i in ret (lit " " ++ fmt_opt f) else ret []) in
  let! title := getattr i a_title in
  let! t := make_title_node
              (capitalize (name_lower c) ++ num ++ (if truthy title then lit ": " else lit "."))
              (str_or_empty title) in
  let! nt := node_tag_full i "div" [lit "theorem"] true true false in
  ret (KBatchDefer [nt; KExternal t]).

(** translator.py:958-960, 962-969, 971-983 *)
Definition visit_subproof (i : id) : M cmd := let! nt := node_tag i "div" in ret (KBatchDefer [nt]).
Definition visit_sketch (i : id) : M cmd :=
  let! t := make_title_node (lit "Proof sketch.") [] in
  let! nt := node_tag i "div" in ret (KBatchDefer [nt; KExternal t]).
Definition visit_proof (i : id) : M cmd :=
  let! last := last_of_type i [CStep] in
  do! (match last with
       | Some (l, _) => let! ts := get_strs l a_types in
                        setattr l a_types (VStrs (ts ++ [lit "last"]))
       | None => ret tt
       end) in
  let! c := cls_of i in
  let! t := make_title_node (capitalize (name_lower c) ++ lit ".") [] in
  let! nt := node_tag i "div" in
  ret (KBatchDefer [nt; KExternal t]).

(** translator.py:994-1020 *)
Fixpoint cite_tags (fuel : nat) (i : id) (label : str) (ts : list id) (idx : nat) : M (list (list tok)) :=
  match ts with
  | [] => ret []
  | t :: r =>
      let! l := label_text t in
      let! x := make_ahref fuel i (HNode t) (lit "#" ++ l) (label ++ lit "-" ++ str_of_nat idx) [lit "cite"] in
      let! xs := cite_tags fuel i label r (S idx) in
      ret (x :: xs)
  end.
Fixpoint tok_join (sep : list tok) (xs : list (list tok)) : list tok :=
  match xs with [] => [] | [x] => x | x :: r => x ++ sep ++ tok_join sep r end.
Definition visit_cite (fuel : nat) (i : id) : M cmd :=
  let! tv := getattr i a_targets in
  match tv with
  | VNodes [t] =>
      let! tc := cls_of t in
      let! l := label_text t in
      let! id_ := getattr i a_label in
      let! x := make_ahref fuel i (HNode t) (lit "#" ++ l) (str_or_empty id_)
                  (lit "cite" :: (if subclass tc CUnknownBibitem then [lit "unknown"] else [])) in
      ret (KText ([raw "["] ++ x ++ [raw "]"]))
  | VNodes ts =>
      let! label := label_text i in
      let! xs := cite_tags fuel i label ts 0 in
      ret (KText ([raw "["; TOpen (lit "span") [AQ (lit "id") label]] ++ tok_join [raw ", "] xs
                  ++ [ctag "span"; raw "]"]))
  | _ => raise EAttribute
  end.

(** translator.py:1022-1029 *)
Definition visit_bibliography (i : id) : M cmd :=
  let! nt := node_tag i "ol" in
  ret (KBatchDefer [open_tag "section" [lit "level-2"] true true; heading 2 [raw "References"]; nt]).

(** [i.strip(".")] on an item of the entry: AttributeError unless it is a string. *)
Definition strip_dots (v : val) : M str :=
  match v with VStr s => ret (strip_char 46%N s) | _ => raise EAttribute end.
Fixpoint backlink_tags (ls : list str) (idx : nat) : list (list tok) :=
  match ls with
  | [] => []
  | l :: r =>
      [make_tag (lit "a") [] [lit "reference"; lit "backlink"] false None [(lit "href", lit "#" ++ l)];
       TRaw (lit "↖" ++ str_of_nat idx); ctag "a"] :: backlink_tags r (S idx)
  end.
(** translator.py:1031-1077.  The three parts of the text: the entry, the DOI link (empty if
    none) and the list of backlinks (empty if none). *)
Definition bibitem_parts (i : id) : M (list tok * list tok * list tok) :=
  let! author := getattr i a_author in
  let! title := getattr i a_title in
  let! number := getattr i a_number in
  let! kind := getattr i a_kind in
  let! label := label_text i in
  let missing (what : string) := warn logger_tlate (lit "Bibitem " ++ label ++ lit " has no " ++ lit what) in
  let items := [author; VStr (lit """" ++ fmt_val title ++ lit """")] in
  let items := if truthy number then VStr (fmt_val number ++ lit ".") :: items else items in
  let! venue := (if val_eqb kind (VStr (lit "article")) then
                   let! j := getattr i a_journal in
                   if truthy j then ret [j] else do! missing "journal"%string in ret []
                 else if val_eqb kind (VStr (lit "book")) then
                   let! p := getattr i a_publisher in
                   if truthy p then ret [p] else do! missing "publisher"%string in ret []
                 else ret []) in
  let! year := getattr i a_year in
  let! y := (if truthy year then ret [year] else do! missing "year"%string in ret []) in
  let! parts := mapM strip_dots (items ++ venue ++ y) in
  let text := [TRaw (join (lit ". ") parts ++ lit ".")] in
  let! doi := getattr i a_doi in
  let! dt := (if truthy doi then
                ret [make_tag (lit "a") (label ++ lit "-doi") [lit "bibitem-doi"] false None
                       [(lit "href", lit "https://doi.org/" ++ fmt_val doi); (lit "target", lit "_blank")];
                     raw "[link]"; ctag "a"]
              else do! missing "DOI"%string in ret []) in
  let! back := get_strs i a_backlinks in
  ret (text, dt,
       match back with
       | [] => []
       | _ => [TSelf (lit "br") []; raw "["] ++ tok_join [raw ","] (backlink_tags back 1) ++ [raw "]"]
       end).
Definition bibitem_text (p : list tok * list tok * list tok) : list tok :=
  let '(text, dt, back) := p in
  text ++ (match dt with [] => [] | _ => [raw " "] ++ dt end) ++ back.
Definition visit_bibitem (i : id) : M cmd :=
  let! p := bibitem_parts i in
  let! nt := node_tag i "li" in
  ret (KBatchDefer [nt; KText (bibitem_text p)]).

(** translator.py:1079-1082 *)
Definition visit_draft (i : id) : M cmd :=
  let! nt := node_tag i "span" in ret (KBatchDefer [nt; KTextDefer [raw "[ "] [raw " ]"]]).

(** translator.py:1084-1101 *)
Definition is_one (v : val) : bool :=
  match v with VFloat r => str_eqb r (lit "1.0") | VInt z => Z.eqb z 1 | VBool b => b | _ => false end.
Definition visit_figure (fuel : nat) (i : id) : M cmd :=
  let! nt := node_tag i "figure" in
  let! label := getattr i a_label in
  let! path := getattr i a_path in
  let! c := cls_of i in
  let! f := full_number fuel i in
  let! scale := getattr i a_scale in
  ret (KBatchDefer
         [nt;
          KText [make_tag (lit "img") (str_or_empty label) [] false None
                   [(lit "src", str_or_empty path);
                    (lit "alt", cls_name c ++ lit " " ++ fmt_opt f ++ lit ".");
                    (lit "onload", if is_one scale then []
                                   else lit "this.width*=" ++ fmt_val scale ++ lit ";")]]]).

(** translator.py:1103-1119 *)
Definition visit_caption (fuel : nat) (i : id) : M cmd :=
  let! p := parent_of i in
  match p with
  | None => raise EAttribute
  | Some p =>
      let! pc := cls_of p in
      let! f := full_number fuel p in
      ret (KBatchDefer
             [open_tag (if subclass pc CFigure then "figcaption" else "caption")%string [] true true;
              open_close "span" [lit "label"] false false
                [TRaw (cls_name pc ++ lit " " ++ fmt_opt f ++ lit ". ")]])
  end.

(** ** Leave methods *)

(** translator.py:587-594 [leave_node] *)
Definition leave_node (ts : tst) : M (cmd * tst) :=
  match deferred ts with
  | c :: r => ret (c, MkT (body ts) r)
  | [] => raise (ETranslator (lit "Cannot finish translation; did you forget to write a visit_* or leave_* method?"))
  end.

(** translator.py:642-658 *)
Definition leave_abstract (i : id) (ts : tst) : M (cmd * tst) :=
  let! keywords := get_strs i a_keywords in
  let! msc := get_strs i a_msc in
  let! r := leave_node ts in
  ret (KBatch ((match keywords with [] => [] | _ => [par [lit "keywords"] [TRaw (lit "Keywords: " ++ join (lit ", ") keywords)]] end)
               ++ (match msc with [] => [] | _ => [par [lit "msc"] [TRaw (lit "MSC: " ++ join (lit ", ") msc)]] end)
               ++ [r.1]), r.2).

(** translator.py:786-807.  The result of [next_sibling] is a node, hence true, or None. *)
Definition leave_mathblock (i : id) (ts : tst) : M (cmd * tst) :=
  let! r := leave_node ts in
  let! p := parent_of i in
  let! inpar := (match p with None => ret false | Some q => inst [CBaseParagraph] q end) in
  if negb inpar then ret r
  else
    let! nx := next_sibling i SibAny in
    match nx, p with
    | None, _ => ret r
    | Some _, Some q =>
        do! setattr q a_must_close_p_tag (VBool true) in
        let! items := items_of r.1 in
        ret (KBatch (items ++ [KText [otag "p" []]]), r.2)
    | Some _, None => raise EAttribute
    end.

(** [getattr(node, "_flag", False)] *)
Definition flag (i : id) (a : attr) : M bool :=
  let! n := get_node i in
  ret (match n_attrs n !! a with Some v => truthy v | None => false end).

(** translator.py:809-813 *)
Definition leave_paragraph (i : id) (ts : tst) : M (cmd * tst) :=
  let! r := leave_node ts in
  let! m := flag i a_must_close_p_tag in
  if m then
    let! items := items_of r.1 in ret (KBatch (KText [ctag "p"] :: items), r.2)
  else ret r.

(** translator.py:985-992 *)
Definition leave_proof (ts : tst) : M (cmd * tst) :=
  let! r := leave_node ts in
  let! items := items_of r.1 in
  ret (KBatch (insert_before_last halmos items), r.2).

(** ** Dispatch (:535-544 [get_action_method]) *)

(** Classes [C] for which [Translator] defines [visit_c] / [leave_c]. *)
Definition visit_defined : list cls :=
  [CNode; CManuscript; CAuthor; CAbstract; CParagraph; CStep; CSection; CEnumerate; CItemize;
   CItem; CContents; CNote; CMath; CMathBlock; CSourceCode; CCode; CCodeBlock; CAlgorithm;
   CText; CError; CSpan; CConstruct; CReference; CURL; CClaimBlock; CTheorem; CStatement;
   CSubproof; CSketch; CProof; CCite; CBibliography; CBibitem; CDraft; CFigure; CCaption;
   CAppendix; CTable; CTableHead; CTableBody; CTableRow; CTableDatum].
Definition leave_defined : list cls := [CNode; CAbstract; CMathBlock; CParagraph; CProof].

(** The [while not hasattr(...)] loop over [__bases__[0]].  [None] would be an
    AttributeError on [object]; it cannot happen since [Node] has both methods. *)
Definition dispatch (defined : list cls) (c : cls) : option cls :=
  find (fun d => cls_mem d defined) (chain c).

(** The base methods by the class they are named after. *)
Definition visit_method (hl : str -> str -> str) (fuel : nat) (m : cls) (i : id) : M cmd :=
  match m with
  | CManuscript => visit_manuscript i
  | CAuthor => visit_author i
  | CAbstract => visit_abstract i
  | CParagraph => visit_paragraph i
  | CStep => visit_step i
  | CSection => visit_section fuel i
  | CEnumerate => node_tag i "ol"                    (* :723-724 *)
  | CItemize => node_tag i "ul"                      (* :726-727 *)
  | CItem => node_tag i "li"                         (* :729-730 *)
  | CContents => visit_contents i
  | CNote => visit_note fuel i
  | CMath => visit_math i
  | CMathBlock => visit_mathblock i
  | CSourceCode => visit_sourcecode hl i
  | CCode => visit_code i
  | CCodeBlock => visit_codeblock i
  | CAlgorithm => visit_algorithm i
  | CText => visit_text i
  | CError => visit_error i
  | CSpan => visit_span i
  | CConstruct => visit_construct i
  | CReference => visit_reference fuel i
  | CURL => visit_url fuel i
  | CClaimBlock => node_tag i "div"                  (* :923-924 *)
  | CTheorem => visit_theorem fuel i
  | CStatement => node_tag i "div"                   (* :955-956 *)
  | CSubproof => visit_subproof i
  | CSketch => visit_sketch i
  | CProof => visit_proof i
  | CCite => visit_cite fuel i
  | CBibliography => visit_bibliography i
  | CBibitem => visit_bibitem i
  | CDraft => visit_draft i
  | CFigure => visit_figure fuel i
  | CCaption => visit_caption fuel i
  | CAppendix => ret (KText [])                      (* :1121-1124 *)
  | CTable => node_tag i "table"                     (* :1126-1139 *)
  | CTableHead => node_tag i "thead"
  | CTableBody => node_tag i "tbody"
  | CTableRow => node_tag i "tr"
  | CTableDatum => node_tag_full i "td" [] false true false
  | _ => visit_node i
  end.
Definition leave_method (m : cls) (i : id) (ts : tst) : M (cmd * tst) :=
  match m with
  | CAbstract => leave_abstract i ts
  | CMathBlock => leave_mathblock i ts
  | CParagraph => leave_paragraph i ts
  | CProof => leave_proof ts
  | _ => leave_node ts
  end.

(** ** The loop (:552-577 [translate]) *)

(** A translator class: its two families of methods. *)
Record tclass := MkTC {
  tc_visit : nat -> id -> M cmd;
  tc_leave : nat -> id -> tst -> M (cmd * tst)
}.
Definition base_visit (hl : str -> str -> str) (fuel : nat) (i : id) : M cmd :=
  let! c := cls_of i in
  match dispatch visit_defined c with
  | Some m => visit_method hl fuel m i
  | None => raise EAttribute
  end.
Definition base_leave (fuel : nat) (i : id) (ts : tst) : M (cmd * tst) :=
  let! c := cls_of i in
  match dispatch leave_defined c with
  | Some m => leave_method m i ts
  | None => raise EAttribute
  end.
Definition base_tc (hl : str -> str -> str) : tclass := MkTC (base_visit hl) base_leave.

Inductive action := Visit (i : id) | Leave (i : id).

(** One iteration consumes one unit of fuel; [ext] translates external trees. *)
Fixpoint tr_loop (tc : tclass) (ext : id -> M (list tok)) (fuel0 fuel : nat) (stack : list action)
    (ts : tst) : M tst :=
  match stack with
  | [] => ret ts
  | a :: rest =>
      match fuel with
      | 0 => raise EOutOfFuel
      | S fuel =>
          match a with
          | Visit i =>
              let! c := tc_visit tc fuel0 i in
              let! cs := children_of i in
              let! ts := execute ext c ts in
              tr_loop tc ext fuel0 fuel (map Visit cs ++ (if defers c then [Leave i] else []) ++ rest) ts
          | Leave i =>
              let! r := tc_leave tc fuel0 i ts in
              let! ts := execute ext r.1 r.2 in
              tr_loop tc ext fuel0 fuel rest ts
          end
      end
  end.

(** [Translator(...).translate(tree)] on a new translator object. *)
Definition run_translator (tc : tclass) (ext : id -> M (list tok)) (fuel : nat) (tree : id) : M (list tok) :=
  let! ts := tr_loop tc ext fuel fuel [Visit tree] (MkT [] []) in
  match deferred ts with
  | [] => ret (body ts)
  | _ => raise (ETranslator (lit "Something went wrong"))
  end.

(** External trees are translated by a base translator, which may itself meet
    external trees: recursion on [depth]. *)
Fixpoint translate_ext (hl : str -> str -> str) (depth fuel : nat) (tree : id) : M (list tok) :=
  match depth with
  | 0 => raise EOutOfFuel
  | S depth => run_translator (base_tc hl) (translate_ext hl depth fuel) fuel tree
  end.
Definition translate (hl : str -> str -> str) (fuel : nat) (tree : id) : M (list tok) :=
  do! info logger_tlate (lit "Translating...") in
  run_translator (base_tc hl) (translate_ext hl fuel fuel) fuel tree.
