(** rsm/translator.py: [HandrailsTranslator]. *)
From Verif Require Export Translator.
Local Open Scope string_scope.
Local Open Scope list_scope.

(** Three-valued options of the menu: [False], [True], ["disabled"]. *)
Inductive tri := Off | On | Disabled.
Definition tri_on (t : tri) : bool := match t with Off => false | _ => true end.
Definition tri_dis (t : tri) : bool := match t with Disabled => true | _ => false end.

Definition div_classes (cl : string) (ts : list tok) : list tok :=
  [otag "div" [("class", cl)]] ++ ts ++ [ctag "div"].
Definition zone (cl : string) (content : list tok) : cmd := open_close "div" [lit cl] true true content.
(** A newline followed by [n] spaces. *)
Definition nls (n : nat) : tok := TRaw (10%N :: repeat 32%N n).

(** [_hr] *)
(* translator.py:1207-1219 *)
Definition hr_tag (depth : Z) (classes : list str) : tagspec :=
  MkTag (lit "div") [] (dedup (classes ++ [lit "hr"] ++ (if (0 <? depth)%Z then [lit "hr-offset"] else [])))
    true true true None.
(** [_hr_collapse_zone] *)
(* translator.py:1221-1235 *)
Definition hr_collapse_zone (collapsible : bool) : cmd :=
  zone "hr-collapse-zone"
    (if collapsible
     then [nls 12] ++ div_classes "hr-collapse" ([nls 14] ++ div_classes "icon collapse" [nls 14] ++ [nls 12]) ++ [nl]
     else div_classes "hr-spacer" []).
Definition span_classes (cl : string) (ts : list tok) : list tok :=
  [otag "span" [("class", cl)]] ++ ts ++ [ctag "span"].
(** [_hr_menu_label] *)
(* translator.py:1237-1241 *)
Definition hr_menu_label (label : str) : list tok :=
  [nls 2] ++ div_classes "hr-menu-label" ([nls 4] ++ span_classes "hr-menu-item-text" [TRaw label] ++ [nls 2]).
(** [_make_menu_item]; [classes] is written already joined. *)
(* translator.py:1243-1253 *)
Definition menu_item (classes icon text : string) : list tok :=
  [nls 2] ++ div_classes (String.append "hr-menu-item" classes)
    ([nls 4] ++ span_classes (String.append "icon " icon) [nls 4]
     ++ [nls 4] ++ span_classes "hr-menu-item-text" [raw text] ++ [nls 2]).
Definition dis (t : tri) : string := if tri_dis t then " disabled" else "".
(** [_hr_menu_sep] *)
(* translator.py:1255-1256 *)
Definition hr_menu_sep : list tok := [nl; nls 2] ++ div_classes "hr-menu-separator" [].
(** [_hr_menu_zone] with [tree=True, code=True].  [middle] starts with a newline
    in all cases, which is then dropped. *)
(* translator.py:1280-1325 *)
Definition hr_menu_zone (label : str) (collapse collapse_all link : tri) : cmd :=
  let middle :=
    (match label with [] => [] | _ => [nl] ++ hr_menu_label label ++ hr_menu_sep end)
    ++ (if tri_on collapse then [nl] ++ menu_item (String.append " collapse-subproof" (dis collapse)) "collapse" "Collapse" else [])
    ++ (if tri_on collapse_all then [nl] ++ menu_item (String.append " collapse-steps" (dis collapse_all)) "collapse-all" "Collapse all" else [])
    ++ (if tri_on collapse || tri_on collapse_all then hr_menu_sep else [])
    ++ (if tri_on link then [nl] ++ menu_item (String.append " link" (dis link)) "link" "Copy link" else [])
    ++ [nl] ++ menu_item "" "tree" "Tree"
    ++ [nl] ++ menu_item "" "code" "Source" in
  zone "hr-menu-zone"
    ([nl; otag "div" [("class", "hr-menu")]] ++ [nl] ++ tail middle ++ [nl] ++ [nl; ctag "div"; nl]).
(* translator.py:1327-1328 *)
Definition hr_menu_zone_empty : cmd := zone "hr-menu-zone" [].
(** [_hr_border_zone], [_hr_border_zone_empty], [_hr_spacer_zone] *)
(* translator.py:1330-1342 *)
Definition hr_border_zone : cmd :=
  zone "hr-border-zone"
    ([nls 16] ++ div_classes "hr-border-dots" ([nls 18] ++ div_classes "icon dots" [nls 18] ++ [nls 16])
     ++ [nls 16] ++ div_classes "hr-border-rect" [nls 16] ++ [nl]).
(* translator.py:1344-1349 *)
Definition hr_border_zone_empty : cmd := zone "hr-border-zone" (div_classes "hr-border-rect" []).
(* translator.py:1351-1356 *)
Definition hr_spacer_zone : cmd := zone "hr-spacer-zone" (div_classes "hr-spacer" []).
(* translator.py:1358-1363 *)
Definition hr_content_tag : tagspec := MkTag (lit "div") [] [lit "hr-content-zone"] true true false None.
(** [_hr_info_zone_icon]; [None] is Python's None. *)
(* translator.py:1365-1378 *)
Definition info_icon (icon : str) : list tok :=
  [TOpen (lit "div") [AQ (lit "class") (lit "icon " ++ icon)%list]; nls 16; ctag "div"].
(* translator.py:1365-1378 *)
Definition hr_info_zone_icon (icon : option str) : cmd :=
  zone "hr-info-zone"
    (div_classes "hr-info"
       (match icon with None => [] | Some ic => [nls 16] ++ info_icon ic ++ [nls 16] end)).
Inductive info_style := SEqn | SStep.
(** [_hr_info_zone_number] *)
(* translator.py:1380-1395 *)
Definition hr_info_zone_number (number : option str) (style : info_style) : cmd :=
  zone "hr-info-zone"
    (div_classes "hr-info"
       (match number with
        | None => []
        | Some x =>
            match style with
            | SStep => div_classes "step-number" [otag "p" []; TRaw (lit "⟨" ++ x ++ lit "⟩")%list; ctag "p"]
            | SEqn => div_classes "eqn-number" [otag "p" []; TRaw (lit "(" ++ x ++ lit ")")%list; ctag "p"]
            end
        end)).

Definition depth_of (i : id) : M Z := get_int i a_handrail_depth.

(** [_hr_from_node] *)
(* translator.py:1397-1413 *)
Definition hr_from_node (i : id) (additional : list str) (sel : bool) : M cmd :=
  let! types := get_strs i a_types in
  let! d := depth_of i in
  node_tag_full i "div"
    (dedup (types ++ [lit "hr"] ++ (if (d =? 2)%Z then [lit "hr-hidden"] else [])
            ++ (if (0 <? d)%Z then [lit "hr-offset"] else []) ++ additional)%list) true true sel.

Definition link_of (i : id) : M tri :=
  let! l := getattr i a_label in ret (if truthy l then On else Disabled).

(** [_replace_node_with_handrails]; [menu_label = None] stands for an empty
    argument, replaced by [node.reftext]. *)
(* translator.py:1415-1440 *)
Definition replace_node_with_handrails (fuel : nat) (i : id) (additional : list str)
    (menu_label : str) (collapse_in_hr : bool) (collapse_all : tri) : M (list cmd) :=
  let! handrail := hr_from_node i additional true in
  let! label := (match menu_label with [] => reftext fuel i | _ => ret menu_label end) in
  let! link := link_of i in
  ret [handrail; hr_collapse_zone collapse_in_hr; hr_menu_zone label Off collapse_all link;
       hr_border_zone; hr_spacer_zone; KOpen hr_content_tag].

(** [_subproof_handrails] *)
(* translator.py:1442-1451 *)
Definition subproof_handrails (i : id) : M (list cmd) :=
  let! handrail := hr_from_node i [lit "hr-shift-1"] false in
  ret [handrail; hr_collapse_zone false; hr_menu_zone_empty; hr_border_zone_empty;
       hr_spacer_zone; KOpen hr_content_tag].

(** [_step_handrails] *)
(* translator.py:1453-1479 *)
Definition step_handrails (fuel : nat) (i : id) : M (list cmd) :=
  let! sub := first_of_type i [CSubproof] in
  let! link := link_of i in
  let! label := reftext fuel i in
  let! menu := (match sub with
                | None => ret (hr_menu_zone label Disabled Disabled link)
                | Some (s, _) =>
                    let! st := first_of_type s [CStep] in
                    match st with
                    | None => ret (hr_menu_zone label On Disabled link)
                    | Some _ => ret (hr_menu_zone label On On link)
                    end
                end) in
  let! handrail := hr_from_node i [] true in
  ret [handrail; hr_collapse_zone false; menu; hr_border_zone; hr_spacer_zone; KOpen hr_content_tag].

(** [_wrap_item_with_handrails] with [include_content=False]; IndexError when
    there is no such item. *)
(* translator.py:1481-1520 *)
Definition wrap_item (index : nat) (items : list cmd) (classes : list str) (icon : option str)
    (collapse_in_hr : bool) (menu_label : str) (link : tri) : M (list cmd) :=
  let g := hr_tag 0 classes in
  match items !! index with
  | None => raise EIndex
  | Some x =>
      ret (take index items
           ++ [KOpenManual g []; hr_collapse_zone collapse_in_hr; hr_menu_zone menu_label Off Off link;
               hr_border_zone; hr_spacer_zone; KOpenManual hr_content_tag []; x;
               KText (close_text hr_content_tag); hr_info_zone_icon icon; KText (close_text g)]
           ++ drop (S index) items)%list
  end.

(** [_make_source_div]: [self.tree.src] *)
(* translator.py:1571-1572 *)
Definition source_div (root : id) : M cmd :=
  let! n := get_node root in
  match n_attrs n !! a_src with
  | None => raise EAttribute
  | Some v => ret (KText (div_classes "rsm-source hide" [TRaw (fmt_val v)]))
  end.

(** [_make_minimap] *)
(* translator.py:1574-1622 *)
Definition radius (c : cls) : option nat :=
  match c with CSection => Some 8 | CSubsection => Some 6 | CSubsubsection => Some 4 | _ => None end.
Definition sn (n : nat) : str := str_of_nat n.
(* translator.py:1574-1622 *)
Definition circle (id_ : option str) (cy r : nat) (fill : bool) : tok :=
  TSelf (lit "circle")
    ((match id_ with None => [] | Some x => [AQ (lit "id") x] end)
     ++ [AQ (lit "cx") (lit "16"); AQ (lit "cy") (sn cy); AQ (lit "r") (sn r)]
     ++ (if fill then [AQ (lit "fill") (lit "#FCFEFF")] else [])
     ++ [AQ (lit "data-pos") (sn cy)])%list.
(** The strings of [circles] for one reference. *)
(* translator.py:1574-1622 *)
Definition minimap_circles (with_ids : bool) (num : nat) (ref : id) : M (list (list tok)) :=
  let cy := 20 + 32 * num in
  let! t := getattr ref a_target in
  match t with
  | VNode t =>
      let! c := cls_of t in
      match radius c with
      | None => raise EKey
      | Some r =>
          let! l := label_text t in
          ret (if with_ids
               then [[TOpen (lit "a") [AQ (lit "href") (lit "#" ++ l)%list; AQ (lit "class") (lit "reference");
                                       AQ (lit "tabindex") (lit "-1")];
                      circle (Some (lit "mm-" ++ l)%list) cy r false];
                     [circle None cy (r - 4) true; ctag "a"]]
               else [[circle None cy r false]; [circle None cy (r - 4) true]])
      end
  | _ => raise EKey
  end.
Definition aq (k v : string) : attrib := AQ (lit k) (lit v).
(* translator.py:1574-1622 *)
Definition svg_start (follow : string) (height : nat) : list tok :=
  let pg := String.append "purple-green-" follow in
  [nls 8;
   TOpen (lit "svg") [aq "xmlns" "http://www.w3.org/2000/svg"; AQ (lit "viewBox") (lit "0 0 32 " ++ sn height)%list;
                      aq "fill" "#3C4952"; aq "preserveAspectRatio" "xMinYMid meet"; aq "stroke-width" "0"];
   nls 10; otag "defs" []; nl; nls 12;
   otag "linearGradient" [("id", pg); ("x1", "0%"); ("x2", "0%"); ("y1", "0%"); ("y2", "100%");
                          ("gradientUnits", "userSpaceOnUse")];
   nls 14; TSelf (lit "stop") [aq "offset" "0%"; aq "stop-color" "#AD71F2"];
   nls 14; TSelf (lit "stop") [aq "id" (String.append "stop-follow-" (String.append follow "-1")); aq "offset" "100%"; aq "stop-color" "#1FB5A2"];
   nls 14; TSelf (lit "stop") [aq "id" (String.append "stop-follow-" (String.append follow "-2")); aq "offset" "100%"; aq "stop-color" "#DAE1E5"];
   nls 14; TSelf (lit "stop") [aq "offset" "100%"; aq "stop-color" "#DAE1E5"];
   nls 12; ctag "linearGradient"; nl; nls 12;
   otag "mask" [("id", "gradient-mask")];
   nls 14; TSelf (lit "rect") [aq "width" "100%"; aq "height" "100%"; aq "fill" (String.append "url(#" (String.append pg ")"))];
   nls 12; ctag "mask"; nl; nls 10; ctag "defs"; nl; nls 10;
   otag "g" [("fill", String.append "url(#" (String.append pg ")"))];
   nls 12; TSelf (lit "rect") [aq "x" "14"; aq "y" "24"; aq "width" "4"; AQ (lit "height") (sn (height - 48))];
   nls 4].
(* translator.py:1574-1622 *)
Fixpoint minimap_all (with_ids : bool) (num : nat) (refs : list id) : M (list (list tok)) :=
  match refs with
  | [] => ret []
  | r :: rs =>
      let! x := minimap_circles with_ids num r in
      let! xs := minimap_all with_ids (S num) rs in
      ret (x ++ xs)%list
  end.
(** The [items] of the returned batch.  The loop does not modify the tree, so
    collecting the references first is the same as the generator. *)
(* translator.py:1574-1622 *)
Definition make_minimap (fuel : nat) (node : id) (follow : string) (with_ids : bool) : M (list cmd) :=
  let! refs := traverse fuel (cond_class CReference) node in
  let! circles := minimap_all with_ids 0 refs in
  let height := Nat.max (length refs * 32 + 8) 48 in
  let g := MkTag (lit "div") [] [lit "minimap"] true true false None in
  ret [KOpenManual g [];
       KText (svg_start follow height ++ tok_join [nls 4] circles ++ [ctag "g"; nl; ctag "svg"])%list;
       KText (close_text g)].

(** [getattr(node, "icon", None)] *)
Definition icon_of (i : id) : M (option str) :=
  let! n := get_node i in
  ret (match n_attrs n !! a_icon with Some VNone | None => None | Some v => Some (fmt_val v) end).

(** [batch.items[0].classes] and its updates. *)
Definition map_first_classes (f : list str -> list str) (items : list cmd) : list cmd :=
  match items with
  | KOpen g :: r =>
      KOpen (MkTag (tg_tag g) (tg_id g) (f (tg_classes g)) (tg_inner g) (tg_outer g) (tg_sel g) (tg_nodeid g)) :: r
  | _ => items
  end.
(** [list.remove(x)], ignoring ValueError. *)
Fixpoint remove_first (x : str) (l : list str) : list str :=
  match l with [] => [] | y :: r => if str_eqb x y then r else y :: remove_first x r end.

(** ** Overriding methods *)

(* translator.py:1624-1640 *)
Definition hv_manuscript (add_source : bool) (root : id) (fuel : nat) (i : id) : M cmd :=
  let! c := visit_manuscript i in
  let! items := items_of c in
  let! title := getattr i a_title in
  let! items := (if truthy title
                 then wrap_item 4 items [lit "heading"] None true (lit "Title") On else ret items) in
  let! items := (if add_source then let! d := source_div root in ret (insert_nth 2 d items) else ret items) in
  let! toc := first_of_type i [CContents] in
  match toc with
  | None => ret (KBatchDefer items)
  | Some (t, _) =>
      let! mm := make_minimap fuel t "scroll" true in
      ret (KBatchDefer (take 3 items ++ [KText [otag "div" [("class", "float-minimap-wrapper")]]]
                        ++ mm ++ [KText [ctag "div"]] ++ drop 3 items)%list)
  end.

(** [batch.items[2:-1]] *)
(* translator.py:1642-1648 *)
Definition hv_author (fuel : nat) (i : id) : M cmd :=
  let! c := visit_author i in
  let! hr := replace_node_with_handrails fuel i [lit "hr-hidden"] [] false Off in
  let! items := items_of c in
  ret (KBatchDefer (hr ++ drop 2 (removelast items))%list).

(** [visit_section], [visit_abstract], [visit_contents], [visit_bibliography]:
    wrap the heading, with the node's reference text as menu label. *)
Definition wrap_heading (fuel : nat) (i : id) (icon : option str) (items : list cmd) : M (list cmd) :=
  let! label := reftext fuel i in
  let! link := link_of i in
  wrap_item 1 items [lit "heading"] icon true label link.
(* translator.py:1655-1664 *)
Definition hv_section (fuel : nat) (i : id) : M cmd :=
  let! c := visit_section fuel i in
  let! items := items_of c in
  let! icon := icon_of i in
  let! items := wrap_heading fuel i icon items in ret (KBatchDefer items).
(* translator.py:1666-1674 *)
Definition hv_abstract (fuel : nat) (i : id) : M cmd :=
  let! c := visit_abstract i in
  let! items := items_of c in
  let! items := wrap_heading fuel i None items in ret (KBatchDefer items).
(* translator.py:1676-1690 *)
Definition hv_contents (fuel : nat) (i : id) : M cmd :=
  let! c := visit_contents i in
  let! items := items_of c in
  let! items := wrap_heading fuel i None items in
  let! mm := make_minimap fuel i "mouse" false in
  ret (KBatchDefer (removelast items ++ mm ++ match rev items with x :: _ => [x] | [] => [] end)%list).
(* translator.py:1692-1701 *)
Definition hv_bibliography (fuel : nat) (i : id) : M cmd :=
  let! c := visit_bibliography i in
  let! items := items_of c in
  let! nt := node_tag i "div" in
  let! items := wrap_heading fuel i None (<[2 := nt]> items) in ret (KBatchDefer items).

(* translator.py:1703-1709 *)
Definition hv_paragraph (fuel : nat) (i : id) : M cmd :=
  let! c := visit_paragraph i in
  let! hr := replace_node_with_handrails fuel i [] [] false Off in
  let hr := map_first_classes
              (fun cl => if str_mem (lit "hr-hidden") cl then cl else cl ++ [lit "hr-hidden"])%list hr in
  let! items := items_of c in
  ret (KBatchDefer (hr ++ drop 1 items)%list).
(** [visit_theorem], [visit_sketch], [visit_proof]: the node's tag is replaced
    by a handrail, the rest of the batch follows. *)
(* translator.py:1719-1723, 1734-1738, 1746-1752 *)
Definition hv_labeled (fuel : nat) (base : id -> M cmd) (collapse_all : tri) (i : id) : M cmd :=
  let! c := base i in
  let! hr := replace_node_with_handrails fuel i [lit "hr-labeled"] [] true collapse_all in
  let! items := items_of c in
  ret (KBatchDefer (hr ++ drop 1 items)%list).
(* translator.py:1763-1769 *)
Definition hv_subproof (i : id) : M cmd :=
  let! hr := subproof_handrails i in
  ret (KBatchDefer (map_first_classes (remove_first (lit "hr-hidden")) hr)).
(* translator.py:1777-1779 *)
Definition hv_step (fuel : nat) (i : id) : M cmd :=
  let! hr := step_handrails fuel i in ret (KBatchDefer hr).

(* translator.py:1787-1810 *)
Definition hv_math (i : id) : M cmd :=
  let! c := visit_math i in
  let! nx := next_sibling i SibAny in
  match nx with
  | None => ret c
  | Some s =>
      let! istext := inst [CText] s in
      if negb istext then ret c
      else
        let! text := get_str s a_text in
        match text with
        | ch :: rest =>
            if N.eqb ch 46 then
              do! setattr i a_followed_by_dot (VBool true) in
              let! items := items_of c in
              do! setattr s a_text (VStr rest) in
              ret (KBatchDefer
                     (KOpenManual (MkTag (lit "span") [] [lit "inline-math-wrapper"] true false false None) [] :: items))
            else ret c
        | [] => ret c
        end
  end.

(* translator.py:1819-1828 *)
Definition hv_mathblock (fuel : nat) (i : id) : M cmd :=
  let! nonum := getattr i a_nonum in
  let! label := (if truthy nonum then ret (lit "Equation")
                 else let! r := reftext fuel i in ret (strip (lit "Equation " ++ r)%list)) in
  let! hr := replace_node_with_handrails fuel i [] label false Off in
  let hr := map_first_classes (fun cl => cl ++ [lit "hr-hidden"; lit "hr-offset"])%list hr in
  ret (KBatchDefer (KText [ctag "p"] :: hr
                    ++ [KTextDefer [TRaw (lit "$$" ++ [10%N])%list] [TRaw ([10%N] ++ lit "$$")%list]])%list).

(** [visit_bibitem].  The regular expression extracts the DOI link from the
    text; it is modelled as matching exactly when there is such a link, which
    assumes that the fields of the entry contain no ["<a"]. *)
(* translator.py:1835-1871 *)
Definition hv_bibitem (fuel : nat) (i : id) : M cmd :=
  let! p := bibitem_parts i in
  let '(text, dt, back) := p in
  let! nt := node_tag i "div" in
  let entry := bibitem_text (text, dt, back) in
  let! hr := wrap_item 1 [nt; KText entry] [lit "hr-hidden"] (Some (lit "ext")) false [] Off in
  match dt with
  | a :: _ =>
      let info := open_close "div" [lit "hr-info-zone"] true true
                    ([otag "div" [("class", "hr-info")]; nl; a; nl] ++ info_icon (lit "ext")
                     ++ [ctag "a"; nl; ctag "div"])%list in
      let hr := <[7 := KText (text ++ [raw " "] ++ back)%list]> hr in
      let hr := <[9 := info]> hr in
      let hr := insert_nth 7 (KText [otag "p" []]) hr in
      let hr := insert_nth 9 (KText [ctag "p"]) hr in
      ret (KBatchDefer hr)
  | [] =>
      do! warn logger_tlate (lit "Unable to extract link from {node}") in
      ret (KBatchDefer hr)
  end.

(** [batch.items.insert(k, info)]; [None] is [insert(-1, ...)]. *)
Definition insert_info (k : option nat) (x : cmd) (r : cmd * tst) : M (cmd * tst) :=
  let! items := items_of r.1 in
  ret (KBatch (match k with Some k => insert_nth k x items | None => insert_before_last x items end), r.2).
(* translator.py:1650-1653 *)
Definition hl_author (i : id) (ts : tst) : M (cmd * tst) :=
  let! r := leave_node ts in let! ic := icon_of i in insert_info None (hr_info_zone_icon ic) r.
(* translator.py:1711-1717 *)
Definition hl_paragraph (i : id) (ts : tst) : M (cmd * tst) :=
  let! r := leave_paragraph i ts in let! ic := icon_of i in insert_info None (hr_info_zone_icon ic) r.
(** [leave_theorem], [leave_sketch], [leave_proof], [leave_subproof] *)
(* translator.py:1725-1732, 1740-1744, 1754-1761, 1771-1775 *)
Definition hl_icon1 (i : id) (ts : tst) : M (cmd * tst) :=
  let! r := leave_node ts in let! ic := icon_of i in insert_info (Some 1) (hr_info_zone_icon ic) r.
(* translator.py:1781-1785 *)
Definition hl_step (fuel : nat) (i : id) (ts : tst) : M (cmd * tst) :=
  let! r := leave_node ts in let! f := full_number fuel i in
  insert_info (Some 1) (hr_info_zone_number f SStep) r.
(* translator.py:1812-1817 *)
Definition hl_math (i : id) (ts : tst) : M (cmd * tst) :=
  let! r := leave_node ts in
  let! fl := flag i a_followed_by_dot in
  if fl then
    let! items := items_of r.1 in
    ret (KBatch (items ++ [KText [otag "span" []; raw "."; ctag "span"]; KText [ctag "span"]])%list, r.2)
  else ret r.
(* translator.py:1830-1833 *)
Definition hl_mathblock (fuel : nat) (i : id) (ts : tst) : M (cmd * tst) :=
  let! r := leave_mathblock i ts in let! f := full_number fuel i in
  insert_info (Some 2) (hr_info_zone_number f SEqn) r.

(** ** Dispatch *)

(** [HandrailsTranslator] inherits all methods of [Translator]; it overrides
    visit methods only, and adds leave methods. *)
Definition hleave_defined : list cls :=
  (leave_defined ++ [CAuthor; CTheorem; CSketch; CSubproof; CStep; CMath])%list.
Definition hvisit_method (hl : str -> str -> str) (add_source : bool) (root : id) (fuel : nat)
    (m : cls) (i : id) : M cmd :=
  match m with
  | CManuscript => hv_manuscript add_source root fuel i
  | CAuthor => hv_author fuel i
  | CSection => hv_section fuel i
  | CAbstract => hv_abstract fuel i
  | CContents => hv_contents fuel i
  | CBibliography => hv_bibliography fuel i
  | CParagraph => hv_paragraph fuel i
  | CTheorem => hv_labeled fuel (visit_theorem fuel) Off i
  | CSketch => hv_labeled fuel visit_sketch Off i
  | CProof => hv_labeled fuel visit_proof On i
  | CSubproof => hv_subproof i
  | CStep => hv_step fuel i
  | CMath => hv_math i
  | CMathBlock => hv_mathblock fuel i
  | CBibitem => hv_bibitem fuel i
  | _ => visit_method hl fuel m i
  end.
Definition hleave_method (fuel : nat) (m : cls) (i : id) (ts : tst) : M (cmd * tst) :=
  match m with
  | CAuthor => hl_author i ts
  | CParagraph => hl_paragraph i ts
  | CTheorem | CSketch | CProof | CSubproof => hl_icon1 i ts
  | CStep => hl_step fuel i ts
  | CMath => hl_math i ts
  | CMathBlock => hl_mathblock fuel i ts
  | _ => leave_method m i ts
  end.
Definition hr_visit (hl : str -> str -> str) (add_source : bool) (root : id) (fuel : nat) (i : id) : M cmd :=
  let! c := cls_of i in
  match dispatch visit_defined c with
  | Some m => hvisit_method hl add_source root fuel m i
  | None => raise EAttribute
  end.
Definition hr_leave (fuel : nat) (i : id) (ts : tst) : M (cmd * tst) :=
  let! c := cls_of i in
  match dispatch hleave_defined c with
  | Some m => hleave_method fuel m i ts
  | None => raise EAttribute
  end.
Definition hr_tc (hl : str -> str -> str) (add_source : bool) (root : id) : tclass :=
  MkTC (hr_visit hl add_source root) hr_leave.

(** [HandrailsTranslator(add_source=...).translate(tree)] *)
Definition translate_handrails (hl : str -> str -> str) (add_source : bool) (fuel : nat) (tree : id)
  : M (list tok) :=
  do! info logger_tlate (lit "Translating...") in
  run_translator (hr_tc hl add_source tree) (translate_ext hl fuel fuel) fuel tree.
