(** Property C80: what a browser reads from the HTML of a source without markup. *)
From Verif Require Import SpecInput InputDemo.
From Verif Require Import NodeOps Monad.
Local Open Scope string_scope.
Local Open Scope list_scope.

(** ** C80 *)

(** [no_markup] (SpecInput.v) is a condition on the source alone; the highlighter [hl] may be any that
    adds no markup to texts without it.  [read_html] (SpecRead.v) reads the HTML character by character. *)
Theorem C80_read_back : forall ts hl pkg fuel, (forall u l, harmless u = true -> harmless (hl u l) = true) ->
  forall source path hr add c w w' out, fresh_ok (w_mem w) ->
  (forall text, given source path (w_fs w) text -> no_markup (hr && add) (ts text)) ->
  render_rsm ts hl pkg fuel source path hr add c w = (w', Ok (PObj (OText out))) -> out <> [] ->
  exists text h m i, given source path (w_fs w) text /\ pieces ts hl fuel hr (hr && add) text h m i /\ out = Html.render h /\
    read_html out = letters h.
Proof. exact input_read. Qed.
Print Assumptions C80_read_back.
(** What is read is well nested. *)
Theorem C80_nested : forall ts hl pkg fuel, (forall u l, harmless u = true -> harmless (hl u l) = true) ->
  forall source path hr add c w w' out, fresh_ok (w_mem w) ->
  (forall text, given source path (w_fs w) text -> no_markup (hr && add) (ts text) /\ clean_source (ts text) /\ formulas_placed (manuscript_of (ts text))) ->
  render_rsm ts hl pkg fuel source path hr add c w = (w', Ok (PObj (OText out))) -> out <> [] -> nested (read_html out).
Proof. exact input_nested. Qed.
Print Assumptions C80_nested.
(** The characters read outside of tags contain the texts of the source in its order, and a note for
    each reference to an unknown label. *)
Theorem C80_texts_shown : forall ts hl pkg fuel, (forall u l, harmless u = true -> harmless (hl u l) = true) ->
  forall source path add c w w' out, fresh_ok (w_mem w) ->
  (forall text, given source path (w_fs w) text -> no_markup false (ts text) /\ clean_source (ts text) /\ contents_empty (manuscript_of (ts text))) ->
  render_rsm ts hl pkg fuel source path false add c w = (w', Ok (PObj (OText out))) -> out <> [] ->
  exists text l, given source path (w_fs w) text /\ texts_shown hl (manuscript_of (ts text)) l /\ in_order l (SpecRead.text_shown (read_html out)).
Proof. exact input_texts. Qed.
Print Assumptions C80_texts_shown.
(** A reference in the source is read as a link to the element of what carries the label. *)
Theorem C80_references_link : forall ts hl pkg fuel, (forall u l, harmless u = true -> harmless (hl u l) = true) ->
  forall source path add c w w' out, fresh_ok (w_mem w) ->
  (forall text, given source path (w_fs w) text -> no_markup false (ts text) /\ clean_source (ts text) /\ contents_empty (manuscript_of (ts text))) ->
  render_rsm ts hl pkg fuel source path false add c w = (w', Ok (PObj (OText out))) -> out <> [] ->
  exists text, given source path (w_fs w) text /\
    forall b lbl x, In b (a_preorder (manuscript_of (ts text))) -> a_class b = CPendingReference -> a_attrs b !! a_target = Some (VStr lbl) ->
      first_carrier (manuscript_of (ts text)) lbl x -> a_class x ∉ CContents :: CCite :: bare ->
      lit "#" ++ lbl ∈ SpecHtml.hrefs (read_html out) /\ lbl ∈ SpecHtml.ids (read_html out).
Proof. exact input_links. Qed.
Print Assumptions C80_references_link.
Example C80_nonvacuous : (forall u l, harmless u = true -> harmless (demo_hl u l) = true) /\ fresh_ok (w_mem (new_process demo_fs)) /\
  (forall text, no_markup true (good_ts text) /\ no_markup false (good_ts text) /\ clean_source (good_ts text) /\
    formulas_placed (manuscript_of (good_ts text)) /\ contents_empty (manuscript_of (good_ts text))) /\
  (forall hr, exists w', render_rsm good_ts demo_hl [] 400 (lit "x") [] hr true demo_lc (new_process demo_fs) = (w', Ok (PObj (OText (good_out hr)))) /\ good_out hr <> []) /\
  contains (lit "If 1 < 2 then ""see"" Theorem 1.1 or [unknown label ""nowhere""]") (SpecRead.text_shown (read_html (good_out false))) = true /\
  SpecHtml.ids (read_html (good_out false)) = [lit "sec"; lit "thm"] /\ SpecHtml.hrefs (read_html (good_out false)) = [lit "#thm"].
Proof.
  split; [exact hl_harmless|]. split; [apply new_fresh|].
  split; [intros; split; [exact good_input|]; split; [exact (no_markup_less _ good_input)|]; split; [exact good_clean|]; split; [exact good_placed|exact good_contents]|].
  split; [exact good_renders|]. split; [vm_compute; reflexivity|]. split; vm_compute; reflexivity.
Qed.
(** The characters [<b] in a paragraph are read as a tag. *)
Theorem C80_markup_refuted : exists ts hl pkg fuel source path c w w' out, fresh_ok (w_mem w) /\
  (forall text, given source path (w_fs w) text -> clean_source (ts text) /\ formulas_placed (manuscript_of (ts text))) /\
  render_rsm ts hl pkg fuel source path false false c w = (w', Ok (PObj (OText out))) /\ out <> [] /\ ~ nested (read_html out).
Proof. exact bad_reads. Qed.
Print Assumptions C80_markup_refuted.
