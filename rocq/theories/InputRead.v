(** What is read from the HTML of a source without markup. *)
From Verif Require Export TidyParse ReadDemo RenderAny.
From Verif Require Import NodeOps Monad.
Local Open Scope string_scope.
Local Open Scope list_scope.

Lemma pieces_read ts hl fuel hr src text h m i : (forall u l, harmless u = true -> harmless (hl u l) = true) -> no_markup src (ts text) ->
  pieces ts hl fuel hr src text h m i -> read_html (Html.render h) = letters h.
Proof.
  intros Hl NM (s1 & s2 & d & Hp & Ht & Htr).
  destruct (td_parse src (ts text) NM fuel empty_st s1 i) as [T1 _]; [intros x n Hx; cbn in Hx; rewrite lookup_empty in Hx; discriminate Hx|exact Hp|].
  destruct (td_transform src fuel [] i s1 s2 d T1 Ht) as [T2 _]. pose proof (tidy_heap src hl s2 Hl T2) as P. destruct hr.
  - eapply handrails_read; eassumption.
  - eapply translate_read; [|exact Htr]. intros x n Hx. destruct (P x n Hx) as [PA PN]. split; [|exact PN]. intros a v Hv. specialize (PA a v Hv).
    destruct src; [|exact PA]. destruct PA as [Q1 Q2 Q3 Q4 Q5]. split; auto. intros Ha. apply Q1. unfold text_attrs in *. rewrite elem_of_app in *.
    destruct Ha as [Ha|Ha]; [left; exact Ha|inversion Ha].
Qed.

Section Rendered.
Context (ts : str -> cst) (hl : str -> str -> str) (pkg : list (str * str)) (fuel : nat).
Context (HL : forall u l, harmless u = true -> harmless (hl u l) = true).
Notation render_rsm := (render_rsm ts hl pkg fuel).
Lemma input_read source path hr add c w w' out : fresh_ok (w_mem w) ->
  (forall text, given source path (w_fs w) text -> no_markup (hr && add) (ts text)) ->
  render_rsm source path hr add c w = (w', Ok (PObj (OText out))) -> out <> [] ->
  exists text h m i, given source path (w_fs w) text /\ pieces ts hl fuel hr (hr && add) text h m i /\ out = Html.render h /\
    read_html out = letters h.
Proof using HL.
  intros Hf NM H Ho. destruct (render_pieces ts hl pkg fuel _ _ _ _ _ _ _ _ Hf H Ho) as (text & h & m & i & Hg & Hp & ->).
  exists text, h, m, i. split; [exact Hg|]. split; [exact Hp|]. split; [reflexivity|]. eapply pieces_read; [exact HL|apply NM, Hg|exact Hp].
Qed.
Lemma input_nested source path hr add c w w' out : fresh_ok (w_mem w) ->
  (forall text, given source path (w_fs w) text -> no_markup (hr && add) (ts text) /\ clean_source (ts text) /\ formulas_placed (manuscript_of (ts text))) ->
  render_rsm source path hr add c w = (w', Ok (PObj (OText out))) -> out <> [] -> nested (read_html out).
Proof using HL.
  intros Hf C H Ho. destruct (any_nested ts hl pkg fuel _ _ _ _ _ _ _ _ Hf (fun t G => proj2 (C t G)) H Ho) as (text & h & m & i & Hg & Hp & -> & Hn).
  rewrite (pieces_read _ _ _ _ _ _ _ _ _ HL (proj1 (C _ Hg)) Hp). apply nested_letters, Hn.
Qed.
Lemma input_texts source path add c w w' out : fresh_ok (w_mem w) ->
  (forall text, given source path (w_fs w) text -> no_markup false (ts text) /\ clean_source (ts text) /\ contents_empty (manuscript_of (ts text))) ->
  render_rsm source path false add c w = (w', Ok (PObj (OText out))) -> out <> [] ->
  exists text l, given source path (w_fs w) text /\ texts_shown hl (manuscript_of (ts text)) l /\ in_order l (SpecRead.text_shown (read_html out)).
Proof using HL.
  intros Hf C H Ho. destruct (any_texts ts hl pkg fuel _ _ _ _ _ _ _ Hf (fun t G => proj2 (C t G)) H Ho) as (text & h & m & t & Hg & Hp & -> & _ & Hn).
  exists text, (map snd (shown_of t h)). split; [exact Hg|]. split; [exact Hn|].
  rewrite (pieces_read _ _ _ _ _ _ _ _ _ HL (proj1 (C _ Hg)) Hp), text_letters. apply shown_order.
Qed.
Lemma input_links source path add c w w' out : fresh_ok (w_mem w) ->
  (forall text, given source path (w_fs w) text -> no_markup false (ts text) /\ clean_source (ts text) /\ contents_empty (manuscript_of (ts text))) ->
  render_rsm source path false add c w = (w', Ok (PObj (OText out))) -> out <> [] ->
  exists text, given source path (w_fs w) text /\
    forall b lbl x, In b (a_preorder (manuscript_of (ts text))) -> a_class b = CPendingReference -> a_attrs b !! a_target = Some (VStr lbl) ->
      first_carrier (manuscript_of (ts text)) lbl x -> a_class x ∉ CContents :: CCite :: bare ->
      lit "#" ++ lbl ∈ SpecHtml.hrefs (read_html out) /\ lbl ∈ SpecHtml.ids (read_html out).
Proof using HL.
  intros Hf C H Ho. destruct (any_links ts hl pkg fuel _ _ _ _ _ _ _ Hf (fun t G => proj2 (C t G)) H Ho) as (text & h & m & i & Hg & Hp & -> & Hn).
  exists text. split; [exact Hg|]. rewrite (pieces_read _ _ _ _ _ _ _ _ _ HL (proj1 (C _ Hg)) Hp), ids_letters, hrefs_letters. exact Hn.
Qed.
End Rendered.
