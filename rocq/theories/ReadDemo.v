(** What is read from the HTML of a document, and examples. *)
From Verif Require Export TrPlain TrDemo.
From Verif Require Import NodeOps Monad.
Local Open Scope string_scope.
Local Open Scope list_scope.

Lemma nested_read hl f s t s' h : plain_heap hl false (st_heap s) -> manuscript s t -> math_placed s t ->
  translate hl f (root t) s = (s', Ok h) -> nested (read_html (render h)).
Proof. intros Hp Hm Hm' E. rewrite (translate_read _ _ _ _ _ _ Hp E). apply nested_letters. eapply nested_base; eassumption. Qed.
Lemma nested_read_hand hl src f s t s' h : plain_heap hl src (st_heap s) -> manuscript s t -> math_placed s t ->
  translate_handrails hl src f (root t) s = (s', Ok h) -> nested (read_html (render h)).
Proof. intros Hp Hm Hm' E. rewrite (handrails_read _ _ _ _ _ _ _ Hp E). apply nested_letters. eapply nested_hand; eassumption. Qed.
Lemma ids_read hl f s t s' h : plain_heap hl false (st_heap s) -> translatable s t -> labels_apart (st_heap s) t ->
  translate hl f (root t) s = (s', Ok h) -> NoDup (SpecHtml.ids (read_html (render h))).
Proof. intros Hp Hm Hl E. rewrite (translate_read _ _ _ _ _ _ Hp E), ids_letters. eapply ids_unique; eassumption. Qed.
Lemma refs_read hl f s t s' h : plain_heap hl false (st_heap s) -> translatable s t -> translate hl f (root t) s = (s', Ok h) ->
  forall x y c, x ∈ doc_order t -> class_of (st_heap s) x CReference -> value (st_heap s) x a_target = Some (VNode y) ->
    y ∈ doc_order t -> label_of (st_heap s) y <> [] -> class_of (st_heap s) y c -> c ∉ bare -> c <> CCite ->
    lit "#" ++ label_of (st_heap s) y ∈ SpecHtml.hrefs (read_html (render h)) /\ label_of (st_heap s) y ∈ SpecHtml.ids (read_html (render h)).
Proof. intros Hp Hm E. rewrite (translate_read _ _ _ _ _ _ Hp E), ids_letters, hrefs_letters. eapply ref_links; eassumption. Qed.

(** The texts of nodes, in the text of the page. *)
Lemma in_order_mid us a s : in_order us s -> in_order us (a ++ s).
Proof. destruct us as [|u us]; [auto|]. intros (b & c & -> & H). exists (a ++ b), c. rewrite <- app_assoc. auto. Qed.
Lemma shown_order (p : id * str -> bool) h : in_order (map snd (List.filter p (shown h))) (text_shown h).
Proof.
  induction h as [|t h IH]; [exact I|]. change (text_shown (t :: h)) with ((match t with TRaw s | TText _ s => s | _ => [] end) ++ text_shown h).
  unfold shown in *. destruct t; cbn [omap list_omap]; try (apply in_order_mid, IH). cbn [List.filter]. destruct (p (i, s)); [|apply in_order_mid, IH].
  cbn [map snd in_order]. exists [], (text_shown h). split; [reflexivity|exact IH].
Qed.
Lemma texts_read hl f s t s' h : plain_heap hl false (st_heap s) -> translatable s t -> translate hl f (root t) s = (s', Ok h) ->
  in_order (map snd (flat_map (own_text hl (st_heap s)) (doc_order t))) (text_shown (read_html (render h))).
Proof.
  intros Hp Hm E. rewrite (translate_read _ _ _ _ _ _ Hp E), text_letters, <- (out_texts _ _ _ _ _ _ Hm E). apply shown_order.
Qed.

(** ** Examples *)

Definition plain_attrb (a : attr) (v : val) : bool :=
  (negb (bool_decide (a ∈ text_attrs true)) || lacks LT (fmt_val v))
  && (negb (bool_decide (a ∈ quoted_attrs)) || lacks QUOTE (fmt_val v))
  && (negb (bool_decide (a = a_target)) || match v with VNode _ => true | _ => lacks LT (fmt_val v) && lacks QUOTE (fmt_val v) end)
  && (negb (bool_decide (a = a_text)) || match v with VStr u => harmless u | _ => true end)
  && (negb (bool_decide (a = a_lang)) || negb (truthy v)).
Lemma plain_attrb_ok hl src a v : plain_attrb a v = true -> plain_attr hl src a v.
Proof.
  unfold plain_attrb. rewrite !andb_true_iff. intros [[[[H1 H2] H3] H4] H5]. split; intros; subst.
  - assert (a ∈ text_attrs true) as K. { unfold text_attrs in *. destruct src; [assumption|]. rewrite elem_of_app in *. left. match goal with K : _ \/ _ |- _ => destruct K as [K|K]; [exact K|inversion K] end. }
    rewrite (bool_decide_eq_true_2 _ K) in H1. exact H1.
  - rewrite bool_decide_eq_true_2 in H2 by assumption. exact H2.
  - rewrite bool_decide_eq_true_2 in H3 by reflexivity. cbn [negb orb] in H3. destruct v; try (apply andb_true_iff in H3; exact H3). exfalso. match goal with K : forall y, _ <> _ |- _ => apply (K i eq_refl) end.
  - rewrite bool_decide_eq_true_2 in H4 by reflexivity. exact H4.
  - rewrite bool_decide_eq_true_2 in H5 by reflexivity. cbn [negb orb] in H5. match goal with K : truthy v = true |- _ => rewrite K in H5; discriminate H5 end.
Qed.
Definition plain_heapb (s : st) : bool := all_nodes s (fun _ n => forallb (fun p => plain_attrb p.1 p.2 && (negb (bool_decide (p.1 = a_number)) || cls_eqb (n_cls n) CUnknownBibitem || lacks QUOTE (fmt_val p.2))) (map_to_list (n_attrs n))).
Lemma plain_heapb_ok hl src s : plain_heapb s = true -> plain_heap hl src (st_heap s).
Proof.
  intros H x n Hn. pose proof (all_nodes_ok _ _ x n H Hn) as G. cbv beta in G. rewrite forallb_forall in G.
  assert (K : forall a v, n_attrs n !! a = Some v -> plain_attrb a v = true /\ (a = a_number -> n_cls n <> CUnknownBibitem -> lacks QUOTE (fmt_val v) = true)).
  { intros a v Ha. apply elem_of_map_to_list, elem_of_list_In, G, andb_true_iff in Ha as [H1 H2]. cbn [fst snd] in *. split; [assumption|]. intros -> Hc.
    rewrite bool_decide_eq_true_2 in H2 by reflexivity. cbn [negb orb] in H2. destruct (cls_eqb_spec (n_cls n) CUnknownBibitem); [contradiction|exact H2]. }
  split; [intros a v Ha; apply plain_attrb_ok, K, Ha|]. intros v Hc Ha. apply (K _ _ Ha); [reflexivity|assumption].
Qed.

(** A document with [<] before a blank in its text, which is not markup. *)
Definition readdoc : bt :=
  BT CManuscript [(a_title, VStr (lit "T")); (a_src, VStr (lit "# T"))]
    [BT CSection [(a_title, VStr (lit "One")); (a_label, VStr (lit "s"))]
       [BT CParagraph [] [txt "see "; BT CReference [(a_target, VNode 1)] []; BT CMath [] [txt "x"]; txt ". 1 < 2"];
        BT CParagraph [] [txt "a"; BT CMathBlock [(a_label, VStr (lit "eq"))] [txt "y"]; txt "b"];
        BT CTheorem [(a_title, VStr (lit "Main")); (a_label, VStr (lit "thm"))]
          [BT CParagraph [] [txt "claim"; BT CCite [(a_label, VStr (lit "cite-0")); (a_targets, VNodes [19; 20])] []]];
        BT CProof [] [BT CStep [] [txt "step"]]];
     BT CBibliography []
       [BT CBibitem [(a_label, VStr (lit "k1")); (a_kind, VStr (lit "article")); (a_author, VStr (lit "A")); (a_title, VStr (lit "B")); (a_year, VStr (lit "1"));
                     (a_publisher, VStr (lit "P")); (a_doi, VStr (lit "10/1")); (a_backlinks, VStrs [lit "cite-0"])] [];
        BT CBibitem [(a_label, VStr (lit "k2")); (a_kind, VStr (lit "article")); (a_author, VStr (lit "C")); (a_title, VStr (lit "D")); (a_year, VStr (lit "2"))] []]].
Definition readdoc_html : list tok := Eval vm_compute in html_toks readdoc.
Definition readdoc_hand : list tok := Eval vm_compute in match out_of (translate_handrails nohl true 100) readdoc with Ok h => h | Err _ => [] end.
Lemma readdoc_ok : translatable (built readdoc) (wtree readdoc) /\ exists s', translate nohl 100 (root (wtree readdoc)) (built readdoc) = (s', Ok readdoc_html).
Proof. apply (witness readdoc); vm_compute; reflexivity. Qed.
Lemma readdoc_manuscript : manuscript (built readdoc) (wtree readdoc). Proof. exact (tb_manuscript _ _ (proj1 readdoc_ok)). Qed.
Lemma readdoc_hand_ok : snd (translate_handrails nohl true 100 (root (wtree readdoc)) (built readdoc)) = Ok readdoc_hand. Proof. vm_compute. reflexivity. Qed.
Lemma readdoc_handrails : exists s', translate_handrails nohl true 100 (root (wtree readdoc)) (built readdoc) = (s', Ok readdoc_hand).
Proof. exact (run_snd _ _ _ readdoc_hand_ok). Qed.
Lemma readdoc_plain src : plain_heap nohl src (st_heap (built readdoc)).
Proof. apply plain_heapb_ok. vm_compute. reflexivity. Qed.
Lemma readdoc_math : math_placed (built readdoc) (wtree readdoc).
Proof. apply math_placedb_ok with (t := wtree readdoc); [exact readdoc_manuscript|]. vm_compute. reflexivity. Qed.
Lemma readdoc_labels : labels_apart (st_heap (built readdoc)) (wtree readdoc).
Proof. apply labels_apartb_ok. vm_compute. reflexivity. Qed.

(** A text with markup is read as an element. *)
Definition markdoc : bt := BT CManuscript [] [BT CParagraph [] [txt "<b>"]].
Definition markdoc_html : list tok := Eval vm_compute in html_toks markdoc.
Lemma markdoc_ok : translatable (built markdoc) (wtree markdoc) /\ exists s', translate nohl 100 (root (wtree markdoc)) (built markdoc) = (s', Ok markdoc_html).
Proof. apply (witness markdoc); vm_compute; reflexivity. Qed.
Lemma mark_read : exists hl f s t s' h, translatable s t /\ math_placed s t /\ translate hl f (root t) s = (s', Ok h) /\ nested h /\
  read_html (render h) <> letters h /\ ~ nested (read_html (render h)).
Proof.
  destruct markdoc_ok as [Ht [s' E]].
  assert (Hm : math_placed (built markdoc) (wtree markdoc)) by (apply math_placedb_ok with (t := wtree markdoc); [apply (tb_manuscript _ _ Ht)|vm_compute; reflexivity]).
  exists nohl, 100, (built markdoc), (wtree markdoc), s', markdoc_html. split; [exact Ht|]. split; [exact Hm|]. split; [exact E|].
  assert (Hn : nested markdoc_html) by (eapply nested_base; [apply (tb_manuscript _ _ Ht)|exact Hm|exact E]). split; [exact Hn|].
  assert (G : ~ nested (read_html (render markdoc_html))) by (intros K; apply nestedb_ok in K; vm_compute in K; discriminate K).
  split; [|exact G]. intros K. rewrite K in G. apply G, nested_letters, Hn.
Qed.
