(** Documents for the examples and counterexamples of the translators. *)
From Verif Require Export TrProps ReadyDoc.
From Verif Require Import NodeOps Monad.
Local Open Scope string_scope.
Local Open Scope list_scope.

Definition nohl (s _ : str) : str := s.
Definition built (b : bt) : st := fst (Build.run (build b)).
Definition out_of (m : id -> M (list tok)) (b : bt) : res (list tok) := snd (m 0 (built b)).
Definition html_of : bt -> res (list tok) := out_of (translate nohl 100).
Definition hand_of : bt -> res (list tok) := out_of (translate_handrails nohl false 100).

(** Boolean versions of the hypotheses. *)
Definition all_nodes (s : st) (p : id -> node -> bool) : bool := forallb (fun q => p q.1 q.2) (map_to_list (st_heap s)).
Lemma all_nodes_ok s p x n : all_nodes s p = true -> st_heap s !! x = Some n -> p x n = true.
Proof. unfold all_nodes. intros H Hn. rewrite forallb_forall in H. apply (H (x, n)). apply elem_of_list_In, elem_of_map_to_list. assumption. Qed.
Definition alive (s : st) (y : id) : bool := match st_heap s !! y with Some _ => true | None => false end.
Lemma alive_ok s y : alive s y = true -> is_Some (st_heap s !! y).
Proof. unfold alive. destruct (st_heap s !! y); [eauto|discriminate]. Qed.
Definition translatableb (s : st) : bool :=
  all_nodes s (fun x n =>
    match n_attrs n !! a_label with Some (VStr _) => true | _ => false end
    && match n_attrs n !! a_target with Some (VNode y) => alive s y | _ => true end
    && match n_attrs n !! a_targets with Some (VNodes ys) => forallb (alive s) ys | _ => true end
    && match n_attrs n !! a_lang with Some VNone | Some (VStr _) | None => true | _ => false end).
Lemma translatableb_ok s t : manuscript s t -> translatableb s = true -> translatable s t.
Proof.
  intros Hm H. assert (G : forall x n, st_heap s !! x = Some n -> _) by (intros x n Hn; exact (all_nodes_ok _ _ x n H Hn)).
  cbv beta in G. split; [assumption| | | |].
  - intros x y _ Hv. unfold value in Hv. destruct (st_heap s !! x) as [n|] eqn:E; [|discriminate Hv]. specialize (G x n E). rewrite Hv in G.
    apply alive_ok. repeat (apply andb_true_iff in G as [G ?]). assumption.
  - intros x ys y _ Hv Hy. unfold value in Hv. destruct (st_heap s !! x) as [n|] eqn:E; [|discriminate Hv]. specialize (G x n E). rewrite Hv in G.
    apply alive_ok. repeat (apply andb_true_iff in G as [G ?]). match goal with F : forallb _ ys = true |- _ => rewrite forallb_forall in F; apply F end. apply elem_of_list_In. assumption.
  - intros x n Hn. specialize (G x n Hn). repeat (apply andb_true_iff in G as [G ?]). destruct (n_attrs n !! a_label) as [[]|]; try discriminate G. eauto.
  - intros x v _ Hv. unfold value in Hv. destruct (st_heap s !! x) as [n|] eqn:E; [|discriminate Hv]. specialize (G x n E). rewrite Hv in G.
    repeat (apply andb_true_iff in G as [G ?]). destruct v; try discriminate; eauto.
Qed.
Definition mathb (s : st) (y : id) : bool := match st_heap s !! y with Some n => cls_eqb (n_cls n) CMathBlock | None => false end.
Lemma mathb_ok s y : class_of (st_heap s) y CMathBlock -> mathb s y = true.
Proof. intros (n & Hn & E). unfold mathb. rewrite Hn, E. reflexivity. Qed.
Definition math_placedb (s : st) : bool :=
  all_nodes s (fun x n =>
    match n_attrs n !! a_must_close_p_tag with None => true | _ => false end
    && match n_attrs n !! a_followed_by_dot with None => true | _ => false end
    && (negb (cls_eqb (n_cls n) CMathBlock)
        || match n_parent n with
           | Some p => match st_heap s !! p with Some m => cls_eqb (n_cls m) CParagraph | None => false end
           | None => false
           end)
    && match rev (kids n) with x :: r => negb (mathb s x) || forallb (fun y => negb (mathb s y)) r | [] => true end).
Lemma math_placedb_ok s t : manuscript s t -> math_placedb s = true -> math_placed s t.
Proof.
  intros Hm H. assert (G : forall x n, st_heap s !! x = Some n -> _) by (intros x n Hn; exact (all_nodes_ok _ _ x n H Hn)).
  cbv beta in G. destruct Hm as [_ _ [Ht _]]. split.
  - intros x Hx. destruct (tree_at_in _ _ _ _ Ht Hx) as [n Hn]. specialize (G x n Hn). unfold value. rewrite Hn.
    repeat (apply andb_true_iff in G as [G ?]). destruct (n_attrs n !! a_must_close_p_tag); [discriminate|]. destruct (n_attrs n !! a_followed_by_dot); [discriminate|]. auto.
  - intros x _ (n & Hn & E). specialize (G x n Hn). repeat (apply andb_true_iff in G as [G ?]). rewrite E in *.
    destruct (n_parent n) as [p|] eqn:Ep; [|discriminate]. destruct (st_heap s !! p) as [m|] eqn:Em; [|discriminate].
    exists p. split; [exists n; auto|]. exists m. split; [assumption|]. destruct (cls_eqb_spec (n_cls m) CParagraph); [assumption|discriminate].
  - intros p n l x y _ Hn Hk Hx Hy Hyc. specialize (G p n Hn). repeat (apply andb_true_iff in G as [G ?]).
    rewrite Hk, rev_app_distr in *. cbn [rev app] in *. rewrite (mathb_ok _ _ Hx) in *. cbn [negb orb] in *.
    match goal with F : forallb _ (rev l) = true |- _ => rewrite forallb_forall in F; specialize (F y) end.
    rewrite (mathb_ok _ _ Hyc) in *. cbn in *. assert (In y (rev l)) by (apply in_rev; rewrite rev_involutive; apply elem_of_list_In; assumption). 
    assert (false = true) by auto. discriminate.
Qed.
Definition nestedb (h : list tok) : bool := match TrNest.run h [] with Some [] => true | _ => false end.
Lemma nestedb_ok h : nested h -> nestedb h = true.
Proof. intros H. unfold nestedb. rewrite (nested_run _ H []). reflexivity. Qed.

Definition trdoc : bt :=
  BT CManuscript [(a_title, VStr (lit "T"))]
    [BT CSection [(a_title, VStr (lit "One")); (a_label, VStr (lit "s"))]
       [BT CParagraph [] [txt "see "; BT CReference [(a_target, VNode 1)] []; BT CMath [] [txt "x"]; txt ". Done"];
        BT CParagraph [] [txt "a"; BT CMathBlock [(a_label, VStr (lit "eq"))] [txt "y"]; txt "b"; BT CMathBlock [] [txt "z"]; txt "c"];
        BT CParagraph [] [BT CMathBlock [] [txt "w"]];
        BT CTheorem [(a_title, VStr (lit "Main")); (a_label, VStr (lit "thm"))]
          [BT CParagraph [] [txt "claim"; BT CCite [(a_label, VStr (lit "cite-0")); (a_targets, VNodes [29; 30])] []]];
        BT CCodeBlock [] [BT CSourceCode [(a_text, VStr (lit "1+1")); (a_lang, VStr (lit "python"))] []];
        BT CProof [] [BT CStep [] [txt "step"]]];
     BT CBibliography []
       [BT CBibitem [(a_label, VStr (lit "k1")); (a_kind, VStr (lit "article")); (a_author, VStr (lit "A")); (a_title, VStr (lit "B")); (a_year, VStr (lit "1"));
                     (a_publisher, VStr (lit "P")); (a_doi, VStr (lit "10/1")); (a_backlinks, VStrs [lit "cite-0"])] [];
        BT CBibitem [(a_label, VStr (lit "k2")); (a_kind, VStr (lit "article")); (a_author, VStr (lit "C")); (a_title, VStr (lit "D")); (a_year, VStr (lit "2"))] []]].
Definition trdoc_st : st := built trdoc.
Definition trdoc_tree : tree := Eval vm_compute in built_tree trdoc.
Lemma trdoc_built : snd (Build.run (build trdoc)) = Ok 0. Proof. vm_compute. reflexivity. Qed.
Lemma trdoc_manuscript : manuscript trdoc_st trdoc_tree.
Proof.
  assert (H : ready trdoc_st trdoc_tree) by (apply built_ready_tree; vm_compute; reflexivity). apply H.
Qed.
Lemma trdoc_translatable : translatable trdoc_st trdoc_tree.
Proof. apply translatableb_ok; [exact trdoc_manuscript|]. vm_compute. reflexivity. Qed.
Lemma trdoc_math : math_placed trdoc_st trdoc_tree.
Proof. apply math_placedb_ok with (t := trdoc_tree); [exact trdoc_manuscript|]. vm_compute. reflexivity. Qed.

(** Unique labels. *)
Fixpoint begins (p s : str) : bool :=
  match p, s with [], _ => true | a :: p, b :: s => N.eqb a b && begins p s | _, [] => false end.
Lemma begins_app p r : begins p (p ++ r) = true.
Proof. induction p as [|a p IH]; [reflexivity|]. cbn. rewrite N.eqb_refl. exact IH. Qed.
Definition is_class (s : st) (x : id) (c : cls) : bool := match st_heap s !! x with Some n => cls_eqb (n_cls n) c | None => false end.
Lemma is_class_ok s x c : class_of (st_heap s) x c -> is_class s x c = true.
Proof. intros (n & Hn & <-). unfold is_class. rewrite Hn. destruct (cls_eqb_spec (n_cls n) (n_cls n)); [reflexivity|congruence]. Qed.
Definition labels_apartb (s : st) (t : tree) : bool :=
  let L := map (fun x => (x, label_of (st_heap s) x)) (doc_order t) in
  forallb (fun p => forallb (fun q =>
     (Nat.eqb p.1 q.1 || negb (str_eqb p.2 q.2) || str_eqb p.2 [])
     && negb (begins (q.2 ++ lit "-") p.2)) L) L
  && forallb (fun p => negb (is_class s p.1 CFigure) || str_eqb p.2 []) L
  && forallb (fun p => negb (is_class s p.1 CCite || is_class s p.1 CBibitem || is_class s p.1 CUnknownBibitem) || negb (str_eqb p.2 [])) L.
Lemma str_eqb_false a b : negb (str_eqb a b) = true -> a <> b.
Proof. intros H E. apply str_eqb_eq in E. rewrite E in H. discriminate H. Qed.
Lemma labels_apartb_ok s t : labels_apartb s t = true -> labels_apart (st_heap s) t.
Proof.
  unfold labels_apartb. intros H. apply andb_true_iff in H as [H H3]. apply andb_true_iff in H as [H1 H2].
  set (L := map _ _) in *. assert (HL : forall x, x ∈ doc_order t -> In (x, label_of (st_heap s) x) L).
  { intros x Hx. apply in_map_iff. exists x. split; [reflexivity|apply elem_of_list_In; assumption]. }
  rewrite forallb_forall in H1, H2, H3.
  assert (H1' : forall x y, x ∈ doc_order t -> y ∈ doc_order t ->
    (Nat.eqb x y || negb (str_eqb (label_of (st_heap s) x) (label_of (st_heap s) y)) || str_eqb (label_of (st_heap s) x) []) = true
    /\ negb (begins (label_of (st_heap s) y ++ lit "-") (label_of (st_heap s) x)) = true).
  { intros x y Hx Hy. specialize (H1 _ (HL x Hx)). rewrite forallb_forall in H1. specialize (H1 _ (HL y Hy)). cbn [fst snd] in H1.
    apply andb_true_iff in H1. exact H1. }
  clear H1. split.
  - intros x y Hx Hy Hne E. destruct (H1' x y Hx Hy) as [G _]. apply orb_true_iff in G as [G|G]; [|apply str_eqb_eq in G; contradiction].
    apply orb_true_iff in G as [G|G]; [apply Nat.eqb_eq in G; assumption|]. apply str_eqb_false in G. contradiction.
  - intros x Hx Hc. specialize (H2 _ (HL x Hx)). cbn [fst snd] in H2. rewrite (is_class_ok _ _ _ Hc) in H2. cbn [negb orb] in H2. apply str_eqb_eq. assumption.
  - intros x Hx Hc. specialize (H3 _ (HL x Hx)). cbn [fst snd] in H3. rewrite (is_class_ok _ _ _ Hc) in H3. cbn [negb orb] in H3. apply str_eqb_false. assumption.
  - intros x Hx Hc. specialize (H3 _ (HL x Hx)). cbn [fst snd] in H3. destruct Hc as [Hc|Hc]; rewrite (is_class_ok _ _ _ Hc), ?orb_true_r in H3; cbn [negb orb] in H3; apply str_eqb_false; assumption.
  - intros x y Hx Hy. destruct (H1' x y Hx Hy) as [_ G]. split.
    + intros E. rewrite E in G. unfold doi_id in G. replace (label_of (st_heap s) y ++ lit "-doi") with ((label_of (st_heap s) y ++ lit "-") ++ lit "doi") in G by (rewrite <- app_assoc; reflexivity). rewrite begins_app in G. discriminate G.
    + intros k E. rewrite E in G. unfold cite_id in G. rewrite app_assoc, begins_app in G. discriminate G.
Qed.
Lemma trdoc_labels : labels_apart (st_heap trdoc_st) trdoc_tree.
Proof. apply labels_apartb_ok. vm_compute. reflexivity. Qed.

(** The demo translates with both translators. *)
Definition trdoc_html : list tok := Eval vm_compute in match html_of trdoc with Ok h => h | Err _ => [] end.
Definition trdoc_hand : list tok := Eval vm_compute in match hand_of trdoc with Ok h => h | Err _ => [] end.
Lemma run_snd {X} (m : M X) s r : snd (m s) = r -> exists s', m s = (s', r).
Proof. intros <-. exists (fst (m s)). apply surjective_pairing. Qed.
Lemma trdoc_html_ok : snd (translate nohl 100 (root trdoc_tree) trdoc_st) = Ok trdoc_html. Proof. vm_compute. reflexivity. Qed.
Lemma trdoc_hand_ok : snd (translate_handrails nohl false 100 (root trdoc_tree) trdoc_st) = Ok trdoc_hand. Proof. vm_compute. reflexivity. Qed.
Lemma trdoc_translates : exists s', translate nohl 100 (root trdoc_tree) trdoc_st = (s', Ok trdoc_html).
Proof. exact (run_snd _ _ _ trdoc_html_ok). Qed.
Lemma trdoc_handrails : exists s', translate_handrails nohl false 100 (root trdoc_tree) trdoc_st = (s', Ok trdoc_hand).
Proof. exact (run_snd _ _ _ trdoc_hand_ok). Qed.

(** Counterexamples: documents that are ready, what is wrong with their HTML is checked by computing. *)
Definition wtree (b : bt) : tree := built_tree b.
Definition fine (b : bt) : bool :=
  match snd (Build.run (build b)) with Ok 0 => true | _ => false end && errors_unlabelledb (built b)
  && check_document (st_heap (built b)) (wtree b) && translatableb (built b) && Nat.eqb (root (wtree b)) 0.
Definition toks_of (r : res (list tok)) : list tok := match r with Ok h => h | Err _ => [] end.
Definition html_toks (b : bt) : list tok := toks_of (html_of b).
Definition hand_toks (b : bt) : list tok := toks_of (hand_of b).
Definition is_ok {X} (r : res X) : bool := match r with Ok _ => true | Err _ => false end.
Lemma fine_ok b : fine b = true -> translatable (built b) (wtree b) /\ root (wtree b) = 0.
Proof.
  unfold fine. intros H. repeat (apply andb_true_iff in H as [H ?]). split; [|apply Nat.eqb_eq; assumption].
  assert (snd (Build.run (build b)) = Ok 0) by (destruct (snd (Build.run (build b))) as [[|?]|?]; [reflexivity|discriminate H|discriminate H]).
  apply translatableb_ok; [|assumption]. assert (R : ready (built b) (wtree b)) by (apply built_ready_tree; assumption). apply R.
Qed.
Lemma run_toks (m : M (list tok)) s : is_ok (snd (m s)) = true -> exists s', m s = (s', Ok (toks_of (snd (m s)))).
Proof. intros H. apply run_snd. destruct (snd (m s)); [reflexivity|discriminate H]. Qed.
Lemma witness_gen (m : id -> M (list tok)) b : fine b = true -> is_ok (out_of m b) = true ->
  translatable (built b) (wtree b) /\ exists s', m (root (wtree b)) (built b) = (s', Ok (toks_of (out_of m b))).
Proof.
  intros H1 H2. destruct (fine_ok b H1) as [H3 H4]. split; [assumption|]. rewrite H4.
  exact (run_toks (m 0) (built b) H2).
Qed.
Lemma witness b : fine b = true -> is_ok (html_of b) = true ->
  translatable (built b) (wtree b) /\ exists s', translate nohl 100 (root (wtree b)) (built b) = (s', Ok (html_toks b)).
Proof. exact (witness_gen (translate nohl 100) b). Qed.
Lemma witness_hand b : fine b = true -> is_ok (hand_of b) = true ->
  translatable (built b) (wtree b) /\ exists s', translate_handrails nohl false 100 (root (wtree b)) (built b) = (s', Ok (hand_toks b)).
Proof. exact (witness_gen (translate_handrails nohl false 100) b). Qed.
Fixpoint distinctb (l : list str) : bool := match l with [] => true | x :: l => negb (str_mem x l) && distinctb l end.
Lemma distinctb_ok l : NoDup l -> distinctb l = true.
Proof.
  induction 1 as [|x l Hx Hl IH]; [reflexivity|]. cbn [distinctb]. rewrite IH, andb_true_r. destruct (str_mem x l) eqn:E; [|reflexivity].
  apply str_mem_In, elem_of_list_In in E. contradiction.
Qed.

(** Two math blocks, one of them at the end of its paragraph. *)
Definition wmath : bt :=
  BT CManuscript [] [BT CParagraph [] [BT CMathBlock [] [txt "x"]; txt "and"; BT CMathBlock [] [txt "y"]]].
(** A math block outside of a paragraph. *)
Definition wmath2 : bt := BT CManuscript [] [BT CMathBlock [] [txt "x"]].
(** A math block in a proof step. *)
Definition wmath3 : bt := BT CManuscript [] [BT CProof [] [BT CStep [] [txt "a"; BT CMathBlock [] [txt "x"]; txt "b"]]].
(** A labelled figure. *)
Definition wfig : bt :=
  BT CManuscript [] [BT CFigure [(a_label, VStr (lit "fig")); (a_path, VStr (lit "f.png"))] [BT CCaption [] [txt "c"]]].
(** A label that looks like that of a citation's link: one to a bibliography item has id "k-doi". *)
Definition wdoi : bt :=
  BT CManuscript [] [BT CParagraph [(a_label, VStr (lit "k-doi"))] [txt "p"];
    BT CBibliography [] [BT CBibitem [(a_label, VStr (lit "k")); (a_kind, VStr (lit "article")); (a_author, VStr (lit "A")); (a_title, VStr (lit "B")); (a_year, VStr (lit "1")); (a_doi, VStr (lit "10/1"))] []]].
(** A reference to a caption. *)
Definition wcap : bt :=
  BT CManuscript [] [BT CFigure [(a_path, VStr (lit "f.png"))] [BT CCaption [(a_label, VStr (lit "c"))] [txt "c"]];
    BT CParagraph [] [BT CReference [(a_target, VNode 2); (a_overwrite_reftext, VStr (lit "the caption"))] []]].
(** A reference with a repeated type. *)
Definition wtypes : bt :=
  BT CManuscript [] [BT CParagraph [(a_label, VStr (lit "p"))] [BT CReference [(a_types, VStrs [lit "x"; lit "x"]); (a_target, VNode 1); (a_overwrite_reftext, VStr (lit "p"))] []]].
(** Markup in a text. *)
Definition wscript : bt := BT CManuscript [] [BT CParagraph [] [txt "<script>"]].
(** A sentence that ends with math. *)
Definition wdot : bt := BT CManuscript [] [BT CParagraph [] [txt "let "; BT CMath [] [txt "x"]; txt ". Then"]].
(** A document translated twice. *)
Definition twice (m : id -> M (list tok)) (b : bt) : list tok := toks_of (snd (m 0 (fst (m 0 (built b))))).
Definition twice_ok (m : id -> M (list tok)) (b : bt) : bool := is_ok (snd (m 0 (fst (m 0 (built b))))).
Lemma witness_twice (m : id -> M (list tok)) b : fine b = true -> is_ok (out_of m b) = true -> twice_ok m b = true ->
  translatable (built b) (wtree b) /\ exists s' s'', m (root (wtree b)) (built b) = (s', Ok (toks_of (out_of m b))) /\
    m (root (wtree b)) s' = (s'', Ok (twice m b)).
Proof.
  intros H1 H2 H3. destruct (fine_ok b H1) as [H4 H5]. split; [assumption|]. rewrite H5. unfold out_of in *. unfold twice, twice_ok in *.
  exists (fst (m 0 (built b))). destruct (run_toks (m 0) (fst (m 0 (built b))) H3) as [s'' E]. exists s''. split; [|exact E].
  destruct (run_toks (m 0) (built b) H2) as [s' E']. rewrite E'. reflexivity.
Qed.

(** ** What goes wrong *)
Lemma not_nested_base : exists hl f s t s' h, translatable s t /\ translate hl f (root t) s = (s', Ok h) /\ ~ nested h.
Proof.
  destruct (witness wmath) as (H1 & s' & H2); [vm_compute; reflexivity|vm_compute; reflexivity|].
  exists nohl, 100, (built wmath), (wtree wmath), s', (html_toks wmath). split; [exact H1|]. split; [exact H2|].
  intros H. apply nestedb_ok in H. vm_compute in H. discriminate H.
Qed.
Lemma not_nested_hand : exists hl src f s t s' h, translatable s t /\ translate_handrails hl src f (root t) s = (s', Ok h) /\ ~ nested h.
Proof.
  destruct (witness_hand wmath2) as (H1 & s' & H2); [vm_compute; reflexivity|vm_compute; reflexivity|].
  exists nohl, false, 100, (built wmath2), (wtree wmath2), s', (hand_toks wmath2). split; [exact H1|]. split; [exact H2|].
  intros H. apply nestedb_ok in H. vm_compute in H. discriminate H.
Qed.
Definition uniqueb (s : st) (t : tree) : bool :=
  let L := map (fun x => (x, label_of (st_heap s) x)) (doc_order t) in
  forallb (fun p => forallb (fun q => Nat.eqb p.1 q.1 || negb (str_eqb p.2 q.2) || str_eqb p.2 []) L) L.
Lemma uniqueb_ok s t : uniqueb s t = true -> forall x y, x ∈ doc_order t -> y ∈ doc_order t -> label_of (st_heap s) x <> [] ->
     label_of (st_heap s) x = label_of (st_heap s) y -> x = y.
Proof.
  unfold uniqueb. intros H x y Hx Hy Hne E. set (L := map _ _) in *. assert (HL : forall x, x ∈ doc_order t -> In (x, label_of (st_heap s) x) L).
  { intros z Hz. apply in_map_iff. exists z. split; [reflexivity|apply elem_of_list_In; assumption]. }
  rewrite forallb_forall in H. specialize (H _ (HL x Hx)). rewrite forallb_forall in H. specialize (H _ (HL y Hy)). cbn [fst snd] in H.
  apply orb_true_iff in H as [H|H]; [|apply str_eqb_eq in H; contradiction].
  apply orb_true_iff in H as [H|H]; [apply Nat.eqb_eq in H; assumption|]. apply str_eqb_false in H. contradiction.
Qed.
Lemma ids_twice : exists hl f s t s' h, translatable s t /\
  (forall x y, x ∈ doc_order t -> y ∈ doc_order t -> label_of (st_heap s) x <> [] ->
     label_of (st_heap s) x = label_of (st_heap s) y -> x = y) /\
  translate hl f (root t) s = (s', Ok h) /\ ~ NoDup (SpecHtml.ids h).
Proof.
  destruct (witness wfig) as (H1 & s' & H2); [vm_compute; reflexivity|vm_compute; reflexivity|].
  exists nohl, 100, (built wfig), (wtree wfig), s', (html_toks wfig). split; [exact H1|]. split; [apply uniqueb_ok; vm_compute; reflexivity|]. split; [exact H2|].
  intros H. apply distinctb_ok in H. vm_compute in H. discriminate H.
Qed.
Lemma in_docb x t : existsb (Nat.eqb x) (doc_order t) = true -> x ∈ doc_order t.
Proof. intros H. apply existsb_exists in H as (y & Hy & E). apply Nat.eqb_eq in E as ->. apply elem_of_list_In. assumption. Qed.
Lemma is_class_of s x c : is_class s x c = true -> class_of (st_heap s) x c.
Proof. unfold is_class. intros H. destruct (st_heap s !! x) as [n|] eqn:E; [|discriminate H]. exists n. split; [assumption|]. destruct (cls_eqb_spec (n_cls n) c); [assumption|discriminate H]. Qed.
Lemma dead_link : exists hl f s t s' h x y, translatable s t /\
  translate hl f (root t) s = (s', Ok h) /\
  x ∈ doc_order t /\ class_of (st_heap s) x CReference /\ value (st_heap s) x a_target = Some (VNode y) /\
  y ∈ doc_order t /\ label_of (st_heap s) y <> [] /\ ~ label_of (st_heap s) y ∈ SpecHtml.ids h.
Proof.
  destruct (witness wcap) as (H1 & s' & H2); [vm_compute; reflexivity|vm_compute; reflexivity|].
  exists nohl, 100, (built wcap), (wtree wcap), s', (html_toks wcap), 5, 2. split; [exact H1|]. split; [exact H2|].
  split; [apply in_docb; vm_compute; reflexivity|]. split; [apply is_class_of; vm_compute; reflexivity|]. split; [vm_compute; reflexivity|].
  split; [apply in_docb; vm_compute; reflexivity|]. split; [apply str_eqb_false; vm_compute; reflexivity|].
  intros H. apply elem_of_list_In, str_mem_In in H. vm_compute in H. discriminate H.
Qed.
Fixpoint occursb (x s : str) : bool := begins x s || match s with [] => false | _ :: r => occursb x r end.
Lemma begins_ok x s : begins x s = true -> exists b, s = x ++ b.
Proof.
  revert s. induction x as [|a x IH]; intros s H; [exists s; reflexivity|]. destruct s as [|b s]; [discriminate H|]. cbn [begins] in H.
  apply andb_true_iff in H as [E H]. apply N.eqb_eq in E as ->. destruct (IH _ H) as [r ->]. exists r. reflexivity.
Qed.
Lemma occursb_ok x s : occursb x s = true <-> occurs x s.
Proof.
  induction s as [|c s IH]; cbn [occursb].
  - rewrite orb_false_r. split; [intros H; destruct (begins_ok _ _ H) as [b E]; exists [], b; assumption|].
    intros (a & b & E). symmetry in E. apply app_eq_nil in E as [-> E]. apply app_eq_nil in E as [-> E]. reflexivity.
  - rewrite orb_true_iff, IH. split.
    + intros [H|(a & b & ->)]; [destruct (begins_ok _ _ H) as [b E]; exists [], b; assumption|]. exists (c :: a), b. reflexivity.
    + intros (a & b & E). destruct a as [|a0 a]; cbn [app] in E; [left; rewrite E; apply begins_app|]. right. injection E as -> E. exists a, b. assumption.
Qed.
Lemma link_classes : exists hl f s t s' h, translatable s t /\ translate hl f (root t) s = (s', Ok h) /\
  occurs (lit "class=""reference x x""") (render h).
Proof.
  destruct (witness wtypes) as (H1 & s' & H2); [vm_compute; reflexivity|vm_compute; reflexivity|].
  exists nohl, 100, (built wtypes), (wtree wtypes), s', (html_toks wtypes). split; [exact H1|]. split; [exact H2|].
  apply occursb_ok. vm_compute. reflexivity.
Qed.
Lemma not_repeatable : exists hl src f s t s' s'' h h', translatable s t /\
  translate_handrails hl src f (root t) s = (s', Ok h) /\ translate_handrails hl src f (root t) s' = (s'', Ok h') /\
  render h <> render h'.
Proof.
  destruct (witness_twice (translate_handrails nohl false 100) wdot) as (H1 & s' & s'' & H2 & H3); [vm_compute; reflexivity|vm_compute; reflexivity|vm_compute; reflexivity|].
  eexists nohl, false, 100, (built wdot), (wtree wdot), s', s'', _, _. split; [exact H1|]. split; [exact H2|]. split; [exact H3|].
  apply str_eqb_false. vm_compute. reflexivity.
Qed.
Lemma not_escaped : exists hl f s t s' h x, translatable s t /\ translate hl f (root t) s = (s', Ok h) /\
  x ∈ doc_order t /\ class_of (st_heap s) x CText /\ text_at (st_heap s) x = lit "<script>" /\
  occurs (lit "<script>") (render h) /\ ~ occurs (html_escape (lit "<script>")) (render h).
Proof.
  destruct (witness wscript) as (H1 & s' & H2); [vm_compute; reflexivity|vm_compute; reflexivity|].
  exists nohl, 100, (built wscript), (wtree wscript), s', (html_toks wscript), 2. split; [exact H1|]. split; [exact H2|].
  split; [apply in_docb; vm_compute; reflexivity|]. split; [apply is_class_of; vm_compute; reflexivity|]. split; [vm_compute; reflexivity|].
  split; [apply occursb_ok; vm_compute; reflexivity|]. intros H. apply occursb_ok in H. vm_compute in H. discriminate H.
Qed.
