(** A check of [transformable], and a document that passes. *)
From Verif Require Export TransformTotal TransformDemo TrDemo.
From Verif Require NodeProofs.
From Verif Require Import ResolvePrev Autonumber Labels NodeOps Monad.
Local Open Scope list_scope.

Definition typedb (s : st) : bool :=
  all_nodes s (fun _ n => forallb (fun p => attr_shape p.1 p.2 && forallb (alive s) (nodes_in p.2)) (map_to_list (n_attrs n))).
Lemma typedb_ok s : typedb s = true -> typed s.
Proof.
  intros H i n a v Hi Ha. pose proof (all_nodes_ok _ _ i n H Hi) as G. cbv beta in G. rewrite forallb_forall in G.
  assert (Hin : In (a, v) (map_to_list (n_attrs n))) by (apply elem_of_list_In, elem_of_map_to_list; exact Ha).
  specialize (G _ Hin). apply andb_true_iff in G as [G1 G2]. split; [exact G1|]. intros y Hy. rewrite forallb_forall in G2.
  apply alive_ok, G2, elem_of_list_In, Hy.
Qed.
Definition completeb (s : st) : bool :=
  all_nodes s (fun _ n => forallb (fun a => match n_attrs n !! a with Some _ => true | None => false end) (map fst (default_attrs (n_cls n)))).
Lemma completeb_ok s : completeb s = true -> complete s.
Proof.
  intros H i n a Hi Ha. pose proof (all_nodes_ok _ _ i n H Hi) as G. cbv beta in G. rewrite forallb_forall in G. specialize (G a Ha).
  destruct (n_attrs n !! a); [eauto|discriminate].
Qed.
Definition placedb (s : st) : bool :=
  all_nodes s (fun _ n => match n_parent n with
    | Some p => match st_heap s !! p with
                | Some m => match possible_parents (n_cls n) with [] => true | ps => cls_mem (n_cls m) ps end
                | None => true end
    | None => true end).
Lemma placedb_ok s : placedb s = true -> parents_permitted (st_heap s).
Proof.
  intros H x n p m Hx Hp Hm. pose proof (all_nodes_ok _ _ x n H Hx) as G. cbv beta in G. rewrite Hp, Hm in G. unfold permitted.
  destruct (possible_parents (n_cls n)) as [|c ps]; [auto|]. right. apply NodeProofs.cls_mem_spec. exact G.
Qed.
Definition refsb (s : st) (t : tree) : bool :=
  forallb (fun x => match st_heap s !! x with
    | Some n => negb (cls_eqb (n_cls n) CPendingReference) || match n_attrs n !! a_target with Some (VStr _) => true | _ => false end
    | None => true end) (doc_order t).
Definition citesb (s : st) (t : tree) : bool :=
  forallb (fun x => match st_heap s !! x with
    | Some n => negb (cls_eqb (n_cls n) CPendingCite) ||
        match n_attrs n !! a_targetlabels with
        | Some (VStrs ks) => forallb (fun k => match find_label (st_heap s) (doc_order t) k with Some y => is_class s y CBibitem | None => true end) ks
        | _ => true end
    | None => true end) (doc_order t).
Definition prevsb (s : st) (t : tree) : bool :=
  forallb (fun x => match st_heap s !! x with
    | Some n => negb (cls_eqb (n_cls n) CPendingPrev) || is_ok (snd (resolve_prev 100 x s))
    | None => true end) (doc_order t).
Fixpoint subs_lastb (s : st) (cs : list id) : bool :=
  match cs with
  | [] => true
  | c :: r => if is_class s c CSubproof then match r with [] => true | _ => false end
              else is_class s c CStep || subs_lastb s r
  end.
Definition subproofsb (s : st) (t : tree) : bool :=
  forallb (fun x => match st_heap s !! x with Some n => negb (cls_eqb (n_cls n) CStep) || subs_lastb s (kids n) | None => true end) (doc_order t).
Definition lettersb (s : st) (t : tree) : bool :=
  forallb (fun j => match doc_order t !! j with
    | Some x => Nat.ltb (count_in (st_heap s) [CManuscript] (sequence_of (st_heap s) x) (take j (doc_order t))) 26
    | None => true end) (seq 0 (length (doc_order t))).
Definition kindsb (s : st) (t : tree) : bool :=
  forallb (fun x => negb (is_construct (st_heap s) x) || match value (st_heap s) x a_kind with Some (VStr (_ :: _)) => true | _ => false end) (doc_order t).
Definition transformableb (s : st) (t : tree) : bool :=
  typedb s && completeb s && placedb s && refsb s t && citesb s t && prevsb s t && subproofsb s t && lettersb s t &&
  well_nestedb (st_heap s) t && kindsb s t && is_class s (root t) CManuscript.

Lemma is_class_of s x c : is_class s x c = true -> class_of (st_heap s) x c.
Proof. unfold is_class. destruct (st_heap s !! x) as [n|] eqn:E; [|discriminate]. destruct (cls_eqb_spec (n_cls n) c); [|discriminate]. intros _. exists n. auto. Qed.
Lemma eqb_refl_neg c : negb (cls_eqb c c) = false.
Proof. destruct (cls_eqb_spec c c); [reflexivity|congruence]. Qed.
Lemma subs_lastb_ok s cs : subs_lastb s cs = true -> subs_last (st_heap s) cs.
Proof.
  induction cs as [|c r IH]; intros H pre c' post E Hp Hc; [destruct pre; discriminate|]. cbn [subs_lastb] in H.
  destruct pre as [|y pre]; cbn [app] in E; injection E as <- E.
  - rewrite (is_class_ok _ _ _ Hc) in H. subst r. destruct post; [reflexivity|discriminate].
  - destruct (is_class s c CSubproof) eqn:E1; [exfalso; apply (Hp c); [constructor|right; apply is_class_of, E1]|].
    destruct (is_class s c CStep) eqn:E2; [exfalso; apply (Hp c); [constructor|left; apply is_class_of, E2]|].
    apply (IH H pre c' post E); [|exact Hc]. intros z Hz. apply Hp. constructor. exact Hz.
Qed.
Lemma transformableb_ok s t : SpecResult.ready s t -> transformableb s t = true -> transformable s t.
Proof.
  intros R H. unfold transformableb in H. repeat (apply andb_true_iff in H as [H ?]).
  match goal with [ H1 : completeb s = true, H2 : placedb s = true, H3 : refsb s t = true, H4 : citesb s t = true, H5 : prevsb s t = true,
    H6 : subproofsb s t = true, H7 : lettersb s t = true, H8 : well_nestedb _ t = true, H9 : kindsb s t = true, H10 : is_class s (root t) _ = true |- _ ] =>
    rename H1 into G1, H2 into G2, H3 into G3, H4 into G4, H5 into G5, H6 into G6, H7 into G7, H8 into G8, H9 into G9, H10 into G10 end.
  assert (F : forall p, forallb p (doc_order t) = true -> forall x, x ∈ doc_order t -> p x = true).
  { intros p Hp x Hx. rewrite forallb_forall in Hp. apply Hp, elem_of_list_In, Hx. }
  constructor.
  - exact R.
  - apply typedb_ok, H.
  - apply completeb_ok, G1.
  - apply is_class_of, G10.
  - apply placedb_ok, G2.
  - intros x Hx (n & Hn & Hc). pose proof (F _ G3 x Hx) as G. cbv beta in G. rewrite Hn, Hc, eqb_refl_neg in G. cbn [orb] in G.
    unfold value. rewrite Hn. destruct (n_attrs n !! a_target) as [[]|]; try discriminate G. eauto.
  - intros x keys k y Hx (n & Hn & Hc) Hv Hk Hy. pose proof (F _ G4 x Hx) as G. cbv beta in G. rewrite Hn, Hc, eqb_refl_neg in G. cbn [orb] in G.
    unfold value in Hv. rewrite Hn in Hv. rewrite Hv in G. rewrite forallb_forall in G. specialize (G k ltac:(apply elem_of_list_In, Hk)).
    pose proof (proj1 Hy) as Hne. apply find_label_first in Hy; [|exact Hne]. rewrite Hy in G. apply is_class_of, G.
  - intros x Hx (n & Hn & Hc). pose proof (F _ G5 x Hx) as G. cbv beta in G. rewrite Hn, Hc, eqb_refl_neg in G. cbn [orb] in G.
    destruct (resolve_prev 100 x s) as [s' [u|e]] eqn:E; [|discriminate G].
    destruct (resolve_prev_ok _ _ _ _ _ (manuscript_good _ _ (proj1 R)) E) as (r & y & ov & _ & _ & step & tv & k & H1 & H2 & H3 & H4).
    exists step, tv, k, y. auto.
  - intros x pre c post Hx (n & Hn & Hc) (n' & Hn' & Hk) Hp Hcc. pose proof (F _ G6 x Hx) as G. cbv beta in G. rewrite Hn, Hc, eqb_refl_neg in G. cbn [orb] in G.
    assert (n' = n) as -> by congruence. eapply (subs_lastb_ok _ _ G); eauto.
  - intros p x q sc k E Hn Hw _ Hsc Hk. unfold lettersb in G7. rewrite forallb_forall in G7. specialize (G7 (length p)).
    rewrite E, list_lookup_middle, take_app in G7 by reflexivity. rewrite (count_current _ _ _ _ _ _ Hsc Hk) in G7.
    apply Nat.ltb_lt, G7. rewrite app_length. cbn [length]. apply in_seq. lia.
  - intros _. apply well_nestedb_sound, G8.
  - intros x Hx Hc. pose proof (F _ G9 x Hx) as G. cbv beta in G. rewrite Hc in G. cbn [negb orb] in G.
    destruct (value (st_heap s) x a_kind) as [[| | | |[|c r]| | | |]|]; try discriminate G. exists (c :: r). split; [reflexivity|discriminate].
Qed.
Lemma tdemo_transformable : transformable tdemo_st tdemo_tree.
Proof. apply transformableb_ok; [exact tdemo_ready|]. vm_compute. reflexivity. Qed.
