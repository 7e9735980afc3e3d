(** Documents with mistakes in their references. *)
From Verif Require Export TransformErr.
From Verif Require Export Mistakes TotalDemo.
From Verif Require Import ResolvePrev Autonumber Labels NodeOps Monad.
Local Open Scope string_scope.
Local Open Scope list_scope.

Definition backlinksb (s : st) (t : tree) : bool :=
  forallb (fun x => match value (st_heap s) x a_backlinks with Some _ => is_class s x CBibitem | None => true end) (doc_order t).
Definition fineb (s : st) (t : tree) : bool :=
  typedb s && completeb s && placedb s && refsb s t && backlinksb s t && subproofsb s t && lettersb s t &&
  well_nestedb (st_heap s) t && kindsb s t && is_class s (root t) CManuscript.
Lemma fineb_ok s t : SpecResult.ready s t -> fineb s t = true -> fine_otherwise s t.
Proof.
  intros R H. unfold fineb in H. repeat (apply andb_true_iff in H as [H ?]).
  match goal with [ H1 : completeb s = true, H2 : placedb s = true, H3 : refsb s t = true, H4 : backlinksb s t = true,
    H6 : subproofsb s t = true, H7 : lettersb s t = true, H8 : well_nestedb _ t = true, H9 : kindsb s t = true, H10 : is_class s (root t) _ = true |- _ ] =>
    rename H1 into G1, H2 into G2, H3 into G3, H4 into G4, H6 into G6, H7 into G7, H8 into G8, H9 into G9, H10 into G10 end.
  assert (F : forall p, forallb p (doc_order t) = true -> forall x, x ∈ doc_order t -> p x = true).
  { intros p Hp x Hx. rewrite forallb_forall in Hp. apply Hp, elem_of_list_In, Hx. }
  constructor.
  - constructor.
    + exact R.
    + apply typedb_ok, H.
    + apply completeb_ok, G1.
    + apply is_class_of, G10.
    + intros x Hx (n & Hn & Hc). pose proof (F _ G3 x Hx) as G. cbv beta in G. rewrite Hn, Hc, eqb_refl_neg in G. cbn [orb] in G.
      unfold value. rewrite Hn. destruct (n_attrs n !! a_target) as [[]|]; try discriminate G. eauto.
    + intros x v Hx Hv. pose proof (F _ G4 x Hx) as G. cbv beta in G. rewrite Hv in G. apply is_class_of, G.
  - apply placedb_ok, G2.
  - intros x pre c post Hx (n & Hn & Hc) (n' & Hn' & Hk) Hp Hcc. pose proof (F _ G6 x Hx) as G. cbv beta in G. rewrite Hn, Hc, eqb_refl_neg in G. cbn [orb] in G.
    assert (n' = n) as -> by congruence. eapply (subs_lastb_ok _ _ G); eauto.
  - intros p x q sc k E Hn Hw _ Hsc Hk. unfold lettersb in G7. rewrite forallb_forall in G7. specialize (G7 (length p)).
    rewrite E, list_lookup_middle, take_app in G7 by reflexivity. rewrite (count_current _ _ _ _ _ _ Hsc Hk) in G7.
    apply Nat.ltb_lt, G7. rewrite app_length. cbn [length]. apply in_seq. lia.
  - intros _. apply well_nestedb_sound, G8.
  - intros x Hx Hc. pose proof (F _ G9 x Hx) as G. cbv beta in G. rewrite Hc in G. cbn [negb orb] in G.
    destruct (value (st_heap s) x a_kind) as [[| | | |[|c r]| | | |]|]; try discriminate G. exists (c :: r). split; [reflexivity|discriminate].
Qed.

(** The document of [b] has a first mistake, with the exception [e]. *)
Definition flawed (b : bt) (e : exn) : Prop :=
  fine_otherwise (built b) (wtree b) /\ exists x, first_mistake (built b) (wtree b) x e.
Lemma flawed_by F b e : snd (Build.run (build b)) = Ok 0 -> errors_unlabelledb (built b) = true ->
  check_document (st_heap (built b)) (wtree b) = true -> fineb (built b) (wtree b) = true -> 
  e <> EOutOfFuel -> snd (transform F [] (root (wtree b)) (built b)) = Err e -> flawed b e.
Proof.
  intros H1 H2 H3 H4 He H6.
  assert (FO : fine_otherwise (built b) (wtree b)) by (apply fineb_ok; [apply built_ready_tree; assumption|exact H4]).
  split; [exact FO|].
  assert (En : enough (transform F [] (root (wtree b)) (built b))) by (unfold enough; rewrite H6; congruence).
  destruct (outcomes _ _ FO) as [(s' & f & d & E)|(x & e' & Hx & f & E)].
  - pose proof (mono_transform [] (root (wtree b)) F (F + f) (built b) ltac:(lia) En) as M1.
    pose proof (mono_ok (fun f => transform f [] (root (wtree b))) f (F + f) _ _ _ (mono_transform [] (root (wtree b))) ltac:(lia) E) as M2.
    cbv beta in M1, M2. rewrite M1 in M2. rewrite M2 in H6. discriminate H6.
  - exists x. destruct (E (F + f) ltac:(lia)) as [s' M2].
    pose proof (mono_transform [] (root (wtree b)) F (F + f) (built b) ltac:(lia) En) as M1.
    cbv beta in M1. rewrite M1 in M2. rewrite M2 in H6. cbn in H6. injection H6 as <-. exact Hx.
Qed.

Lemma flawed_if b e : snd (Build.run (build b)) = Ok 0 -> errors_unlabelledb (built b) = true ->
  check_document (st_heap (built b)) (wtree b) = true -> fineb (built b) (wtree b) = true ->
  e <> EOutOfFuel -> snd (transform 300 [] (root (wtree b)) (built b)) = Err e -> flawed b e.
Proof. apply (flawed_by 300). Qed.

(** Good references, then a :prev: with one step before it that wants two, then a citation of a section. *)
Definition prev_far : bt :=
  BT CManuscript [] [
    BT CSection [(a_label, VStr (lit "sec"))] [
      BT CParagraph [] [BT CPendingCite [(a_targetlabels, VStrs [lit "bib"; lit "other"])] []; BT CPendingReference [(a_target, VStr (lit "sec"))] []];
      BT CProof [] [BT CStep [] [txt "one"]; BT CStep [] [BT CPendingPrev [(a_target, VStr (lit "1"))] []; BT CPendingPrev [(a_target, VStr (lit "2"))] []]];
      BT CParagraph [] [BT CPendingCite [(a_targetlabels, VStrs [lit "sec"])] []]];
    BT CBibliography [] [BT CBibitem [(a_label, VStr (lit "bib"))] []]].
Lemma prev_far_flawed : flawed prev_far (ETransformer (lit "Did not find previous 2 step(s)")).
Proof. apply flawed_if; try (vm_compute; reflexivity); discriminate. Qed.
Lemma cites_section_flawed : flawed cites_section EAttribute.
Proof. apply flawed_if; try (vm_compute; reflexivity); discriminate. Qed.
Lemma prev_letter_flawed : flawed prev_letter EValue.
Proof. apply flawed_if; try (vm_compute; reflexivity); discriminate. Qed.
Definition prev_outside_doc : bt :=
  BT CManuscript [] [BT CProof [] [BT CParagraph [] [BT CPendingPrev [(a_target, VStr (lit "1"))] []]]].
Lemma prev_outside_flawed : flawed prev_outside_doc (ETransformer (lit "Found :prev: tag outside proof step")).
Proof. apply flawed_if; try (vm_compute; reflexivity); discriminate. Qed.

(** Nothing but these exceptions. *)
Lemma errors_bounded fuel s t s' e : manuscript s t -> transform fuel [] (root t) s = (s', Err e) -> transform_errs e.
Proof.
  intros Hm H. eapply transform_raises_only; [|eapply manuscript_some; [exact Hm|apply root_in_doc_order]|exact H].
  apply good_there. split; [apply (ms_fresh _ _ Hm)|apply (ms_consistent _ _ Hm)].
Qed.
(** A table of contents in a section, and subsubsections outside of subsections. *)
Definition toc_in_section : bt :=
  BT CManuscript [] [BT CSection [] [BT CContents [] []; BT CSubsubsection [] []]; BT CSection [] [BT CSubsubsection [] []]].
Lemma toc_in_section_fails : exists m, fails_with toc_in_section (ENode m).
Proof. eexists. apply fails_if; vm_compute; reflexivity. Qed.
