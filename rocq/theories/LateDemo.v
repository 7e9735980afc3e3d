(** Documents with mistakes that later passes find. *)
From Verif Require Export Late MistakesDemo.
From Verif Require Import ResolvePrev Autonumber Labels NodeOps Monad.
Local Open Scope string_scope.
Local Open Scope list_scope.

(** What the theorems about later mistakes suppose. *)
Definition sound_before (s : st) (t : tree) : Prop :=
  plausible s t /\ parents_permitted (st_heap s) /\ (forall x e, x ∈ doc_order t -> ~ mistake (st_heap s) t x e) /\
  ((exists x, x ∈ doc_order t /\ is_contents (st_heap s) x = true) -> well_nested (st_heap s) t).
Definition plausibleb (s : st) (t : tree) : bool :=
  typedb s && completeb s && placedb s && refsb s t && backlinksb s t && well_nestedb (st_heap s) t && is_class s (root t) CManuscript.
Lemma plausibleb_ok s t : SpecResult.ready s t -> plausibleb s t = true -> plausible s t /\ parents_permitted (st_heap s) /\ well_nested (st_heap s) t.
Proof.
  intros R H. unfold plausibleb in H. repeat (apply andb_true_iff in H as [H ?]).
  match goal with [ H1 : completeb s = true, H2 : placedb s = true, H3 : refsb s t = true, H4 : backlinksb s t = true,
    H8 : well_nestedb _ t = true, H10 : is_class s (root t) _ = true |- _ ] =>
    rename H1 into G1, H2 into G2, H3 into G3, H4 into G4, H8 into G8, H10 into G10 end.
  assert (F : forall p, forallb p (doc_order t) = true -> forall x, x ∈ doc_order t -> p x = true).
  { intros p Hp x Hx. rewrite forallb_forall in Hp. apply Hp, elem_of_list_In, Hx. }
  split; [|split; [apply placedb_ok, G2|apply well_nestedb_sound, G8]].
  constructor.
  - exact R.
  - apply typedb_ok, H.
  - apply completeb_ok, G1.
  - apply is_class_of, G10.
  - intros x Hx (n & Hn & Hc). pose proof (F _ G3 x Hx) as G. cbv beta in G. rewrite Hn, Hc, eqb_refl_neg in G. cbn [orb] in G.
    unfold value. rewrite Hn. destruct (n_attrs n !! a_target) as [[]|]; try discriminate G. eauto.
  - intros x v Hx Hv. pose proof (F _ G4 x Hx) as G. cbv beta in G. rewrite Hv in G. apply is_class_of, G.
Qed.
Definition mistakesb (s : st) (t : tree) : bool :=
  forallb (fun x => negb (is_class s x CPendingPrev || is_class s x CPendingCite)) (doc_order t).
Lemma mistakesb_ok s t : mistakesb s t = true -> forall x e, x ∈ doc_order t -> ~ mistake (st_heap s) t x e.
Proof.
  intros H x e Hx Hmi. unfold mistakesb in H. rewrite forallb_forall in H. specialize (H x (proj1 (elem_of_list_In _ _) Hx)).
  assert (C : forall c, class_of (st_heap s) x c -> is_class s x c = true).
  { intros c (n & Hn & <-). unfold is_class. rewrite Hn. destruct (n_cls n); reflexivity. }
  destruct Hmi as [Hc|? ? Hc|? ? ? Hc|? ? ? Hc]; rewrite (C _ Hc) in H; cbn in H; try discriminate. rewrite orb_true_r in H. discriminate.
Qed.
Lemma sound_if b : snd (Build.run (build b)) = Ok 0 -> errors_unlabelledb (built b) = true ->
  check_document (st_heap (built b)) (wtree b) = true -> plausibleb (built b) (wtree b) = true -> mistakesb (built b) (wtree b) = true ->
  sound_before (built b) (wtree b).
Proof.
  intros H1 H2 H3 H4 H5. destruct (plausibleb_ok (built b) (wtree b)) as (G1 & G2 & G3); [apply built_ready_tree; assumption|exact H4|].
  split; [exact G1|]. split; [exact G2|]. split; [apply mistakesb_ok, H5|auto].
Qed.

Lemma subproof_first_sound : sound_before (built subproof_first) (wtree subproof_first).
Proof. apply sound_if; vm_compute; reflexivity. Qed.
Lemma appendices_sound : sound_before (built (appendices 27)) (wtree (appendices 27)).
Proof. apply sound_if; vm_compute; reflexivity. Qed.
(** A construct without a kind, and a good one before it. *)
Definition kindless : bt :=
  BT CManuscript [] [BT CParagraph [] [BT CConstruct [(a_kind, VStr (lit "let"))] []; BT CConstruct [] []]].
Lemma kindless_sound : sound_before (built kindless) (wtree kindless).
Proof. apply sound_if; vm_compute; reflexivity. Qed.

Definition misplacedb (s : st) (x : id) : bool :=
  match st_heap s !! x with
  | Some n => is_class s x CStep && match kids n with c :: _ :: _ => is_class s c CSubproof | _ => false end
  | None => false
  end.
Lemma misplacedb_ok s x : misplacedb s x = true -> misplaced_subproof (st_heap s) x.
Proof.
  unfold misplacedb. destruct (st_heap s !! x) as [n|] eqn:Hn; [|discriminate]. intros H. apply andb_true_iff in H as [H1 H2].
  destruct (kids n) as [|c [|d ds]] eqn:Ek; try discriminate. split; [apply is_class_of, H1|]. exists [], c, (d :: ds).
  split; [exists n; auto|]. split; [intros y Hy; inversion Hy|]. split; [apply is_class_of, H2|discriminate].
Qed.
Lemma in_order (l : list id) (p : id -> bool) : existsb p l = true -> exists x, x ∈ l /\ p x = true.
Proof. intros H. apply existsb_exists in H as (x & Hx & Hp). exists x. split; [apply elem_of_list_In, Hx|exact Hp]. Qed.
Lemma subproof_first_bad : exists x, x ∈ doc_order (wtree subproof_first) /\ misplaced_subproof (st_heap (built subproof_first)) x.
Proof.
  assert (H : existsb (misplacedb (built subproof_first)) (doc_order (wtree subproof_first)) = true) by (vm_compute; reflexivity).
  apply in_order in H as (x & Hx & H). exists x. split; [exact Hx|exact (misplacedb_ok _ _ H)].
Qed.
Lemma appendices_good_steps x : x ∈ doc_order (wtree (appendices 27)) -> ~ misplaced_subproof (st_heap (built (appendices 27))) x.
Proof.
  intros Hx ((n & Hn & Hc) & _).
  assert (K : forallb (fun x => negb (is_class (built (appendices 27)) x CStep)) (doc_order (wtree (appendices 27))) = true) by (vm_compute; reflexivity).
  rewrite forallb_forall in K. specialize (K x (proj1 (elem_of_list_In _ _) Hx)). unfold is_class in K. rewrite Hn, Hc in K. discriminate K.
Qed.
Lemma letters_if s t : sound_before s t -> (forall x, x ∈ doc_order t -> ~ misplaced_subproof (st_heap s) x) ->
  forallb (fun x => negb (is_construct (st_heap s) x)) (doc_order t) = true -> snd (transform 300 [] (root t) s) = Err EStopIteration ->
  exists x, no_letter (st_heap s) t x.
Proof.
  intros (H1 & H2 & H3 & H4) Hsub K X.
  destruct (all_outcomes _ _ H1 H2 H4) as [(s' & f & d & E)|[(x & e & [Hm (p & q & El & _)] & _)|[[(x & Hx & Hm) _]|[[(x & Hx & Hm) _]|[(x & Hx & Hm & _) _]]]]].
  - exfalso. assert (En : enough (transform 300 [] (root t) s)) by (unfold enough; rewrite X; congruence).
    pose proof (mono_transform [] (root t) 300 (300 + f) s ltac:(lia) En) as M1.
    pose proof (mono_ok (fun f => transform f [] (root t)) f (300 + f) _ _ _ (mono_transform [] (root t)) ltac:(lia) E) as M2.
    cbv beta in M1, M2. rewrite M1 in M2. rewrite M2 in X. discriminate X.
  - destruct (H3 x e); [rewrite El; set_solver|exact Hm].
  - destruct (Hsub x Hx Hm).
  - exists x. exact Hm.
  - exfalso. rewrite forallb_forall in K. specialize (K x (proj1 (elem_of_list_In _ _) Hx)). rewrite Hm in K. discriminate K.
Qed.
Lemma appendices_bad : exists x, no_letter (st_heap (built (appendices 27))) (wtree (appendices 27)) x.
Proof. apply letters_if; [exact appendices_sound|exact appendices_good_steps|vm_compute; reflexivity|vm_compute; reflexivity]. Qed.
Definition kindlessb (s : st) (x : id) : bool :=
  is_construct (st_heap s) x && match value (st_heap s) x a_kind with Some (VStr []) => true | _ => false end.
Lemma kindlessb_ok s x : kindlessb s x = true -> no_kind (st_heap s) x.
Proof.
  unfold kindlessb. intros H. apply andb_true_iff in H as [H1 H2]. split; [exact H1|]. intros kind E. rewrite E in H2. destruct kind; [reflexivity|discriminate].
Qed.
Lemma kindless_bad : exists x, x ∈ doc_order (wtree kindless) /\ no_kind (st_heap (built kindless)) x.
Proof.
  assert (H : existsb (kindlessb (built kindless)) (doc_order (wtree kindless)) = true) by (vm_compute; reflexivity).
  apply in_order in H as (x & Hx & H). exists x. split; [exact Hx|exact (kindlessb_ok _ _ H)].
Qed.
Lemma kindless_raises : snd (transform 300 [] (root (wtree kindless)) (built kindless)) = Err EAssert.
Proof. vm_compute. reflexivity. Qed.
Lemma kindless_one : later_contents (st_heap (built kindless)) (wtree kindless) = [].
Proof. vm_compute. reflexivity. Qed.
