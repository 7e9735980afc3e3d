(** Whether there is a mistake can be decided. *)
From Verif Require Export Stuck3.
Local Open Scope string_scope.
Local Open Scope list_scope.

(** The mistake at a node. *)
Definition mindedb (h : gmap id node) (x : id) : option exn :=
  match h !! x with
  | None => None
  | Some n =>
      if subclass (n_cls n) CBibitem then (if proper_entryb h x then None else Some EAttribute) else
      match n_cls n with
      | CMathBlock =>
          match n_parent n with
          | Some p => match h !! p with Some np => if cls_eqb (n_cls np) CParagraph then None else Some EAssert | None => Some EAssert end
          | None => Some EAssert
          end
      | CReference => match n_attrs n !! a_target with Some (VNode _) => None | _ => Some EAttribute end
      | CURL => match n_attrs n !! a_target with Some VNone | Some (VStr []) => Some (ETranslator (lit "Found a node without a target")) | _ => None end
      | _ => None
      end
  end.
Lemma cls_eqb_same c d : cls_eqb c d = true <-> c = d.
Proof. split; [|intros ->; destruct d; reflexivity]. destruct c, d; try reflexivity; intros H; discriminate H. Qed.
Lemma mindedb_spec h x e : mindedb h x = Some e <-> minded h x e.
Proof.
  unfold mindedb. split.
  - destruct (h !! x) as [n|] eqn:Hn; [|discriminate].
    assert (V : forall a, value h x a = n_attrs n !! a) by (intros a; unfold value; rewrite Hn; reflexivity).
    destruct (subclass (n_cls n) CBibitem) eqn:Es.
    + destruct (proper_entryb h x) eqn:Ep; [discriminate|]. intros [= <-]. eapply (minded_entry _ _ (n_cls n)); [exists n; auto|exact Es|].
      intros H. apply proper_entryb_ok in H. congruence.
    + destruct (n_cls n) eqn:Ec; try discriminate.
      * intros H. assert (e = EAssert) as ->.
        { destruct (n_parent n) as [p|]; [|congruence]. destruct (h !! p) as [np|]; [|congruence]. destruct (cls_eqb _ _); congruence. }
        apply minded_formula; [exists n; auto|]. intros p (n' & Hn' & Hp) (np & Hnp & Hc). assert (n' = n) as -> by congruence.
        rewrite Hp, Hnp, Hc in H. discriminate H.
      * intros H. assert (e = EAttribute) as -> by (destruct (n_attrs n !! a_target) as [[]|]; congruence).
        apply minded_reference; [exists n; auto|]. intros y Hy. rewrite V in Hy. rewrite Hy in H. discriminate H.
      * intros H. destruct (n_attrs n !! a_target) as [[| | | |u| | | |]|] eqn:Et; try discriminate H; [|destruct u; [|discriminate H]]; injection H as <-;
          (apply minded_link; [exists n; auto|rewrite V, Et; auto]).
  - intros [(n & Hn & Hc) Hp|(n & Hn & Hc) Hp|(n & Hn & Hc) Hp|c (n & Hn & Hc) Hs Hp]; rewrite Hn, Hc;
      try (assert (V : forall a, value h x a = n_attrs n !! a) by (intros a; unfold value; rewrite Hn; reflexivity)).
    + change (subclass CMathBlock CBibitem) with false. cbv iota. destruct (n_parent n) as [p|] eqn:Ep; [|reflexivity]. destruct (h !! p) as [np|] eqn:Enp; [|reflexivity].
      destruct (cls_eqb (n_cls np) CParagraph) eqn:E; [|reflexivity]. apply cls_eqb_same in E. exfalso. apply (Hp p); [exists n; auto|exists np; auto].
    + change (subclass CReference CBibitem) with false. cbv iota. rewrite V in Hp. destruct (n_attrs n !! a_target) as [[]|]; try reflexivity. exfalso. eapply Hp. reflexivity.
    + change (subclass CURL CBibitem) with false. cbv iota. rewrite V in Hp. destruct Hp as [-> | ->]; reflexivity.
    + rewrite Hs. destruct (proper_entryb h x) eqn:E; [|reflexivity]. apply proper_entryb_ok in E. contradiction.
Qed.
Fixpoint first_b (f : id -> option exn) (l : list id) : option (id * exn) :=
  match l with [] => None | x :: r => match f x with Some e => Some (x, e) | None => first_b f r end end.
Lemma first_b_ok f l x e : first_b f l = Some (x, e) -> f x = Some e /\ exists p q, l = p ++ x :: q /\ forall y e', y ∈ p -> f y <> Some e'.
Proof.
  induction l as [|y l IH]; [discriminate|]. cbn [first_b]. destruct (f y) as [e0|] eqn:E.
  - intros [= -> ->]. split; [exact E|]. exists [], l. split; [reflexivity|]. intros z e' Hz. inversion Hz.
  - intros H. destruct (IH H) as (Hf & p & q & -> & Hp). split; [exact Hf|]. exists (y :: p), q. split; [reflexivity|].
    intros z e' Hz. apply elem_of_cons in Hz as [->|Hz]; [congruence|apply Hp, Hz].
Qed.
Lemma first_if s t x e : first_b (mindedb (st_heap s)) (doc_order t) = Some (x, e) -> first_minded s t x e.
Proof.
  intros H. apply first_b_ok in H as (Hf & p & q & Hd & Hp). split; [apply mindedb_spec, Hf|]. exists p, q. split; [exact Hd|].
  intros y e' Hy Hm. apply mindedb_spec in Hm. eapply Hp; eassumption.
Qed.

Definition saysb (n : node) (a : attr) : bool := match n_attrs n !! a with Some v => truthy v | None => false end.
Definition mindedrb (h : gmap id node) (x : id) : option exn :=
  match mindedb h x with
  | Some e => Some e
  | None => match h !! x with
            | Some n => if cls_eqb (n_cls n) CAuthor && negb (saysb n a_name || saysb n a_affiliation || saysb n a_email) then Some EAttribute else None
            | None => None
            end
  end.
Lemma mindedrb_spec h x e : mindedrb h x = Some e <-> minded_rails h x e.
Proof.
  unfold mindedrb. split.
  - destruct (mindedb h x) as [e0|] eqn:E; [intros [= ->]; apply minded_same, mindedb_spec, E|].
    destruct (h !! x) as [n|] eqn:Hn; [|discriminate]. destruct (cls_eqb (n_cls n) CAuthor) eqn:Ec; [|discriminate]. cbn [andb].
    destruct (saysb n a_name || saysb n a_affiliation || saysb n a_email) eqn:Es; [discriminate|]. intros [= <-]. apply cls_eqb_same in Ec.
    apply orb_false_iff in Es as [Es E3]. apply orb_false_iff in Es as [E1 E2].
    apply minded_author; [exists n; auto|]. intros a v Ha Hv. unfold value in Hv. rewrite Hn in Hv. unfold saysb in *.
    destruct Ha as [<-|[<-|[<-|[]]]]; rewrite Hv in *; assumption.
  - intros [e' H|(n & Hn & Hc) H].
    + apply mindedb_spec in H. rewrite H. reflexivity.
    + assert (E : mindedb h x = None) by (unfold mindedb; rewrite Hn, Hc; reflexivity). rewrite E, Hn, Hc. change (cls_eqb CAuthor CAuthor) with true. cbn [andb].
      assert (S : forall a, In a [a_name; a_affiliation; a_email] -> saysb n a = false).
      { intros a Ha. unfold saysb. destruct (n_attrs n !! a) as [v|] eqn:Ev; [|reflexivity]. apply (H a v Ha). unfold value. rewrite Hn. exact Ev. }
      rewrite (S a_name ltac:(cbn; auto)), (S a_affiliation ltac:(cbn; auto)), (S a_email ltac:(cbn; auto)). reflexivity.
Qed.
Lemma first_rails_if s t x e : first_b (mindedrb (st_heap s)) (doc_order t) = Some (x, e) -> first_minded_rails s t x e.
Proof.
  intros H. apply first_b_ok in H as (Hf & p & q & Hd & Hp). split; [apply mindedrb_spec, Hf|]. exists p, q. split; [exact Hd|].
  intros y e' Hy Hm. apply mindedrb_spec in Hm. eapply Hp; eassumption.
Qed.
Lemma first_b_some f l x e : x ∈ l -> f x = Some e -> exists y e', first_b f l = Some (y, e').
Proof.
  intros Hx Hf. induction l as [|z l IH]; [inversion Hx|]. cbn [first_b]. destruct (f z) as [e0|] eqn:E; [eauto|].
  apply elem_of_cons in Hx as [->|Hx]; [congruence|]. apply IH, Hx.
Qed.
(** If there is a mistake, there is a first one. *)
Lemma first_exists s t x e : x ∈ doc_order t -> minded (st_heap s) x e -> exists y e', first_minded s t y e'.
Proof. intros Hx Hm. apply mindedb_spec in Hm. destruct (first_b_some _ _ _ _ Hx Hm) as (y & e' & H). exists y, e'. apply first_if, H. Qed.
Lemma first_exists_rails s t x e : x ∈ doc_order t -> minded_rails (st_heap s) x e -> exists y e', first_minded_rails s t y e'.
Proof. intros Hx Hm. apply mindedrb_spec in Hm. destruct (first_b_some _ _ _ _ Hx Hm) as (y & e' & H). exists y, e'. apply first_rails_if, H. Qed.
