(** Filling the table of contents returns. *)
From Verif Require Export TotalBase TocEntries.
From Verif Require Import TotalResolve EditTotal ResolveAll ResolvePrev Subproofs HandrailDepth Autonumber Queries TreeFacts Traverse NodeOps Monad.
Local Open Scope list_scope.

Lemma TI_numberable s : TI s -> numberable (st_heap s).
Proof.
  intros [_ Hc] x n Hn. split; apply (Hc x n); auto; apply always.
Qed.
Lemma reftext_ends s x n : good s -> TI s -> st_heap s !! x = Some n -> subclass (n_cls n) CSection = true ->
  exists F, ends (toc_reftext F x) s (fun _ _ => True).
Proof.
  intros [_ Hc] HT Hx Hsec.
  destruct (ancestors_of (st_heap s) x Hc) as [l Hl]; [eauto|]. exists (S (size (st_heap s) + length l)).
  unfold toc_reftext. eapply ends_bind; [eapply (ends_getattr x a_title s n (fun _ s' => s' = s)); auto|].
  { destruct (section_classes _ Hsec) as [E|[E|E]]; rewrite E; vm_compute; tauto. }
  intros v s' _ ->. eapply ends_bind; [eapply (ends_getattr x a_nonum s n (fun _ s' => s' = s)); auto; apply always|].
  intros w s' _ ->. destruct (truthy w); [apply ends_ret; exact I|].
  destruct (full_number_total_aux (S (size (st_heap s) + length l)) x l s Hc (TI_numberable _ HT)) as (s' & r & E); [eauto|exact Hl|lia|].
  eapply ends_run; [exact E|]. apply ends_ret. exact I.
Qed.
Lemma t_toc_body F toc acc j X : okM X (toc_body F toc acc j) tt_ no_.
Proof.
  unfold toc_body. eapply ok_bind; [apply ok_new; constructor|intros item _; cbn [app]].
  eapply ok_bind with (R := tt_) (Y := fun _ => [j]).
  { unfold toc_reftext. eapply ok_bind; [apply ok_getattr|intros ti _; cbn [app]]. eapply ok_bind; [apply ok_getattr|intros nn _; cbn [app]].
    destruct (truthy nn); [apply ok_ret; [exact I|ins]|]. obsa. apply ok_ret; [exact I|ins]. }
  intros rt _. cbn [app]. eapply ok_bind; [apply ok_new|intros r _; cbn [app]].
  { constructor; [split; [reflexivity|ins]|]. constructor; [split; [reflexivity|ins]|constructor]. }
  unfold append_opt, is_last_of, parent_parent. okw.
Qed.
Lemma t_pick acc j X : okM X (toc_pick acc j) tt_ no_.
Proof. unfold toc_pick. okw. Qed.

Lemma last_of_ends s x n q d : good s -> st_heap s !! x = Some n -> n_parent n = Some q -> ends (is_last_of x d) s (fun _ s' => s' = s).
Proof.
  intros [_ Hc] Hx Hp. unfold is_last_of.
  eapply ends_bind; [apply (ends_parent x s n (fun p s' => p = Some q /\ s' = s)); auto|]. intros p s' _ [-> ->].
  assert (Hq : parent_is (st_heap s) x q) by (exists n; auto). apply (cons_parent _ Hc) in Hq as (nq & Hnq & _).
  destruct (last_of_type_total q [d] s nq Hc Hnq) as [r E]. eapply ends_run; [exact E|]. apply ends_ret. reflexivity.
Qed.
Lemma parent_ends s p np q : good s -> st_heap s !! p = Some np -> n_parent np = Some q -> ends (parent_parent (Some p)) s (fun _ _ => True).
Proof.
  intros [_ Hc] Hx Hp. unfold parent_parent.
  eapply ends_bind; [apply (ends_parent p s np (fun p s' => p = Some q /\ s' = s)); auto|]. intros p0 s' _ [-> ->].
  assert (Hq : parent_is (st_heap s) p q) by (exists np; auto). apply (cons_parent _ Hc) in Hq as (nq & Hnq & _).
  eapply ends_parent; [exact Hnq|exact I].
Qed.

(** One section. *)
Lemma body_ends toc cur x s n : good s -> TI s -> st_heap s !! x = Some n -> subclass (n_cls n) CSection = true ->
  (n_cls n <> CSection -> is_Some (n_parent n)) -> (exists nt, st_heap s !! toc = Some nt /\ n_cls nt = CContents) ->
  (n_cls n <> CSection -> exists it nl item, cur = Some it /\ st_heap s !! it = Some nl /\ n_cls nl = CItemize /\ n_parent nl = Some item) ->
  exists F, ends (toc_body F toc cur x) s (fun _ s' => TI s').
Proof.
  intros Hg HT Hx Hsec Hpar (nt & Hnt & Ent) Hcur.
  set (s1 := new s (mk_node CItem [])).
  assert (E1 : new_node CItem [] s = (s1, Ok (st_next s))) by reflexivity.
  pose proof (good_new s CItem [] Hg) as Hg1. fold s1 in Hg1.
  assert (HT1 : TI s1).
  { refine (proj1 (ok_TI [] (new_node CItem []) tt_ _ s s1 (st_next s) (ok_new [] CItem [] _) HT _ E1)); [constructor|intros y []]. }
  assert (Hlt : x < st_next s) by (eapply (proj1 Hg); exact Hx).
  assert (Hx1 : st_heap s1 !! x = Some n) by (unfold s1; rewrite new_lookup, decide_False by lia; exact Hx).
  destruct (reftext_ends s1 x n Hg1 HT1 Hx1 Hsec) as (F & s2 & text & E2 & _).
  destruct (toc_reftext_ok _ _ _ _ _ (proj2 Hg1) E2) as [(Eh2 & En2 & _) _].
  set (s3 := new s2 (mk_node CReference [(a_target, VNode x); (a_overwrite_reftext, VStr text)])).
  assert (E3 : new_node CReference [(a_target, VNode x); (a_overwrite_reftext, VStr text)] s2 = (s3, Ok (st_next s2))) by reflexivity.
  assert (N1 : st_next s1 = S (st_next s)) by reflexivity.
  assert (Hi3 : st_heap s3 !! st_next s = Some (mk_node CItem [])).
  { unfold s3. rewrite new_lookup, decide_False by lia. rewrite Eh2. unfold s1. rewrite new_lookup, decide_True by reflexivity. reflexivity. }
  destruct (append_total (st_next s) [st_next s2] s3 _ Hi3 eq_refl) as [s4 E4].
  { constructor; [intros H; inversion H|constructor]. }
  { intros c [<-|[]]. eexists. split; [unfold s3; rewrite new_lookup, decide_True by reflexivity; reflexivity|]. split; [reflexivity|left; reflexivity]. }
  destruct (entry_made _ _ _ _ _ _ _ _ _ _ _ Hg (ex_intro _ n Hx) E1 E2 E3 E4) as [_ M].
  assert (Hx4 : st_heap s4 !! x = Some n) by (rewrite (md_old _ _ _ _ M) by lia; exact Hx).
  exists F. eapply ends_imp; [|intros a s' Er _; refine (proj1 (ok_TI [] (toc_body F toc cur x) tt_ no_ s s' a (t_toc_body F toc cur x []) HT _ Er)); intros y []].
  instantiate (1 := fun _ _ => True).
  unfold toc_body. eapply ends_run; [exact E1|]. eapply ends_run; [exact E2|]. eapply ends_run; [exact E3|]. eapply ends_run; [exact E4|].
  eapply ends_bind; [apply (ends_cls_of x s4 n (fun c s' => c = n_cls n /\ s' = s4)); auto|]. intros c s' _ [-> ->].
  assert (Hung : forall p np, st_heap s !! p = Some np -> n_cls np = CItemize \/ n_cls np = CContents ->
    exists s5, append p [st_next s] s4 = (s5, Ok tt) /\ added s s5 p x false text /\ st_heap s5 !! x = Some (if decide (x = p) then add_kids [st_next s] n else n)).
  { intros p np Hp Hc. assert (Hpl : p < st_next s) by (eapply (proj1 Hg); exact Hp).
    destruct (append_total p [st_next s] s4 np) as [s5 E5].
    - rewrite (md_old _ _ _ _ M) by lia. exact Hp.
    - destruct Hc as [-> | ->]; reflexivity.
    - constructor; [intros H; inversion H|constructor].
    - intros c [<-|[]]. eexists. split; [apply M|]. split; [reflexivity|]. destruct Hc as [-> | ->]; right; vm_compute; tauto.
    - exists s5. split; [exact E5|]. pose proof (entry_hung _ _ _ _ _ _ _ Hg (ex_intro _ np Hp) M E5) as A. split; [exact A|].
      rewrite (ad_old _ _ _ _ _ _ A) by lia. rewrite Hx. reflexivity. }
  assert (Hopen : forall s5 p, added s s5 p x false text -> is_Some (st_heap s !! p) ->
    ends (let! itemize := new_node CItemize [] in do! append (st_next s) [itemize] in ret (Some itemize)) s5 (fun _ _ => True)).
  { intros s5 p A _. eapply ends_run; [reflexivity|]. set (s6 := new s5 (mk_node CItemize [])).
    pose proof (ad_next _ _ _ _ _ _ A) as N5. cbv iota in N5.
    destruct (append_total (st_next s) [st_next s5] s6 (MkNode CItem (Some p) [S (st_next s)] item_attrs)) as [s7 E7].
    - unfold s6. rewrite new_lookup, decide_False by lia. apply A.
    - reflexivity.
    - constructor; [intros H; inversion H|constructor].
    - intros c [<-|[]]. eexists. split; [unfold s6; rewrite new_lookup, decide_True by reflexivity; reflexivity|]. split; [reflexivity|left; reflexivity].
    - eapply ends_run; [exact E7|]. apply ends_ret. exact I. }
  assert (Hkeep : forall p s5, added s s5 p x false text -> exists n5, st_heap s5 !! x = Some n5 /\ n_parent n5 = n_parent n).
  { intros p s5 A. rewrite (ad_old _ _ _ _ _ _ A) by lia. rewrite Hx. eexists. split; [reflexivity|]. destruct (decide (x = p)); reflexivity. }
  destruct (section_classes _ Hsec) as [E|[E|E]]; rewrite E in *.
  - change (subclass CSection CSubsubsection) with false. change (subclass CSection CSubsection) with false.
    change (subclass CSection CSection) with true. cbv iota.
    destruct (Hung toc nt Hnt (or_intror Ent)) as (s5 & E5 & A & _). eapply ends_run; [exact E5|].
    destruct (Hkeep _ _ A) as (n5 & Hn5 & _).
    destruct (first_of_type_total x [CSubsection] s5 n5 (proj2 (ad_good _ _ _ _ _ _ A)) Hn5) as [f Ef]. eapply ends_run; [exact Ef|].
    destruct f as [f|]; [eapply Hopen; eauto|apply ends_ret; exact I].
  - change (subclass CSubsection CSubsubsection) with false. change (subclass CSubsection CSubsection) with true. cbv iota.
    destruct Hcur as (it & nl & item & -> & Hit & Ecl & Epar); [discriminate|]. destruct Hpar as [q Hq]; [discriminate|].
    destruct (Hung it nl Hit (or_introl Ecl)) as (s5 & E5 & A & _). cbn [append_opt]. eapply ends_run; [exact E5|].
    destruct (Hkeep _ _ A) as (n5 & Hn5 & Ep5).
    destruct (first_of_type_total x [CSubsubsection] s5 n5 (proj2 (ad_good _ _ _ _ _ _ A)) Hn5) as [f Ef]. eapply ends_run; [exact Ef|].
    destruct f as [f|]; [eapply Hopen; eauto|].
    eapply ends_bind; [eapply (last_of_ends s5 x n5 q); [apply A|exact Hn5|congruence]|]. intros b s' _ ->.
    destruct b; [|apply ends_ret; exact I].
    assert (Hit5 : st_heap s5 !! it = Some (add_kids [st_next s] nl)).
    { rewrite (ad_old _ _ _ _ _ _ A) by (eapply (proj1 Hg); exact Hit). rewrite Hit, decide_True by reflexivity. reflexivity. }
    eapply parent_ends; [apply A|exact Hit5|exact Epar].
  - change (subclass CSubsubsection CSubsubsection) with true. cbv iota.
    destruct Hcur as (it & nl & item & -> & Hit & Ecl & Epar); [discriminate|]. destruct Hpar as [q Hq]; [discriminate|].
    destruct (Hung it nl Hit (or_introl Ecl)) as (s5 & E5 & A & _). cbn [append_opt]. eapply ends_run; [exact E5|].
    destruct (Hkeep _ _ A) as (n5 & Hn5 & Ep5).
    eapply ends_bind; [eapply (last_of_ends s5 x n5 q); [apply A|exact Hn5|congruence]|]. intros b s' _ ->.
    destruct b; [|apply ends_ret; exact I].
    assert (Hit5 : st_heap s5 !! it = Some (add_kids [st_next s] nl)).
    { rewrite (ad_old _ _ _ _ _ _ A) by (eapply (proj1 Hg); exact Hit). rewrite Hit, decide_True by reflexivity. reflexivity. }
    eapply parent_ends; [apply A|exact Hit5|exact Epar].
Qed.

(** ** The levels *)
Lemma mono_body toc cur x : mono (fun F => toc_body F toc cur x).
Proof. unfold toc_body, toc_reftext. mn. Qed.
Lemma fold_glue toc : forall l l' f1 f2 a s s1 a1 s2 a2,
  foldM (toc_body f1 toc) a l s = (s1, Ok a1) -> foldM (toc_body f2 toc) a1 l' s1 = (s2, Ok a2) ->
  exists f, f1 <= f /\ f2 <= f /\ foldM (toc_body f toc) a (l ++ l') s = (s2, Ok a2).
Proof.
  intros l l' f1 f2 a s s1 a1 s2 a2 H1 H2. exists (f1 + f2). split; [lia|]. split; [lia|].
  apply (mono_ok (fun f => foldM (toc_body f toc) a l) f1 (f1 + f2)) in H1; [|apply (mono_foldM (fun f => toc_body f toc)); intros; apply mono_body|lia].
  apply (mono_ok (fun f => foldM (toc_body f toc) a1 l') f2 (f1 + f2)) in H2; [|apply (mono_foldM (fun f => toc_body f toc)); intros; apply mono_body|lia].
  revert a s H1. induction l as [|x l IH]; intros a s H1.
  - apply ret_ok in H1 as [-> ->]. exact H2.
  - cbn [foldM app] in *. apply bind_ok in H1 as (s3 & a3 & H3 & H1). unfold bind. rewrite H3. apply IH. exact H1.
Qed.
Lemma fold_one toc f a x s s1 a1 : toc_body f toc a x s = (s1, Ok a1) -> foldM (toc_body f toc) a [x] s = (s1, Ok a1).
Proof. intros H. cbn [foldM]. unfold bind. rewrite H. reflexivity. Qed.

Section levels.
  Context (toc : id) (s0 : st) (Hg0 : good s0).
  Let h0 := st_heap s0.
  Definition contents_at (s : st) : Prop := exists nt, st_heap s !! toc = Some nt /\ n_cls nt = CContents.
  Lemma contents_kept s s' cur cur' : toc_inv toc s0 cur s -> toc_inv toc s0 cur' s' -> contents_at s0 -> contents_at s'.
  Proof.
    intros _ (E & _) (nt & H & Ec). destruct (ex_old _ _ E _ _ H) as (n' & H' & Ec' & _). exists n'. split; congruence.
  Qed.
  Lemma contents_now s cur : toc_inv toc s0 cur s -> contents_at s0 -> contents_at s.
  Proof. intros H. apply (contents_kept s s cur cur); assumption. Qed.
  Lemma section_at s x d : sec_same s0 s -> class_of h0 x d -> d ∈ [CSection; CSubsection; CSubsubsection] ->
    exists n, st_heap s !! x = Some n /\ n_cls n = d /\ subclass (n_cls n) CSection = true /\ (forall q, parent_is h0 x q -> n_parent n = Some q).
  Proof.
    intros Hs Hc Hd. destruct (section_node s0 x d Hc Hd) as (n & Hn & Ec & Hsec). exists n.
    split; [apply Hs; assumption|]. split; [assumption|]. split; [assumption|]. intros q (m & Hm & Em). unfold h0 in Hm. congruence.
  Qed.
  Lemma fold_2_total : forall xs pre s ss it nl item ni, contents_at s0 -> TI s ->
    toc_inv toc s0 (Some it) s -> sec_same s0 s -> class_of h0 ss CSubsection -> subs_of h0 CSubsubsection ss = pre ++ xs ->
    st_heap s !! it = Some nl -> n_cls nl = CItemize -> n_parent nl = Some item -> st_heap s !! item = Some ni ->
    exists F, ends (foldM (toc_body F toc) (Some it) xs) s (fun _ s' => TI s').
  Proof using Hg0.
    induction xs as [|x xs IH]; intros pre s ss it nl item ni Hct HT HI Hs Hss Esub Hit Ecl Epar Hitem.
    { exists 0, s, (Some it). split; [reflexivity|exact HT]. }
    assert (Hx : x ∈ subs_of h0 CSubsubsection ss) by (rewrite Esub; apply elem_of_app; right; constructor).
    destruct (subs_of_in s0 Hg0 _ _ _ Hx) as [Hcx Hpx]. pose proof (ex_good _ _ (proj1 HI)) as Hg.
    destruct (section_at s x CSubsubsection Hs Hcx ltac:(repeat constructor)) as (n & Hn & Ec & Hsec & Hp).
    destruct (body_ends toc (Some it) x s n Hg HT Hn Hsec) as (f1 & s1 & cur1 & H1 & HT1).
    { intros _. rewrite (Hp _ Hpx). eauto. }
    { eapply contents_now; eassumption. }
    { intros _. exists it, nl, item. auto. }
    destruct (one_step f1 toc s0 Hg0 (Some it) x s s1 cur1 CSubsubsection (Some it) HI Hs Hcx ltac:(repeat constructor) eq_refl) as (HI1 & Hs1 & q & sub & text & Eq & A & B & Ht);
      [intros q [= <-]; exists nl; rewrite Ecl; auto|assumption|].
    injection Eq as <-. inversion B as [p b c1 Ep Hlast Hb| | | |]; subst. clear Ep.
    assert (Hb' : b = match xs with [] => true | _ => false end).
    { eapply (is_last s0 Hg0 s1 CSubsubsection ss x pre xs b); auto.
      - apply HI1.
      - exact (class_section h0 _ _ Hcx ltac:(repeat constructor)).
      - exact (class_section h0 _ _ Hss ltac:(repeat constructor)). }
    pose proof (built_added _ _ _ _ _ _ A) as Bu.
    destruct xs as [|y xs].
    { exists f1, s1, cur1. split; [apply fold_one; exact H1|exact HT1]. }
    rewrite Hb' in *. subst cur1.
    assert (Hit1 : st_heap s1 !! it = Some (add_kids [st_next s] nl)).
    { rewrite (bu_old _ _ _ _ Bu), Hit by (eapply (proj1 Hg); eassumption). rewrite decide_True by reflexivity. reflexivity. }
    assert (Hitem1 : exists ni1, st_heap s1 !! item = Some ni1).
    { rewrite (bu_old _ _ _ _ Bu), Hitem by (eapply (proj1 Hg); eassumption). eauto. }
    destruct Hitem1 as (ni1 & Hni1).
    destruct (IH (pre ++ [x]) s1 ss it (add_kids [st_next s] nl) item ni1) as (f2 & s2 & cur2 & H2 & HT2); auto.
    { rewrite <- app_assoc. exact Esub. }
    destruct (fold_glue toc [x] (y :: xs) f1 f2 (Some it) s s1 (Some it) s2 cur2) as (f & _ & _ & Hf); [apply fold_one; exact H1|exact H2|].
    exists f, s2, cur2. split; assumption.
  Qed.

  Lemma fold_1_total : forall xs pre s sec it nl item, contents_at s0 -> TI s ->
    toc_inv toc s0 (Some it) s -> sec_same s0 s -> class_of h0 sec CSection -> subs_of h0 CSubsection sec = pre ++ xs ->
    st_heap s !! it = Some nl -> n_cls nl = CItemize -> n_parent nl = Some item ->
    exists F, ends (foldM (toc_body F toc) (Some it) (flat_map outline_sections (map (out1 h0) xs))) s (fun _ s' => TI s').
  Proof using Hg0.
    induction xs as [|x xs IH]; intros pre s sec it nl item Hct HT HI Hs Hsc Esub Hit Ecl Epar.
    { exists 0, s, (Some it). split; [reflexivity|exact HT]. }
    cbn [map flat_map]. rewrite out1_sections. cbn [app].
    assert (Hx : x ∈ subs_of h0 CSubsection sec) by (rewrite Esub; apply elem_of_app; right; constructor).
    destruct (subs_of_in s0 Hg0 _ _ _ Hx) as [Hcx Hpx]. pose proof (ex_good _ _ (proj1 HI)) as Hg.
    destruct (section_at s x CSubsection Hs Hcx ltac:(repeat constructor)) as (n & Hn & Ec & Hsec & Hp).
    destruct (body_ends toc (Some it) x s n Hg HT Hn Hsec) as (f1 & s1 & cur1 & H1 & HT1).
    { intros _. rewrite (Hp _ Hpx). eauto. }
    { eapply contents_now; eassumption. }
    { intros _. exists it, nl, item. auto. }
    assert (Hq : forall q, Some it = Some q -> exists nq, st_heap s !! q = Some nq /\ subclass (n_cls nq) CSection = false).
    { intros q [= <-]. exists nl. rewrite Ecl. auto. }
    destruct (one_step f1 toc s0 Hg0 (Some it) x s s1 cur1 CSubsection (Some it) HI Hs Hcx ltac:(repeat constructor) eq_refl Hq H1)
      as (HI1 & Hs1 & q & sub & text & Eq & A & B & Ht).
    injection Eq as <-. assert (E1 : extends s0 s1) by apply HI1.
    assert (Hxs : is_section h0 x = true) by exact (class_section h0 _ _ Hcx ltac:(repeat constructor)).
    assert (Hlt : it < st_next s) by (eapply (proj1 Hg); eassumption).
    inversion B as [|p sm Ep Am Hkid|p b c1 Ep Hkid Hlast Hb| |]; subst; clear Ep.
    + assert (Hsub : subs_of h0 CSubsubsection x <> []).
      { assert (Em : extends s0 sm) by (eapply extends_added; [apply HI|exact Am]).
        refine (has_subs s0 Hg0 sm CSubsubsection x true (or_intror eq_refl) Em _ Hxs Hkid).
        eapply sec_same_built; [apply HI|exact Hs|eapply built_added; exact Am|exact Hit|rewrite Ecl; reflexivity]. }
      pose proof (ad_next _ _ _ _ _ _ A) as N1. cbn in N1.
      destruct (fold_2_total (subs_of h0 CSubsubsection x) [] s1 x (S (S (st_next s))) _ (st_next s) _ Hct HT1 HI1 Hs1 Hcx eq_refl
                  (ad_sub _ _ _ _ _ _ A eq_refl) eq_refl eq_refl (ad_item _ _ _ _ _ _ A)) as (f2 & s2 & cur2 & H2 & HT2).
      destruct (fold_2 f2 toc s0 Hg0 (subs_of h0 CSubsubsection x) [] s1 s2 cur2 x (S (S (st_next s))) _ (st_next s) _ HI1 Hs1 Hcx eq_refl
                  (ad_sub _ _ _ _ _ _ A eq_refl) eq_refl eq_refl (ad_item _ _ _ _ _ _ A) H2) as (items2 & Bu2 & HI2 & Hs2 & En2 & Ec2).
      destruct (subs_of h0 CSubsubsection x) as [|z zs] eqn:Esubx; [contradiction|]. cbn [n_parent] in Ec2. subst cur2.
      pose proof (built_inner _ _ _ _ _ _ _ A Bu2) as Bu.
      assert (Hit2 : st_heap s2 !! it = Some (add_kids [st_next s] nl)).
      { rewrite (bu_old _ _ _ _ Bu), Hit by assumption. rewrite decide_True by reflexivity. reflexivity. }
      destruct (IH (pre ++ [x]) s2 sec it (add_kids [st_next s] nl) item) as (f3 & s3 & cur3 & H3 & HT3); auto.
      { rewrite <- app_assoc. exact Esub. }
      destruct (fold_glue toc _ _ _ _ _ _ _ _ _ _ H2 H3) as (f4 & _ & _ & H4).
      destruct (fold_glue toc _ _ _ _ _ _ _ _ _ _ (fold_one _ _ _ _ _ _ _ H1) H4) as (f & _ & _ & Hf).
      exists f, s3, cur3. split; assumption.
    + pose proof (has_subs s0 Hg0 s1 CSubsubsection x false (or_intror eq_refl) E1 Hs1 Hxs Hkid) as Hsub. cbv iota in Hsub.
      fold h0 in Hsub. rewrite Hsub. cbn [app].
      assert (Hb' : b = match xs with [] => true | _ => false end).
      { eapply (is_last s0 Hg0 _ CSubsection sec x pre xs b); eauto. exact (class_section h0 _ _ Hsc ltac:(repeat constructor)). }
      pose proof (built_added _ _ _ _ _ _ A) as Bu.
      destruct xs as [|y xs].
      { exists f1, s1, cur1. split; [apply fold_one; exact H1|exact HT1]. }
      rewrite Hb' in Hb. subst cur1.
      assert (Hit2 : st_heap s1 !! it = Some (add_kids [st_next s] nl)).
      { rewrite (bu_old _ _ _ _ Bu), Hit by assumption. rewrite decide_True by reflexivity. reflexivity. }
      destruct (IH (pre ++ [x]) s1 sec it (add_kids [st_next s] nl) item) as (f3 & s3 & cur3 & H3 & HT3); auto.
      { rewrite <- app_assoc. exact Esub. }
      destruct (fold_glue toc _ _ _ _ _ _ _ _ _ _ (fold_one _ _ _ _ _ _ _ H1) H3) as (f & _ & _ & Hf).
      exists f, s3, cur3. split; assumption.
  Qed.
  Lemma fold_0_total : forall xs s cur, contents_at s0 -> TI s ->
    toc_inv toc s0 cur s -> sec_same s0 s -> (forall x, x ∈ xs -> class_of h0 x CSection) ->
    exists F, ends (foldM (toc_body F toc) cur (flat_map outline_sections (map (out0 h0) xs))) s (fun _ s' => TI s').
  Proof using Hg0.
    induction xs as [|x xs IH]; intros s cur Hct HT HI Hs Hxs.
    { exists 0, s, cur. split; [reflexivity|exact HT]. }
    cbn [map flat_map]. change (outline_sections (out0 h0 x)) with (x :: flat_map outline_sections (map (out1 h0) (subs_of h0 CSubsection x))). cbn [app].
    assert (Hcx : class_of h0 x CSection) by (apply Hxs; constructor). pose proof (ex_good _ _ (proj1 HI)) as Hg.
    destruct (section_at s x CSection Hs Hcx ltac:(repeat constructor)) as (n & Hn & Ec & Hsec & Hp).
    destruct (contents_now s cur HI Hct) as (nt & Ht & Ent).
    destruct (body_ends toc cur x s n Hg HT Hn Hsec) as (f1 & s1 & cur1 & H1 & HT1).
    { intros Hne. congruence. }
    { exists nt. auto. }
    { intros Hne. congruence. }
    assert (Hq : forall q, Some toc = Some q -> exists nq, st_heap s !! q = Some nq /\ subclass (n_cls nq) CSection = false).
    { intros q [= <-]. exists nt. rewrite Ent. auto. }
    destruct (one_step f1 toc s0 Hg0 cur x s s1 cur1 CSection (Some toc) HI Hs Hcx ltac:(repeat constructor) eq_refl Hq H1)
      as (HI1 & Hs1 & q & sub & text & Eq & A & B & Htx).
    injection Eq as <-. assert (E1 : extends s0 s1) by apply HI1.
    assert (Hxsec : is_section h0 x = true) by exact (class_section h0 _ _ Hcx ltac:(repeat constructor)).
    assert (Hcont : forall f2 s2 cur2, foldM (toc_body f2 toc) cur1 (flat_map outline_sections (map (out1 h0) (subs_of h0 CSubsection x))) s1 = (s2, Ok cur2) ->
      TI s2 -> toc_inv toc s0 cur2 s2 -> sec_same s0 s2 ->
      exists F, ends (foldM (toc_body F toc) cur (x :: flat_map outline_sections (map (out1 h0) (subs_of h0 CSubsection x)) ++ flat_map outline_sections (map (out0 h0) xs))) s (fun _ s' => TI s')).
    { intros f2 s2 cur2 H2 HT2 HI2 Hs2.
      destruct (IH s2 cur2 Hct HT2 HI2 Hs2) as (f3 & s3 & cur3 & H3 & HT3).
      { intros y Hy. apply Hxs. constructor. assumption. }
      destruct (fold_glue toc _ _ _ _ _ _ _ _ _ _ H2 H3) as (f4 & _ & _ & H4).
      destruct (fold_glue toc _ _ _ _ _ _ _ _ _ _ (fold_one _ _ _ _ _ _ _ H1) H4) as (f & _ & _ & Hf).
      exists f, s3, cur3. split; assumption. }
    inversion B as [| | |sm Am Hkid|Hkid]; subst.
    + destruct (fold_1_total (subs_of h0 CSubsection x) [] s1 x (S (S (st_next s))) _ _ Hct HT1 HI1 Hs1 Hcx eq_refl
                  (ad_sub _ _ _ _ _ _ A eq_refl) eq_refl eq_refl) as (f2 & s2 & cur2 & H2 & HT2).
      destruct (fold_1 f2 toc s0 Hg0 (subs_of h0 CSubsection x) [] s1 s2 cur2 x (S (S (st_next s))) _ HI1 Hs1 Hcx eq_refl
                  (ad_sub _ _ _ _ _ _ A eq_refl) eq_refl H2) as (items2 & Bu2 & HI2 & Hs2 & En2).
      eapply Hcont; eassumption.
    + pose proof (has_subs s0 Hg0 s1 CSubsection x false (or_introl eq_refl) E1 Hs1 Hxsec Hkid) as Hsub. cbv iota in Hsub. fold h0 in Hsub.
      eapply (Hcont 0 s1); eauto. rewrite Hsub. reflexivity.
  Qed.
End levels.

(** ** The traversals *)
Lemma trav_cons {A} fuel (cond : node -> bool) (body : A -> id -> M A) (acc : A) (i : id) (rest : list id) s n s1 a1 n1 s' a :
  st_heap s !! i = Some n -> (if cond n then body acc i else ret acc) s = (s1, Ok a1) -> st_heap s1 !! i = Some n1 ->
  trav_loop fuel cond body a1 (kids n1 ++ rest) s1 = (s', Ok a) -> trav_loop (S fuel) cond body acc (i :: rest) s = (s', Ok a).
Proof.
  intros Hi H1 Hn1 H. cbn [trav_loop]. unfold bind at 1. rewrite (get_node_eq _ _ _ Hi). unfold bind at 1. rewrite H1.
  unfold bind at 1. assert (E : children_of i s1 = (s1, Ok (kids n1))) by (unfold children_of, bind; rewrite (get_node_eq _ _ _ Hn1); reflexivity).
  rewrite E. exact H.
Qed.
Lemma yields_back {A} cond (body : A -> id -> M A) (Inv : A -> st -> Prop) :
  (forall acc i s s' acc' n, Inv acc s -> st_heap s !! i = Some n -> cond n = true -> body acc i s = (s', Ok acc') ->
     Inv acc' s' /\ (exists n', st_heap s' !! i = Some n' /\ cond n' = true) /\
     forall stk l, yields cond (st_heap s) stk l -> yields cond (st_heap s') stk l) ->
  forall k stk l acc s s' a, length l = k -> yields cond (st_heap s) stk l -> Inv acc s ->
  foldM body acc l s = (s', Ok a) -> exists fuel, trav_loop fuel cond body acc stk s = (s', Ok a).
Proof.
  intros Hstep. induction k as [k IHk] using lt_wf_ind. intros stk l acc s s' a Hk Hy HI H.
  remember (st_heap s) as h eqn:Eh. revert acc HI H Hk. induction Hy as [|i n rest l Hi Hy IHy]; intros acc HI H Hk; subst h.
  - apply ret_ok in H as [-> ->]. exists 0. reflexivity.
  - destruct (cond n) eqn:Ec.
    + cbn [foldM] in H. apply bind_ok in H as (s1 & a1 & H1 & H).
      destruct (Hstep _ _ _ _ _ _ HI Hi Ec H1) as (HI1 & (n' & Hn' & Ec') & Hmono).
      pose proof (y_node _ _ _ _ _ _ Hi Hy) as Hy'. rewrite Ec in Hy'. apply Hmono in Hy'.
      inversion Hy' as [|? m ? l1 Hm1 Hy1 E1 E2]; subst. assert (m = n') as -> by congruence. rewrite Ec' in E2. injection E2 as ->.
      destruct (IHk (length l) ltac:(cbn; lia) _ _ _ _ _ _ eq_refl Hy1 HI1 H) as [f Hf].
      exists (S f). eapply trav_cons; [exact Hi|rewrite Ec; exact H1|exact Hn'|exact Hf].
    + destruct (IHy acc HI H Hk) as [f Hf]. exists (S f). eapply trav_cons; [exact Hi|rewrite Ec; reflexivity|exact Hi|exact Hf].
Qed.

Lemma remove_self_ends s i n : good s -> st_heap s !! i = Some n -> ends (remove_self i) s (fun _ _ => True).
Proof.
  intros [_ Hc] Hi. unfold remove_self.
  eapply ends_bind; [apply (ends_parent i s n (fun p s' => p = n_parent n /\ s' = s)); auto|]. intros p s' _ [-> ->].
  destruct (n_parent n) as [q|] eqn:Ep; [|apply ends_ret; exact I].
  assert (Hq : parent_is (st_heap s) i q) by (exists n; auto). apply (cons_parent _ Hc) in Hq as (nq & Hnq & Hin).
  destruct (remove_total q i s nq n Hnq) as [s1 E]; [|exact Hi| |].
  { destruct (has_children (n_cls nq)) eqn:Eh; [reflexivity|]. unfold kids in Hin. rewrite Eh in Hin. inversion Hin. }
  { unfold kids in Hin. destruct (has_children (n_cls nq)); [exact Hin|inversion Hin]. }
  eapply ends_run; [exact E|].
  assert (exists m, st_heap s1 !! i = Some m) as [m Hm].
  { pose proof E as E'. unfold remove in E'. apply bind_ok in E' as (s2 & cs & H1 & E'). apply raw_children_ok in H1 as (-> & _).
    destruct (index_of i cs); [|discriminate]. apply bind_ok in E' as (s3 & [] & H2 & H3).
    unfold set_parent in H3; apply mod_node_ok in H3 as (m & Hm & ->). rewrite upd_lookup, decide_True by reflexivity. eauto. }
  eexists _, _. split; [unfold set_parent; apply (mod_node_eq _ _ _ _ Hm)|exact I].
Qed.
Lemma pick_ends s t : manuscript s t -> TI s -> exists F, ends (for_traverse F (cond_class CContents) toc_pick None (root t)) s (fun _ s' => TI s').
Proof.
  intros Hm HT. pose proof (manuscript_good _ _ Hm) as Hg. pose proof (ms_document _ _ Hm) as [Ht Hnd].
  set (J := fun (_ : list id) (_ : option id) s' => TI s' /\ good s' /\ forall x, x ∈ doc_order t -> is_Some (st_heap s' !! x)).
  destruct (fold_ends (fun _ : nat => visit (cond_class CContents) toc_pick) J) with (l := doc_order t) (acc := None (A := id)) (s := s) as (f & s' & a & E & HJ).
  - intros. apply mono_const.
  - intros seen x rem acc s1 Ed (HT1 & Hg1 & Hex). exists 0. destruct (Hex x) as [n Hn]; [rewrite Ed; apply elem_of_app; right; constructor|].
    assert (Hrun : ends (visit (cond_class CContents) toc_pick acc x) s1 (fun _ _ => True)).
    { eapply ends_visit; [exact Hn|intros _|intros _; exact I]. unfold toc_pick. destruct acc as [c|]; [|apply ends_ret; exact I].
      eapply ends_bind; [apply (ends_warn _ _ s1 (fun _ s' => st_heap s' = st_heap s1 /\ good s'))|].
      { intros r. split; [reflexivity|]. exact Hg1. }
      intros u s2 _ [Eh Hg2]. eapply ends_bind with (R := fun _ _ => True); [eapply (remove_self_ends s2 x n); [exact Hg2|rewrite Eh; exact Hn]|].
      intros. apply ends_ret. exact I. }
    destruct Hrun as (s2 & a2 & E2 & _). exists s2, a2. split; [exact E2|].
    split; [refine (proj1 (ok_TI [] _ tt_ no_ s1 s2 a2 (ok_visit [] (cond_class CContents) toc_pick acc x no_ _) HT1 _ E2)); [apply t_pick|intros y []]|].
    destruct (pick_visit s1 s1 s2 [] acc a2 x (pruned_refl _ Hg1)) as [(_ & -> & _)|[(_ & _ & -> & _)|(_ & _ & _ & P)]]; auto.
    { intros H. inversion H. }
    split; [apply P|]. intros y Hy. destruct (Hex y Hy) as [m Hy0]. destruct (pr_old _ _ _ P _ _ Hy0) as (m' & Hm' & _). eauto.
  - split; [exact HT|]. split; [exact Hg|]. intros x Hx. eapply manuscript_some; eassumption.
  - destruct (fold_loop (fun _ => pick_inv) (cond_class CContents) (fun _ => toc_pick)) with (t := t) (acc := None (A := id)) (s := s) (f := f) (s' := s') (a := a) as [F EF].
    + intros. apply mono_const.
    + intros. eapply pick_trav_step; eassumption.
    + intros _. split; [assumption|]. split; [assumption|]. split.
      * intros x Hx. eapply manuscript_some; eassumption.
      * intros l1 x l2 q E1 Hq. eapply document_parent_before; [split|..]; eassumption.
    + eapply tree_at_kid. exact Ht.
    + exact E.
    + exists F, s', a. split; [exact EF|apply HJ].
Qed.

Theorem toc_total s t : manuscript s t -> TI s ->
  ((exists x, x ∈ doc_order t /\ is_contents (st_heap s) x = true) -> well_nested (st_heap s) t) ->
  exists F, ends (make_toc F (root t)) s (fun _ _ => True).
Proof.
  intros Hm HT Hw. destruct (pick_ends s t Hm HT) as (f1 & s1 & r & H1 & HT1).
  destruct (toc_pick_ok _ _ _ _ _ Hm H1) as (Er & P & Hm1). set (xs := tail _) in *.
  destruct r as [toc|].
  2:{ exists f1. unfold make_toc. eapply ends_run; [exact H1|]. apply ends_ret. exact I. }
  assert (Hcont : forall x, x ∈ contents_in (st_heap s) (doc_order t) -> x ∈ doc_order t /\ is_contents (st_heap s) x = true).
  { intros x Hx. unfold contents_in in Hx. apply elem_of_list_In, filter_In in Hx as [Hx Hc]. split; [apply elem_of_list_In|]; assumption. }
  assert (Htoc : toc ∈ doc_order t /\ is_contents (st_heap s) toc = true).
  { apply Hcont. destruct (contents_in (st_heap s) (doc_order t)); [discriminate|]. injection Er as ->. constructor. }
  assert (Hxs : forall x, x ∈ xs -> is_contents (st_heap s) x = true).
  { intros x Hx. apply Hcont. unfold xs in Hx. destruct (contents_in (st_heap s) (doc_order t)); [inversion Hx|]. constructor. assumption. }
  specialize (Hw (ex_intro _ toc Htoc)).
  pose proof (well_nested_pruned _ _ _ _ P Hxs Hw) as Hw1. pose proof (manuscript_good _ _ Hm1) as Hg1.
  assert (Hwith : TocEntries.within (st_heap s1) (prune xs t) (prune xs t)).
  { split; [|auto]. exists None. apply Hm1. }
  assert (Hroot : forall p, ~ parent_is (st_heap s1) (root (prune xs t)) p).
  { destruct (prune xs t) as [i cs]. intros p (n & Hn & Ep).
    destruct (tree_at_inv _ _ _ _ (proj1 (ms_document _ _ Hm1))) as (n' & Hn' & Ep' & _). cbn [root] in Hn. congruence. }
  destruct (Hw1 _ (root_in_doc_order _)) as (_ & Hr1 & Hr2).
  destruct (outlines_top (st_heap s1) (prune xs t) (proj2 Hg1) Hw1 (prune xs t) Hwith) as (tops & Eo & Htops).
  { intros Hcl. destruct (Hr1 Hcl) as (p & Hp & _). eapply Hroot. exact Hp. }
  { intros Hcl. destruct (Hr2 Hcl) as (p & Hp & _). eapply Hroot. exact Hp. }
  assert (Hnt : contents_at toc s1).
  { destruct Htoc as [_ Ht]. unfold is_contents in Ht. destruct (st_heap s !! toc) as [n|] eqn:En; [|discriminate].
    destruct (pr_old _ _ _ P _ _ En) as (n' & Hn' & Ec & _). exists n'. split; [exact Hn'|]. rewrite Ec.
    destruct (n_cls n); try discriminate; reflexivity. }
  assert (HI : toc_inv toc s1 (Some toc) s1).
  { destruct Hnt as (nt & Hnt & _). split; [apply extends_refl; assumption|]. split; [eauto|]. intros p [= <-]. eauto. }
  destruct (fold_0_total toc s1 Hg1 tops s1 (Some toc) Hnt HT1 HI) as (f2 & s2 & cur & H2 & _).
  { intros x n Hx _. assumption. }
  { intros x Hx. apply Htops. assumption. }
  rewrite <- Eo, outlines_flat in H2.
  destruct (yields_back sec_cond (toc_body f2 toc) (toc_inv toc s1)) with (k := length (sections_in (st_heap s1) (doc_order (prune xs t)))) (stk := [root (prune xs t)])
    (l := sections_in (st_heap s1) (doc_order (prune xs t))) (acc := Some toc) (s := s1) (s' := s2) (a := cur) as [f3 H3].
  - intros acc i s3 s3' acc' n HI3 Hn Hc Hb. eapply toc_step; eassumption.
  - reflexivity.
  - destruct (ms_document _ _ Hm1) as [Ht1 _].
    pose proof (yields_tree sec_cond _ _ _ Ht1) as Y.
    replace (sections_in (st_heap s1) (doc_order (prune xs t))) with (List.filter (holds sec_cond (st_heap s1)) (doc_order (prune xs t))); [exact Y|].
    apply filter_ext. intros x. reflexivity.
  - exact HI.
  - exact H2.
  - rewrite prune_root in H3. exists (f1 + f2 + f3). unfold make_toc.
    apply (mono_ok (fun f => for_traverse f (cond_class CContents) toc_pick None (root t)) f1 (f1 + f2 + f3)) in H1;
      [|apply (mono_traverse (cond_class CContents) (fun _ => toc_pick)); intros; apply mono_const|lia].
    eapply ends_run; [exact H1|]. cbv iota.
    assert (H4 : for_traverse (f1 + f2 + f3) (cond_class CSection) (toc_body (f1 + f2 + f3) toc) (Some toc) (root t) s1 = (s2, Ok cur)).
    { rewrite <- H3. apply (loop_mono sec_cond (fun f => toc_body f toc) (fun acc i => mono_body toc acc i) f2 (f1 + f2 + f3) ltac:(lia) f3 (f1 + f2 + f3)); [lia|].
      unfold enough. rewrite H3. discriminate. }
    eapply ends_run; [exact H4|]. apply ends_ret. exact I.
Qed.
