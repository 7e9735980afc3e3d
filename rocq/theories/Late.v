(** The mistakes that the passes after the references find. *)
From Verif Require Export Mistakes.
From Verif Require Import Transformed Forget TransformTotal ResultAll ResultRefs Labels HandrailDepth Autonumber FullNumber TocPick TocLoop Queries Built Meta Subproofs ResolveAll ResolvePrev Resolve NodeOps Traverse Monad.
Local Open Scope list_scope.

(** ** Loops that may fail *)
Lemma fold_gives {A B} P e (g : nat -> A -> B -> M A) (J : list B -> A -> st -> Prop) : e <> EOutOfFuel -> (forall acc x, mono (fun f => g f acc x)) ->
  forall l, (forall seen x rem acc s, l = seen ++ x :: rem -> J seen acc s -> exists f, gives P e (g f acc x) s (J (seen ++ [x]))) ->
  forall acc s, J [] acc s -> exists f, gives P e (fun s => foldM (g f) acc l s) s (J l).
Proof.
  intros He Hm l Hstep.
  assert (H : forall rem seen acc s, l = seen ++ rem -> J seen acc s -> exists f, gives P e (fun s => foldM (g f) acc rem s) s (J l)).
  { induction rem as [|x rem IH]; intros seen acc s El HJ.
    - exists 0. left. exists s, acc. split; [reflexivity|]. rewrite El, app_nil_r. exact HJ.
    - destruct (Hstep seen x rem acc s El HJ) as (f1 & [(s1 & a1 & E1 & J1)|[HP HF]]).
      + destruct (IH (seen ++ [x]) a1 s1) as (f2 & H2); [rewrite <- app_assoc; exact El|exact J1|].
        exists (f1 + f2). pose proof (mono_ok (fun f => g f acc x) f1 (f1 + f2) s s1 a1 (Hm acc x) ltac:(lia) E1) as E1'.
        destruct H2 as [(s2 & a2 & E2 & J2)|[HP HF]].
        * left. exists s2, a2. split; [|exact J2]. cbn [foldM]. unfold bind. rewrite E1'.
          exact (mono_ok (fun f => foldM (g f) a1 rem) f2 (f1 + f2) s1 s2 a2 (mono_foldM g rem Hm a1) ltac:(lia) E2).
        * right. split; [exact HP|]. cbn [foldM]. unfold bind. rewrite E1'.
          exact (mono_fails (fun f => foldM (g f) a1 rem) f2 (f1 + f2) s1 e (mono_foldM g rem Hm a1) He ltac:(lia) HF).
      + exists f1. right. split; [exact HP|]. destruct HF as (s1 & E1). exists s1. cbn [foldM]. unfold bind. rewrite E1. reflexivity. }
  intros acc s. apply (H l []). reflexivity.
Qed.
Lemma attr_gives {A} P0 e P cond (body : nat -> A -> id -> M A) (J : list id -> A -> st -> Prop) p t acc s :
  e <> EOutOfFuel -> (forall acc i, mono (fun f => body f acc i)) -> (forall f acc i, changes (only P) (body f acc i)) ->
  tree_at (st_heap s) p t ->
  (forall seen x rem acc s, doc_order t = seen ++ x :: rem -> J seen acc s -> exists f, gives P0 e (visit cond (body f) acc x) s (J (seen ++ [x]))) ->
  J [] acc s ->
  exists f, gives P0 e (for_traverse f cond (body f) acc (root t)) s (J (doc_order t)).
Proof.
  intros He Hm Hb Ht Hstep H0.
  destruct (fold_gives P0 e (fun f => visit cond (body f)) J He (fun acc x => mono_visit cond body acc x Hm) (doc_order t) Hstep acc s H0) as (f & H).
  set (F := f + length (doc_order t)). exists F.
  assert (E : for_traverse F cond (body F) acc (root t) s = foldM (visit cond (body F)) acc (doc_order t) s).
  { apply (trav_eq (fun _ _ => True) cond (body F)); [|exact I|eapply tree_at_kid; eassumption|unfold F; lia].
    intros s0 i rem a0 s1 a1 n _ Hi Hv. split; [exact I|]. intros j _.
    apply same_structure_kids, (only_structure P), (ch_run _ _ _ _ _ (ch_visit _ (only_refl P) (only_trans P) _ _ _ _ (Hb F a0 i)) Hv). }
  assert (Hmono : mono (fun f => foldM (visit cond (body f)) acc (doc_order t))) by (apply mono_foldM; intros; apply mono_visit, Hm).
  destruct H as [(s' & a & H & HJ)|[HP HF]].
  - left. exists s', a. split; [|exact HJ]. rewrite E. exact (mono_ok _ f F s s' a Hmono ltac:(unfold F; lia) H).
  - right. split; [exact HP|]. rewrite E. exact (mono_fails _ f F s e Hmono He ltac:(unfold F; lia) HF).
Qed.

(** ** Subproofs *)
Lemma sub_loop_case : forall N ts s, weight (st_heap s) (doc_orders ts) <= N -> good s -> parents_ok s -> rooted (st_heap s) ts ->
  NoDup (doc_orders ts) ->
  exists f, gives True EAssert (trav_loop f (cond_class CStep) subproof_body tt (map root ts)) s (fun _ _ => True).
Proof.
  induction N as [|N IH]; intros ts s Hw Hg Hpl Hts Hnd.
  { destruct ts as [|[i cs] ts]; [exists 0; left; exists s, tt; split; [reflexivity|exact I]|]. exfalso. rewrite doc_orders_cons, doc_order_T in Hw. cbn in Hw. unfold step_weight in Hw. destruct (SpecTransform.is_step (st_heap s) i); lia. }
  destruct ts as [|[i cs] ts]; [exists 0; left; exists s, tt; split; [reflexivity|exact I]|].
  pose proof Hts as Hts0. apply list.Forall_cons in Hts as [[p Ht] Hts].
  pose proof Ht as Ht0. apply tree_at_inv in Ht as (n & Hi & Hp & Hk & Hcs). cbn [root] in Hi.
  assert (Ew : weight (st_heap s) (doc_orders (T i cs :: ts)) = step_weight (st_heap s) i + weight (st_heap s) (doc_orders (cs ++ ts))).
  { rewrite doc_orders_cons, doc_order_T, doc_orders_app. cbn [app]. rewrite weight_app. change (i :: doc_orders cs ++ doc_orders ts) with ([i] ++ doc_orders cs ++ doc_orders ts). rewrite !weight_app. unfold weight at 1. cbn. lia. }
  assert (Hnd0 := Hnd). rewrite doc_orders_cons, doc_order_T in Hnd. cbn [app] in Hnd. apply list.NoDup_cons in Hnd as [Hnin Hnd].
  rewrite <- doc_orders_app in Hnin, Hnd.
  assert (Hall : rooted (st_heap s) (cs ++ ts)).
  { apply list.Forall_app. split; [eapply roots_of_tree; eassumption|assumption]. }
  destruct (subclass (n_cls n) CStep) eqn:Estep.
  - apply step_class in Estep.
    destruct (subproof_body_gives s i n Hg Hpl Hi Estep) as [(s1 & [] & E & _)|[_ (s1 & E)]].
    2:{ exists 1. right. split; [exact I|]. exists s1. cbn [map root trav_loop]. unfold bind at 1, get_node at 1. rewrite Hi. unfold cond_class at 1. rewrite Estep.
        change (subclass CStep CStep) with true. cbv iota. unfold bind at 1. rewrite E. reflexivity. }
    destruct (body_trees s s1 i n p cs ts tt Hg Ht0 Hts Hnd0 Hi Estep E) as (us & n1 & Hi1 & Hk1 & Hg1 & Hr1 & Hnd1 & Hus & Hsame & Hcl & Hw1).
    assert (Hpl1 : parents_ok s1) by (pose proof (pl_sub_body tt i s Hpl) as K; rewrite E in K; exact K).
    destruct (IH (us ++ ts) s1) as (f & Ef).
    + rewrite doc_orders_app, weight_app.
      rewrite (weight_same (st_heap s) (st_heap s1) (doc_orders ts)) by (intros x Hx; apply Hcl; apply (rooted_some _ ts _ Hts Hx)).
      rewrite Ew, doc_orders_app, weight_app in Hw. unfold step_weight, SpecTransform.is_step in Hw. rewrite Hi, Estep in Hw. cbn in Hw. lia.
    + exact Hg1.
    + exact Hpl1.
    + exact Hr1.
    + exact Hnd1.
    + exists (S f). rewrite map_app, <- Hk1 in Ef.
      assert (Ec : children_of i s1 = (s1, Ok (kids n1))) by (unfold children_of, bind, get_node; rewrite Hi1; reflexivity).
      assert (EE : trav_loop (S f) (cond_class CStep) subproof_body tt (map root (T i cs :: ts)) s = trav_loop f (cond_class CStep) subproof_body tt (kids n1 ++ map root ts) s1).
      { cbn [map root trav_loop]. unfold bind at 1, get_node at 1. rewrite Hi. unfold cond_class at 1. rewrite Estep.
        change (subclass CStep CStep) with true. cbv iota. unfold bind at 1. rewrite E. cbv beta iota. unfold bind at 1. rewrite Ec. reflexivity. }
      unfold gives, ends. rewrite EE. exact Ef.
  - destruct (IH (cs ++ ts) s) as (f & Ef); try assumption.
    + rewrite Ew in Hw. unfold step_weight in Hw. destruct (SpecTransform.is_step (st_heap s) i); lia.
    + exists (S f). rewrite map_app, <- Hk in Ef.
      assert (Ec : children_of i s = (s, Ok (kids n))) by (unfold children_of, bind, get_node; rewrite Hi; reflexivity).
      assert (EE : trav_loop (S f) (cond_class CStep) subproof_body tt (map root (T i cs :: ts)) s = trav_loop f (cond_class CStep) subproof_body tt (kids n ++ map root ts) s).
      { cbn [map root trav_loop]. unfold bind at 1, get_node at 1. rewrite Hi. unfold cond_class at 1. rewrite Estep.
        unfold bind at 1, ret at 1. unfold bind at 1. rewrite Ec. reflexivity. }
      unfold gives, ends. rewrite EE. exact Ef.
Qed.
Lemma sub_case s t : manuscript s t -> parents_ok s -> exists F, gives True EAssert (add_necessary_subproofs F (root t)) s (fun _ _ => True).
Proof.
  intros Hm Hpl. destruct (ms_document _ _ Hm) as [Ht Hnd].
  assert (E : doc_orders [t] = doc_order t) by (rewrite doc_orders_cons; apply app_nil_r).
  apply (sub_loop_case _ [t] s (le_n _)); rewrite ?E; auto.
  - apply (manuscript_good _ _ Hm).
  - constructor; [eauto|constructor].
Qed.

(** ** Numbers *)
Lemma number_case s t : manuscript s t -> TI s -> exists F, gives True EStopIteration (autonumber_nodes F (root t)) s (fun _ _ => True).
Proof.
  intros Hm HT. destruct (ms_document _ _ Hm) as [Ht Hnd].
  destruct (attr_gives True EStopIteration num_attr cond_any (fun _ => autonumber_body)
    (fun seen a s' => TI s' /\ only num_attr s s' /\ num_inv (st_heap s) seen a (st_heap s')) None t (MkNum [] false) s) as (f & H).
  - discriminate.
  - intros acc i. apply mono_const.
  - intros _ acc i. apply only_autonumber_body.
  - exact Ht.
  - intros seen x rem acc s1 El (HT1 & Ho & Hi). exists 0.
    assert (Hx : x ∈ doc_order t) by (rewrite El; set_solver).
    destruct (manuscript_some _ _ _ Hm Hx) as [n0 Hn0]. destruct (only_lookup _ _ _ _ _ Ho Hn0) as (n & Hn & _).
    assert (Hseen : x ∉ seen) by (rewrite El in Hnd; apply NoDup_app in Hnd as (_ & Hd & _); intros Hs; apply (Hd x Hs); constructor).
    eapply gives_imp.
    + unfold visit. eapply gives_run; [unfold get_node; rewrite Hn; reflexivity|]. change (cond_any n) with true. cbv iota.
      destruct (number_body_gives s seen acc s1 x n (ms_consistent _ _ Hm) Ho Hi HT1 Hn) as [G|[_ G]]; [left; exact G|right; split; [exact I|exact G]].
    + intros a1 s2 Ev _. split; [|split].
      * refine (proj1 (ok_TI [] (visit cond_any autonumber_body acc x) tt_ no_ s1 s2 a1 (ok_visit [] cond_any autonumber_body acc x no_ _) HT1 _ Ev)); [apply t_number_body|intros y []].
      * eapply only_trans; [exact Ho|].
        exact (ch_run _ _ _ _ _ (ch_visit _ (only_refl _) (only_trans _) cond_any _ acc x (only_autonumber_body acc x)) Ev).
      * eapply num_inv_visit; [apply Hm|exact Ho|exact Hi|exact Hseen|exact Ev].
  - split; [exact HT|]. split; [apply only_refl|apply num_inv_start].
  - exists f. destruct H as [(s' & a & E & _)|[_ (s' & E)]].
    + left. exists s', tt. split; [|exact I]. unfold autonumber_nodes, bind. rewrite E. reflexivity.
    + right. split; [exact I|]. exists s'. unfold autonumber_nodes, bind. rewrite E. reflexivity.
Qed.

(** ** Constructs *)
Lemma construct_case s i n : TI s -> st_heap s !! i = Some n -> subclass (n_cls n) CConstruct = true -> gives True EAssert (construct_body tt i) s (fun _ _ => True).
Proof.
  intros HT Hn Hc. destruct (has_attr s i n a_kind HT Hn) as (v & Hv & Hs & _); [destruct (n_cls n); try discriminate Hc; vm_compute; tauto|].
  unfold construct_body. eapply gives_run; [unfold getattr, bind, get_node; rewrite Hn; unfold value in Hv; rewrite Hn in Hv; rewrite Hv; reflexivity|].
  destruct (truthy v) eqn:Et; cbn [negb]; [|right; split; [exact I|eexists; reflexivity]].
  destruct v as [| | | |kind| | | |]; try discriminate Hs; try discriminate Et. left.
  eapply ends_bind; [eapply (ends_get_strs i a_types s n (fun _ s' => s' = s)); auto; apply always|].
  intros ts s' _ ->. eapply ends_bind with (R := fun _ s2 => exists m, st_heap s2 !! i = Some m /\ n_attrs m !! a_types = Some (VStrs (ts ++ [kind]))).
  { eapply ends_setattr; [exact Hn|]. rewrite upd_lookup, decide_True by reflexivity. eexists. split; [reflexivity|]. cbn. apply lookup_insert. }
  intros [] s2 _ (m & Hm2 & Hts). destruct (str_mem kind not_assumption); [apply ends_ret; exact I|].
  eapply ends_bind with (R := fun _ s3 => s3 = s2).
  { unfold get_strs. eapply ends_bind; [eapply (ends_value i a_types s2 _ (fun v s' => v = VStrs (ts ++ [kind]) /\ s' = s2)); [unfold value; rewrite Hm2; exact Hts|auto]|].
    intros v s' _ [-> ->]. apply ends_ret. reflexivity. }
  intros ts2 s3 _ ->. eapply ends_setattr; [exact Hm2|exact I].
Qed.
Lemma constructs_case s t : manuscript s t -> TI s -> exists F, gives True EAssert (add_keywords_to_constructs F (root t)) s (fun _ _ => True).
Proof.
  intros Hm HT. destruct (ms_document _ _ Hm) as [Ht _].
  destruct (attr_gives True EAssert construct_attr (cond_class CConstruct) (fun _ => construct_body) (fun _ _ s' => TI s' /\ only construct_attr s s') None t tt s) as [F HF].
  - discriminate.
  - intros. apply mono_const.
  - intros _ [] i s0. eapply only_weaken; [|apply construct_body_only]. intros j b [_ ->]. reflexivity.
  - exact Ht.
  - intros seen x rem [] s1 Ed (HT1 & Ho). exists 0.
    assert (Hx : x ∈ doc_order t) by (rewrite Ed; apply elem_of_app; right; constructor).
    destruct (only_some _ _ _ x Ho (manuscript_some _ _ _ Hm Hx)) as [n Hn].
    assert (Hrun : gives True EAssert (visit (cond_class CConstruct) construct_body tt x) s1 (fun _ _ => True)).
    { unfold visit. eapply gives_run; [unfold get_node; rewrite Hn; reflexivity|].
      destruct (cond_class CConstruct n) eqn:Ec; [eapply construct_case; eassumption|left; apply ends_ret; exact I]. }
    eapply gives_imp; [exact Hrun|]. intros [] s2 E2 _. split.
    + refine (proj1 (ok_TI [] _ tt_ no_ s1 s2 tt (ok_visit [] (cond_class CConstruct) construct_body tt x no_ _) HT1 _ E2)); [apply t_construct_body|intros y []].
    + eapply only_trans; [exact Ho|]. refine (ch_run _ _ _ _ _ (ch_visit _ (only_refl _) (only_trans _) _ _ tt x _) E2).
      intros s0. eapply only_weaken; [|apply construct_body_only]. intros j b [_ ->]. reflexivity.
  - split; [exact HT|apply only_refl].
  - exists F. eapply gives_imp; [exact HF|auto].
Qed.

(** ** Which documents have these mistakes *)
Lemma subs_last_dec h cs : subs_last h cs \/
  exists pre c post, cs = pre ++ c :: post /\ (forall y, y ∈ pre -> ~ step_or_sub h y) /\ class_of h c CSubproof /\ post <> [].
Proof.
  induction cs as [|a cs IH]; [left; intros pre c post E; destruct pre; discriminate|].
  assert (D : class_of h a CSubproof \/ class_of h a CStep \/ ~ step_or_sub h a).
  { unfold step_or_sub, class_of. destruct (h !! a) as [n|] eqn:En.
    - destruct (decide (n_cls n = CSubproof)) as [E1|E1]; [left; eauto|]. destruct (decide (n_cls n = CStep)) as [E2|E2]; [right; left; eauto|].
      right. right. intros [(m & Hm & E)|(m & Hm & E)]; congruence.
    - right. right. intros [(m & Hm & E)|(m & Hm & E)]; congruence. }
  destruct D as [D|[D|D]].
  - destruct cs as [|b cs]; [left|right; exists [], a, (b :: cs); split; [reflexivity|]; split; [intros y Hy; inversion Hy|]; split; [exact D|discriminate]].
    intros [|a' pre] c post E Hno Hc; [injection E as <- <-; reflexivity|]. injection E as <- E. destruct pre; discriminate.
  - left. intros [|a' pre] c post E Hno Hc.
    + injection E as <- <-. destruct D as (m & Hm & E1), Hc as (m' & Hm' & E2). congruence.
    + injection E as <- E. destruct (Hno a ltac:(constructor)). left. exact D.
  - destruct IH as [IH|(pre & c & post & -> & Hno & Hc & Hp)].
    + left. intros [|a' pre] c post E Hno Hc; [injection E as <- <-; destruct D; right; exact Hc|]. injection E as <- E.
      apply (IH pre c post E); [|exact Hc]. intros y Hy. apply Hno. constructor. exact Hy.
    + right. exists (a :: pre), c, post. split; [reflexivity|]. split; [|auto]. intros y Hy. inversion Hy; subst; [exact D|apply Hno; assumption].
Qed.
Lemma exists_or {A} (P Q : A -> Prop) (l : list A) : (forall x, x ∈ l -> P x \/ Q x) -> (exists x, x ∈ l /\ P x) \/ (forall x, x ∈ l -> Q x).
Proof.
  induction l as [|a l IH]; intros H; [right; intros x Hx; inversion Hx|].
  destruct (H a ltac:(constructor)) as [Ha|Ha]; [left; exists a; split; [constructor|exact Ha]|].
  destruct IH as [(x & Hx & HP)|IH]; [intros x Hx; apply H; constructor; exact Hx|left; exists x; split; [constructor; exact Hx|exact HP]|].
  right. intros x Hx. inversion Hx; subst; [exact Ha|apply IH; assumption].
Qed.
Lemma misplaced_dec h t : (forall x, x ∈ doc_order t -> is_Some (h !! x)) -> (exists x, x ∈ doc_order t /\ misplaced_subproof h x) \/
  (forall x pre c post, x ∈ doc_order t -> class_of h x CStep -> kids_are h x (pre ++ c :: post) -> (forall y, y ∈ pre -> ~ step_or_sub h y) ->
     class_of h c CSubproof -> post = []).
Proof.
  intros Hs. destruct (exists_or (misplaced_subproof h) (fun x => class_of h x CStep -> forall n, h !! x = Some n -> subs_last h (kids n)) (doc_order t)) as [H|H].
  - intros x Hx. destruct (Hs x Hx) as [n Hn]. destruct (decide (n_cls n = CStep)) as [E|E]; [|right; intros (m & Hm & Em); congruence].
    destruct (subs_last_dec h (kids n)) as [G|(pre & c & post & Ek & Hno & Hc & Hp)].
    + right. intros _ m Hm. assert (m = n) as -> by congruence. exact G.
    + left. split; [exists n; auto|]. exists pre, c, post. split; [exists n; auto|auto].
  - left. exact H.
  - right. intros x pre c post Hx Hc (n & Hn & Ek) Hno Hcc. exact (H x Hx Hc n Hn pre c post Ek Hno Hcc).
Qed.
Lemma no_letter_dec h t : (exists x, x ∈ doc_order t /\ no_letter h t x) \/
  (forall p x q sc k, doc_order t = p ++ x :: q -> is_numbered h x = true -> scope_of h x = [CManuscript] ->
    (exists a, a ∈ p /\ is_appendix h a = true) -> current_scope h [CManuscript] p sc ->
    exactly (consumes h [CManuscript] (sequence_of h x)) k sc -> k < 26).
Proof.
  assert (G : forall r l, doc_order t = l ++ r -> (exists x, x ∈ doc_order t /\ no_letter h t x) \/
    (forall p x q sc k, doc_order t = p ++ x :: q -> length l <= length p -> is_numbered h x = true -> scope_of h x = [CManuscript] ->
      (exists a, a ∈ p /\ is_appendix h a = true) -> current_scope h [CManuscript] p sc ->
      exactly (consumes h [CManuscript] (sequence_of h x)) k sc -> k < 26)).
  { induction r as [|x r IH]; intros l El.
    - right. intros p x q sc k E Hlen. exfalso. apply (f_equal (@length _)) in El, E. rewrite !app_length in El, E. cbn [length] in El, E. lia.
    - destruct (IH (l ++ [x])) as [H|H]; [rewrite <- app_assoc; exact El|left; exact H|].
      destruct (is_numbered h x) eqn:En, (decide (scope_of h x = [CManuscript])) as [Es|Es], (existsb (is_appendix h) l) eqn:Ea.
      1:{ destruct (current_exists h [CManuscript] l) as [sc Hsc]. destruct (exactly_exists h [CManuscript] (sequence_of h x) sc) as [k Hk].
          destruct (decide (k < 26)) as [Hlt|Hge].
          - right. intros p y q sc' k' E Hlen Hn Hs Ha Hsc' Hk'.
            destruct (decide (length p = length l)) as [Hl|Hl].
            + assert (E2 : p ++ y :: q = l ++ x :: r) by congruence. apply app_inj_1 in E2 as [-> E2]; [|exact Hl]. injection E2 as -> ->.
              rewrite <- (count_current _ _ _ _ _ _ Hsc' Hk'), (count_current _ _ _ _ _ _ Hsc Hk). exact Hlt.
            + apply (H p y q sc' k' E); [rewrite app_length; cbn; lia|assumption..].
          - left. exists x. split; [rewrite El; set_solver|]. exists l, r, sc, k. split; [exact El|]. split; [exact En|]. split; [exact Es|].
            apply existsb_exists in Ea as (b & Hb & Hab). split; [exists b; split; [apply elem_of_list_In; exact Hb|exact Hab]|]. split; [exact Hsc|]. split; [exact Hk|lia]. }
      all: right; intros p y q sc' k' E Hlen Hn Hs Ha' Hsc' Hk'; (destruct (decide (length p = length l)) as [Hl|Hl];
        [|apply (H p y q sc' k' E); [rewrite app_length; cbn; lia|assumption..]]); exfalso;
        assert (E2 : p ++ y :: q = l ++ x :: r) by congruence; apply app_inj_1 in E2 as [-> E2]; try exact Hl; injection E2 as -> ->; try congruence;
        destruct Ha' as (b & Hb & Hab); assert (X : existsb (is_appendix h) l = true) by (apply existsb_exists; exists b; split; [apply elem_of_list_In; exact Hb|exact Hab]); congruence. }
  destruct (G (doc_order t) []) as [H|H]; [reflexivity|left; exact H|right]. intros p x q sc k E. apply (H p x q sc k E). cbn. lia.
Qed.
Lemma no_kind_dec h t : (exists x, x ∈ doc_order t /\ no_kind h x) \/
  (forall x, x ∈ doc_order t -> is_construct h x = true -> exists kind, value h x a_kind = Some (VStr kind) /\ kind <> []).
Proof.
  apply exists_or. intros x _. destruct (is_construct h x) eqn:E; [|right; discriminate].
  destruct (value h x a_kind) as [v|] eqn:Ev; [|left; split; [exact E|intros kind X; congruence]].
  destruct v as [| | | |kind| | | |]; try (left; split; [exact E|intros kind; congruence]).
  destruct kind as [|c kind]; [left; split; [exact E|intros kind; congruence]|]. right. intros _. eexists. split; [reflexivity|discriminate].
Qed.

(** ** A pass that returns has found none *)
Lemma first_ss h pre c post pre' c' post' : pre ++ c :: post = pre' ++ c' :: post' -> (forall y, y ∈ pre -> ~ step_or_sub h y) -> (forall y, y ∈ pre' -> ~ step_or_sub h y) ->
  step_or_sub h c -> step_or_sub h c' -> pre = pre' /\ c = c' /\ post = post'.
Proof.
  revert pre'. induction pre as [|a pre IH]; intros [|a' pre'] E H1 H2 Hc Hc'; cbn [app] in E.
  - injection E as -> ->. auto.
  - injection E as -> E. destruct (H2 a' ltac:(constructor) Hc).
  - injection E as -> E. destruct (H1 c' ltac:(constructor) Hc').
  - injection E as -> E. destruct (IH pre' E) as (-> & -> & ->); auto; intros y Hy; [apply H1|apply H2]; constructor; exact Hy.
Qed.
Lemma ends_below h i ts ts' : Forall2 (fun t (t' : tree) => forall p, tree_at h p t -> steps_end h (doc_order t)) ts ts' ->
  Forall (tree_at h (Some i)) ts -> steps_end h (doc_orders ts).
Proof.
  intros H. induction H as [|t t' ts ts' H1 H2 IH]; intros Ha x n Hx Hn Hc; [inversion Hx|]. apply list.Forall_cons in Ha as [Ha1 Ha2].
  rewrite doc_orders_cons in Hx. apply elem_of_app in Hx as [Hx|Hx]; [exact (H1 _ Ha1 x n Hx Hn Hc)|exact (IH Ha2 x n Hx Hn Hc)].
Qed.
Lemma not_ss_roots h pre : (forall t, t ∈ pre -> ~ step_or_sub h (root t)) -> forall y, y ∈ map root pre -> ~ step_or_sub h y.
Proof. intros H y Hy. apply elem_of_list_fmap in Hy as (t & -> & Ht). apply H, Ht. Qed.
Lemma restructured_steps h h' t t' : restructured h h' t t' -> forall p, tree_at h p t -> steps_end h (doc_order t).
Proof.
  intros H. induction H as [i ts ts' H1 H2 IH|i H1|i ts w ts' H1 H2 H3 H4 H5 H6 IH
    |i pre c post w v pre' post' H1 H2 H3 H4 H5 H6 H7 H8 H9 IH1 IH2
    |i pre c w pre' c' H1 H2 H3 H4 H5 H6 IH1 H7 IH2] using restructured_ind'; intros p Ht x n Hx Hn Hc.
  all: apply tree_at_inv in Ht as (ni & Hi & Hp & Hk & Hcs); rewrite doc_order_T in Hx; apply elem_of_cons in Hx as [Ex|Hx]; [subst x; assert (ni = n) as -> by congruence|].
  - destruct H1. exists n. auto.
  - exact (ends_below h i ts ts' IH Hcs x n Hx Hn Hc).
  - rewrite Hk. intros [|a pre] c post E; discriminate.
  - inversion Hx.
  - rewrite Hk. intros pre c post E Hno Hcc. exfalso. apply (not_ss_roots h ts H3 c); [rewrite E; set_solver|right; exact Hcc].
  - exact (ends_below h i ts ts' IH Hcs x n Hx Hn Hc).
  - rewrite Hk, map_app. cbn [map]. intros pre0 c0 post0 E Hno Hcc. exfalso.
    destruct (first_ss h _ _ _ _ _ _ E (not_ss_roots h pre H2) Hno) as (_ & E2 & _); [left; exact H3|right; exact Hcc|].
    destruct H3 as (m & Hm & Em), Hcc as (m' & Hm' & Em'). congruence.
  - apply list.Forall_app in Hcs as [Hcs1 Hcs2]. rewrite doc_orders_app in Hx. apply elem_of_app in Hx as [Hx|Hx];
      [exact (ends_below h i pre pre' IH1 Hcs1 x n Hx Hn Hc)|exact (ends_below h i (c :: post) post' IH2 Hcs2 x n Hx Hn Hc)].
  - rewrite Hk, map_app. cbn [map]. intros pre0 c0 post0 E Hno Hcc.
    destruct (first_ss h _ _ _ _ _ _ E (not_ss_roots h pre H2) Hno) as (_ & _ & E2); [right; exact H3|right; exact Hcc|]. symmetry. exact E2.
  - apply list.Forall_app in Hcs as [Hcs1 Hcs2]. rewrite doc_orders_app in Hx. apply elem_of_app in Hx as [Hx|Hx];
      [exact (ends_below h i pre pre' IH1 Hcs1 x n Hx Hn Hc)|].
    apply (ends_below h i [c] [c'] ltac:(constructor; [exact IH2|constructor]) Hcs2 x n Hx Hn Hc).
Qed.
Section steps.
  Context (d d' : labels) (s s1 s2 : st) (t : tree) (f : id -> id) (cites : list (list id)).
  Context (Hm : manuscript s t) (LP : label_pass d d' s s1 t) (RI : rinv s1 d' (doc_order t) f cites s2).
  Notation h := (st_heap s). Notation h1 := (st_heap s1). Notation h2 := (st_heap s2).
  Lemma steps_back x : steps_end h2 (doc_order (tmap f t)) -> x ∈ doc_order t -> ~ misplaced_subproof h x.
  Proof using Hm LP RI.
    pose proof (carried_only _ (fun b => b = a_label) _ _ (proj1 LP) ltac:(intros j b [_ ->]; reflexivity)) as C01.
    assert (Hfix : forall x, x ∈ doc_order t -> pendingb h1 x = false -> f x = x).
    { intros z Hz Hp. apply (ri_fix _ _ _ _ _ _ RI). intros [_ G]. congruence. }
    assert (Hback : forall z, z ∈ doc_order t -> step_or_sub h2 (f z) -> step_or_sub h z).
    { intros z Hz Hss. destruct (manuscript_some _ _ _ Hm Hz) as [n Hn].
      destruct (pendingb h1 z) eqn:Ep.
      - exfalso. destruct (ri_res _ _ _ _ _ _ RI z Hz Ep) as (_ & m & n' & _ & Hn' & _ & Hc & _).
        rewrite !elem_of_cons in Hc. destruct Hss as [(k & Hk & Ek)|(k & Hk & Ek)]; (assert (k = n') as -> by congruence);
          destruct Hc as [Hc|[Hc|[Hc|Hc]]]; try congruence; inversion Hc.
      - rewrite (Hfix z Hz Ep) in Hss. destruct (only_kids _ _ _ _ _ (proj1 LP) Hn) as (n1 & Hn1 & Ec1 & _ & Ek1 & _).
        destruct (ri_old _ _ _ _ _ _ RI _ _ Hn1) as (n2 & Hn2 & Ec2 & _).
        destruct Hss as [(k & Hk & Ek)|(k & Hk & Ek)]; [left|right]; exists n; (split; [exact Hn|]); congruence. }
    assert (Hforth : forall z n, z ∈ doc_order t -> h !! z = Some n -> n_cls n = CStep \/ n_cls n = CSubproof ->
      f z = z /\ exists n2, h2 !! z = Some n2 /\ n_cls n2 = n_cls n /\ kids n2 = map f (kids n)).
    { intros z n Hz Hn Hcl.
      destruct (only_kids _ _ _ _ _ (proj1 LP) Hn) as (n1 & Hn1 & Ec1 & _ & Ek1 & _).
      destruct (ri_old _ _ _ _ _ _ RI _ _ Hn1) as (n2 & Hn2 & Ec2 & Ek2 & _).
      split; [|exists n2; split; [exact Hn2|split; congruence]]. apply (Hfix z Hz). destruct (pendingb h1 z) eqn:Ep; [|reflexivity].
      apply pendingb_cases in Ep as (m & Hm1 & Hc). assert (m = n1) as -> by congruence. rewrite Ec1 in Hc.
      destruct Hcl as [E|E], Hc as [Hc|[Hc|Hc]]; congruence. }
    intros Hse Hx ((n & Hn & Hc) & pre & c & post & (m & Hm0 & Ek) & Hno & (nc & Hnc & Ecc) & Hp).
    assert (m = n) as -> by congruence.
    assert (Hkin : forall z, z ∈ kids n -> z ∈ doc_order t).
    { intros z Hz. eapply doc_order_closed; [apply (ms_document _ _ Hm)|exact Hx|exact Hn|exact Hz]. }
    destruct (Hforth x n Hx Hn (or_introl Hc)) as (Hf & n2 & Hn2 & Ec & Ek2).
    assert (Hcin : c ∈ doc_order t) by (apply Hkin; rewrite Ek; set_solver).
    destruct (Hforth c nc Hcin Hnc (or_intror Ecc)) as (Hfc & nc2 & Hnc2 & Ecc2 & _).
    assert (G : map f post = []).
    { apply (Hse x n2) with (pre := map f pre) (c := c).
      - rewrite tmap_order. apply elem_of_list_fmap. exists x. auto.
      - exact Hn2.
      - congruence.
      - rewrite Ek2, Ek, map_app. cbn [map]. rewrite Hfc. reflexivity.
      - intros y Hy. apply elem_of_list_fmap in Hy as (z & -> & Hz). intros Hss. apply (Hno z Hz), Hback; [|exact Hss]. apply Hkin. rewrite Ek. set_solver.
      - exists nc2. split; [exact Hnc2|congruence]. }
    destruct post; [apply Hp; reflexivity|discriminate].
  Qed.
End steps.
Section letters.
  Context (d d' : labels) (s s1 s2 s3 : st) (t t3 : tree) (f : id -> id) (cites : list (list id)).
  Context (Hm : manuscript s t) (ST : early d d' s s1 s2 s3 t t3 f cites).
  Notation h := (st_heap s). Notation h3 := (st_heap s3).
  Lemma letters_back x : all_expected h3 (doc_order t3) -> ~ no_letter h t x.
  Proof using Hm ST.
    intros He (p & q & sc & k & E & Hn & Hsc & (b & Hb & Hab) & Hcs & Hk & Hge).
    assert (Hx : x ∈ doc_order t) by (rewrite E; set_solver).
    assert (Hs : is_Some (h !! x)) by (apply (in_h Hm), Hx).
    assert (Hr : relevant h x = true) by (unfold relevant; rewrite Hn; reflexivity).
    destruct (before_3 Hm ST p x q E Hr) as (p3 & q3 & E3 & Ep).
    rewrite <- (numbered_3 ST _ Hs) in Hn. destruct (He p3 x q3 E3 Hn) as [num Hnum].
    destruct (scope_3 ST _ Hs) as [E1 E2].
    destruct (count_same Hm ST p p3 (scope_of h x) (sequence_of h x)) as [Ec Ea]; [intros y Hy; rewrite E; set_solver|exact Ep|].
    unfold expected_number in Hnum. rewrite E1, E2, Ec, Ea, Hsc in Hnum.
    assert (X : existsb (is_appendix h) p = true) by (apply existsb_exists; exists b; split; [apply elem_of_list_In; exact Hb|exact Hab]).
    rewrite X in Hnum. change (cls_list_eqb [CManuscript] [CManuscript] && true) with true in Hnum. cbv iota in Hnum.
    rewrite (count_current _ _ _ _ _ _ Hcs Hk) in Hnum. unfold letter in Hnum. apply Nat.ltb_ge in Hge. rewrite Hge in Hnum. discriminate.
  Qed.
End letters.

(** ** The passes *)
Definition after_refs (fuel : nat) (d : labels) (tree : id) : M labels :=
  do! add_necessary_subproofs fuel tree in
  do! autonumber_nodes fuel tree in
  do! make_toc fuel tree in
  do! add_keywords_to_constructs fuel tree in
  do! add_handrail_depth fuel tree in
  do! assign_node_ids fuel tree in
  ret d.
Lemma mono_after d r : mono (fun F => after_refs F d r).
Proof.
  unfold after_refs. repeat (apply mono_bind; [first [apply mono_subproofs|apply mono_number|apply mono_toc|apply mono_constructs|apply mono_depth|apply mono_nodeids]|intros _]).
  apply mono_const.
Qed.
Lemma refs_pass s t : plausible s t -> parents_permitted (st_heap s) -> (forall x e, x ∈ doc_order t -> ~ mistake (st_heap s) t x e) ->
  exists F d s1 s2 f cites, (forall F', F <= F' -> transform F' [] (root t) s = after_refs F' d (root t) s2) /\
    label_pass [] d s s1 t /\ manuscript s1 t /\ rinv s1 d (doc_order t) f cites s2 /\ manuscript s2 (tmap f t) /\ root (tmap f t) = root t /\ TI s2 /\ parents_ok s2.
Proof.
  intros PL Hpp Hno. destruct (pl_ready _ _ PL) as (Hm & Hbu & Herr). assert (HT : TI s) by (split; apply PL).
  set (s0 := (info logger_tform (lit "Transforming...") s).1).
  assert (E0 : info logger_tform (lit "Transforming...") s = (s0, Ok tt)) by reflexivity.
  assert (Hm0 : manuscript s0 t) by (eapply (only_manuscript (fun _ _ => True)); [|exact Hm]; exact (ch_run _ _ _ _ _ (only_log _ _) E0)).
  assert (HT0 : TI s0) by exact HT.
  destruct (collect_total [] t s0 Hm0 HT0) as (f1 & s1 & d & E1 & HT1 & Hex1); [intros x []|].
  assert (LP : label_pass [] d s s1 t).
  { destruct (collect_labels_ok _ _ _ _ _ _ (ms_document _ _ Hm0) E1) as (Ho & Hk & Hv).
    unfold label_pass. split; [|split; assumption].
    destruct Ho as (On & Ol & Oh). split; [exact On|]. split; [|exact Oh].
    eapply logs_grow_trans; [|exact Ol]. eexists. reflexivity. }
  pose proof (lp_manuscript1 _ _ _ _ (pl_ready _ _ PL) LP) as Hm1.
  assert (Hpl : parents_ok s) by (eapply placed_ok; [exact Hm|exact Hpp]).
  assert (Hpl1 : parents_ok s1) by (eapply run_keeps; [apply pl_collect| |exact E1]; exact Hpl).
  assert (RV : resolvable_on (doc_order t) s1 t d).
  { apply (lp_resolvable s s1 t d (pl_ready _ _ PL) LP HT1 Hex1 (doc_order t) (pl_root _ _ PL) (pl_refs _ _ PL) ltac:(auto)).
    - intros z keys k y Hz. apply (good_cites s t PL). intros e. apply Hno, Hz.
    - intros z Hz Hc. destruct (prev_cases s t PL z Hz Hc) as [[e He]|H]; [destruct (Hno z e Hz He)|exact H]. }
  destruct (resolve_total _ _ _ RV) as (f2 & s2 & [] & E2 & HT2 & f & cites & RI).
  pose proof (rinv_document _ _ _ _ _ _ Hm1 RI) as Hm2.
  assert (Hpl2 : parents_ok s2) by (eapply run_keeps; [apply pl_resolve|exact Hpl1|exact E2]).
  exists (f1 + f2), d, s1, s2, f, cites. split; [|split; [exact LP|]; split; [exact Hm1|]; split; [exact RI|]; split; [exact Hm2|]; split; [|split; assumption]].
  - intros F' HF. unfold transform, after_refs. unfold bind at 1. rewrite E0. unfold bind at 1.
    rewrite (mono_ok _ f1 F' _ _ _ (mono_collect [] (root t)) ltac:(lia) E1). unfold bind at 1.
    rewrite (mono_ok _ f2 F' _ _ _ (mono_resolve d (root t)) ltac:(lia) E2). reflexivity.
  - destruct t as [r cs]. cbn. apply (ri_fix _ _ _ _ _ _ RI). intros [_ Hp]. apply pendingb_cases in Hp as (n & Hn & Hc).
    rewrite (rv_root _ _ _ _ RV n Hn) in Hc. destruct Hc as [Hc|[Hc|Hc]]; discriminate.
Qed.
Lemma raises_after s t F d s2 e f0 : (forall F', F <= F' -> transform F' [] (root t) s = after_refs F' d (root t) s2) ->
  e <> EOutOfFuel -> fails (after_refs f0 d (root t)) s2 e -> transform_raises s t e.
Proof.
  intros H He HF. exists (F + f0). intros F' HF'. rewrite H by lia.
  exact (mono_fails (fun F => after_refs F d (root t)) f0 F' s2 e (mono_after d (root t)) He ltac:(lia) HF).
Qed.

Theorem late_subproof s t x : plausible s t -> parents_permitted (st_heap s) -> (forall y e, y ∈ doc_order t -> ~ mistake (st_heap s) t y e) ->
  x ∈ doc_order t -> misplaced_subproof (st_heap s) x -> transform_raises s t EAssert.
Proof.
  intros PL Hpp Hno Hx Hmis. destruct (refs_pass s t PL Hpp Hno) as (F & d & s1 & s2 & f & cites & HE & LP & Hm1 & RI & Hm2 & Hr & HT2 & Hpl2).
  destruct (sub_case s2 (tmap f t) Hm2 Hpl2) as (f3 & [(s3 & [] & E3 & _)|[_ HF]]); rewrite Hr in *.
  - exfalso. rewrite <- Hr in E3. destruct (add_necessary_subproofs_ok _ _ _ _ _ Hm2 E3) as (t3 & SP & Hm3 & RS).
    apply (steps_back [] d s s1 s2 t f cites (proj1 (pl_ready _ _ PL)) LP RI x); [|exact Hx|exact Hmis].
    apply (restructured_steps _ _ _ _ RS None). apply Hm2.
  - apply (raises_after s t F d s2 EAssert f3 HE); [discriminate|]. apply fails_bind, HF.
Qed.
Theorem late_letter s t x : plausible s t -> parents_permitted (st_heap s) -> (forall y e, y ∈ doc_order t -> ~ mistake (st_heap s) t y e) ->
  (forall y, y ∈ doc_order t -> ~ misplaced_subproof (st_heap s) y) -> no_letter (st_heap s) t x -> transform_raises s t EStopIteration.
Proof.
  intros PL Hpp Hno Hsub Hlet. pose proof (proj1 (pl_ready _ _ PL)) as Hm.
  destruct (refs_pass s t PL Hpp Hno) as (F & d & s1 & s2 & f & cites & HE & LP & Hm1 & RI & Hm2 & Hr & HT2 & Hpl2).
  destruct (misplaced_dec (st_heap s) t) as [(y & Hy & Hmis)|TS]; [intros y Hy; eapply manuscript_some; eassumption|destruct (Hsub y Hy Hmis)|].
  destruct (sub_total s2 (tmap f t) Hm2 Hpl2 (steps_there _ _ _ _ _ _ _ _ (pl_ready _ _ PL) TS LP RI)) as (f3 & s3 & [] & E3 & _).
  destruct (add_necessary_subproofs_ok _ _ _ _ _ Hm2 E3) as (t3 & SP & Hm3 & RS).
  assert (Hroot3 : root t3 = root t) by (rewrite (restructured_root _ _ _ _ RS); assumption).
  destruct (ok_TI _ _ _ _ _ _ _ (t_subproofs f3 (root (tmap f t)) []) HT2 ltac:(intros y []) E3) as (HT3 & _).
  assert (EA : early [] d s s1 s2 s3 t t3 f cites) by (constructor; assumption).
  destruct (number_case s3 t3 Hm3 HT3) as (f4 & [(s4 & [] & E4 & _)|[_ HF]]).
  - exfalso. destruct (autonumber_ok _ _ _ _ Hm3 E4) as (ON & a & NI).
    apply (letters_back [] d s s1 s2 s3 t t3 f cites Hm EA x); [|exact Hlet].
    intros p y q Ed Hn. apply (ni_number _ _ _ _ NI p y q Ed Hn).
  - apply (raises_after s t F d s2 EStopIteration (f3 + f4) HE); [discriminate|]. rewrite Hr in E3. rewrite Hroot3 in HF.
    unfold after_refs. eapply fails_run; [exact (mono_ok _ f3 (f3 + f4) _ _ _ (mono_subproofs (root t)) ltac:(lia) E3)|].
    apply fails_bind. assert (He : EStopIteration <> EOutOfFuel) by discriminate. exact (mono_fails _ f4 (f3 + f4) _ _ (mono_number (root t)) He ltac:(lia) HF).
Qed.

(** All that may happen. *)
Theorem all_outcomes s t : plausible s t -> parents_permitted (st_heap s) ->
  ((exists x, x ∈ doc_order t /\ is_contents (st_heap s) x = true) -> well_nested (st_heap s) t) ->
  (exists s', transforms_to s t s') \/ (exists x e, first_mistake s t x e /\ transform_raises s t e) \/
  ((exists x, x ∈ doc_order t /\ misplaced_subproof (st_heap s) x) /\ transform_raises s t EAssert) \/
  ((exists x, x ∈ doc_order t /\ no_letter (st_heap s) t x) /\ transform_raises s t EStopIteration) \/
  ((exists x, x ∈ doc_order t /\ no_kind (st_heap s) x) /\ transform_raises s t EAssert).
Proof.
  intros PL Hpp Hnest. pose proof (proj1 (pl_ready _ _ PL)) as Hm.
  destruct (mistake_first s t PL) as [(x & e & H)|Hno]; [right; left; exists x, e; split; [exact H|exact (mistake_raises s t x e PL H)]|].
  destruct (misplaced_dec (st_heap s) t) as [(y & Hy & Hmis)|TS]; [intros y Hy; eapply manuscript_some; eassumption| |].
  { right. right. left. split; [exists y; auto|exact (late_subproof s t y PL Hpp Hno Hy Hmis)]. }
  destruct (no_letter_dec (st_heap s) t) as [(y & Hy & Hlet)|TL].
  { right. right. right. left. split; [exists y; auto|]. apply (late_letter s t y PL Hpp Hno); [|exact Hlet].
    intros z Hz ((n & Hn & Hc) & pre & c & post & Hk & Hpre & Hcc & Hp). apply Hp. apply (TS z pre c post Hz); auto. exists n. auto. }
  destruct (no_kind_dec (st_heap s) t) as [Hkind|TK].
  2:{ left. apply transform_total. constructor; try apply PL; try assumption.
      - intros z keys k y Hz. apply (good_cites s t PL). intros e. apply Hno, Hz.
      - intros z Hz Hc. destruct (prev_cases s t PL z Hz Hc) as [[e He]|H]; [destruct (Hno z e Hz He)|exact H]. }
  destruct (refs_pass s t PL Hpp Hno) as (F & d & s1 & s2 & f & cites & HE & LP & Hm1 & RI & Hm2 & Hr & HT2 & Hpl2).
  destruct (sub_total s2 (tmap f t) Hm2 Hpl2 (steps_there _ _ _ _ _ _ _ _ (pl_ready _ _ PL) TS LP RI)) as (f3 & s3 & [] & E3 & _).
  destruct (add_necessary_subproofs_ok _ _ _ _ _ Hm2 E3) as (t3 & SP & Hm3 & RS).
  assert (Hroot3 : root t3 = root t) by (rewrite (restructured_root _ _ _ _ RS); assumption).
  destruct (ok_TI _ _ _ _ _ _ _ (t_subproofs f3 (root (tmap f t)) []) HT2 ltac:(intros y []) E3) as (HT3 & _).
  assert (EA : early [] d s s1 s2 s3 t t3 f cites) by (constructor; assumption).
  destruct (number_total s3 t3 Hm3 HT3 (numbers_there _ _ _ _ _ _ _ _ _ _ (pl_ready _ _ PL) TL EA)) as (f4 & s4 & [] & E4 & _).
  destruct (autonumber_ok _ _ _ _ Hm3 E4) as (ON & a & NI).
  pose proof (only_manuscript _ _ _ _ ON Hm3) as Hm4.
  destruct (ok_TI _ _ _ _ _ _ _ (t_number f4 (root t3) []) HT3 ltac:(intros x []) E4) as (HT4 & _).
  assert (MD : middle [] d s s1 s2 s3 s4 t t3 f cites a) by (constructor; assumption).
  destruct (toc_total s4 t3 Hm4 HT4) as (f5 & s6 & [] & E5 & _).
  { intros (x & Hx & Hc). apply (well_nested_4 Hm MD). apply Hnest.
    assert (G : x ∈ contents_in (st_heap s4) (doc_order t3)) by (apply elem_of_list_In, filter_In; split; [apply elem_of_list_In|]; assumption).
    rewrite (contents_3 Hm MD) in G. apply elem_of_list_In, filter_In in G as [G1 G2]. apply elem_of_list_In in G1. eauto. }
  destruct (make_toc_ok _ _ _ _ _ Hm4 E5) as (s5 & P & Hm5 & EX & _).
  destruct (extends_manuscript _ _ _ Hm5 EX) as (t6 & Hm6 & Er6 & Et6 & Hnew6). rewrite prune_root, Hroot3 in Er6.
  destruct (ok_TI _ _ _ _ _ _ _ (t_toc f5 (root t3) []) HT4 ltac:(intros x []) E5) as (HT6 & _).
  destruct (constructs_case s6 t6 Hm6 HT6) as (f6 & HC). rewrite Hroot3 in E4, E5. rewrite Er6 in HC. rewrite Hr in E3.
  destruct HC as [(s7 & [] & E6 & _)|[_ HF]].
  - left. rewrite <- Er6 in E6.
    pose proof (only_manuscript _ _ _ _ (proj1 (constructs_ok _ _ _ _ Hm6 E6)) Hm6) as Hm7.
    destruct (ok_TI _ _ _ _ _ _ _ (t_constructs f6 (root t6) []) HT6 ltac:(intros x []) E6) as (HT7 & _).
    destruct (depth_total s7 t6 Hm7 HT7) as (f7 & s8 & [] & E7 & _).
    assert (Hcmp : all_comparable s7) by exact (complete_built _ (proj2 HT7)).
    pose proof (only_manuscript _ _ _ _ (proj1 (handrail_depth_ok _ _ _ _ Hm7 Hcmp E7)) Hm7) as Hm8.
    destruct (nodeids_total s8 t6 Hm8) as (f8 & s9 & [] & E8 & _). rewrite Er6 in E6, E7, E8.
    set (G := F + f3 + f4 + f5 + f6 + f7 + f8). exists s9, G, d. rewrite HE by (unfold G; lia). unfold after_refs, bind.
    rewrite (mono_ok _ f3 G _ _ _ (mono_subproofs (root t)) ltac:(unfold G; lia) E3).
    rewrite (mono_ok _ f4 G _ _ _ (mono_number (root t)) ltac:(unfold G; lia) E4).
    rewrite (mono_ok _ f5 G _ _ _ (mono_toc (root t)) ltac:(unfold G; lia) E5).
    rewrite (mono_ok _ f6 G _ _ _ (mono_constructs (root t)) ltac:(unfold G; lia) E6).
    rewrite (mono_ok _ f7 G _ _ _ (mono_depth (root t)) ltac:(unfold G; lia) E7).
    rewrite (mono_ok _ f8 G _ _ _ (mono_nodeids (root t)) ltac:(unfold G; lia) E8).
    reflexivity.
  - right. right. right. right. split; [exact Hkind|]. assert (He : EAssert <> EOutOfFuel) by discriminate.
    set (G := f3 + f4 + f5 + f6). apply (raises_after s t F d s2 EAssert G HE He). unfold after_refs.
    eapply fails_run; [exact (mono_ok _ f3 G _ _ _ (mono_subproofs (root t)) ltac:(unfold G; lia) E3)|].
    eapply fails_run; [exact (mono_ok _ f4 G _ _ _ (mono_number (root t)) ltac:(unfold G; lia) E4)|].
    eapply fails_run; [exact (mono_ok _ f5 G _ _ _ (mono_toc (root t)) ltac:(unfold G; lia) E5)|].
    apply fails_bind. exact (mono_fails _ f6 G _ _ (mono_constructs (root t)) He ltac:(unfold G; lia) HF).
Qed.
(** A construct that is not below a dropped table of contents. *)
Theorem late_kind s t x : plausible s t -> parents_permitted (st_heap s) ->
  ((exists x, x ∈ doc_order t /\ is_contents (st_heap s) x = true) -> well_nested (st_heap s) t) ->
  (forall y e, y ∈ doc_order t -> ~ mistake (st_heap s) t y e) -> (forall y, y ∈ doc_order t -> ~ misplaced_subproof (st_heap s) y) ->
  (forall y, y ∈ doc_order t -> ~ no_letter (st_heap s) t y) ->
  x ∈ doc_order (prune (later_contents (st_heap s) t) t) -> no_kind (st_heap s) x -> transform_raises s t EAssert.
Proof.
  intros PL Hpp Hnest H1 H2 H3 Hx [Hc Hk].
  destruct (all_outcomes s t PL Hpp Hnest) as [(s' & E)|[(y & e & [Hm (p & q & El & _)] & _)|[[(y & Hy & Hm) _]|[[(y & Hy & Hm) _]|[_ G]]]]]; [|exfalso..|exact G].
  - exfalso. destruct (fin_constructs s t s' (pl_ready _ _ PL) E) as (t' & f & TF & HC & _).
    assert (Hxt : x ∈ doc_order t) by (eapply sublist_in; [apply prune_sublist|exact Hx]).
    destruct (manuscript_some _ _ _ (proj1 (pl_ready _ _ PL)) Hxt) as [n Hn].
    assert (Hnp : ~ is_pending (st_heap s) x).
    { intros G. unfold is_construct in Hc. rewrite Hn in Hc.
      destruct G as [(m & Hm & G)|[(m & Hm & G)|(m & Hm & G)]]; (assert (m = n) as -> by congruence); rewrite G in Hc; discriminate. }
    assert (Hx' : x ∈ doc_order t').
    { assert (X : x ∈ doc_orders (forget (fun y => bool_decide (y ∈ map f (doc_order t))) t')).
      { rewrite (tf_tree _ _ _ _ _ TF), doc_orders_cons, tmap_order. apply elem_of_app. left. apply elem_of_list_fmap. exists x. split; [symmetry; apply (tf_same _ _ _ _ _ TF); assumption|exact Hx]. }
      rewrite forget_order in X. apply elem_of_list_In, filter_In in X as [X _]. apply elem_of_list_In, X. }
    destruct (tf_node _ _ _ _ _ TF x Hxt Hnp) as (m & m' & Hm & Hm' & Ec & _). assert (m = n) as -> by congruence.
    destruct (HC x Hx') as (kind & ts & _ & Hne & Hv & _); [unfold is_construct in *; rewrite Hm', Ec; rewrite Hn in Hc; exact Hc|].
    apply Hne, Hk, Hv.
  - apply (H1 y e); [rewrite El; set_solver|exact Hm].
  - exact (H2 y Hy Hm).
  - exact (H3 y Hy Hm).
Qed.
Lemma raises_not s t e s' : e <> EOutOfFuel -> transform_raises s t e -> ~ transforms_to s t s'.
Proof.
  intros He (f & H) (g & d & E). destruct (H (f + g) ltac:(lia)) as [s2 E2].
  pose proof (mono_ok (fun f => transform f [] (root t)) g (f + g) _ _ _ (mono_transform [] (root t)) ltac:(lia) E) as M2. cbv beta in M2. congruence.
Qed.
Lemma mistake_not_fuel h t x e : mistake h t x e -> e <> EOutOfFuel.
Proof. intros []; discriminate. Qed.
Lemma prune_none t : prune [] t = t.
Proof.
  induction t as [i cs IH] using tree_ind'. cbn [prune]. f_equal. induction cs as [|c cs IHcs]; [reflexivity|].
  apply list.Forall_cons in IH as [Hc IH]. cbn [flat_map]. rewrite decide_False by (intros G; inversion G). cbn [app]. rewrite Hc, (IHcs IH). reflexivity.
Qed.
(** Exactly the documents without mistakes are transformed. *)
Theorem returns_iff s t : plausible s t -> parents_permitted (st_heap s) ->
  ((exists x, x ∈ doc_order t /\ is_contents (st_heap s) x = true) -> well_nested (st_heap s) t) -> later_contents (st_heap s) t = [] ->
  (exists s', transforms_to s t s') <->
  (forall x e, x ∈ doc_order t -> ~ mistake (st_heap s) t x e) /\
  (forall x, x ∈ doc_order t -> ~ misplaced_subproof (st_heap s) x /\ ~ no_letter (st_heap s) t x /\ ~ no_kind (st_heap s) x).
Proof.
  intros PL Hpp Hnest Hone. split.
  - intros [s' E].
    assert (H1 : forall x e, x ∈ doc_order t -> ~ mistake (st_heap s) t x e).
    { destruct (mistake_first s t PL) as [(x & e & H)|H]; [|exact H]. exfalso.
      exact (raises_not s t e s' (mistake_not_fuel _ _ _ _ (proj1 H)) (mistake_raises s t x e PL H) E). }
    assert (H2 : forall x, x ∈ doc_order t -> ~ misplaced_subproof (st_heap s) x).
    { intros x Hx Hm. apply (raises_not s t EAssert s' ltac:(discriminate) (late_subproof s t x PL Hpp H1 Hx Hm) E). }
    assert (H3 : forall x, x ∈ doc_order t -> ~ no_letter (st_heap s) t x).
    { intros x Hx Hm. apply (raises_not s t EStopIteration s' ltac:(discriminate) (late_letter s t x PL Hpp H1 H2 Hm) E). }
    split; [exact H1|]. intros x Hx. split; [apply H2, Hx|]. split; [apply H3, Hx|].
    intros Hm. apply (raises_not s t EAssert s' ltac:(discriminate)) in E; [exact E|].
    apply (late_kind s t x PL Hpp Hnest H1 H2 H3); [rewrite Hone, prune_none; exact Hx|exact Hm].
  - intros (H1 & H2).
    destruct (all_outcomes s t PL Hpp Hnest) as [H|[(y & e & [Hm (p & q & El & _)] & _)|[[(y & Hy & Hm) _]|[[(y & Hy & Hm) _]|[(y & Hy & Hm) _]]]]]; [exact H|exfalso..].
    + apply (H1 y e); [rewrite El; set_solver|exact Hm].
    + exact (proj1 (H2 y Hy) Hm).
    + exact (proj1 (proj2 (H2 y Hy)) Hm).
    + exact (proj2 (proj2 (H2 y Hy)) Hm).
Qed.
