(** The table of contents, different numbers and examples of documents. *)
From Verif Require Export Transformed Build Built.
From Verif Require Import Consistency Traverse Labels HandrailDepth Autonumber FullNumber TocPick TocBuild TocEntries Queries Comparable Meta Subproofs ResolveAll ResolvePrev Resolve NodeOps Monad.

(** *** Pruned trees *)
Lemma prune_first xs t x l1 l2 : doc_order t = l1 ++ x :: l2 -> (forall y, y ∈ l1 -> y ∉ xs) -> x ∉ xs -> x ∈ doc_order (prune xs t).
Proof.
  revert l1 l2. induction t as [i cs IH] using tree_ind'. intros l1 l2 E H1 H2. cbn [prune]. rewrite doc_order_T in *.
  destruct l1 as [|j l1]; [injection E as -> _; constructor|]. injection E as <- E. constructor. 
  assert (H1' : forall y, y ∈ l1 -> y ∉ xs) by (intros y Hy; apply H1; constructor; assumption). clear H1.
  revert l1 E H1'. induction cs as [|c cs IHc]; intros l1 E H1; [destruct l1; discriminate|].
  apply list.Forall_cons in IH as [Hc IH]. rewrite doc_orders_cons in E. cbn [flat_map]. rewrite doc_orders_app. apply elem_of_app.
  destruct (decide (length l1 < length (doc_order c))) as [Hlt|Hge].
  - left. assert (E' : doc_order c = l1 ++ x :: take (length (doc_order c) - length l1 - 1) l2).
    { pose proof (f_equal (take (length (doc_order c))) E) as Et. rewrite take_app in Et.
      rewrite take_app_ge in Et by lia. rewrite Et at 1. f_equal. destruct (length (doc_order c) - length l1) as [|k] eqn:Ek; [lia|]. cbn [take]. do 2 f_equal. lia. }
    rewrite decide_False.
    + rewrite doc_orders_cons. apply elem_of_app. left. eapply Hc; eassumption.
    + destruct c as [j us]. rewrite doc_order_T in E'. cbn [root]. destruct l1 as [|j' l1]; cbn [app] in E'.
      * assert (j = x) as -> by congruence. assumption.
      * assert (j = j') as -> by congruence. apply H1. constructor.
  - right. pose proof (f_equal (drop (length (doc_order c))) E) as Ed. rewrite drop_app in Ed.
    rewrite drop_app_le in Ed by lia. eapply (IHc IH); [exact Ed|].
    intros y Hy. apply H1. eapply sublist_in; [apply sublist_drop|exact Hy].
Qed.
Lemma prune_gone xs t x : x ∈ doc_order (prune xs t) -> x = root t \/ x ∉ xs.
Proof.
  induction t as [i cs IH] using tree_ind'. cbn [prune root]. rewrite doc_order_T. intros Hx. apply elem_of_cons in Hx as [-> |Hx]; [auto|]. right.
  apply elem_doc_orders in Hx as (u & Hu & Hx). apply in_flat in Hu as (c & Hc & Hu). case_decide as E; [inversion Hu|].
  apply elem_of_list_singleton in Hu as ->. rewrite list.Forall_forall in IH. destruct (IH c Hc Hx) as [-> |?]; assumption.
Qed.

Lemma filter_head_split {A} (g : A -> bool) l x r : List.filter g l = x :: r ->
  exists l1 l2, l = l1 ++ x :: l2 /\ forall y, y ∈ l1 -> g y = false.
Proof.
  induction l as [|y l IH]; cbn [List.filter]; [discriminate|]. destruct (g y) eqn:E.
  - intros [= -> _]. exists [], l. split; [reflexivity|]. intros z Hz. inversion Hz.
  - intros H. destruct (IH H) as (l1 & l2 & -> & H1). exists (y :: l1), l2. split; [reflexivity|].
    intros z Hz. apply elem_of_cons in Hz as [-> |Hz]; auto.
Qed.
Lemma filter_only {A} (g : A -> bool) l x : x ∈ l -> g x = true -> NoDup l -> (forall z, z ∈ l -> g z = true -> z = x) -> List.filter g l = [x].
Proof.
  intros Hx Hg. induction l as [|y l IH]; intros Hn Ho; [inversion Hx|]. apply list.NoDup_cons in Hn as [Hy Hn]. cbn [List.filter].
  destruct (g y) eqn:E.
  - assert (y = x) as -> by (apply Ho; [constructor|assumption]). f_equal. apply filter_false.
    intros z Hz. destruct (g z) eqn:Ez; [|reflexivity]. rewrite (Ho z) in Hz by (try constructor; assumption). contradiction.
  - apply elem_of_cons in Hx as [-> |Hx]; [congruence|]. apply IH; [assumption|assumption|]. intros z Hz. apply Ho. constructor. assumption.
Qed.

Section more.
  Context (s : st) (t : tree) (s' : st) (R : ready s t) (H : transforms_to s t s').
  Notation h := (st_heap s). Notation h' := (st_heap s').

  Lemma contents_result t' f toc : transformed s t s' t' f ->
    (forall x, x ∈ doc_order t -> is_pending h x -> is_contents h' (f x) = false) ->
    head (List.filter (is_contents h) (doc_order t)) = Some toc ->
    List.filter (is_contents h') (doc_order t') = [toc].
  Proof using R H.
    intros TF Hf Hh. pose proof (proj1 R) as Hm. rewrite (transformed_keeps _ _ _ _ _ is_contents TF).
    - unfold later_contents. pose proof (proj2 (ms_document _ _ Hm)) as Hnd.
      destruct (List.filter (is_contents h) (doc_order t)) as [|y l] eqn:El; [discriminate|]. injection Hh as ->. cbn [tail].
      assert (Htoc : toc ∈ doc_order t /\ is_contents h toc = true).
      { assert (In toc (List.filter (is_contents h) (doc_order t))) as G by (rewrite El; left; reflexivity). apply filter_In in G as [G1 G2]. split; [apply elem_of_list_In|]; assumption. }
      assert (Hl : forall y, y ∈ l -> is_contents h y = true).
      { intros z Hz. assert (In z (List.filter (is_contents h) (doc_order t))) as G by (rewrite El; right; apply elem_of_list_In; assumption). apply filter_In in G. tauto. }
      assert (Hndl : toc ∉ l).
      { assert (NoDup (toc :: l)) as G by (rewrite <- El; apply NoDup_ListNoDup, List.NoDup_filter, NoDup_ListNoDup; assumption).
        apply list.NoDup_cons in G. tauto. }
      assert (Hin : toc ∈ doc_order (prune l t)).
      { destruct (filter_head_split _ _ _ _ El) as (l1 & l2 & E & Hl1). eapply prune_first; [exact E| |assumption].
        intros z Hz Hzl. specialize (Hl z Hzl). rewrite (Hl1 z Hz) in Hl. discriminate. }
      apply filter_only.
      + assumption.
      + apply Htoc.
      + eapply sublist_nodup; [apply prune_sublist|assumption].
      + intros z Hz Hc. assert (Hzt : z ∈ doc_order t) by (eapply sublist_in; [apply prune_sublist|exact Hz]).
        assert (Hz' : In z (toc :: l)) by (rewrite <- El; apply filter_In; split; [apply elem_of_list_In|]; assumption).
        destruct Hz' as [Hz'|Hz']; [auto|]. apply elem_of_list_In in Hz'. destruct (prune_gone _ _ _ Hz) as [E|?]; [|contradiction].
        (* the root comes first *)
        subst z. destruct t as [i cs]. cbn [root] in *. rewrite doc_order_T in El. cbn [List.filter] in El. rewrite Hc in El. congruence.
    - intros y Hy Hn. destruct (tf_added _ _ _ _ _ TF y Hy Hn) as (_ & c & (n & Hn' & Ec) & Hin). unfold is_contents. rewrite Hn', Ec.
      repeat (apply elem_of_cons in Hin as [-> |Hin]; [reflexivity|]). inversion Hin.
    - intros x Hx Hp. split; [auto|]. unfold is_contents. destruct Hp as [(n & -> & ->)|[(n & -> & ->)|(n & -> & ->)]]; reflexivity.
    - intros x Hx Hp. destruct (tf_node _ _ _ _ _ TF x Hx Hp) as (n & n' & Hn & Hn' & Ec & _). unfold is_contents. rewrite Hn, Hn', Ec. reflexivity.
  Qed.
  Lemma fin_toc : exists t' f, transformed s t s' t' f /\
    forall toc l, well_nested h t -> head (List.filter (is_contents h) (doc_order t)) = Some toc -> kids_are h toc l ->
      List.filter (is_contents h') (doc_order t') = [toc] /\
      exists items, kids_are h' toc (map f (without (later_contents h t) l) ++ items) /\
        Forall2 (toc_entry h') (outlines h (prune (later_contents h t) t)) items /\
        flat_map outline_sections (outlines h (prune (later_contents h t) t)) =
          List.filter (is_section h) (doc_order (prune (later_contents h t) t)).
  Proof using R H.
    stages_of R H fuel d' s1 s2 s3 s4 s5 s6 s7 s8 t3 t6 f cites a xs ST TF Hm. exists t6, f. split; [assumption|].
    intros toc l Hw Hh Hk. split.
    - eapply contents_result; [exact TF| |exact Hh]. intros x Hx Hp. destruct (f_new Hm ST x Hx Hp) as (_ & n' & Hn' & Hc).
      destruct (carried_class _ _ _ (f x) (n_cls n') (c2' ST)) as (m & Hm' & Em); [exists n'; auto|].
      unfold is_contents. rewrite Hm', Em. repeat (apply elem_of_cons in Hc as [-> |Hc]; [reflexivity|]). inversion Hc.
    - assert (G : exists items, kids_are h' toc (map f (without (later_contents h t) l) ++ items) /\
        Forall2 (toc_entry h') (outlines h (prune (later_contents h t) t)) items) by (eapply toc_result; eauto).
      destruct G as (items & G1 & G2). exists items. split; [assumption|]. split; [assumption|]. apply outlines_flat.
  Qed.
End more.

(** *** Scopes and counts *)
Lemma opens_dec h w y : opens h w y \/ ~ opens h w y.
Proof.
  unfold opens. destruct (is_appendix h y && cls_list_eqb w [CManuscript]) eqn:E1.
  - apply andb_true_iff in E1 as [E1 E2]. apply cls_list_eqb_eq in E2. auto.
  - destruct (is_numbered h y) eqn:E2.
    + destruct (h !! y) as [n|] eqn:En.
      * destruct (cls_list_eqb w [n_cls n]) eqn:E3.
        -- apply cls_list_eqb_eq in E3. left. right. eauto.
        -- right. intros [[-> Ha]|[_ (m & Em & ->)]].
           ++ rewrite Ha in E1. discriminate.
           ++ assert (m = n) as -> by congruence. rewrite (proj2 (cls_list_eqb_eq _ _) eq_refl) in E3. discriminate.
      * right. intros [[-> Ha]|[_ (m & ? & _)]]; [rewrite Ha in E1; discriminate|discriminate].
    + right. intros [[-> Ha]|[? _]]; [rewrite Ha in E1; discriminate|discriminate].
Qed.
Lemma consumes_dec h w a y : consumes h w a y \/ ~ consumes h w a y.
Proof.
  unfold consumes. destruct (is_numbered h y); [|right; intros [? _]; discriminate].
  destruct (cls_list_eqb (scope_of h y) w) eqn:E.
  - apply cls_list_eqb_eq in E. destruct (cls_eqb_spec (sequence_of h y) a); [auto|]. right. tauto.
  - right. intros (_ & E' & _). apply cls_list_eqb_eq in E'. congruence.
Qed.
Lemma current_scope_exists h w l : exists sc, current_scope h w l sc.
Proof.
  induction l as [|x l IH] using rev_ind; [exists []; split; [intros y Hy; inversion Hy|auto]|].
  destruct (opens_dec h w x) as [Ho|Ho].
  - exists []. split; [intros y Hy; inversion Hy|]. right. exists l, x. auto.
  - destruct IH as (sc & H1 & H2). exists (sc ++ [x]). split.
    + intros y Hy. apply elem_of_app in Hy as [Hy|Hy]; [auto|]. apply elem_of_list_singleton in Hy as ->. assumption.
    + destruct H2 as [-> |(l0 & y & -> & Hy)]; [auto|]. right. exists l0, y. rewrite <- app_assoc. auto.
Qed.
Lemma exactly_exists (P : id -> Prop) l : (forall x, P x \/ ~ P x) -> exists k, exactly P k l.
Proof. intros Hd. induction l as [|x l (k & IH)]; [exists 0; constructor|]. destruct (Hd x); eexists; constructor; eassumption. Qed.
Lemma exactly_app (P : id -> Prop) l1 : forall k1 k2 l2, exactly P k1 l1 -> exactly P k2 l2 -> exactly P (k1 + k2) (l1 ++ l2).
Proof.
  intros k1 k2 l2 H1 H2. induction H1 as [|k x l Hx H1 IH|k x l Hx H1 IH]; [exact H2| |]; cbn; constructor; assumption.
Qed.

Lemma opens_not_self h w a x : consumes h w a x -> ~ opens h w x.
Proof.
  intros (Hn & Hw & _) [[_ Ha]|[_ (n & En & E)]].
  - unfold is_numbered in Hn. unfold is_appendix in Ha. destruct (h !! x) as [n|]; [|discriminate]. destruct (cls_eqb_spec (n_cls n) CAppendix) as [E|]; [|discriminate].
    rewrite E in Hn. discriminate.
  - unfold scope_of in Hw. rewrite En, E in Hw.
    unfold is_numbered in Hn. rewrite En in Hn. apply andb_true_iff in Hn as [Hn _]. apply andb_true_iff in Hn as [Hn _].
    apply (scope_not_self _ Hn Hw).
Qed.
Lemma letter_inj i j v : letter i = Some v -> letter j = Some v -> i = j.
Proof.
  unfold letter. destruct (Nat.ltb i 26), (Nat.ltb j 26); try discriminate. intros [= E1] E2. rewrite <- E1 in E2. injection E2 as E2. lia.
Qed.
Section numbers.
  Context (s : st) (t : tree) (s' : st) (R : ready s t) (H : transforms_to s t s').
  Notation h := (st_heap s). Notation h' := (st_heap s').
  Lemma fin_different : exists t' f, transformed s t s' t' f /\
    forall p x q y r w a, doc_order t = p ++ x :: q ++ y :: r -> consumes h w a x -> consumes h w a y ->
      (forall z, z ∈ q -> ~ opens h w z) -> value h' x a_number <> value h' y a_number.
  Proof using R H.
    stages_of R H fuel d' s1 s2 s3 s4 s5 s6 s7 s8 t3 t6 f cites a0 xs ST TF Hm. exists t6, f. split; [assumption|].
    intros p x q y r w a E Cx Cy Hq. pose proof (opens_not_self _ _ _ _ Cx) as Hox. pose proof (Cx) as (Nx & Sx & Ax). pose proof (Cy) as (Ny & Sy & Ay).
    destruct (current_scope_exists h w p) as (sc & Hsc).
    destruct (exactly_exists (consumes h w a) sc (consumes_dec h w a)) as (kx & Hkx).
    destruct (exactly_exists (consumes h w a) q (consumes_dec h w a)) as (kq & Hkq).
    destruct (numbers_expected _ _ _ _ _ _ _ _ _ _ _ _ _ _ _ _ _ _ _ _ Hm ST p x (q ++ y :: r) sc kx) as [Ex Sx'];
      [exact E|assumption|rewrite Sx; assumption|rewrite Sx, Ax; assumption|].
    destruct (numbers_expected _ _ _ _ _ _ _ _ _ _ _ _ _ _ _ _ _ _ _ _ Hm ST (p ++ x :: q) y r (sc ++ x :: q) (kx + S kq)) as [Ey _];
      [rewrite <- app_assoc; exact E|assumption| | |]; rewrite ?Sy, ?Ay.
    { destruct Hsc as [H1 H2]. split.
      - intros z Hz. apply elem_of_app in Hz as [Hz|Hz]; [auto|]. apply elem_of_cons in Hz as [-> |Hz]; auto.
      - destruct H2 as [-> |(l0 & z & -> & Hz)]; [auto|]. right. exists l0, z. rewrite <- app_assoc. auto. }
    { apply exactly_app; [assumption|]. apply ex_yes; assumption. }
    assert (Hap : cls_list_eqb w [CManuscript] = true -> existsb (is_appendix h) (p ++ x :: q) = existsb (is_appendix h) p).
    { intros Ew. apply cls_list_eqb_eq in Ew. rewrite existsb_app. cbn [existsb].
      assert (E1 : is_appendix h x = false) by (destruct (is_appendix h x) eqn:G; [exfalso; apply Hox; left; auto|reflexivity]).
      assert (E2 : existsb (is_appendix h) q = false).
      { destruct (existsb (is_appendix h) q) eqn:G; [|reflexivity]. apply existsb_exists in G as (z & Hz & G). exfalso. apply (Hq z); [apply elem_of_list_In; assumption|]. left. auto. }
      rewrite E1, E2. rewrite !orb_false_r. reflexivity. }
    intros Eq. rewrite Ex, Ey in Eq. unfold expected in Eq, Sx'. rewrite Sx in Eq, Sx'. rewrite Sy in Eq.
    destruct (cls_list_eqb w [CManuscript]) eqn:Ew; cbn [andb] in Eq, Sx'.
    - rewrite (Hap eq_refl) in Eq. destruct (existsb (is_appendix h) p).
      + destruct Sx' as (v & Hv). rewrite Hv in Eq. symmetry in Eq. pose proof (letter_inj _ _ _ Hv Eq). lia.
      + injection Eq as Eq. lia.
    - injection Eq as Eq. lia.
  Qed.
End numbers.
