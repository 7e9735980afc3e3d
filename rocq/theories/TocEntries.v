(** The entries of the table of contents of a well nested document. *)
From Verif Require Export TocLoop.
From Verif Require Import HandrailDepth Queries Built Meta Subproofs ResolveAll Resolve NodeOps Monad.

(** ** The outline of a well nested document *)
Definition is_class (h : gmap id node) (d : cls) (x : id) : bool :=
  match h !! x with Some n => cls_eqb (n_cls n) d | None => false end.
Lemma is_class_spec h d x : is_class h d x = true <-> class_of h x d.
Proof.
  unfold is_class, class_of. destruct (h !! x) as [n|].
  - destruct (cls_eqb_spec (n_cls n) d); split; eauto; [discriminate|]. intros (m & [= <-] & ?). contradiction.
  - split; [discriminate|]. intros (m & ? & _). discriminate.
Qed.
Lemma section_split h x : is_section h x = is_class h CSection x || is_class h CSubsection x || is_class h CSubsubsection x.
Proof. unfold is_section, is_class. destruct (h !! x) as [n|]; [|reflexivity]. destruct (n_cls n); reflexivity. Qed.
Lemma class_excl h c d x : class_of h x c -> class_of h x d -> c = d.
Proof. intros (n & Hn & E) (m & Hm & E'). congruence. Qed.

Definition subs_of (h : gmap id node) (d : cls) (x : id) : list id :=
  match h !! x with Some n => List.filter (is_class h d) (kids n) | None => [] end.
Definition out2 (x : id) : outline := O x [].
Definition out1 (h : gmap id node) (x : id) : outline := O x (map out2 (subs_of h CSubsubsection x)).
Definition out0 (h : gmap id node) (x : id) : outline := O x (map (out1 h) (subs_of h CSubsection x)).

Section outline.
  Context (h : gmap id node) (t0 : tree) (Hc : consistent h) (Hw : well_nested h t0).
  Definition within (t : tree) : Prop := (exists p, tree_at h p t) /\ forall x, x ∈ doc_order t -> x ∈ doc_order t0.
  Definition below_section (x : id) : Prop := exists a, ancestor h x a /\ is_section h a = true.
  Lemma within_kid i cs c : within (T i cs) -> c ∈ cs -> within c /\ parent_is h (root c) i.
  Proof.
    intros [[p Ht] Hin] Hcs. apply tree_at_inv in Ht as (n & Hn & Hp & Hk & Hall).
    rewrite list.Forall_forall in Hall. pose proof (Hall _ Hcs) as Htc. split; [split|].
    - exists (Some i). assumption.
    - intros x Hx. apply Hin. rewrite doc_order_T. constructor. apply elem_doc_orders. eauto.
    - destruct c as [j cs']. apply tree_at_inv in Htc as (m & Hm & Hpm & _). exists m. auto.
  Qed.
  Lemma within_root t : within t -> root t ∈ doc_order t0.
  Proof. intros [_ H]. apply H, root_in_doc_order. Qed.
  Lemma kid_class i cs c d : within (T i cs) -> c ∈ cs -> class_of h (root c) d ->
    (d = CSubsection -> class_of h i CSection) /\ (d = CSubsubsection -> class_of h i CSubsection) /\
    (d = CSection -> is_section h i = false /\ ~ below_section i).
  Proof using Hw.
    intros HT Hin Hd. destruct (within_kid _ _ _ HT Hin) as [Hwc Hp]. destruct (Hw _ (within_root _ Hwc)) as (H1 & H2 & H3).
    split; [|split]; intros ->.
    - destruct (H2 Hd) as (q & Hq & Hcl). rewrite (parent_unique _ _ _ _ Hp Hq). assumption.
    - destruct (H3 Hd) as (q & Hq & Hcl). rewrite (parent_unique _ _ _ _ Hp Hq). assumption.
    - split; [apply (H1 Hd); constructor; assumption|]. intros (a & Ha & Hs).
      rewrite (H1 Hd a) in Hs; [discriminate|]. eapply anc_step; eassumption.
  Qed.
  Lemma outlines_cons t ts : flat_map (outlines h) (t :: ts) = outlines h t ++ flat_map (outlines h) ts.
  Proof. reflexivity. Qed.
  Lemma flat_nil {A B} (f : A -> list B) l : (forall x, x ∈ l -> f x = []) -> flat_map f l = [].
  Proof. induction l as [|x l IH]; intros H; [reflexivity|]. cbn [flat_map]. rewrite H by constructor. apply IH. intros. apply H. constructor. assumption. Qed.
  Lemma flat_kids {B} (f : tree -> list B) (g : id -> B) d cs :
    (forall c, c ∈ cs -> f c = if is_class h d (root c) then [g (root c)] else []) ->
    flat_map f cs = map g (List.filter (is_class h d) (map root cs)).
  Proof.
    induction cs as [|c cs IH]; intros H; [reflexivity|]. cbn [flat_map map List.filter]. rewrite H by constructor.
    rewrite IH by (intros; apply H; constructor; assumption). destruct (is_class h d (root c)); reflexivity.
  Qed.
  Lemma not_section x : is_class h CSection x = false -> is_class h CSubsection x = false -> is_class h CSubsubsection x = false ->
    is_section h x = false.
  Proof. intros. rewrite section_split. repeat (apply orb_false_iff; split); assumption. Qed.
  Lemma classes x : {d | d ∈ [CSection; CSubsection; CSubsubsection] /\ class_of h x d} + {is_section h x = false}.
  Proof.
    destruct (is_class h CSection x) eqn:E1; [left; exists CSection; split; [constructor|apply is_class_spec; assumption]|].
    destruct (is_class h CSubsection x) eqn:E2; [left; exists CSubsection; split; [repeat constructor|apply is_class_spec; assumption]|].
    destruct (is_class h CSubsubsection x) eqn:E3; [left; exists CSubsubsection; split; [repeat constructor|apply is_class_spec; assumption]|].
    right. apply not_section; assumption.
  Qed.
  Lemma class_section x d : class_of h x d -> d ∈ [CSection; CSubsection; CSubsubsection] -> is_section h x = true.
  Proof.
    intros Hd Hin. rewrite section_split. repeat (apply elem_of_cons in Hin as [-> |Hin];
      [apply is_class_spec in Hd; rewrite Hd, ?orb_true_r; reflexivity|]). inversion Hin.
  Qed.
  (** Nothing below a node that is below a section but not a (sub)section itself. *)
  Lemma outlines_deep t : within t -> is_section h (root t) = false -> below_section (root t) -> outlines h t = [].
  Proof using Hc Hw.
    induction t as [i cs IH] using tree_ind'. intros HT Hs Hb. cbn [outlines root] in *. rewrite Hs.
    apply flat_nil. intros c Hin. rewrite list.Forall_forall in IH. destruct (within_kid _ _ _ HT Hin) as [Hwc Hp].
    apply IH; [assumption|assumption| |].
    - destruct (classes (root c)) as [(d & Hd & Hcl)|]; [|assumption]. exfalso.
      destruct (kid_class _ _ _ _ HT Hin Hcl) as (K1 & K2 & K3).
      repeat (apply elem_of_cons in Hd as [-> |Hd]); [..|inversion Hd].
      + apply K3; auto.
      + specialize (K1 eq_refl). rewrite (class_section _ _ K1) in Hs by repeat constructor. discriminate.
      + specialize (K2 eq_refl). rewrite (class_section _ _ K2) in Hs by repeat constructor. discriminate.
    - destruct Hb as (a & Ha & Hsa). exists a. split; [eapply anc_step; eassumption|assumption].
  Qed.
  Lemma kid_below i cs c : within (T i cs) -> c ∈ cs -> is_section h i = true -> below_section (root c).
  Proof. intros HT Hin Hs. exists i. split; [|assumption]. constructor. eapply within_kid; eassumption. Qed.
  Lemma outlines_2 t : within t -> class_of h (root t) CSubsubsection -> outlines h t = [out2 (root t)].
  Proof using Hc Hw.
    destruct t as [i cs]. cbn [root outlines]. intros HT Hcl. pose proof (class_section _ _ Hcl ltac:(repeat constructor)) as Hs.
    rewrite Hs. unfold out2. do 2 f_equal. apply flat_nil. intros c Hin. destruct (within_kid _ _ _ HT Hin) as [Hwc Hp].
    apply outlines_deep; [assumption| |eapply kid_below; eassumption].
    destruct (classes (root c)) as [(d & Hd & Hcl')|]; [|assumption]. exfalso.
    destruct (kid_class _ _ _ _ HT Hin Hcl') as (K1 & K2 & K3).
    repeat (apply elem_of_cons in Hd as [-> |Hd]); [..|inversion Hd].
    - destruct (K3 eq_refl). congruence.
    - discriminate (class_excl _ _ _ _ Hcl (K1 eq_refl)).
    - discriminate (class_excl _ _ _ _ Hcl (K2 eq_refl)).
  Qed.
  Lemma outlines_1 t : within t -> class_of h (root t) CSubsection -> outlines h t = [out1 h (root t)].
  Proof using Hc Hw.
    destruct t as [i cs]. cbn [root outlines]. intros HT Hcl. pose proof (class_section _ _ Hcl ltac:(repeat constructor)) as Hs.
    rewrite Hs. unfold out1, subs_of. pose proof HT as [[p Ht] _]. apply tree_at_inv in Ht as (n & Hn & Hpar & Hk & _). rewrite Hn, Hk.
    do 2 f_equal. apply flat_kids. intros c Hin. destruct (within_kid _ _ _ HT Hin) as [Hwc Hp].
    destruct (is_class h CSubsubsection (root c)) eqn:Ec; [apply outlines_2; [assumption|apply is_class_spec; assumption]|].
    apply outlines_deep; [assumption| |eapply kid_below; eassumption].
    destruct (classes (root c)) as [(d & Hd & Hcl')|]; [|assumption]. exfalso.
    destruct (kid_class _ _ _ _ HT Hin Hcl') as (K1 & K2 & K3).
    repeat (apply elem_of_cons in Hd as [-> |Hd]); [..|inversion Hd].
    - destruct (K3 eq_refl). congruence.
    - discriminate (class_excl _ _ _ _ Hcl (K1 eq_refl)).
    - apply is_class_spec in Hcl'. congruence.
  Qed.
  Lemma outlines_0 t : within t -> class_of h (root t) CSection -> outlines h t = [out0 h (root t)].
  Proof using Hc Hw.
    destruct t as [i cs]. cbn [root outlines]. intros HT Hcl. pose proof (class_section _ _ Hcl ltac:(repeat constructor)) as Hs.
    rewrite Hs. unfold out0, subs_of. pose proof HT as [[p Ht] _]. apply tree_at_inv in Ht as (n & Hn & Hpar & Hk & _). rewrite Hn, Hk.
    do 2 f_equal. apply flat_kids. intros c Hin. destruct (within_kid _ _ _ HT Hin) as [Hwc Hp].
    destruct (is_class h CSubsection (root c)) eqn:Ec; [apply outlines_1; [assumption|apply is_class_spec; assumption]|].
    apply outlines_deep; [assumption| |eapply kid_below; eassumption].
    destruct (classes (root c)) as [(d & Hd & Hcl')|]; [|assumption]. exfalso.
    destruct (kid_class _ _ _ _ HT Hin Hcl') as (K1 & K2 & K3).
    repeat (apply elem_of_cons in Hd as [-> |Hd]); [..|inversion Hd].
    - destruct (K3 eq_refl). congruence.
    - apply is_class_spec in Hcl'. congruence.
    - discriminate (class_excl _ _ _ _ Hcl (K2 eq_refl)).
  Qed.
  Lemma outlines_top t : within t -> ~ class_of h (root t) CSubsection -> ~ class_of h (root t) CSubsubsection ->
    exists tops, outlines h t = map (out0 h) tops /\ forall x, x ∈ tops -> x ∈ doc_order t /\ class_of h x CSection.
  Proof using Hc Hw.
    induction t as [i cs IH] using tree_ind'. cbn [root]. intros HT H1 H2.
    destruct (classes i) as [(d & Hd & Hcl)|Hs].
    - repeat (apply elem_of_cons in Hd as [-> |Hd]); [..|inversion Hd]; [|contradiction..].
      exists [i]. split; [apply (outlines_0 (T i cs)); assumption|]. intros x Hx. apply elem_of_list_singleton in Hx as ->.
      split; [rewrite doc_order_T; constructor|assumption].
    - cbn [outlines]. rewrite Hs.
      assert (Hcs : forall c, c ∈ cs -> within c /\ ~ class_of h (root c) CSubsection /\ ~ class_of h (root c) CSubsubsection).
      { intros c Hin. split; [eapply within_kid; eassumption|]. split; intros Hcl; destruct (kid_class _ _ _ _ HT Hin Hcl) as (K1 & K2 & _).
        - rewrite (class_section _ _ (K1 eq_refl)) in Hs by repeat constructor. discriminate.
        - rewrite (class_section _ _ (K2 eq_refl)) in Hs by repeat constructor. discriminate. }
      assert (G : exists tops, flat_map (outlines h) cs = map (out0 h) tops /\ forall x, x ∈ tops -> x ∈ doc_orders cs /\ class_of h x CSection).
      { clear HT H1 H2. induction cs as [|c cs IHcs]; [exists []; split; [reflexivity|intros x Hx; inversion Hx]|].
        apply list.Forall_cons in IH as [IHc IH]. destruct IHcs as (l2 & E2 & Hl2); [assumption|intros; apply Hcs; constructor; assumption|].
        destruct (Hcs c ltac:(constructor)) as (W & N1 & N2). destruct (IHc W N1 N2) as (l1 & E1 & Hl1).
        exists (l1 ++ l2). cbn [flat_map]. rewrite E1, E2, map_app. split; [reflexivity|]. intros x Hx. rewrite doc_orders_cons.
        apply elem_of_app in Hx as [Hx|Hx]; [destruct (Hl1 x Hx)|destruct (Hl2 x Hx)]; (split; [apply elem_of_app; auto|assumption]). }
      destruct G as (tops & E & Ht). exists tops. split; [assumption|]. intros x Hx. destruct (Ht x Hx). split; [|assumption].
      rewrite doc_order_T. constructor. assumption.
  Qed.
End outline.
Lemma outlines_flat h t : flat_map outline_sections (outlines h t) = sections_in h (doc_order t).
Proof.
  induction t as [i cs IH] using tree_ind'. rewrite doc_order_T. unfold sections_in. cbn [outlines List.filter].
  assert (E : flat_map outline_sections (flat_map (outlines h) cs) = List.filter (is_section h) (doc_orders cs)).
  { induction cs as [|c cs IHcs]; [reflexivity|]. apply list.Forall_cons in IH as [Hc IH].
    cbn [flat_map]. rewrite doc_orders_cons, List.filter_app, flat_map_app, Hc, IHcs by assumption. reflexivity. }
  destruct (is_section h i); [|assumption]. cbn [flat_map outline_sections]. rewrite E, app_nil_r. reflexivity.
Qed.

(** ** What a run of iterations builds *)
Record built (s s' : st) (p : id) (items : list id) : Prop := {
  bu_good : good s';
  bu_next : st_next s <= st_next s';
  bu_old : forall j, j < st_next s -> st_heap s' !! j =
    match st_heap s !! j with
    | Some n => Some (if decide (j = p) then add_kids items n else n)
    | None => None
    end;
}.
Lemma add_kids_nil n : add_kids [] n = n.
Proof. destruct n. unfold add_kids. cbn. rewrite app_nil_r. reflexivity. Qed.
Lemma add_kids_app a b n : add_kids b (add_kids a n) = add_kids (a ++ b) n.
Proof. unfold add_kids. cbn. rewrite app_assoc. reflexivity. Qed.
Lemma built_nil s p : good s -> built s s p [].
Proof.
  intros Hg. constructor; auto. intros j _. destruct (st_heap s !! j); [|reflexivity].
  rewrite add_kids_nil. destruct (decide (j = p)); reflexivity.
Qed.
Lemma built_trans s s1 s2 p a b : built s s1 p a -> built s1 s2 p b -> built s s2 p (a ++ b).
Proof.
  intros A B. pose proof (bu_next _ _ _ _ A). pose proof (bu_next _ _ _ _ B).
  constructor; [apply B|lia|]. intros j Hj. rewrite (bu_old _ _ _ _ B), (bu_old _ _ _ _ A) by lia.
  destruct (st_heap s !! j); [|reflexivity]. f_equal. destruct (decide (j = p)); [apply add_kids_app|reflexivity].
Qed.
Lemma added_next s s' p x sub text : added s s' p x sub text -> st_next s < st_next s'.
Proof. intros A. rewrite (ad_next _ _ _ _ _ _ A). destruct sub; lia. Qed.
Lemma built_added s s' p x sub text : added s s' p x sub text -> built s s' p [st_next s].
Proof.
  intros A. pose proof (added_next _ _ _ _ _ _ A). constructor; [apply A|lia|apply A].
Qed.
Lemma built_inner s s1 s2 p x text items :
  added s s1 p x true text -> built s1 s2 (S (S (st_next s))) items -> built s s2 p [st_next s].
Proof.
  intros A B. pose proof (added_next _ _ _ _ _ _ A). pose proof (bu_next _ _ _ _ B). constructor; [apply B|lia|].
  intros j Hj. rewrite (bu_old _ _ _ _ B), (ad_old _ _ _ _ _ _ A) by lia. destruct (st_heap s !! j); [|reflexivity].
  rewrite (decide_False (P := j = S (S (st_next s)))) by lia. reflexivity.
Qed.

(** Entries whose nodes have identities between [lo] and [hi]. *)
Inductive entry_at (h0 h : gmap id node) (lo hi : nat) : outline -> id -> Prop :=
| ea_leaf x i r ni nr text :
    lo <= i < hi -> lo <= r < hi -> h !! i = Some ni -> n_cls ni = CItem -> kids ni = [r] ->
    h !! r = Some nr -> n_cls nr = CReference -> n_attrs nr = ref_attrs x text -> entry_text h0 x text ->
    entry_at h0 h lo hi (O x []) i
| ea_nested x os i r it ni nr nl text :
    lo <= i < hi -> lo <= r < hi -> lo <= it < hi -> h !! i = Some ni -> n_cls ni = CItem -> kids ni = [r; it] ->
    h !! r = Some nr -> n_cls nr = CReference -> n_attrs nr = ref_attrs x text -> entry_text h0 x text ->
    os <> [] -> h !! it = Some nl -> n_cls nl = CItemize -> Forall2 (entry_at h0 h lo hi) os (kids nl) ->
    entry_at h0 h lo hi (O x os) i.
Lemma outline_ind' (P : outline -> Prop) : (forall x os, Forall P os -> P (O x os)) -> forall o, P o.
Proof.
  intros H. fix IH 1. intros [x os]. apply H. induction os as [|o os IHos]; constructor; [apply IH|assumption].
Qed.
Lemma Forall2_mono {A B} (P Q : A -> B -> Prop) l l' :
  Forall (fun a => forall b, P a b -> Q a b) l -> Forall2 P l l' -> Forall2 Q l l'.
Proof.
  intros H H2. induction H2 as [|a b l l' Hab H2 IH]; [constructor|]. apply list.Forall_cons in H as [Ha H]. constructor; auto.
Qed.
Lemma entry_frame h0 h h' lo hi lo' hi' o : forall i,
  lo' <= lo -> hi <= hi' -> (forall j, lo <= j < hi -> h' !! j = h !! j) ->
  entry_at h0 h lo hi o i -> entry_at h0 h' lo' hi' o i.
Proof.
  induction o as [x os IH] using outline_ind'. intros i Hlo Hhi Hs H.
  inversion H as [x' i' r ni nr text Hi Hr Hni Ec Ek Hnr Ecr Ear Ht|x' os' i' r it ni nr nl text Hi Hr Hit Hni Ec Ek Hnr Ecr Ear Ht Hos Hnl Ecl Hall]; subst.
  - eapply ea_leaf; try eassumption; try lia; rewrite Hs; assumption || lia.
  - eapply ea_nested; try eassumption; try lia; try (rewrite Hs; assumption || lia).
    eapply Forall2_mono; [|exact Hall]. eapply list.Forall_impl; [exact IH|]. intros o Ho b Hb. apply Ho; assumption.
Qed.
Lemma entries_frame h0 h h' lo hi lo' hi' os items :
  lo' <= lo -> hi <= hi' -> (forall j, lo <= j < hi -> h' !! j = h !! j) ->
  Forall2 (entry_at h0 h lo hi) os items -> Forall2 (entry_at h0 h' lo' hi') os items.
Proof. intros H1 H2 H3 H. eapply list.Forall2_impl; [exact H|]. intros o i. apply entry_frame; assumption. Qed.

(** Sections are not edited. *)
Definition sec_same (s0 s : st) : Prop :=
  forall x n, st_heap s0 !! x = Some n -> subclass (n_cls n) CSection = true -> st_heap s !! x = Some n.
Lemma sec_same_built s0 s s' p items np :
  extends s0 s -> sec_same s0 s -> built s s' p items -> st_heap s !! p = Some np -> subclass (n_cls np) CSection = false -> sec_same s0 s'.
Proof.
  intros E Hs B Hp Hnp x n Hx Hc. pose proof (Hs _ _ Hx Hc) as Hx1.
  rewrite (bu_old _ _ _ _ B) by (eapply (proj1 (ex_good _ _ E)); eassumption). rewrite Hx1, decide_False; [reflexivity|].
  intros ->. congruence.
Qed.
Lemma extends_above s0 s : good s0 -> extends s0 s -> above_on (fun j => is_Some (st_heap s0 !! j)) (st_heap s0) (st_heap s).
Proof.
  intros [_ Hc] E. split.
  - intros j [n Hn]. destruct (ex_old _ _ E _ _ Hn) as (n' & Hn' & ? & ? & ? & _). eauto 10.
  - intros j q _ Hp. apply (cons_parent _ Hc) in Hp as (m & Hm & _). eauto.
Qed.
Lemma extends_text s0 s x text : good s0 -> extends s0 s -> is_Some (st_heap s0 !! x) -> entry_text (st_heap s) x text -> entry_text (st_heap s0) x text.
Proof.
  intros Hg E Hx H. eapply above_text; [apply above_sym, extends_above; eassumption|apply E|exact Hx|exact H].
Qed.
Lemma extends_class s0 s x d : extends s0 s -> is_Some (st_heap s0 !! x) -> is_class (st_heap s) d x = is_class (st_heap s0) d x.
Proof.
  intros E [n Hn]. destruct (ex_old _ _ E _ _ Hn) as (n' & Hn' & Ec & _). unfold is_class. rewrite Hn, Hn', Ec. reflexivity.
Qed.

(** The last and the first of a class. *)
Lemma instance_class h d x : d = CSubsection \/ d = CSubsubsection -> is_instance h [d] x <-> is_class h d x = true.
Proof.
  intros Hd. rewrite is_class_spec. split.
  - intros (n & d' & Hn & [<-|[]] & Hder). exists n. split; [assumption|]. apply subclass_derives in Hder.
    destruct Hd as [-> | ->]; destruct (n_cls n); try reflexivity; discriminate.
  - intros (n & Hn & E). exists n, d. split; [assumption|]. split; [left; reflexivity|]. rewrite E. constructor.
Qed.
Lemma filter_none {A} (f : A -> bool) l : (forall x, In x l -> f x = false) -> List.filter f l = [].
Proof.
  induction l as [|x l IH]; intros H; [reflexivity|]. cbn [List.filter]. rewrite H by (left; reflexivity).
  apply IH. intros; apply H; right; assumption.
Qed.
Lemma last_match_filter h d l r : d = CSubsection \/ d = CSubsubsection -> last_match h [d] l r ->
  match r with Some (y, _) => exists l0, List.filter (is_class h d) l = l0 ++ [y] | None => List.filter (is_class h d) l = [] end.
Proof.
  intros Hd. destruct r as [[y k]|]; simpl.
  - intros (Hk & Hi & Hn). apply nth_error_split in Hk as (l1 & l2 & -> & <-). exists (List.filter (is_class h d) l1).
    rewrite List.filter_app. f_equal. cbn [List.filter]. rewrite (proj1 (instance_class _ _ _ Hd) Hi). f_equal.
    apply filter_none. intros x Hx. apply not_true_is_false. rewrite <- instance_class by assumption.
    apply In_nth_error in Hx as [j Hj]. apply (Hn (length l1 + S j) x); [lia|].
    rewrite nth_error_app2 by lia. replace (length l1 + S j - length l1) with (S j) by lia. assumption.
  - intros Hn. apply filter_none. intros x Hx. apply not_true_is_false. rewrite <- instance_class by assumption.
    apply Hn. apply elem_of_list_In. assumption.
Qed.
Lemma first_match_filter h d l r : d = CSubsection \/ d = CSubsubsection -> first_match h [d] l r ->
  match r with Some _ => List.filter (is_class h d) l <> [] | None => List.filter (is_class h d) l = [] end.
Proof.
  intros Hd. destruct r as [[y k]|]; simpl.
  - intros (Hk & Hi & _) E. apply nth_error_In in Hk.
    assert (Hin : In y (List.filter (is_class h d) l)) by (apply filter_In; split; [assumption|apply instance_class; assumption]).
    rewrite E in Hin. destruct Hin.
  - intros Hn. apply filter_none. intros x Hx. apply not_true_is_false. rewrite <- instance_class by assumption.
    apply Hn. apply elem_of_list_In. assumption.
Qed.
Lemma last_of_split (pre rest l0 : list id) x y :
  NoDup (pre ++ x :: rest) -> pre ++ x :: rest = l0 ++ [y] -> Nat.eqb y x = match rest with [] => true | _ => false end.
Proof.
  intros Hnd E. destruct (exists_last (l := x :: rest)) as (l1 & z & E1); [discriminate|].
  rewrite E1, app_assoc in E. apply app_inj_tail in E as [_ ->].
  destruct rest as [|w rest].
  - destruct l1 as [|? [|]]; try discriminate. injection E1 as ->. apply Nat.eqb_refl.
  - apply Nat.eqb_neq. intros ->. destruct l1 as [|v l1]; [discriminate|]. injection E1 as <- E1. rewrite E1 in Hnd.
    apply NoDup_app in Hnd as (_ & _ & Hnd). apply list.NoDup_cons in Hnd as [Hnd _]. apply Hnd, elem_of_app. right. constructor.
Qed.

(** ** The three levels *)
Lemma flat_out2 xs : flat_map outline_sections (map out2 xs) = xs.
Proof. induction xs as [|x xs IH]; [reflexivity|]. cbn. rewrite IH. reflexivity. Qed.
Lemma out1_sections h x : outline_sections (out1 h x) = x :: subs_of h CSubsubsection x.
Proof. unfold out1. cbn [outline_sections]. rewrite flat_out2. reflexivity. Qed.

Section levels.
  Context (fuel : nat) (toc : id) (s0 : st) (Hg0 : good s0).
  Let h0 := st_heap s0.
  Lemma section_node x d : class_of h0 x d -> d ∈ [CSection; CSubsection; CSubsubsection] ->
    exists n, h0 !! x = Some n /\ n_cls n = d /\ subclass (n_cls n) CSection = true.
  Proof.
    intros (n & Hn & <-) Hd. exists n. split; [assumption|]. split; [reflexivity|].
    repeat (apply elem_of_cons in Hd as [-> |Hd]; [reflexivity|]). inversion Hd.
  Qed.
  Lemma filter_same s d n x : extends s0 s -> h0 !! x = Some n ->
    List.filter (is_class (st_heap s) d) (kids n) = List.filter (is_class h0 d) (kids n).
  Proof using Hg0.
    intros E Hn. assert (H : forall c, c ∈ kids n -> is_Some (h0 !! c)).
    { intros c Hc. assert (Hp : parent_is h0 c x) by (apply (cons_parent _ (proj2 Hg0)); exists n; auto).
      destruct Hp as (m & Hm & _). eauto. }
    induction (kids n) as [|c l IH]; [reflexivity|]. cbn [List.filter]. unfold h0.
    rewrite (extends_class _ _ _ _ E (H c ltac:(constructor))). rewrite IH by (intros; apply H; constructor; assumption). reflexivity.
  Qed.
  Lemma subs_of_in d x y : y ∈ subs_of h0 d x -> class_of h0 y d /\ parent_is h0 y x.
  Proof using Hg0.
    unfold subs_of. destruct (h0 !! x) as [n|] eqn:E; [|intros H; inversion H].
    rewrite elem_of_list_In, filter_In, <- elem_of_list_In, is_class_spec. intros [H1 H2]. split; [assumption|].
    apply (cons_parent _ (proj2 Hg0)). exists n. auto.
  Qed.
  Lemma subs_of_nodup d x : NoDup (subs_of h0 d x).
  Proof using Hg0.
    unfold subs_of. destruct (h0 !! x) as [n|] eqn:E; [|constructor].
    pose proof (cons_nodup _ (proj2 Hg0) _ _ E) as H. rewrite NoDup_ListNoDup in *. apply List.NoDup_filter. assumption.
  Qed.
  Lemma is_last s d p x pre rest b : d = CSubsection \/ d = CSubsubsection ->
    extends s0 s -> sec_same s0 s -> is_section h0 x = true -> is_section h0 p = true -> parent_is h0 x p ->
    subs_of h0 d p = pre ++ x :: rest -> last_sibling (st_heap s) d x b -> b = match rest with [] => true | _ => false end.
  Proof using Hg0.
    intros Hd E Hs Hx Hp Hpar Esub (q & nq & r & Hq & Hnq & Hlast & ->).
    destruct Hpar as (n & Hn & Ep). fold h0 in Hn. unfold is_section in Hx, Hp. rewrite Hn in Hx.
    destruct (h0 !! p) as [np|] eqn:Hnp; [|discriminate].
    assert (q = p) as ->. { destruct Hq as (m & Hm & Em). rewrite (Hs _ _ Hn Hx) in Hm. congruence. }
    assert (nq = np) as -> by (rewrite (Hs _ _ Hnp Hp) in Hnq; congruence).
    pose proof (last_match_filter _ _ _ _ Hd Hlast) as Hf. rewrite (filter_same _ _ _ _ E Hnp) in Hf.
    pose proof (subs_of_nodup d p) as Hnd. rewrite Esub in Hnd. unfold subs_of in Esub. rewrite Hnp in Esub. rewrite Esub in Hf.
    destruct r as [[y k]|].
    - destruct Hf as (l0 & Hf). eapply last_of_split; eassumption.
    - destruct pre; discriminate.
  Qed.
  Lemma has_subs s d x b : d = CSubsection \/ d = CSubsubsection ->
    extends s0 s -> sec_same s0 s -> is_section h0 x = true -> has_kid_of (st_heap s) d x b ->
    if b then subs_of h0 d x <> [] else subs_of h0 d x = [].
  Proof using Hg0.
    intros Hd E Hs Hx (n & r & Hn & Hf & ->). unfold is_section in Hx. destruct (h0 !! x) as [n0|] eqn:Hn0; [|discriminate].
    assert (n = n0) as -> by (rewrite (Hs _ _ Hn0 Hx) in Hn; congruence).
    apply first_match_filter in Hf; [|assumption]. rewrite (filter_same _ _ _ _ E Hn0) in Hf. unfold subs_of. rewrite Hn0.
    destruct r; assumption.
  Qed.

  Lemma one_step cur x s s1 cur1 d p : toc_inv toc s0 cur s -> sec_same s0 s ->
    class_of h0 x d -> d ∈ [CSection; CSubsection; CSubsubsection] ->
    p = (if cls_eqb d CSection then Some toc else cur) ->
    (forall q, p = Some q -> exists nq, st_heap s !! q = Some nq /\ subclass (n_cls nq) CSection = false) ->
    toc_body fuel toc cur x s = (s1, Ok cur1) ->
    toc_inv toc s0 cur1 s1 /\ sec_same s0 s1 /\ exists q sub text, p = Some q /\ added s s1 q x sub text /\
      body_case s s1 toc cur x text d q sub cur1 /\ entry_text h0 x text.
  Proof using Hg0.
    intros HI Hs Hcl Hd Ep Hq H. destruct (section_node _ _ Hcl Hd) as (n & Hn & Ec & Hsec).
    pose proof (Hs _ _ Hn Hsec) as Hn1. pose proof (toc_step _ _ _ _ _ _ _ _ _ HI Hn1 Hsec H) as (HI1 & _ & _).
    destruct HI as (E & Ht & Hcur).
    destruct (toc_body_ok _ _ _ _ _ _ _ _ (ex_good _ _ E) Ht Hcur Hn1 Hsec H) as (q & sub & text & A & B). rewrite Ec in B.
    assert (Epq : p = Some q) by (rewrite Ep; clear -B; destruct B; assumption || reflexivity).
    split; [assumption|]. split.
    - destruct (Hq q Epq) as (nq & Hnq & Hnc). eapply sec_same_built; [exact E|exact Hs|eapply built_added; exact A|exact Hnq|exact Hnc].
    - exists q, sub, text. split; [assumption|]. split; [assumption|]. split; [assumption|].
      eapply extends_text; [exact Hg0|exact E|unfold h0 in Hn; eauto|apply A].
  Qed.
  Lemma added_leaf s s1 q x text : added s s1 q x false text -> entry_text h0 x text ->
    entry_at h0 (st_heap s1) (st_next s) (st_next s1) (O x []) (st_next s).
  Proof.
    intros A Ht. pose proof (ad_next _ _ _ _ _ _ A) as N. cbv iota in N.
    eapply ea_leaf with (r := S (st_next s)); [lia|lia|apply A|reflexivity|reflexivity|apply A|reflexivity|reflexivity|exact Ht].
  Qed.
  Lemma built_above s s' p items j : built s s' p items -> p <> j -> j < st_next s -> st_heap s' !! j = st_heap s !! j.
  Proof.
    intros B Hne Hj. rewrite (bu_old _ _ _ _ B) by assumption. destruct (st_heap s !! j); [|reflexivity].
    rewrite decide_False by congruence. reflexivity.
  Qed.

  Lemma fold_2 : forall xs pre s s' cur' ss it nl item ni,
    toc_inv toc s0 (Some it) s -> sec_same s0 s -> class_of h0 ss CSubsection -> subs_of h0 CSubsubsection ss = pre ++ xs ->
    st_heap s !! it = Some nl -> n_cls nl = CItemize -> n_parent nl = Some item -> st_heap s !! item = Some ni ->
    foldM (toc_body fuel toc) (Some it) xs s = (s', Ok cur') ->
    exists items, built s s' it items /\ toc_inv toc s0 cur' s' /\ sec_same s0 s' /\
      Forall2 (entry_at h0 (st_heap s') (st_next s) (st_next s')) (map out2 xs) items /\
      cur' = match xs with [] => Some it | _ => n_parent ni end.
  Proof using Hg0.
    induction xs as [|x xs IH]; intros pre s s' cur' ss it nl item ni HI Hs Hss Esub Hit Ecl Epar Hitem H.
    - apply ret_ok in H as [-> ->]. exists []. split; [apply built_nil; apply HI|]. split; [assumption|]. split; [assumption|].
      split; [constructor|reflexivity].
    - cbn [foldM] in H. apply bind_ok in H as (s1 & cur1 & H1 & H).
      assert (Hx : x ∈ subs_of h0 CSubsubsection ss) by (rewrite Esub; apply elem_of_app; right; constructor).
      destruct (subs_of_in _ _ _ Hx) as [Hcx Hpx].
      destruct (one_step (Some it) x s s1 cur1 CSubsubsection (Some it) HI Hs Hcx ltac:(repeat constructor) eq_refl) as (HI1 & Hs1 & q & sub & text & Eq & A & B & Ht);
        [intros q [= <-]; exists nl; rewrite Ecl; auto|assumption|].
      injection Eq as <-. inversion B as [p b c1 Ep Hlast Hb| | | |]; subst. clear Ep.
      assert (E1 : extends s0 s1) by apply HI1. pose proof (ex_good _ _ (proj1 HI)) as Hg.
      assert (Hb' : b = match xs with [] => true | _ => false end).
      { eapply (is_last s1 CSubsubsection ss x pre xs b); auto; unfold is_section.
        - destruct Hcx as (m & -> & ->). reflexivity.
        - destruct Hss as (m & -> & ->). reflexivity. }
      pose proof (added_leaf _ _ _ _ _ A Ht) as En. pose proof (built_added _ _ _ _ _ _ A) as Bu.
      assert (Hlt : it < st_next s) by (eapply (proj1 Hg); eassumption).
      assert (Hlt' : item < st_next s) by (eapply (proj1 Hg); eassumption).
      assert (Hit1 : st_heap s1 !! it = Some (add_kids [st_next s] nl)).
      { rewrite (bu_old _ _ _ _ Bu), Hit by assumption. rewrite decide_True by reflexivity. reflexivity. }
      assert (Hitem1 : exists ni1, st_heap s1 !! item = Some ni1 /\ n_parent ni1 = n_parent ni).
      { rewrite (bu_old _ _ _ _ Bu), Hitem by assumption. eexists. split; [reflexivity|]. destruct (decide (item = it)); reflexivity. }
      destruct Hitem1 as (ni1 & Hni1 & Epn).
      destruct xs as [|y xs].
      + subst b. apply ret_ok in H as [-> ->]. exists [st_next s]. split; [assumption|]. split; [assumption|]. split; [assumption|].
        split; [constructor; [exact En|constructor]|].
        destruct Hb as (p & np & Hp & Hnp & <-). destruct Hp as (m & Hm & Em). rewrite Hit1 in Hm. injection Hm as <-.
        cbn [add_kids n_parent] in Em. assert (p = item) as -> by congruence. congruence.
      + rewrite Hb' in *. subst cur1.
        destruct (IH (pre ++ [x]) s1 s' cur' ss it (add_kids [st_next s] nl) item ni1) as (items & Bu' & HI' & Hs' & En' & Ec'); auto.
        { rewrite <- app_assoc. exact Esub. }
        exists (st_next s :: items). split; [eapply (built_trans _ _ _ _ [st_next s]); eassumption|]. split; [assumption|]. split; [assumption|].
        pose proof (bu_next _ _ _ _ Bu). pose proof (bu_next _ _ _ _ Bu').
        split; [|rewrite Ec'; exact Epn]. cbn [map]. constructor.
        * eapply entry_frame; [..|exact En]; [lia|lia|]. intros j Hj. eapply built_above; [exact Bu'|lia|lia].
        * eapply entries_frame; [..|exact En']; [lia|lia|reflexivity].
  Qed.

  Lemma fold_1 : forall xs pre s s' cur' sec it nl,
    toc_inv toc s0 (Some it) s -> sec_same s0 s -> class_of h0 sec CSection -> subs_of h0 CSubsection sec = pre ++ xs ->
    st_heap s !! it = Some nl -> n_cls nl = CItemize ->
    foldM (toc_body fuel toc) (Some it) (flat_map outline_sections (map (out1 h0) xs)) s = (s', Ok cur') ->
    exists items, built s s' it items /\ toc_inv toc s0 cur' s' /\ sec_same s0 s' /\
      Forall2 (entry_at h0 (st_heap s') (st_next s) (st_next s')) (map (out1 h0) xs) items.
  Proof using Hg0.
    induction xs as [|x xs IH]; intros pre s s' cur' sec it nl HI Hs Hsec Esub Hit Ecl H.
    - apply ret_ok in H as [-> ->]. exists []. split; [apply built_nil; apply HI|]. split; [assumption|]. split; [assumption|constructor].
    - cbn [map flat_map] in H. rewrite out1_sections in H. cbn [app foldM] in H. apply bind_ok in H as (s1 & cur1 & H1 & H).
      assert (Hx : x ∈ subs_of h0 CSubsection sec) by (rewrite Esub; apply elem_of_app; right; constructor).
      destruct (subs_of_in _ _ _ Hx) as [Hcx Hpx].
      assert (Hq : forall q, Some it = Some q -> exists nq, st_heap s !! q = Some nq /\ subclass (n_cls nq) CSection = false).
      { intros q [= <-]. exists nl. rewrite Ecl. auto. }
      destruct (one_step (Some it) x s s1 cur1 CSubsection (Some it) HI Hs Hcx ltac:(repeat constructor) eq_refl Hq H1)
        as (HI1 & Hs1 & q & sub & text & Eq & A & B & Ht).
      injection Eq as <-. assert (E1 : extends s0 s1) by apply HI1. pose proof (ex_good _ _ (proj1 HI)) as Hg.
      assert (Hxs : is_section h0 x = true) by (unfold is_section; destruct Hcx as (m & -> & ->); reflexivity).
      assert (Hlt : it < st_next s) by (eapply (proj1 Hg); eassumption).
      apply foldM_app_ok in H as (s2 & cur2 & H2 & H).
      inversion B as [|p sm Ep Am Hkid|p b c1 Ep Hkid Hlast Hb| |]; subst; clear Ep.
      + (* with subsubsections *)
        assert (Hsub : subs_of h0 CSubsubsection x <> []).
        { assert (Em : extends s0 sm) by (eapply extends_added; [apply HI|exact Am]).
          refine (has_subs sm CSubsubsection x true (or_intror eq_refl) Em _ Hxs Hkid).
          eapply sec_same_built; [apply HI|exact Hs|eapply built_added; exact Am|exact Hit|rewrite Ecl; reflexivity]. }
        pose proof (ad_next _ _ _ _ _ _ A) as N1. cbn in N1.
        destruct (fold_2 (subs_of h0 CSubsubsection x) [] s1 s2 cur2 x (S (S (st_next s))) _ (st_next s) _ HI1 Hs1 Hcx eq_refl
                    (ad_sub _ _ _ _ _ _ A eq_refl) eq_refl eq_refl (ad_item _ _ _ _ _ _ A) H2) as (items2 & Bu2 & HI2 & Hs2 & En2 & Ec2).
        destruct (subs_of h0 CSubsubsection x) as [|z zs] eqn:Esubx; [contradiction|]. cbn [n_parent] in Ec2. subst cur2.
        pose proof (built_inner _ _ _ _ _ _ _ A Bu2) as Bu.
        assert (Hit2 : st_heap s2 !! it = Some (add_kids [st_next s] nl)).
        { rewrite (bu_old _ _ _ _ Bu), Hit by assumption. rewrite decide_True by reflexivity. reflexivity. }
        destruct (IH (pre ++ [x]) s2 s' cur' sec it (add_kids [st_next s] nl)) as (items & Bu' & HI' & Hs' & En'); auto.
        { rewrite <- app_assoc. exact Esub. }
        exists (st_next s :: items). split; [eapply (built_trans _ _ _ _ [st_next s]); eassumption|]. split; [assumption|]. split; [assumption|].
        pose proof (bu_next _ _ _ _ Bu). pose proof (bu_next _ _ _ _ Bu'). pose proof (bu_next _ _ _ _ Bu2). cbn [map]. constructor.
        * unfold out1 at 1. rewrite Esubx.
          assert (F : forall j, st_next s <= j < st_next s2 -> st_heap s' !! j = st_heap s2 !! j).
          { intros j Hj. eapply built_above; [exact Bu'|lia|lia]. }
          assert (F2 : forall j, j = st_next s \/ j = S (st_next s) -> st_heap s' !! j = st_heap s1 !! j).
          { intros j Hj. rewrite F by lia. eapply built_above; [exact Bu2|lia|lia]. }
          eapply ea_nested with (r := S (st_next s)) (it := S (S (st_next s)));
            [lia|lia|lia|rewrite F2 by auto; apply A|reflexivity|reflexivity|rewrite F2 by auto; apply A|reflexivity|reflexivity|exact Ht|discriminate| | |].
          -- rewrite F by lia. rewrite (bu_old _ _ _ _ Bu2) by lia. rewrite (ad_sub _ _ _ _ _ _ A eq_refl).
             rewrite decide_True by reflexivity. reflexivity.
          -- reflexivity.
          -- cbn [kids add_kids n_cls n_children]. change (kids (add_kids items2 _)) with items2.
             eapply entries_frame; [..|exact En2]; [lia|lia|]. intros j Hj. apply F. lia.
        * eapply entries_frame; [..|exact En']; [lia|lia|reflexivity].
      + (* without *)
        pose proof (has_subs s1 CSubsubsection x false (or_intror eq_refl) E1 Hs1 Hxs Hkid) as Hsub. cbv iota in Hsub.
        rewrite Hsub in H2. apply ret_ok in H2 as [-> ->].
        assert (Hb' : b = match xs with [] => true | _ => false end).
        { eapply (is_last _ CSubsection sec x pre xs b); eauto. unfold is_section. destruct Hsec as (m & -> & ->). reflexivity. }
        pose proof (added_leaf _ _ _ _ _ A Ht) as En. pose proof (built_added _ _ _ _ _ _ A) as Bu.
        assert (Eo : out1 h0 x = O x []) by (unfold out1; rewrite Hsub; reflexivity).
        destruct xs as [|y xs].
        * apply ret_ok in H as [-> ->]. exists [st_next s]. split; [assumption|]. split; [assumption|]. split; [assumption|].
          constructor; [rewrite Eo; exact En|constructor].
        * rewrite Hb' in Hb. subst cur1.
          assert (Hit2 : st_heap s1 !! it = Some (add_kids [st_next s] nl)).
          { rewrite (bu_old _ _ _ _ Bu), Hit by assumption. rewrite decide_True by reflexivity. reflexivity. }
          destruct (IH (pre ++ [x]) s1 s' cur' sec it (add_kids [st_next s] nl)) as (items & Bu' & HI' & Hs' & En'); auto.
          { rewrite <- app_assoc. exact Esub. }
          exists (st_next s :: items). split; [eapply (built_trans _ _ _ _ [st_next s]); eassumption|]. split; [assumption|]. split; [assumption|].
          pose proof (bu_next _ _ _ _ Bu). pose proof (bu_next _ _ _ _ Bu'). rewrite map_cons, Eo. constructor.
          -- eapply entry_frame; [..|exact En]; [lia|lia|]. intros j Hj. eapply built_above; [exact Bu'|lia|lia].
          -- eapply entries_frame; [..|exact En']; [lia|lia|reflexivity].
  Qed.

  Lemma out0_sections x : outline_sections (out0 h0 x) = x :: flat_map outline_sections (map (out1 h0) (subs_of h0 CSubsection x)).
  Proof. reflexivity. Qed.
  Lemma fold_0 : forall xs s s' cur cur' nt,
    toc_inv toc s0 cur s -> sec_same s0 s -> (forall x, x ∈ xs -> class_of h0 x CSection) ->
    st_heap s !! toc = Some nt -> subclass (n_cls nt) CSection = false ->
    foldM (toc_body fuel toc) cur (flat_map outline_sections (map (out0 h0) xs)) s = (s', Ok cur') ->
    exists items, built s s' toc items /\
      Forall2 (entry_at h0 (st_heap s') (st_next s) (st_next s')) (map (out0 h0) xs) items.
  Proof using Hg0.
    induction xs as [|x xs IH]; intros s s' cur cur' nt HI Hs Hxs Ht Hnt H.
    - apply ret_ok in H as [-> ->]. exists []. split; [apply built_nil; apply HI|constructor].
    - cbn [map flat_map] in H. rewrite out0_sections in H. cbn [app foldM] in H. apply bind_ok in H as (s1 & cur1 & H1 & H).
      assert (Hcx : class_of h0 x CSection) by (apply Hxs; constructor).
      assert (Hq : forall q, Some toc = Some q -> exists nq, st_heap s !! q = Some nq /\ subclass (n_cls nq) CSection = false).
      { intros q [= <-]. eauto. }
      destruct (one_step cur x s s1 cur1 CSection (Some toc) HI Hs Hcx ltac:(repeat constructor) eq_refl Hq H1)
        as (HI1 & Hs1 & q & sub & text & Eq & A & B & Htx).
      injection Eq as <-. assert (E1 : extends s0 s1) by apply HI1. pose proof (ex_good _ _ (proj1 HI)) as Hg.
      assert (Hxsec : is_section h0 x = true) by (unfold is_section; destruct Hcx as (m & -> & ->); reflexivity).
      assert (Hlt : toc < st_next s) by (eapply (proj1 Hg); eassumption).
      apply foldM_app_ok in H as (s2 & cur2 & H2 & H).
      assert (Hcont : forall (Bu : built s s2 toc [st_next s]) (HI2 : toc_inv toc s0 cur2 s2) (Hs2 : sec_same s0 s2)
          (En : entry_at h0 (st_heap s2) (st_next s) (st_next s2) (out0 h0 x) (st_next s)),
        exists items, built s s' toc items /\ Forall2 (entry_at h0 (st_heap s') (st_next s) (st_next s')) (map (out0 h0) (x :: xs)) items).
      { intros Bu HI2 Hs2 En.
        assert (Ht2 : st_heap s2 !! toc = Some (add_kids [st_next s] nt)).
        { rewrite (bu_old _ _ _ _ Bu), Ht by assumption. rewrite decide_True by reflexivity. reflexivity. }
        destruct (IH s2 s' cur2 cur' (add_kids [st_next s] nt)) as (items & Bu' & En'); auto.
        { intros y Hy. apply Hxs. constructor. assumption. }
        exists (st_next s :: items). split; [eapply (built_trans _ _ _ _ [st_next s]); eassumption|].
        pose proof (bu_next _ _ _ _ Bu). pose proof (bu_next _ _ _ _ Bu'). cbn [map]. constructor.
        - eapply entry_frame; [..|exact En]; [lia|lia|]. intros j Hj. eapply built_above; [exact Bu'|lia|lia].
        - eapply entries_frame; [..|exact En']; [lia|lia|reflexivity]. }
      inversion B as [| | |sm Am Hkid|Hkid]; subst.
      + assert (Hsub : subs_of h0 CSubsection x <> []).
        { assert (Em : extends s0 sm) by (eapply extends_added; [apply HI|exact Am]).
          refine (has_subs sm CSubsection x true (or_introl eq_refl) Em _ Hxsec Hkid).
          eapply sec_same_built; [apply HI|exact Hs|eapply built_added; exact Am|exact Ht|exact Hnt]. }
        pose proof (ad_next _ _ _ _ _ _ A) as N1. cbn in N1.
        destruct (fold_1 (subs_of h0 CSubsection x) [] s1 s2 cur2 x (S (S (st_next s))) _ HI1 Hs1 Hcx eq_refl
                    (ad_sub _ _ _ _ _ _ A eq_refl) eq_refl H2) as (items2 & Bu2 & HI2 & Hs2 & En2).
        pose proof (bu_next _ _ _ _ Bu2).
        apply Hcont; [eapply built_inner; eassumption|assumption|assumption|].
        unfold out0.
        assert (F2 : forall j, j = st_next s \/ j = S (st_next s) -> st_heap s2 !! j = st_heap s1 !! j).
        { intros j Hj. eapply built_above; [exact Bu2|lia|lia]. }
        eapply ea_nested with (r := S (st_next s)) (it := S (S (st_next s)));
          [lia|lia|lia|rewrite F2 by auto; apply A|reflexivity|reflexivity|rewrite F2 by auto; apply A|reflexivity|reflexivity|exact Htx| | | |].
        * destruct (subs_of h0 CSubsection x); [contradiction|discriminate].
        * rewrite (bu_old _ _ _ _ Bu2) by lia. rewrite (ad_sub _ _ _ _ _ _ A eq_refl).
          rewrite decide_True by reflexivity. reflexivity.
        * reflexivity.
        * change (kids (add_kids items2 _)) with items2. eapply entries_frame; [..|exact En2]; [lia|lia|reflexivity].
      + pose proof (has_subs s1 CSubsection x false (or_introl eq_refl) E1 Hs1 Hxsec Hkid) as Hsub. cbv iota in Hsub.
        rewrite Hsub in H2. apply ret_ok in H2 as [-> ->].
        apply Hcont; [eapply built_added; eassumption|assumption|assumption|].
        unfold out0. rewrite Hsub. eapply added_leaf; eassumption.
  Qed.
End levels.

(** ** The table of contents *)
Lemma ref_attr_target x text : ref_attrs x text !! a_target = Some (VNode x).
Proof. reflexivity. Qed.
Lemma ref_attr_text x text : ref_attrs x text !! a_overwrite_reftext = Some (VStr text).
Proof. reflexivity. Qed.
Lemma section_not_manuscript h x : is_section h x = true -> ~ class_of h x CManuscript.
Proof. unfold is_section. intros H (n & Hn & Ec). rewrite Hn, Ec in H. discriminate. Qed.
Lemma entry_text_shown h x text : consistent h -> is_section h x = true -> entry_text h x text -> shown_as h x text.
Proof.
  intros Hc Hsec (v & Hv & H) title Ht. rewrite Ht in Hv. injection Hv as <-.
  pose proof (section_not_manuscript _ _ Hsec) as Hnm.
  destruct H as [[Hu ->]|(w & r & Hw & Htw & Hr & ->)].
  - split; [reflexivity|]. intros l Hl. exfalso. destruct Hu as (w & Hw & Htw).
    inversion Hl; subst; congruence.
  - split; [intros (w' & Hw' & Htw'); congruence|]. intros l Hl.
    rewrite (full_is_fun _ _ _ _ Hc Hr (numbers_full _ _ _ Hl)). reflexivity.
Qed.
Lemma entry_toc s0 s lo hi o : good s0 -> extends s0 s -> forall i,
  (forall x, x ∈ outline_sections o -> is_section (st_heap s0) x = true) ->
  entry_at (st_heap s0) (st_heap s) lo hi o i -> toc_entry (st_heap s) o i.
Proof.
  intros Hg E. induction o as [x os IH] using outline_ind'. intros i Hsec H.
  assert (Hlink : forall r nr text, st_heap s !! r = Some nr -> n_cls nr = CReference -> n_attrs nr = ref_attrs x text ->
    entry_text (st_heap s0) x text -> section_link (st_heap s) r x).
  { intros r nr text Hr Ec Ea Ht. split; [exists nr; auto|]. unfold value. rewrite Hr, Ea.
    split; [apply ref_attr_target|]. exists text. split; [apply ref_attr_text|].
    assert (Hx : is_section (st_heap s0) x = true) by (apply Hsec; constructor).
    assert (Hx0 : is_Some (st_heap s0 !! x)) by (unfold is_section in Hx; destruct (st_heap s0 !! x); [eauto|discriminate]).
    apply entry_text_shown; [apply E| |].
    - unfold is_section in *. destruct Hx0 as [m Hm]. rewrite Hm in Hx. destruct (ex_old _ _ E _ _ Hm) as (m' & -> & -> & _). assumption.
    - eapply above_text; [apply extends_above; eassumption|apply Hg|exact Hx0|exact Ht]. }
  inversion H as [x' i' r ni nr text Hi Hr Hni Ec Ek Hnr Ecr Ear Ht|x' os' i' r it ni nr nl text Hi Hr Hit Hni Ec Ek Hnr Ecr Ear Ht Hos Hnl Ecl Hall]; subst.
  - apply te_leaf with (r := r); [exists ni; auto|exists ni; auto|eauto].
  - apply te_nested with (r := r) (it := it) (items := kids nl); [exists ni; auto|exists ni; auto|eauto|assumption|exists nl; auto|exists nl; auto|].
    eapply Forall2_mono; [|exact Hall].
    rewrite list.Forall_forall in IH |- *. intros o Ho b Hb. apply IH; [assumption| |assumption].
    intros y Hy. apply Hsec. cbn [outline_sections]. constructor. apply elem_of_list_In, in_flat_map. exists o.
    split; apply elem_of_list_In; assumption.
Qed.

(** Cutting off subtrees keeps the nesting. *)
Lemma pruned_class s s1 xs x d : pruned s s1 xs -> class_of (st_heap s1) x d -> class_of (st_heap s) x d.
Proof.
  intros P (n & Hn & Ec). destruct (st_heap s !! x) as [m|] eqn:Em.
  - destruct (pr_old _ _ _ P _ _ Em) as (n' & Hn' & Ec' & _). exists m. split; [assumption|]. congruence.
  - rewrite (pr_none _ _ _ P _ Em) in Hn. discriminate.
Qed.
Lemma pruned_class' s s1 xs x d : pruned s s1 xs -> class_of (st_heap s) x d -> class_of (st_heap s1) x d.
Proof. intros P (n & Hn & Ec). destruct (pr_old _ _ _ P _ _ Hn) as (n' & Hn' & Ec' & _). exists n'. split; [assumption|congruence]. Qed.
Lemma pruned_section s s1 xs x : pruned s s1 xs -> is_section (st_heap s1) x = is_section (st_heap s) x.
Proof.
  intros P. unfold is_section. destruct (st_heap s !! x) as [m|] eqn:Em.
  - destruct (pr_old _ _ _ P _ _ Em) as (n' & -> & -> & _). reflexivity.
  - rewrite (pr_none _ _ _ P _ Em). reflexivity.
Qed.
Lemma pruned_parent s s1 xs x p : pruned s s1 xs -> parent_is (st_heap s1) x p -> parent_is (st_heap s) x p.
Proof.
  intros P (n & Hn & Ep). destruct (st_heap s !! x) as [m|] eqn:Em.
  - destruct (pr_old _ _ _ P _ _ Em) as (n' & Hn' & _ & _ & Ep' & _). assert (n' = n) by congruence. subst n'.
    exists m. split; [assumption|]. destruct (decide (x ∈ xs)); congruence.
  - rewrite (pr_none _ _ _ P _ Em) in Hn. discriminate.
Qed.
Lemma pruned_ancestor s s1 xs x a : pruned s s1 xs -> ancestor (st_heap s1) x a -> ancestor (st_heap s) x a.
Proof.
  intros P H. induction H as [x p H|x p a H _ IH]; [apply anc_parent|eapply anc_step; [|exact IH]]; eapply pruned_parent; eassumption.
Qed.
Lemma outlines_same h h' t : (forall x, is_section h' x = is_section h x) -> outlines h' t = outlines h t.
Proof.
  intros H. induction t as [i cs IH] using tree_ind'. cbn [outlines]. rewrite H.
  assert (E : flat_map (outlines h') cs = flat_map (outlines h) cs).
  { induction IH as [|c cs Hc _ IHcs]; [reflexivity|]. cbn [flat_map]. rewrite Hc, IHcs. reflexivity. }
  rewrite E. reflexivity.
Qed.
Lemma well_nested_pruned s s1 xs t :
  pruned s s1 xs -> (forall x, x ∈ xs -> is_contents (st_heap s) x = true) ->
  well_nested (st_heap s) t -> well_nested (st_heap s1) (prune xs t).
Proof.
  intros P Hxs Hw x Hx.
  assert (Hx0 : x ∈ doc_order t) by (eapply sublist_in; [apply prune_sublist|exact Hx]).
  destruct (Hw x Hx0) as (H0 & H1 & H2).
  assert (Hpar : forall p d, subclass d CContents = false -> class_of (st_heap s) x d -> parent_is (st_heap s) x p -> parent_is (st_heap s1) x p).
  { intros p d Hd (n & Hn & Ec) (n0 & Hn0 & Ep). assert (n0 = n) by congruence. subst n0.
    destruct (pr_old _ _ _ P _ _ Hn) as (n' & Hn' & _ & _ & Ep' & _). exists n'. split; [assumption|].
    rewrite decide_False in Ep'; [congruence|]. intros Hin. apply Hxs in Hin. unfold is_contents in Hin. rewrite Hn in Hin. congruence. }
  split; [|split].
  - intros Hc a Ha. rewrite (pruned_section _ _ _ _ P). apply H0; [eapply pruned_class|eapply pruned_ancestor]; eassumption.
  - intros Hc. pose proof (pruned_class _ _ _ _ _ P Hc) as Hc0. destruct (H1 Hc0) as (p & Hp & Hpc). exists p.
    split; [apply (Hpar p CSubsection); auto|eapply pruned_class'; eassumption].
  - intros Hc. pose proof (pruned_class _ _ _ _ _ P Hc) as Hc0. destruct (H2 Hc0) as (p & Hp & Hpc). exists p.
    split; [apply (Hpar p CSubsubsection); auto|eapply pruned_class'; eassumption].
Qed.

(** The entries of the table of contents follow the outline of the document, and
    nothing else is edited. *)
Theorem toc_entries_ok fuel s t s' (u : unit) toc :
  manuscript s t -> well_nested (st_heap s) t -> make_toc fuel (root t) s = (s', Ok u) ->
  head (contents_in (st_heap s) (doc_order t)) = Some toc ->
  let xs := tail (contents_in (st_heap s) (doc_order t)) in
  exists s1 items, pruned s s1 xs /\ built s1 s' toc items /\
    Forall2 (toc_entry (st_heap s')) (outlines (st_heap s) (prune xs t)) items.
Proof.
  intros Hm Hw H Hh xs. destruct (make_toc_ok _ _ _ _ _ Hm H) as (s1 & P & Hm1 & E & Hk). fold xs in P, Hm1, Hk.
  rewrite Hh in Hk. destruct Hk as ([nt Hnt] & cur & Hf).
  assert (Hcont : forall x, x ∈ contents_in (st_heap s) (doc_order t) -> is_contents (st_heap s) x = true).
  { intros x Hx. unfold contents_in in Hx. apply elem_of_list_In, filter_In in Hx as [_ Hx]. assumption. }
  assert (Hxs : forall x, x ∈ xs -> is_contents (st_heap s) x = true).
  { intros x Hx. apply Hcont. unfold xs in Hx. destruct (contents_in (st_heap s) (doc_order t)); [inversion Hx|]. constructor. assumption. }
  pose proof (well_nested_pruned _ _ _ _ P Hxs Hw) as Hw1. pose proof (manuscript_good _ _ Hm1) as Hg1.
  assert (Hwith : within (st_heap s1) (prune xs t) (prune xs t)).
  { split; [|auto]. exists None. apply Hm1. }
  assert (Hroot : forall p, ~ parent_is (st_heap s1) (root (prune xs t)) p).
  { destruct (prune xs t) as [i cs]. intros p (n & Hn & Ep).
    destruct (tree_at_inv _ _ _ _ (proj1 (ms_document _ _ Hm1))) as (n' & Hn' & Ep' & _). cbn [root] in Hn. congruence. }
  destruct (Hw1 _ (root_in_doc_order _)) as (_ & Hr1 & Hr2).
  destruct (outlines_top (st_heap s1) (prune xs t) (proj2 Hg1) Hw1 (prune xs t) Hwith) as (tops & Eo & Htops).
  { intros Hcl. destruct (Hr1 Hcl) as (p & Hp & _). eapply Hroot. exact Hp. }
  { intros Hcl. destruct (Hr2 Hcl) as (p & Hp & _). eapply Hroot. exact Hp. }
  rewrite <- outlines_flat, Eo in Hf.
  assert (Hntc : subclass (n_cls nt) CSection = false).
  { assert (Ht : is_contents (st_heap s) toc = true).
    { apply Hcont. destruct (contents_in (st_heap s) (doc_order t)); [discriminate|]. injection Hh as ->. constructor. }
    unfold is_contents in Ht. destruct (st_heap s !! toc) as [n|] eqn:En; [|discriminate].
    destruct (pr_old _ _ _ P _ _ En) as (n' & Hn' & Ec & _). assert (n' = nt) by congruence. subst n'. rewrite Ec.
    destruct (n_cls n); try discriminate; reflexivity. }
  destruct (fold_0 fuel toc s1 Hg1 tops s1 s' (Some toc) cur nt) as (items & Bu & En); auto.
  - split; [apply extends_refl; assumption|]. split; [eauto|]. intros p [= <-]. eauto.
  - intros x n Hx _. assumption.
  - intros x Hx. apply Htops. assumption.
  - exists s1, items. split; [assumption|]. split; [assumption|].
    rewrite <- (outlines_same (st_heap s) (st_heap s1)) by (intros x; eapply pruned_section; exact P). rewrite Eo.
    eapply Forall2_mono; [|exact En]. apply list.Forall_forall. intros o Ho b Hb. eapply entry_toc; [exact Hg1|exact E| |exact Hb].
    intros x Hx. assert (Hx' : x ∈ sections_in (st_heap s1) (doc_order (prune xs t))).
    { rewrite <- outlines_flat, Eo. apply elem_of_list_In, in_flat_map. exists o. split; apply elem_of_list_In; assumption. }
    unfold sections_in in Hx'. apply elem_of_list_In, filter_In in Hx' as [_ Hx']. assumption.
Qed.
