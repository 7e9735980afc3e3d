(** Translation always ends: the visit methods of the base translator. *)
From Verif Require Export TrTotal2.
From Verif Require Import Queries FullNumber Traverse NodeOps Monad.
Local Open Scope list_scope.

(** The attributes that a visit method uses beside those of all nodes. *)
Definition used (m : cls) : list attr :=
  match m with
  | CManuscript => [a_title; a_src] | CAuthor => [a_name; a_affiliation; a_email] | CAbstract => [a_keywords; a_msc]
  | CParagraph | CSection | CTheorem => [a_title]
  | CSourceCode => [a_lang; a_text] | CText | CError => [a_text]
  | CSpan => [a_strong; a_emphas; a_little; a_insert; a_delete]
  | CReference | CURL => [a_target] | CCite => [a_targets]
  | CBibitem => [a_author; a_title; a_kind; a_year; a_doi; a_backlinks; a_journal; a_publisher]
  | CFigure => [a_path; a_scale]
  | CBaseReference => [a_target; a_overwrite_reftext]
  | _ => []
  end.
Definition used_ok (m c : cls) : bool :=
  forallb (fun a => existsb (fun b => bool_decide (a = b)) (map fst (default_attrs c))) (used m).
Lemma used_in m c a : used_ok m c = true -> In a (used m) -> In a (map fst (default_attrs c)).
Proof.
  unfold used_ok. rewrite forallb_forall. intros H Ha. specialize (H a Ha). apply existsb_exists in H as (b & Hb & E).
  apply bool_decide_eq_true in E. subst b. exact Hb.
Qed.
Lemma used_visit c m : dispatch visit_defined c = Some m -> used_ok m c = true.
Proof. intros H. destruct c; vm_compute in H; injection H as <-; vm_compute; reflexivity. Qed.
Lemma used_base c : subclass c CBaseReference = true -> used_ok CBaseReference c = true.
Proof. intros H. destruct c; vm_compute in H; try discriminate H; vm_compute; reflexivity. Qed.

Ltac notin := let H := fresh in intros H; repeat (apply elem_of_cons in H as [H|H]; [discriminate H|]); inversion H.

Section Visits.
Context (A : list attr) (s0 : st) (Hg0 : good s0) (f : nat) (Hf : size (st_heap s0) <= f).
Context (HA : forall a, a ∈ A -> a ∈ trh_attrs) (HAt : a_types ∈ A).
Notation ret_s := (returns A s0).

Lemma notA a : a ∉ trh_attrs -> a ∉ A.
Proof using HA. intros H Ha. apply H, HA, Ha. Qed.
Lemma r_node_tag i n tag add x y z : st_heap s0 !! i = Some n -> ret_s (node_tag_full i tag add x y z) (fun _ => True).
Proof using.
  intros Hi. unfold node_tag_full. eapply t_bind; [eapply t_cls_of, Hi|]. intros c _.
  eapply t_bind; [eapply (t_get_strs _ _ _ _ _ Hi); [apply always|notin|auto]|]. intros types _.
  eapply t_bind; [eapply (t_getattr _ _ _ _ _ Hi); apply always|]. intros l _.
  eapply t_bind; [eapply (t_getattr _ _ _ _ _ Hi)|]; [destruct (n_cls n); vm_compute; tauto|]. intros nid _. apply t_ret, I.
Qed.
Lemma r_label i n : st_heap s0 !! i = Some n -> ret_s (label_text i) (fun _ => True).
Proof using. intros Hi. unfold label_text. eapply t_bind; [eapply (t_getattr _ _ _ _ _ Hi); apply always|]. intros l _. apply t_ret, I. Qed.
Lemma r_full i n : st_heap s0 !! i = Some n -> ret_s (full_number f i) (fun _ => True).
Proof using Hg0 Hf. apply t_full_number; assumption. Qed.
Lemma r_always i n a : st_heap s0 !! i = Some n -> In a [a_label; a_types; a_number; a_nonum] -> ret_s (getattr i a) (fun _ => True).
Proof using.
  intros Hi Ha. eapply t_imp; [eapply (t_getattr _ _ _ _ _ Hi)|auto].
  destruct (always (n_cls n)) as (H1 & H2 & H3 & H4 & _). destruct Ha as [<-|[<-|[<-|[<-|[]]]]]; assumption.
Qed.
Lemma r_used i n m a : st_heap s0 !! i = Some n -> used_ok m (n_cls n) = true -> In a (used m) -> ret_s (getattr i a) (fun v => a ∉ A -> n_attrs n !! a = Some v).
Proof using. intros Hi Hu Ha. eapply t_imp; [eapply (t_getattr _ _ _ _ _ Hi), (used_in _ _ _ Hu Ha)|]. intros v [_ H]. exact H. Qed.

Ltac infd := cbn; tauto.
Ltac go Hi Hu :=
  match goal with
  | |- returns _ _ (bind (if _ then _ else _) _) _ => eapply t_bind with (R := fun _ => True); [|intros ? ?]
  | |- returns _ _ (bind (bind _ _) _) _ => eapply t_bind with (R := fun _ => True); [|intros ? ?]
  | |- returns _ _ (bind _ _) _ => eapply t_bind; [|intros ? ?]
  | |- returns _ _ (ret _) _ => apply t_ret; exact I
  | |- returns _ _ (warn _ _) _ => apply t_log
  | |- returns _ _ (cls_of _) _ => eapply t_cls_of, Hi
  | |- returns _ _ (parent_of _) _ => eapply t_parent_of, Hi
  | |- returns _ _ (node_tag _ _) _ => eapply r_node_tag, Hi
  | |- returns _ _ (node_tag_inline _ _) _ => eapply r_node_tag, Hi
  | |- returns _ _ (node_tag_full _ _ _ _ _ _) _ => eapply r_node_tag, Hi
  | |- returns _ _ (label_text _) _ => eapply r_label, Hi
  | |- returns _ _ (full_number _ _) _ => eapply r_full, Hi
  | |- returns _ _ (make_title_node _ _) _ => apply t_title
  | |- returns _ _ (first_of_type _ _) _ => eapply t_first_of_type, Hi
  | |- returns _ _ (last_of_type _ _) _ => eapply t_last_of_type, Hi
  | |- returns _ _ (getattr _ _) _ => eapply (r_always _ _ _ Hi); infd
  | |- returns _ _ (getattr _ _) _ => eapply (r_used _ _ _ _ Hi Hu); infd
  | |- returns _ _ (get_str _ a_text) _ => eapply (t_get_str _ _ _ _ _ Hi); [apply (used_in _ _ _ Hu); infd|notin|auto]
  | |- returns _ _ (get_strs _ a_types) _ => eapply (t_get_strs _ _ _ _ _ Hi); [apply always|notin|auto]
  | |- returns _ _ (get_strs _ _) _ => eapply (t_get_strs _ _ _ _ _ Hi); [apply (used_in _ _ _ Hu); infd|notin|auto]
  | |- returns _ _ (setattr _ a_types _) _ => eapply (t_setattr _ _ _ _ _ _ Hi); [exact HAt|right; reflexivity|reflexivity|discriminate]
  | |- returns _ _ (if ?b then _ else _) _ => destruct b
  end.
Ltac gos Hi Hu := repeat go Hi Hu.

Lemma r_manuscript i n : st_heap s0 !! i = Some n -> used_ok CManuscript (n_cls n) = true -> ret_s (visit_manuscript i) (fun _ => True).
Proof using. intros Hi Hu. unfold visit_manuscript. gos Hi Hu. Qed.
Lemma r_author i n : st_heap s0 !! i = Some n -> used_ok CAuthor (n_cls n) = true -> ret_s (visit_author i) (fun _ => True).
Proof using. intros Hi Hu. unfold visit_author. gos Hi Hu. Qed.
Lemma r_paragraph i n : st_heap s0 !! i = Some n -> used_ok CParagraph (n_cls n) = true -> ret_s (visit_paragraph i) (fun _ => True).
Proof using. intros Hi Hu. unfold visit_paragraph. gos Hi Hu. Qed.
Lemma r_section i n : st_heap s0 !! i = Some n -> dispatch visit_defined (n_cls n) = Some CSection -> ret_s (visit_section f i) (fun _ => True).
Proof using Hg0 Hf HAt.
  intros Hi Hd. pose proof (used_visit _ _ Hd) as Hu. unfold visit_section. eapply t_bind; [eapply t_cls_of, Hi|]. intros c ->.
  assert (Hl : exists lv, level (n_cls n) = Some lv) by (destruct (n_cls n); vm_compute in Hd; try discriminate Hd; eexists; reflexivity).
  destruct Hl as [lv ->]. gos Hi Hu.
Qed.
Lemma r_theorem i n : st_heap s0 !! i = Some n -> used_ok CTheorem (n_cls n) = true -> ret_s (visit_theorem f i) (fun _ => True).
Proof using Hg0 Hf. intros Hi Hu. unfold visit_theorem. gos Hi Hu. Qed.
Lemma r_sketch i n : st_heap s0 !! i = Some n -> ret_s (visit_sketch i) (fun _ => True).
Proof using. intros Hi. unfold visit_sketch. gos Hi Hi. Qed.
Lemma r_proof i n : st_heap s0 !! i = Some n -> ret_s (visit_proof i) (fun _ => True).
Proof using Hg0 HAt.
  intros Hi. unfold visit_proof. eapply t_bind; [eapply t_last_of_type, Hi|]. intros r Hr.
  eapply t_bind with (R := fun _ => True).
  - destruct r as [[k j]|]; [|gos Hi Hi]. destruct (kid_old _ Hg0 _ _ k Hi (Hr _ _ eq_refl)) as [m Hm]. gos Hm Hm.
  - intros _ _. gos Hi Hi.
Qed.
Lemma r_mathblock i n p np : st_heap s0 !! i = Some n -> n_parent n = Some p -> st_heap s0 !! p = Some np -> n_cls np = CParagraph ->
  ret_s (visit_mathblock i) (fun _ => True).
Proof using.
  intros Hi Hp Hnp Hc. unfold visit_mathblock. eapply t_bind; [eapply t_parent_of, Hi|]. intros q ->. rewrite Hp.
  eapply t_bind; [eapply t_inst, Hnp|]. intros b ->. rewrite Hc. change (subclass_any CParagraph [CParagraph]) with true. cbn [negb]. gos Hi Hi.
Qed.
Lemma r_span i n : st_heap s0 !! i = Some n -> used_ok CSpan (n_cls n) = true -> ret_s (visit_span i) (fun _ => True).
Proof using.
  intros Hi Hu. unfold visit_span. eapply t_bind; [eapply r_node_tag, Hi|]. intros nt _.
  eapply t_bind; [apply (t_mapM _ _ _ _ (fun _ => True))|intros; gos Hi Hu].
  intros x Hx. eapply t_bind with (R := fun _ => True); [|intros; apply t_ret, I].
  eapply t_imp; [eapply (r_used _ _ _ _ Hi Hu)|auto]. destruct Hx as [<-|[<-|[<-|[<-|[<-|[]]]]]]; infd.
Qed.
Lemma r_caption i n p np : st_heap s0 !! i = Some n -> n_parent n = Some p -> st_heap s0 !! p = Some np -> ret_s (visit_caption f i) (fun _ => True).
Proof using Hg0 Hf.
  intros Hi Hp Hnp. unfold visit_caption. eapply t_bind; [eapply t_parent_of, Hi|]. intros q ->. rewrite Hp. gos Hnp Hnp.
Qed.
Lemma r_figure i n : st_heap s0 !! i = Some n -> used_ok CFigure (n_cls n) = true -> ret_s (visit_figure f i) (fun _ => True).
Proof using Hg0 Hf. intros Hi Hu. unfold visit_figure. gos Hi Hu. Qed.
Lemma r_sourcecode hl i n : st_heap s0 !! i = Some n -> used_ok CSourceCode (n_cls n) = true -> ret_s (visit_sourcecode hl i) (fun _ => True).
Proof using. intros Hi Hu. unfold visit_sourcecode. gos Hi Hu. Qed.

(** *** Links *)
Definition fillable_at (t : id) : Prop := forall n tmpl, st_heap s0 !! t = Some n -> n_attrs n !! a_reftext_template = Some (VStr tmpl) -> fillable tmpl.
Definition target_fine (tg : href_target) : Prop :=
  match tg with HNode t => is_Some (st_heap s0 !! t) /\ fillable_at t | HStr u => u <> [] end.
Lemma r_reftext t : is_Some (st_heap s0 !! t) -> fillable_at t -> ret_s (reftext f t) (fun _ => True).
Proof using Hg0 Hf HA. intros [n Hn] Ht. eapply t_reftext; [exact Hg0|exact Hf|apply notA; notin|exact Hn|intros tmpl; apply (Ht n tmpl Hn)]. Qed.
Lemma r_ahref i n tg href id_ add : st_heap s0 !! i = Some n -> target_fine tg -> ret_s (make_ahref f i tg href id_ add) (fun _ => True).
Proof using Hg0 Hf HA HAt.
  intros Hi Ht. unfold make_ahref. eapply t_bind; [eapply t_cls_of, Hi|]. intros c _.
  eapply t_bind with (R := fun _ => True).
  { destruct tg as [t|[|x u]]; [apply t_ret, I|contradiction Ht; reflexivity|apply t_ret, I]. }
  intros _ _. eapply t_bind; [apply (t_get_node _ _ _ _ (fun _ => True) Hi); auto|]. intros m _.
  assert (Hr : ret_s (match tg with HNode t => reftext f t | HStr s => ret s end) (fun _ => True)).
  { destruct tg as [t|u]; [destruct Ht; apply r_reftext; assumption|apply t_ret, I]. }
  eapply t_bind with (R := fun _ => True).
  { destruct (n_attrs m !! a_overwrite_reftext) as [v|]; [|exact Hr]. destruct (truthy v); [apply t_ret, I|exact Hr]. }
  intros rt _. gos Hi Hi.
Qed.
Lemma r_reference i n y : st_heap s0 !! i = Some n -> used_ok CReference (n_cls n) = true -> n_attrs n !! a_target = Some (VNode y) ->
  is_Some (st_heap s0 !! y) -> fillable_at y -> ret_s (visit_reference f i) (fun _ => True).
Proof using Hg0 Hf HA HAt.
  intros Hi Hu Ht [ny Hy] Hfy. unfold visit_reference. eapply t_bind; [eapply (r_used _ _ _ _ Hi Hu); infd|]. intros v Hv.
  rewrite Hv in Ht by (apply notA; notin). injection Ht as ->. eapply t_bind; [eapply r_label, Hy|]. intros l _.
  eapply t_bind; [eapply (r_ahref _ _ _ _ _ _ Hi); split; eauto|]. intros; apply t_ret, I.
Qed.
Lemma r_url i n u : st_heap s0 !! i = Some n -> used_ok CURL (n_cls n) = true -> n_attrs n !! a_target = Some (VStr u) -> u <> [] ->
  ret_s (visit_url f i) (fun _ => True).
Proof using Hg0 Hf HA HAt.
  intros Hi Hu Ht Hne. unfold visit_url. eapply t_bind; [eapply (r_used _ _ _ _ Hi Hu); infd|]. intros v Hv.
  rewrite Hv in Ht by (apply notA; notin). injection Ht as ->.
  eapply t_bind; [eapply (r_ahref _ _ _ _ _ _ Hi); exact Hne|]. intros; apply t_ret, I.
Qed.
Lemma r_cite_tags i n label ts : st_heap s0 !! i = Some n -> (forall y, y ∈ ts -> is_Some (st_heap s0 !! y) /\ fillable_at y) ->
  forall k, ret_s (cite_tags f i label ts k) (fun _ => True).
Proof using Hg0 Hf HA HAt.
  intros Hi. induction ts as [|t ts IH]; intros Hts k; cbn [cite_tags]; [apply t_ret, I|].
  destruct (Hts t) as [[nt Hnt] Hft]; [left|]. eapply t_bind; [eapply r_label, Hnt|]. intros l _.
  eapply t_bind; [eapply (r_ahref _ _ _ _ _ _ Hi); split; eauto|]. intros x _.
  eapply t_bind; [apply IH; intros y Hy; apply Hts; right; exact Hy|]. intros; apply t_ret, I.
Qed.
Lemma r_cite i n ys : st_heap s0 !! i = Some n -> used_ok CCite (n_cls n) = true -> n_attrs n !! a_targets = Some (VNodes ys) ->
  (forall y, y ∈ ys -> is_Some (st_heap s0 !! y) /\ fillable_at y) -> ret_s (visit_cite f i) (fun _ => True).
Proof using Hg0 Hf HA HAt.
  intros Hi Hu Ht Hys. unfold visit_cite. eapply t_bind; [eapply (r_used _ _ _ _ Hi Hu); infd|]. intros v Hv.
  rewrite Hv in Ht by (apply notA; notin). injection Ht as ->.
  assert (Hmany : ret_s (let! label := label_text i in let! xs := cite_tags f i label ys 0 in
    ret (KText ([raw "["; TOpen (lit "span") [AQ (lit "id") label]] ++ tok_join [raw ", "] xs ++ [ctag "span"; raw "]"]))) (fun _ => True)).
  { eapply t_bind; [eapply r_label, Hi|]. intros l _. eapply t_bind; [eapply (r_cite_tags _ _ _ _ Hi Hys)|]. intros; apply t_ret, I. }
  destruct ys as [|y [|y' ys]]; [exact Hmany| |exact Hmany].
  destruct (Hys y) as [[ny Hy] Hfy]; [left|]. eapply t_bind; [eapply t_cls_of, Hy|]. intros c _. eapply t_bind; [eapply r_label, Hy|]. intros l _.
  eapply t_bind; [eapply (r_always _ _ _ Hi); infd|]. intros w _.
  eapply t_bind; [eapply (r_ahref _ _ _ _ _ _ Hi); split; eauto|]. intros; apply t_ret, I.
Qed.

(** *** Bibliography *)
Lemma r_strip v : is_str v = true -> ret_s (strip_dots v) (fun _ => True).
Proof using. destruct v; try discriminate. intros _. apply t_ret, I. Qed.
Lemma val_value i n a v : st_heap s0 !! i = Some n -> n_attrs n !! a = Some v -> value (st_heap s0) i a = Some v.
Proof using. intros Hi Hv. unfold value. rewrite Hi. exact Hv. Qed.
Lemma r_bibitem_parts i n : st_heap s0 !! i = Some n -> used_ok CBibitem (n_cls n) = true -> proper_entry (st_heap s0) i ->
  ret_s (bibitem_parts i) (fun _ => True).
Proof using HA.
  intros Hi Hu [Pa Py Pj Pp]. unfold bibitem_parts.
  eapply t_bind; [eapply (r_used _ _ _ a_author Hi Hu); infd|]. intros author Hauth.
  eapply t_bind; [eapply (r_used _ _ _ a_title Hi Hu); infd|]. intros title _.
  eapply t_bind; [eapply (r_always _ _ _ Hi); infd|]. intros number _.
  eapply t_bind; [eapply (r_used _ _ _ a_kind Hi Hu); infd|]. intros kind Hkind.
  eapply t_bind; [eapply r_label, Hi|]. intros label _. cbv zeta.
  assert (Hstr : forall v, truthy v = true -> (exists y, v = VStr y) -> is_str v = true) by (intros v _ [y ->]; reflexivity).
  assert (HAa : is_str author = true).
  { destruct Pa as [a Ha]. rewrite (val_value _ _ _ _ Hi (Hauth (notA a_author ltac:(notin)))) in Ha. injection Ha as ->. reflexivity. }
  assert (Hk : forall k, val_eqb kind (VStr (lit k)) = true -> value (st_heap s0) i a_kind = Some (VStr (lit k))).
  { intros k Ek. rewrite (val_value _ _ _ _ Hi (Hkind (notA a_kind ltac:(notin)))). destruct kind; try discriminate Ek. cbn in Ek. apply str_eqb_eq in Ek. subst. reflexivity. }
  eapply t_bind with (R := Forall (fun v => is_str v = true)).
  { destruct (val_eqb kind (VStr (lit "article"))) eqn:Ek.
    - eapply t_bind; [eapply (r_used _ _ _ a_journal Hi Hu); infd|]. intros j Hj. destruct (truthy j) eqn:Tj.
      + apply t_ret. constructor; [|constructor]. apply (Hstr _ Tj). apply (Pj j (Hk _ Ek)); [|exact Tj]. eapply val_value; [exact Hi|]. apply Hj, notA; notin.
      + eapply t_bind; [apply t_log|]. intros _ _. apply t_ret. constructor.
    - destruct (val_eqb kind (VStr (lit "book"))) eqn:Eb; [|apply t_ret; constructor].
      eapply t_bind; [eapply (r_used _ _ _ a_publisher Hi Hu); infd|]. intros j Hj. destruct (truthy j) eqn:Tj.
      + apply t_ret. constructor; [|constructor]. apply (Hstr _ Tj). apply (Pp j (Hk _ Eb)); [|exact Tj]. eapply val_value; [exact Hi|]. apply Hj, notA; notin.
      + eapply t_bind; [apply t_log|]. intros _ _. apply t_ret. constructor. }
  intros venue Hvenue. eapply t_bind; [eapply (r_used _ _ _ a_year Hi Hu); infd|]. intros year Hyear.
  eapply t_bind with (R := Forall (fun v => is_str v = true)).
  { destruct (truthy year) eqn:Ty.
    + apply t_ret. constructor; [|constructor]. apply (Hstr _ Ty). apply (Py year); [|exact Ty]. eapply val_value; [exact Hi|]. apply Hyear, notA; notin.
    + eapply t_bind; [apply t_log|]. intros _ _. apply t_ret. constructor. }
  intros y Hy. eapply t_bind; [apply (t_mapM _ _ _ _ (fun _ => True))|].
  { intros x Hx. apply r_strip. rewrite List.Forall_forall in Hvenue, Hy. apply in_app_iff in Hx as [Hx|Hx]; [|apply in_app_iff in Hx as [Hx|Hx]; auto].
    destruct (truthy number); repeat (destruct Hx as [<-|Hx]; [reflexivity || exact HAa|]); destruct Hx. }
  intros parts _. eapply t_bind; [eapply (r_used _ _ _ a_doi Hi Hu); infd|]. intros doi _.
  eapply t_bind with (R := fun _ => True).
  { destruct (truthy doi); [apply t_ret, I|]. eapply t_bind; [apply t_log|]. intros _ _. apply t_ret, I. }
  intros dt _. gos Hi Hu.
Qed.

(** *** Nodes without a visit method *)
Lemma r_repr_attr i n a : st_heap s0 !! i = Some n -> In a (map fst (default_attrs (n_cls n))) -> a ∉ flags -> a ∉ A \/ a = a_types ->
  (forall v, n_attrs n !! a = Some v -> nodes_in v = [] /\ match v with VNodes _ => False | _ => True end) ->
  ret_s (repr_attr i a) (fun _ => True).
Proof using.
  intros Hi Ha Hnf Hor Hv. unfold repr_attr. eapply t_bind; [eapply (t_getattr _ _ _ _ _ Hi Ha)|]. intros v [[H|Hs] H2]; [contradiction|].
  assert (Hok : match v with VNode _ | VNodes _ => False | _ => True end).
  { destruct Hor as [HnA| ->]; [|destruct v; exact I || discriminate Hs]. specialize (Hv v (H2 HnA)). destruct v; try exact I; [destruct Hv as [Hv _]; discriminate Hv|apply Hv]. }
  destruct v; try destruct Hok; apply t_ret, I.
Qed.
Lemma r_visit_node i n : st_heap s0 !! i = Some n -> wtyped s0 ->
  (subclass (n_cls n) CBaseReference = true -> forall y, n_attrs n !! a_target <> Some (VNode y)) ->
  ret_s (visit_node i) (fun _ => True).
Proof using Hg0 HA.
  intros Hi Hty Hb. unfold visit_node, repr_node.
  assert (Hsimple : forall a v, n_attrs n !! a = Some v -> In a [a_label; a_types; a_nonum; a_number; a_overwrite_reftext] -> nodes_in v = [] /\ match v with VNodes _ => False | _ => True end).
  { intros a v Hv Hin. destruct (Hty _ _ _ _ Hi Hv) as [[H|H] _].
    - exfalso. destruct Hin as [<-|[<-|[<-|[<-|[<-|[]]]]]]; revert H; notin.
    - destruct Hin as [<-|[<-|[<-|[<-|[<-|[]]]]]]; destruct v; try discriminate H; auto. }
  assert (Hr : forall a, In a [a_label; a_types; a_nonum; a_number] -> ret_s (repr_attr i a) (fun _ => True)).
  { intros a Hin. apply (r_repr_attr i n a Hi).
    - destruct (always (n_cls n)) as (H1 & H2 & H3 & H4 & _). destruct Hin as [<-|[<-|[<-|[<-|[]]]]]; assumption.
    - destruct Hin as [<-|[<-|[<-|[<-|[]]]]]; notin.
    - destruct Hin as [<-|[<-|[<-|[<-|[]]]]]; [left|right; reflexivity|left|left]; apply notA; notin.
    - intros v Hv. apply (Hsimple a v Hv). destruct Hin as [<-|[<-|[<-|[<-|[]]]]]; cbn; tauto. }
  eapply t_bind with (R := fun _ => True); [|intros; apply t_ret, I].
  eapply t_bind; [eapply t_cls_of, Hi|]. intros c ->. eapply t_bind; [apply (t_mapM _ _ _ _ (fun _ => True)), Hr|]. intros xs _.
  eapply t_bind; [eapply t_parent_of, Hi|]. intros p ->.
  eapply t_bind with (R := fun _ => True).
  { destruct (n_parent n) as [q|] eqn:Ep; [|apply t_ret, I]. destruct (parent_old _ Hg0 _ _ _ Hi Ep) as (m & Hm & _).
    eapply t_bind; [eapply t_cls_of, Hm|]. intros; apply t_ret, I. }
  intros ps _. eapply t_bind with (R := fun _ => True).
  { destruct (subclass (n_cls n) CBaseReference) eqn:Eb; [|apply t_ret, I]. eapply t_imp; [apply (t_mapM _ _ _ _ (fun _ => True))|auto].
    pose proof (used_base _ Eb) as Hu. intros a Hin. apply (r_repr_attr i n a Hi).
    - apply (used_in _ _ _ Hu). destruct Hin as [<-|[<-|[]]]; cbn; tauto.
    - destruct Hin as [<-|[<-|[]]]; notin.
    - left. destruct Hin as [<-|[<-|[]]]; apply notA; notin.
    - intros v Hv. destruct Hin as [<-|[<-|[]]].
      + specialize (Hb eq_refl). destruct (Hty _ _ _ _ Hi Hv) as [[H|H] _]; [exfalso; revert H; notin|]. destruct v; try discriminate H; auto.
        exfalso. eapply Hb. exact Hv.
      + apply (Hsimple _ v Hv). cbn. tauto. }
  intros ys _. cbv zeta. eapply t_bind; [eapply t_children_of, Hi|]. intros l ->. destruct (kids n) as [|k ks] eqn:Ek; [apply t_ret, I|].
  eapply t_bind; [apply (t_mapM _ _ _ _ (fun _ => True))|intros; apply t_ret, I]. intros x Hx. rewrite <- Ek in Hx.
  destruct (kid_old _ Hg0 _ _ x Hi) as [m Hm]; [apply elem_of_list_In, Hx|]. eapply t_bind; [eapply t_cls_of, Hm|]. intros; apply t_ret, I.
Qed.

(** *** All classes *)
Record visitable (i : id) (n : node) : Prop := {
  vb_math : n_cls n = CMathBlock -> exists p np, n_parent n = Some p /\ st_heap s0 !! p = Some np /\ n_cls np = CParagraph;
  vb_ref : n_cls n = CReference -> exists y, n_attrs n !! a_target = Some (VNode y);
  vb_base : In (n_cls n) [CBaseReference; CPendingReference; CPendingPrev] -> forall y, n_attrs n !! a_target <> Some (VNode y);
  vb_url : n_cls n = CURL -> exists u, n_attrs n !! a_target = Some (VStr u) /\ u <> [];
  vb_entry : subclass (n_cls n) CBibitem = true -> proper_entry (st_heap s0) i;
  vb_caption : n_cls n = CCaption -> is_Some (n_parent n)
}.
Context (Hty : wtyped s0) (Hco : complete s0) (Htp : forall t, fillable_at t).
Lemma r_visit_method hl m i n : st_heap s0 !! i = Some n -> dispatch visit_defined (n_cls n) = Some m -> visitable i n ->
  ret_s (visit_method hl f m i) (fun _ => True).
Proof using All.
  intros Hi Hd [V1 V2 V3 V4 V5 V6]. pose proof (used_visit _ _ Hd) as Hu.
  destruct m; cbn [visit_method]; try (exfalso; destruct (n_cls n); vm_compute in Hd; discriminate Hd);
    match goal with
    | |- returns _ _ (visit_manuscript _) _ => eapply r_manuscript; eassumption
    | |- returns _ _ (visit_author _) _ => eapply r_author; eassumption
    | |- returns _ _ (visit_paragraph _) _ => eapply r_paragraph; eassumption
    | |- returns _ _ (visit_section _ _) _ => eapply r_section; eassumption
    | |- returns _ _ (visit_theorem _ _) _ => eapply r_theorem; eassumption
    | |- returns _ _ (visit_sketch _) _ => eapply r_sketch; eassumption
    | |- returns _ _ (visit_proof _) _ => eapply r_proof; eassumption
    | |- returns _ _ (visit_span _) _ => eapply r_span; eassumption
    | |- returns _ _ (visit_figure _ _) _ => eapply r_figure; eassumption
    | |- returns _ _ (visit_sourcecode _ _) _ => eapply r_sourcecode; eassumption
    | |- returns _ _ (visit_node _) _ => idtac
    | |- returns _ _ (visit_mathblock _) _ => idtac
    | |- returns _ _ (visit_reference _ _) _ => idtac
    | |- returns _ _ (visit_url _ _) _ => idtac
    | |- returns _ _ (visit_cite _ _) _ => idtac
    | |- returns _ _ (visit_caption _ _) _ => idtac
    | |- returns _ _ (visit_bibitem _) _ => idtac
    | |- _ => unfold visit_abstract, visit_step, visit_contents, visit_note, visit_math, visit_code, visit_codeblock, visit_algorithm, visit_text,
      visit_error, visit_construct, visit_subproof, visit_bibliography, visit_draft; gos Hi Hu
    end.
  all: idtac.
  - apply (r_visit_node i n Hi Hty). intros Eb. apply V3. destruct (n_cls n); vm_compute in Hd, Eb; try discriminate Hd; try discriminate Eb; cbn; tauto.
  - assert (Hc : n_cls n = CMathBlock) by (destruct (n_cls n); vm_compute in Hd; try discriminate Hd; reflexivity).
    destruct (V1 Hc) as (p & np & H1 & H2 & H3). eapply r_mathblock; eassumption.
  - assert (Hc : n_cls n = CReference) by (destruct (n_cls n); vm_compute in Hd; try discriminate Hd; reflexivity).
    destruct (V2 Hc) as (y & Hy). eapply r_reference; try eassumption; [|apply Htp].
    destruct (Hty _ _ _ _ Hi Hy) as [_ H]. apply H. left.
  - assert (Hc : n_cls n = CURL) by (destruct (n_cls n); vm_compute in Hd; try discriminate Hd; reflexivity).
    destruct (V4 Hc) as (u & Hy & Hne). eapply r_url; eassumption.
  - assert (Hin : In a_targets (map fst (default_attrs (n_cls n)))) by (apply (used_in _ _ _ Hu); infd).
    destruct (Hco _ _ _ Hi Hin) as [v Hv].
    destruct (Hty _ _ _ _ Hi Hv) as [[H|H] Hl]; [exfalso; revert H; notin|]. destruct v; try discriminate H.
    eapply r_cite; try eassumption. intros y Hy. split; [apply Hl, Hy|apply Htp].
  - assert (Hc : subclass (n_cls n) CBibitem = true) by (destruct (n_cls n); vm_compute in Hd; try discriminate Hd; reflexivity).
    unfold visit_bibitem. eapply t_bind; [apply (r_bibitem_parts i n Hi Hu), V5, Hc|]. intros p _. gos Hi Hu.
  - assert (Hc : n_cls n = CCaption) by (destruct (n_cls n); vm_compute in Hd; try discriminate Hd; reflexivity).
    destruct (V6 Hc) as (p & Hp). destruct (parent_old _ Hg0 _ _ _ Hi Hp) as (np & Hnp & _). eapply r_caption; eassumption.
Qed.
End Visits.
