(** The marks written by the base translator are those of the nodes, in document order. *)
From Verif Require Export SpecMarks TrBase.
From Verif Require Import NodeOps Monad.

Lemma marks_app a b : marks (a ++ b) = marks a ++ marks b.
Proof. apply flat_map_app. Qed.
Lemma marks_nl b : marks (nl_if b) = []. Proof. destruct b; reflexivity. Qed.
(** Marks of the items of a batch, without external trees. *)
Definition mk1 (c : cmd) : list mark :=
  match c with
  | KText t | KTextDefer t _ => marks t
  | KOpenClose g ct | KOpenManual g ct => tok_marks (start_tag g) ++ marks ct
  | KOpen g => tok_marks (start_tag g)
  | _ => []
  end.
Definition cmarks (c : cmd) : list mark := match c with KBatchDefer l => flat_map mk1 l | _ => mk1 c end.
Definition defer_mute (c : cmd) : Prop := match c with KTextDefer _ d => marks d = [] | _ => True end.
Definition mute (c : cmd) : Prop := match c with KBatchDefer l => Forall defer_mute l | _ => True end.
Lemma mute_closer c : mute c -> marks (closer_toks c) = [].
Proof.
  destruct c as [t|t d|g ct|g ct|g|j|l|l]; try reflexivity.
  - intros _. unfold closer_toks. cbn [closer static_toks]. unfold close_text. rewrite !marks_app, !marks_nl. reflexivity.
  - cbn [mute]. intros H. rewrite closer_toks_batch. unfold closers. induction H as [|c l Hc Hl IH]; [reflexivity|].
    cbn [omap list_omap]. destruct c as [| | | |g| | |]; cbn [deferred_text]; try exact IH.
    + cbn [rev]. rewrite concat_app, marks_app. rewrite IH. cbn. rewrite app_nil_r. exact Hc.
    + cbn [rev]. rewrite concat_app, marks_app. rewrite IH. cbn [concat]. rewrite app_nil_r. unfold close_text. rewrite !marks_app, !marks_nl. reflexivity.
Qed.
Lemma mk1_text ext c s s' t : make_text ext c s = (s', Ok t) -> (forall j, c <> KExternal j) -> marks t = mk1 c.
Proof.
  intros H Hj. destruct c as [t0|t0 d|g ct|g ct|g|j|l|l]; cbn [make_text] in H; try discriminate H.
  1-5: apply ret_ok in H as [_ ->]; cbn [mk1]; rewrite ?marks_app, ?marks_nl, ?app_nil_r; cbn [marks flat_map]; rewrite ?app_nil_r; reflexivity.
  destruct (Hj j eq_refl).
Qed.

(** ** Reading attributes: the reference heap [h] *)
Section Reading.
Context (h : gmap id node).
Definition same (h' : gmap id node) : Prop := forall x a, a <> a_types -> aval h' x a = aval h x a.
Definition hp {X} (m : M X) (Q : X -> Prop) : Prop :=
  forall s s' a, same (st_heap s) -> m s = (s', Ok a) -> same (st_heap s') /\ Q a.
Lemma hp_ret {X} (x : X) (Q : X -> Prop) : Q x -> hp (ret x) Q.
Proof. intros HQ s s' a Hs H. apply ret_ok in H as [-> ->]. auto. Qed.
Lemma hp_raise {X} e (Q : X -> Prop) : hp (raise e) Q.
Proof. intros s s' a _ H. discriminate H. Qed.
Lemma hp_bind {X Y} (m : M X) (k : X -> M Y) (P : X -> Prop) (Q : Y -> Prop) : hp m P -> (forall x, P x -> hp (k x) Q) -> hp (bind m k) Q.
Proof.
  intros Hm Hk s s' a Hs H. apply bind_ok in H as (s1 & x & H1 & H). destruct (Hm _ _ _ Hs H1) as [Hs1 Hx]. exact (Hk x Hx _ _ _ Hs1 H).
Qed.
Lemma hp_weaken {X} (m : M X) (P Q : X -> Prop) : hp m P -> (forall x, P x -> Q x) -> hp m Q.
Proof. intros Hm Hk s s' a Hs H. destruct (Hm _ _ _ Hs H) as [Hs1 Hx]. auto. Qed.
Lemma hp_quiet {X} (m : M X) (Q : X -> Prop) : quiet m -> post m Q -> hp m Q.
Proof. intros Hq Hp s s' a Hs H. split; [|exact (Hp _ _ _ H)]. apply (quiet_heap _ _ _ _ Hq) in H as [-> _]. assumption. Qed.
Lemma post_true {X} (m : M X) : post m (fun _ => True).
Proof. intros s s' a _. exact I. Qed.
Lemma hp_skip {X Y} (m : M X) (k : X -> M Y) (Q : Y -> Prop) : quiet m -> (forall x, hp (k x) Q) -> hp (bind m k) Q.
Proof. intros Hq Hk. eapply hp_bind; [apply (hp_quiet _ (fun _ => True)); [assumption|apply post_true]|]. intros x _. apply Hk. Qed.
Lemma aval_eq s i n a v : st_heap s !! i = Some n -> n_attrs n !! a = Some v -> aval (st_heap s) i a = v.
Proof. unfold aval. intros -> ->. reflexivity. Qed.
Lemma hp_getattr i a : a <> a_types -> hp (getattr i a) (fun v => v = aval h i a).
Proof.
  intros Ha s s' v Hs H. apply getattr_ok in H as (-> & n & Hn & Hv). split; [assumption|]. rewrite <- (Hs i a Ha). symmetry. eapply aval_eq; eassumption.
Qed.
Lemma hp_get_str i a : a <> a_types -> hp (get_str i a) (fun x => aval h i a = VStr x).
Proof.
  intros Ha s s' v Hs H. apply get_str_ok in H as (-> & n & Hn & Hv). split; [assumption|]. rewrite <- (Hs i a Ha). eapply aval_eq; eassumption.
Qed.
Lemma hp_get_strs i a : a <> a_types -> hp (get_strs i a) (fun x => aval h i a = VStrs x).
Proof.
  intros Ha s s' v Hs H. apply get_strs_ok in H as (-> & n & Hn & Hv). split; [assumption|]. rewrite <- (Hs i a Ha). eapply aval_eq; eassumption.
Qed.
Lemma hp_label_text i : hp (label_text i) (fun x => x = anchor h i).
Proof. unfold label_text. eapply hp_bind; [apply hp_getattr; discriminate|]. intros v ->. apply hp_ret. reflexivity. Qed.
Lemma hp_setattr i v : hp (setattr i a_types v) (fun _ => True).
Proof.
  intros s s' u Hs H. apply setattr_ok in H as (n & Hn & ->). split; [|exact I]. intros x a Ha. rewrite <- Hs by assumption.
  unfold aval. rewrite upd_lookup. destruct (decide (i = x)) as [<-|]; [|reflexivity]. rewrite Hn. cbn. rewrite lookup_insert_ne by congruence. reflexivity.
Qed.
Lemma hp_node_tag_full i t add b1 b2 b3 : hp (node_tag_full i t add b1 b2 b3)
  (fun k => exists cl d, k = KOpen (MkTag (lit t) (str_or_empty (aval h i a_label)) cl b1 b2 b3 d)).
Proof.
  unfold node_tag_full. apply hp_skip; [apply q_cls_of|]. intros c. apply hp_skip; [apply q_get_strs|]. intros types.
  eapply hp_bind; [apply hp_getattr; discriminate|]. intros l ->. eapply hp_bind; [apply hp_getattr; discriminate|]. intros nd ->.
  apply hp_ret. eauto.
Qed.
Lemma hp_mapM {X Y} (f : X -> M Y) (P : X -> Y -> Prop) l : (forall x, hp (f x) (P x)) -> hp (mapM f l) (Forall2 P l).
Proof.
  intros H. induction l as [|x l IH]; cbn [mapM]; [apply hp_ret; constructor|].
  eapply hp_bind; [apply H|]. intros y Hy. eapply hp_bind; [apply IH|]. intros ys Hys. apply hp_ret. constructor; assumption.
Qed.
End Reading.
Ltac hpnt := eapply hp_bind; [apply hp_node_tag_full|intros ? (? & ? & ->)].
Ltac hpnt0 := eapply hp_weaken; [apply hp_node_tag_full|intros ? (? & ? & ->)].
Ltac hps :=
  lazymatch goal with
  | |- hp _ (ret _) _ => apply hp_ret
  | |- hp _ (raise _) _ => apply hp_raise
  | |- hp _ (bind (getattr _ a_types) _) _ => apply hp_skip; [apply q_getattr|intros ?]
  | |- hp _ (bind (getattr _ _) _) _ => eapply hp_bind; [apply hp_getattr; discriminate|intros ? ->]
  | |- hp _ (bind (get_str _ _) _) _ => eapply hp_bind; [apply hp_get_str; discriminate|intros ? ?]
  | |- hp _ (bind (get_strs _ a_types) _) _ => apply hp_skip; [apply q_get_strs|intros ?]
  | |- hp _ (bind (get_strs _ _) _) _ => eapply hp_bind; [apply hp_get_strs; discriminate|intros ? ?]
  | |- hp _ (bind (label_text _) _) _ => eapply hp_bind; [apply hp_label_text|intros ? ->]
  | |- hp _ (bind (setattr _ a_types _) _) _ => eapply hp_bind; [apply hp_setattr|intros ? _]
  | |- hp _ (bind (node_tag_full _ _ _ _ _ _) _) _ => hpnt
  | |- hp _ (bind (node_tag _ _) _) _ => hpnt
  | |- hp _ (bind (node_tag_inline _ _) _) _ => hpnt
  | |- hp _ (node_tag_full _ _ _ _ _ _) _ => hpnt0
  | |- hp _ (node_tag _ _) _ => hpnt0
  | |- hp _ (node_tag_inline _ _) _ => hpnt0
  | |- hp _ (bind _ _) _ => apply hp_skip; [qs|intros ?]
  | |- hp _ (match ?x with _ => _ end) _ => destruct x
  | |- hp _ (if ?x then _ else _) _ => destruct x
  end.

(** ** Visit methods *)
Lemma start_marks tag id_ cl a b c d : tok_marks (start_tag (MkTag tag id_ cl a b c d)) = id_mark id_.
Proof. unfold start_tag, make_tag, tok_marks. cbn [tg_tag tg_id tg_classes tg_inner tg_outer tg_sel tg_nodeid]. destruct id_, cl, c, d; reflexivity. Qed.
Lemma mk_open tag id_ cl a b c d : mk1 (KOpen (MkTag tag id_ cl a b c d)) = id_mark id_.
Proof. apply start_marks. Qed.
Lemma mk_openclose tag cl a b ct : mk1 (open_close tag cl a b ct) = marks ct.
Proof. unfold open_close. cbn [mk1]. rewrite start_marks. reflexivity. Qed.
Lemma mk_manual tag cl a b : mk1 (open_manual tag cl a b) = [].
Proof. unfold open_manual. cbn [mk1]. rewrite start_marks. reflexivity. Qed.
Lemma mk_open0 tag cl a b : mk1 (open_tag tag cl a b) = [].
Proof. apply mk_open. Qed.
Lemma mk_par cl ct : mk1 (par cl ct) = marks ct.
Proof. apply mk_openclose. Qed.
Lemma mk_heading l s : mk1 (heading l [TRaw s]) = [].
Proof. unfold heading. cbn [mk1]. rewrite start_marks. reflexivity. Qed.
Ltac mks := cbn [cmarks flat_map app]; rewrite ?mk_open, ?mk_openclose, ?mk_manual, ?mk_open0, ?mk_par, ?mk_heading; cbn [app mk1]; rewrite ?app_nil_r; try reflexivity.
Ltac mutes := cbn [mute]; repeat (first [apply list.Forall_nil_2|apply list.Forall_cons_2]); cbn [defer_mute]; try exact I; try reflexivity.
Definition says (L : list mark) (c : cmd) : Prop := cmarks c = L /\ mute c.
Ltac sy := split; [mks|mutes].

Section Visits.
Context (h : gmap id node).
Notation L i := (own_id h i).
Lemma m_node i : hp h (visit_node i) (says []).
Proof. unfold visit_node. repeat hps. sy. Qed.
Lemma m_manuscript i : hp h (visit_manuscript i) (says (L i)).
Proof. unfold visit_manuscript. repeat hps. destruct (truthy _); sy. Qed.
Lemma m_author i : hp h (visit_author i) (says (L i ++ (if truthy (aval h i a_email) then [MHref (lit "mailto:" ++ fmt_val (aval h i a_email))] else []))).
Proof.
  unfold visit_author. cbv zeta. do 4 hps. destruct (truthy (aval h i a_name)), (truthy (aval h i a_affiliation)), (truthy (aval h i a_email)); cbn [orb]; hps; sy.
Qed.
Lemma m_abstract i : hp h (visit_abstract i) (says (L i)).
Proof. unfold visit_abstract. repeat hps. sy. Qed.
Lemma m_paragraph i : hp h (visit_paragraph i) (says (L i)).
Proof. unfold visit_paragraph. do 4 hps. destruct x, (truthy _); sy. Qed.
Lemma m_section f i : hp h (visit_section f i) (says (L i)).
Proof. unfold visit_section. hps. destruct (level x); [|apply hp_raise]. repeat hps. sy. Qed.
Lemma m_contents i : hp h (visit_contents i) (says (L i)).
Proof. unfold visit_contents. repeat hps. sy. Qed.
Lemma m_note f i : hp h (visit_note f i) (says (L i)).
Proof. unfold visit_note. repeat hps. sy. Qed.
Lemma m_math i : hp h (visit_math i) (says (L i)).
Proof. unfold visit_math. repeat hps. sy. Qed.
Lemma m_mathblock i : hp h (visit_mathblock i) (says (L i)).
Proof. unfold visit_mathblock. do 2 hps. destruct (negb _); [apply hp_raise|]. repeat hps. sy. Qed.
Lemma m_sourcecode hl i : hp h (visit_sourcecode hl i) (says [MText i (if truthy (aval h i a_lang) then hl (text_of h i) (fmt_val (aval h i a_lang)) else text_of h i)]).
Proof. unfold visit_sourcecode. repeat hps. unfold text_of. rewrite H. sy. Qed.
Lemma m_codeblock i : hp h (visit_codeblock i) (says (L i)).
Proof. unfold visit_codeblock. repeat hps. sy. Qed.
Lemma m_algorithm i : hp h (visit_algorithm i) (says (L i)).
Proof. unfold visit_algorithm. repeat hps. sy. Qed.
Lemma m_text i : hp h (visit_text i) (says [MText i (text_of h i)]).
Proof. unfold visit_text. repeat hps. unfold text_of. rewrite H. sy. Qed.
Lemma m_error i : hp h (visit_error i) (says (L i ++ [MText i (text_of h i)])).
Proof. unfold visit_error. repeat hps. unfold text_of. rewrite H. sy. Qed.
Lemma m_span i : hp h (visit_span i) (says (L i)).
Proof.
  unfold visit_span. hps. eapply hp_bind; [apply hp_quiet; [qs|apply span_cmds]|]. intros cmds H. apply hp_ret. unfold span_tags in H.
  repeat match goal with H : Forall2 _ (_ :: _) _ |- _ => inversion H; clear H; subst end.
  match goal with H : Forall2 _ [] _ |- _ => inversion H; subst; clear H end.
  repeat match goal with H : _ = [] \/ _ |- _ => destruct H as [-> | ->] end; cbn [concat app]; sy.
Qed.
Lemma marks_ahref x cl hr t : hr <> [] -> marks [make_tag (lit "a") x cl false None [(lit "href", hr)]; TRaw t; ctag "a"] = id_mark x ++ [MHref hr].
Proof. intros Hh. destruct hr as [|h0 hr]; [congruence|]. destruct x, cl; reflexivity. Qed.
Lemma m_ahref f i t hr x l : hr <> [] -> hp h (make_ahref f i t hr x l) (fun ts => marks ts = id_mark x ++ [MHref hr]).
Proof.
  intros Hh. unfold make_ahref. cbv zeta. repeat hps; apply marks_ahref; assumption.
Qed.
Lemma m_reference f i : hp h (visit_reference f i) (says (match aval h i a_target with VNode t => [link h t] | _ => [] end)).
Proof.
  unfold visit_reference. hps. destruct (aval h i a_target); try apply hp_raise. hps.
  eapply hp_bind; [apply m_ahref; discriminate|]. intros y Hy. apply hp_ret. split; [exact Hy|exact I].
Qed.
Lemma m_url f i : hp h (visit_url f i) (says (match aval h i a_target with VStr t => [MHref t] | _ => [] end)).
Proof.
  unfold visit_url. hps. destruct (aval h i a_target) as [| | | | |s| | |]; try apply hp_raise.
  destruct s as [|c s]. { unfold make_ahref. intros s0 s1 a _ H. apply bind_ok in H as (? & ? & H & _). apply bind_ok in H as (? & ? & _ & H). apply bind_ok in H as (? & ? & H & _). discriminate H. }
  eapply hp_bind; [apply m_ahref; discriminate|]. intros y Hy. apply hp_ret. split; [exact Hy|exact I].
Qed.
Lemma m_cite_tags f i l ts : forall k, hp h (cite_tags f i l ts k) (fun xs => flat_map marks xs = cite_marks h l ts k).
Proof.
  induction ts as [|t ts IH]; intros k; cbn [cite_tags]; [apply hp_ret; reflexivity|]. hps.
  eapply hp_bind; [apply m_ahref; discriminate|]. intros y Hy. eapply hp_bind; [apply IH|]. intros ys Hys. apply hp_ret. cbn [flat_map cite_marks].
  rewrite Hy, Hys. destruct (l ++ lit "-" ++ str_of_nat k) as [|c0 r] eqn:E; [|reflexivity]. destruct l; discriminate E.
Qed.
Lemma marks_join sep xs : marks sep = [] -> marks (tok_join sep xs) = flat_map marks xs.
Proof.
  intros Hs. induction xs as [|x xs IH]; [reflexivity|]. cbn [tok_join flat_map]. destruct xs as [|y ys]; [cbn; rewrite app_nil_r; reflexivity|].
  rewrite !marks_app, Hs, IH. reflexivity.
Qed.
Lemma m_cite f i : hp h (visit_cite f i) (says (match aval h i a_targets with
          | VNodes [t] => own_id h i ++ [link h t]
          | VNodes ts => MId (anchor h i) :: cite_marks h (anchor h i) ts 0
          | _ => [] end)).
Proof.
  assert (G : forall ts, hp h (let! label := label_text i in let! xs := cite_tags f i label ts 0 in
    ret (KText ([raw "["; TOpen (lit "span") [AQ (lit "id") label]] ++ tok_join [raw ", "] xs ++ [ctag "span"; raw "]"])))
    (says (MId (anchor h i) :: cite_marks h (anchor h i) ts 0))).
  { intros ts. hps. eapply hp_bind; [apply m_cite_tags|]. intros xs Hxs. apply hp_ret. split; [|exact I]. cbn [cmarks mk1]. rewrite !marks_app, marks_join by reflexivity.
    rewrite Hxs. change (marks [ctag "span"; raw "]"]) with (@nil mark). rewrite app_nil_r. reflexivity. }
  unfold visit_cite. hps. destruct (aval h i a_targets) as [| | | | | | |ts|]; try apply hp_raise. destruct ts as [|t [|t2 ts]]; [apply G| |apply G].
  do 3 hps. eapply hp_bind; [apply m_ahref; discriminate|]. intros y Hy. apply hp_ret. split; [|exact I].
  cbn [cmarks mk1]. rewrite !marks_app, Hy. change (marks [raw "]"]) with (@nil mark). rewrite app_nil_r. reflexivity.
Qed.
Lemma m_bibliography i : hp h (visit_bibliography i) (says (L i)).
Proof. unfold visit_bibliography. repeat hps. sy. Qed.
Lemma m_backlinks ls : forall n, flat_map marks (backlink_tags ls n) = map (fun l => MHref (lit "#" ++ l)) ls.
Proof. induction ls as [|l ls IH]; intros n; [reflexivity|]. cbn [backlink_tags flat_map map]. rewrite IH. reflexivity. Qed.
Lemma m_bibitem_parts i : hp h (bibitem_parts i) (fun p => marks p.1.1 = [] /\
   marks p.1.2 = (if truthy (aval h i a_doi) then [MId (anchor h i ++ lit "-doi"); MHref (lit "https://doi.org/" ++ fmt_val (aval h i a_doi))] else []) /\
   marks p.2 = match aval h i a_backlinks with VStrs ls => map (fun l => MHref (lit "#" ++ l)) ls | _ => [] end).
Proof.
  unfold bibitem_parts. cbv zeta. do 6 hps. hps. hps. apply hp_skip; [qs|]. intros parts. hps.
  apply (hp_bind h _ _ (fun dt => marks dt = (if truthy (aval h i a_doi) then [MId (anchor h i ++ lit "-doi"); MHref (lit "https://doi.org/" ++ fmt_val (aval h i a_doi))] else []))).
  - destruct (truthy (aval h i a_doi)); [|hps; apply hp_ret; reflexivity]. apply hp_ret.
    destruct (anchor h i ++ lit "-doi") eqn:E; [destruct (anchor h i); discriminate E|]. reflexivity.
  - intros dt Hdt. hps. apply hp_ret. cbn [fst snd]. split; [reflexivity|]. split; [assumption|]. cbv beta in *; match goal with H : aval _ _ _ = VStrs ?l |- _ => rewrite H; destruct l as [|b bs]; [reflexivity|] end.
    rewrite !marks_app, marks_join, m_backlinks by reflexivity. change (marks [raw "]"]) with (@nil mark). rewrite app_nil_r. reflexivity.
Qed.
Lemma m_bibitem i : hp h (visit_bibitem i) (says (L i
          ++ (if truthy (aval h i a_doi)
              then [MId (anchor h i ++ lit "-doi"); MHref (lit "https://doi.org/" ++ fmt_val (aval h i a_doi))] else [])
          ++ match aval h i a_backlinks with VStrs ls => map (fun l => MHref (lit "#" ++ l)) ls | _ => [] end)).
Proof.
  unfold visit_bibitem. eapply hp_bind; [apply m_bibitem_parts|]. intros [[text dt] back] (H1 & H2 & H3). cbn [fst snd] in *. hps. apply hp_ret. split; [|mutes].
  cbn [cmarks flat_map]. rewrite mk_open. cbn [mk1]. rewrite app_nil_r. f_equal. unfold bibitem_text. rewrite !marks_app, H1, H3.
  cbn [app]. f_equal. rewrite <- H2. destruct dt; reflexivity.
Qed.
Lemma m_draft i : hp h (visit_draft i) (says (L i)).
Proof. unfold visit_draft. repeat hps. sy. Qed.
Lemma m_figure f i : hp h (visit_figure f i) (says (L i ++ L i)).
Proof.
  unfold visit_figure. repeat hps. split; [|mutes]. cbn [cmarks flat_map]. rewrite mk_open. cbn [mk1]. rewrite app_nil_r. unfold own_id. f_equal.
  unfold make_tag. cbn [marks flat_map tok_marks]. rewrite app_nil_r, !flat_map_app. cbn [flat_map fst snd].
  replace (flat_map attrib_marks match str_or_empty (aval h i a_label) with [] => [] | _ :: _ => _ end) with (id_mark (str_or_empty (aval h i a_label))) by (destruct (str_or_empty _); reflexivity).
  match goal with |- _ ++ ?r = _ => replace r with (@nil mark); [apply app_nil_r|] end.
  destruct (str_or_empty (aval h i a_path)), (cls_name _ ++ _), (if is_one _ then _ else _); reflexivity.
Qed.
Lemma m_caption f i : hp h (visit_caption f i) (says []).
Proof. unfold visit_caption. hps. destruct x; [|apply hp_raise]. repeat hps. sy. Qed.
End Visits.

(** *** The methods with a title *)
Lemma tfr_aval A s s' i a : good s -> tfr A s s' -> old s i -> a ∉ A -> aval (st_heap s') i a = aval (st_heap s) i a.
Proof.
  intros Hg Hf [n Hn] Ha. destruct (Hf Hg) as (_ & _ & _ & F). destruct (F _ _ Hn) as (m & Hm & _ & _ & _ & E). unfold aval. rewrite Hn, Hm, E by assumption. reflexivity.
Qed.
Lemma node_tag_says i t add b1 b2 b3 s s' k : node_tag_full i t add b1 b2 b3 s = (s', Ok k) ->
  exists cl d, k = KOpen (MkTag (lit t) (str_or_empty (aval (st_heap s') i a_label)) cl b1 b2 b3 d).
Proof.
  intros H. pose proof (quiet_heap _ _ _ _ (q_node_tag_full _ _ _ _ _ _) H) as [E _]. rewrite E.
  exact (proj2 (hp_node_tag_full (st_heap s) _ _ _ _ _ _ _ _ _ (fun _ _ _ => eq_refl) H)).
Qed.
Lemma title_says s sv c i t0 : good s -> tfr [a_types] s sv -> old s i ->
  (exists s6 nt t add b1 b2 b3, node_tag_full i t add b1 b2 b3 s6 = (sv, Ok nt) /\ c = KBatchDefer [nt; KExternal t0]) -> says (own_id (st_heap s) i) c.
Proof.
  intros Hg Hf Ho (s6 & nt & t & add & b1 & b2 & b3 & H & ->). apply node_tag_says in H as (cl & d & ->).
  rewrite (tfr_aval _ _ _ _ _ Hg Hf Ho) by set_solver. sy.
Qed.
Lemma m_theorem f i s sv c : good s -> old s i -> visit_theorem f i s = (sv, Ok c) -> says (own_id (st_heap s) i) c.
Proof.
  intros Hg Ho H. pose proof (tp_visit_theorem [a_types] f i _ _ _ H) as Hf. unfold visit_theorem in H.
  do 6 (apply bind_ok in H as (? & ? & _ & H)). apply bind_ok in H as (s7 & nt & Hn & H). apply ret_ok in H as [-> ->].
  eapply (title_says s s7); eauto 12.
Qed.
Lemma m_sketch i s sv c : good s -> old s i -> visit_sketch i s = (sv, Ok c) -> says (own_id (st_heap s) i) c.
Proof.
  intros Hg Ho H. pose proof (tp_visit_sketch [a_types] i _ _ _ H) as Hf. unfold visit_sketch in H.
  do 1 (apply bind_ok in H as (? & ? & _ & H)). apply bind_ok in H as (s7 & nt & Hn & H). apply ret_ok in H as [-> ->].
  eapply (title_says s s7); eauto 12.
Qed.
Lemma m_proof i s sv c : good s -> old s i -> visit_proof i s = (sv, Ok c) -> says (own_id (st_heap s) i) c.
Proof.
  intros Hg Ho H. pose proof (tp_visit_proof [a_types] ltac:(set_solver) i _ _ _ H) as Hf. unfold visit_proof in H.
  do 4 (apply bind_ok in H as (? & ? & _ & H)). apply bind_ok in H as (s7 & nt & Hn & H). apply ret_ok in H as [-> ->].
  eapply (title_says s s7); eauto 12.
Qed.

Lemma hp_run h {X} (m : M X) (Q : X -> Prop) s s' a : hp h m Q -> st_heap s = h -> m s = (s', Ok a) -> Q a.
Proof. intros H E R. refine (proj2 (H _ _ _ _ R)). subst h. intros x b _. reflexivity. Qed.
Lemma visit_says hl f m i s sv c ni : good s -> st_heap s !! i = Some ni -> dispatch visit_defined (n_cls ni) = Some m ->
  visit_method hl f m i s = (sv, Ok c) -> says (node_marks hl (st_heap s) i) c.
Proof.
  intros Hg Hi Hm H. unfold node_marks. rewrite Hi, Hm. assert (Ho : old s i) by (exists ni; assumption).
  unfold dispatch in Hm. apply find_some in Hm as [_ Hm]. clear Hi.
  destruct m; try discriminate Hm; clear Hm; cbn [visit_method] in H;
  lazymatch type of H with
  | visit_node _ _ = _ => exact (hp_run _ _ _ _ _ _ (m_node _ i) eq_refl H)
  | visit_manuscript _ _ = _ => exact (hp_run _ _ _ _ _ _ (m_manuscript _ i) eq_refl H)
  | visit_author _ _ = _ => exact (hp_run _ _ _ _ _ _ (m_author _ i) eq_refl H)
  | visit_abstract _ _ = _ => exact (hp_run _ _ _ _ _ _ (m_abstract _ i) eq_refl H)
  | visit_paragraph _ _ = _ => exact (hp_run _ _ _ _ _ _ (m_paragraph _ i) eq_refl H)
  | visit_section _ _ _ = _ => exact (hp_run _ _ _ _ _ _ (m_section _ _ i) eq_refl H)
  | visit_contents _ _ = _ => exact (hp_run _ _ _ _ _ _ (m_contents _ i) eq_refl H)
  | visit_note _ _ _ = _ => exact (hp_run _ _ _ _ _ _ (m_note _ _ i) eq_refl H)
  | visit_math _ _ = _ => exact (hp_run _ _ _ _ _ _ (m_math _ i) eq_refl H)
  | visit_mathblock _ _ = _ => exact (hp_run _ _ _ _ _ _ (m_mathblock _ i) eq_refl H)
  | visit_sourcecode _ _ _ = _ => exact (hp_run _ _ _ _ _ _ (m_sourcecode _ _ i) eq_refl H)
  | visit_codeblock _ _ = _ => exact (hp_run _ _ _ _ _ _ (m_codeblock _ i) eq_refl H)
  | visit_algorithm _ _ = _ => exact (hp_run _ _ _ _ _ _ (m_algorithm _ i) eq_refl H)
  | visit_text _ _ = _ => exact (hp_run _ _ _ _ _ _ (m_text _ i) eq_refl H)
  | visit_error _ _ = _ => exact (hp_run _ _ _ _ _ _ (m_error _ i) eq_refl H)
  | visit_span _ _ = _ => exact (hp_run _ _ _ _ _ _ (m_span _ i) eq_refl H)
  | visit_reference _ _ _ = _ => exact (hp_run _ _ _ _ _ _ (m_reference _ _ i) eq_refl H)
  | visit_url _ _ _ = _ => exact (hp_run _ _ _ _ _ _ (m_url _ _ i) eq_refl H)
  | visit_cite _ _ _ = _ => exact (hp_run _ _ _ _ _ _ (m_cite _ _ i) eq_refl H)
  | visit_bibliography _ _ = _ => exact (hp_run _ _ _ _ _ _ (m_bibliography _ i) eq_refl H)
  | visit_bibitem _ _ = _ => exact (hp_run _ _ _ _ _ _ (m_bibitem _ i) eq_refl H)
  | visit_draft _ _ = _ => exact (hp_run _ _ _ _ _ _ (m_draft _ i) eq_refl H)
  | visit_figure _ _ _ = _ => exact (hp_run _ _ _ _ _ _ (m_figure _ _ i) eq_refl H)
  | visit_caption _ _ _ = _ => exact (hp_run _ _ _ _ _ _ (m_caption _ _ i) eq_refl H)
  | visit_theorem _ _ _ = _ => exact (m_theorem _ _ _ _ _ Hg Ho H)
  | visit_sketch _ _ = _ => exact (m_sketch _ _ _ _ Hg Ho H)
  | visit_proof _ _ = _ => exact (m_proof _ _ _ _ Hg Ho H)
  | ret _ _ = _ => apply ret_ok in H as [_ ->]; sy
  | _ => revert H; apply (hp_run (st_heap s) _ (says (own_id (st_heap s) i))); [|reflexivity];
     unfold visit_step, visit_code, visit_construct, visit_subproof; repeat hps; sy
  end.
Qed.

(** ** Leave methods write no marks *)
Lemma marks_insert k x l : marks (static_toks x) = [] -> marks (flat_map static_toks (insert_nth k x l)) = marks (flat_map static_toks l).
Proof.
  intros H. unfold insert_nth. rewrite flat_map_app. cbn [flat_map]. rewrite !marks_app, H. cbn [app]. rewrite <- marks_app, <- flat_map_app, take_drop. reflexivity.
Qed.
Lemma marks_insert_last x l : marks (static_toks x) = [] -> marks (flat_map static_toks (insert_before_last x l)) = marks (flat_map static_toks l).
Proof.
  intros H. unfold insert_before_last. destruct (rev l) as [|y r] eqn:E.
  - apply (f_equal (@rev _)) in E. rewrite rev_involutive in E. subst l. cbn. rewrite app_nil_r. apply H.
  - apply (f_equal (@rev _)) in E. rewrite rev_involutive in E. subst l. cbn [rev]. rewrite !flat_map_app. cbn [flat_map].
    rewrite !marks_app, H. reflexivity.
Qed.
Lemma leave_marks m i d s s' k u : static d = true -> leave_method m i (MkT [] [d]) s = (s', Ok (k, u)) -> marks (static_toks k) = marks (static_toks d).
Proof.
  intros Hst H. destruct m; cbn [leave_method] in H;
  lazymatch type of H with
  | leave_node _ _ = _ => apply leave_node_inv in H as (_ & -> & _); reflexivity
  | _ => idtac
  end.
  - unfold leave_abstract in H. apply bind_ok in H as (? & kw & _ & H). apply bind_ok in H as (? & ms & _ & H). apply bind_ok in H as (? & [d' u'] & H1 & H).
    apply leave_node_inv in H1 as (-> & -> & ->). apply ret_ok in H as [-> H]. injection H as -> ->. cbn [fst static_toks].
    rewrite !flat_map_app, !marks_app. cbn [flat_map]. rewrite app_nil_r. destruct kw, ms; reflexivity.
  - unfold leave_paragraph in H. apply bind_ok in H as (? & [d' u'] & H1 & H). apply leave_node_inv in H1 as (-> & -> & ->).
    apply bind_ok in H as (? & b & _ & H). destruct b.
    + apply bind_ok in H as (? & l & Hl & H). apply items_of_inv in Hl as [-> [E|E]]; cbn in E; subst d; [|discriminate Hst].
      apply ret_ok in H as [-> H]. injection H as -> ->. reflexivity.
    + apply ret_ok in H as [-> H]. injection H as -> ->. reflexivity.
  - unfold leave_mathblock in H. apply bind_ok in H as (? & [d' u'] & H1 & H). apply leave_node_inv in H1 as (-> & -> & ->).
    apply bind_ok in H as (? & p & _ & H). apply bind_ok in H as (? & b & _ & H). destruct b; cbn [negb] in H.
    2:{ apply ret_ok in H as [-> H]. injection H as -> ->. reflexivity. }
    apply bind_ok in H as (? & nx & _ & H). destruct nx, p; try discriminate H.
    2,3: apply ret_ok in H as [-> H]; injection H as -> ->; reflexivity.
    apply bind_ok in H as (? & ? & _ & H). apply bind_ok in H as (? & l & Hl & H). apply items_of_inv in Hl as [-> [E|E]]; cbn in E; subst d; [|discriminate Hst].
    apply ret_ok in H as [-> H]. injection H as -> ->. cbn [static_toks]. rewrite flat_map_app, marks_app. apply app_nil_r.
  - unfold leave_proof in H. apply bind_ok in H as (s1 & [d' u'] & H1 & H). apply leave_node_inv in H1 as (-> & -> & ->).
    apply bind_ok in H as (s2 & l & Hl & H). apply items_of_inv in Hl as [-> [E|E]]; cbn in E; subst d; [|discriminate Hst].
    apply ret_ok in H as [-> H]. injection H as -> ->. cbn [static_toks]. apply marks_insert_last. reflexivity.
Qed.
