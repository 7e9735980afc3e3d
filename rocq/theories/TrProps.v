(** Proofs of the properties of the HTML. *)
From Verif Require Export SpecTranslate TrOut TrHand TrErr.
From Verif Require Import NodeOps Monad.

Lemma aval_value h x a : aval h x a = match value h x a with Some v => v | None => VNone end.
Proof. unfold aval, value. destruct (h !! x) as [n|]; [|reflexivity]. destruct (n_attrs n !! a); reflexivity. Qed.
Lemma tb_good s t : translatable s t -> good s.
Proof. intros [[H1 H2 _] _ _ _ _]. split; assumption. Qed.
Lemma dispatch_visit_ref c : dispatch visit_defined c = Some CReference -> c = CReference.
Proof. destruct c; intros H; try discriminate H; reflexivity. Qed.
Lemma dispatch_visit_cite c : dispatch visit_defined c = Some CCite -> c = CCite.
Proof. destruct c; intros H; try discriminate H; reflexivity. Qed.
Lemma tb_aimed s t : translatable s t -> aimed s t.
Proof.
  intros H x Hx. destruct (tb_manuscript _ _ H) as [_ _ [Ht _]]. split.
  - apply (tree_at_in _ _ _ _ Ht) in Hx as [n Hn]. exists n. assumption.
  - intros y (n & Hn & [[E1 E2]|(E1 & ys & E2 & Hy)]); rewrite aval_value in E2; destruct (value (st_heap s) x _) eqn:Ev; try discriminate E2; subst v.
    + apply dispatch_visit_ref in E1. eapply (tb_ref _ _ H x); [exists n; auto|assumption].
    + apply dispatch_visit_cite in E1. eapply (tb_cite _ _ H x); [exists n; auto|eassumption|assumption].
Qed.

Definition mtext (m : mark) : option (id * str) := match m with MText i s => Some (i, s) | _ => None end.
Definition mid (m : mark) : option str := match m with MId s => Some s | _ => None end.
Definition mhref (m : mark) : option str := match m with MHref s => Some s | _ => None end.
Lemma values_app k a b : values_of k (a ++ b) = values_of k a ++ values_of k b.
Proof. apply omap_app. Qed.
Lemma attrib_none l : omap mtext (flat_map attrib_marks l) = [].
Proof. induction l as [|a l IH]; [reflexivity|]. cbn [flat_map]. rewrite omap_app, IH, app_nil_r. destruct a as [k v|k v]; cbn [attrib_marks]; repeat destruct (str_eqb _ _); reflexivity. Qed.
Lemma shown_marks h : shown h = omap mtext (marks h).
Proof.
  unfold shown, marks. induction h as [|t h IH]; [reflexivity|]. cbn [flat_map]. rewrite omap_app, <- IH.
  destruct t as [tag ats|tag|tag ats|s|i s]; cbn [tok_marks]; rewrite ?attrib_none; reflexivity.
Qed.
Lemma attrib_ids l : omap mid (flat_map attrib_marks l) = values_of (lit "id") l.
Proof.
  induction l as [|a l IH]; [reflexivity|]. cbn [flat_map]. change (values_of (lit "id") (a :: l)) with (values_of (lit "id") ([a] ++ l)).
  rewrite omap_app, IH, values_app. f_equal. destruct a as [k v|k v]; cbn [attrib_marks values_of omap list_omap];
  destruct (str_eqb (lit "id") k); try reflexivity; destruct (str_eqb (lit "href") k); reflexivity.
Qed.
Lemma attrib_hrefs l : omap mhref (flat_map attrib_marks l) = values_of (lit "href") l.
Proof.
  induction l as [|a l IH]; [reflexivity|]. cbn [flat_map]. change (values_of (lit "href") (a :: l)) with (values_of (lit "href") ([a] ++ l)).
  rewrite omap_app, IH, values_app. f_equal. destruct a as [k v|k v]; cbn [attrib_marks values_of omap list_omap];
  destruct (str_eqb_spec (lit "id") k) as [<-|]; try reflexivity; destruct (str_eqb (lit "href") k); reflexivity.
Qed.
Lemma ids_marks h : ids h = omap mid (marks h).
Proof.
  unfold ids, all_attribs, marks. induction h as [|t h IH]; [reflexivity|]. cbn [flat_map]. rewrite omap_app, <- IH, values_app. f_equal.
  destruct t as [tag ats|tag|tag ats|s|i s]; cbn [tok_marks]; rewrite ?attrib_ids; reflexivity.
Qed.
Lemma hrefs_marks h : hrefs h = omap mhref (marks h).
Proof.
  unfold hrefs, all_attribs, marks. induction h as [|t h IH]; [reflexivity|]. cbn [flat_map]. rewrite omap_app, <- IH, values_app. f_equal.
  destruct t as [tag ats|tag|tag ats|s|i s]; cbn [tok_marks]; rewrite ?attrib_hrefs; reflexivity.
Qed.
Lemma keep_ids ob l : omap mid (keep ob l) = omap mid l.
Proof. induction l as [|m l IH]; [reflexivity|]. unfold keep in *. cbn. destruct m; cbn; [destruct (ob i); cbn; exact IH|rewrite IH; reflexivity|exact IH]. Qed.
Lemma keep_hrefs ob l : omap mhref (keep ob l) = omap mhref l.
Proof. induction l as [|m l IH]; [reflexivity|]. unfold keep in *. cbn. destruct m; cbn; [destruct (ob i); cbn; exact IH|exact IH|rewrite IH; reflexivity]. Qed.
Lemma keep_text ob l : omap mtext (keep ob l) = List.filter (fun p => ob p.1) (omap mtext l).
Proof. induction l as [|m l IH]; [reflexivity|]. unfold keep in *. cbn. destruct m; cbn; [|exact IH..]. destruct (ob i); cbn; rewrite IH; reflexivity. Qed.
Lemma omap_flat {X} (g : mark -> option X) k (l : list id) : omap g (flat_map k l) = flat_map (fun x => omap g (k x)) l.
Proof. induction l as [|x l IH]; [reflexivity|]. cbn [flat_map]. rewrite omap_app, IH. reflexivity. Qed.

Lemma last_dash (a b d e : str) : a ++ 45%N :: d = b ++ 45%N :: e -> 45%N ∉ d -> 45%N ∉ e -> a = b /\ d = e.
Proof.
  revert b. induction a as [|x a IH]; intros b H Hd He; destruct b as [|y b]; cbn in H.
  - injection H as ->. auto.
  - injection H as <- ->. exfalso. apply Hd. apply elem_of_app. right. constructor.
  - injection H as -> <-. exfalso. apply He. apply elem_of_app. right. constructor.
  - injection H as -> H. destruct (IH _ H Hd He) as [-> ->]. auto.
Qed.
Lemma uint_digits u c : c ∈ uint_str u -> (48 <= c <= 57)%N.
Proof. induction u; cbn; intros H; try (inversion H; fail); apply elem_of_cons in H as [->|H]; try lia; auto. Qed.
Lemma nat_digits k c : c ∈ str_of_nat k -> (48 <= c <= 57)%N.
Proof. apply uint_digits. Qed.
Lemma no_dash k : 45%N ∉ str_of_nat k.
Proof. intros H. apply nat_digits in H. lia. Qed.
Lemma cite_id_inj l l' k k' : cite_id l k = cite_id l' k' -> l = l' /\ k = k'.
Proof.
  unfold cite_id. intros H. change (lit "-") with [45%N] in H. cbn [app] in H.
  apply last_dash in H as [-> H]; [|apply no_dash..]. apply str_of_nat_inj in H as ->. auto.
Qed.
Lemma doi_id_inj l l' : doi_id l = doi_id l' -> l = l'.
Proof. apply app_inv_tail. Qed.
Lemma doi_cite l l' k : doi_id l <> cite_id l' k.
Proof.
  unfold doi_id, cite_id. intros H. change (lit "-doi") with (45%N :: lit "doi") in H. change (lit "-") with [45%N] in H. cbn [app] in H.
  apply last_dash in H as [_ H]; [|cbn; set_solver|apply no_dash].
  assert (H1 : 100%N ∈ str_of_nat k) by (rewrite <- H; constructor). apply nat_digits in H1. lia.
Qed.

(** The marks of the output of [translate]. *)
Section Out.
Context (hl : str -> str -> str) (f : nat) (s s' : st) (t : tree) (h : list tok).
Context (Htb : translatable s t) (Htr : translate hl f (root t) s = (s', Ok h)).
Let hp := st_heap s.
Let NM (x : id) : list mark := node_marks hl hp x.
Let ob (x : id) : bool := bool_decide (x ∈ doc_order t).
Lemma out_marks : keep ob (marks h) = keep ob (flat_map NM (doc_order t)).
Proof using Htb Htr.
  destruct (tb_manuscript _ _ Htb) as [_ _ [Ht _]].
  apply (translate_marks hl f (root t) s s' h t ob); [exact (tb_good _ _ Htb)|assumption|reflexivity|exact (tb_aimed _ _ Htb)| |assumption].
  intros y Hy. apply bool_decide_eq_true in Hy. apply (tree_at_in _ _ _ _ Ht) in Hy as [n Hn]. exists n. assumption.
Qed.
Lemma out_ids : ids h = flat_map (fun x => omap mid (NM x)) (doc_order t).
Proof using Htb Htr. rewrite ids_marks, <- (keep_ids ob), out_marks, keep_ids. apply omap_flat. Qed.
Lemma out_hrefs : hrefs h = flat_map (fun x => omap mhref (NM x)) (doc_order t).
Proof using Htb Htr. rewrite hrefs_marks, <- (keep_hrefs ob), out_marks, keep_hrefs. apply omap_flat. Qed.
Lemma cite_texts hp' l ts : forall k, omap mtext (cite_marks hp' l ts k) = [].
Proof using. induction ts as [|y ts IH]; intros k; [reflexivity|]. cbn [cite_marks]. rewrite omap_app, IH. reflexivity. Qed.
Lemma back_texts (g : str -> str) ls : omap mtext (map (fun l => MHref (g l)) ls) = [].
Proof using. induction ls as [|l ls IH]; [reflexivity|]. exact IH. Qed.
Lemma id_mark_text l : omap mtext (id_mark l) = [].
Proof using. destruct l; reflexivity. Qed.
Lemma truthy_lang x : (exists l, value hp x a_lang = Some (VStr l)) \/ value hp x a_lang = Some VNone \/ value hp x a_lang = None ->
  (if truthy (aval hp x a_lang) then hl (text_at hp x) (fmt_val (aval hp x a_lang)) else text_at hp x) =
  match lang_at hp x with [] => text_at hp x | l => hl (text_at hp x) l end.
Proof using. rewrite aval_value. unfold lang_at. intros [(l & ->)|[->| ->]]; [|reflexivity..]. destruct l; reflexivity. Qed.
Lemma node_text x : omap mtext (NM x) = own_text hl hp x.
Proof using Htb.
  unfold NM, node_marks, own_text. destruct (hp !! x) as [n|] eqn:En; [|reflexivity].
  assert (Et : text_of hp x = text_at hp x) by (unfold text_of, text_at; rewrite aval_value; destruct (value hp x a_text); reflexivity).
  destruct (n_cls n) eqn:Ec;
  match goal with |- omap mtext (match ?d with _ => _ end) = _ => let d' := eval vm_compute in d in change d with d'; cbv beta iota zeta end; unfold own_id;
  rewrite ?omap_app, ?id_mark_text, ?Et; cbn [app]; try reflexivity.
  - destruct (truthy _); reflexivity.
  - cbn. f_equal. f_equal. apply truthy_lang. destruct (value hp x a_lang) as [v|] eqn:Ev; [|auto].
    destruct (tb_lang _ _ Htb x v) as [->|(l & ->)]; [exists n; auto|assumption|auto|eauto].
  - destruct (aval hp x a_target); reflexivity.
  - destruct (aval hp x a_target); reflexivity.
  - destruct (aval hp x a_targets); try reflexivity. destruct l as [|y [|z l]]; cbn; rewrite ?cite_texts, ?omap_app, ?id_mark_text; reflexivity.
  - destruct (truthy _); cbn; destruct (aval hp x a_backlinks); rewrite ?back_texts; reflexivity.
  - destruct (truthy _); cbn; destruct (aval hp x a_backlinks); rewrite ?back_texts; reflexivity.
Qed.
Lemma out_texts : shown_of t h = flat_map (own_text hl hp) (doc_order t).
Proof using Htb Htr.
  unfold shown_of. rewrite shown_marks. rewrite <- (keep_text ob), out_marks, keep_text, omap_flat.
  assert (E : flat_map (fun x => omap mtext (NM x)) (doc_order t) = flat_map (own_text hl hp) (doc_order t)).
  { apply flat_map_ext. apply node_text. }
  rewrite E. assert (G : forall l, (forall x, x ∈ l -> x ∈ doc_order t) -> List.filter (fun p => ob p.1) (flat_map (own_text hl hp) l) = flat_map (own_text hl hp) l).
  { induction l as [|x l IH]; intros Hl; [reflexivity|]. cbn [flat_map]. rewrite List.filter_app, IH by (intros; apply Hl; constructor 2; assumption). f_equal.
    assert (Hx : ob x = true) by (apply bool_decide_eq_true_2, Hl; constructor).
    unfold own_text. destruct (hp !! x) as [n|]; [|reflexivity]. destruct (n_cls n); cbn; rewrite ?Hx; reflexivity. }
  apply G. auto.
Qed.

(** ** Ids *)
Definition own (l : str) : list str := match l with [] => [] | _ => [l] end.
Definition node_ids (x : id) : list str :=
  let l := label_of hp x in
  match n_cls <$> hp !! x with
  | None => []
  | Some c =>
      if cls_mem c bare then []
      else match c with
           | CFigure => own l ++ own l
           | CCite => match aval hp x a_targets with
                      | VNodes [_] => own l
                      | VNodes ts => l :: map (cite_id l) (seq 0 (length ts))
                      | _ => []
                      end
           | CBibitem | CUnknownBibitem => own l ++ (if truthy (aval hp x a_doi) then [doi_id l] else [])
           | _ => own l
           end
  end.
Lemma id_mark_id l : omap mid (id_mark l) = own l.
Proof using. destruct l; reflexivity. Qed.
Lemma cite_mark_ids h0 l ts : forall k, omap mid (cite_marks h0 l ts k) = map (cite_id l) (seq k (length ts)).
Proof using. induction ts as [|y ts IH]; intros k; [reflexivity|]. cbn [cite_marks]. rewrite omap_app, IH. reflexivity. Qed.
Lemma back_ids (g : str -> str) ls : omap mid (map (fun l => MHref (g l)) ls) = [].
Proof using. induction ls as [|l ls IH]; [reflexivity|]. exact IH. Qed.
Lemma labels x n : hp !! x = Some n -> str_or_empty (aval hp x a_label) = label_of hp x /\ anchor hp x = label_of hp x.
Proof using Htb.
  intros Hn. destruct (tb_label _ _ Htb x n Hn) as (l & El). unfold anchor, label_of. rewrite aval_value.
  assert (value hp x a_label = Some (VStr l)) as -> by (unfold value; rewrite Hn; assumption). destruct l; auto.
Qed.
Lemma node_ids_ok x : omap mid (NM x) = node_ids x.
Proof using Htb.
  unfold NM, node_marks, node_ids. destruct (hp !! x) as [n|] eqn:En; [|reflexivity].
  destruct (labels x n En) as [L1 L2]. cbn [fmap option_fmap option_map].
  destruct (n_cls n) eqn:Ec;
  match goal with |- omap mid (match ?d with _ => _ end) = _ => let d' := eval vm_compute in d in change d with d'; cbv beta iota zeta end;
  match goal with |- _ = (if ?d then _ else _) => let d' := eval vm_compute in d in change d with d'; cbv beta iota zeta end;
  unfold own_id; rewrite ?L1, ?L2, ?omap_app, ?id_mark_id; try reflexivity.
  - apply app_nil_r.
  - destruct (truthy _); apply app_nil_r.
  - destruct (aval hp x a_target); reflexivity.
  - destruct (aval hp x a_target); reflexivity.
  - destruct (aval hp x a_targets); try reflexivity. destruct l as [|y [|z l]].
    + reflexivity.
    + rewrite omap_app, id_mark_id. apply app_nil_r.
    + change (omap mid (MId ?a :: ?b)) with (a :: omap mid b). rewrite cite_mark_ids. reflexivity.
  - f_equal. destruct (truthy _); cbn; destruct (aval hp x a_backlinks); rewrite ?back_ids; reflexivity.
  - f_equal. destruct (truthy _); cbn; destruct (aval hp x a_backlinks); rewrite ?back_ids; reflexivity.
Qed.
Lemma html_ids : ids h = flat_map node_ids (doc_order t).
Proof using Htb Htr. rewrite out_ids. apply flat_map_ext. apply node_ids_ok. Qed.
Lemma own_in v l : v ∈ own l -> v = l /\ l <> [].
Proof using. destruct l; intros H; [inversion H|]. apply elem_of_list_singleton in H. split; [assumption|discriminate]. Qed.
(** The kinds of ids of a node. *)
Lemma node_ids_in x v : v ∈ node_ids x ->
  (exists c, class_of hp x c /\ c ∉ bare /\ v = label_of hp x /\ (v <> [] \/ c = CCite)) \/
  ((class_of hp x CBibitem \/ class_of hp x CUnknownBibitem) /\ v = doi_id (label_of hp x)) \/
  (exists ys k, class_of hp x CCite /\ value hp x a_targets = Some (VNodes ys) /\ k < length ys /\ v = cite_id (label_of hp x) k).
Proof using.
  unfold node_ids. destruct (hp !! x) as [n|] eqn:En; cbn [fmap option_fmap option_map]; [|intros H; inversion H].
  destruct (cls_mem (n_cls n) bare) eqn:Hm0; [intros H; inversion H|].
  assert (Hb : n_cls n ∉ bare) by (intros Hin; apply elem_of_list_In, cls_mem_spec in Hin; congruence).
  assert (Hown : v ∈ own (label_of hp x) -> exists c, class_of hp x c /\ c ∉ bare /\ v = label_of hp x /\ (v <> [] \/ c = CCite)).
  { intros H. apply own_in in H as [-> H]. exists (n_cls n). split; [exists n; auto|auto]. }
  destruct (n_cls n) eqn:Ec; intros H; try (left; exact (Hown H)).
  - destruct (aval hp x a_targets) as [| | | | | | |ys|] eqn:Et; try (inversion H; fail).
    assert (Ev : value hp x a_targets = Some (VNodes ys)) by (rewrite aval_value in Et; destruct (value hp x a_targets); [congruence|discriminate Et]).
    assert (Hm : v ∈ label_of hp x :: map (cite_id (label_of hp x)) (seq 0 (length ys)) ->
      (exists c, class_of hp x c /\ c ∉ bare /\ v = label_of hp x /\ (v <> [] \/ c = CCite)) \/
      (exists ys k, class_of hp x CCite /\ value hp x a_targets = Some (VNodes ys) /\ k < length ys /\ v = cite_id (label_of hp x) k)).
    { intros H'. apply elem_of_cons in H' as [->|H'].
      - left. exists CCite. split; [exists n; auto|auto].
      - right. apply elem_of_list_fmap in H' as (k & -> & Hk). apply elem_of_list_In, in_seq in Hk. exists ys, k. split; [exists n; auto|]. split; [assumption|]. split; [lia|reflexivity]. }
    destruct ys as [|y [|z ys]]; [apply Hm in H as [H|H]; auto|left; exact (Hown H)|apply Hm in H as [H|H]; auto].
  - apply elem_of_app in H as [H|H]; [left; exact (Hown H)|]. destruct (truthy _); [|inversion H]. apply elem_of_list_singleton in H as ->.
    right. left. split; [left; exists n; auto|reflexivity].
  - apply elem_of_app in H as [H|H]; [left; exact (Hown H)|]. destruct (truthy _); [|inversion H]. apply elem_of_list_singleton in H as ->.
    right. left. split; [right; exists n; auto|reflexivity].
  - apply elem_of_app in H as [H|H]; left; exact (Hown H).
Qed.
Lemma ids_come v : v ∈ ids h -> exists x, x ∈ doc_order t /\ id_of hp x v.
Proof using Htb Htr.
  intros H. rewrite html_ids in H. apply elem_of_list_In, in_flat_map in H as (x & Hx & H). apply elem_of_list_In in Hx, H. exists x. split; [assumption|].
  apply node_ids_in in H as [(c & H1 & H2 & H3 & _)|[H|H]]; [left; eauto|right; left; exact H|right; right; exact H].
Qed.

Lemma node_ids_nodup x : labels_apart hp t -> x ∈ doc_order t -> NoDup (node_ids x).
Proof using.
  intros HL Hx. unfold node_ids. destruct (hp !! x) as [n|] eqn:En; cbn [fmap option_fmap option_map]; [|constructor].
  destruct (cls_mem _ _); [constructor|].
  assert (Ho : NoDup (own (label_of hp x))) by (destruct (label_of hp x); [constructor|apply NoDup_singleton]).
  assert (Hb : (class_of hp x CBibitem \/ class_of hp x CUnknownBibitem) -> NoDup (own (label_of hp x) ++ (if truthy (aval hp x a_doi) then [doi_id (label_of hp x)] else []))).
  { intros Hc. destruct (truthy _); [|rewrite app_nil_r; assumption]. apply list.NoDup_app. split; [assumption|]. split; [|apply NoDup_singleton].
    intros v Hv Hv'. apply elem_of_list_singleton in Hv'. apply own_in in Hv as [-> Hne].
    apply (la_apart _ _ HL x x Hx Hx). assumption. }
  destruct (n_cls n) eqn:Ec; try assumption.
  - assert (Hm : forall ts : list id, NoDup (label_of hp x :: map (cite_id (label_of hp x)) (seq 0 (length ts)))).
    { intros ts. constructor.
      - intros Hin. apply elem_of_list_fmap in Hin as (k & E & _). eapply (la_apart _ _ HL x x Hx Hx). exact E.
      - apply NoDup_fmap_2_strong; [|apply NoDup_seq]. intros a b _ _ E. apply cite_id_inj in E as [_ E]. assumption. }
    destruct (aval hp x a_targets) as [| | | | | | |ys|]; try constructor. destruct ys as [|y [|z ys]]; [apply (Hm [])|assumption|apply (Hm (y :: z :: ys))].
  - apply Hb. left. exists n. auto.
  - apply Hb. right. exists n. auto.
  - rewrite (la_figure _ _ HL x Hx) by (exists n; auto). constructor.
Qed.
Lemma node_ids_apart x y v : labels_apart hp t -> x ∈ doc_order t -> y ∈ doc_order t -> v ∈ node_ids x -> v ∈ node_ids y -> x = y.
Proof using.
  intros HL Hx Hy H1 H2.
  assert (Hne : forall z, z ∈ doc_order t -> (exists c, class_of hp z c /\ c ∉ bare /\ v = label_of hp z /\ (v <> [] \/ c = CCite)) -> v = label_of hp z /\ label_of hp z <> []).
  { intros z Hz (c & H3 & _ & -> & [H| ->]); [auto|]. split; [reflexivity|]. apply (la_cite _ _ HL); assumption. }
  apply node_ids_in in H1 as [H1|[[H1 ->]|(ys & k & H1 & _ & _ & ->)]]; apply node_ids_in in H2 as [H2|[[H2 E]|(ys' & k' & H2 & _ & _ & E)]].
  - apply Hne in H1 as [-> H1]; [|assumption]. apply Hne in H2 as [H2 _]; [|assumption]. eapply (la_unique _ _ HL); eassumption.
  - exfalso. apply Hne in H1 as [H1 _]; [|assumption]. apply (la_apart _ _ HL x y Hx Hy). congruence.
  - exfalso. apply Hne in H1 as [H1 _]; [|assumption]. apply (proj2 (la_apart _ _ HL x y Hx Hy) k'). congruence.
  - exfalso. apply Hne in H2 as [H2 _]; [|assumption]. apply (la_apart _ _ HL y x Hy Hx). congruence.
  - apply doi_id_inj in E. eapply (la_unique _ _ HL); try assumption. apply (la_doi _ _ HL); assumption.
  - exfalso. eapply doi_cite. exact E.
  - exfalso. apply Hne in H2 as [H2 _]; [|assumption]. apply (proj2 (la_apart _ _ HL y x Hy Hx) k). congruence.
  - exfalso. symmetry in E. eapply doi_cite. exact E.
  - apply cite_id_inj in E as [E _]. eapply (la_unique _ _ HL); try assumption. apply (la_cite _ _ HL); assumption.
Qed.
Lemma ids_unique : labels_apart hp t -> NoDup (ids h).
Proof using Htb Htr.
  intros HL. rewrite html_ids. destruct (tb_manuscript _ _ Htb) as [_ _ [_ Hnd]].
  assert (Hin : forall x, x ∈ doc_order t -> x ∈ doc_order t) by auto. revert Hnd Hin. generalize (doc_order t) at 1 2 4.
  induction l as [|x l IH]; intros Hnd Hin; [constructor|]. apply list.NoDup_cons in Hnd as [Hx Hnd]. cbn [flat_map].
  apply list.NoDup_app. assert (Hxd : x ∈ doc_order t) by (apply Hin; constructor). split; [|split].
  - apply node_ids_nodup; assumption.
  - intros v Hv Hv'. apply elem_of_list_In, in_flat_map in Hv' as (y & Hy & Hv'). apply elem_of_list_In in Hy, Hv'.
    assert (Hyd : y ∈ doc_order t) by (apply Hin; constructor 2; assumption). apply Hx.
    assert (x = y) as ->; [|assumption]. eapply node_ids_apart; eassumption.
  - apply IH; [assumption|]. intros y Hy. apply Hin. constructor 2. assumption.
Qed.
End Out.

(** ** Links *)
Section Links.
Context (hl : str -> str -> str) (f : nat) (s s' : st) (t : tree) (h : list tok).
Context (Htb : translatable s t) (Htr : translate hl f (root t) s = (s', Ok h)).
Let hp := st_heap s.
Lemma has_id x c : x ∈ doc_order t -> class_of hp x c -> c ∉ bare -> label_of hp x <> [] -> 
  (c = CCite -> exists ys, value hp x a_targets = Some (VNodes ys)) -> label_of hp x ∈ ids h.
Proof using Htb Htr.
  intros Hx (n & Hn & <-) Hb Hl Hcite. rewrite (html_ids hl f s s' t h Htb Htr). apply elem_of_list_In, in_flat_map. exists x.
  split; [apply elem_of_list_In; assumption|]. apply elem_of_list_In. unfold node_ids. fold hp. rewrite Hn. cbn [fmap option_fmap option_map].
  destruct (cls_mem (n_cls n) bare) eqn:Em; [apply cls_mem_spec, elem_of_list_In in Em; contradiction|].
  assert (Ho : label_of hp x ∈ own (label_of hp x)) by (destruct (label_of hp x); [congruence|constructor]).
  destruct (n_cls n); try assumption; try (apply elem_of_app; left; assumption).
  destruct (Hcite eq_refl) as (ys & E). rewrite aval_value, E. destruct ys as [|y [|z ys]]; [constructor|assumption|constructor].
Qed.
Lemma has_href x v : x ∈ doc_order t -> In (MHref v) (node_marks hl hp x) -> v ∈ hrefs h.
Proof using Htb Htr.
  intros Hx Hv. rewrite (out_hrefs hl f s s' t h Htb Htr). apply elem_of_list_In, in_flat_map. exists x.
  split; [apply elem_of_list_In; assumption|]. apply elem_of_list_In. apply elem_of_list_omap. exists (MHref v). split; [apply elem_of_list_In; assumption|reflexivity].
Qed.
Lemma anchor_label y : is_Some (hp !! y) -> anchor hp y = label_of hp y.
Proof using Htb. intros [n Hn]. apply (labels s t Htb y n Hn). Qed.
Lemma ref_href x y : x ∈ doc_order t -> class_of hp x CReference -> value hp x a_target = Some (VNode y) -> lit "#" ++ label_of hp y ∈ hrefs h.
Proof using Htb Htr.
  intros Hx Hc Hv. apply (has_href x); [assumption|]. rewrite <- anchor_label by (eapply (tb_ref _ _ Htb x); eassumption).
  unfold node_marks. destruct Hc as (n & -> & ->). change (dispatch visit_defined CReference) with (Some CReference). cbv beta iota.
  rewrite aval_value, Hv. left. reflexivity.
Qed.
Lemma cite_links h0 l ts y : y ∈ ts -> forall k, In (link h0 y) (cite_marks h0 l ts k).
Proof using.
  induction ts as [|z ts IH]; intros Hy k; [inversion Hy|]. cbn [cite_marks]. apply in_or_app. apply elem_of_cons in Hy as [->|Hy]; [left; right; left; reflexivity|right; auto].
Qed.
Lemma cite_href x ys y : x ∈ doc_order t -> class_of hp x CCite -> value hp x a_targets = Some (VNodes ys) -> y ∈ ys -> lit "#" ++ label_of hp y ∈ hrefs h.
Proof using Htb Htr.
  intros Hx Hc Hv Hy. apply (has_href x); [assumption|]. rewrite <- anchor_label by (eapply (tb_cite _ _ Htb x); eassumption).
  unfold node_marks. destruct Hc as (n & -> & ->). change (dispatch visit_defined CCite) with (Some CCite). cbv beta iota.
  rewrite aval_value, Hv. destruct ys as [|z [|z' ys]]; [inversion Hy| |right; apply cite_links; assumption].
  apply elem_of_list_singleton in Hy as ->. apply in_or_app. right. left. reflexivity.
Qed.
End Links.

(** ** Classes of a tag *)
Lemma firsts_mem l l' : firsts l l' -> forall x, x ∈ l' <-> x ∈ l.
Proof. induction 1 as [|l l' y H IH Hy|l l' y H IH Hy]; intros x; [reflexivity| |]; rewrite ?elem_of_app, IH, ?elem_of_list_singleton; [reflexivity|].
  split; [auto|]. intros [?| ->]; assumption. Qed.
Lemma dedup_go_app a : forall seen b, dedup_go seen (a ++ b) = dedup_go seen a ++ dedup_go (rev a ++ seen) b.
Proof.
  induction a as [|x a IH]; intros seen b; [reflexivity|]. cbn [app dedup_go rev].
  assert (E : forall s1 s2 l, (forall y, str_mem y s1 = str_mem y s2) -> dedup_go s1 l = dedup_go s2 l).
  { intros s1 s2 l. revert s1 s2. induction l as [|y l IHl]; intros s1 s2 E; [reflexivity|]. cbn [dedup_go]. rewrite E.
    destruct (str_mem y s2); [apply IHl; assumption|]. f_equal. apply IHl. intros z. apply eq_true_iff_eq. rewrite !str_mem_In. cbn [In]. rewrite <- !str_mem_In, E. tauto. }
  rewrite <- app_assoc. cbn [app]. destruct (str_mem x seen) eqn:Ex.
  - rewrite IH. f_equal. apply E. intros y. apply eq_true_iff_eq. rewrite !str_mem_In, !in_app_iff. cbn [In].
    apply str_mem_In in Ex. split; [tauto|]. intros [H|[->|H]]; auto.
  - cbn [app]. rewrite IH. reflexivity.
Qed.
Lemma dedup_firsts l : firsts l (dedup l).
Proof.
  unfold dedup. induction l as [|x l IH] using rev_ind; [constructor|]. rewrite dedup_go_app, app_nil_r. cbn [dedup_go].
  destruct (str_mem x (rev l)) eqn:E.
  - rewrite app_nil_r. constructor; [assumption|]. apply str_mem_In, in_rev in E. apply elem_of_list_In. assumption.
  - constructor; [assumption|]. intros Hx. apply elem_of_list_In, in_rev, str_mem_In in Hx. congruence.
Qed.
Lemma node_tag_classes i tag add a b c s s' k : node_tag_full i tag add a b c s = (s', Ok k) ->
  exists g n l, k = KOpen g /\ st_heap s !! i = Some n /\ n_attrs n !! a_types = Some (VStrs l) /\ firsts (name_lower (n_cls n) :: l ++ add) (tg_classes g).
Proof.
  unfold node_tag_full. intros H. apply bind_ok in H as (s1 & c1 & H1 & H). apply cls_of_ok in H1 as (-> & n & Hn & ->).
  apply bind_ok in H as (s2 & l & H2 & H). apply get_strs_ok in H2 as (-> & n' & Hn' & Hl). assert (n' = n) as -> by congruence.
  apply bind_ok in H as (s3 & lb & H3 & H). apply getattr_ok in H3 as (-> & _). apply bind_ok in H as (s4 & nid & H4 & H). apply getattr_ok in H4 as (-> & _).
  apply ret_ok in H as [_ ->]. eexists _, n, l. split; [reflexivity|]. split; [assumption|]. split; [assumption|]. cbn [tg_classes]. apply (dedup_firsts (_ :: l ++ add)).
Qed.

(** ** Well nested documents *)
Lemma kid_in_tree h p t x n y : tree_at h p t -> x ∈ doc_order t -> h !! x = Some n -> y ∈ kids n -> y ∈ doc_order t.
Proof.
  intros Ht Hx Hn Hy. induction Ht as [p i m cs Hi Hp Hk Hcs IH] using tree_at_ind'. rewrite doc_order_T in *. apply elem_of_cons in Hx as [->|Hx].
  - assert (m = n) as -> by congruence. rewrite Hk in Hy. apply elem_of_list_fmap in Hy as (u & -> & Hu). constructor 2.
    apply elem_doc_orders. exists u. split; [assumption|]. destruct u. constructor.
  - apply elem_doc_orders in Hx as (u & Hu & Hx). constructor 2. apply elem_doc_orders. exists u. split; [assumption|].
    rewrite list.Forall_forall in IH. apply IH; assumption.
Qed.
Lemma placed_clean s t : manuscript s t -> math_placed s t -> clean s t /\ is_mb (st_heap s) (root t) = false.
Proof.
  intros [Hf Hc [Ht Hnd]] HP.
  assert (Hmb : forall y, is_mb (st_heap s) y = true -> class_of (st_heap s) y CMathBlock).
  { intros y Hy. unfold is_mb in Hy. destruct (st_heap s !! y) as [n|] eqn:E; [|discriminate Hy]. apply bool_decide_eq_true in Hy. exists n. auto. }
  assert (Hchild : forall x n y, x ∈ doc_order t -> st_heap s !! x = Some n -> y ∈ kids n -> y ∈ doc_order t).
  { intros x n y Hx Hn Hy. exact (kid_in_tree (st_heap s) None t x n y Ht Hx Hn Hy). }
  split.
  - intros x Hx. destruct (mp_fresh _ _ HP x Hx) as [F1 F2]. destruct (tree_at_in _ _ _ _ Ht Hx) as [n Hn].
    unfold fl, value in *. rewrite Hn in *. rewrite F1, F2. split; [reflexivity|]. split; [reflexivity|]. exists n. split; [reflexivity|]. split.
    + intros Hne. apply list.Forall_forall. intros y Hy. destruct (is_mb (st_heap s) y) eqn:E; [|reflexivity]. exfalso. apply Hmb in E.
      destruct (mp_parent _ _ HP y) as (p & Hp & m & Hm & Hcp); [eauto|assumption|].
      assert (parent_is (st_heap s) y x) as (ny & Hny & Hpx) by (apply (cons_parent _ Hc); exists n; auto).
      destruct Hp as (ny' & Hny' & Hpp). assert (p = x) as -> by congruence. congruence.
    + intros _. unfold mb_alone. destruct (kids n) as [|z l _] eqn:Ek using rev_ind; [discriminate|]. rewrite map_app. cbn [map]. rewrite last_last, removelast_last. intros E. apply Hmb in E.
      destruct (existsb (fun b => b) (map (is_mb (st_heap s)) l)) eqn:Eb; [|reflexivity]. exfalso. apply existsb_exists in Eb as (b & Hb & ->).
      apply in_map_iff in Hb as (y & Ey & Hy). apply elem_of_list_In in Hy. apply Hmb in Ey. eapply (mp_last _ _ HP x n l z y); eassumption.
  - destruct (is_mb (st_heap s) (root t)) eqn:E; [|reflexivity]. apply Hmb in E.
    destruct (mp_parent _ _ HP (root t)) as (p & (n & Hn & Hp) & _); [destruct t; constructor|assumption|]. exfalso.
    destruct t as [i cs]. apply tree_at_inv in Ht as (m & Hm & Hpm & _). cbn in Hn. congruence.
Qed.
Lemma nested_base hl f s t s' h : manuscript s t -> math_placed s t -> translate hl f (root t) s = (s', Ok h) -> nested h.
Proof.
  intros Hm HP H. destruct (placed_clean _ _ Hm HP) as [H1 H2]. destruct Hm as [Hf Hc [Ht Hnd]]. apply run_nested.
  apply (translate_run hl f (root t) s s' h t (conj Hf Hc) Ht Hnd eq_refl H1 H2 H []).
Qed.
Lemma nested_hand hl src f s t s' h : manuscript s t -> math_placed s t -> translate_handrails hl src f (root t) s = (s', Ok h) -> nested h.
Proof.
  intros Hm HP H. destruct (placed_clean _ _ Hm HP) as [H1 H2]. destruct Hm as [Hf Hc [Ht Hnd]]. apply run_nested.
  apply (translate_handrails_run hl src f (root t) s s' h t (conj Hf Hc) Ht Hnd eq_refl H1 H2 H []).
Qed.

(** ** Dispatch *)
Lemma nearest_find ds c m : dispatch ds c = Some m -> nearest ds c m.
Proof.
  unfold dispatch, chain. generalize 8. intros k. revert c. induction k as [|k IH]; intros c H; [|].
  { cbn [chain_fuel find] in H. destruct (cls_mem c ds) eqn:E; [|discriminate H]. injection H as ->. apply near_here, cls_mem_spec. assumption. }
  cbn [chain_fuel find] in H. destruct (cls_mem c ds) eqn:E.
  - injection H as ->. apply near_here. apply cls_mem_spec. assumption.
  - destruct (base c) as [b|] eqn:Eb; [|discriminate H]. eapply near_up; [|exact Eb|apply IH; assumption]. intros Hin. apply cls_mem_spec in Hin. congruence.
Qed.
Lemma dispatch_visit_total c : is_Some (dispatch visit_defined c). Proof. destruct c; vm_compute; eauto. Qed.
Lemma dispatch_leave_total c : is_Some (dispatch leave_defined c). Proof. destruct c; vm_compute; eauto. Qed.
Lemma dispatch_hleave_total c : is_Some (dispatch hleave_defined c). Proof. destruct c; vm_compute; eauto. Qed.
Lemma bind_cls {X} i n s (k : cls -> M X) : st_heap s !! i = Some n -> bind (cls_of i) k s = k (n_cls n) s.
Proof. intros H. unfold cls_of, bind, get_node. rewrite H. reflexivity. Qed.
Lemma dispatch_base hl f i s n ts : st_heap s !! i = Some n ->
  (exists m, nearest visit_defined (n_cls n) m /\ base_visit hl f i s = visit_method hl f m i s) /\
  (exists m, nearest leave_defined (n_cls n) m /\ base_leave f i ts s = leave_method m i ts s).
Proof.
  intros Hn. destruct (dispatch_visit_total (n_cls n)) as [m Hm]. destruct (dispatch_leave_total (n_cls n)) as [m' Hm'].
  split; [exists m|exists m']; (split; [apply nearest_find; assumption|]); [unfold base_visit|unfold base_leave]; rewrite (bind_cls _ n) by assumption;
  rewrite ?Hm, ?Hm'; reflexivity.
Qed.
Lemma dispatch_hr hl src root f i s n ts : st_heap s !! i = Some n ->
  (exists m, nearest visit_defined (n_cls n) m /\ hr_visit hl src root f i s = hvisit_method hl src root f m i s) /\
  (exists m, nearest hleave_defined (n_cls n) m /\ hr_leave f i ts s = hleave_method f m i ts s).
Proof.
  intros Hn. destruct (dispatch_visit_total (n_cls n)) as [m Hm]. destruct (dispatch_hleave_total (n_cls n)) as [m' Hm'].
  split; [exists m|exists m']; (split; [apply nearest_find; assumption|]); [unfold hr_visit|unfold hr_leave]; rewrite (bind_cls _ n) by assumption;
  rewrite ?Hm, ?Hm'; reflexivity.
Qed.

(** ** What translation changes *)
Lemma base_frame hl f i s s' h : good s -> translate hl f i s = (s', Ok h) -> tfr tr_attrs s s'.
Proof.
  intros Hg H. unfold translate in H. apply bind_ok in H as (s1 & u & H1 & H). apply info_ok in H1. subst s1.
  assert (F : tfr tr_attrs (logged s (MkLog logger_tlate INFO (lit "Translating...") None)) s').
  { eapply (tp_run_translator tr_attrs (base_tc hl)); [apply base_tc_ok; set_solver| |exact H]. apply tp_translate_ext; set_solver. }
  intros _. destruct (F Hg) as (F1 & F2 & F3 & F4). split; [assumption|]. split; [assumption|]. split; [|assumption].
  destruct F3 as [l E]. cbn in E. eexists. rewrite E, <- app_assoc. reflexivity.
Qed.
Lemma hand_frame hl src f i s s' h : good s -> translate_handrails hl src f i s = (s', Ok h) -> tfr trh_attrs s s'.
Proof.
  intros Hg H. unfold translate_handrails in H. apply bind_ok in H as (s1 & u & H1 & H). apply info_ok in H1. subst s1.
  assert (F : tfr trh_attrs (logged s (MkLog logger_tlate INFO (lit "Translating...") None)) s').
  { eapply (tp_run_translator trh_attrs (hr_tc hl src i)); [apply hr_tc_ok; set_solver| |exact H]. apply tp_translate_ext; set_solver. }
  intros _. destruct (F Hg) as (F1 & F2 & F3 & F4). split; [assumption|]. split; [assumption|]. split; [|assumption].
  destruct F3 as [l E]. cbn in E. eexists. rewrite E, <- app_assoc. reflexivity.
Qed.

(** ** Visit and leave *)
Lemma logged_good s m : good s -> good (logged s m). Proof. intros H. exact H. Qed.
Lemma pairing_base hl f s p t s' h : good s -> tree_at (st_heap s) p t -> translate hl f (root t) s = (s', Ok h) ->
  exists s0, st_heap s0 = st_heap s /\ renders (base_tc hl) (translate_ext hl f f) f s0 t h s'.
Proof.
  intros Hg Ht H. unfold translate in H. apply bind_ok in H as (s1 & u & H1 & H). apply info_ok in H1. subst s1.
  assert (Htc : tc_ok tr_attrs (base_tc hl)) by (apply base_tc_ok; set_solver).
  assert (Hext : forall j, tpres tr_attrs (translate_ext hl f f j)) by (intros j; apply tp_translate_ext; set_solver).
  apply (run_renders (base_tc hl) _ f tr_attrs Htc) in H as (t' & Hr' & H); [|reflexivity].
  exists (logged s (MkLog logger_tlate INFO (lit "Translating...") None)). split; [reflexivity|].
  assert (t = t') as <-; [|exact H]. eapply (proj1 (renders_tree _ _ f tr_attrs Htc Hext)); [exact H|exact Hg|exact Ht|congruence].
Qed.
Lemma pairing_hand hl src f s p t s' h : good s -> tree_at (st_heap s) p t -> translate_handrails hl src f (root t) s = (s', Ok h) ->
  exists s0, st_heap s0 = st_heap s /\ renders (hr_tc hl src (root t)) (translate_ext hl f f) f s0 t h s'.
Proof.
  intros Hg Ht H. unfold translate_handrails in H. apply bind_ok in H as (s1 & u & H1 & H). apply info_ok in H1. subst s1.
  assert (Htc : tc_ok trh_attrs (hr_tc hl src (root t))) by (apply hr_tc_ok; set_solver).
  assert (Hext : forall j, tpres trh_attrs (translate_ext hl f f j)) by (intros j; apply tp_translate_ext; set_solver).
  apply (run_renders (hr_tc hl src (root t)) _ f trh_attrs Htc) in H as (t' & Hr' & H); [|reflexivity].
  exists (logged s (MkLog logger_tlate INFO (lit "Translating...") None)). split; [reflexivity|].
  assert (t = t') as <-; [|exact H]. eapply (proj1 (renders_tree _ _ f trh_attrs Htc Hext)); [exact H|exact Hg|exact Ht|congruence].
Qed.

(** ** Frames *)
Lemma tfr_tree A s s' p t : good s -> tfr A s s' -> tree_at (st_heap s) p t -> tree_at (st_heap s') p t.
Proof.
  intros Hg F. destruct (F Hg) as (_ & _ & _ & K). clear F. revert p. induction t as [i ts IH] using tree_ind'. intros p Ht.
  apply tree_at_inv in Ht as (n & Hn & Hp & Hk & Hts). destruct (K i n Hn) as (n' & Hn' & Hcl & Hp' & Hc' & _).
  econstructor; [exact Hn'|congruence|unfold kids in *; rewrite Hcl, Hc'; exact Hk|].
  rewrite list.Forall_forall in *. intros x Hx. apply IH; auto.
Qed.
Lemma leaves_base hl f s p t s' h : good s -> tree_at (st_heap s) p t -> translate hl f (root t) s = (s', Ok h) ->
  tree_at (st_heap s') p t /\ unchanged tr_attrs s s'.
Proof.
  intros Hg Ht H. apply base_frame in H; [|assumption]. split; [eapply tfr_tree; eassumption|]. exact (proj2 (proj2 (proj2 (H Hg)))).
Qed.
Lemma leaves_hand hl src f s p t s' h : good s -> tree_at (st_heap s) p t -> translate_handrails hl src f (root t) s = (s', Ok h) ->
  tree_at (st_heap s') p t /\ unchanged trh_attrs s s'.
Proof.
  intros Hg Ht H. apply hand_frame in H; [|assumption]. split; [eapply tfr_tree; eassumption|]. exact (proj2 (proj2 (proj2 (H Hg)))).
Qed.

(** ** Statements about manuscripts *)
Lemma no_deferred_base hl f i s s' e : translate hl f i s = (s', Err e) ->
  e <> ETranslator (lit "Something went wrong") /\
  e <> ETranslator (lit "Cannot finish translation; did you forget to write a visit_* or leave_* method?") /\
  e <> ETranslator (lit "Why are we here?").
Proof. intros H. pose proof (c_translate hl f i s s' e H) as L. unfold lost in L. tauto. Qed.
Lemma no_deferred_hand hl src f i s s' e : translate_handrails hl src f i s = (s', Err e) ->
  e <> ETranslator (lit "Something went wrong") /\
  e <> ETranslator (lit "Cannot finish translation; did you forget to write a visit_* or leave_* method?") /\
  e <> ETranslator (lit "Why are we here?").
Proof. intros H. pose proof (c_translate_handrails hl src f i s s' e H) as L. unfold lost in L. tauto. Qed.
Lemma ms_good s t : manuscript s t -> good s /\ tree_at (st_heap s) None t.
Proof. intros [Hf Hc Hd]. split; [split; assumption|]. apply Hd. Qed.
Lemma pairs_base hl f s t s' h : manuscript s t -> translate hl f (root t) s = (s', Ok h) ->
  exists s0, st_heap s0 = st_heap s /\ renders (base_tc hl) (translate_ext hl f f) f s0 t h s'.
Proof. intros Hm. destruct (ms_good _ _ Hm) as [Hg Ht]. exact (pairing_base hl f s None t s' h Hg Ht). Qed.
Lemma pairs_hand hl src f s t s' h : manuscript s t -> translate_handrails hl src f (root t) s = (s', Ok h) ->
  exists s0, st_heap s0 = st_heap s /\ renders (hr_tc hl src (root t)) (translate_ext hl f f) f s0 t h s'.
Proof. intros Hm. destruct (ms_good _ _ Hm) as [Hg Ht]. exact (pairing_hand hl src f s None t s' h Hg Ht). Qed.
Lemma keeps_base hl f s t s' h : manuscript s t -> translate hl f (root t) s = (s', Ok h) ->
  tree_at (st_heap s') None t /\ unchanged tr_attrs s s'.
Proof. intros Hm. destruct (ms_good _ _ Hm) as [Hg Ht]. exact (leaves_base hl f s None t s' h Hg Ht). Qed.
Lemma keeps_hand hl src f s t s' h : manuscript s t -> translate_handrails hl src f (root t) s = (s', Ok h) ->
  tree_at (st_heap s') None t /\ unchanged trh_attrs s s'.
Proof. intros Hm. destruct (ms_good _ _ Hm) as [Hg Ht]. exact (leaves_hand hl src f s None t s' h Hg Ht). Qed.
Lemma ref_links hl f s s' t h : translatable s t -> translate hl f (root t) s = (s', Ok h) ->
  forall x y c, x ∈ doc_order t -> class_of (st_heap s) x CReference -> value (st_heap s) x a_target = Some (VNode y) ->
    y ∈ doc_order t -> label_of (st_heap s) y <> [] ->
    class_of (st_heap s) y c -> c ∉ bare -> c <> CCite ->
    lit "#" ++ label_of (st_heap s) y ∈ hrefs h /\ label_of (st_heap s) y ∈ ids h.
Proof.
  intros Htb Htr x y c Hx Hc Hv Hy Hl Hyc Hb Hcc. split; [exact (ref_href hl f s s' t h Htb Htr x y Hx Hc Hv)|].
  apply (has_id hl f s s' t h Htb Htr y c); try assumption. contradiction.
Qed.
Lemma cite_links_ok hl f s s' t h : translatable s t -> translate hl f (root t) s = (s', Ok h) ->
  forall x ys y c, x ∈ doc_order t -> class_of (st_heap s) x CCite -> value (st_heap s) x a_targets = Some (VNodes ys) -> y ∈ ys ->
    y ∈ doc_order t -> label_of (st_heap s) y <> [] ->
    class_of (st_heap s) y c -> c = CBibitem \/ c = CUnknownBibitem ->
    lit "#" ++ label_of (st_heap s) y ∈ hrefs h /\ label_of (st_heap s) y ∈ ids h.
Proof.
  intros Htb Htr x ys y c Hx Hc Hv Hyin Hy Hl Hyc Hb. split; [exact (cite_href hl f s s' t h Htb Htr x ys y Hx Hc Hv Hyin)|].
  apply (has_id hl f s s' t h Htb Htr y c); try assumption.
  - intros Hin. apply elem_of_list_In, cls_mem_spec in Hin. destruct Hb as [-> | ->]; vm_compute in Hin; discriminate Hin.
  - intros ->. destruct Hb; congruence.
Qed.
