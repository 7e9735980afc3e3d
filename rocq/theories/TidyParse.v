(** The parser makes documents without markup from sources without markup. *)
From Verif Require Export Tidy.
From Verif Require Import NodeOps Monad.
Local Open Scope string_scope.
Local Open Scope list_scope.

Lemma preorder_self c : In c (c_preorder c). Proof. destruct c; left; reflexivity. Qed.
Lemma preorder_child d e c : In d (c_preorder c) -> In e (c_children d) -> In e (c_preorder c).
Proof.
  revert d e. induction c as [t f nm tx sp ep cs IH] using cst_ind'. intros d e Hd He. cbn [c_preorder In] in *.
  destruct Hd as [<-|Hd]; right; apply in_flat_map.
  - cbn [c_children] in He. exists e. split; [exact He|apply preorder_self].
  - apply in_flat_map in Hd as (x & Hx & Hd). exists x. split; [exact Hx|]. rewrite List.Forall_forall in IH. eapply (IH x Hx); eassumption.
Qed.
Lemma place_child p d : In p (places d) -> In (pl_node p) (c_children d).
Proof. intros H. unfold places in H. rewrite <- (places_nodes (c_children d) 0 None). apply in_map, H. Qed.
Lemma named_child p d : In p (named_children d) -> In (pl_node p) (c_children d).
Proof. intros H. apply List.filter_In in H as [H _]. apply place_child, H. Qed.
Lemma fielded_child x p d : field_child x d = Some p -> In (pl_node p) (c_children d).
Proof. intros H. unfold field_child in H. apply find_some in H as [H _]. apply place_child, H. Qed.
Lemma split_on_incl c sep : forall s w, In w (split_on sep s) -> lacks c s = true -> lacks c w = true.
Proof.
  induction s as [|d s IH]; intros w Hw Hs; cbn [split_on] in Hw; [destruct Hw as [<-|[]]; reflexivity|]. cbn [lacks forallb] in Hs.
  apply andb_true_iff in Hs as [Hd Hs]. destruct (N.eqb d sep); [destruct Hw as [<-|Hw]; [reflexivity|auto]|].
  destruct (split_on sep s) as [|y ys] eqn:E.
  - destruct Hw as [<-|[]]. cbn. rewrite Hd. reflexivity.
  - destruct Hw as [<-|Hw]; [|apply IH; [right; exact Hw|exact Hs]]. cbn [lacks forallb]. rewrite Hd. apply (IH y); [left; reflexivity|exact Hs].
Qed.
Lemma strip_lacks c s : lacks c s = true -> lacks c (strip s) = true.
Proof. apply lacks_incl. apply strip_incl. Qed.
Lemma shown_loose k : In k shown_keys -> attr_of_name k ∈ loose /\ attr_of_name k <> a_number.
Proof.
  intros H. unfold shown_keys in H. cbn [map In] in H.
  repeat (destruct H as [<-|H]; [split; [apply (bool_decide_eq_true_1 (_ ∈ loose)); vm_compute; reflexivity|vm_compute; discriminate]|]). contradiction.
Qed.

Section TidyParse.
Context (src : bool) (c0 : cst) (NM : no_markup src c0).
Notation td := (td src).
Local Notation strict := Tidy.strict.
Notation inside d := (In d (c_preorder c0)).
Definition dict_ok (d : list (str * val)) : Prop := Forall (fun p => strict src (attr_of_name p.1) p.2) d.

(** ** Meta data *)

Lemma value_strict d k v : inside d -> suffixb (lit "pair") (c_type d) = true -> In k (pair_keys d) ->
  (exists e, In e (c_preorder d) /\ (v = VStr (c_text e) \/ v = VStr (strip (c_text e)))) \/
  (exists es, (forall e, In e es -> In e (c_preorder d)) /\ v = VStrs (map (fun e => strip (c_text e)) es)) ->
  strict src (attr_of_name k) v.
Proof using NM.
  intros Hd Hp Hk Hv.
  assert (A : forall e, In e (c_preorder d) -> lacks LT (c_text e) = true) by (intros e He; apply (nm_pair _ _ NM d e Hd Hp He)).
  assert (B : (attr_of_name k ∈ loose /\ attr_of_name k <> a_number) \/ forall e, In e (c_preorder d) -> lacks QUOTE (c_text e) = true).
  { destruct (in_dec (list_eq_dec N.eq_dec) k shown_keys) as [Hin|Hout]; [left; apply shown_loose, Hin|right]. intros e He.
    destruct (nm_pair _ _ NM d e Hd Hp He) as [_ [H|H]]; [|exact H]. exfalso. apply Hout, H, Hk. }
  set (a := attr_of_name k) in *. clearbody a.
  assert (F : forall e, In e (c_preorder d) -> fine src a (c_text e) /\ fine src a (strip (c_text e))).
  { intros e He. pose proof (A e He) as HA. destruct B as [[B1 B2]|B].
    - split; apply loose_strict; try assumption. apply strip_lacks, HA.
    - pose proof (B e He). split; apply both_fine; try assumption; apply strip_lacks; assumption. }
  split.
  - destruct Hv as [(e & He & [-> | ->])|(es & Hes & ->)]; cbn [tidy]; [apply F, He|apply F, He|].
    apply list.Forall_forall. intros x Hx. apply elem_of_list_In, in_map_iff in Hx as (e & <- & He). apply F, Hes, He.
  - intros ->. destruct B as [[_ B]|B]; [contradiction|]. destruct Hv as [(e & He & [-> | ->])|(es & Hes & ->)]; cbn [fmt_val].
    + apply B, He.
    + apply strip_lacks, B, He.
    + apply (strs_lacks QUOTE); [reflexivity|]. apply forallb_forall. intros x Hx. apply in_map_iff in Hx as (e & <- & He). apply strip_lacks, B, Hes, He.
Qed.
Lemma dict_set_ok d k v : dict_ok d -> strict src (attr_of_name k) v -> dict_ok (dict_set d k v).
Proof.
  intros Hd Hv. unfold dict_set. destruct (existsb _ _).
  - unfold dict_ok in *. rewrite list.Forall_forall in *. intros p Hp. apply elem_of_list_In, in_map_iff in Hp as (q & <- & Hq). apply elem_of_list_In in Hq.
    destruct (str_eqb q.1 k) eqn:E; [|apply Hd, Hq]. apply str_eqb_eq in E. cbn [fst snd]. rewrite E. exact Hv.
  - apply Forall_app. split; [exact Hd|]. constructor; [exact Hv|constructor].
Qed.
Lemma pairs_ok l : forall d r, (forall p, In p l -> inside (pl_node p) /\ is_pair p = true) -> dict_ok d -> parse_pairs l d = Ok r -> dict_ok r.
Proof using NM.
  induction l as [|p l IH]; intros d r Hl Hd E; cbn [parse_pairs] in E; [injection E as <-; exact Hd|].
  destruct (Hl p (or_introl eq_refl)) as [Hin Hp].
  destruct (match named_children (pl_node p) with [k] => _ | _ => _ end) as [[k v]|e] eqn:Ep; [|discriminate E].
  refine (IH _ r _ _ E); [intros q Hq; apply Hl; right; exact Hq|]. apply dict_set_ok; [exact Hd|]. clear E IH.
  assert (G : forall kp ov l', named_children (pl_node p) = kp :: l' -> (forall z, ov = Some z -> exists zp, In zp l' /\ z = pl_node zp) ->
    parse_pair (pl_node kp) ov = Ok (k, v) -> strict src (attr_of_name k) v).
  { intros kp ov l' En Hov Epp. unfold parse_pair in Epp.
    assert (Hk : forall key, key_name (pl_node kp) = Ok key -> In key (pair_keys (pl_node p))).
    { intros key Hk. unfold key_name in Hk. unfold pair_keys. rewrite En. destruct (named_children (pl_node kp)) as [|q qs]; [discriminate Hk|]. injection Hk as <-.
      apply in_or_app. right. left. reflexivity. }
    assert (Hz : forall z, ov = Some z -> In z (c_preorder (pl_node p))).
    { intros z Hz. destruct (Hov z Hz) as (zp & Hzp & ->). apply (preorder_child (pl_node p)); [apply preorder_self|]. apply named_child. rewrite En. right. exact Hzp. }
    destruct (key_name (pl_node kp)) as [key|e] eqn:Ekn.
    2: { repeat (destruct (_ || _) in Epp || destruct (str_eqb _ _) in Epp); discriminate Epp. }
    specialize (Hk key eq_refl).
    destruct (str_eqb _ (lit "metakey_list")).
    { destruct ov as [z|]; [|discriminate Epp]. injection Epp as <- <-. eapply value_strict; [exact Hin|exact Hp|exact Hk|]. right.
      exists (map pl_node (named_children z)). rewrite map_map. split; [|reflexivity]. intros e He. apply in_map_iff in He as (q & <- & Hq).
      apply (preorder_child z); [apply Hz; reflexivity|apply named_child, Hq]. }
    destruct (_ || _).
    { destruct ov as [z|]; [|discriminate Epp]. injection Epp as <- <-. eapply value_strict; [exact Hin|exact Hp|exact Hk|]. left. exists z. auto. }
    destruct (str_eqb _ _); [injection Epp as <- <-; flat1|]. destruct (str_eqb _ _); discriminate Epp. }
  destruct (named_children (pl_node p)) as [|kp [|vp [|x y]]] eqn:En; try discriminate Ep.
  - eapply G; [reflexivity| |exact Ep]. discriminate.
  - eapply G; [reflexivity| |exact Ep]. intros z [= <-]. exists vp. split; [left; reflexivity|reflexivity].
Qed.
Lemma template_strict v : strict src (attr_of_name (lit "reftext")) v -> strict src (attr_of_name (lit "reftext_template")) v.
Proof.
  intros [H _]. split; [|vm_compute; discriminate]. change (attr_of_name (lit "reftext")) with (AOther (lit "reftext")) in H. change (attr_of_name (lit "reftext_template")) with a_reftext_template.
  assert (K : forall s, fine src (AOther (lit "reftext")) s -> fine src a_reftext_template s).
  { intros s [Hs _]. apply loose_strict; [exact Hs|apply (bool_decide_eq_true_1 (a_reftext_template ∈ loose)); reflexivity|discriminate]. }
  destruct v; cbn [tidy] in *; auto; try discriminate H. eapply list.Forall_impl; [exact H|exact K].
Qed.
Lemma to_template_ok d : dict_ok d -> dict_ok (reftext_to_template d).
Proof.
  intros Hd. unfold reftext_to_template. destruct (dict_get d (lit "reftext")) as [v|] eqn:E; [|exact Hd].
  assert (K : dict_ok (dict_set d (lit "reftext_template") v)).
  { apply dict_set_ok; [exact Hd|]. apply template_strict. unfold dict_get in E. destruct (find _ d) as [p|] eqn:Ef; [|discriminate E]. injection E as <-.
    apply find_some in Ef as [Hp Ep]. apply str_eqb_eq in Ep. rewrite <- Ep. unfold dict_ok in Hd. rewrite list.Forall_forall in Hd. apply Hd, elem_of_list_In, Hp. }
  unfold dict_del, dict_ok in *. rewrite list.Forall_forall in *. intros p Hp. apply elem_of_list_In, List.filter_In in Hp as [Hp _]. apply K, elem_of_list_In, Hp.
Qed.
Lemma td_py_setattr i k v : strict src (attr_of_name k) v -> td (py_setattr i k v) any.
Proof. intros H. unfold py_setattr. destruct (str_mem _ _); [apply td_raise|]. destruct (str_eqb _ _); [apply td_raise|]. apply td_setattr, H. Qed.
Lemma td_ingest_meta i c : inside c -> td (ingest_meta i c) any.
Proof using NM.
  intros Hc. unfold ingest_meta. destruct (field_child "meta" c) as [m|] eqn:Em; [|apply td_ret; exact I]. apply fielded_child in Em.
  assert (Hm : inside (pl_node m)) by (eapply preorder_child; eassumption).
  destruct (parse_meta (pl_node m)) as [d|e] eqn:E; cbn [lift]; [|intros s s' r _ K; discriminate K].
  eapply (td_bind _ _ _ (fun x => x = d)); [apply td_ret; reflexivity|intros x ->]. unfold ingest_dict_as_meta.
  apply (td_iterM _ _ (fun p => strict src (attr_of_name p.1) p.2)); [intros p Hp; apply td_py_setattr, Hp|]. apply to_template_ok.
  eapply pairs_ok; [|constructor|exact E]. intros p Hp. apply List.filter_In in Hp as [Hp Hip]. split; [|exact Hip].
  eapply preorder_child; [exact Hm|apply named_child, Hp].
Qed.

(** ** One syntax node *)

Lemma span_strict c : Forall (fun p => strict src p.1 p.2) (span_attrs c).
Proof. unfold span_attrs. constructor; [flat1|]. constructor; [flat1|]. constructor. Qed.
Lemma ast_kw t k kw : ast_type t = Some (k, kw) -> Forall (fun p => strict src p.1 p.2) kw.
Proof.
  intros H. unfold ast_type in H. destruct (find _ ast_types) as [p|] eqn:E; [|discriminate H]. injection H as H. apply find_some in E as [E _].
  assert (K : forallb (fun p : string * (cls * list (attr * val)) => forallb simple p.2.2) ast_types = true) by reflexivity.
  rewrite forallb_forall in K. apply K in E. rewrite H in E. cbn [snd] in E. rewrite forallb_forall in E. apply list.Forall_forall. intros q Hq.
  apply simple_strict, E, elem_of_list_In, Hq.
Qed.
Lemma td_ast c t k kw : ast_type t = Some (k, kw) -> td (new_node k (kw ++ span_attrs c)) any.
Proof. intros H. apply td_new_node, Forall_app. split; [eapply ast_kw, H|apply span_strict]. Qed.
Lemma td_attach p i : td (attach p i) any.
Proof. unfold attach. tq. apply td_append. Qed.
Lemma point_text p : lacks LT (str_of_Z (fst p)) = true /\ lacks LT (str_of_Z (snd p)) = true.
Proof. split; apply lacks_Z; (reflexivity || discriminate). Qed.
Lemma td_make_node t c : inside c -> td (make_node t c) any.
Proof using NM.
  intros Hc. unfold make_node. destruct (ast_type t) as [[k kw]|] eqn:E.
  - eapply td_bind; [eapply td_ast, E|intros i _]. eapply (td_bind _ _ _ any); [|intros _ _; apply td_ret; exact I].
    destruct (subclass k CText); [|apply td_ret; exact I]. apply td_setattr, text_strict, (nm_text _ _ NM), Hc.
  - destruct (str_eqb _ _); [|apply td_raise]. tstep0. apply td_new_node. constructor; [|apply span_strict]. apply text_strict, mild_lacks.
    unfold error_text. rewrite !lacks_app. destruct (point_text (c_start c)) as [-> ->]. destruct (point_text (c_end c)) as [-> ->]. reflexivity.
Qed.

Lemma td_asis t i c : inside c -> td (add_asis t i c) any.
Proof using NM.
  intros Hc. unfold add_asis. destruct (type_in _ t); [|apply td_ret; exact I]. destruct (rev (named_children c)) as [|a l] eqn:E; [apply td_raise|].
  assert (Ha : mild (c_text (pl_node a)) = true).
  { apply (nm_text _ _ NM). eapply preorder_child; [exact Hc|]. apply named_child, in_rev. rewrite E. left. reflexivity. }
  destruct (is_type _ _); [|apply td_raise]. cbv zeta. eapply (td_bind _ _ _ any); [|intros ch _; apply td_append]. destruct (type_in _ t).
  - tstep0. apply td_new_node. constructor; [apply text_strict, Ha|]. constructor; [|constructor]. split; [assumption|discriminate].
  - apply td_new_node. constructor; [apply text_strict, Ha|]. constructor; [flat1|constructor].
Qed.
Lemma td_claim t i c : td (wrap_claim t i c) any.
Proof.
  unfold wrap_claim. destruct (type_in _ t); [|apply td_ret; exact I]. tstep0. destruct (truthy _); [|apply td_ret; exact I].
  eapply td_bind; [apply td_new_node, span_strict|intros b _]. eapply td_bind; [apply td_append|intros _ _]. apply td_ret. exact I.
Qed.

Definition typed (t : str) (c : cst) : Prop := t = c_type c \/ exists e, In e (c_children c) /\ t = c_type e.
Lemma typed_tagged ts t c : typed t c -> type_in ts t = true -> tagged ts c = true.
Proof.
  intros H Ht. unfold tagged. apply existsb_exists. destruct H as [->|(e & He & ->)]; [exists c|exists e]; (split; [cbn [In]; auto|exact Ht]).
Qed.
Lemma type_in_links ts t : type_in ts t = true -> (forall x, In x ts -> In x links) -> type_in links t = true.
Proof. intros H K. unfold type_in in *. apply existsb_exists in H as (x & Hx & Ex). apply existsb_exists. exists x. split; [|exact Ex]. apply in_map_iff in Hx as (y & <- & Hy). apply in_map, K, Hy. Qed.
Lemma link_ok t c p q r : inside c -> typed t c -> type_in links t = true -> named_children c = p :: q :: r ->
    lacks LT (c_text (pl_node q)) = true /\ lacks QUOTE (c_text (pl_node q)) = true /\
    (forall z, hd_error r = Some z -> lacks LT (c_text (pl_node z)) = true).
Proof using NM. intros Hc Ht Hl En. eapply (nm_link _ _ NM c); [exact Hc|eapply typed_tagged; eassumption|exact En]. Qed.
Lemma td_kind t i c : inside c -> td (set_kind t i c) any.
Proof using NM.
  intros Hc. unfold set_kind. destruct (type_in _ t); [|apply td_ret; exact I]. destruct (field_child "tag" c) as [p|] eqn:E; [|apply td_ret; exact I].
  destruct (nm_tag _ _ NM c p Hc E) as [H1 H2]. apply td_setattr, fine_strict; assumption.
Qed.
Lemma td_target t i c : inside c -> typed t c -> td (set_target t i c) any.
Proof using NM.
  intros Hc Ht. unfold set_target. destruct (type_in ["ref"; "previous"; "url"] t) eqn:E; [|apply td_ret; exact I].
  assert (L : type_in links t = true) by (eapply type_in_links; [exact E|cbn [In links]; tauto]). unfold nth_named.
  destruct (named_children c) as [|p [|q r]] eqn:En; cbn [nth_error].
  - intros s s' x _ K. discriminate K.
  - intros s s' x _ K. discriminate K.
  - destruct (link_ok t c p q r Hc Ht L En) as (H1 & H2 & H3). eapply (td_bind _ _ _ (fun x => x = q)); [apply td_ret; reflexivity|intros x ->].
    eapply td_bind; [apply td_setattr, fine_strict; assumption|intros _ _]. destruct r as [|z r]; [apply td_ret; exact I|].
    eapply td_bind; [apply td_setattr|intros _ _; apply td_ret; exact I].
    apply loose_strict; [apply H3; reflexivity|apply (bool_decide_eq_true_1 (_ ∈ loose)); reflexivity|discriminate].
Qed.
Lemma td_prev t i : td (set_prev t i) any.
Proof. unfold set_prev. repeat (destruct (str_eqb _ _); [apply td_setattr; flat1|]). apply td_ret. exact I. Qed.
Lemma td_cite t i c : inside c -> typed t c -> td (set_cite t i c) any.
Proof using NM.
  intros Hc Ht. unfold set_cite. destruct (type_in ["cite"] t) eqn:E; [|apply td_ret; exact I].
  assert (L : type_in links t = true) by (eapply type_in_links; [exact E|cbn [In links]; tauto]). unfold nth_named.
  destruct (named_children c) as [|p [|q r]] eqn:En; cbn [nth_error].
  - intros s s' x _ K. discriminate K.
  - intros s s' x _ K. discriminate K.
  - destruct (link_ok t c p q r Hc Ht L En) as (H1 & H2 & H3). eapply (td_bind _ _ _ (fun x => x = q)); [apply td_ret; reflexivity|intros x ->].
    eapply td_bind; [apply td_setattr|intros _ _; apply td_ret; exact I]. split; [|discriminate]. cbn [tidy]. apply list.Forall_forall. intros w Hw.
    apply elem_of_list_In, in_map_iff in Hw as (y & <- & Hy). apply both_fine; apply strip_lacks; eapply split_on_incl; eassumption.
Qed.
Lemma td_update i f : (forall u, mild u = true -> mild (f u) = true) -> td (update_text i f) any.
Proof. intros H. unfold update_text. eapply td_bind; [apply td_get_str|intros u Hu]. apply td_setattr, text_strict, H, (tidy_text src), Hu. Qed.
Lemma mild_after u : mild u = true -> mild (u ++ lit " ") = true.
Proof. intros H. apply mild_app; [exact H|reflexivity]. Qed.
Lemma mild_before u : mild u = true -> mild (lit " " ++ u) = true.
Proof. intros H. apply mild_app; [reflexivity|exact H]. Qed.
Lemma td_pad t i x c : td (pad_text t i x c) any.
Proof.
  unfold pad_text. destruct (type_in _ t); [|apply td_ret; exact I]. eapply (td_bind _ _ _ any); [|intros _ _].
  - destruct (pl_next x); [|apply td_ret; exact I]. destruct (Z.ltb _ _); [|apply td_ret; exact I]. apply (td_update i (fun u => u ++ lit " ")), mild_after.
  - destruct (pl_prev x); [|apply td_ret; exact I]. destruct (Z.ltb _ _); [|apply td_ret; exact I]. apply (td_update i (fun u => lit " " ++ u)), mild_before.
Qed.
Notation all_in := (fun r : step_res => Forall (fun e => inside (pl_node e.2)) r.2).
Lemma under_in p l c : inside c -> (forall x, In x l -> In x (named_children c)) -> Forall (fun e : entry => inside (pl_node e.2)) (under p l).
Proof.
  intros Hc H. apply list.Forall_forall. intros e He. apply elem_of_list_In, in_map_iff in He as (x & <- & Hx). cbn [snd].
  eapply preorder_child; [exact Hc|]. apply named_child, H, Hx.
Qed.
Lemma pushed_in skip c x : In x (pushed skip c) -> In x (named_children c).
Proof. intros H. apply List.filter_In in H. apply H. Qed.
Lemma td_step_node v p t x c skip : inside c -> typed t c -> td (step_node v p t x c skip) all_in.
Proof using NM.
  intros Hc Ht. unfold step_node.
  eapply td_bind; [apply td_make_node, Hc|intros i _]. eapply td_bind; [apply td_ingest_meta, Hc|intros _ _].
  eapply td_bind; [apply td_asis, Hc|intros _ _]. eapply td_bind; [apply td_claim|intros j _]. eapply td_bind; [apply td_kind, Hc|intros _ _].
  eapply td_bind; [apply td_target; assumption|intros s1 _]. eapply td_bind; [apply td_prev|intros _ _].
  eapply td_bind; [apply td_cite; assumption|intros s2 _]. eapply td_bind; [apply td_pad|intros _ _]. eapply td_bind; [apply td_attach|intros _ _].
  apply td_ret. cbn [snd]. apply (under_in _ _ c Hc). apply pushed_in.
Qed.
Lemma td_section v p c : inside c -> td (step_section v p c) all_in.
Proof using NM.
  intros Hc. unfold step_section. destruct (ast_type (c_type c)) as [[k kw]|] eqn:E; [|apply td_raise].
  eapply td_bind; [eapply td_ast, E|intros i _]. eapply (td_bind _ _ _ any); [|intros _ _].
  - destruct (field_child "title" c) as [t|] eqn:Et; [|apply td_ret; exact I]. apply td_setattr, loose_strict.
    + eapply (nm_title _ _ NM); eassumption.
    + apply (bool_decide_eq_true_1 (_ ∈ loose)); reflexivity.
    + discriminate.
  - cbv zeta. eapply td_bind; [apply td_ingest_meta, Hc|intros _ _]. eapply td_bind; [apply td_attach|intros _ _].
    apply td_ret. cbn [snd]. apply (under_in _ _ c Hc). apply pushed_in.
Qed.
Lemma td_bibitem v p c : inside c -> is_type "bibitem" c = true -> td (step_bibitem v p c) all_in.
Proof using NM.
  intros Hc Hb. unfold step_bibitem. eapply td_bind; [apply td_new_node; constructor|intros b _].
  assert (F : forall x, td (field_text x c) (fun u => lacks LT u = true /\ lacks QUOTE u = true)).
  { intros x. unfold field_text. destruct (field_child x c) eqn:E; [|apply td_raise]. apply td_ret. eapply (nm_bib _ _ NM); eassumption. }
  eapply td_bind; [apply F|intros u [U1 U2]]. eapply td_bind; [apply td_setattr, fine_strict; assumption|intros _ _].
  eapply td_bind; [apply F|intros w [W1 W2]]. eapply td_bind; [apply td_setattr, fine_strict; assumption|intros _ _].
  eapply (td_bind _ _ _ any).
  - apply (td_iterM _ _ (fun d => inside d /\ is_type "bibitempair" d = true)).
    + intros d [Hd Et]. unfold set_pair. destruct (named_children d) as [|k [|y [|z l]]] eqn:En; try apply td_raise. apply td_py_setattr.
      assert (Ed : c_type d = lit "bibitempair") by (apply str_eqb_eq, Et).
      eapply value_strict; [exact Hd|rewrite Ed; reflexivity| |].
      * unfold pair_keys. rewrite En, Et. left. reflexivity.
      * left. exists (pl_node y). split; [|left; reflexivity]. eapply preorder_child; [apply preorder_self|]. apply named_child. rewrite En. right. left. reflexivity.
    + apply list.Forall_forall. intros d Hd. apply elem_of_list_In, in_map_iff in Hd as (q & <- & Hq). apply List.filter_In in Hq as [Hq Eq].
      split; [|exact Eq]. eapply preorder_child; [exact Hc|apply named_child, Hq].
  - intros _ _. destruct p as [p|]; [|apply td_raise]. eapply td_bind; [apply td_append|intros _ _]. apply td_ret. constructor.
Qed.
Lemma td_bibliography v : td (step_bibliography v) all_in.
Proof.
  unfold step_bibliography. eapply td_bind; [apply td_new_node; constructor|intros b _]. destruct (ps_root v); [|apply td_raise].
  eapply td_bind; [apply td_append|intros _ _]. apply td_ret. constructor.
Qed.
Lemma td_bibtex v c : inside c -> td (step_bibtex v c) all_in.
Proof.
  intros Hc. unfold step_bibtex. destruct (ps_bib v).
  - eapply td_bind; [apply (td_iterM _ _ any); [intros; apply td_log|apply all_any]|intros _ _]. apply td_ret. cbn [snd].
    apply (under_in _ _ c Hc). intros x Hx. apply List.filter_In in Hx. apply Hx.
  - eapply td_bind; [apply td_log|intros _ _]. apply td_ret. constructor.
Qed.
Lemma td_nth n c : td (nth_named n c) (fun p => In p (named_children c)).
Proof. unfold nth_named. destruct (nth_error _ n) eqn:E; [apply td_ret; eapply nth_error_In, E|apply td_raise]. Qed.
Lemma td_step v p x : inside (pl_node x) -> td (Parser.step v p x) all_in.
Proof using NM.
  intros Hc. unfold Parser.step. cbv zeta. set (c := pl_node x) in *.
  assert (S : forall f, In f (named_children c) -> inside (pl_node f)).
  { intros f Hf. eapply preorder_child; [exact Hc|apply named_child, Hf]. }
  destruct (is_type "comment" c); [apply td_ret; constructor|]. destruct (_ && _); [apply td_bibliography|].
  destruct (is_type "bibtex" c); [apply td_bibtex, Hc|]. destruct (is_type "bibitem" c) eqn:Eb; [apply td_bibitem; assumption|].
  destruct (_ || _); [apply td_section, Hc|].
  destruct (type_in _ _).
  { eapply td_bind; [apply td_nth|intros f Hf]. destruct (is_type "table" _); [apply td_ret; constructor; [apply S, Hf|constructor]|].
    apply td_step_node; [exact Hc|]. right. exists (pl_node f). split; [apply named_child, Hf|reflexivity]. }
  destruct (is_type "td" c).
  { eapply td_bind; [apply td_nth|intros f Hf]. apply td_ret. constructor; [apply S, Hf|constructor]. }
  destruct (is_type "paragraph" c).
  { eapply td_bind; [apply td_nth|intros f Hf]. destruct (type_in _ _); apply td_step_node; [apply S, Hf|left; reflexivity|exact Hc|left; reflexivity]. }
  destruct (type_in _ _).
  { destruct (field_child "tag" c) as [g|] eqn:E; [|apply td_raise]. apply td_step_node; [exact Hc|]. right. exists (pl_node g). split; [eapply fielded_child, E|reflexivity]. }
  apply td_step_node; [exact Hc|left; reflexivity].
Qed.
Lemma td_abs_loop fuel : forall v st, Forall (fun e : entry => inside (pl_node e.2)) st -> td (abs_loop fuel v st) any.
Proof using NM.
  induction fuel as [|fuel IH]; intros v [|[p x] st] H; cbn [abs_loop]; try (apply td_ret; exact I); [apply td_raise|].
  inversion H as [|? ? H1 H2]; subst. eapply td_bind; [apply td_step, H1|intros r Hr]. apply IH, Forall_app. split; [exact Hr|exact H2].
Qed.

(** ** Normalisation *)

Lemma td_merge run : td (merge_run run) any.
Proof.
  unfold merge_run. destruct run as [|f [|y r]]; try (apply td_ret; exact I).
  eapply td_bind; [apply td_get_str|intros u Hu]. eapply td_bind; [apply (td_mapM _ _ any); [intros; apply td_get_str|apply all_any]|intros m Hm].
  eapply td_bind; [apply td_get_str|intros w Hw]. eapply td_bind; [apply td_setattr, text_strict|intros _ _].
  - apply mild_merged; [apply (tidy_text src), Hu| |apply (tidy_text src), Hw].
    apply forallb_forall. intros z Hz. rewrite list.Forall_forall in Hm. apply (tidy_text src), Hm, elem_of_list_In, Hz.
  - apply (td_iterM _ _ any); [intros; apply td_remove_self|apply all_any].
Qed.
Lemma td_is_text i : td (Parser.is_text i) any. Proof. apply td_inst. Qed.
Lemma td_when i f : (forall u, mild u = true -> mild (f u) = true) -> td (when_text i f) any.
Proof. intros H. unfold when_text. eapply td_bind; [apply td_is_text|intros b _]. destruct b; [apply td_update, H|apply td_ret; exact I]. Qed.
Lemma td_strip_ends i : td (strip_ends i) any.
Proof.
  unfold strip_ends. eapply td_bind; [apply td_cls_of|intros k _]. eapply td_bind; [apply td_children_of|intros cs _].
  destruct (subclass _ _); [apply td_ret; exact I|]. destruct cs; [apply td_ret; exact I|].
  eapply td_bind; [apply td_when, mild_lstrip|intros _ _]. apply td_when, mild_rstrip.
Qed.
Lemma td_strip_paragraph i : td (strip_paragraph i) any.
Proof.
  unfold strip_paragraph. eapply td_bind; [apply td_cls_of|intros k _]. destruct (subclass _ _); [|apply td_ret; exact I].
  eapply td_bind; [apply td_first_of_type|intros f _]. eapply (td_bind _ _ _ any); [|intros _ _].
  - destruct f as [[f n]|]; [|apply td_ret; exact I]. eapply td_bind; [apply td_prev_sibling|intros q _]. destruct q; [apply td_ret; exact I|apply td_update, mild_lstrip].
  - eapply td_bind; [apply td_last_of_type|intros l _]. destruct l as [[l n]|]; [|apply td_ret; exact I].
    eapply td_bind; [apply td_next_sibling|intros q _]. destruct q; [apply td_ret; exact I|apply td_update, mild_rstrip].
Qed.
Lemma keyword_mild kind w : keyword_of kind = Some w -> mild w = true.
Proof.
  intros H. unfold keyword_of in H. destruct kind; try discriminate H. destruct (find _ kind_to_keyword) as [p|] eqn:E; [|discriminate H]. injection H as <-.
  apply find_some in E as [E _]. assert (K : forallb (fun p : string * string => mild (lit p.2)) kind_to_keyword = true) by reflexivity.
  rewrite forallb_forall in K. apply K, E.
Qed.
Lemma td_one_text u : mild u = true -> td (new_node CText [(a_text, VStr u)]) any.
Proof. intros H. apply td_new_node. constructor; [apply text_strict, H|constructor]. Qed.
Lemma td_pad_construct i : td (pad_construct i) any.
Proof.
  unfold pad_construct. eapply td_bind; [apply td_cls_of|intros k _]. destruct (subclass _ _); [|apply td_ret; exact I].
  eapply td_bind; [apply td_first_of_type|intros f _]. eapply (td_bind _ _ _ any); [|intros _ _].
  { destruct f as [[f n]|]; [|apply td_ret; exact I]. eapply td_bind; [apply td_prev_sibling|intros q _]. destruct q; [apply td_ret; exact I|apply td_update, mild_before]. }
  eapply td_bind; [apply td_first_of_type|intros m _]. eapply (td_bind _ _ _ any); [|intros _ _].
  { destruct m as [[m n]|]; [|apply td_ret; exact I]. eapply td_bind; [apply td_prev_sibling|intros q _]. destruct q; [apply td_ret; exact I|].
    eapply td_bind; [apply td_one_text; reflexivity|intros t _]. apply td_prepend. }
  eapply td_bind; [apply td_new_node; constructor|intros kw _]. eapply td_bind; [apply td_getattr|intros kind _].
  destruct (keyword_of kind) as [w|] eqn:E; [|apply td_raise]. eapply td_bind; [apply td_one_text; eapply keyword_mild, E|intros t _].
  eapply td_bind; [apply td_append|intros _ _]. apply td_prepend.
Qed.
Lemma td_squeeze i : td (squeeze_children i) any.
Proof.
  unfold squeeze_children. eapply td_bind; [apply td_children_of|intros cs _]. apply (td_iterM _ _ any); [intros; apply td_when, mild_squeeze|apply all_any].
Qed.
Lemma td_space_after i : td (space_after i) any.
Proof.
  unfold space_after. eapply td_bind; [apply td_next_sibling|intros n _]. destruct n; [|apply td_ret; exact I].
  eapply td_bind; [apply td_cls_of|intros k _]. eapply td_bind; [apply td_cls_of|intros k2 _]. destruct (_ && _); [|apply td_ret; exact I].
  eapply td_bind; [apply td_one_text; reflexivity|intros t _]. apply td_replace.
Qed.
Lemma td_escape_node i : td (escape_node i) any.
Proof.
  unfold escape_node. eapply td_bind; [apply td_cls_of|intros k _].
  assert (K : td (let! t := getattr i a_title in setattr i a_title (VStr (Parser.unescape (fmt_val t)))) any).
  { eapply td_bind; [apply td_getattr|intros v Hv]. apply td_setattr, loose_strict.
    - apply lacks_unescape. apply (tidy_lt src a_title); [exact Hv|discriminate..].
    - apply (bool_decide_eq_true_1 (_ ∈ loose)); reflexivity.
    - discriminate. }
  eapply (td_bind _ _ _ any).
  { destruct (subclass _ _); [|apply td_ret; exact I]. eapply td_bind; [apply td_getattr|intros a _]. destruct (truthy a); [apply td_ret; exact I|apply td_update, mild_unescape]. }
  intros _ _. eapply (td_bind _ _ _ any).
  { destruct (subclass _ _); [exact K|apply td_ret; exact I]. }
  intros _ _. destruct (subclass _ _); [exact K|apply td_ret; exact I].
Qed.
Lemma td_normalize_body a i : td (normalize_body a i) any.
Proof.
  unfold normalize_body. eapply td_bind; [apply td_children_of|intros cs _].
  eapply td_bind; [apply (td_mapM _ _ any any); [|apply all_any]|intros bs _].
  { intros x _. eapply td_bind; [apply td_is_text|intros b _]. apply td_ret. exact I. }
  eapply td_bind; [apply (td_iterM _ _ any); [intros; apply td_merge|apply all_any]|intros _ _].
  eapply td_bind; [apply td_strip_ends|intros _ _]. eapply td_bind; [apply td_strip_paragraph|intros _ _].
  eapply td_bind; [apply td_pad_construct|intros _ _]. eapply td_bind; [apply td_squeeze|intros _ _].
  eapply td_bind; [apply td_space_after|intros _ _]. apply td_escape_node.
Qed.
Lemma td_abstractify fuel : td (abstractify fuel c0) any.
Proof using NM.
  unfold abstractify. eapply td_bind; [apply td_abs_loop; constructor; [apply preorder_self|constructor]|intros v _].
  eapply (td_bind _ _ _ any); [|intros _ _; apply td_ret; exact I]. unfold normalize_text. destruct (ps_root v); [|apply td_ret; exact I].
  apply td_for; [intros; apply td_normalize_body|exact I].
Qed.
Lemma td_parse fuel : td (parse fuel c0) any.
Proof using NM.
  unfold parse. eapply td_bind; [apply td_log|intros _ _]. eapply td_bind; [apply td_log|intros _ _].
  eapply (td_bind _ _ _ any).
  - intros s s' r Hs K. unfold catch in K. destruct (abstractify fuel c0 s) as [s1 [x|e]] eqn:E.
    + injection K as <- <-. exact (td_abstractify fuel s s1 x Hs E).
    + destruct e; discriminate K.
  - intros r _. destruct r as [r|]; [|apply td_raise]. eapply td_bind; [apply td_setattr|intros _ _; apply td_ret; exact I].
    split; [|discriminate]. cbn [tidy]. unfold fine, fine_lt. split.
    + rewrite bool_decide_eq_false_2 by discriminate. rewrite bool_decide_eq_true_2 by reflexivity. cbn [andb negb]. pose proof (nm_src _ _ NM) as HS. destruct src; cbn [negb]; [apply HS; reflexivity|exact I].
    + intros Hn. exfalso. apply Hn. apply (bool_decide_eq_true_1 (_ ∈ loose)); reflexivity.
Qed.
End TidyParse.
