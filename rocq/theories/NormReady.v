(** What the loop of the parser makes has what the normalisation reads; parsing returns. *)
From Verif Require Import TreeFacts Meta TocBuild Queries.
From Verif Require Export NormTotal ParseTyped.
From Verif Require Import ParseEnds Fuel Consistency EditTotal NodeProofs NodeOps Monad.
Local Open Scope string_scope.
Local Open Scope list_scope.

(** ** Constructs have a keyword *)

Definition kinded (t : atree) : Prop := subclass (a_class t) CConstruct = true -> exists v w, a_attrs t !! a_kind = Some v /\ keyword_of v = Some w.
Definition not_construct (p : string * (cls * list (attr * val))) : bool :=
  negb (subclass p.2.1 CConstruct) || type_in ["construct"; "specialconstruct"] (lit p.1).
Lemma constructs_named : forallb not_construct ast_types = true. Proof. vm_compute. reflexivity. Qed.
Lemma construct_type t : subclass (node_class t) CConstruct = true -> type_in ["construct"; "specialconstruct"] t = true.
Proof.
  unfold node_class, ast_type. destruct (find _ _) as [p|] eqn:E; [|intros H; discriminate H]. apply find_some in E as [Hin E].
  pose proof constructs_named as Hall. rewrite forallb_forall in Hall. specialize (Hall p Hin). unfold not_construct in Hall.
  apply str_eqb_eq in E. rewrite E in Hall. destruct (p.2) as [k kw]. cbn [fst] in *. intros H. rewrite H in Hall. exact Hall.
Qed.
Lemma keyword_known t : type_in (map fst kind_to_keyword) t = true -> exists w, keyword_of (VStr t) = Some w.
Proof.
  intros H. apply type_in_true in H as (z & Hz & ->). cbn [keyword_of]. apply in_map_iff in Hz as (p & <- & Hp).
  destruct (find (fun q => str_eqb (lit q.1) (lit p.1)) kind_to_keyword) as [q|] eqn:E; [eauto|].
  exfalso. pose proof (find_none _ _ E p Hp) as Hn. cbn beta in Hn. rewrite (proj2 (str_eqb_eq _ _) eq_refl) in Hn. discriminate Hn.
Qed.
Lemma kinded_node t x c l : parts_fit t c = true -> kinded (A (node_class t) (node_attrs t x c) l).
Proof.
  intros Hf Hc. cbn [a_class a_attrs] in *. apply construct_type in Hc. unfold parts_fit in Hf. rewrite !andb_true_iff in Hf. destruct Hf as [_ Hf].
  rewrite Hc in Hf. destruct (field_child "tag" c) as [g|] eqn:Eg; [|discriminate Hf]. destruct (keyword_known _ Hf) as (w & Ew).
  exists (VStr (c_type (pl_node g))), w. split; [|exact Ew]. unfold node_attrs, with_parts. cbv zeta.
  apply type_in_true in Hc as (z & [<-|[<-|[]]] & ->);
    cbn -[node_class c_type with_meta insert lookup subclass mk_attrs ast_type field_child]; rewrite Eg; apply lookup_insert.
Qed.
Lemma kinded_other c m l : subclass c CConstruct = false -> kinded (A c m l). Proof. intros H Hc. cbn [a_class] in Hc. congruence. Qed.
Definition all_kinded (ts : list atree) : Prop := Forall kinded (flat_map a_preorder ts).
Lemma all_kinded_app l1 l2 : all_kinded (l1 ++ l2) <-> all_kinded l1 /\ all_kinded l2.
Proof. unfold all_kinded. rewrite flat_map_app, Forall_app. reflexivity. Qed.
Lemma all_kinded_one c m ts : kinded (A c m ts) -> all_kinded ts -> all_kinded [A c m ts].
Proof. intros H Hs. unfold all_kinded. cbn [flat_map]. rewrite app_nil_r. constructor; assumption. Qed.
Lemma all_kinded_cons t ts : all_kinded [t] -> all_kinded ts -> all_kinded (t :: ts).
Proof. intros H Hs. apply (all_kinded_app [t] ts). auto. Qed.
Lemma verbatim_kinded t m c : all_kinded (verbatim t m c).
Proof.
  unfold verbatim. destruct (type_in _ _); [apply all_kinded_one; [apply kinded_other; reflexivity|constructor]|].
  destruct (type_in _ _); [apply all_kinded_one; [apply kinded_other; reflexivity|constructor]|constructor].
Qed.
Lemma shaped_kinded t x c ts : parts_fit t c = true -> all_kinded ts -> all_kinded [shaped t x c ts].
Proof.
  intros Hf Hs. unfold shaped. destruct (type_in ["mathblock"] t && _).
  - apply all_kinded_one; [|apply all_kinded_cons; [|exact Hs]].
    { intros _. exists (VStr (lit "claimblock")). eexists. split; reflexivity. }
    apply all_kinded_one; [apply kinded_other; reflexivity|apply verbatim_kinded].
  - apply all_kinded_one; [apply kinded_node, Hf|]. destruct (has_children _); [|constructor]. apply all_kinded_app. split; [apply verbatim_kinded|exact Hs].
Qed.
Lemma bibitem_kinded c : all_kinded [bibitem c].
Proof. apply all_kinded_one; [apply kinded_other; reflexivity|constructor]. Qed.
Lemma section_type t : str_eqb t (lit "source_file") || suffixb (lit "section") t = true -> subclass (node_class t) CConstruct = false.
Proof.
  intros H. destruct (subclass (node_class t) CConstruct) eqn:E; [|reflexivity]. apply construct_type in E.
  apply type_in_true in E as (z & [<-|[<-|[]]] & ->); vm_compute in H; discriminate H.
Qed.
Definition child_kinded (c : cst) : Prop := forall prev next p, fits c p = true -> all_kinded (fst (mirror prev next c)).
Lemma handed_kinded skip c k : Forall child_kinded (c_children c) -> fit_kids k skip c = true -> all_kinded (nodes_of (handed_on skip (places_and_outcomes c))).
Proof.
  intros H Hf. rewrite handed_on_eq. unfold nodes_of, fit_kids in *. assert (Hin : forall x, In x (pushed skip c) -> child_kinded (pl_node x)).
  { intros x Hx. unfold pushed in Hx. apply filter_In in Hx as [Hx _]. apply named_child in Hx. rewrite List.Forall_forall in H. auto. }
  induction (pushed skip c) as [|x l IH]; [constructor|]. cbn [forallb map flat_map] in *. apply andb_true_iff in Hf as [Hx Hf].
  apply all_kinded_app. split; [eapply (Hin x); [left; reflexivity|exact Hx]|]. apply IH; [exact Hf|]. intros y Hy. apply Hin. right. exact Hy.
Qed.
Lemma as_node_kinded t x skip d : Forall child_kinded (c_children (pl_node x)) -> node_fit t (pl_node x) skip d = true ->
  all_kinded (fst (as_node t x skip (places_and_outcomes (pl_node x)))).
Proof.
  intros H Hf. unfold node_fit in Hf. rewrite !andb_true_iff in Hf. destruct Hf as [[Hp _] Hk]. unfold as_node. cbn [fst].
  apply shaped_kinded; [exact Hp|]. eapply handed_kinded; eassumption.
Qed.
Lemma mirror_kinded c : child_kinded c.
Proof.
  induction c as [t f n tx sp ep cs IH] using cst_ind'. intros prev next p Hfit.
  change (mirror prev next (Cst t f n tx sp ep cs)) with (out (MkPlace 0 prev (Cst t f n tx sp ep cs) next)).
  rewrite out_eq. set (x := MkPlace 0 prev (Cst t f n tx sp ep cs) next).
  assert (Hc : Forall child_kinded (c_children (pl_node x))) by exact IH. change (Cst t f n tx sp ep cs) with (pl_node x) in Hfit. clearbody x. clear IH.
  assert (Hfirst : forall y, nth_error (named_children (pl_node x)) 0 = Some y -> fits (pl_node y) p = true -> all_kinded (fst (out y))).
  { intros y E Hy. apply nth_error_In, named_child in E. rewrite List.Forall_forall in Hc. exact (Hc _ E _ _ _ Hy). }
  rewrite fits_eq in Hfit. unfold fits_at in Hfit. unfold mirror_at. rewrite first_named_eq. cbv zeta in *.
  destruct (is_type "comment" _); [constructor|]. destruct (is_type "specialblock" _ && _); [constructor|].
  destruct (is_type "bibtex" _); [constructor|]. destruct (is_type "bibitem" _); [apply bibitem_kinded|].
  destruct (is_type "source_file" (pl_node x) || suffixb (lit "section") (c_type (pl_node x))) eqn:Es.
  { destruct (ast_type _) as [[k kw]|]; [|discriminate Hfit]. rewrite !andb_true_iff in Hfit. destruct Hfit as [_ Hk]. cbn [fst].
    apply all_kinded_one; [apply kinded_other, section_type, Es|]. eapply handed_kinded; eassumption. }
  destruct (type_in ["specialblock"; "specialinline"] _).
  { destruct (nth_error _ 0) as [g|] eqn:E; [|discriminate Hfit]. cbn [option_map]. destruct (is_type "table" _).
    - apply Hfirst; auto.
    - eapply as_node_kinded; eassumption. }
  destruct (is_type "td" _).
  { destruct (nth_error _ 0) as [g|] eqn:E; [|discriminate Hfit]. cbn [option_map]. apply Hfirst; auto. }
  destruct (is_type "paragraph" _).
  { destruct (nth_error _ 0) as [g|] eqn:E; [|discriminate Hfit]. cbn [option_map]. destruct (type_in ["item"; "caption"] _).
    - apply Hfirst; auto.
    - eapply as_node_kinded; eassumption. }
  destruct (type_in ["block"; "inline"] _); [|eapply as_node_kinded; eassumption].
  destruct (field_child "tag" _) as [g|]; [|discriminate Hfit]. eapply as_node_kinded; eassumption.
Qed.
Lemma entries_kinded c : all_kinded (entries c).
Proof. unfold entries. induction (List.filter _ _) as [|x l IH]; [constructor|]. cbn [map]. apply all_kinded_cons; [apply bibitem_kinded|exact IH]. Qed.
Lemma entries_here_kinded l : all_kinded (entries_here l).
Proof.
  induction l as [|[t|[|c|c]] l IH]; cbn [entries_here]; try assumption; try constructor. apply all_kinded_app. split; [apply entries_kinded|exact IH].
Qed.
Lemma lay_out_kinded l : (forall t, In (inl t) l -> all_kinded [t]) -> all_kinded (lay_out l).
Proof.
  induction l as [|[t|[|c|c]] l IH]; intros H; cbn [lay_out]; [constructor| | | |]; try (apply IH; intros u Hu; apply H; right; exact Hu).
  - apply all_kinded_cons; [apply H; left; reflexivity|]. apply IH. intros u Hu. apply H. right. exact Hu.
  - apply all_kinded_cons; [|apply IH; intros u Hu; apply H; right; exact Hu]. apply all_kinded_one; [apply kinded_other; reflexivity|apply entries_here_kinded].
Qed.
Lemma mirrored_kinded c : source c -> well_formed c -> Forall kinded (a_preorder (mirrored c)).
Proof.
  intros [Hs _] Hw. unfold well_formed in Hw. rewrite fits_eq in Hw. unfold fits_at in Hw. apply is_type_true in Hs as Et. unfold is_type in Hw. rewrite Et in Hw.
  change (match ast_type (lit "source_file") with Some (k, _) => meta_fits c && may_be_in k None && fit_kids k (skipped_title c) c | None => false end = true) in Hw.
  destruct (ast_type (lit "source_file")) as [[k kw]|]; [|discriminate Hw]. rewrite !andb_true_iff in Hw. destruct Hw as [_ Hk].
  assert (Hc : Forall child_kinded (c_children c)) by (apply List.Forall_forall; intros d _; apply mirror_kinded).
  pose proof (handed_kinded _ _ _ Hc Hk) as Hh. unfold mirrored. cbn [a_preorder].
  constructor; [apply kinded_other; reflexivity|]. apply lay_out_kinded. intros t Ht. apply in_flat_map in Ht as (o & Ho & Ht).
  apply in_app_iff in Ht as [Ht|Ht]; apply in_map_iff in Ht as (u & E & Hu); [|discriminate E]. injection E as ->.
  unfold all_kinded in *. cbn [flat_map]. rewrite app_nil_r. rewrite List.Forall_forall in Hh. apply List.Forall_forall. intros y Hy. apply Hh.
  apply in_flat_map. exists t. split; [|exact Hy]. unfold nodes_of. apply in_flat_map. exists o. auto.
Qed.

(** ** Texts have a text, titled nodes a title *)

Lemma text_stocked c : subclass c CText = true -> In a_text (map fst (default_attrs c)) /\ In a_asis (map fst (default_attrs c)).
Proof. destruct c; vm_compute; intros H; try discriminate H; tauto. Qed.
Lemma title_stocked c : subclass c CSection = true \/ subclass c CManuscript = true -> In a_title (map fst (default_attrs c)).
Proof. destruct c; vm_compute; intros [H|H]; try discriminate H; tauto. Qed.
Lemma stocked_fit s i n : complete s -> (forall a v, n_attrs n !! a = Some v -> attr_shape a v = true) -> st_heap s !! i = Some n ->
  (subclass (n_cls n) CConstruct = true -> exists v w, n_attrs n !! a_kind = Some v /\ keyword_of v = Some w) -> fit_node (n_cls n) (n_attrs n).
Proof.
  intros Hc Ha Hn Hk. split; [|split; [|exact Hk]].
  - intros Ht. destruct (text_stocked _ Ht) as [H1 H2]. split; [|exact (Hc _ _ _ Hn H2)]. destruct (Hc _ _ _ Hn H1) as [v Hv]. specialize (Ha _ _ Hv).
    cbn [attr_shape] in Ha. destruct v; try discriminate Ha. eauto.
  - intros Ht. exact (Hc _ _ _ Hn (title_stocked _ Ht)).
Qed.
Lemma holds_sound s : complete s -> (forall i n a v, st_heap s !! i = Some n -> n_attrs n !! a = Some v -> attr_shape a v = true) ->
  forall t p u, SpecParse.holds (st_heap s) p u t -> Forall kinded (a_preorder t) -> exists h, sound h t.
Proof.
  intros Hc Ha. induction t as [c m ts IH] using atree_ind'. intros p u H Hk. inversion H as [? i n us ? Hn Hp Hks Hts]; subst.
  cbn [a_preorder] in Hk. apply list.Forall_cons in Hk as [Hk1 Hk].
  assert (Hh : exists h, Forall (sound h) ts).
  { clear Hks H Hk1. revert us Hts. induction ts as [|t ts IHts]; intros us Hts; [exists 0; constructor|]. inversion Hts as [|? ? ? ? Ht Hts']; subst.
    apply list.Forall_cons in IH as [I1 I2]. cbn [flat_map] in Hk. apply list.Forall_app in Hk as [K1 K2].
    destruct (I1 _ _ Ht K1) as [h1 S1]. destruct (IHts I2 K2 _ Hts') as [h2 S2]. exists (max h1 h2).
    constructor; [eapply sound_more; [exact S1|lia]|]. eapply List.Forall_impl; [|exact S2]. intros y Hy. eapply sound_more; [exact Hy|lia]. }
  destruct Hh as [h Hh]. exists (S (max h 2)). constructor.
  - eapply stocked_fit; [exact Hc|intros; eapply Ha; eassumption|exact Hn|exact Hk1].
  - lia.
  - eapply List.Forall_impl; [|exact Hh]. intros y Hy. eapply sound_more; [exact Hy|lia].
Qed.

(** ** Parsing *)

Lemma abstractify_returns c s : source c -> keys_typed c -> well_formed c -> sane s ->
  exists fuel s' i, abstractify fuel c s = (s', Ok (Some i)) /\ is_Some (st_heap s' !! i).
Proof.
  intros Hc Hk Hw (Hg & _ & Ht & Hcm). destruct (abs_loop_returns c s Hc Hk Hw Hg) as (f1 & s1 & v & E1).
  destruct (abs_loop_mirrors _ _ _ _ _ Hc Hg E1) as (t & Hr & Hh & Hg1 & _).
  pose proof (proj2 (simple_both s f1 c Hk) s Ht) as Hsim. pose proof (proj2 (complete_both f1 c) s Hcm) as Hcom. rewrite E1 in Hsim, Hcom. cbn [fst] in *.
  destruct (holds_sound s1 Hcom) with (t := mirrored c) (p := @None id) (u := t) as [h Hs].
  { intros i n a x Hn Hx. exact (proj1 (Hsim i n a x Hn Hx)). }
  { exact Hh. }
  { apply mirrored_kinded; assumption. }
  destruct t as [i us]. unfold mirrored in Hh, Hs. destruct (normalize_goes _ _ _ _ _ _ _ Hg1 Hh Hs) as (f2 & s2 & E2).
  exists (f1 + f2), s2, i. split.
  2:{ destruct (normalize_ok _ _ _ _ _ _ _ _ _ Hg1 Hh eq_refl E2) as (_ & us' & Hh' & _). inversion Hh'. eauto. }
  unfold abstractify. unfold bind at 1. rewrite (abs_loop_more f1 f2 _ _ _ _ _ E1) by discriminate. rewrite Hr. cbn [root].
  unfold bind at 1. unfold normalize_text, for_traverse in *. rewrite (trav_more _ _ f2 (f1 + f2) _ _ _ _ _ ltac:(lia) E2). reflexivity.
Qed.
Lemma parse_returns c s : source c -> keys_typed c -> well_formed c -> sane s -> exists fuel s' i, parse fuel c s = (s', Ok i).
Proof.
  intros Hc Hk Hw Hs. set (s0 := MkSt (st_heap s) (st_next s) ((st_logs s ++ [MkLog logger_parse INFO (lit "Parsing...") None]) ++ [MkLog logger_parse INFO (lit "Abstractifying...") None])).
  destruct (abstractify_returns c s0 Hc Hk Hw) as (fuel & s' & i & E & Hi); [exact Hs|].
  exists fuel. unfold parse. unfold bind at 1, info at 1, log_rec at 1. cbn [st_heap st_next st_logs]. unfold bind at 1, info at 1, log_rec at 1. cbn [st_heap st_next st_logs].
  fold s0. unfold bind at 1, catch. rewrite E.
  destruct (set_returns i a_src (VStr (c_text c)) s' Hi) as (s2 & E2 & _). unfold bind. rewrite E2. unfold ret. eauto.
Qed.
