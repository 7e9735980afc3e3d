(** The manuscript follows the order of the source. *)
From Verif Require Import TreeFacts Meta TocBuild.
From Verif Require Export ParseMirror.
From Verif Require Import Consistency NodeProofs NodeOps Monad.
Local Open Scope string_scope.
Local Open Scope list_scope.

Lemma cst_ind' (P : cst -> Prop) :
  (forall t f n x sp ep cs, Forall P cs -> P (Cst t f n x sp ep cs)) -> forall c, P c.
Proof.
  intros H. fix IH 1. intros [t f n x sp ep cs]. apply H.
  induction cs as [|c cs IHc]; constructor; [apply IH|exact IHc].
Qed.

(** ** Attributes that meta data cannot give *)

Definition is_point (v : val) : bool := match v with VPoint _ _ => true | _ => false end.
(** Either the start point is [p], or it is no point at all. *)
Definition starts (p : Z * Z) (m : gmap attr val) : Prop :=
  forall a b, m !! a_start_point = Some (VPoint a b) -> (a, b) = p.
Definition plain (d : list (str * val)) : Prop := Forall (fun kv => is_point kv.2 = false) d.
Lemma starts_insert p m a v : starts p m -> is_point v = false -> starts p (<[a := v]> m).
Proof.
  intros H Hv x y. destruct (decide (a = a_start_point)) as [->|Hne].
  - rewrite lookup_insert. intros [= ->]. discriminate.
  - rewrite lookup_insert_ne by assumption. apply H.
Qed.
Lemma starts_assign p d : forall m, plain d -> starts p m -> starts p (fold_left assign d m).
Proof.
  induction d as [|[k v] d IH]; intros m Hd Hm; [assumption|]. apply list.Forall_cons in Hd as [Hv Hd].
  simpl. apply IH; [assumption|]. apply starts_insert; assumption.
Qed.
Lemma dict_set_plain d k v : plain d -> is_point v = false -> plain (dict_set d k v).
Proof.
  intros Hd Hv. unfold dict_set. destruct (existsb _ d).
  - induction Hd as [|[k' v'] d Hk Hd IH]; [constructor|]. cbn [map]. constructor; [|assumption].
    cbn [fst]. destruct (str_eqb k' k); assumption.
  - apply Forall_app. split; [assumption|]. constructor; [assumption|constructor].
Qed.
Lemma parse_pair_plain k v key x : parse_pair k v = Ok (key, x) -> is_point x = false.
Proof.
  unfold parse_pair. destruct (str_eqb (c_type k) (lit "metakey_list")).
  - destruct (key_name k); [|discriminate]. destruct v; [|discriminate]. intros [= <- <-]. reflexivity.
  - destruct (_ || _).
    + destruct (key_name k); [|discriminate]. destruct v; [|discriminate]. intros [= <- <-]. reflexivity.
    + destruct (str_eqb (c_type k) (lit "metakey_bool")).
      * destruct (key_name k); [|discriminate]. intros [= <- <-]. reflexivity.
      * destruct (str_eqb _ _); discriminate.
Qed.
Lemma parse_pairs_plain l : forall d d', plain d -> parse_pairs l d = Ok d' -> plain d'.
Proof.
  induction l as [|p l IH]; intros d d' Hd H; cbn [parse_pairs] in H; [congruence|].
  destruct (named_children (pl_node p)) as [|k [|v [|]]]; try discriminate.
  - destruct (parse_pair (pl_node k) None) as [[key x]|] eqn:E; [|discriminate].
    eapply IH; [|exact H]. apply dict_set_plain; [assumption|]. eapply parse_pair_plain, E.
  - destruct (parse_pair (pl_node k) (Some (pl_node v))) as [[key x]|] eqn:E; [|discriminate].
    eapply IH; [|exact H]. apply dict_set_plain; [assumption|]. eapply parse_pair_plain, E.
Qed.
Lemma meta_plain c : plain (meta_data c).
Proof.
  unfold meta_data. destruct (field_child "meta" c) as [m|]; [|constructor].
  destruct (parse_meta (pl_node m)) as [d|] eqn:E; [|constructor].
  apply parse_pairs_plain in E; [|constructor]. unfold reftext_to_template. destruct (dict_get d (lit "reftext")) eqn:Eg; [|assumption].
  unfold dict_get in Eg. destruct (find _ d) as [[k x]|] eqn:Ef; [|discriminate]. injection Eg as <-.
  apply find_some in Ef as [Hin _]. unfold plain in E. rewrite List.Forall_forall in E. specialize (E _ Hin) as Hx.
  apply filter_Forall, dict_set_plain; [apply List.Forall_forall; assumption|assumption].
Qed.
Lemma starts_span k kw c : starts (c_start c) (mk_attrs k (kw ++ span_attrs c)).
Proof.
  unfold mk_attrs, span_attrs. rewrite app_assoc, fold_left_app. cbn [fold_left fst snd]. intros a b.
  rewrite lookup_insert_ne by discriminate. rewrite lookup_insert. unfold point. intros [= <- <-]. destruct (c_start c). reflexivity.
Qed.
Lemma on_text_starts p f m : starts p m -> starts p (on_text f m).
Proof. intros H. unfold on_text. destruct (m !! a_text) as [[]|]; try assumption. apply starts_insert; [assumption|reflexivity]. Qed.
Lemma with_parts_starts p t c m : starts p m -> starts p (with_parts t c m).
Proof.
  intros H. unfold with_parts. destruct (type_in ["ref"; "previous"; "url"] t).
  - destruct (nth_error _ 2); repeat apply starts_insert; auto.
  - repeat match goal with |- context [if ?b then _ else _] => destruct b end; try (apply starts_insert; [assumption|reflexivity]); [|assumption].
    destruct (field_child "tag" c); [|assumption]. apply starts_insert; [assumption|reflexivity].
Qed.
Lemma node_attrs_starts t x c : starts (c_start c) (node_attrs t x c).
Proof.
  unfold node_attrs.
  assert (H : starts (c_start c) (match ast_type t with
           | Some (k, kw) => mk_attrs k (kw ++ span_attrs c)
           | None => mk_attrs CError ((a_text, VStr (error_text c)) :: span_attrs c)
           end)).
  { destruct (ast_type t) as [[k kw]|]; [apply starts_span|]. apply (starts_span CError [(a_text, VStr (error_text c))]). }
  set (m := match ast_type t with Some _ => _ | None => _ end) in *. clearbody m.
  assert (H2 : starts (c_start c) (if subclass (node_class t) CText && negb (str_eqb t (lit "ERROR")) then <[a_text := VStr (c_text c)]> m else m)).
  { destruct (_ && _); [apply starts_insert; [assumption|reflexivity]|assumption]. }
  set (m2 := if _ && _ then _ else m) in *. clearbody m2.
  assert (H3 : starts (c_start c) (with_parts t c (with_meta c m2))).
  { apply with_parts_starts. apply starts_assign; [apply meta_plain|assumption]. }
  destruct (type_in ["text"] t); [apply on_text_starts|]; assumption.
Qed.
Lemma section_attrs_starts c : starts (c_start c) (section_attrs c).
Proof.
  unfold section_attrs. apply starts_assign; [apply meta_plain|]. unfold with_field.
  assert (H : starts (c_start c) (match ast_type (c_type c) with Some (k, kw) => mk_attrs k (kw ++ span_attrs c) | None => ∅ end)).
  { destruct (ast_type (c_type c)) as [[k kw]|]; [apply starts_span|]. intros a b. rewrite lookup_empty. discriminate. }
  destruct (field_child "title" c); [apply starts_insert; [assumption|reflexivity]|assumption].
Qed.

(** ** Points in order *)

(** The start of a node in the source, if it has one; boxes around claims are left out. *)
Definition start_of (t : atree) : list (Z * Z) :=
  if cls_mem (a_class t) [CClaimBlock] then [] else
  match a_attrs t !! a_start_point with Some (VPoint a b) => if (0 <=? a)%Z then [(a, b)] else [] | _ => [] end.
Definition starts_of (t : atree) : list (Z * Z) := flat_map start_of (a_preorder t).
Fixpoint c_preorder (c : cst) : list cst := c :: match c with Cst _ _ _ _ _ _ cs => flat_map c_preorder cs end.
Definition c_starts (c : cst) : list (Z * Z) := map c_start (c_preorder c).
Lemma starts_of_A c m ts : starts_of (A c m ts) = start_of (A c m ts) ++ flat_map starts_of ts.
Proof. unfold starts_of. cbn [a_preorder flat_map]. f_equal. induction ts as [|t ts IH]; [reflexivity|]. cbn [flat_map]. rewrite flat_map_app, IH. reflexivity. Qed.
Lemma c_starts_eq c : c_starts c = c_start c :: flat_map c_starts (c_children c).
Proof.
  destruct c as [t f n x sp ep cs]. unfold c_starts. cbn [c_preorder map c_start c_children]. f_equal.
  induction cs as [|c cs IH]; [reflexivity|]. cbn [flat_map]. rewrite map_app, IH. reflexivity.
Qed.
Lemma start_of_sub p c m ts : starts p m -> start_of (A c m ts) `sublist_of` [p].
Proof.
  intros H. unfold start_of. cbn [a_class a_attrs]. destruct (cls_mem c _); [apply sublist_nil_l|].
  destruct (m !! a_start_point) as [[| | | | | | | |a b]|] eqn:E; try apply sublist_nil_l.
  destruct (0 <=? a)%Z; [|apply sublist_nil_l]. rewrite (H a b E). reflexivity.
Qed.
Lemma start_of_none c m ts : starts (-1, -1)%Z m -> start_of (A c m ts) = [].
Proof.
  intros H. unfold start_of. cbn [a_class a_attrs]. destruct (cls_mem c _); [reflexivity|].
  destruct (m !! a_start_point) as [[| | | | | | | |a b]|] eqn:E; try reflexivity.
  destruct (0 <=? a)%Z eqn:El; [|reflexivity]. specialize (H a b E). injection H as -> ->. discriminate.
Qed.
Lemma starts_fold p kw : forall m, plain (map (fun e => (lit "", e.2)) kw) -> starts p m ->
  starts p (fold_left (fun (m : gmap attr val) (q : attr * val) => <[q.1 := q.2]> m) kw m).
Proof.
  induction kw as [|[a v] kw IH]; intros m Hp Hm; [assumption|]. cbn [map] in Hp. apply list.Forall_cons in Hp as [Hv Hp].
  cbn [fold_left fst snd]. apply IH; [assumption|]. apply starts_insert; assumption.
Qed.
Lemma starts_default c kw : plain (map (fun e => (lit "", e.2)) kw) ->
  forallb (fun e => negb (is_point e.2)) (flat_map own_attrs (rev (chain c))) = true -> starts (-1, -1)%Z (mk_attrs c kw).
Proof.
  intros Hk Ho. unfold mk_attrs, default_attrs. rewrite !fold_left_app. apply starts_fold; [assumption|].
  apply starts_fold.
  - apply List.Forall_forall. intros e He. apply in_map_iff in He as (x & <- & Hx). rewrite forallb_forall in Ho.
    specialize (Ho x Hx). cbn [snd]. destruct (is_point x.2); [discriminate|reflexivity].
  - unfold base_attrs. cbn [fold_left fst snd]. intros a b.
    rewrite lookup_insert_ne by discriminate. rewrite lookup_insert. intros [= <- <-]. reflexivity.
Qed.
Lemma bibitem_starts c : starts_of (bibitem c) = [].
Proof.
  unfold bibitem. rewrite starts_of_A. cbn [flat_map]. rewrite app_nil_r. apply start_of_none.
  apply starts_assign; [|apply starts_insert; [apply starts_insert; [apply starts_default; [constructor|reflexivity]|reflexivity]|reflexivity]].
  apply List.Forall_forall. intros e He. unfold bib_pairs in He. apply in_map_iff in He as (x & <- & _). reflexivity.
Qed.
Lemma bib_node_starts es : flat_map starts_of es = [] -> starts_of (bib_node es) = [].
Proof.
  intros H. unfold bib_node. rewrite starts_of_A, H, app_nil_r. apply start_of_none. apply starts_default; [constructor|reflexivity].
Qed.
Lemma entries_starts c : flat_map starts_of (entries c) = [].
Proof. unfold entries. induction (List.filter _ _) as [|x l IH]; [reflexivity|]. cbn [map flat_map]. rewrite bibitem_starts, IH. reflexivity. Qed.
Lemma entries_here_starts l : flat_map starts_of (entries_here l) = [].
Proof.
  induction l as [|[t|[|c|c]] l IH]; try assumption; try reflexivity. cbn [entries_here].
  rewrite flat_map_app, entries_starts. assumption.
Qed.
Lemma lay_out_starts l : flat_map starts_of (lay_out l) = flat_map starts_of (trees l).
Proof.
  induction l as [|[t|[|c|c]] l IH]; try assumption; try reflexivity.
  - cbn [lay_out]. change (trees (inl t :: l)) with (t :: trees l). cbn [flat_map]. rewrite IH. reflexivity.
  - cbn [lay_out flat_map]. rewrite bib_node_starts by apply entries_here_starts. exact IH.
Qed.
Lemma starts_insert_ne p m a v : starts p m -> a <> a_start_point -> starts p (<[a := v]> m).
Proof. intros H Hne x y. rewrite lookup_insert_ne by assumption. apply H. Qed.
Lemma mk_attrs_two c a v a' v' : mk_attrs c [(a, v); (a', v')] = <[a' := v']> (<[a := v]> (mk_attrs c [])).
Proof. unfold mk_attrs. rewrite app_nil_r, fold_left_app. reflexivity. Qed.
Lemma verbatim_starts t m c : flat_map starts_of (verbatim t m c) = [].
Proof.
  unfold verbatim. destruct (type_in ["code"; "codeblock"] t); [|destruct (type_in _ t); [|reflexivity]];
    cbn [flat_map]; rewrite app_nil_r, starts_of_A; cbn [flat_map]; rewrite app_nil_r; apply start_of_none;
    rewrite mk_attrs_two; (apply starts_insert_ne; [|discriminate]); (apply starts_insert_ne; [|discriminate]);
    (apply starts_default; [constructor|reflexivity]).
Qed.

Lemma places_nodes l : forall k prev, map pl_node (places_from k prev l) = l.
Proof. induction l as [|c l IH]; intros k prev; [reflexivity|]. cbn [places_from map pl_node]. rewrite IH. reflexivity. Qed.
Lemma flat_map_sub {A B} (f : A -> list (Z * Z)) (g : B -> list (Z * Z)) (P : A -> bool) (h : A -> B) l :
  (forall x, In x l -> f x `sublist_of` g (h x)) -> flat_map f (List.filter P l) `sublist_of` flat_map g (map h l).
Proof.
  induction l as [|x l IH]; intros H; [apply sublist_nil_l|]. cbn [List.filter map flat_map].
  assert (IH' : flat_map f (List.filter P l) `sublist_of` flat_map g (map h l)) by (apply IH; intros y Hy; apply H; right; assumption).
  destruct (P x).
  - cbn [flat_map]. apply sublist_app; [apply H; left; reflexivity|assumption].
  - eapply sublist_inserts_l. exact IH'.
Qed.
Lemma filter_filter {A} (P Q : A -> bool) l : List.filter P (List.filter Q l) = List.filter (fun x => Q x && P x) l.
Proof. induction l as [|x l IH]; [reflexivity|]. cbn [List.filter]. destruct (Q x); cbn [andb List.filter]; rewrite IH; reflexivity. Qed.
Lemma flat_map_map {A B C} (f : B -> list C) (g : A -> B) l : flat_map f (map g l) = flat_map (fun x => f (g x)) l.
Proof. induction l as [|x l IH]; [reflexivity|]. cbn [map flat_map]. rewrite IH. reflexivity. Qed.
Lemma flat_map_flat_map {A B C} (f : B -> list C) (g : A -> list B) l : flat_map f (flat_map g l) = flat_map (fun x => flat_map f (g x)) l.
Proof. induction l as [|x l IH]; [reflexivity|]. cbn [flat_map]. rewrite flat_map_app, IH. reflexivity. Qed.

Definition child_ok (c : cst) : Prop := forall prev next, flat_map starts_of (fst (mirror prev next c)) `sublist_of` c_starts c.
Lemma handed_starts skip c : Forall child_ok (c_children c) ->
  flat_map starts_of (nodes_of (handed_on skip (places_and_outcomes c))) `sublist_of` flat_map c_starts (c_children c).
Proof.
  intros H. rewrite handed_on_eq. unfold nodes_of. rewrite flat_map_flat_map, flat_map_map. unfold pushed, named_children.
  rewrite filter_filter. rewrite <- (places_nodes (c_children c) 0 None) at 1. fold (places c).
  apply flat_map_sub. intros x Hx. unfold places in Hx. apply places_from_in in Hx. rewrite List.Forall_forall in H. apply (H _ Hx).
Qed.
Lemma first_starts c f o : Forall child_ok (c_children c) -> first_named (places_and_outcomes c) = Some (f, o) ->
  flat_map starts_of (fst o) `sublist_of` flat_map c_starts (c_children c).
Proof.
  intros H E. rewrite first_named_eq in E. destruct (nth_error (named_children c) 0) as [x|] eqn:En; [|discriminate].
  injection E as <- <-. apply nth_error_In in En. unfold named_children in En. apply filter_In in En as [Hx _].
  unfold places in Hx. apply places_from_in in Hx. rewrite List.Forall_forall in H. specialize (H _ Hx (pl_prev x) (pl_next x)). fold (out x) in H.
  etransitivity; [exact H|]. apply in_split in Hx as (l1 & l2 & ->). rewrite flat_map_app. cbn [flat_map].
  apply sublist_inserts_l, sublist_inserts_r. reflexivity.
Qed.
Lemma shaped_starts t x c ts l : flat_map starts_of ts `sublist_of` l -> starts_of (shaped t x c ts) `sublist_of` c_start c :: l.
Proof.
  intros H. unfold shaped. change (c_start c :: l) with ([c_start c] ++ l). destruct (_ && _).
  - rewrite starts_of_A. change (start_of (A CClaimBlock _ _)) with (@nil (Z * Z)). cbn [app flat_map].
    rewrite starts_of_A, verbatim_starts, app_nil_r. apply (sublist_app _ [c_start c]); [|assumption]. apply start_of_sub, node_attrs_starts.
  - rewrite starts_of_A. apply (sublist_app _ [c_start c]); [apply start_of_sub, node_attrs_starts|].
    destruct (has_children (node_class t)); [|apply sublist_nil_l]. rewrite flat_map_app, verbatim_starts. assumption.
Qed.
Lemma as_node_starts t x skip : Forall child_ok (c_children (pl_node x)) ->
  flat_map starts_of (fst (as_node t x skip (places_and_outcomes (pl_node x)))) `sublist_of` c_starts (pl_node x).
Proof.
  intros H. unfold as_node. cbn [fst flat_map]. rewrite app_nil_r, c_starts_eq. apply shaped_starts, handed_starts, H.
Qed.
Lemma mirror_starts c : child_ok c.
Proof.
  induction c as [t f n tx sp ep cs IH] using cst_ind'. intros prev next.
  change (mirror prev next (Cst t f n tx sp ep cs)) with (out (MkPlace 0 prev (Cst t f n tx sp ep cs) next)).
  rewrite out_eq. set (x := MkPlace 0 prev (Cst t f n tx sp ep cs) next).
  assert (Hc : Forall child_ok (c_children (pl_node x))) by exact IH.
  change (Cst t f n tx sp ep cs) with (pl_node x). clearbody x. clear IH.
  assert (Hk : forall l, l `sublist_of` flat_map c_starts (c_children (pl_node x)) -> l `sublist_of` c_starts (pl_node x)).
  { intros l Hl. rewrite c_starts_eq. apply sublist_cons. assumption. }
  assert (H0 : forall rq : list request, flat_map starts_of (fst (@nil atree, rq)) `sublist_of` c_starts (pl_node x)) by (intros; apply sublist_nil_l).
  unfold mirror_at.
  destruct (is_type "comment" _); [apply H0|]. destruct (is_type "specialblock" _ && _); [apply H0|].
  destruct (is_type "bibtex" _); [apply H0|].
  destruct (is_type "bibitem" _); [cbn [fst flat_map]; rewrite bibitem_starts; apply sublist_nil_l|].
  destruct (_ || _).
  { cbn [fst flat_map]. rewrite app_nil_r, starts_of_A, c_starts_eq.
    apply (sublist_app _ [c_start (pl_node x)]); [apply start_of_sub, section_attrs_starts|apply handed_starts, Hc]. }
  destruct (type_in ["specialblock"; "specialinline"] _).
  { destruct (first_named _) as [[g o]|] eqn:E; [|apply H0]. destruct (is_type "table" _).
    - apply Hk. eapply first_starts; eassumption.
    - apply as_node_starts. assumption. }
  destruct (is_type "td" _).
  { destruct (first_named _) as [[g o]|] eqn:E; [|apply H0]. apply Hk. eapply first_starts; eassumption. }
  destruct (is_type "paragraph" _).
  { destruct (first_named _) as [[g o]|] eqn:E; [|apply H0]. destruct (type_in ["item"; "caption"] _).
    - apply Hk. eapply first_starts; eassumption.
    - apply as_node_starts. assumption. }
  destruct (type_in ["block"; "inline"] _); [|apply as_node_starts; assumption].
  destruct (field_child "tag" _) as [g|]; [|apply H0]. apply as_node_starts. assumption.
Qed.
Lemma mirrored_starts c : starts_of (mirrored c) `sublist_of` c_starts c.
Proof.
  unfold mirrored. rewrite starts_of_A, lay_out_starts.
  change (fun o : outcome => map inl o.1 ++ map inr o.2) with events_of. rewrite trees_outcomes, c_starts_eq.
  apply (sublist_app _ [c_start c]); [apply start_of_sub, section_attrs_starts|]. apply handed_starts.
  apply List.Forall_forall. intros d _. apply mirror_starts.
Qed.

(** ** Every syntax node stands for at most one node *)

Lemma mirror_one c prev next : length (fst (mirror prev next c)) <= 1.
Proof.
  revert prev next. induction c as [t f n tx sp ep cs IH] using cst_ind'. intros prev next.
  change (mirror prev next (Cst t f n tx sp ep cs)) with (out (MkPlace 0 prev (Cst t f n tx sp ep cs) next)).
  rewrite out_eq. set (x := MkPlace 0 prev (Cst t f n tx sp ep cs) next).
  assert (Hf : forall g o, first_named (places_and_outcomes (pl_node x)) = Some (g, o) -> length (fst o) <= 1).
  { intros g o E. rewrite first_named_eq in E. destruct (nth_error _ 0) as [y|] eqn:En; [|discriminate].
    injection E as <- <-. apply nth_error_In in En. unfold named_children in En. apply filter_In in En as [Hx _].
    unfold places in Hx. apply places_from_in in Hx. rewrite List.Forall_forall in IH. apply (IH _ Hx). }
  clearbody x. clear IH. unfold mirror_at.
  destruct (is_type "comment" _); [simpl; lia|]. destruct (is_type "specialblock" _ && _); [simpl; lia|].
  destruct (is_type "bibtex" _); [simpl; lia|].
  destruct (is_type "bibitem" _); [cbn [fst length]; lia|].
  destruct (_ || _); [cbn [fst length]; lia|].
  destruct (type_in ["specialblock"; "specialinline"] _).
  { destruct (first_named _) as [[g o]|] eqn:E; [|simpl; lia]. destruct (is_type "table" _); [eauto|cbn [as_node fst length]; lia]. }
  destruct (is_type "td" _).
  { destruct (first_named _) as [[g o]|] eqn:E; [|simpl; lia]. eauto. }
  destruct (is_type "paragraph" _).
  { destruct (first_named _) as [[g o]|] eqn:E; [|simpl; lia]. destruct (type_in _ _); [eauto|cbn [as_node fst length]; lia]. }
  destruct (type_in ["block"; "inline"] _); [|cbn [as_node fst length]; lia].
  destruct (field_child "tag" _) as [g|]; cbn [as_node fst length]; lia.
Qed.
