(** The loop of the parser ends: one iteration replaces a syntax node by nodes strictly below it. *)
From Verif Require Import TreeFacts Meta TocBuild.
From Verif Require Export ParseOrder.
From Verif Require Import Consistency NodeProofs NodeOps Monad.
Local Open Scope string_scope.
Local Open Scope list_scope.

Fixpoint c_size (c : cst) : nat := match c with Cst _ _ _ _ _ _ cs => S (list_sum (map c_size cs)) end.
Lemma c_size_eq c : c_size c = S (list_sum (map c_size (c_children c))).
Proof. destruct c. reflexivity. Qed.
Definition load (l : list place) : nat := list_sum (map (fun x => c_size (pl_node x)) l).
Lemma load_places c : load (places c) = list_sum (map c_size (c_children c)).
Proof.
  unfold load, places. rewrite <- (map_map pl_node c_size), places_nodes. reflexivity.
Qed.
Lemma load_filter P l : load (List.filter P l) <= load l.
Proof.
  unfold load. induction l as [|x l IH]; [reflexivity|]. cbn [List.filter]. destruct (P x); cbn [map list_sum] in *.
  - unfold list_sum in *. cbn [fold_right]. lia.
  - unfold list_sum in *. cbn [fold_right]. lia.
Qed.
Lemma load_named c : load (named_children c) < c_size c.
Proof. rewrite c_size_eq, <- load_places. pose proof (load_filter (fun p => c_named (pl_node p)) (places c)). unfold named_children. lia. Qed.
Lemma load_pushed k c : load (pushed k c) < c_size c.
Proof. eapply Nat.le_lt_trans; [apply load_filter|apply load_named]. Qed.
Lemma load_in x l : In x l -> c_size (pl_node x) <= load l.
Proof.
  unfold load. induction l as [|y l IH]; intros H; [destruct H|]. unfold list_sum in *. cbn [map fold_right].
  destruct H as [-> |H]; [lia|]. specialize (IH H). lia.
Qed.
Lemma load_app l l' : load (l ++ l') = load l + load l'.
Proof. unfold load. rewrite map_app, list_sum_app. reflexivity. Qed.
Definition depth_left (st : list entry) : nat := load (map snd st).
Lemma depth_under p l : depth_left (under p l) = load l.
Proof. unfold depth_left, under. rewrite map_map, map_id. reflexivity. Qed.

(** ** One iteration never runs out of fuel *)

Definition steady {X} (m : M X) : Prop := forall s s', m s <> (s', Err EOutOfFuel).
Lemma f_ret {X} (x : X) : steady (ret x). Proof. intros s s' H. discriminate H. Qed.
Lemma f_raise {X} e : e <> EOutOfFuel -> steady (raise (A := X) e). Proof. intros Hl s s' H. injection H as _ H. contradiction. Qed.
Lemma f_bind {X Y} (m : M X) (k : X -> M Y) : steady m -> (forall x, steady (k x)) -> steady (bind m k).
Proof.
  intros H1 H2 s s' H. unfold bind in H. destruct (m s) as [s1 [x|e1]] eqn:E; [eapply H2, H|]. injection H as _ ->. eapply H1, E.
Qed.
Lemma f_get_node i : steady (get_node i).
Proof. intros s s' H. unfold get_node in H. destruct (st_heap s !! i); discriminate H. Qed.
Lemma f_mod_node i f : steady (mod_node i f).
Proof. intros s s' H. unfold mod_node, bind in H. destruct (get_node i s) as [s1 [n|e1]] eqn:E; [discriminate H|]. injection H as _ ->. eapply f_get_node, E. Qed.
Lemma f_log r : steady (log_rec r). Proof. intros s s' H. discriminate H. Qed.
Lemma f_alloc n : steady (alloc n). Proof. intros s s' H. discriminate H. Qed.
Lemma f_mapM {X Y} (f : X -> M Y) l : (forall x, steady (f x)) -> steady (mapM f l).
Proof. intros Hf. induction l; cbn [mapM]; [apply f_ret|]. apply f_bind; [apply Hf|]. intros b. apply f_bind; [assumption|]. intros bs. apply f_ret. Qed.
Lemma f_iterM {X} (f : X -> M unit) l : (forall x, steady (f x)) -> steady (iterM f l).
Proof. intros Hf. induction l; cbn [iterM]; [apply f_ret|]. apply f_bind; [apply Hf|]. intros _. assumption. Qed.
Ltac fstep0 :=
  match goal with
  | |- steady (bind _ _) => apply f_bind; [|intros ?]
  | |- steady (ret _) => apply f_ret
  | |- steady (raise _) => apply f_raise; discriminate
  | |- steady (get_node _) => apply f_get_node
  | |- steady (mod_node _ _) => apply f_mod_node
  | |- steady (log_rec _) => apply f_log
  | |- steady (warn _ _) => apply f_log
  | |- steady (alloc _) => apply f_alloc
  | |- steady (new_node _ _) => apply f_alloc
  | |- steady (mapM _ _) => apply f_mapM; intros ?
  | |- steady (iterM _ _) => apply f_iterM; intros ?
  | |- steady (match ?x with _ => _ end) => destruct x
  | |- steady (if ?x then _ else _) => destruct x
  end.
Ltac fs0 := repeat fstep0.
Lemma f_getattr i a : steady (getattr i a). Proof. unfold getattr. fs0. Qed.
Lemma f_setattr i a v : steady (setattr i a v). Proof. unfold setattr. fs0. Qed.
Lemma f_cls_of i : steady (cls_of i). Proof. unfold cls_of. fs0. Qed.
Lemma f_parent_of i : steady (parent_of i). Proof. unfold parent_of. fs0. Qed.
Lemma f_raw_children i : steady (raw_children i). Proof. unfold raw_children. fs0. Qed.
Lemma f_set_raw_children i l : steady (set_raw_children i l). Proof. unfold set_raw_children. fs0. Qed.
Lemma f_get_str i a : steady (get_str i a). Proof. unfold get_str. apply f_bind; [apply f_getattr|intros ?]. fs0. Qed.
Ltac fstep :=
  first [fstep0 | apply f_getattr | apply f_setattr | apply f_cls_of | apply f_parent_of | apply f_raw_children
        | apply f_set_raw_children | apply f_get_str].
Ltac fs := repeat fstep.
Lemma f_set_parent i p : steady (set_parent i p). Proof. unfold set_parent. fs. Qed.
Lemma f_append i l : steady (append i l). Proof. unfold append. fs. unfold append1. fs. apply f_set_parent. Qed.
Lemma f_py_setattr i k v : steady (py_setattr i k v). Proof. unfold py_setattr. fs. Qed.
Lemma f_parse_pair k v : parse_pair k v <> Err EOutOfFuel.
Proof.
  unfold parse_pair, key_name. destruct (str_eqb _ _); [destruct (named_children k), v; discriminate|].
  destruct (_ || _); [destruct (named_children k), v; discriminate|].
  destruct (str_eqb _ _); [destruct (named_children k); discriminate|]. destruct (str_eqb _ _); discriminate.
Qed.
Lemma f_parse_pairs l : forall d, parse_pairs l d <> Err EOutOfFuel.
Proof.
  induction l as [|p l IH]; intros d; cbn [parse_pairs]; [discriminate|].
  destruct (match named_children (pl_node p) with [] => _ | _ => _ end) as [[k v]|e] eqn:E; [apply IH|].
  intros H. injection H as ->. destruct (named_children (pl_node p)) as [|k [|v [|]]]; try discriminate E; eapply f_parse_pair, E.
Qed.
Lemma f_ingest_meta i c : steady (ingest_meta i c).
Proof.
  unfold ingest_meta. destruct (field_child "meta" c) as [m|]; [|apply f_ret]. apply f_bind.
  - pose proof (f_parse_pairs (List.filter is_pair (named_children (pl_node m))) []) as H. unfold parse_meta.
    destruct (parse_pairs _ _); [apply f_ret|]. apply f_raise. congruence.
  - intros d. unfold ingest_dict_as_meta. apply f_iterM. intros p. apply f_py_setattr.
Qed.
Lemma f_attach p i : steady (attach p i).
Proof. unfold attach. fs. apply f_append. Qed.
Lemma f_nth_named k c : steady (nth_named k c). Proof. unfold nth_named. fs. Qed.
Lemma f_step_node v p t x c skip : steady (step_node v p t x c skip).
Proof.
  unfold step_node. apply f_bind; [unfold make_node; fs|intros i].
  apply f_bind; [apply f_ingest_meta|intros _].
  apply f_bind; [unfold add_asis; fs; apply f_append|intros _].
  apply f_bind; [unfold wrap_claim; fs; apply f_append|intros i2].
  apply f_bind; [unfold set_kind; fs|intros _].
  apply f_bind; [unfold set_target; fs; apply f_nth_named|intros s1].
  apply f_bind; [unfold set_prev; fs|intros _].
  apply f_bind; [unfold set_cite; fs; apply f_nth_named|intros s2].
  apply f_bind; [unfold pad_text; fs|intros _].
  apply f_bind; [apply f_attach|intros _]. apply f_ret.
Qed.
Lemma f_step v p x : steady (step v p x).
Proof.
  unfold step. destruct (is_type "comment" _); [apply f_ret|].
  destruct (_ && _). { unfold step_bibliography. fs. apply f_append. }
  destruct (is_type "bibtex" _). { unfold step_bibtex. fs. }
  destruct (is_type "bibitem" _).
  { unfold step_bibitem, field_text. fs; [unfold set_pair; fs; apply f_py_setattr|apply f_append]. }
  destruct (_ || _). { unfold step_section. fs; [apply f_ingest_meta|apply f_attach]. }
  destruct (type_in _ _). { fs; [apply f_nth_named|]. apply f_step_node. }
  destruct (is_type "td" _). { fs. apply f_nth_named. }
  destruct (is_type "paragraph" _). { fs; [apply f_nth_named| |]; apply f_step_node. }
  destruct (type_in _ _). { fs. apply f_step_node. }
  apply f_step_node.
Qed.

(** ** What one iteration leaves on the stack is smaller *)

Lemma step_node_load v p t x c skip s s' r :
  step_node v p t x c skip s = (s', Ok r) -> depth_left r.2 < c_size c.
Proof.
  unfold step_node. intros H. repeat (apply bind_ok in H as (? & ? & ? & H)). apply ret_ok in H as [_ ->].
  cbn [snd]. rewrite depth_under. apply load_pushed.
Qed.
Lemma nth_named_in k c s s' f : nth_named k c s = (s', Ok f) -> In f (named_children c).
Proof.
  unfold nth_named. destruct (nth_error _ _) as [q|] eqn:E; intros H; [|discriminate H]. apply ret_ok in H as [_ ->].
  apply nth_error_In in E. assumption.
Qed.
Lemma named_size x c : In x (named_children c) -> c_size (pl_node x) < c_size c.
Proof. intros H. eapply Nat.le_lt_trans; [apply load_in, H|apply load_named]. Qed.
Lemma one_load p f c : In f (named_children c) -> depth_left [(p, f)] < c_size c.
Proof. intros H. unfold depth_left, load. cbn [map list_sum snd fold_right]. apply named_size in H. unfold list_sum. cbn [fold_right]. lia. Qed.
Lemma step_load v p x s s' r : step v p x s = (s', Ok r) -> depth_left r.2 < c_size (pl_node x).
Proof.
  assert (H0 : depth_left [] < c_size (pl_node x)) by (rewrite c_size_eq; unfold depth_left, load; simpl; lia).
  unfold step. destruct (is_type "comment" _); [intros H; apply ret_ok in H as [_ ->]; exact H0|].
  destruct (_ && _).
  { unfold step_bibliography. intros H. apply bind_ok in H as (? & ? & ? & H). destruct (ps_root v); [|discriminate H].
    apply bind_ok in H as (? & ? & ? & H). apply ret_ok in H as [_ ->]. exact H0. }
  destruct (is_type "bibtex" _).
  { unfold step_bibtex. destruct (ps_bib v); intros H; apply bind_ok in H as (? & ? & ? & H); apply ret_ok in H as [_ ->]; [|exact H0].
    cbn [snd]. rewrite depth_under. eapply Nat.le_lt_trans; [apply load_filter|apply load_named]. }
  destruct (is_type "bibitem" _).
  { unfold step_bibitem. intros H. repeat (apply bind_ok in H as (? & ? & ? & H)). destruct p; [|discriminate H].
    apply bind_ok in H as (? & ? & ? & H). apply ret_ok in H as [_ ->]. exact H0. }
  destruct (_ || _).
  { unfold step_section. destruct (ast_type _) as [[k kw]|]; intros H; [|discriminate H].
    repeat (apply bind_ok in H as (? & ? & ? & H)). apply ret_ok in H as [_ ->]. cbn [snd]. rewrite depth_under. apply load_pushed. }
  destruct (type_in _ _).
  { intros H. apply bind_ok in H as (s1 & f & Hf & H). apply nth_named_in in Hf. destruct (is_type "table" _).
    - apply ret_ok in H as [_ ->]. apply one_load, Hf.
    - eapply step_node_load, H. }
  destruct (is_type "td" _).
  { intros H. apply bind_ok in H as (s1 & f & Hf & H). apply nth_named_in in Hf. apply ret_ok in H as [_ ->]. apply one_load, Hf. }
  destruct (is_type "paragraph" _).
  { intros H. apply bind_ok in H as (s1 & f & Hf & H). apply nth_named_in in Hf. destruct (type_in _ _); [|eapply step_node_load, H].
    etransitivity; [eapply step_node_load, H|]. apply named_size, Hf. }
  destruct (type_in _ _).
  { destruct (field_child _ _); intros H; [|discriminate H]. eapply step_node_load, H. }
  apply step_node_load.
Qed.

Lemma abs_loop_ends fuel : forall v st s s', depth_left st <= fuel -> abs_loop fuel v st s <> (s', Err EOutOfFuel).
Proof.
  induction fuel as [|fuel IH]; intros v [|[p x] st] s s' Hf H; cbn [abs_loop] in H; try (discriminate H).
  - exfalso. unfold depth_left, load in Hf. cbn [map list_sum snd] in Hf. rewrite c_size_eq in Hf. unfold list_sum in Hf. cbn [fold_right] in Hf. lia.
  - unfold bind in H. destruct (step v p x s) as [s1 [r|e]] eqn:E.
    + eapply IH, H. apply step_load in E. unfold depth_left in *. rewrite map_app, load_app.
      unfold load in Hf at 1. unfold list_sum in Hf. cbn [map fold_right snd] in Hf. fold (list_sum (map (fun x => c_size (pl_node x)) (map snd st))) in Hf.
      fold (load (map snd st)) in Hf. lia.
    + injection H as _ ->. eapply f_step, E.
Qed.

(** More fuel changes nothing. *)
Lemma abs_loop_more fuel : forall k v st s s' r, abs_loop fuel v st s = (s', r) -> r <> Err EOutOfFuel -> abs_loop (fuel + k) v st s = (s', r).
Proof.
  induction fuel as [|fuel IH]; intros k v [|[p x] st] s s' r H Hr; cbn [abs_loop] in H.
  - destruct k; exact H.
  - injection H as _ <-. exfalso. apply Hr. reflexivity.
  - exact H.
  - cbn [abs_loop Nat.add]. unfold bind in *. destruct (step v p x s) as [s1 [q|e]]; [|exact H]. apply IH; assumption.
Qed.
