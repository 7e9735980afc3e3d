(** Making a page again changes nothing. *)
From Verif Require Export BuildProofs MakeTotal RenderAny.
From Verif Require Import NodeOps Monad.
Local Open Scope string_scope.
Local Open Scope list_scope.

(** ** Paths *)

Definition slashless (s : str) : bool := forallb (fun c => negb (N.eqb c 47)) s.
Lemma split_slashless s : slashless s = true -> split_on 47 s = [s].
Proof. induction s as [|c s IH]; [reflexivity|]. cbn [slashless forallb split_on]. intros H. apply andb_true_iff in H as [H1 H2]. destruct (N.eqb c 47); [discriminate H1|]. rewrite (IH H2). reflexivity. Qed.
Lemma split_cons a s : slashless a = true -> split_on 47 (a ++ 47%N :: s) = a :: split_on 47 s.
Proof. induction a as [|c a IH]; [reflexivity|]. cbn [slashless forallb split_on app]. intros H. apply andb_true_iff in H as [H1 H2]. destruct (N.eqb c 47); [discriminate H1|]. rewrite (IH H2). reflexivity. Qed.
Lemma split_join l : l <> [] -> forallb slashless l = true -> split_on 47 (join (lit "/") l) = l.
Proof.
  induction l as [|x l IH]; intros Hn H; [congruence|]. cbn [forallb] in H. apply andb_true_iff in H as [H1 H2]. destruct l as [|y l]; [apply split_slashless, H1|].
  change (join (lit "/") (x :: y :: l)) with (x ++ 47%N :: join (lit "/") (y :: l)). rewrite (split_cons _ _ H1), IH; [reflexivity|discriminate|exact H2].
Qed.
Lemma split_parts s : forallb slashless (split_on 47 s) = true.
Proof.
  induction s as [|c s IH]; [reflexivity|]. cbn [split_on]. destruct (N.eqb c 47) eqn:E; [exact IH|]. destruct (split_on 47 s) as [|y ys]; cbn [forallb slashless] in *; rewrite E; [reflexivity|exact IH].
Qed.
Notation okpart := (fun p : str => negb (str_eqb p []) && negb (str_eqb p (lit "."))).
Lemma filter_filter {A} (f : A -> bool) l : List.filter f (List.filter f l) = List.filter f l.
Proof. induction l as [|x l IH]; [reflexivity|]. cbn [List.filter]. destruct (f x) eqn:E; [cbn [List.filter]; rewrite E, IH; reflexivity|exact IH]. Qed.
Lemma parts_str s : path_parts (path_str s) = path_parts s.
Proof.
  unfold path_str. destruct (path_parts s) as [|x l] eqn:E; [reflexivity|]. unfold path_parts at 1. rewrite split_join; [|discriminate|].
  - rewrite <- E. unfold path_parts. apply filter_filter.
  - rewrite <- E. apply forallb_forall. intros y Hy. unfold path_parts in Hy. apply List.filter_In in Hy as [Hy _]. pose proof (split_parts s) as K. rewrite forallb_forall in K. apply K, Hy.
Qed.
Lemma static_parts n : slashless n = true -> path_parts (in_static n) = if okpart n then [lit "static"; n] else [lit "static"].
Proof.
  intros H. unfold in_static, path_parts. change (lit "static/" ++ n) with (lit "static" ++ 47%N :: n). rewrite split_cons by reflexivity. rewrite (split_slashless _ H). cbn [List.filter].
  replace (negb (str_eqb (lit "static") []) && negb (str_eqb (lit "static") (lit "."))) with true by reflexivity. destruct (_ && _); reflexivity.
Qed.
Lemma static_name a n : slashless n = true -> path_str a = in_static n -> path_name a = n.
Proof.
  intros Hn E. pose proof (parts_str a) as P. rewrite E, (static_parts n Hn) in P. unfold path_name. rewrite <- P.
  destruct (okpart n) eqn:O; [reflexivity|]. exfalso. unfold path_str in E. rewrite <- P in E.
  apply (f_equal (@length N)) in E. unfold in_static in E. rewrite app_length in E. vm_compute (length (join _ _)) in E. vm_compute (length (lit "static/")) in E. lia.
Qed.
Lemma name_slashless a : slashless (path_name a) = true.
Proof.
  unfold path_name. destruct (rev (path_parts a)) as [|x l] eqn:E; [reflexivity|]. assert (H : In x (path_parts a)) by (apply in_rev; rewrite E; left; reflexivity).
  unfold path_parts in H. apply List.filter_In in H as [H _]. pose proof (split_parts a) as K. rewrite forallb_forall in K. apply K, H.
Qed.

(** ** Building again *)

Lemma mount_over cwd l k c c' : (exists a, In a l /\ in_static (path_name a) = k) -> forall w,
  mount_required_assets cwd l (<[k := c']> w) = mount_required_assets cwd l (<[k := c]> w).
Proof.
  induction l as [|a l IH]; intros (x & Hx & Ek) w; [destruct Hx|]. cbn [mount_required_assets]. destruct (plain_path a); [|reflexivity].
  unfold copy_file. destruct (cwd !! path_str a) as [d|]; [|reflexivity]. destruct (decide (in_static (path_name a) = k)) as [E|E].
  - rewrite E. unfold files in *. rewrite !insert_insert. reflexivity.
  - unfold files in *. rewrite !(insert_commute _ (in_static (path_name a)) k) by exact E. apply IH. destruct Hx as [->|Hx]; [congruence|]. exists x. auto.
Qed.
Lemma mount_again cwd cwd' W l : forall w, mount_required_assets cwd l w = Ok W ->
  (forall a, In a l -> cwd' !! path_str a = cwd !! path_str a \/ cwd' !! path_str a = W !! in_static (path_name a)) ->
  mount_required_assets cwd' l w = Ok W.
Proof.
  induction l as [|a l IH]; intros w H C; [exact H|]. cbn [mount_required_assets] in *. destruct (plain_path a); [|discriminate H].
  unfold copy_file in *. destruct (cwd !! path_str a) as [c|] eqn:E; [|discriminate H].
  pose proof (IH _ H (fun x Hx => C x (or_intror Hx))) as K. pose proof (mount_required_inv _ _ _ _ H) as (_ & _ & C3 & _).
  destruct (in_dec (list_eq_dec N.eq_dec) (in_static (path_name a)) (map (fun x => in_static (path_name x)) l)) as [J|J].
  - assert (Ex : exists c', cwd' !! path_str a = Some c').
    { destruct (C a (or_introl eq_refl)) as [->| ->]; [eauto|]. apply in_map_iff in J as (y & Ey & Hy).
      pose proof (mount_required_inv _ _ _ _ H) as (P1 & _ & _ & P4). destruct (P4 y Hy) as (b & Hb & Eb & Ew). rewrite <- Ey, Ew. destruct (P1 b Hb) as [z Hz]. eauto. }
    destruct Ex as [c' ->]. rewrite (mount_over _ _ _ c c'); [exact K|]. apply in_map_iff in J as (y & Ey & Hy). exists y. auto.
  - assert (Ew : W !! in_static (path_name a) = Some c).
    { rewrite C3; [apply lookup_insert|]. intros y Hy Ey. apply J. apply in_map_iff. exists y. auto. }
    destruct (C a (or_introl eq_refl)) as [->| ->]; [rewrite E; exact K|]. rewrite Ew. exact K.
Qed.
Lemma build_again pkg cwd body p : (forall n c, In (n, c) pkg -> slashless n = true) ->
  (cwd !! lit "index.html" = None \/ forall l a, mentioned body l -> In a l -> path_str a <> lit "index.html") ->
  full_build pkg cwd body = Ok p -> full_build pkg (write p cwd) body = Ok p.
Proof.
  intros Hp Hi H. pose proof (build_files _ _ _ _ _ (assets_mentioned body) H) as (_ & _ & _ & Hf & _). unfold full_build in *.
  destruct (mount_required_assets cwd _ _) as [W|e] eqn:E; [|discriminate H]. injection H as <-. cbn [w_files write] in *.
  rewrite (mount_again cwd _ W); [reflexivity|exact E|]. intros a Ha. unfold write, files in *. cbn [w_files].
  destruct (W !! path_str a) as [x|] eqn:Ex; [right|left; rewrite lookup_union, Ex; destruct (cwd !! path_str a); reflexivity].
  rewrite lookup_union_l' by eauto. destruct (Hf _ _ Ex) as [K|[(n & Hn & K)|(b & Hb & K & _)]].
  - exfalso. destruct Hi as [Hi|Hi]; [|exact (Hi _ a (assets_mentioned body) Ha K)].
    pose proof (mount_required_inv _ _ _ _ E) as (P1 & _). destruct (P1 a Ha) as [z Hz]. unfold files in *. rewrite K, Hi in Hz. discriminate Hz.
  - rewrite (static_name a n (Hp _ _ Hn) K), <- K. reflexivity.
  - rewrite (static_name a _ (name_slashless b) K), <- K. reflexivity.
Qed.
Lemma union_again (A B : gmap str str) : A ∪ (A ∪ B) = A ∪ B.
Proof. apply map_eq. intros k. rewrite !lookup_union. destruct (A !! k), (B !! k); reflexivity. Qed.
Lemma write_again p cwd : write p (write p cwd) = write p cwd.
Proof. exact (union_again (w_files p) cwd). Qed.
Lemma given_fun source path fs t t' : given source path fs t -> given source path fs t' -> t = t'.
Proof. intros [(G1 & G2 & G3)|(G1 & G2 & G3 & G4)] [(K1 & K2 & K3)|(K1 & K2 & K3 & K4)]; try congruence. Qed.
Lemma pieces_fun ts hl fuel hr ad t h m i h' m' i' : pieces ts hl fuel hr ad t h m i -> pieces ts hl fuel hr ad t h' m' i' -> h = h'.
Proof.
  intros (s1 & s2 & d & P & T1 & R) (s1' & s2' & d' & P' & T1' & R'). rewrite P in P'. injection P' as <- <-. rewrite T1 in T1'. injection T1' as <- <-. rewrite R in R'. congruence.
Qed.

Section Twice.
Context (ts : str -> cst) (hl : str -> str -> str) (pkg : list (str * str)) (fuel : nat).

(** A second run on the same text, in any process, with any options but the linter's, succeeds and
    leaves every file as the first one left it. *)
Theorem make_again source path hr lnt c w w' text source2 path2 hr2 c2 w2 :
  fresh_ok (w_mem w) -> fresh_ok (w_mem w2) -> w_fs w2 = w_fs w' -> In (lc_format c2) formats ->
  given source path (w_fs w) text -> given source2 path2 (w_fs w') text ->
  (forall n x, In (n, x) pkg -> slashless n = true) ->
  (w_fs w !! lit "index.html" = None \/
   forall h m i l a, pieces ts hl fuel lnt lnt text h m i -> mentioned (Html.render h) l -> In a l -> path_str a <> lit "index.html") ->
  make_rsm ts hl pkg fuel source path hr lnt c w = (w', Ok PNone) ->
  exists w3, make_rsm ts hl pkg fuel source2 path2 hr2 lnt c2 w2 = (w3, Ok PNone) /\ w_fs w3 = w_fs w'.
Proof.
  intros Hf Hf2 E Hc Hg Hg2 Hp Hi H. apply any_make in H as [(_ & [H|[e H]])|(_ & text' & h & m & i & p & Hg' & Hpc & Hb & Hw)]; [discriminate H|discriminate H| |exact Hf].
  rewrite (given_fun _ _ _ _ _ Hg' Hg) in *. destruct (make_ends ts hl pkg fuel source2 path2 hr2 lnt c2 w2 text h m i p Hf2) as (w3 & H3 & W3).
  - rewrite E. exact Hg2.
  - exact Hc.
  - exact Hpc.
  - rewrite E, Hw. apply build_again; [exact Hp| |exact Hb]. destruct Hi as [Hi|Hi]; [left; exact Hi|]. right. intros l a. exact (Hi h m i l a Hpc).
  - exists w3. split; [exact H3|]. rewrite W3, E, Hw. apply write_again.
Qed.
(** The same call again, on a source that is a file not in the way of the page. *)
Theorem make_path_again path hr lnt c w w' hr2 c2 w2 :
  fresh_ok (w_mem w) -> fresh_ok (w_mem w2) -> w_fs w2 = w_fs w' -> In (lc_format c2) formats ->
  path_str path <> lit "index.html" -> (forall n, path_str path <> lit "static/" ++ n) ->
  (forall n x, In (n, x) pkg -> slashless n = true) -> w_fs w !! lit "index.html" = None ->
  make_rsm ts hl pkg fuel [] path hr lnt c w = (w', Ok PNone) ->
  exists w3, make_rsm ts hl pkg fuel [] path hr2 lnt c2 w2 = (w3, Ok PNone) /\ w_fs w3 = w_fs w'.
Proof.
  intros Hf Hf2 E Hc P1 P2 Hp Hi H. pose proof H as H'. apply any_make in H' as [(_ & [K|[e K]])|(_ & text & h & m & i & p & Hg & _)]; [discriminate K|discriminate K| |exact Hf].
  apply (make_again [] path hr lnt c w w' text [] path hr2 c2 w2); auto.
  destruct Hg as [(G & _)|(G1 & G2 & G3 & G4)]; [congruence|]. right. split; [exact G1|]. split; [exact G2|]. split; [exact G3|].
  rewrite (make_touches ts hl pkg fuel [] path hr lnt c w w' (Ok PNone) (path_str path) Hf H P1 P2). exact G4.
Qed.
End Twice.
