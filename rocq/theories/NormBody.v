(** The normalisation of one node, and of a manuscript. *)
From Verif Require Import TreeFacts Meta TocBuild Queries.
From Verif Require Export NormSteps.
From Verif Require Import Consistency NodeProofs NodeOps Monad.
Local Open Scope string_scope.
Local Open Scope list_scope.

(** A step took the branches [ps] to branches with the contents [ts]. *)
Definition took (s s' : st) (p : option id) (i : id) (c : cls) (m : gmap attr val) (ps : list branch) (ts : list atree) : Prop :=
  exists ps', fam s' p i c m ps' /\ map snd ps' = ts /\ within s s' (i :: ids ps) (i :: ids ps').
Lemma took_refl s p i c m ps : fam s p i c m ps -> took s s p i c m ps (map snd ps).
Proof. intros H. exists ps. split; [assumption|]. split; [reflexivity|apply within_refl]. Qed.

Lemma at_end_snoc f l t : at_end f (l ++ [t]) = l ++ [if_text f t].
Proof. unfold at_end. rewrite rev_unit. cbn [at_start rev]. rewrite rev_involutive. reflexivity. Qed.
Lemma update_first s s' u p i c m x ps f : fam s p i c m (x :: ps) -> text_node x.2 = true -> update_text (tip x) f s = (s', Ok u) ->
  took s s' p i c m (x :: ps) (at_start (retext f) (map snd (x :: ps))).
Proof.
  intros H Et Hu. apply (update_text_ok s p i c m [] x ps) in Hu as [H1 W]; [|assumption]. eexists. split; [exact H1|].
  cbn [app map at_start snd]. unfold if_text. rewrite Et. split; [reflexivity|exact W].
Qed.
Lemma strip_start s s' u p i c m ps : fam s p i c m ps ->
  on_first i CText (fun f => update_text f lstrip) s = (s', Ok u) -> took s s' p i c m ps (at_start (retext lstrip) (map snd ps)).
Proof.
  intros H Hf. apply (on_first_ok _ _ _ _ _ _ _ _ _ _ H) in Hf. destruct ps as [|x ps]; [subst; apply (took_refl _ _ _ _ _ []); assumption|].
  fold (text_node x.2) in Hf. destruct (text_node x.2) eqn:Et; [eapply update_first; eassumption|]. subst s'.
  cbn [map at_start]. unfold if_text. rewrite Et. apply (took_refl _ _ _ _ _ (x :: ps)). assumption.
Qed.
Lemma strip_end s s' u p i c m ps : fam s p i c m ps ->
  on_last i CText (fun f => update_text f rstrip) s = (s', Ok u) -> took s s' p i c m ps (at_end (retext rstrip) (map snd ps)).
Proof.
  intros H Hf. apply (on_last_ok _ _ _ _ _ _ _ _ _ _ H) in Hf. destruct ps as [|x ps _] using rev_ind; [cbn in Hf; subst; apply (took_refl _ _ _ _ _ []); assumption|].
  rewrite rev_unit in Hf. fold (text_node x.2) in Hf. rewrite map_app. cbn [map]. rewrite at_end_snoc. unfold if_text. destruct (text_node x.2) eqn:Et.
  - apply (update_text_ok s p i c m ps x []) in Hf as [H1 W]; [|assumption]. eexists. split; [exact H1|]. rewrite map_app. split; [reflexivity|].
    rewrite ids_retree. exact W.
  - subst s'. exists (ps ++ [x]). split; [assumption|]. rewrite map_app. split; [reflexivity|apply within_refl].
Qed.
Lemma took_trans s1 s2 s3 p i c m ps ts ts' :
  took s1 s2 p i c m ps ts -> (forall ps2, fam s2 p i c m ps2 -> map snd ps2 = ts -> took s2 s3 p i c m ps2 ts') -> took s1 s3 p i c m ps ts'.
Proof.
  intros (ps2 & H & E & W) Hn. destruct (Hn _ H E) as (ps3 & H3 & E3 & W3). exists ps3. split; [assumption|]. split; [assumption|].
  eapply within_trans; eassumption.
Qed.
Definition stripped (ts : list atree) : list atree := at_end (retext rstrip) (at_start (retext lstrip) ts).
Lemma strip_ends_ok s s' u p i c m ps : fam s p i c m ps -> strip_ends i s = (s', Ok u) ->
  took s s' p i c m ps (if subclass c CParagraph then map snd ps else stripped (map snd ps)).
Proof.
  intros H H1. unfold strip_ends in H1.
  apply bind_ok in H1 as (s2 & c1 & H3 & H1). apply (cls_ok _ _ _ _ _ _ _ _ H) in H3 as [-> ->].
  apply bind_ok in H1 as (s2 & cs & H3 & H1). apply (kids_ok _ _ _ _ _ _ _ _ H) in H3 as [-> ->].
  destruct (subclass c CParagraph) eqn:Ep; [apply ret_ok in H1 as [-> _]; apply took_refl; assumption|].
  destruct ps as [|x ps].
  - apply ret_ok in H1 as [-> _]. apply (took_refl _ _ _ _ _ []). assumption.
  - cbn [map] in H1. apply bind_ok in H1 as (s1 & u1 & H1 & H2). apply (when_text_ok s p i c m [] x ps) in H1 as [F1 W1]; [|assumption].
    set (x' := (x.1, _)) in F1. cbn [app] in F1, W1.
    assert (El : exists l y, x' :: ps = l ++ [y]). { destruct (exists_last (l := x' :: ps)) as (l & y & E); [discriminate|]. eauto. }
    destruct El as (l & y & El). assert (Ety : List.last (tip x :: map tip ps) (tip x) = tip y).
    { change (tip x :: map tip ps) with (map tip (x' :: ps)). rewrite El, map_app. cbn [map]. apply last_last. }
    rewrite Ety in H2. rewrite El in F1. apply (when_text_ok s1 p i c m l y []) in H2 as [F2 W2]; [|assumption].
    eexists. split; [exact F2|]. split.
    + unfold stripped. change (at_start (retext lstrip) (map snd (x :: ps))) with (map snd (x' :: ps)). rewrite El, !map_app. cbn [map snd].
      rewrite at_end_snoc. reflexivity.
    + rewrite ids_retree. eapply within_trans; [exact W1|]. change (ids (x :: ps)) with (ids (x' :: ps)). rewrite El. exact W2.
Qed.
Lemma strip_paragraph_ok s s' u p i c m ps : fam s p i c m ps -> strip_paragraph i s = (s', Ok u) ->
  took s s' p i c m ps (if subclass c CParagraph then stripped (map snd ps) else map snd ps).
Proof.
  intros H H2. unfold strip_paragraph in H2. apply bind_ok in H2 as (s2 & c2 & H3 & H2).
  apply (cls_ok _ _ _ _ _ _ _ _ H) in H3 as [-> ->].
  destruct (subclass c CParagraph) eqn:Ep; [|apply ret_ok in H2 as [-> _]; apply took_refl; assumption].
  assert (Hx : (do! on_first i CText (fun f => update_text f lstrip) in on_last i CText (fun f => update_text f rstrip)) s = (s', Ok u)).
  { rewrite <- H2. unfold on_first, on_last, bind. destruct (first_of_type i [CText] s) as [? [?|?]]; reflexivity. }
  apply bind_ok in Hx as (s1 & u2 & X1 & X2). apply (strip_start _ _ _ _ _ _ _ _ H) in X1. eapply took_trans; [exact X1|].
  intros ps2 F E. apply (strip_end _ _ _ _ _ _ _ _ F) in X2. unfold stripped. rewrite <- E. exact X2.
Qed.
Lemma bind_assoc {X Y Z} (m : M X) (f : X -> M Y) (g : Y -> M Z) s : bind (bind m f) g s = bind m (fun x => bind (f x) g) s.
Proof. unfold bind. destruct (m s) as [s1 [x|e]]; reflexivity. Qed.
Lemma bind_ext {X Y} (m : M X) (f g : X -> M Y) s : (forall s1 x, f x s1 = g x s1) -> bind m f s = bind m g s.
Proof. intros H. unfold bind. destruct (m s) as [s1 [x|e]]; [apply H|reflexivity]. Qed.
Lemma text_not_math t : text_node t = true -> subclass (a_class t) CMath = false.
Proof. unfold text_node. destruct (a_class t); vm_compute; congruence. Qed.
Lemma pad_construct_ok s s' u p i c m ps : fam s p i c m ps -> pad_construct i s = (s', Ok u) ->
  took s s' p i c m ps (prefixed c m (map snd ps)).
Proof.
  intros H Hm. unfold pad_construct in Hm. apply bind_ok in Hm as (s2 & c2 & H3 & Hm).
  apply (cls_ok _ _ _ _ _ _ _ _ H) in H3 as [-> ->]. unfold prefixed.
  destruct (subclass c CConstruct) eqn:Ep; [|apply ret_ok in Hm as [-> _]; apply took_refl; assumption].
  assert (Hx : (do! on_first i CText (fun f => update_text f (fun t => lit " " ++ t)) in
                do! on_first i CMath (fun _ => let! t := new_node CText [(a_text, VStr (lit " "))] in prepend i [t]) in
                let! k := new_node CKeyword [] in
                let! kind := getattr i a_kind in
                match keyword_of kind with
                | None => raise EKey
                | Some w => let! t := new_node CText [(a_text, VStr w)] in do! append k [t] in prepend i [k]
                end) s = (s', Ok u)).
  { rewrite <- Hm. unfold on_first. rewrite bind_assoc. apply bind_ext. intros s1 f. apply bind_ext. intros s2 _. apply bind_assoc. }
  clear Hm. apply bind_ok in Hx as (s1 & u1 & X1 & Hx). apply bind_ok in Hx as (s2 & u2 & X2 & Hx).
  assert (T1 : took s s1 p i c m ps (at_start (retext (fun t => lit " " ++ t)) (map snd ps))).
  { apply (on_first_ok _ _ _ _ _ _ _ _ _ _ H) in X1. destruct ps as [|x ps]; [subst; apply (took_refl _ _ _ _ _ []); assumption|].
    fold (text_node x.2) in X1. destruct (text_node x.2) eqn:Et; [eapply update_first; eassumption|]. subst s1.
    cbn [map at_start]. unfold if_text. rewrite Et. apply (took_refl _ _ _ _ _ (x :: ps)). assumption. }
  assert (T2 : took s s2 p i c m ps (opened (map snd ps))).
  { eapply took_trans; [exact T1|]. intros ps2 F E. unfold opened. rewrite <- E.
    apply (on_first_ok _ _ _ _ _ _ _ _ _ _ F) in X2. destruct ps2 as [|x ps2]; [subst; apply (took_refl _ _ _ _ _ []); assumption|].
    cbn [map]. destruct (subclass (a_class x.2) CMath) eqn:Et.
    - apply bind_ok in X2 as (s3 & t & X2 & X3). apply new_node_ok in X2 as [-> ->].
      pose proof (sprout_new s1 CText [(a_text, VStr (lit " "))] (fm_good _ _ _ _ _ _ F)) as Hsp.
      change [st_next s1] with [tip (T (st_next s1) [], space)] in X3. apply (fam_prepend _ _ _ _ _ _ _ _ _ _ F Hsp) in X3 as [F3 W3].
      eexists. split; [exact F3|]. split; [reflexivity|exact W3].
    - subst s2. apply (took_refl _ _ _ _ _ (x :: ps2)). assumption. }
  eapply took_trans; [exact T2|]. intros ps2 F E. rewrite <- E. clear T1 T2 X1 X2 E.
  apply bind_ok in Hx as (s3 & k & X3 & Hx). apply new_node_ok in X3 as [-> ->].
  pose proof (new_draft s2 CKeyword [] (fm_good _ _ _ _ _ _ F)) as Hd. set (s3 := new s2 _) in *.
  apply bind_ok in Hx as (s4 & kind & X4 & Hx). apply getattr_ok in X4 as (-> & n & Hn & Hk).
  assert (Hkind : default VNone (m !! a_kind) = kind).
  { destruct (fm_node _ _ _ _ _ _ F) as (n' & Hn' & _ & _ & <- & _). unfold s3 in Hn. rewrite new_lookup, decide_False in Hn.
    - assert (n' = n) as -> by congruence. rewrite Hk. reflexivity.
    - apply Nat.neq_sym, Nat.lt_neq. eapply fam_old; [exact F|left; reflexivity]. }
  rewrite Hkind. destruct (keyword_of kind) as [w|]; [|discriminate Hx]. cbn [default].
  apply bind_ok in Hx as (s4 & t & X4 & Hx). apply bind_ok in Hx as (s5 & u5 & X5 & Hx).
  destruct (new_append_draft _ _ _ _ _ _ _ _ _ _ _ Hd X4 X5) as [D5 L5].
  assert (Hsp : sprout s2 s5 (T (st_next s2) [T t []], keyword w)).
  { destruct D5. split.
    - assumption.
    - lia.
    - rewrite L5. reflexivity.
    - assumption.
    - cbn [fst snd]. set (nk := MkNode _ _ _ _) in dr_node. apply (holds_node _ _ _ nk); [exact dr_node|reflexivity|reflexivity|assumption].
    - intros j [<-|Hj]; [lia|]. apply dr_ids in Hj. lia. }
  change [st_next s2] with [tip (T (st_next s2) [T t []], keyword w)] in Hx. destruct (fam_prepend _ _ _ _ _ _ _ _ _ _ F Hsp Hx) as [F3 W3].
  eexists. split; [exact F3|]. split; [reflexivity|exact W3].
Qed.
Lemma squeezes_ok p i c m f : forall ps2 ps1 s s' u, fam s p i c m (ps1 ++ ps2) -> iterM (fun c => when_text c f) (map tip ps2) s = (s', Ok u) ->
  exists ps2', fam s' p i c m (ps1 ++ ps2') /\ map snd ps2' = map (if_text (retext f)) (map snd ps2) /\ within s s' (i :: ids (ps1 ++ ps2)) (i :: ids (ps1 ++ ps2')).
Proof.
  induction ps2 as [|x ps2 IH]; intros ps1 s s' u H Hm; cbn [map] in Hm.
  - apply ret_ok in Hm as [-> _]. exists []. split; [assumption|]. split; [reflexivity|apply within_refl].
  - apply iterM_cons_ok in Hm as (s1 & H1 & Hm). apply (when_text_ok _ _ _ _ _ _ _ _ _ _ _ H) in H1 as [F1 W1]. set (x' := (x.1, _)) in F1.
    apply (IH (ps1 ++ [x'])) in Hm as (ps2' & F2 & E & W2); [|rewrite <- app_assoc; exact F1].
    exists (x' :: ps2'). rewrite <- !app_assoc in *. split; [exact F2|]. split; [cbn [map]; rewrite E; reflexivity|].
    eapply within_trans; [exact W1|]. rewrite <- (ids_retree ps1 x (if_text (retext f) x.2)). exact W2.
Qed.

(** The steps within the node. *)
Definition inner_body (i : id) : M unit :=
  let! cs := children_of i in
  let! bs := mapM (fun c => let! b := is_text c in ret (c, b)) cs in
  do! iterM merge_run (text_runs bs []) in
  do! strip_ends i in
  do! strip_paragraph i in
  do! pad_construct i in
  squeeze_children i.
Lemma normalize_body_split i s : normalize_body tt i s = (do! inner_body i in do! space_after i in escape_node i) s.
Proof.
  unfold normalize_body, inner_body, bind.
  destruct (children_of i s) as [s1 [cs|?]]; [|reflexivity]. destruct (mapM _ cs s1) as [s2 [bs|?]]; [|reflexivity].
  destruct (iterM _ _ s2) as [s3 [?|?]]; [|reflexivity]. destruct (strip_ends i s3) as [s4 [?|?]]; [|reflexivity].
  destruct (strip_paragraph i s4) as [s5 [?|?]]; [|reflexivity]. destruct (pad_construct i s5) as [s6 [?|?]]; reflexivity.
Qed.
Lemma inner_body_ok s s' u p i c m ps : fam s p i c m ps -> inner_body i s = (s', Ok u) ->
  took s s' p i c m ps (local c m (map snd ps)).
Proof.
  intros H Hm. unfold inner_body in Hm.
  apply bind_ok in Hm as (s1 & cs & H1 & Hm). apply (kids_ok _ _ _ _ _ _ _ _ H) in H1 as [-> ->].
  apply bind_ok in Hm as (s1 & bs & H1 & Hm). apply (flags_ok s p i c m ps []) in H1 as [-> ->]; [|assumption].
  apply bind_ok in Hm as (s1 & u1 & H1 & Hm). apply (merge_ok p i c m ps [] []) in H1 as (ps1 & F1 & E1 & W1); [|assumption].
  assert (T1 : took s s1 p i c m ps (merge_texts [] (map snd ps))) by (exists ps1; split; [exact F1|split; [exact E1|exact W1]]).
  clear H F1 E1 W1. apply bind_ok in Hm as (s2 & u2 & H2 & Hm). apply bind_ok in Hm as (s3 & u3 & H3 & Hm).
  assert (T3 : took s s3 p i c m ps (stripped (merge_texts [] (map snd ps)))).
  { eapply took_trans; [exact T1|]. intros ps2 F E. apply (strip_ends_ok _ _ _ _ _ _ _ _ F) in H2. eapply took_trans; [exact H2|].
    intros ps3 F3 E3. apply (strip_paragraph_ok _ _ _ _ _ _ _ _ F3) in H3. rewrite <- E. destruct (subclass c CParagraph); rewrite E3 in H3; exact H3. }
  apply bind_ok in Hm as (s4 & u4 & H4 & Hm).
  assert (T4 : took s s4 p i c m ps (prefixed c m (stripped (merge_texts [] (map snd ps))))).
  { eapply took_trans; [exact T3|]. intros ps2 F E. apply (pad_construct_ok _ _ _ _ _ _ _ _ F) in H4. rewrite E in H4. exact H4. }
  eapply took_trans; [exact T4|]. intros ps2 F E. unfold squeeze_children in Hm.
  apply bind_ok in Hm as (s5 & cs & H5 & Hm). apply (kids_ok _ _ _ _ _ _ _ _ F) in H5 as [-> ->].
  apply (squeezes_ok p i c m squeeze ps2 []) in Hm as (ps3 & F3 & E3 & W3); [|assumption].
  exists ps3. split; [exact F3|]. split; [|exact W3]. rewrite E3, E. reflexivity.
Qed.
