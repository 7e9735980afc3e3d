(** More fuel changes nothing: a run that did not run out of fuel is the same with more. *)
From Verif Require Export Transformer Linter Translator Handrails Parser.

Definition enough {A} (r : st * res A) : Prop := snd r <> Err EOutOfFuel.
Definition mono {A} (m : nat -> M A) : Prop := forall f f' s, f <= f' -> enough (m f s) -> m f' s = m f s.

Lemma mono_const {A} (m : M A) : mono (fun _ => m). Proof. intros f f' s _ _. reflexivity. Qed.
Lemma mono_bind {A B} (m : nat -> M A) (k : nat -> A -> M B) :
  mono m -> (forall a, mono (fun f => k f a)) -> mono (fun f => bind (m f) (k f)).
Proof.
  intros Hm Hk f f' s Hf He. unfold enough, bind in *.
  assert (E : enough (m f s)). { unfold enough. destruct (m f s) as [s1 [a|e]]; [discriminate|]. intros [= ->]. apply He. reflexivity. }
  rewrite (Hm f f' s Hf E). destruct (m f s) as [s1 [a|e]]; [|reflexivity]. apply (Hk a f f' s1 Hf He).
Qed.
Lemma mono_catch {A} (m : nat -> M A) (h : exn -> option (M A)) : mono m -> h EOutOfFuel = None -> mono (fun f => catch (m f) h).
Proof.
  intros Hm Hh f f' s Hf He. unfold enough, catch in *.
  assert (E : enough (m f s)).
  { unfold enough. destruct (m f s) as [s1 [a|e]]; [discriminate|]. cbn [snd]. intros [= ->]. rewrite Hh in He. apply He. reflexivity. }
  rewrite (Hm f f' s Hf E). reflexivity.
Qed.
Lemma mono_iterM {A} (g : nat -> A -> M unit) l : (forall a, mono (fun f => g f a)) -> mono (fun f => iterM (g f) l).
Proof. intros H. induction l as [|a l IH]; cbn [iterM]; [apply mono_const|]. apply mono_bind; [apply H|intros _; exact IH]. Qed.
Lemma mono_mapM {A B} (g : nat -> A -> M B) l : (forall a, mono (fun f => g f a)) -> mono (fun f => mapM (g f) l).
Proof.
  intros H. induction l as [|a l IH]; cbn [mapM]; [apply mono_const|]. apply mono_bind; [apply H|intros b].
  apply mono_bind; [exact IH|intros; apply mono_const].
Qed.

Lemma loop_mono {A} cond (body : nat -> A -> id -> M A) : (forall acc i, mono (fun f => body f acc i)) ->
  forall g g', g <= g' -> forall f f' acc stack s, f <= f' ->
  enough (trav_loop f cond (body g) acc stack s) -> trav_loop f' cond (body g') acc stack s = trav_loop f cond (body g) acc stack s.
Proof.
  intros Hb g g' Hg. induction f as [|f IH]; intros f' acc stack s Hf He.
  - destruct stack as [|i rest]; [destruct f'; reflexivity|]. destruct He. reflexivity.
  - destruct f' as [|f']; [lia|]. destruct stack as [|i rest]; [reflexivity|]. cbn [trav_loop] in *. unfold enough, bind in *.
    destruct (get_node i s) as [s1 [n|e]]; [|reflexivity].
    assert (E : enough ((if cond n then body g acc i else ret acc) s1)).
    { unfold enough. destruct ((if cond n then body g acc i else ret acc) s1) as [s2 [a|e]]; [discriminate|]. intros [= ->]. apply He. reflexivity. }
    assert (E2 : (if cond n then body g' acc i else ret acc) s1 = (if cond n then body g acc i else ret acc) s1).
    { destruct (cond n); [apply (Hb acc i g g' s1 Hg E)|reflexivity]. }
    rewrite E2. destruct ((if cond n then body g acc i else ret acc) s1) as [s2 [a|e]]; [|reflexivity].
    destruct (children_of i s2) as [s3 [cs|e]]; [|reflexivity]. apply IH; [lia|exact He].
Qed.
Lemma mono_traverse {A} cond (body : nat -> A -> id -> M A) acc i : (forall acc i, mono (fun f => body f acc i)) ->
  mono (fun f => for_traverse f cond (body f) acc i).
Proof. intros H f f' s Hf He. apply (loop_mono cond body H f f' Hf); assumption. Qed.
Lemma mono_anc_loop ds : forall c, mono (fun f => anc_loop f ds c).
Proof.
  intros c f. revert c. induction f as [|f IH]; intros c f' s Hf He.
  - destruct c; [destruct He; reflexivity|destruct f'; reflexivity].
  - destruct f' as [|f']; [lia|]. destruct c as [q|]; [|reflexivity]. cbn [anc_loop] in *. unfold enough, bind in *.
    destruct (cls_of q s) as [s1 [c|e]]; [|reflexivity]. destruct (cls_mem c ds); [reflexivity|].
    destruct (parent_of q s1) as [s2 [p|e]]; [|reflexivity]. apply IH; [lia|exact He].
Qed.
Lemma mono_ancestor i ds : mono (fun f => first_ancestor_of_type f i ds).
Proof. apply mono_bind; [apply mono_const|intros p; apply mono_anc_loop]. Qed.
Lemma mono_first_loop cond : forall stack, mono (fun f => first_loop f cond stack).
Proof.
  intros c f. revert c. induction f as [|f IH]; intros c f' s Hf He.
  - destruct c; [destruct f'; reflexivity|destruct He; reflexivity].
  - destruct f' as [|f']; [lia|]. destruct c as [|q r]; [reflexivity|]. cbn [first_loop] in *. unfold enough, bind in *.
    destruct (get_node q s) as [s1 [n|e]]; [|reflexivity]. destruct (cond n); [reflexivity|].
    destruct (children_of q s1) as [s2 [p|e]]; [|reflexivity]. apply IH; [lia|exact He].
Qed.

(** Split the goal as far as possible. *)
Ltac mn1 := match goal with
  | |- mono (fun _ => ?m) => apply mono_const
  | |- mono (fun f => bind _ _) => apply mono_bind; [|intros]
  | |- mono (fun f => for_traverse f _ _ _ _) => apply mono_traverse; intros
  | |- mono (fun f => iterM _ _) => apply mono_iterM; intros
  | |- mono (fun f => mapM _ _) => apply mono_mapM; intros
  | |- mono (fun f => let _ := _ in _) => cbv zeta
  | |- mono (fun f => match ?x with _ => _ end) => destruct x
  end.
Create HintDb mono.
Global Hint Resolve mono_ancestor mono_anc_loop mono_first_loop : mono.
Ltac mn := repeat first [ solve [eauto with mono] | mn1 ].

Lemma mono_full_number : forall i, mono (fun f => full_number f i).
Proof.
  intros i f. revert i. induction f as [|f IH]; intros i f' s Hf He; [destruct He; reflexivity|].
  destruct f' as [|f']; [lia|]. cbn [full_number] in *. 
  set (rec g j := full_number g j).
  assert (Hrec : forall j, forall s, enough (full_number f j s) -> full_number f' j s = full_number f j s).
  { intros j s0 H. apply IH; [lia|exact H]. }
  revert s He.
  assert (B : forall (A B : Type) (m m' : M A) (k k' : A -> M B),
     (forall s, enough (m s) -> m' s = m s) -> (forall a s, enough (k a s) -> k' a s = k a s) ->
     forall s, enough (bind m k s) -> bind m' k' s = bind m k s).
  { intros A B m m' k k' Hm Hk s He. unfold enough, bind in *.
    assert (E : enough (m s)). { unfold enough. destruct (m s) as [s1 [a|e]]; [discriminate|]. intros [= ->]. apply He. reflexivity. }
    rewrite (Hm s E). destruct (m s) as [s1 [a|e]]; [apply Hk, He|reflexivity]. }
  assert (Ha : forall j ds s, enough (first_ancestor_of_type f j ds s) -> first_ancestor_of_type f' j ds s = first_ancestor_of_type f j ds s).
  { intros j ds s0 H. apply mono_ancestor; [lia|exact H]. }
  repeat first
    [ apply Hrec | apply Ha | reflexivity
    | apply B; [|intro]
    | match goal with |- forall s, enough ((match ?x with _ => _ end) s) -> _ => destruct x end
    | match goal with |- forall s, _ -> ?m s = ?m s => reflexivity end ].
Qed.
Global Hint Resolve mono_full_number : mono.
Lemma mono_reftext i : mono (fun f => reftext f i). Proof. unfold reftext. mn. Qed.
Global Hint Resolve mono_reftext : mono.

(** ** The transformer and the linter *)

Lemma mono_node_eqM x y : mono (fun f => node_eqM f x y).
Proof.
  assert (H : forall f f' h x y b, f <= f' -> node_eq f h x y = Some b -> node_eq f' h x y = Some b).
  { induction f as [|f IH]; intros f' h u v b Hf H; [discriminate|]. destruct f' as [|f']; [lia|]. cbn [node_eq] in *.
    destruct (h !! u) as [nu|]; [|discriminate]. destruct (h !! v) as [nv|]; [|discriminate].
    destruct (_ && _); [|exact H]. destruct (has_children _); [|exact H].
    match goal with |- _ ?l ?m = _ => revert H; generalize m; generalize l end.
    induction l as [|p l IHl]; intros [|q m] H; try exact H.
    destruct (Nat.eqb p q); [apply IHl, H|]. destruct (node_eq f h p q) as [[|]|] eqn:E; try discriminate.
    - rewrite (IH f' h p q true) by (auto; lia). apply IHl, H.
    - rewrite (IH f' h p q false) by (auto; lia). exact H. }
  intros f f' s Hf He. unfold enough, node_eqM in *. destruct (node_eq f (st_heap s) x y) as [b|] eqn:E; [|destruct He; reflexivity].
  rewrite (H f f' _ _ _ b Hf E). reflexivity.
Qed.
Global Hint Resolve mono_node_eqM : mono.
Lemma mono_resolve_prev i : mono (fun f => resolve_prev f i). Proof. unfold resolve_prev. mn. Qed.
Global Hint Resolve mono_resolve_prev : mono.
Lemma mono_collect d i : mono (fun f => collect_labels f d i). Proof. unfold collect_labels. mn. Qed.
Lemma mono_resolve d i : mono (fun f => resolve_pending_references f d i).
Proof. unfold resolve_pending_references, resolve_body. mn. Qed.
Lemma mono_subproofs i : mono (fun f => add_necessary_subproofs f i). Proof. unfold add_necessary_subproofs. mn. Qed.
Lemma mono_number i : mono (fun f => autonumber_nodes f i). Proof. unfold autonumber_nodes. mn. Qed.
Lemma mono_toc i : mono (fun f => make_toc f i). Proof. unfold make_toc, toc_body, toc_reftext. mn. Qed.
Lemma mono_constructs i : mono (fun f => add_keywords_to_constructs f i). Proof. unfold add_keywords_to_constructs. mn. Qed.
Lemma mono_depth_class i c : mono (fun f => add_handrail_depth_for_class f i c).
Proof. unfold add_handrail_depth_for_class, depth_outer, depth_inner. mn. Qed.
Global Hint Resolve mono_depth_class : mono.
Lemma mono_depth i : mono (fun f => add_handrail_depth f i). Proof. unfold add_handrail_depth. mn. Qed.
Lemma mono_nodeids i : mono (fun f => assign_node_ids f i). Proof. unfold assign_node_ids. mn. Qed.
Global Hint Resolve mono_collect mono_resolve mono_subproofs mono_number mono_toc mono_constructs mono_depth mono_nodeids : mono.
Lemma mono_transform d i : mono (fun f => transform f d i). Proof. unfold transform. mn. Qed.
Lemma mono_lint i : mono (fun f => lint f i). Proof. unfold lint, lint_section_label, lint_mathblock_inside_paragraph. mn. Qed.
Global Hint Resolve mono_transform mono_lint : mono.

(** ** The parser *)

Lemma mono_abs_loop : forall v stack, mono (fun f => abs_loop f v stack).
Proof.
  intros v stack f. revert v stack. induction f as [|f IH]; intros v stack f' s Hf He.
  - destruct stack as [|[p x] rest]; [destruct f'; reflexivity|]. destruct He; reflexivity.
  - destruct f' as [|f']; [lia|]. destruct stack as [|[p x] rest]; [reflexivity|]. cbn [abs_loop] in *. unfold enough, bind in *.
    destruct (step v p x s) as [s1 [c|e]]; [|reflexivity]. apply IH; [lia|exact He].
Qed.
Global Hint Resolve mono_abs_loop : mono.
Lemma mono_abstractify c : mono (fun f => abstractify f c). Proof. unfold abstractify, normalize_text. mn. Qed.
Lemma mono_parse c : mono (fun f => parse f c).
Proof. unfold parse. mn. apply mono_catch; [apply mono_abstractify|reflexivity]. Qed.
Global Hint Resolve mono_parse : mono.

(** ** The translators *)

Section Translators.
Context (hl : str -> str -> str).
Lemma mono_visit_method m i : mono (fun f => visit_method hl f m i).
Proof.
  unfold visit_method, visit_section, visit_note, visit_reference, visit_url, visit_theorem, visit_cite, visit_figure, visit_caption, make_ahref.
  assert (H : forall i label ts idx, mono (fun f => cite_tags f i label ts idx)).
  { intros j label ts. induction ts as [|t r IH]; intros idx; cbn [cite_tags]; [apply mono_const|]. unfold make_ahref. mn. }
  destruct m; mn.
Qed.
Hint Resolve mono_visit_method : mono.
Lemma mono_base_visit i : mono (fun f => base_visit hl f i). Proof. unfold base_visit. mn. Qed.
Lemma mono_base_leave i ts : mono (fun f => base_leave f i ts). Proof. unfold base_leave. mn. Qed.
Lemma mono_hr_visit a root i : mono (fun f => hr_visit hl a root f i).
Proof.
  unfold hr_visit. mn.
  unfold hvisit_method, hv_manuscript, hv_author, hv_section, hv_abstract, hv_contents, hv_bibliography, hv_paragraph, hv_labeled, hv_step,
    hv_mathblock, hv_bibitem, replace_node_with_handrails, step_handrails, make_minimap, wrap_heading, visit_section, visit_theorem, traverse.
  match goal with |- mono (fun f => match ?m with _ => _ end) => destruct m end; mn.
Qed.
Lemma mono_hr_leave i ts : mono (fun f => hr_leave f i ts).
Proof. unfold hr_leave, hleave_method, hl_step, hl_mathblock. mn. Qed.

Definition tmono (tc : tclass) : Prop := (forall i, mono (fun f => tc_visit tc f i)) /\ (forall i ts, mono (fun f => tc_leave tc f i ts)).
Lemma mono_execute (ext : nat -> id -> M (list tok)) : (forall i, mono (fun f => ext f i)) ->
  forall c ts, mono (fun f => execute (ext f) c ts).
Proof.
  intros He. assert (Hm : forall c, mono (fun f => make_text (ext f) c)) by (intros c; destruct c; cbn [make_text]; mn).
  assert (Hi : forall l ds ts, mono (fun f => exec_items (ext f) l ds ts)).
  { induction l as [|x l IH]; intros ds ts; cbn [exec_items]; mn. }
  fix IH 1. intros [] ts; cbn [execute]; try solve [mn].
  revert ts. induction items as [|x l IHl]; intros ts; [apply mono_const|]. apply mono_bind; [apply IH|]. intros t. apply IHl.
Qed.
Definition refines (ext ext' : id -> M (list tok)) : Prop := forall i s, enough (ext i s) -> ext' i s = ext i s.
Lemma refine_execute ext ext' c ts s : refines ext ext' -> enough (execute ext c ts s) -> execute ext' c ts s = execute ext c ts s.
Proof.
  intros H. apply (mono_execute (fun f => if Nat.eqb f 0 then ext else ext') ltac:(
    intros i f f' s0 Hf He; destruct f as [|f], f' as [|f']; cbn in *; try reflexivity; [apply H, He|lia]) c ts 0 1). lia.
Qed.
Lemma mono_tr_loop tc ext ext' : tmono tc -> refines ext ext' ->
  forall g g', g <= g' -> forall f f' stack ts s, f <= f' ->
  enough (tr_loop tc ext g f stack ts s) -> tr_loop tc ext' g' f' stack ts s = tr_loop tc ext g f stack ts s.
Proof.
  intros [Hv Hl] Hx g g' Hg. induction f as [|f IH]; intros f' stack ts s Hf He.
  - destruct stack as [|a rest]; [destruct f'; reflexivity|]. destruct He. reflexivity.
  - destruct f' as [|f']; [lia|]. destruct stack as [|[i|i] rest]; [reflexivity| |]; cbn [tr_loop] in *; unfold enough, bind in *.
    + assert (E : enough (tc_visit tc g i s)).
      { unfold enough. destruct (tc_visit tc g i s) as [s2 [a|e]]; [discriminate|]. intros [= ->]. apply He. reflexivity. }
      rewrite (Hv i g g' s Hg E). destruct (tc_visit tc g i s) as [s2 [c|e]]; [|reflexivity].
      destruct (children_of i s2) as [s3 [cs|e]]; [|reflexivity].
      assert (E2 : enough (execute ext c ts s3)).
      { unfold enough. destruct (execute ext c ts s3) as [s4 [a|e]]; [discriminate|]. intros [= ->]. apply He. reflexivity. }
      rewrite (refine_execute ext ext' c ts s3 Hx E2). destruct (execute ext c ts s3) as [s4 [a|e]]; [|reflexivity].
      apply IH; [lia|exact He].
    + assert (E : enough (tc_leave tc g i ts s)).
      { unfold enough. destruct (tc_leave tc g i ts s) as [s2 [a|e]]; [discriminate|]. intros [= ->]. apply He. reflexivity. }
      rewrite (Hl i ts g g' s Hg E). destruct (tc_leave tc g i ts s) as [s2 [c|e]]; [|reflexivity].
      assert (E2 : enough (execute ext c.1 c.2 s2)).
      { unfold enough. destruct (execute ext c.1 c.2 s2) as [s4 [a|e]]; [discriminate|]. intros [= ->]. apply He. reflexivity. }
      rewrite (refine_execute ext ext' _ _ s2 Hx E2). destruct (execute ext c.1 c.2 s2) as [s4 [a|e]]; [|reflexivity].
      apply IH; [lia|exact He].
Qed.
Lemma mono_run tc ext ext' f f' i s : tmono tc -> refines ext ext' -> f <= f' ->
  enough (run_translator tc ext f i s) -> run_translator tc ext' f' i s = run_translator tc ext f i s.
Proof.
  intros Ht Hx Hf He. unfold run_translator, enough, bind in *.
  assert (E : enough (tr_loop tc ext f f [Visit i] (MkT [] []) s)).
  { unfold enough. destruct (tr_loop tc ext f f _ _ s) as [s2 [a|e]]; [discriminate|]. intros [= ->]. apply He. reflexivity. }
  rewrite (mono_tr_loop tc ext ext' Ht Hx f f' Hf f f' _ _ s Hf E). reflexivity.
Qed.
Lemma tmono_base : tmono (base_tc hl). Proof. split; [apply mono_base_visit|apply mono_base_leave]. Qed.
Lemma tmono_hr a root : tmono (hr_tc hl a root). Proof. split; [apply mono_hr_visit|apply mono_hr_leave]. Qed.
Lemma refine_ext d d' f f' : d <= d' -> f <= f' -> refines (translate_ext hl d f) (translate_ext hl d' f').
Proof.
  revert d'. induction d as [|d IH]; intros d' Hd Hf i s He; [destruct He; reflexivity|]. destruct d' as [|d']; [lia|].
  cbn [translate_ext] in *. apply mono_run; try assumption; [apply tmono_base|]. apply IH; lia.
Qed.
Lemma mono_translate i : mono (fun f => translate hl f i).
Proof.
  unfold translate. apply mono_bind; [apply mono_const|]. intros _ f f' s Hf He.
  apply mono_run; [apply tmono_base| |exact Hf|exact He]. apply refine_ext; exact Hf.
Qed.
Lemma mono_translate_handrails a i : mono (fun f => translate_handrails hl a f i).
Proof.
  unfold translate_handrails. apply mono_bind; [apply mono_const|]. intros _ f f' s Hf He.
  apply mono_run; [apply tmono_hr| |exact Hf|exact He]. apply refine_ext; exact Hf.
Qed.
End Translators.
