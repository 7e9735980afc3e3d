(** The parser ends: a number of steps proportional to the size of the syntax tree is enough. *)
From Verif Require Import TreeFacts Meta TocBuild.
From Verif Require Export ParseReady.
From Verif Require Import Consistency NodeProofs NodeOps Monad.
From Verif Require Import NormTree.
Local Open Scope string_scope.
Local Open Scope list_scope.

(** ** One iteration of the normalisation never runs out of fuel *)

Lemma f_inst ds i : steady (inst ds i). Proof. unfold inst. fs. Qed.
Lemma f_children_of i : steady (children_of i). Proof. unfold children_of. fs. Qed.
Ltac fsn := repeat first [fstep | apply f_inst | apply f_children_of | apply f_set_parent | apply f_append | solve [auto]].
Lemma f_prepend i l : steady (prepend i l). Proof. unfold prepend. fsn. unfold prepend1. fsn. Qed.
Lemma f_remove p c : steady (remove p c). Proof. unfold remove. fsn. Qed.
Lemma f_remove_self i : steady (remove_self i). Proof. pose proof f_remove. unfold remove_self. fsn. Qed.
Lemma f_insert_all p reps : forall k, steady (insert_all p k reps). Proof. induction reps; intros k; cbn [insert_all]; fsn. Qed.
Lemma f_replace_self i cs : steady (replace_self i cs). Proof. pose proof f_remove. pose proof f_insert_all. unfold replace_self. fsn. Qed.
Lemma f_first_go ds l : forall k, steady (first_of_type_go ds l k). Proof. induction l; intros; cbn [first_of_type_go]; fsn. Qed.
Lemma f_first i ds : steady (first_of_type i ds). Proof. pose proof f_first_go. unfold first_of_type. fsn. Qed.
Lemma f_last i ds : steady (last_of_type i ds). Proof. pose proof f_first_go. unfold last_of_type. fsn. Qed.
Lemma f_first_inst d l : steady (first_inst d l). Proof. induction l; cbn [first_inst]; fsn. Qed.
Lemma f_prev i a : steady (prev_sibling i a). Proof. pose proof f_first_inst. unfold prev_sibling. fsn. Qed.
Lemma f_next i a : steady (next_sibling i a). Proof. pose proof f_first_inst. unfold next_sibling. fsn. Qed.
Lemma f_normalize_body i : steady (normalize_body tt i).
Proof.
  pose proof f_prepend. pose proof f_remove_self. pose proof f_replace_self. pose proof f_first. pose proof f_last. pose proof f_prev. pose proof f_next.
  assert (Hi : forall i, steady (is_text i)) by (intros; apply f_inst).
  assert (Hu : forall i f, steady (update_text i f)) by (intros; unfold update_text; fsn).
  assert (Hw : forall i f, steady (when_text i f)) by (intros; unfold when_text; fsn).
  assert (Hm : forall l, steady (merge_run l)) by (intros [|x [|y l]]; unfold merge_run; fsn).
  unfold normalize_body, strip_ends, strip_paragraph, pad_construct, squeeze_children, space_after, escape_node. fsn.
Qed.

(** ** The loop of the normalisation *)

(** The nodes which the loop visits below and including a node: a construct gets a keyword, with a
    text, and a space. *)
Fixpoint visits (t : atree) : nat :=
  match t with A c m ts => S (list_sum (map visits ts)) + if subclass c CConstruct then 4 else 0 end.
Definition all_visits (ts : list atree) : nat := list_sum (map visits ts).
Lemma all_visits_app l l' : all_visits (l ++ l') = all_visits l + all_visits l'.
Proof. unfold all_visits. rewrite map_app, list_sum_app. reflexivity. Qed.
Lemma all_visits_cons t l : all_visits (t :: l) = visits t + all_visits l. Proof. reflexivity. Qed.
Lemma all_visits_rev l : all_visits (rev l) = all_visits l.
Proof. induction l as [|t l IH]; [reflexivity|]. cbn [rev]. rewrite all_visits_app, IH, !all_visits_cons. unfold all_visits. cbn. lia. Qed.
Lemma visits_A c m ts : visits (A c m ts) = S (all_visits ts) + if subclass c CConstruct then 4 else 0. Proof. reflexivity. Qed.
Lemma visits_retext f t : visits (retext f t) = visits t. Proof. destruct t. reflexivity. Qed.
Lemma visits_if_text f t : (forall t, visits (f t) = visits t) -> visits (if_text f t) = visits t.
Proof. intros H. unfold if_text. destruct (text_node t); [apply H|reflexivity]. Qed.
Lemma visits_joined l : all_visits (joined l) <= all_visits l.
Proof.
  destruct l as [|t [|u l]]; [reflexivity|reflexivity|]. cbn [joined]. rewrite !all_visits_cons, visits_retext. unfold all_visits at 1. cbn. lia.
Qed.
Lemma visits_merge ts : forall cur, all_visits (merge_texts cur ts) <= all_visits cur + all_visits ts.
Proof.
  induction ts as [|t ts IH]; intros cur; cbn [merge_texts].
  - rewrite <- (all_visits_rev cur). pose proof (visits_joined (rev cur)). lia.
  - destruct (text_node t).
    + specialize (IH (t :: cur)). rewrite all_visits_cons in *. lia.
    + rewrite all_visits_app, !all_visits_cons. specialize (IH []). pose proof (visits_joined (rev cur)). rewrite all_visits_rev in *. change (all_visits []) with 0 in IH. lia.
Qed.
Lemma visits_start f ts : (forall t, visits (f t) = visits t) -> all_visits (at_start f ts) = all_visits ts.
Proof. intros H. destruct ts; [reflexivity|]. cbn [at_start]. rewrite !all_visits_cons, visits_if_text by assumption. reflexivity. Qed.
Lemma visits_end f ts : (forall t, visits (f t) = visits t) -> all_visits (at_end f ts) = all_visits ts.
Proof. intros H. unfold at_end. rewrite all_visits_rev, visits_start by assumption. apply all_visits_rev. Qed.
Lemma visits_opened ts : all_visits (opened ts) <= 1 + all_visits ts.
Proof.
  unfold opened. rewrite <- (visits_start (retext (fun s => lit " " ++ s)) ts) by apply visits_retext. destruct (at_start _ ts) as [|t r]; [lia|].
  rewrite all_visits_app. destruct (subclass (a_class t) CMath); [change (all_visits [space]) with 1|change (all_visits []) with 0]; lia.
Qed.
Lemma visits_local c m ts : S (all_visits (local c m ts)) <= visits (A c m ts).
Proof.
  unfold local. set (l := at_end _ _). assert (Hl : all_visits l <= all_visits ts).
  { unfold l. rewrite visits_end, visits_start by apply visits_retext. apply (visits_merge ts []). }
  assert (E : forall l, all_visits (map (if_text (retext squeeze)) l) = all_visits l).
  { intros l0. unfold all_visits. rewrite map_map. f_equal. apply map_ext. intros t. apply visits_if_text, visits_retext. }
  rewrite E, visits_A. unfold prefixed. destruct (subclass c CConstruct); [|lia].
  rewrite all_visits_cons. change (visits (keyword _)) with 2. pose proof (visits_opened l). lia.
Qed.

(** What is done with the first nodes of the stack. *)
Lemma trav_first {X} cond (body : X -> id -> M X) : forall f g l1 l2 acc s,
  match trav_loop f cond body acc l1 s with
  | (s1, Ok a) => exists g', g <= g' <= f + g /\ trav_loop (f + g) cond body acc (l1 ++ l2) s = trav_loop g' cond body a l2 s1
  | (s1, Err e) => e <> EOutOfFuel -> trav_loop (f + g) cond body acc (l1 ++ l2) s = (s1, Err e)
  end.
Proof.
  induction f as [|f IH]; intros g [|j l1] l2 acc s.
  - exists g. split; [lia|reflexivity].
  - cbn [trav_loop]. unfold raise. congruence.
  - exists (S f + g). split; [lia|reflexivity].
  - cbn [trav_loop Nat.add app]. unfold bind. destruct (get_node j s) as [s1 [n|e]]; [|reflexivity].
    destruct ((if cond n then body acc j else ret acc) s1) as [s2 [a|e]]; [|reflexivity]. destruct (children_of j s2) as [s3 [cs|e]]; [|reflexivity].
    rewrite app_assoc. specialize (IH g (cs ++ l1) l2 a s3). destruct (trav_loop f cond body a (cs ++ l1) s3) as [s4 [b|e]]; [|exact IH].
    destruct IH as (g' & Hg & E). exists g'. split; [lia|exact E].
Qed.
Lemma err_ok {X} (m : M X) s s' : steady m -> m s = (s', Err EOutOfFuel) -> False. Proof. intros H E. exact (H _ _ E). Qed.
Definition branch_visits (ps : list branch) : nat := all_visits (map snd ps).
Lemma trav_ends : forall fuel ps2 s s' p q c m ps1,
  fam s p q c m (ps1 ++ ps2) -> branch_visits ps2 <= fuel -> trav_loop fuel cond_any normalize_body tt (map tip ps2) s <> (s', Err EOutOfFuel).
Proof.
  induction fuel as [fuel IH] using (well_founded_induction lt_wf). intros [|x ps2] s s' p q c m ps1 H Hv Hm.
  { destruct fuel; discriminate Hm. }
  destruct x as [[i us] [ci mi ts]]. unfold branch_visits in Hv. cbn [map snd] in Hv. rewrite all_visits_cons in Hv.
  destruct fuel as [|fuel]; [cbn [visits] in Hv; lia|]. cbn [map trav_loop] in Hm. change (tip (T i us, A ci mi ts)) with i in Hm.
  unfold bind at 1 in Hm. destruct (get_node i s) as [s0 [n|e]] eqn:H0; [|injection Hm as _ ->; exact (err_ok _ _ _ (f_get_node i) H0)].
  apply get_node_ok in H0 as [-> Hn]. unfold bind at 1 in Hm. cbn [cond_any] in Hm.
  destruct (normalize_body tt i s) as [s1 [[]|e]] eqn:H1; [|injection Hm as _ ->; exact (err_ok _ _ _ (f_normalize_body i) H1)].
  rewrite normalize_body_split in H1. destruct (fam_child _ _ _ _ _ _ _ _ _ _ _ _ H) as (ps & -> & -> & F0).
  apply bind_ok in H1 as (s2 & u2 & H2 & H1). apply bind_ok in H1 as (s3 & u3 & H3 & H1).
  apply (inner_body_ok _ _ _ _ _ _ _ _ F0) in H2 as (psB & FB & EB & WB).
  pose proof (fam_inside _ _ _ _ _ _ _ _ _ _ _ _ _ _ _ H FB WB) as G2.
  set (x2 := (T i (map fst psB), A ci mi (map snd psB))) in G2.
  change i with (tip x2) in H3. apply (space_after_ok _ _ _ _ _ _ _ _ _ _ G2) in H3 as (gs & G3 & Eg & W3). unfold x2 in G3 at 1.
  destruct (fam_child _ _ _ _ _ _ _ _ _ _ _ _ G3) as (psB' & Ef & Es & F3).
  apply (escape_node_ok _ _ _ _ _ _ _ _ F3) in H1 as [F1 W1].
  assert (W1' : within s3 s1 (doc_order (T i (map fst psB))) (doc_order (T i (map fst psB')))).
  { rewrite Ef. exact W1. }
  pose proof (fam_inside _ _ _ _ _ _ _ _ _ _ _ _ _ _ _ G3 F1 W1') as G1.
  unfold bind at 1 in Hm. destruct (children_of i s1) as [s4 [cs|e]] eqn:H4; [|injection Hm as _ ->; exact (err_ok _ _ _ (f_children_of i) H4)].
  apply (kids_ok _ _ _ _ _ _ _ _ F1) in H4 as [-> ->].
  pose proof (visits_local ci mi (map snd ps)) as Hl. rewrite <- EB, Es in Hl. fold (branch_visits psB') in Hl.
  set (f1 := branch_visits psB') in *. set (g := branch_visits ps2). assert (Hfg : f1 + g <= fuel) by (unfold g, branch_visits; lia).
  replace fuel with (f1 + (fuel - f1)) in Hm by lia. pose proof (trav_first cond_any normalize_body f1 (fuel - f1) (map tip psB') (map tip ps2) tt s1) as Ht.
  destruct (trav_loop f1 cond_any normalize_body tt (map tip psB') s1) as [s4 [[]|e]] eqn:H4.
  - destruct Ht as (g' & Hg' & E). rewrite E in Hm. clear E.
    apply (trav_norm f1 psB' s1 s4 tt (Some q) i ci (own_attrs ci mi) []) in H4 as (psC & FC & EC & WC); [|exact F1].
    cbn [app] in FC, WC. pose proof (fam_inside _ _ _ _ _ _ _ _ _ _ _ _ _ _ _ G1 FC WC) as G4.
    set (x4 := (T i (map fst psC), A ci (own_attrs ci mi) (map snd psC))) in G4.
    change (x4 :: gs ++ ps2) with ((x4 :: gs) ++ ps2) in G4. rewrite app_assoc in G4.
    refine (IH g' _ ps2 s4 s' p q c m _ G4 _ Hm); [lia|]. fold g. lia.
  - assert (He : e <> EOutOfFuel).
    { intros ->. refine (IH f1 _ psB' s1 s4 (Some q) i ci (own_attrs ci mi) [] F1 (le_n _) H4). lia. }
    rewrite (Ht He) in Hm. congruence.
Qed.
Lemma normalize_ends fuel s s' i us c m ts :
  good s -> holds (st_heap s) None (T i us) (A c m ts) -> visits (A c m ts) <= fuel -> normalize_text fuel (Some i) s <> (s', Err EOutOfFuel).
Proof.
  intros Hg Hh Hv Hm. unfold normalize_text, for_traverse in Hm. destruct fuel as [|fuel]; [cbn [visits] in Hv; lia|]. cbn [trav_loop] in Hm.
  destruct (holds_fam _ _ _ _ _ _ _ Hg Hh) as (ps & -> & -> & F0).
  unfold bind at 1 in Hm. destruct (get_node i s) as [s0 [n|e]] eqn:H0; [|injection Hm as _ ->; exact (err_ok _ _ _ (f_get_node i) H0)].
  apply get_node_ok in H0 as [-> Hn]. unfold bind at 1 in Hm. cbn [cond_any] in Hm.
  destruct (normalize_body tt i s) as [s1 [[]|e]] eqn:H1; [|injection Hm as _ ->; exact (err_ok _ _ _ (f_normalize_body i) H1)].
  rewrite normalize_body_split in H1.
  apply bind_ok in H1 as (s2 & u2 & H2 & H1). apply bind_ok in H1 as (s3 & u3 & H3 & H1).
  apply (inner_body_ok _ _ _ _ _ _ _ _ F0) in H2 as (psB & FB & EB & WB).
  assert (s3 = s2) as ->.
  { destruct (fm_node _ _ _ _ _ _ FB) as (n2 & Hn2 & _ & Hp2 & _). unfold space_after in H3. apply bind_ok in H3 as (s4 & r & H4 & H3).
    destruct (sibling_root s2 i n2 SibAny Hn2 Hp2) as [_ E]. rewrite E in H4. injection H4 as <- <-. apply ret_ok in H3 as [-> _]. reflexivity. }
  apply (escape_node_ok _ _ _ _ _ _ _ _ FB) in H1 as [F1 W1].
  unfold bind at 1 in Hm. destruct (children_of i s1) as [s4 [cs|e]] eqn:H4; [|injection Hm as _ ->; exact (err_ok _ _ _ (f_children_of i) H4)].
  apply (kids_ok _ _ _ _ _ _ _ _ F1) in H4 as [-> ->]. rewrite app_nil_r in Hm.
  refine (trav_ends fuel psB s1 s' None i c (own_attrs c m) [] F1 _ Hm).
  pose proof (visits_local c m (map snd ps)) as Hl. rewrite <- EB in Hl. fold (branch_visits psB) in Hl. lia.
Qed.

(** ** The manuscript is no larger than the source *)

Definition request_visits (q : request) : nat := match q with RBib => 1 | RTex c => length (entries c) | RErr _ => 0 end.
Definition outcome_visits (o : outcome) : nat := all_visits (fst o) + list_sum (map request_visits (snd o)).
Lemma visits_requests_app l l' : list_sum (map request_visits (l ++ l')) = list_sum (map request_visits l) + list_sum (map request_visits l').
Proof. rewrite map_app, list_sum_app. reflexivity. Qed.
Lemma outcomes_visits l : all_visits (nodes_of l) + list_sum (map request_visits (requests_of l)) = list_sum (map outcome_visits l).
Proof.
  induction l as [|o l IH]; [reflexivity|]. unfold nodes_of, requests_of in *. cbn [flat_map map]. rewrite all_visits_app, visits_requests_app.
  change (list_sum (outcome_visits o :: map outcome_visits l)) with (outcome_visits o + list_sum (map outcome_visits l)). unfold outcome_visits at 1. lia.
Qed.
Definition small (c : cst) : Prop := forall prev next, outcome_visits (mirror prev next c) <= 7 * c_size c.
Lemma small_list (l : list place) : (forall x, In x l -> small (pl_node x)) -> list_sum (map outcome_visits (map out l)) <= 7 * load l.
Proof.
  unfold load. induction l as [|x l IH]; intros H; [reflexivity|]. cbn [map].
  change (list_sum (outcome_visits (out x) :: map outcome_visits (map out l))) with (outcome_visits (out x) + list_sum (map outcome_visits (map out l))).
  change (list_sum (c_size (pl_node x) :: map (fun x => c_size (pl_node x)) l)) with (c_size (pl_node x) + list_sum (map (fun x => c_size (pl_node x)) l)).
  specialize (IH (fun y Hy => H y (or_intror Hy))). pose proof (H x (or_introl eq_refl) (pl_prev x) (pl_next x)). unfold out at 1. lia.
Qed.
Lemma pushed_child skip c x : In x (pushed skip c) -> In (pl_node x) (c_children c).
Proof.
  unfold pushed, named_children. intros Hx. apply filter_In in Hx as [Hx _]. apply filter_In in Hx as [Hx _].
  unfold places in Hx. apply places_from_in in Hx. assumption.
Qed.
Lemma handed_small skip c : Forall small (c_children c) ->
  7 + (all_visits (nodes_of (handed_on skip (places_and_outcomes c))) + list_sum (map request_visits (requests_of (handed_on skip (places_and_outcomes c))))) <= 7 * c_size c.
Proof.
  intros H. rewrite outcomes_visits, handed_on_eq. pose proof (load_pushed skip c). rewrite List.Forall_forall in H.
  pose proof (small_list (pushed skip c) (fun x Hx => H _ (pushed_child _ _ _ Hx))). lia.
Qed.
Lemma shaped_visits t x c ts : visits (shaped t x c ts) <= 7 + all_visits ts.
Proof.
  unfold shaped. assert (Hv : all_visits (verbatim t (node_attrs t x c) c) <= 1).
  { unfold verbatim. destruct (type_in _ t); [vm_compute; lia|]. destruct (type_in _ t); [vm_compute; lia|]. vm_compute. lia. }
  destruct (_ && _).
  - rewrite visits_A, all_visits_cons, visits_A. change (subclass CMathBlock CConstruct) with false. change (subclass CClaimBlock CConstruct) with true. cbv iota. lia.
  - rewrite visits_A. destruct (has_children _); [rewrite all_visits_app|change (all_visits []) with 0]; destruct (subclass _ CConstruct); lia.
Qed.
Lemma as_node_small t x skip : Forall small (c_children (pl_node x)) ->
  outcome_visits (as_node t x skip (places_and_outcomes (pl_node x))) <= 7 * c_size (pl_node x).
Proof.
  intros H. unfold as_node, outcome_visits. cbn [fst snd]. rewrite all_visits_cons, visits_requests_app. change (all_visits []) with 0.
  pose proof (handed_small (skip ++ skipped_parts t (pl_node x)) (pl_node x) H). pose proof (shaped_visits t x (pl_node x) (nodes_of (handed_on (skip ++ skipped_parts t (pl_node x)) (places_and_outcomes (pl_node x))))).
  assert (E : list_sum (map request_visits (if str_eqb t (lit "ERROR") then [RErr (pl_node x)] else [])) = 0) by (destruct (str_eqb _ _); reflexivity). lia.
Qed.
Lemma entries_size c : length (entries c) < c_size c.
Proof.
  unfold entries. rewrite map_length. assert (Hle : forall l, length l <= load l).
  { induction l as [|x l IH]; [reflexivity|]. unfold load in *. cbn [map length].
    change (list_sum (c_size (pl_node x) :: map (fun x => c_size (pl_node x)) l)) with (c_size (pl_node x) + list_sum (map (fun x => c_size (pl_node x)) l)).
    pose proof (c_size_eq (pl_node x)). lia. }
  eapply Nat.le_lt_trans; [apply Hle|]. eapply Nat.le_lt_trans; [apply load_filter|apply load_named].
Qed.
Lemma visits_bibitem c : visits (bibitem c) = 1.
Proof. unfold bibitem. rewrite visits_A. reflexivity. Qed.
Lemma mirror_small c : small c.
Proof.
  induction c as [t f n tx sp ep cs IH] using cst_ind'. intros prev next.
  change (mirror prev next (Cst t f n tx sp ep cs)) with (out (MkPlace 0 prev (Cst t f n tx sp ep cs) next)).
  rewrite out_eq. set (x := MkPlace 0 prev (Cst t f n tx sp ep cs) next).
  assert (Hc : Forall small (c_children (pl_node x))) by exact IH.
  change (Cst t f n tx sp ep cs) with (pl_node x). clearbody x. clear IH.
  pose proof (c_size_eq (pl_node x)) as Hs.
  assert (Hf : forall g o, first_named (places_and_outcomes (pl_node x)) = Some (g, o) -> outcome_visits o <= 7 * c_size (pl_node x)).
  { intros g o E. rewrite first_named_eq in E. destruct (nth_error _ 0) as [y|] eqn:En; [|discriminate].
    injection E as <- <-. apply nth_error_In in En. pose proof (named_size _ _ En). unfold named_children in En. apply filter_In in En as [Hx _].
    unfold places in Hx. apply places_from_in in Hx. rewrite List.Forall_forall in Hc. pose proof (Hc _ Hx (pl_prev y) (pl_next y)). unfold out. lia. }
  unfold mirror_at.
  destruct (is_type "comment" _); [unfold outcome_visits; cbn; lia|]. destruct (is_type "specialblock" _ && _); [unfold outcome_visits; cbn; lia|].
  destruct (is_type "bibtex" _). { unfold outcome_visits. cbn [fst snd map list_sum]. change (all_visits []) with 0. pose proof (entries_size (pl_node x)). unfold list_sum. cbn [fold_right request_visits]. lia. }
  destruct (is_type "bibitem" _). { unfold outcome_visits. cbn [fst snd map]. rewrite all_visits_cons, visits_bibitem. change (all_visits []) with 0. change (list_sum []) with 0. lia. }
  destruct (_ || _).
  { unfold outcome_visits. cbn [fst snd]. rewrite all_visits_cons, visits_A. change (all_visits []) with 0.
    pose proof (handed_small (skipped_title (pl_node x)) (pl_node x) Hc). destruct (subclass _ CConstruct); lia. }
  destruct (type_in ["specialblock"; "specialinline"] _).
  { destruct (first_named _) as [[g o]|] eqn:E; [|unfold outcome_visits; cbn; lia]. destruct (is_type "table" _).
    - exact (Hf _ _ eq_refl).
    - apply as_node_small. assumption. }
  destruct (is_type "td" _).
  { destruct (first_named _) as [[g o]|] eqn:E; [|unfold outcome_visits; cbn; lia]. exact (Hf _ _ eq_refl). }
  destruct (is_type "paragraph" _).
  { destruct (first_named _) as [[g o]|] eqn:E; [|unfold outcome_visits; cbn; lia]. destruct (type_in ["item"; "caption"] _).
    - exact (Hf _ _ eq_refl).
    - apply as_node_small. assumption. }
  destruct (type_in ["block"; "inline"] _); [|apply as_node_small; assumption].
  destruct (field_child "tag" _) as [g|]; [|unfold outcome_visits; cbn; lia]. apply as_node_small. assumption.
Qed.
Lemma entries_visits c : all_visits (entries c) = length (entries c).
Proof.
  unfold entries. rewrite map_length. induction (List.filter _ _) as [|x l IH]; [reflexivity|]. cbn [map length]. rewrite all_visits_cons, visits_bibitem, IH. reflexivity.
Qed.
Lemma lay_out_visits l : all_visits (lay_out l) <= all_visits (trees l) + list_sum (map request_visits (reqs l)) /\
  all_visits (lay_out l) + all_visits (entries_here l) <= all_visits (trees l) + list_sum (map request_visits (reqs l)).
Proof.
  induction l as [|[t|[|c|c]] l [IH1 IH2]].
  - split; apply le_n.
  - cbn [lay_out entries_here]. change (trees (inl t :: l)) with (t :: trees l). change (reqs (inl t :: l)) with (reqs l). rewrite !all_visits_cons. lia.
  - cbn [lay_out entries_here]. change (trees (inr RBib :: l)) with (trees l). change (reqs (inr RBib :: l)) with (RBib :: reqs l). rewrite all_visits_cons.
    unfold bib_node. rewrite visits_A. change (subclass CBibliography CConstruct) with false. cbn [map].
    change (list_sum (request_visits RBib :: map request_visits (reqs l))) with (1 + list_sum (map request_visits (reqs l))). change (all_visits []) with 0. cbv iota. lia.
  - cbn [lay_out entries_here]. change (trees (inr (RTex c) :: l)) with (trees l). change (reqs (inr (RTex c) :: l)) with (RTex c :: reqs l). cbn [map].
    change (list_sum (request_visits (RTex c) :: map request_visits (reqs l))) with (length (entries c) + list_sum (map request_visits (reqs l))).
    rewrite all_visits_app, entries_visits. lia.
  - cbn [lay_out entries_here]. change (trees (inr (RErr c) :: l)) with (trees l). change (reqs (inr (RErr c) :: l)) with (RErr c :: reqs l). cbn [map].
    change (list_sum (request_visits (RErr c) :: map request_visits (reqs l))) with (list_sum (map request_visits (reqs l))). lia.
Qed.
Lemma mirrored_small c : visits (mirrored c) <= 7 * c_size c.
Proof.
  unfold mirrored. rewrite visits_A. change (subclass CManuscript CConstruct) with false. cbv iota.
  set (l := handed_on _ _). pose proof (proj1 (lay_out_visits (flat_map (fun o : outcome => map inl (fst o) ++ map inr (snd o)) l))) as H.
  change (fun o : outcome => map inl o.1 ++ map inr o.2) with events_of in *. rewrite trees_outcomes, reqs_outcomes in H.
  pose proof (handed_small (skipped_title c) c ltac:(apply List.Forall_forall; intros d _; apply mirror_small)) as Hs. fold l in Hs. lia.
Qed.
Lemma parse_ends fuel c s s' : source c -> good s -> 7 * c_size c <= fuel -> parse fuel c s <> (s', Err EOutOfFuel).
Proof.
  intros Hc Hg Hf H. unfold parse in H. unfold bind at 1 in H. unfold info, log_rec at 1 in H. unfold bind at 1 in H. unfold log_rec at 1 in H. cbn [st_heap st_next st_logs] in H.
  match type of H with bind _ _ ?S = _ => set (s0 := S) in H end.
  assert (Hg0 : good s0) by exact Hg. unfold bind at 1 in H.
  assert (Ha : forall s1, abstractify fuel c s0 <> (s1, Err EOutOfFuel)).
  { intros s1 Ha. unfold abstractify in Ha. unfold bind at 1 in Ha. destruct (abs_loop fuel _ _ s0) as [s2 [v|e]] eqn:E.
    - destruct (abs_loop_mirrors _ _ _ _ _ Hc Hg0 E) as (t & Et & Hh & Hg2 & _). rewrite Et in Ha. unfold bind at 1 in Ha.
      destruct (normalize_text fuel (Some (root t)) s2) as [s3 [u|e]] eqn:En; [discriminate Ha|]. injection Ha as _ ->. destruct t as [i us].
      pose proof (mirrored_small c) as Hs. destruct (mirrored c) as [k m ts] eqn:Em. refine (normalize_ends _ _ _ _ _ _ _ _ Hg2 Hh _ En). lia.
    - injection Ha as _ ->. refine (abs_loop_ends _ _ _ _ _ _ E). unfold depth_left, load. cbn. lia. }
  unfold catch in H. destruct (abstractify fuel c s0) as [s1 [[r|]|e]] eqn:E.
  - destruct (setattr r a_src (VStr (c_text c)) s1) as [s2 [u|e]] eqn:E2; unfold bind in H; rewrite E2 in H; [discriminate H|]. injection H as _ ->. exact (f_setattr _ _ _ _ _ E2).
  - discriminate H.
  - destruct e; try discriminate H. injection H as _. exact (Ha _ eq_refl).
Qed.
