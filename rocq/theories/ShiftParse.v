(** The parser, in a memory which holds other nodes. *)
From Verif Require Export ShiftTransform Parser.
Local Open Scope list_scope.

Section Parse.
Context (b : shiftby).
Notation sh := (sh b).
Notation moves := (moves b).
Lemma moves_nth_named k c : moves same (nth_named k c) (nth_named k c).
Proof. unfold nth_named. mv. Qed.
Lemma moves_lift {A} (r : res A) : moves same (lift r) (lift r).
Proof. unfold lift. mv. Qed.
Lemma parse_pair_plain k v x y : parse_pair k v = Ok (x, y) -> sh_val b y = y.
Proof.
  unfold parse_pair. intros H.
  repeat (match type of H with context [if ?c then _ else _] => destruct c | context [match ?c with _ => _ end] => destruct c end; try discriminate H); injection H as _ <-; reflexivity.
Qed.
Definition plain_pairs (d : list (str * val)) : Prop := Forall (fun p => sh_val b p.2 = p.2) d.
Lemma dict_set_plain d k v : plain_pairs d -> sh_val b v = v -> plain_pairs (dict_set d k v).
Proof.
  intros Hd Hv. unfold dict_set. destruct (existsb _ d).
  - apply List.Forall_forall. intros p Hp. apply in_map_iff in Hp as (q & <- & Hq). destruct (str_eqb q.1 k); [exact Hv|].
    unfold plain_pairs in Hd. rewrite List.Forall_forall in Hd. apply Hd, Hq.
  - apply Forall_app. split; [exact Hd|]. constructor; [exact Hv|constructor].
Qed.
Lemma parse_pairs_plain l d d' : plain_pairs d -> parse_pairs l d = Ok d' -> plain_pairs d'.
Proof.
  revert d. induction l as [|p l IH]; intros d Hd H; cbn [parse_pairs] in H; [injection H as <-; exact Hd|].
  destruct (match named_children (pl_node p) with [] => _ | _ => _ end) as [[k v]|e] eqn:E; [|discriminate H].
  refine (IH _ _ H). apply dict_set_plain; [exact Hd|].
  destruct (named_children (pl_node p)) as [|k1 [|k2 [|]]]; try discriminate E; eapply parse_pair_plain; exact E.
Qed.
Lemma parse_meta_plain c d : parse_meta c = Ok d -> plain_pairs d.
Proof. apply parse_pairs_plain. constructor. Qed.
Lemma template_plain d : plain_pairs d -> plain_pairs (reftext_to_template d).
Proof.
  intros Hd. unfold reftext_to_template. destruct (dict_get d _) as [v|] eqn:E; [|exact Hd].
  assert (Hv : sh_val b v = v).
  { unfold dict_get in E. destruct (find _ d) as [p|] eqn:F; [|discriminate E]. injection E as <-. apply find_some in F as [F _]. unfold plain_pairs in Hd. rewrite List.Forall_forall in Hd. apply Hd, F. }
  pose proof (dict_set_plain d (lit "reftext_template") v Hd Hv) as H. unfold plain_pairs, dict_del in *. rewrite List.Forall_forall in *. intros p Hp. apply H. apply filter_In in Hp as [Hp _]. exact Hp.
Qed.
Lemma moves_ingest i d : plain_pairs d -> moves same (ingest_dict_as_meta i d) (ingest_dict_as_meta (sh i) d).
Proof.
  intros H. apply template_plain in H. unfold ingest_dict_as_meta. induction H as [|p l Hp Hl IH]; cbn [iterM]; mv.
Qed.
Lemma moves_ingest_meta i c : moves same (ingest_meta i c) (ingest_meta (sh i) c).
Proof.
  unfold ingest_meta. destruct (field_child "meta" c) as [m|]; [|mv]. destruct (parse_meta (pl_node m)) as [d|e] eqn:E; cbn [lift].
  - intros s. unfold bind, ret. apply (moves_ingest i d (parse_meta_plain _ _ E) s).
  - intros s. split; [reflexivity|auto].
Qed.
Hint Resolve moves_nth_named moves_lift moves_ingest_meta : mv.
Lemma ast_type_plain t k kw : ast_type t = Some (k, kw) -> sh_kw b kw = kw.
Proof.
  unfold ast_type. destruct (find _ ast_types) as [[x [c kw']]|] eqn:F; [|discriminate]. intros [= <- <-]. apply find_some in F as [F _].
  assert (G : forall q, In q ast_types -> sh_kw b (q.2.2) = q.2.2) by (apply List.Forall_forall; unfold ast_types; repeat (constructor; [reflexivity|]); constructor).
  exact (G _ F).
Qed.
Definition sh_pst (v : pst) : pst := MkPst (option_map sh (ps_root v)) (option_map sh (ps_bib v)).
Definition sh_entry (e : entry) : entry := (option_map sh e.1, e.2).
Definition sh_step (r : step_res) : step_res := (sh_pst r.1, map sh_entry r.2).
Lemma moves_attach p i : moves same (attach p i) (attach (option_map sh p) (sh i)).
Proof. unfold attach. mv. Qed.
Hint Resolve moves_attach : mv.
Lemma under_sh p l : under (option_map sh p) l = map sh_entry (under p l).
Proof. unfold under. rewrite map_map. reflexivity. Qed.
Lemma moves_set_pair i c : moves same (set_pair i c) (set_pair (sh i) c).
Proof. unfold set_pair. mv. Qed.
Lemma moves_field_text n c : moves same (field_text n c) (field_text n c).
Proof. unfold field_text. mv. Qed.
Hint Resolve moves_set_pair moves_field_text : mv.
Lemma moves_step_bibitem v p c : moves sh_step (step_bibitem v p c) (step_bibitem (sh_pst v) (option_map sh p) c).
Proof. unfold step_bibitem. mv. Qed.
Lemma moves_step_bibliography v : moves sh_step (step_bibliography v) (step_bibliography (sh_pst v)).
Proof. destruct v as [[r|] bb]; unfold step_bibliography, sh_step, sh_pst; cbn [ps_root ps_bib option_map]; mv. Qed.
Lemma moves_step_bibtex v c : moves sh_step (step_bibtex v c) (step_bibtex (sh_pst v) c).
Proof. unfold step_bibtex. cbn [sh_pst ps_bib]. mv. apply moves_ret. unfold sh_step. cbn [fst snd]. rewrite <- under_sh. reflexivity. Qed.
Lemma moves_new_plain k kw c t : ast_type t = Some (k, kw) -> moves sh (new_node k (kw ++ span_attrs c)) (new_node k (kw ++ span_attrs c)).
Proof. intros H. apply moves_new_node. unfold sh_kw. rewrite map_app. fold (sh_kw b kw). rewrite (ast_type_plain _ _ _ H). reflexivity. Qed.
Lemma moves_step_section v p c : moves sh_step (step_section v p c) (step_section (sh_pst v) (option_map sh p) c).
Proof.
  unfold step_section. destruct (ast_type (c_type c)) as [[k kw]|] eqn:E; [|mv]. eapply moves_bind; [eapply moves_new_plain; exact E|]. intros i. cbn beta. cbv zeta.
  mv1; [mv|]. mv1; [mv|]. mv1; [mv|]. apply moves_ret. unfold sh_step. cbn [fst snd]. rewrite <- under_sh. destruct (subclass k CManuscript); reflexivity.
Qed.
Lemma moves_make_node t c : moves sh (make_node t c) (make_node t c).
Proof. unfold make_node. destruct (ast_type t) as [[k kw]|] eqn:E; [|mv]. eapply moves_bind; [eapply moves_new_plain; exact E|]. intros i. mv. Qed.
Lemma moves_add_asis t i c : moves same (add_asis t i c) (add_asis t (sh i) c).
Proof. unfold add_asis. destruct (type_in _ t); [|mv]. destruct (rev _) as [|a l]; [mv|]. destruct (is_type _ _); [|mv]. cbv zeta. eapply (moves_bind b sh); [mv|]. intro. mv. Qed.
Lemma moves_wrap_claim t i c : moves sh (wrap_claim t i c) (wrap_claim t (sh i) c).
Proof. unfold wrap_claim. mv. Qed.
Lemma moves_set_kind t i c : moves same (set_kind t i c) (set_kind t (sh i) c).
Proof. unfold set_kind. mv. Qed.
Lemma moves_set_target t i c : moves same (set_target t i c) (set_target t (sh i) c).
Proof. unfold set_target. mv. Qed.
Lemma moves_set_prev t i : moves same (set_prev t i) (set_prev t (sh i)).
Proof. unfold set_prev. mv. Qed.
Lemma moves_set_cite t i c : moves same (set_cite t i c) (set_cite t (sh i) c).
Proof. unfold set_cite. mv. Qed.
Lemma moves_pad_text t i x c : moves same (pad_text t i x c) (pad_text t (sh i) x c).
Proof. unfold pad_text. mv. Qed.
Hint Resolve moves_make_node moves_add_asis moves_wrap_claim moves_set_kind moves_set_target moves_set_prev moves_set_cite moves_pad_text : mv.
Lemma moves_step_node v p t x c skip : moves sh_step (step_node v p t x c skip) (step_node (sh_pst v) (option_map sh p) t x c skip).
Proof. unfold step_node. mv. apply moves_ret. unfold sh_step. cbn [fst snd]. rewrite <- under_sh. reflexivity. Qed.
Hint Resolve moves_step_node moves_step_section moves_step_bibtex moves_step_bibliography moves_step_bibitem : mv.
Lemma moves_step v p x : moves sh_step (step v p x) (step (sh_pst v) (option_map sh p) x).
Proof. unfold step. mv. Qed.
Lemma moves_abs_loop fuel v l : moves sh_pst (abs_loop fuel v l) (abs_loop fuel (sh_pst v) (map sh_entry l)).
Proof.
  revert v l. induction fuel as [|fuel IH]; intros v [|[p x] l]; cbn [abs_loop map sh_entry fst snd]; try (apply moves_ret; reflexivity); [apply moves_raise|].
  eapply moves_bind; [apply moves_step|]. intros r. cbn [sh_step fst snd]. rewrite <- map_app. apply IH.
Qed.
(** ** Normalisation *)
Lemma moves_is_text i : moves same (is_text i) (is_text (sh i)).
Proof. unfold is_text. mv. Qed.
Hint Resolve moves_is_text : mv.
Definition sh_flag (p : id * bool) : id * bool := (sh p.1, p.2).
Lemma close_run_sh cur rs : close_run (map sh cur) (map (map sh) rs) = map (map sh) (close_run cur rs).
Proof. destruct cur as [|x l]; [reflexivity|]. cbn [close_run map]. rewrite <- cons_sh || idtac. unfold close_run. cbn [map]. f_equal. change (sh x :: map sh l) with (map sh (x :: l)). rewrite map_rev. reflexivity. Qed.
Lemma text_runs_sh l cur : text_runs (map sh_flag l) (map sh cur) = map (map sh) (text_runs l cur).
Proof.
  revert cur. induction l as [|[i [|]] l IH]; intros cur; cbn [text_runs map sh_flag fst snd].
  - apply (close_run_sh cur []).
  - apply (IH (i :: cur)).
  - rewrite <- close_run_sh. f_equal. apply (IH []).
Qed.
Lemma moves_merge_run l : moves same (merge_run l) (merge_run (map sh l)).
Proof.
  destruct l as [|x [|y l]]; cbn [merge_run map]; [mv|mv|]. change (sh y :: map sh l) with (map sh (y :: l)). generalize (y :: l). clear y l. intros l.
  mv1; [mv|]. eapply (moves_bind b (map (fun x : str => x))); [apply moves_mapM; intro; mv|]. intros m. rewrite map_id. mv.
Qed.
Lemma moves_update_text i f : moves same (update_text i f) (update_text (sh i) f).
Proof. unfold update_text. mv. Qed.
Hint Resolve moves_update_text moves_merge_run : mv.
Lemma moves_when_text i f : moves same (when_text i f) (when_text (sh i) f).
Proof. unfold when_text. mv. Qed.
Hint Resolve moves_when_text : mv.
Lemma moves_strip_ends i : moves same (strip_ends i) (strip_ends (sh i)).
Proof.
  unfold strip_ends. mv1; [mv|]. eapply moves_bind; [apply moves_children_of|]. intros cs. apply moves_if; [mv|]. destruct cs as [|f cs]; cbn [map]; [mv|].
  change (sh f :: map sh cs) with (map sh (f :: cs)). rewrite last_sh. mv.
Qed.
Lemma moves_strip_paragraph i : moves same (strip_paragraph i) (strip_paragraph (sh i)).
Proof.
  unfold strip_paragraph. mv1; [mv|]. apply moves_if; [|mv]. eapply moves_bind; [apply moves_first_of_type|]. intros f. mv1.
  - destruct f as [[f k]|]; cbn [option_map sh_idx fst snd]; mv.
  - eapply moves_bind; [apply moves_last_of_type|]. intros l. destruct l as [[l k]|]; cbn [option_map sh_idx fst snd]; mv.
Qed.
Lemma moves_pad_construct i : moves same (pad_construct i) (pad_construct (sh i)).
Proof.
  unfold pad_construct. mv1; [mv|]. apply moves_if; [|mv]. eapply moves_bind; [apply moves_first_of_type|]. intros f. mv1.
  { destruct f as [[f k]|]; cbn [option_map sh_idx fst snd]; mv. }
  eapply moves_bind; [apply moves_first_of_type|]. intros l. mv1.
  { destruct l as [[l k]|]; cbn [option_map sh_idx fst snd]; mv. }
  eapply moves_bind; [mv|]. intros k. eapply moves_bind; [mv|]. intros kind.
  replace (keyword_of (sh_val b kind)) with (keyword_of kind) by (destruct kind; reflexivity). mv.
Qed.
Lemma moves_squeeze_children i : moves same (squeeze_children i) (squeeze_children (sh i)).
Proof. unfold squeeze_children. mv. Qed.
Lemma moves_space_after i : moves same (space_after i) (space_after (sh i)).
Proof. unfold space_after. mv. Qed.
Lemma moves_escape_node i : moves same (escape_node i) (escape_node (sh i)).
Proof. unfold escape_node. mv. Qed.
Hint Resolve moves_strip_ends moves_strip_paragraph moves_pad_construct moves_squeeze_children moves_space_after moves_escape_node : mv.
Lemma moves_normalize_body u i : moves same (normalize_body u i) (normalize_body u (sh i)).
Proof.
  unfold normalize_body. eapply moves_bind; [apply moves_children_of|]. intros cs. eapply moves_bind; [apply (moves_mapM b sh sh_flag)|].
  - intros x. mv.
  - intros bs. mv1; [|mv]. change (@nil nat) with (map sh []) at 2. rewrite text_runs_sh. mv.
Qed.
Lemma moves_normalize fuel r : moves same (normalize_text fuel r) (normalize_text fuel (option_map sh r)).
Proof. unfold normalize_text. mv. apply moves_normalize_body. Qed.
Lemma moves_abstractify fuel c : moves (option_map sh) (abstractify fuel c) (abstractify fuel c).
Proof.
  unfold abstractify. eapply moves_bind; [exact (moves_abs_loop fuel (MkPst None None) [(None, alone c)])|]. intros v. cbn [sh_pst ps_root]. mv1; [apply moves_normalize|]. mv.
Qed.
Theorem moves_parse fuel c : moves sh (parse fuel c) (parse fuel c).
Proof.
  unfold parse. mv1; [mv|]. mv1; [mv|]. eapply moves_bind; [apply moves_catch; [apply moves_abstractify|]|].
  - intros []; try exact I. mv.
  - intros r. mv.
Qed.
End Parse.
