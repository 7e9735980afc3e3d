(** The translators, in a memory which holds other nodes. *)
From Verif Require Export ShiftParse Handrails.
Local Open Scope list_scope.

Section Cmds.
Context (b : shiftby).
Notation sh := (sh b).
Notation moves := (moves b).
Definition sh_tok (t : tok) : tok := match t with TText i s => TText (sh i) s | _ => t end.
Fixpoint sh_cmd (c : cmd) : cmd :=
  match c with
  | KText t => KText (map sh_tok t)
  | KTextDefer t d => KTextDefer (map sh_tok t) (map sh_tok d)
  | KOpenClose g t => KOpenClose g (map sh_tok t)
  | KOpenManual g t => KOpenManual g (map sh_tok t)
  | KOpen g => KOpen g
  | KExternal i => KExternal (sh i)
  | KBatchDefer l => KBatchDefer (map sh_cmd l)
  | KBatch l => KBatch (map sh_cmd l)
  end.
Definition sh_tst (t : tst) : tst := MkT (map sh_tok (body t)) (map sh_cmd (deferred t)).
Definition sh_pair (p : cmd * tst) : cmd * tst := (sh_cmd p.1, sh_tst p.2).
(** The HTML does not show identities. *)
Lemma render_sh l : Html.render (map sh_tok l) = Html.render l.
Proof. unfold Html.render. rewrite map_map. f_equal. apply map_ext. intros []; reflexivity. Qed.
Lemma defers_sh c : defers (sh_cmd c) = defers c.
Proof. destruct c; reflexivity. Qed.
Lemma nl_if_sh c : map sh_tok (nl_if c) = nl_if c.
Proof. destruct c; reflexivity. Qed.
Lemma close_text_sh g : map sh_tok (close_text g) = close_text g.
Proof. unfold close_text. rewrite !map_app, !nl_if_sh. reflexivity. Qed.
Lemma deferred_text_sh c : deferred_text (sh_cmd c) = option_map (map sh_tok) (deferred_text c).
Proof. destruct c; try reflexivity. cbn [sh_cmd deferred_text option_map]. rewrite close_text_sh. reflexivity. Qed.
Definition ext_moves (ext ext' : id -> M (list tok)) : Prop := forall i, moves (map sh_tok) (ext i) (ext' (sh i)).
Lemma moves_make_text ext ext' c : ext_moves ext ext' -> moves (map sh_tok) (make_text ext c) (make_text ext' (sh_cmd c)).
Proof.
  intros He. destruct c; cbn [make_text sh_cmd]; try apply moves_raise; try (apply moves_ret; rewrite ?map_app, ?nl_if_sh; reflexivity). apply He.
Qed.
Lemma emit_sh t ts : emit (map sh_tok t) (sh_tst ts) = sh_tst (emit t ts).
Proof. unfold emit, sh_tst. cbn. rewrite map_app. reflexivity. Qed.
Lemma moves_exec_items ext ext' items ds ts : ext_moves ext ext' ->
  moves (fun p => (map sh_cmd p.1, sh_tst p.2)) (exec_items ext items ds ts) (exec_items ext' (map sh_cmd items) (map sh_cmd ds) (sh_tst ts)).
Proof.
  intros He. revert ds ts. induction items as [|c r IH]; intros ds ts; cbn [exec_items map]; [apply moves_ret; reflexivity|]. cbv zeta.
  eapply moves_bind; [apply moves_make_text; exact He|]. intros t. rewrite emit_sh, deferred_text_sh.
  destruct (deferred_text c) as [d|]; cbn [option_map]; [|apply IH].
  change [KText (map sh_tok d)] with (map sh_cmd [KText d]). rewrite <- map_app. apply IH.
Qed.
Lemma moves_execute ext ext' : ext_moves ext ext' -> forall c ts, moves sh_tst (execute ext c ts) (execute ext' (sh_cmd c) (sh_tst ts)).
Proof.
  intros He. fix IH 1. intros c ts.
  assert (D : forall c : cmd, moves sh_tst (let! t := make_text ext c in ret (match deferred_text c with Some d => defer (KText d) (emit t ts) | None => emit t ts end))
    (let! t := make_text ext' (sh_cmd c) in ret (match deferred_text (sh_cmd c) with Some d => defer (KText d) (emit t (sh_tst ts)) | None => emit t (sh_tst ts) end))).
  { clear IH c. intros c. eapply moves_bind; [apply moves_make_text; exact He|]. intros t. apply moves_ret. rewrite emit_sh, deferred_text_sh. destruct (deferred_text c); reflexivity. }
  destruct c as [t|t d|g t|g t|g|r|items|items].
  - exact (D (KText t)).
  - exact (D (KTextDefer t d)).
  - exact (D (KOpenClose g t)).
  - exact (D (KOpenManual g t)).
  - exact (D (KOpen g)).
  - exact (D (KExternal r)).
  - cbn [execute sh_cmd]. eapply moves_bind; [exact (moves_exec_items ext ext' items [] ts He)|]. intros [ds ts']. apply moves_ret. cbn [fst snd]. unfold defer, sh_tst. cbn. rewrite map_rev. reflexivity.
  - cbn [execute sh_cmd]. clear D. revert ts. induction items as [|x r IHr]; intros ts; cbn [map]; [apply moves_ret; reflexivity|].
    eapply moves_bind; [apply IH|]. intros ts'. apply IHr.
Qed.
Lemma moves_items_of c : moves (map sh_cmd) (items_of c) (items_of (sh_cmd c)).
Proof. destruct c; cbn [items_of sh_cmd]; try apply moves_raise; apply moves_ret; reflexivity. Qed.
Lemma str_or_empty_sh v : str_or_empty (sh_val b v) = str_or_empty v.
Proof. unfold str_or_empty. rewrite truthy_sh, fmt_sh. reflexivity. Qed.
End Cmds.
#[export] Hint Rewrite str_or_empty_sh nl_if_sh close_text_sh deferred_text_sh defers_sh : mvr.
#[export] Hint Resolve moves_items_of : mv.
(** Equal after moving: by cases on the conditions. *)
Ltac mv_eq := cbn [fst snd sh_cmd sh_tst sh_tok sh_pair option_map map]; rewrite ?map_app; repeat (mv_norm; match goal with |- context [option_map _ ?c] => is_var c; destruct c; cbn [option_map] | |- context [if ?c then _ else _] => destruct c | |- context [match ?c with [] => _ | _ => _ end] => is_var c; destruct c end); reflexivity.
Ltac mvt ::= match goal with |- moves _ _ (ret _) (ret _) => apply moves_ret; first [reflexivity | mv_eq] end.

Section Visit.
Context (b : shiftby).
Notation sh := (sh b).
Notation moves := (moves b).
Notation sh_cmd := (sh_cmd b).
Notation sh_tok := (sh_tok b).
Lemma moves_node_tag_full i tag add inner outer sel : moves sh_cmd (node_tag_full i tag add inner outer sel) (node_tag_full (sh i) tag add inner outer sel).
Proof. unfold node_tag_full. mv. apply moves_ret. destruct a2; reflexivity. Qed.
Lemma moves_node_tag i tag : moves sh_cmd (node_tag i tag) (node_tag (sh i) tag).
Proof. apply moves_node_tag_full. Qed.
Lemma moves_node_tag_inline i tag : moves sh_cmd (node_tag_inline i tag) (node_tag_inline (sh i) tag).
Proof. apply moves_node_tag_full. Qed.
Hint Resolve moves_node_tag_full moves_node_tag moves_node_tag_inline : mv.
Lemma moves_repr_attr i a : moves same (repr_attr i a) (repr_attr (sh i) a).
Proof. unfold repr_attr. mv. Qed.
Lemma moves_repr_node i : moves same (repr_node i) (repr_node (sh i)).
Proof.
  unfold repr_node. mv1; [mv|]. eapply (moves_bind b (map (fun x : list str => x))); [apply moves_mapM'; intro; apply moves_repr_attr|]. intros xs. rewrite map_id. mv1; [mv|]. mv1; [mv|].
  eapply (moves_bind b (map (fun x : list str => x))); [apply moves_if; [apply moves_mapM'; intro; apply moves_repr_attr|mv]|]. intros ys. rewrite map_id. cbv zeta. eapply moves_bind; [apply moves_children_of|]. intros cs.
  destruct cs as [|k cs]; [mv|]. change (map sh (k :: cs)) with (sh k :: map sh cs). cbv iota. change (sh k :: map sh cs) with (map sh (k :: cs)).
  eapply (moves_bind b (map (fun x : str => x))); [apply moves_mapM; intro; mv|]. intros names. rewrite map_id. mv.
Qed.
Hint Resolve moves_repr_node : mv.
Lemma moves_visit_node i : moves sh_cmd (visit_node i) (visit_node (sh i)).
Proof. unfold visit_node. mv. Qed.
Lemma moves_visit_manuscript i : moves sh_cmd (visit_manuscript i) (visit_manuscript (sh i)).
Proof. unfold visit_manuscript. mv. Qed.
Lemma moves_visit_author i : moves sh_cmd (visit_author i) (visit_author (sh i)).
Proof. unfold visit_author. mv. Qed.
Lemma moves_visit_abstract i : moves sh_cmd (visit_abstract i) (visit_abstract (sh i)).
Proof. unfold visit_abstract. mv. Qed.
Lemma moves_visit_paragraph i : moves sh_cmd (visit_paragraph i) (visit_paragraph (sh i)).
Proof. unfold visit_paragraph. mv. Qed.
Lemma moves_visit_step i : moves sh_cmd (visit_step i) (visit_step (sh i)).
Proof. unfold visit_step. mv. Qed.
Lemma moves_visit_section fuel i : moves sh_cmd (visit_section fuel i) (visit_section fuel (sh i)).
Proof. unfold visit_section. mv. Qed.
Lemma moves_visit_contents i : moves sh_cmd (visit_contents i) (visit_contents (sh i)).
Proof. unfold visit_contents. mv. Qed.
Lemma moves_visit_note fuel i : moves sh_cmd (visit_note fuel i) (visit_note fuel (sh i)).
Proof. unfold visit_note. mv. Qed.
Lemma moves_visit_math i : moves sh_cmd (visit_math i) (visit_math (sh i)).
Proof. unfold visit_math. mv. Qed.
Lemma moves_visit_mathblock i : moves sh_cmd (visit_mathblock i) (visit_mathblock (sh i)).
Proof. unfold visit_mathblock. mv. Qed.
Lemma moves_visit_sourcecode hl i : moves sh_cmd (visit_sourcecode hl i) (visit_sourcecode hl (sh i)).
Proof. unfold visit_sourcecode. mv. Qed.
Lemma moves_visit_code i : moves sh_cmd (visit_code i) (visit_code (sh i)).
Proof. unfold visit_code. mv. Qed.
Lemma moves_visit_codeblock i : moves sh_cmd (visit_codeblock i) (visit_codeblock (sh i)).
Proof. unfold visit_codeblock. mv. Qed.
Lemma moves_visit_algorithm i : moves sh_cmd (visit_algorithm i) (visit_algorithm (sh i)).
Proof. unfold visit_algorithm. mv. Qed.
Lemma moves_visit_text i : moves sh_cmd (visit_text i) (visit_text (sh i)).
Proof. unfold visit_text. mv. Qed.
Lemma moves_visit_error i : moves sh_cmd (visit_error i) (visit_error (sh i)).
Proof. unfold visit_error. mv. Qed.
Lemma moves_visit_span i : moves sh_cmd (visit_span i) (visit_span (sh i)).
Proof.
  unfold visit_span. eapply moves_bind; [mv|]. intros nt. eapply (moves_bind b (map (map sh_cmd))); [apply moves_mapM'; intro; mv|]. intros cmds. apply moves_ret.
  cbn [ShiftTranslate.sh_cmd map]. rewrite concat_map. reflexivity.
Qed.
Lemma moves_visit_construct i : moves sh_cmd (visit_construct i) (visit_construct (sh i)).
Proof. unfold visit_construct. mv. Qed.
Definition sh_target (t : href_target) : href_target := match t with HNode i => HNode (sh i) | HStr s => HStr s end.
Lemma moves_make_ahref fuel i t href id_ add : moves (map sh_tok) (make_ahref fuel i t href id_ add) (make_ahref fuel (sh i) (sh_target t) href id_ add).
Proof.
  unfold make_ahref. mv1; [mv|]. mv1; [destruct t as [t|[|]]; cbn [sh_target]; mv|]. eapply moves_bind; [mv|]. intros n. cbn [sh_node n_attrs]. rewrite lookup_fmap.
  mv1; [|mv]. destruct (n_attrs n !! a_overwrite_reftext) as [v|]; cbn [fmap option_fmap option_map]; [rewrite truthy_sh, fmt_sh; apply moves_if; [mv|]|]; destruct t; cbn [sh_target]; mv.
Qed.
Lemma moves_label_text i : moves same (label_text i) (label_text (sh i)).
Proof. unfold label_text. mv. Qed.
Hint Resolve moves_label_text moves_make_ahref : mv.
Lemma moves_ahref_node fuel i t href id_ add : moves (map sh_tok) (make_ahref fuel i (HNode t) href id_ add) (make_ahref fuel (sh i) (HNode (sh t)) href id_ add).
Proof. exact (moves_make_ahref fuel i (HNode t) href id_ add). Qed.
Lemma moves_ahref_str fuel i t href id_ add : moves (map sh_tok) (make_ahref fuel i (HStr t) href id_ add) (make_ahref fuel (sh i) (HStr t) href id_ add).
Proof. exact (moves_make_ahref fuel i (HStr t) href id_ add). Qed.
Hint Resolve moves_ahref_node moves_ahref_str : mv.
Lemma moves_visit_reference fuel i : moves sh_cmd (visit_reference fuel i) (visit_reference fuel (sh i)).
Proof. unfold visit_reference. mv. Qed.
Lemma moves_visit_url fuel i : moves sh_cmd (visit_url fuel i) (visit_url fuel (sh i)).
Proof. unfold visit_url. mv. Qed.
Lemma moves_make_title label desc : moves sh (make_title_node label desc) (make_title_node label desc).
Proof. unfold make_title_node. mv. Qed.
Hint Resolve moves_make_title : mv.
Lemma moves_visit_theorem fuel i : moves sh_cmd (visit_theorem fuel i) (visit_theorem fuel (sh i)).
Proof. unfold visit_theorem. mv. Qed.
Lemma moves_visit_subproof i : moves sh_cmd (visit_subproof i) (visit_subproof (sh i)).
Proof. unfold visit_subproof. mv. Qed.
Lemma moves_visit_sketch i : moves sh_cmd (visit_sketch i) (visit_sketch (sh i)).
Proof. unfold visit_sketch. mv. Qed.
Lemma moves_visit_proof i : moves sh_cmd (visit_proof i) (visit_proof (sh i)).
Proof. unfold visit_proof. eapply moves_bind; [mv|]. intros l. mv1; [destruct l as [[x k]|]; cbn [option_map sh_idx fst snd]; mv|]. mv. Qed.
Lemma moves_cite_tags fuel i label ts idx : moves (map (map sh_tok)) (cite_tags fuel i label ts idx) (cite_tags fuel (sh i) label (map sh ts) idx).
Proof. revert idx. induction ts as [|t ts IH]; intros idx; cbn [cite_tags map]; mv. Qed.
Hint Resolve moves_cite_tags : mv.
Lemma tok_join_sh sep xs : map sh_tok (tok_join sep xs) = tok_join (map sh_tok sep) (map (map sh_tok) xs).
Proof. induction xs as [|x [|y r] IH]; try reflexivity. cbn [tok_join map] in *. rewrite !map_app, IH. reflexivity. Qed.
Lemma moves_visit_cite fuel i : moves sh_cmd (visit_cite fuel i) (visit_cite fuel (sh i)).
Proof.
  unfold visit_cite. eapply moves_bind; [mv|]. intros tv. destruct tv as [| | | | | | |ts|]; try apply moves_raise. cbn [sh_val].
  assert (G : forall ts, moves sh_cmd (let! label := label_text i in let! xs := cite_tags fuel i label ts 0 in ret (KText ([raw "["; TOpen (lit "span") [AQ (lit "id") label]] ++ tok_join [raw ", "] xs ++ [ctag "span"; raw "]"])))
    (let! label := label_text (sh i) in let! xs := cite_tags fuel (sh i) label (map sh ts) 0 in ret (KText ([raw "["; TOpen (lit "span") [AQ (lit "id") label]] ++ tok_join [raw ", "] xs ++ [ctag "span"; raw "]"])))).
  { clear ts. intros ts. mv1; [mv|]. eapply moves_bind; [apply moves_cite_tags|]. intros xs. apply moves_ret. cbn [ShiftTranslate.sh_cmd]. rewrite !map_app, tok_join_sh. reflexivity. }
  destruct ts as [|t [|u r]]; [exact (G [])| |exact (G (t :: u :: r))]. clear G. cbn [map]. mv.
Qed.
Lemma moves_visit_bibliography i : moves sh_cmd (visit_bibliography i) (visit_bibliography (sh i)).
Proof. unfold visit_bibliography. mv. Qed.
Lemma moves_strip_dots v : moves same (strip_dots v) (strip_dots (sh_val b v)).
Proof. unfold strip_dots. mv. Qed.
Lemma backlink_sh ls idx : map (map sh_tok) (backlink_tags ls idx) = backlink_tags ls idx.
Proof. revert idx. induction ls as [|l r IH]; intros idx; [reflexivity|]. cbn [backlink_tags map]. rewrite IH. reflexivity. Qed.
Definition sh_parts (p : list tok * list tok * list tok) : list tok * list tok * list tok := (map sh_tok p.1.1, map sh_tok p.1.2, map sh_tok p.2).
Lemma moves_bibitem_parts i : moves sh_parts (bibitem_parts i) (bibitem_parts (sh i)).
Proof.
  unfold bibitem_parts. eapply moves_bind; [mv|]. intros author. eapply moves_bind; [mv|]. intros title. eapply moves_bind; [mv|]. intros number. eapply moves_bind; [mv|]. intros kind.
  mv1; [mv|]. rename a into label. mv_norm.
  change (VStr (lit "article")) with (sh_val b (VStr (lit "article"))) at 2. change (VStr (lit "book")) with (sh_val b (VStr (lit "book"))) at 2. rewrite !sh_val_eqb.
  eapply (moves_bind b (map (sh_val b))); [mv|]. intros venue. eapply moves_bind; [mv|]. intros year. eapply (moves_bind b (map (sh_val b))); [mv|]. intros y.
  eapply (moves_bind b (map (fun x : str => x))).
  { match goal with |- moves _ (mapM _ ?l) (mapM _ ?l') => replace l' with (map (sh_val b) l) end; [apply moves_mapM; apply moves_strip_dots|]. rewrite !map_app. f_equal. destruct (truthy number); reflexivity. }
  intros parts. rewrite map_id. eapply moves_bind; [mv|]. intros doi. mv_norm. eapply (moves_bind b (map sh_tok)); [mv|]. intros dt. mv1; [mv|]. apply moves_ret. unfold sh_parts. cbn [fst snd]. f_equal.
  destruct a as [|x r]; [reflexivity|]. rewrite !map_app, tok_join_sh, backlink_sh. reflexivity.
Qed.
Lemma bibitem_text_sh p : bibitem_text (sh_parts p) = map sh_tok (bibitem_text p).
Proof. destruct p as [[x d] k]. unfold bibitem_text, sh_parts. cbn [fst snd]. rewrite !map_app. destruct d; reflexivity. Qed.
Hint Resolve moves_bibitem_parts : mv.
Lemma moves_visit_bibitem i : moves sh_cmd (visit_bibitem i) (visit_bibitem (sh i)).
Proof. unfold visit_bibitem. eapply moves_bind; [mv|]. intros p. eapply moves_bind; [mv|]. intros nt. apply moves_ret. rewrite bibitem_text_sh. reflexivity. Qed.
Lemma moves_visit_draft i : moves sh_cmd (visit_draft i) (visit_draft (sh i)).
Proof. unfold visit_draft. mv. Qed.
Lemma is_one_sh v : is_one (sh_val b v) = is_one v.
Proof. destruct v; reflexivity. Qed.
Lemma moves_visit_figure fuel i : moves sh_cmd (visit_figure fuel i) (visit_figure fuel (sh i)).
Proof. unfold visit_figure. mv. apply moves_ret. rewrite is_one_sh, fmt_sh. reflexivity. Qed.
Lemma moves_visit_caption fuel i : moves sh_cmd (visit_caption fuel i) (visit_caption fuel (sh i)).
Proof. unfold visit_caption. mv. Qed.
Hint Resolve moves_visit_node moves_visit_manuscript moves_visit_author moves_visit_abstract moves_visit_paragraph moves_visit_step moves_visit_section moves_visit_contents moves_visit_note moves_visit_math
  moves_visit_mathblock moves_visit_sourcecode moves_visit_code moves_visit_codeblock moves_visit_algorithm moves_visit_text moves_visit_error moves_visit_span moves_visit_construct moves_visit_reference moves_visit_url
  moves_visit_theorem moves_visit_subproof moves_visit_sketch moves_visit_proof moves_visit_cite moves_visit_bibliography moves_visit_bibitem moves_visit_draft moves_visit_figure moves_visit_caption : mv.
Lemma moves_visit_method hl fuel m i : moves sh_cmd (visit_method hl fuel m i) (visit_method hl fuel m (sh i)).
Proof. destruct m; cbn [visit_method]; mv. Qed.
(** ** Leave methods *)
Notation sh_pair := (sh_pair b).
Notation sh_tst := (sh_tst b).
Lemma moves_leave_node ts : moves sh_pair (leave_node ts) (leave_node (sh_tst ts)).
Proof. unfold leave_node. destruct ts as [bd [|c r]]; cbn; [apply moves_raise|apply moves_ret; reflexivity]. Qed.
Hint Resolve moves_leave_node : mv.
Lemma moves_leave_abstract i ts : moves sh_pair (leave_abstract i ts) (leave_abstract (sh i) (sh_tst ts)).
Proof. unfold leave_abstract. mv. Qed.
Lemma moves_leave_mathblock i ts : moves sh_pair (leave_mathblock i ts) (leave_mathblock (sh i) (sh_tst ts)).
Proof.
  unfold leave_mathblock. eapply moves_bind; [apply moves_leave_node|]. intros r. eapply moves_bind; [apply moves_parent_of|]. intros p.
  eapply (moves_bind b (fun x : bool => x)); [destruct p as [q|]; cbn [option_map]; mv|]. intros inpar. destruct inpar; cbn [negb]; [|apply moves_ret; reflexivity].
  eapply (moves_bind b (option_map sh)); [mv|]. intros nx. destruct nx as [x|]; cbn [option_map]; [|apply moves_ret; reflexivity]. destruct p as [q|]; cbn [option_map]; [|apply moves_raise].
  eapply moves_bind; [mv|]. intros _. eapply moves_bind; [apply (moves_items_of b r.1)|]. intros items. apply moves_ret. unfold ShiftTranslate.sh_pair. cbn [fst snd ShiftTranslate.sh_cmd]. rewrite map_app. reflexivity.
Qed.
Lemma moves_flag i a : moves same (flag i a) (flag (sh i) a).
Proof. unfold flag. eapply moves_bind; [mv|]. intros n. apply moves_ret. cbn [sh_node n_attrs]. rewrite lookup_fmap. destruct (n_attrs n !! a); [apply truthy_sh|reflexivity]. Qed.
Hint Resolve moves_flag : mv.
Lemma moves_leave_paragraph i ts : moves sh_pair (leave_paragraph i ts) (leave_paragraph (sh i) (sh_tst ts)).
Proof.
  unfold leave_paragraph. eapply moves_bind; [apply moves_leave_node|]. intros r. eapply (moves_bind b (fun x : bool => x)); [mv|]. intros m. destruct m; [|apply moves_ret; reflexivity].
  eapply moves_bind; [apply (moves_items_of b r.1)|]. intros items. apply moves_ret. reflexivity.
Qed.
Lemma insert_before_last_sh x l : insert_before_last (sh_cmd x) (map sh_cmd l) = map sh_cmd (insert_before_last x l).
Proof. unfold insert_before_last. rewrite <- map_rev. destruct (rev l) as [|y r]; [reflexivity|]. cbn [map]. rewrite map_app, map_rev. reflexivity. Qed.
Lemma moves_leave_proof ts : moves sh_pair (leave_proof ts) (leave_proof (sh_tst ts)).
Proof. unfold leave_proof. eapply moves_bind; [mv|]. intros r. eapply moves_bind; [apply (moves_items_of b r.1)|]. intros items. apply moves_ret. unfold ShiftTranslate.sh_pair. cbn [fst snd ShiftTranslate.sh_cmd]. rewrite <- insert_before_last_sh. reflexivity. Qed.
Hint Resolve moves_leave_abstract moves_leave_mathblock moves_leave_paragraph moves_leave_proof : mv.
Lemma moves_leave_method m i ts : moves sh_pair (leave_method m i ts) (leave_method m (sh i) (sh_tst ts)).
Proof. destruct m; cbn [leave_method]; mv. Qed.
(** ** The loop *)
Record tc_moves (tc tc' : tclass) : Prop := {
  tm_visit : forall fuel i, moves sh_cmd (tc_visit tc fuel i) (tc_visit tc' fuel (sh i));
  tm_leave : forall fuel i ts, moves sh_pair (tc_leave tc fuel i ts) (tc_leave tc' fuel (sh i) (sh_tst ts))
}.
Lemma base_moves hl : tc_moves (base_tc hl) (base_tc hl).
Proof.
  split; cbn [base_tc tc_visit tc_leave]; intros.
  - unfold base_visit. mv. apply moves_visit_method.
  - unfold base_leave. mv. apply moves_leave_method.
Qed.
Definition sh_act (a : action) : action := match a with Visit i => Visit (sh i) | Leave i => Leave (sh i) end.
Lemma moves_tr_loop tc tc' ext ext' fuel0 fuel l ts : tc_moves tc tc' -> ext_moves b ext ext' ->
  moves sh_tst (tr_loop tc ext fuel0 fuel l ts) (tr_loop tc' ext' fuel0 fuel (map sh_act l) (sh_tst ts)).
Proof.
  intros Ht He. revert l ts. induction fuel as [|fuel IH]; intros [|[i|i] l] ts; cbn [tr_loop map sh_act]; try (apply moves_ret; reflexivity); try apply moves_raise.
  - eapply moves_bind; [apply (tm_visit _ _ Ht)|]. intros c. eapply moves_bind; [apply moves_children_of|]. intros cs. eapply moves_bind; [apply moves_execute; exact He|]. intros ts'. rewrite defers_sh.
    match goal with |- moves _ _ (tr_loop _ _ _ _ ?l' _) => replace l' with (map sh_act (map Visit cs ++ (if defers c then [Leave i] else []) ++ l)) end; [apply IH|].
    rewrite !map_app, !map_map. destruct (defers c); reflexivity.
  - eapply moves_bind; [apply (tm_leave _ _ Ht)|]. intros r. cbn [ShiftTranslate.sh_pair fst snd]. eapply moves_bind; [apply moves_execute; exact He|]. intros ts'. apply IH.
Qed.
Lemma moves_run tc tc' ext ext' fuel i : tc_moves tc tc' -> ext_moves b ext ext' -> moves (map sh_tok) (run_translator tc ext fuel i) (run_translator tc' ext' fuel (sh i)).
Proof.
  intros Ht He. unfold run_translator. eapply moves_bind; [exact (moves_tr_loop tc tc' ext ext' fuel fuel [Visit i] (MkT [] []) Ht He)|]. intros ts. destruct ts as [bd [|c r]]; cbn; [apply moves_ret; reflexivity|apply moves_raise].
Qed.
Lemma ext_base hl depth fuel : ext_moves b (translate_ext hl depth fuel) (translate_ext hl depth fuel).
Proof. induction depth as [|d IH]; intros i; cbn [translate_ext]; [apply moves_raise|]. apply moves_run; [apply base_moves|exact IH]. Qed.
Theorem moves_translate hl fuel i : moves (map sh_tok) (translate hl fuel i) (translate hl fuel (sh i)).
Proof. unfold translate. mv1; [mv|]. apply moves_run; [apply base_moves|apply ext_base]. Qed.
End Visit.
