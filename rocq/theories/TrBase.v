(** The base translator writes well nested elements. *)
From Verif Require Export TrLeave.
From Verif Require Import NodeOps Monad.

Definition noext (c : cmd) : Prop := exts c = [].
Lemma x_span i : post (visit_span i) noext.
Proof.
  unfold visit_span. nstep. eapply post_bind; [apply span_cmds|]. intros cmds H. apply post_ret. unfold span_tags in H.
  repeat match goal with H : Forall2 _ (_ :: _) _ |- _ => inversion H; clear H; subst end.
  match goal with H : Forall2 _ [] _ |- _ => inversion H; subst; clear H end.
  repeat match goal with H : _ = [] \/ _ |- _ => destruct H as [-> | ->] end; reflexivity.
Qed.
Lemma x_manuscript i : post (visit_manuscript i) noext.
Proof. unfold visit_manuscript. repeat nstep. destruct (truthy _); reflexivity. Qed.
Lemma x_author i : post (visit_author i) noext.
Proof. unfold visit_author. cbv zeta. repeat nstep; [|reflexivity]. destruct (truthy _), (truthy _), (truthy _); reflexivity. Qed.
Lemma x_paragraph i : post (visit_paragraph i) noext.
Proof. unfold visit_paragraph. nstep. apply post_skip. intros f. apply post_skip. intros t. apply post_ret. destruct (truthy t), f; reflexivity. Qed.
Lemma x_visit_method hl f m i : m <> CTheorem -> m <> CSketch -> m <> CProof -> post (visit_method hl f m i) noext.
Proof.
  intros H1 H2 H3. destruct m; try congruence; clear H1 H2 H3; cbn [visit_method];
  lazymatch goal with
  | |- post (visit_manuscript _) _ => apply x_manuscript
  | |- post (visit_author _) _ => apply x_author
  | |- post (visit_paragraph _) _ => apply x_paragraph
  | |- post (visit_span _) _ => apply x_span
  | |- _ => unfold visit_node, visit_abstract, visit_section, visit_contents, visit_math, visit_bibliography,
      visit_step, visit_note, visit_mathblock, visit_sourcecode, visit_code, visit_codeblock, visit_algorithm, visit_text, visit_error,
      visit_construct, visit_reference, visit_url, visit_subproof, visit_cite, visit_bibitem, visit_draft,
      visit_figure, visit_caption; repeat nstep; reflexivity
  end.
Qed.
(** The three methods with a title. *)
Definition title_cmd (s sv : st) (c : cmd) : Prop := exists g t, c = KBatchDefer [KOpen g; KExternal t] /\ titled s sv t.
Lemma titled_old s0 s1 s j : (forall y, old s0 y -> old s1 y) -> titled s1 s j -> titled s0 s j.
Proof.
  intros Ho (t & H1 & H2 & H3). exists t. split; [assumption|]. split; [assumption|]. intros x Hx. destruct (H3 x Hx) as [H4 H5]. split; [|assumption].
  destruct (st_heap s0 !! x) eqn:E; [|reflexivity]. destruct (Ho x) as [n' Hn']; [exists n; assumption|]. congruence.
Qed.
Lemma make_titled s0 s label desc s' j : good s -> (forall y, old s0 y -> old s y) -> make_title_node label desc s = (s', Ok j) -> titled s0 s' j.
Proof. intros Hg Ho H. apply (titled_old s0 s); [assumption|]. exact (title_spec _ _ _ _ _ Hg H). Qed.
Lemma same_old s s' : st_heap s' = st_heap s -> forall y, old s y -> old s' y.
Proof. intros E y. unfold old. rewrite E. auto. Qed.
Ltac qinv H := match type of H with ?m ?s = (?s', Ok ?a) =>
  let E := fresh "E" in let N := fresh "N" in
  assert (E : st_heap s' = st_heap s /\ st_next s' = st_next s) by
    (apply (quiet_heap m s s' (Ok a)); [first [qstep|qstep2]|exact H]); destruct E as [E N] end.
Lemma title_theorem f i s sv c : good s -> visit_theorem f i s = (sv, Ok c) -> title_cmd s sv c.
Proof.
  unfold visit_theorem. intros Hg H.
  apply bind_ok in H as (s1 & cc & H1 & H). qinv H1. apply bind_ok in H as (s2 & x2 & H2 & H). qinv H2.
  apply bind_ok in H as (s3 & x3 & H3 & H). qinv H3. apply bind_ok in H as (s4 & x4 & H4 & H).
  assert (E4 : st_heap s4 = st_heap s3 /\ st_next s4 = st_next s3). { eapply quiet_heap; [|exact H4]. qs. } destruct E4 as [E4 N4].
  apply bind_ok in H as (s5 & x5 & H5 & H). qinv H5. apply bind_ok in H as (s6 & t & Ht & H).
  apply bind_ok in H as (s7 & nt & Hn & H). qinv Hn. apply post_node_tag_full in Hn as [g ->]. apply ret_ok in H as [-> ->]. exists g, t. split; [reflexivity|].
  apply (titled_heap s s6); [assumption|]. eapply make_titled; [| |exact Ht].
  - eapply (good_heap s); [congruence|congruence|assumption].
  - apply same_old. congruence.
Qed.
Lemma title_sketch i s sv c : good s -> visit_sketch i s = (sv, Ok c) -> title_cmd s sv c.
Proof.
  unfold visit_sketch. intros Hg H. apply bind_ok in H as (s6 & t & Ht & H).
  apply bind_ok in H as (s7 & nt & Hn & H). qinv Hn. apply post_node_tag_full in Hn as [g ->]. apply ret_ok in H as [-> ->]. exists g, t. split; [reflexivity|].
  apply (titled_heap s s6); [assumption|]. eapply make_titled; [exact Hg|auto|exact Ht].
Qed.
Lemma title_proof i s sv c : good s -> visit_proof i s = (sv, Ok c) -> title_cmd s sv c.
Proof.
  unfold visit_proof. intros Hg H. apply bind_ok in H as (s1 & l & H1 & H). qinv H1. apply bind_ok in H as (s2 & x2 & H2 & H).
  assert (F : tfr [a_types] s1 s2). { revert H2. match goal with |- ?m s1 = _ -> _ => assert (G : tpres [a_types] m) end; [tps|intros H2; exact (G _ _ _ H2)]. }
  assert (Hg1 : good s1) by (eapply (good_heap s); eassumption).
  apply bind_ok in H as (s5 & x5 & H5 & H). qinv H5. apply bind_ok in H as (s6 & t & Ht & H).
  apply bind_ok in H as (s7 & nt & Hn & H). qinv Hn. apply post_node_tag_full in Hn as [g ->]. apply ret_ok in H as [-> ->]. exists g, t. split; [reflexivity|].
  apply (titled_heap s s6); [assumption|]. eapply make_titled; [| |exact Ht].
  - eapply (good_heap s2); [assumption|assumption|]. apply F. assumption.
  - intros y Hy. apply (same_old s2 s5); [assumption|]. eapply (tfr_old _ s1); [assumption|exact F|]. apply (same_old s s1); assumption.
Qed.
Lemma title_cmd_fine s sv c : title_cmd s sv c -> exts_fine s sv c.
Proof. intros (g & t & -> & Ht). right. exists t. split; [reflexivity|assumption]. Qed.
Lemma exts_visit hl f m i s sv c : good s -> visit_method hl f m i s = (sv, Ok c) -> exts_fine s sv c.
Proof.
  intros Hg H. destruct (decide (m = CTheorem)) as [->|]; [exact (title_cmd_fine _ _ _ (title_theorem _ _ _ _ _ Hg H))|].
  destruct (decide (m = CSketch)) as [->|]; [exact (title_cmd_fine _ _ _ (title_sketch _ _ _ _ Hg H))|].
  destruct (decide (m = CProof)) as [->|]; [exact (title_cmd_fine _ _ _ (title_proof _ _ _ _ Hg H))|].
  left. exact (x_visit_method hl f m i ltac:(assumption) ltac:(assumption) ltac:(assumption) _ _ _ H).
Qed.

(** ** Paragraphs and math blocks *)

Lemma first_mb i s s' r ni : first_of_type i [CMathBlock] s = (s', Ok r) -> st_heap s !! i = Some ni ->
  existsb (is_mb (st_heap s)) (kids ni) = match r with Some _ => true | None => false end.
Proof.
  intros H Hi. apply first_of_type_ok in H as (-> & n & Hn & Hm). assert (n = ni) as -> by congruence.
  assert (Hin : forall y, is_instance (st_heap s) [CMathBlock] y <-> is_mb (st_heap s) y = true).
  { intros y. unfold is_mb. destruct (st_heap s !! y) as [m|] eqn:E.
    - rewrite (is_instance_iff _ _ _ _ E), bool_decide_eq_true. destruct (n_cls m); split; intros X; try reflexivity; discriminate X.
    - split; [|discriminate]. intros (m & d & Hm' & _). congruence. }
  destruct r as [[y k]|].
  - destruct Hm as (H1 & H2 & _). apply existsb_exists. exists y. split; [|apply Hin; assumption]. eapply nth_error_In. exact H1.
  - apply not_true_is_false. intros X. apply existsb_exists in X as (y & Hy & Hyb). apply (Hm y); [apply elem_of_list_In; assumption|]. apply Hin. assumption.
Qed.
Definition para_cmd (b : bool) (c : cmd) : Prop := exists T, (forall S, ceff c S = Some (pt :: T ++ S)) /\
  moves (closer_toks c) (if b then T else pt :: T) [] /\ exists d, closer c = Some d.
Lemma paragraph_cmd i s sv c ni : visit_paragraph i s = (sv, Ok c) -> st_heap s !! i = Some ni ->
  para_cmd (existsb (is_mb (st_heap s)) (kids ni)) c.
Proof.
  unfold visit_paragraph. intros H Hi. apply bind_ok in H as (s1 & nt & H1 & H). qinv H1. apply tag_node_tag_full in H1 as (id_ & cl & a & b & e & d & ->).
  apply bind_ok in H as (s2 & r & H2 & H). rewrite <- E in Hi |- *. rewrite (first_mb _ _ _ _ _ H2 Hi).
  apply bind_ok in H as (s3 & t & H3 & H). apply ret_ok in H as [-> ->]. exists [lit "div"]. split; [|split].
  - intros S. destruct r, (truthy t); lazy; reflexivity.
  - intros S. destruct r, (truthy t), a, b; lazy; reflexivity.
  - eexists. reflexivity.
Qed.
Definition mb_cmd (c : cmd) : Prop := exists T, (forall S, ceff c (pt :: S) = Some (T ++ S)) /\ moves (closer_toks c) T [] /\
  exists l, closer c = Some (KBatch l).
Lemma mathblock_cmd i : post (visit_mathblock i) mb_cmd.
Proof.
  unfold visit_mathblock. do 2 nstep. destruct (negb _); [apply post_raise|]. repeat nstep. exists [lit "div"]. split; [|split].
  - intros S. lazy. reflexivity.
  - intros S. repeat match goal with b : bool |- _ => destruct b end; lazy; reflexivity.
  - eexists. reflexivity.
Qed.
Lemma fl_heap a s s' y : st_heap s' = st_heap s -> fl a s' y = fl a s y.
Proof. intros E. unfold fl. rewrite E. reflexivity. Qed.
Lemma fl_setattr a i b v s s' x y : setattr i b v s = (s', Ok x) -> a <> b \/ y <> i -> fl a s' y = fl a s y.
Proof.
  intros H Hne. apply setattr_ok in H as (n & Hn & ->). unfold fl. rewrite upd_lookup. destruct (decide (i = y)) as [<-|]; [|reflexivity].
  rewrite Hn. cbn. destruct Hne as [Hne|Hne]; [|congruence]. rewrite lookup_insert_ne by congruence. reflexivity.
Qed.
Lemma fl_setattr_same a i v s s' x : setattr i a v s = (s', Ok x) -> fl a s' i = truthy v.
Proof. intros H. apply setattr_ok in H as (n & Hn & ->). unfold fl. rewrite upd_lookup, decide_True by reflexivity. cbn. rewrite lookup_insert. reflexivity. Qed.
Lemma leave_mathblock_inv i l s s' k u' n q nq pre post :
  good s -> leave_mathblock i (MkT [] [KBatch l]) s = (s', Ok (k, u')) ->
  (st_heap s !! i = Some n -> (forall y, n_parent n <> Some y -> must s' y = must s y)) /\
  (forall y, dot s' y = dot s y) /\
  (st_heap s !! i = Some n -> n_parent n = Some q -> st_heap s !! q = Some nq -> kids nq = pre ++ i :: post -> n_cls nq = CParagraph ->
   match post with
   | [] => k = KBatch l /\ must s' q = must s q
   | _ => k = KBatch (l ++ [KText [otag "p" []]]) /\ must s' q = true
   end).
Proof.
  intros Hg H. unfold leave_mathblock in H. apply bind_ok in H as (s1 & [d' u] & H1 & H). apply leave_node_inv in H1 as (-> & -> & ->).
  apply bind_ok in H as (s2 & p & H2 & H). apply parent_of_ok in H2 as (-> & n0 & Hn0 & ->).
  apply bind_ok in H as (s3 & b & H3 & H).
  assert (E3 : s3 = s /\ match n_parent n0 with None => b = false | Some q' => exists m, st_heap s !! q' = Some m /\ b = subclass_any (n_cls m) [CBaseParagraph] end).
  { destruct (n_parent n0); [apply inst_ok in H3 as (-> & m & Hm & ->)|apply ret_ok in H3 as [-> ->]]; eauto. }
  destruct E3 as [-> E3]. destruct b; cbn [negb] in H.
  2:{ apply ret_ok in H as [-> H]. injection H as -> ->. split; [auto|]. split; [auto|]. intros Hn Hp Hq Hk Hc.
      assert (n0 = n) as -> by congruence. rewrite Hp in E3. destruct E3 as (m & Hm & Em). assert (m = nq) as -> by congruence. rewrite Hc in Em. discriminate Em. }
  apply bind_ok in H as (s4 & nx & H4 & H). pose proof (quiet_heap _ _ _ _ (q_next_sibling _ _) H4) as [E4 _].
  assert (Hnx : st_heap s !! i = Some n -> n_parent n = Some q -> st_heap s !! q = Some nq -> kids nq = pre ++ i :: post -> nx = head post).
  { intros Hn Hp Hq Hk. assert (Hs : siblings (st_heap s) i pre post). { exists q, nq. split; [exists n; split; assumption|]. split; assumption. }
    rewrite (next_sibling_any s i pre post) in H4; [congruence|apply Hg|exact Hs]. }
  destruct nx as [x|].
  - destruct (n_parent n0) as [q0|] eqn:Ep; [|discriminate H]. apply bind_ok in H as (s5 & x5 & H5 & H).
    apply bind_ok in H as (s6 & l' & H6 & H). apply items_of_inv in H6 as [-> H6]. destruct H6 as [H6|H6]; cbn in H6; [injection H6 as <-|discriminate H6].
    apply ret_ok in H as [-> H]. injection H as -> ->. split; [|split].
    + intros Hn y Hy. assert (n0 = n) as -> by congruence. rewrite (fl_setattr _ _ _ _ _ _ _ _ H5) by (right; congruence). apply fl_heap. assumption.
    + intros y. rewrite (fl_setattr _ _ _ _ _ _ _ _ H5) by (left; discriminate). apply fl_heap. assumption.
    + intros Hn Hp Hq Hk Hc. specialize (Hnx Hn Hp Hq Hk). assert (n0 = n) as -> by congruence. destruct post as [|z post]; [discriminate Hnx|].
      split; [reflexivity|]. assert (q0 = q) as -> by congruence. exact (fl_setattr_same _ _ _ _ _ _ H5).
  - apply ret_ok in H as [-> H]. injection H as -> ->. split; [intros; apply fl_heap; assumption|]. split; [intros; apply fl_heap; assumption|].
    intros Hn Hp Hq Hk Hc. specialize (Hnx Hn Hp Hq Hk). destruct post as [|z post]; [|discriminate Hnx]. split; [reflexivity|apply fl_heap; assumption].
Qed.
Lemma dispatch_visit_para c : dispatch visit_defined c = Some CParagraph <-> c = CParagraph.
Proof. destruct c; split; intros H; try reflexivity; discriminate H. Qed.
Lemma dispatch_visit_mb c : dispatch visit_defined c = Some CMathBlock <-> c = CMathBlock.
Proof. destruct c; split; intros H; try reflexivity; discriminate H. Qed.
Lemma dispatch_leave_mb c : dispatch leave_defined c = Some CMathBlock <-> c = CMathBlock.
Proof. destruct c; split; intros H; try reflexivity; discriminate H. Qed.
Lemma tfr_fl A s s' a y : good s -> tfr A s s' -> a ∉ A -> old s y -> fl a s' y = fl a s y.
Proof.
  intros Hg Hf Ha [n Hn]. destruct (Hf Hg) as (_ & _ & _ & F). destruct (F _ _ Hn) as (m & Hm & _ & _ & _ & E). unfold fl. rewrite Hn, Hm, E by assumption. reflexivity.
Qed.
Lemma closes_some tc f i d s cl s' : closes tc f i (Some d) s cl s' ->
  exists k, tc_leave tc f i (MkT [] [d]) s = (s', Ok (k, MkT [] [])) /\ cl = static_toks k.
Proof. intros (k & H & _ & E). eauto. Qed.
Lemma leave_heap m i d s s' k u' : m <> CMathBlock -> static d = true ->
  leave_method m i (MkT [] [d]) s = (s', Ok (k, u')) -> st_heap s' = st_heap s.
Proof.
  intros Hne Hst H. destruct (must s i) eqn:Em; [|eapply leave_mild; eassumption].
  destruct (decide (m = CParagraph)) as [->|Np]; [apply leave_paragraph_inv in H as (-> & _); [reflexivity|assumption]|].
  assert (Hm : forall s, must s i = must s i) by auto. destruct m; try congruence; cbn [leave_method] in H;
  lazymatch type of H with
  | leave_node _ _ = _ => apply (mild_node _ _ _ _ _ H)
  | leave_abstract _ _ _ = _ => eapply leave_abstract_mild; exact H
  | leave_proof _ _ = _ => apply (leave_proof_mild _ _ _ _ _ Hst H)
  end.
Qed.
Lemma nest_base hl ext f : (forall j, tpres tr_attrs (ext j)) -> ext_fine ext -> nest_ok tr_attrs (base_tc hl) ext f.
Proof.
  intros Hext He. constructor. intros s i ni sv c s1 op Hg Hi Hv Ho Hd.
  pose proof (tp_visit_method [a_types] ltac:(set_solver) hl f) as TV.
  cbn [tc_visit base_tc] in Hv. pose proof (base_visit_shape _ _ _ _ _ _ Hv) as Hsh.
  unfold base_visit in Hv. apply bind_ok in Hv as (s0 & cc & Hc & Hv). apply cls_of_ok in Hc as (-> & n0 & Hn0 & ->).
  assert (n0 = ni) as -> by congruence. destruct (dispatch visit_defined (n_cls ni)) as [m|] eqn:Ed; [|discriminate Hv].
  pose proof (TV _ _ _ _ _ Hv) as Fv. pose proof (exts_visit _ _ _ _ _ _ _ Hg Hv) as Hx.
  assert (Hgv : good sv) by (apply Fv; assumption).
  destruct (open_fine ext s sv c s1 op He Hgv) as [Hrun Hfl]; try assumption.
  { intros y Hy. eapply (tfr_old _ s); eassumption. }
  split; [|split].
  { intros y Hy. rewrite (proj1 (Hfl y Hy)). eapply tfr_fl; [exact Hg|exact Fv|set_solver|assumption]. }
  { intros y Hy _. rewrite (proj2 (Hfl y Hy)). eapply tfr_fl; [exact Hg|exact Fv|set_solver|assumption]. }
  intros s2 cl s3 Hg2 F12 Hcl Hdot.
  assert (Fs2 : tfr tr_attrs s s2).
  { eapply tfr_trans; [eapply tfr_weaken; [|exact Fv]; set_solver|]. eapply tfr_trans; [|exact F12]. eapply tp_open_toks; [exact Hext|exact Ho]. }
  destruct (tfr_node _ _ _ _ _ Hg Fs2 Hi) as (n2 & Hn2 & C2 & P2 & K2).
  destruct (decide (n_cls ni = CMathBlock)) as [Emb|Nmb].
  { apply dispatch_visit_mb in Emb as Ed'. rewrite Ed in Ed'. injection Ed' as ->.
    destruct (mathblock_cmd i _ _ _ Hv) as (T & O1 & O2 & l & Ecl). rewrite Ecl in Hcl. apply closes_some in Hcl as (k & Hl & ->).
    cbn [tc_leave base_tc] in Hl. unfold base_leave in Hl. apply bind_ok in Hl as (s4 & c4 & Hc4 & Hl). apply cls_of_ok in Hc4 as (-> & n4 & Hn4 & ->).
    assert (n4 = n2) as -> by congruence. rewrite C2, Emb in Hl. change (dispatch leave_defined CMathBlock) with (Some CMathBlock) in Hl. cbv beta iota in Hl.
    change (leave_mathblock i (MkT [] [KBatch l]) s2 = (s3, Ok (k, MkT [] []))) in Hl.
    split; [|split; [|split; [congruence|split; [|congruence]]]].
    - apply (leave_mathblock_inv i l s2 s3 k _ n2 0 n2 [] [] Hg2 Hl).
    - intros y Hy. apply (leave_mathblock_inv i l s2 s3 k _ n2 0 n2 [] [] Hg2 Hl); [assumption|]. rewrite P2. auto.
    - intros _ q nq pre post Hp Hq Hk Hcq. exists T. destruct (tfr_node _ _ _ _ _ Hg Fs2 Hq) as (nq2 & Hnq2 & Cq2 & Pq2 & Kq2).
      destruct (leave_mathblock_inv i l s2 s3 k (MkT [] []) n2 q nq2 pre post Hg2 Hl) as (_ & _ & L).
      specialize (L Hn2 ltac:(congruence) Hnq2 ltac:(congruence) ltac:(congruence)).
      assert (Ecl' : closer_toks c = flat_map static_toks l) by (unfold closer_toks; rewrite Ecl; reflexivity). rewrite Ecl' in O2.
      split; [intros S; rewrite Hrun; exact (O1 S)|]. destruct post as [|z post].
      + destruct L as [-> L]. split; [exact O2|assumption].
      + destruct L as [-> L]. split; [|assumption]. cbn [static_toks]. rewrite flat_map_app. eapply moves_app; [exact O2|]. intros S. lazy. reflexivity. }
  assert (Hleave : (forall y, dot s3 y = dot s2 y) /\ (forall y, must s3 y = must s2 y) /\
     (must s2 i = false -> forall S, run cl S = run (closer_toks c) S) /\
     (n_cls ni = CParagraph -> is_Some (closer c) -> forall S, run cl S = run ((if must s2 i then [TClose pt] else []) ++ closer_toks c) S)).
  { unfold closer_toks. destruct (closer c) as [d|] eqn:Ec.
    - pose proof (closer_static _ _ Ec) as Hds. apply closes_some in Hcl as (k & Hl & ->).
      cbn [tc_leave base_tc] in Hl. unfold base_leave in Hl. apply bind_ok in Hl as (s4 & c4 & Hc4 & Hl). apply cls_of_ok in Hc4 as (-> & n4 & Hn4 & ->).
      assert (n4 = n2) as -> by congruence. rewrite C2 in Hl. destruct (dispatch leave_defined (n_cls ni)) as [m'|] eqn:Ed'; [|discriminate Hl].
      assert (m' <> CMathBlock) by (intros ->; apply dispatch_leave_mb in Ed'; congruence).
      assert (E3 : st_heap s3 = st_heap s2) by (eapply leave_heap; [eassumption|exact Hds|exact Hl]).
      split; [intros; apply fl_heap; assumption|]. split; [intros; apply fl_heap; assumption|]. split.
      + intros Hm. eapply leave_mild; eassumption.
      + intros Ep _. rewrite Ep in Ed'. injection Ed' as <-. cbn [leave_method] in Hl. apply (leave_paragraph_inv _ _ _ _ _ _ Hds Hl).
    - destruct Hcl as [-> ->]. repeat split; auto. intros _ [? X]; discriminate X. }
  destruct Hleave as (L1 & L2 & L3 & L4). split; [assumption|]. split; [auto|]. split; [|split; [congruence|]].
  - intros Ep. rewrite Ep in Ed. injection Ed as <-. cbn [visit_method] in Hv. destruct (paragraph_cmd _ _ _ _ _ Hv Hi) as (T & O1 & O2 & d & Ed').
    specialize (L4 Ep ltac:(rewrite Ed'; eauto)). exists T. split; [intros S; rewrite Hrun; apply O1|].
    destruct (existsb _ _).
    + destruct (must s2 i); intros S; rewrite L4; [|apply O2]. rewrite run_app. replace (run [TClose pt] ((pt :: T) ++ S)) with (Some (T ++ S)) by (lazy; reflexivity). apply O2.
    + intros Em S. rewrite L4, Em. apply O2.
  - intros Np _ Em. assert (m <> CParagraph) by (intros ->; apply dispatch_visit_para in Ed; congruence).
    assert (m <> CMathBlock) by (intros ->; apply dispatch_visit_mb in Ed; congruence).
    destruct (neat_visit_method hl f m i ltac:(assumption) ltac:(assumption) _ _ _ Hv) as (T & O1 & O2). exists T. split; [intros S; rewrite Hrun; apply (O1 S)|].
    intros S. rewrite (L3 Em). apply O2.
Qed.

(** ** The whole output *)

Lemma ext_fine_raise e : ext_fine (fun _ => raise e).
Proof. intros s0 s j s' x _ _ _ H. discriminate H. Qed.
Lemma ext_fine_translate hl f d : ext_fine (translate_ext hl d f).
Proof.
  induction d as [|d IH].
  - apply ext_fine_raise.
  - apply (nest_ext tr_attrs (base_tc hl) (translate_ext hl d f) f).
    + apply base_tc_ok; set_solver.
    + apply tp_translate_ext; set_solver.
    + apply nest_base; [|exact IH]. apply tp_translate_ext; set_solver.
Qed.
Lemma translate_run hl f i s s' h t :
  good s -> tree_at (st_heap s) None t -> NoDup (doc_order t) -> root t = i -> clean s t -> is_mb (st_heap s) i = false ->
  translate hl f i s = (s', Ok h) -> moves h [] [].
Proof.
  intros Hg Ht Hnd Hr Hc Hb H. unfold translate in H. apply bind_ok in H as (s1 & u & H1 & H). apply info_ok in H1. subst s1.
  match type of H with run_translator _ _ _ _ ?s1 = _ => set (s1' := s1) in * end.
  apply (run_renders (base_tc hl) _ f tr_attrs) in H as (t' & Hr' & H); [|apply base_tc_ok; set_solver|reflexivity].
  assert (Hext : forall j, tpres tr_attrs (translate_ext hl f f j)) by (apply tp_translate_ext; set_solver).
  assert (Htc : tc_ok tr_attrs (base_tc hl)) by (apply base_tc_ok; set_solver).
  assert (Hg1 : good s1') by exact Hg.
  assert (t = t') as <-. { eapply (proj1 (renders_tree _ _ f tr_attrs Htc Hext)); [exact H|exact Hg1|exact Ht|congruence]. }
  apply (proj1 (nest_main tr_attrs _ _ f Htc Hext (nest_base hl _ f Hext (ext_fine_translate hl f f)))) in H.
  destruct (H None Hg1 Ht Hnd Hc ltac:(intros; discriminate)) as (_ & _ & M & _). apply M. unfold mbt. subst i. exact Hb.
Qed.
