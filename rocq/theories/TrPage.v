(** The base translator writes the page described by [SpecPage]. *)
From Verif Require Export SpecPage TrOut BuiltTree.
From Verif Require Import NodeOps Monad.
Local Open Scope string_scope.
Local Open Scope list_scope.

(** ** Reading the old nodes *)
Definition like (s s' : st) : Prop := forall x n, st_heap s !! x = Some n ->
  exists n', st_heap s' !! x = Some n' /\ n_cls n' = n_cls n /\ n_parent n' = n_parent n /\ n_children n' = n_children n /\
    forall a, a ∉ tr_attrs -> n_attrs n' !! a = n_attrs n !! a.
Lemma like_refl s : like s s.
Proof. intros x n H. exists n. auto 10. Qed.
Lemma like_heap s s1 s2 : st_heap s2 = st_heap s1 -> like s s1 -> like s s2.
Proof. intros E H x n Hx. rewrite E. apply H, Hx. Qed.
Lemma like_tfr s s1 s2 : good s1 -> tfr tr_attrs s1 s2 -> like s s1 -> like s s2.
Proof.
  intros Hg F H x n Hx. destruct (H x n Hx) as (n1 & H1 & E1 & E2 & E3 & E4). destruct (F Hg) as (_ & _ & _ & G). destruct (G _ _ H1) as (n2 & H2 & D1 & D2 & D3 & D4).
  exists n2. split; [assumption|]. split; [congruence|]. split; [congruence|]. split; [congruence|]. intros a Ha. rewrite D4, E4 by assumption. reflexivity.
Qed.
Lemma like_aval s s' i a : like s s' -> old s i -> a ∉ tr_attrs -> aval (st_heap s') i a = aval (st_heap s) i a.
Proof. intros H [n Hn] Ha. destruct (H _ _ Hn) as (n' & Hn' & _ & _ & _ & E). unfold aval. rewrite Hn, Hn', E by assumption. reflexivity. Qed.

Section Rd.
Context (s : st) (Hc : consistent (st_heap s)).
Definition rd {X} (m : M X) : Prop := forall s1, like s s1 -> snd (m s1) = snd (m s).
Lemma rd_ret {X} (x : X) : rd (ret x). Proof. intros s1 _. reflexivity. Qed.
Lemma rd_raise {X} e : rd (raise (A := X) e). Proof. intros s1 _. reflexivity. Qed.
Lemma rd_bind {X Y} (m : M X) (k : X -> M Y) : quiet m -> rd m -> (forall x, snd (m s) = Ok x -> rd (k x)) -> rd (bind m k).
Proof using.
  intros Q H1 H2 s1 L. unfold bind. pose proof (H1 s1 L) as E. destruct (m s1) as [s2 r1] eqn:E1, (m s) as [s3 r2] eqn:E2. cbn in E. subst r2.
  destruct r1 as [x|e]; [|reflexivity]. rewrite (H2 x eq_refl s2), (H2 x eq_refl s3); [reflexivity| |].
  - apply (like_heap s s); [|apply like_refl]. apply (proj1 (quiet_heap _ _ _ _ Q E2)).
  - apply (like_heap s s1); [|assumption]. apply (proj1 (quiet_heap _ _ _ _ Q E1)).
Qed.
Lemma rd_get_part {X} i (g : node -> M X) : old s i -> (forall n n' s1 s2, st_heap s !! i = Some n -> n_cls n' = n_cls n -> n_parent n' = n_parent n -> n_children n' = n_children n ->
    (forall a, a ∉ tr_attrs -> n_attrs n' !! a = n_attrs n !! a) -> snd (g n' s1) = snd (g n s2)) -> rd (bind (get_node i) g).
Proof.
  intros [n Hn] H s1 L. destruct (L _ _ Hn) as (n' & Hn' & E1 & E2 & E3 & E4). unfold bind. rewrite (get_node_eq _ _ _ Hn), (get_node_eq _ _ _ Hn'). apply (H n n'); assumption.
Qed.
Lemma rd_cls i : old s i -> rd (cls_of i).
Proof. intros H. apply rd_get_part; [assumption|]. intros n n' s1 s2 _ E _ _ _. cbn. rewrite E. reflexivity. Qed.
Lemma rd_parent i : old s i -> rd (parent_of i).
Proof. intros H. apply rd_get_part; [assumption|]. intros n n' s1 s2 _ _ E _ _. cbn. rewrite E. reflexivity. Qed.
Lemma rd_getattr i a : old s i -> a ∉ tr_attrs -> rd (getattr i a).
Proof. intros H Ha. apply rd_get_part; [assumption|]. intros n n' s1 s2 _ _ _ _ E. rewrite E by assumption. destruct (n_attrs n !! a); reflexivity. Qed.
Lemma rd_get_str i a : old s i -> a ∉ tr_attrs -> rd (get_str i a).
Proof. intros H Ha. unfold get_str. apply rd_bind; [apply q_getattr|apply rd_getattr; assumption|]. intros [] _; first [apply rd_ret|apply rd_raise]. Qed.
Lemma old_parent i p : parent_of i s = (s, Ok (Some p)) -> old s p.
Proof. intros H. apply parent_of_ok in H as (_ & n & Hn & E). destruct (proj2 (cons_parent _ Hc i p)) as (q & Hq & _); [exists n; auto|]. exists q. assumption. Qed.
Lemma parent_run i x : snd (parent_of i s) = Ok x -> parent_of i s = (s, Ok x).
Proof. intros H. destruct (parent_of i s) as [s1 r] eqn:E. cbn in H. subst r. pose proof E as E'. apply parent_of_ok in E as (-> & _). reflexivity. Qed.
Lemma rd_anc ds fuel : forall cur, (forall q, cur = Some q -> old s q) -> rd (anc_loop fuel ds cur).
Proof.
  induction fuel as [|fuel IH]; intros [q|] H; cbn [anc_loop]; try apply rd_ret; try apply rd_raise. assert (Hq : old s q) by (apply H; reflexivity).
  apply rd_bind; [apply q_cls_of|apply rd_cls; assumption|]. intros c _. destruct (cls_mem c ds); [apply rd_ret|].
  apply rd_bind; [qs|apply rd_parent; assumption|]. intros p Hp. apply IH. intros z ->. apply (old_parent q), parent_run, Hp.
Qed.
Lemma anc_old ds fuel : forall cur x s1 s2, st_heap s1 = st_heap s -> (forall q, cur = Some q -> old s q) -> anc_loop fuel ds cur s1 = (s2, Ok (Some x)) -> old s x.
Proof.
  induction fuel as [|fuel IH]; intros [q|] x s1 s2 E1 H E; cbn [anc_loop] in E; try discriminate. assert (Hq : old s q) by (apply H; reflexivity).
  apply bind_ok in E as (s3 & c & E2 & E). apply cls_of_ok in E2 as (-> & _). destruct (cls_mem c ds); [apply ret_ok in E as [_ [= ->]]; assumption|].
  apply bind_ok in E as (s3 & p & E2 & E). apply parent_of_ok in E2 as (-> & n & Hn & ->). rewrite E1 in Hn. eapply IH; [exact E1| |exact E]. intros z Ez.
  destruct (proj2 (cons_parent _ Hc q z)) as (w & Hw & _); [exists n; auto|]. exists w. assumption.
Qed.
Lemma rd_first_anc fuel i ds : old s i -> rd (first_ancestor_of_type fuel i ds).
Proof.
  intros H. unfold first_ancestor_of_type. apply rd_bind; [qs|apply rd_parent; assumption|]. intros p Hp. apply rd_anc. intros z ->. apply (old_parent i), parent_run, Hp.
Qed.
Lemma first_anc_old fuel i ds x s1 s2 : st_heap s1 = st_heap s -> first_ancestor_of_type fuel i ds s1 = (s2, Ok (Some x)) -> old s x.
Proof.
  intros E1 E. unfold first_ancestor_of_type in E. apply bind_ok in E as (s3 & p & E2 & E). apply parent_of_ok in E2 as (-> & n & Hn & ->). rewrite E1 in Hn. eapply anc_old; [exact E1| |exact E].
  intros z Ez. destruct (proj2 (cons_parent _ Hc i z)) as (w & Hw & _); [exists n; auto|]. exists w. assumption.
Qed.
Lemma rd_full fuel : forall i, old s i -> rd (full_number fuel i).
Proof.
  induction fuel as [|fuel IH]; intros i Hi; cbn [full_number]; [apply rd_raise|]. apply rd_bind; [apply q_cls_of|apply rd_cls; assumption|]. intros c _. destruct (subclass c CManuscript); [apply rd_ret|].
  apply rd_bind; [apply q_getattr|apply rd_getattr; [assumption|unfold tr_attrs; set_solver]|]. intros nn _. destruct (truthy nn); [apply rd_ret|].
  apply rd_bind; [qs|apply rd_first_anc; assumption|]. intros anc Hanc.
  assert (Ho : forall z, anc = Some z -> old s z). { intros z ->. destruct (first_ancestor_of_type _ _ _ s) as [s2 r] eqn:E. cbn in Hanc. subst r. eapply first_anc_old; [|exact E]. reflexivity. }
  apply rd_bind; [destruct anc; qs| |].
  { destruct anc; [apply rd_ret|]. apply rd_bind; [qs|intros s1 _; reflexivity|]. intros _ _. apply rd_first_anc. assumption. }
  intros anc2 H2. assert (Ho2 : forall z, anc2 = Some z -> old s z).
  { intros z ->. destruct anc as [y|]; [cbn in H2; injection H2 as <-; apply Ho; reflexivity|].
    unfold bind in H2. cbn in H2. match type of H2 with snd (?m ?s1) = _ => destruct (m s1) as [s2 r] eqn:E end. cbn in H2. subst r. eapply first_anc_old; [|exact E]. reflexivity. }
  apply rd_bind; [apply q_getattr|apply rd_getattr; [assumption|unfold tr_attrs; set_solver]|]. intros v _. destruct anc2 as [a|]; [|apply rd_ret].
  specialize (IH a (Ho2 a eq_refl)). apply rd_bind; [apply q_full_number|assumption|]. intros [[|x xs]|] _; try apply rd_ret. apply rd_bind; [apply q_full_number|assumption|]. intros f2 _. apply rd_ret.
Qed.
Lemma rd_reftext fuel i : old s i -> rd (reftext fuel i).
Proof.
  intros Hi. unfold reftext. apply rd_bind; [qs|apply rd_get_str; [assumption|unfold tr_attrs; set_solver]|]. intros t _. apply rd_bind; [apply q_cls_of|apply rd_cls; assumption|]. intros c _.
  apply rd_bind; [apply q_full_number|apply rd_full; assumption|]. intros r _. destruct (py_format _ _ _); first [apply rd_ret|apply rd_raise].
Qed.
End Rd.

(** ** What the commands write *)
Lemma bare_app a b : plain_page (a ++ b) = plain_page a ++ plain_page b.
Proof. apply flat_map_app. Qed.
Lemma bare_nl b : plain_page (nl_if b) = []. Proof. destruct b; reflexivity. Qed.
Definition ot (tag : str) : str := if is_p tag then [] else lit "<" ++ tag ++ lit ">".
Definition ct (tag : str) : str := if is_p tag then [] else lit "</" ++ tag ++ lit ">".
Lemma start_bare tag id_ cl a b c d : plain_tok (start_tag (MkTag tag id_ cl a b c d)) = ot tag.
Proof. unfold start_tag, make_tag, ot. cbn [plain_tok tg_tag tg_id tg_classes tg_inner tg_outer tg_sel tg_nodeid flat_map]. destruct (is_p tag); [reflexivity|]. destruct id_, cl, c, d; reflexivity. Qed.
Lemma bare_close g : plain_page (close_text g) = ct (tg_tag g).
Proof. unfold close_text. rewrite !bare_app, !bare_nl, app_nil_r. cbn [app plain_page flat_map plain_tok]. rewrite app_nil_r. reflexivity. Qed.
Definition cb1 (xt : id -> str) (c : cmd) : str :=
  match c with
  | KText t | KTextDefer t _ => plain_page t
  | KOpenClose g t => plain_tok (start_tag g) ++ plain_page t ++ ct (tg_tag g)
  | KOpenManual g t => plain_tok (start_tag g) ++ plain_page t
  | KOpen g => plain_tok (start_tag g)
  | KExternal j => xt j
  | _ => []
  end.
Definition cb (xt : id -> str) (c : cmd) : str := match c with KBatchDefer l => flat_map (cb1 xt) l | _ => cb1 xt c end.
Definition cc (c : cmd) : str := plain_page (closer_toks c).
Definition says (X : str -> str) (c : cmd) : Prop := forall xt inner, cb xt c ++ inner ++ cc c = X inner.
Lemma cb_open xt tag id_ cl a b c d : cb1 xt (KOpen (MkTag tag id_ cl a b c d)) = ot tag.
Proof. apply start_bare. Qed.
Lemma cb_open_tag xt tag cl a b : cb1 xt (open_tag tag cl a b) = ot (lit tag).
Proof. apply start_bare. Qed.
Lemma cb_manual xt tag cl a b : cb1 xt (open_manual tag cl a b) = ot (lit tag).
Proof. unfold open_manual. cbn [cb1]. rewrite start_bare. apply app_nil_r. Qed.
Lemma cb_oc xt tag cl a b t : cb1 xt (open_close tag cl a b t) = ot (lit tag) ++ plain_page t ++ ct (lit tag).
Proof. unfold open_close. cbn [cb1]. rewrite start_bare. reflexivity. Qed.
Lemma cb_par xt cl t : cb1 xt (par cl t) = plain_page t.
Proof. unfold par. rewrite cb_oc. change (ot (lit "p")) with (@nil N). change (ct (lit "p")) with (@nil N). apply app_nil_r. Qed.
Lemma cb_heading xt l t : cb1 xt (heading l t) = el (lit "h" ++ str_of_nat l) (plain_page t).
Proof. unfold heading. cbn [cb1]. rewrite start_bare. unfold ot, ct, el. cbn [tg_tag]. change (is_p (lit "h" ++ str_of_nat l)) with false. cbv iota. rewrite <- !app_assoc. reflexivity. Qed.
Lemma cc_open g : cc (KOpen g) = ct (tg_tag g).
Proof. apply bare_close. Qed.
Lemma cc_batch l : cc (KBatchDefer l) = concat (rev (map plain_page (closers l))).
Proof. unfold cc. rewrite closer_toks_batch. rewrite <- map_rev. induction (rev (closers l)) as [|x r IH]; [reflexivity|]. cbn [concat map]. rewrite bare_app, IH. reflexivity. Qed.

(** ** Reading the document of [s] *)
Section Gp.
Context (s : st) (Hc : consistent (st_heap s)).
Definition gp {X} (m : M X) (Q : X -> Prop) : Prop := forall s1 s2 a, like s s1 -> m s1 = (s2, Ok a) -> like s s2 /\ Q a.
Lemma gp_ret {X} (x : X) (Q : X -> Prop) : Q x -> gp (ret x) Q.
Proof. intros HQ s1 s2 a Hs H. apply ret_ok in H as [-> ->]. auto. Qed.
Lemma gp_raise {X} e (Q : X -> Prop) : gp (raise e) Q.
Proof. intros s1 s2 a _ H. discriminate H. Qed.
Lemma gp_bind {X Y} (m : M X) (k : X -> M Y) (P : X -> Prop) (Q : Y -> Prop) : gp m P -> (forall x, P x -> gp (k x) Q) -> gp (bind m k) Q.
Proof. intros Hm Hk s1 s2 a Hs H. apply bind_ok in H as (s3 & x & H1 & H). destruct (Hm _ _ _ Hs H1) as [Hs1 Hx]. exact (Hk x Hx _ _ _ Hs1 H). Qed.
Lemma gp_weaken {X} (m : M X) (P Q : X -> Prop) : gp m P -> (forall x, P x -> Q x) -> gp m Q.
Proof. intros Hm Hk s1 s2 a Hs H. destruct (Hm _ _ _ Hs H) as [Hs1 Hx]. auto. Qed.
Lemma gp_quiet {X} (m : M X) (Q : X -> Prop) : quiet m -> post m Q -> gp m Q.
Proof. intros Hq Hp s1 s2 a Hs H. split; [|exact (Hp _ _ _ H)]. apply (quiet_heap _ _ _ _ Hq) in H as [E _]. exact (like_heap s s1 s2 E Hs). Qed.
Lemma gp_skip {X Y} (m : M X) (k : X -> M Y) (Q : Y -> Prop) : quiet m -> (forall x, gp (k x) Q) -> gp (bind m k) Q.
Proof. intros Hq Hk. eapply gp_bind; [apply (gp_quiet _ (fun _ => True)); [assumption|apply post_true]|]. intros x _. apply Hk. Qed.
Lemma gp_rd {X} (m : M X) : quiet m -> rd s m -> gp m (fun x => snd (m s) = Ok x).
Proof. intros Hq Hr s1 s2 a Hs H. split; [apply (like_heap s s1); [apply (proj1 (quiet_heap _ _ _ _ Hq H))|assumption]|]. rewrite <- (Hr s1 Hs), H. reflexivity. Qed.
Lemma gp_getattr i a : old s i -> a ∉ tr_attrs -> gp (getattr i a) (fun v => v = aval (st_heap s) i a).
Proof.
  intros Hi Ha s1 s2 v Hs H. apply getattr_ok in H as (-> & n & Hn & Hv). split; [assumption|]. rewrite <- (like_aval s s1) by assumption. symmetry. eapply aval_eq; eassumption.
Qed.
Lemma gp_get_str i a : old s i -> a ∉ tr_attrs -> gp (get_str i a) (fun x => aval (st_heap s) i a = VStr x).
Proof.
  intros Hi Ha s1 s2 v Hs H. apply get_str_ok in H as (-> & n & Hn & Hv). split; [assumption|]. rewrite <- (like_aval s s1) by assumption. eapply aval_eq; eassumption.
Qed.
Lemma gp_get_strs i a : old s i -> a ∉ tr_attrs -> gp (get_strs i a) (fun x => aval (st_heap s) i a = VStrs x).
Proof.
  intros Hi Ha s1 s2 v Hs H. apply get_strs_ok in H as (-> & n & Hn & Hv). split; [assumption|]. rewrite <- (like_aval s s1) by assumption. eapply aval_eq; eassumption.
Qed.
Lemma gp_setattr i a v : a ∈ tr_attrs -> gp (setattr i a v) (fun _ => True).
Proof.
  intros Ha s1 s2 u Hs H. apply setattr_ok in H as (n & Hn & ->). split; [|exact I]. intros x m Hx. destruct (Hs x m Hx) as (n' & Hn' & E1 & E2 & E3 & E4).
  rewrite upd_lookup. destruct (decide (i = x)) as [<-|]; [|eauto 10]. assert (n' = n) as -> by congruence. eexists. split; [reflexivity|]. cbn. repeat (split; [assumption|]).
  intros b Hb. rewrite lookup_insert_ne by (intros ->; contradiction). auto.
Qed.
Lemma gp_cls i n : st_heap s !! i = Some n -> gp (cls_of i) (fun c => c = n_cls n).
Proof. intros Hi s1 s2 c Hs H. apply cls_of_ok in H as (-> & m & Hm & ->). split; [assumption|]. destruct (Hs _ _ Hi) as (n' & Hn' & E & _). congruence. Qed.
Lemma gp_parent i n : st_heap s !! i = Some n -> gp (parent_of i) (fun p => p = n_parent n).
Proof. intros Hi s1 s2 c Hs H. apply parent_of_ok in H as (-> & m & Hm & ->). split; [assumption|]. destruct (Hs _ _ Hi) as (n' & Hn' & _ & E & _). congruence. Qed.
Lemma gp_full f i : old s i -> gp (full_number f i) (fun r => fmt_opt r = num f s i).
Proof.
  intros Hi. eapply gp_weaken; [apply gp_rd; [apply q_full_number|apply rd_full; assumption]|]. cbv beta. intros r H. unfold num. rewrite H. destruct r; reflexivity.
Qed.
Lemma gp_reftext f i : old s i -> gp (reftext f i) (fun r => r = ref f s i).
Proof.
  intros Hi. eapply gp_weaken; [apply gp_rd; [apply q_reftext|apply rd_reftext; assumption]|]. cbv beta. intros r H. unfold ref. rewrite H. reflexivity.
Qed.
Lemma gp_node_tag_full i t add b1 b2 b3 : gp (node_tag_full i t add b1 b2 b3) (fun k => exists id_ cl d, k = KOpen (MkTag (lit t) id_ cl b1 b2 b3 d)).
Proof.
  unfold node_tag_full. repeat (apply gp_skip; [qs|intros ?]). apply gp_ret. eauto.
Qed.
End Gp.
Lemma not_tr a : a <> a_types -> a <> a_must_close_p_tag -> a ∉ tr_attrs.
Proof. unfold tr_attrs. set_solver. Qed.
Ltac nta := apply not_tr; discriminate.
Ltac gpnt := eapply gp_bind; [apply gp_node_tag_full|intros ? (? & ? & ? & ->)].
Ltac gpnt0 := eapply gp_weaken; [apply gp_node_tag_full|intros ? (? & ? & ? & ->)].
Ltac gps :=
  lazymatch goal with
  | |- gp _ (ret _) _ => apply gp_ret
  | |- gp _ (raise _) _ => apply gp_raise
  | |- gp _ (bind (getattr _ a_types) _) _ => apply gp_skip; [apply q_getattr|intros ?]
  | |- gp _ (bind (getattr _ _) _) _ => eapply gp_bind; [apply gp_getattr; [assumption|nta]|intros ? ->]
  | |- gp _ (bind (get_str _ _) _) _ => eapply gp_bind; [apply gp_get_str; [assumption|nta]|intros ? ?]
  | |- gp _ (bind (get_strs _ a_types) _) _ => apply gp_skip; [apply q_get_strs|intros ?]
  | |- gp _ (bind (get_strs _ _) _) _ => eapply gp_bind; [apply gp_get_strs; [assumption|nta]|intros ? ?]
  | |- gp _ (bind (setattr _ a_types _) _) _ => eapply gp_bind; [apply gp_setattr; constructor|intros ? _]
  | |- gp _ (bind (cls_of _) _) _ => eapply gp_bind; [apply gp_cls; eassumption|intros ? ->]
  | |- gp _ (bind (full_number _ _) _) _ => eapply gp_bind; [apply gp_full; assumption|intros ? ?]
  | |- gp _ (bind (node_tag_full _ _ _ _ _ _) _) _ => gpnt
  | |- gp _ (bind (node_tag _ _) _) _ => gpnt
  | |- gp _ (bind (node_tag_inline _ _) _) _ => gpnt
  | |- gp _ (node_tag_full _ _ _ _ _ _) _ => gpnt0
  | |- gp _ (node_tag _ _) _ => gpnt0
  | |- gp _ (node_tag_inline _ _) _ => gpnt0
  | |- gp _ (bind _ _) _ => apply gp_skip; [qs|intros ?]
  | |- gp _ (match ?x with _ => _ end) _ => destruct x
  | |- gp _ (if ?x then _ else _) _ => destruct x
  end.

(** ** Visit methods *)
Ltac isp := repeat match goal with
  | |- context [is_p (lit "h" ++ ?x)] => change (is_p (lit "h" ++ x)) with false
  | |- context [is_p (lit ?t)] => let b := eval vm_compute in (is_p (lit t)) in change (is_p (lit t)) with b
  end; cbv iota.
Lemma atag_bare id_ cl hr : plain_tok (make_tag (lit "a") id_ cl false None [(lit "href", hr)]) = lit "<" ++ lit "a" ++ lit ">".
Proof. destruct id_, cl, hr; reflexivity. Qed.
Ltac tidy :=
  unfold par, heading, open_tag, open_manual, open_close;
  rewrite ?cc_batch, ?cc_open; cbn [cb cb1 flat_map app closers omap list_omap deferred_text map rev concat tg_tag];
  rewrite ?start_bare, ?bare_close; cbn [tg_tag]; unfold ot, ct; isp;
  unfold raw, nl, otag, ctag; cbn [plain_page flat_map app]; rewrite ?atag_bare; cbn [plain_tok app]; isp.
Ltac fin := unfold when, val_text, el; rewrite ?app_nil_r, <- ?app_assoc; cbn [app]; rewrite ?app_nil_r; reflexivity.
Ltac py := intros xt inner; tidy; fin.

Section Visits.
Context (f : nat) (hl : str -> str -> str) (s : st) (Hc : consistent (st_heap s)) (i : id) (n : node) (Hi : st_heap s !! i = Some n).
Let Ho : old s i. Proof. exists n. exact Hi. Qed.
Notation av := (aval (st_heap s) i).
Lemma p_tag t b1 b2 : is_p (lit t) = false -> gp s (node_tag_full i t [] b1 b2 false) (says (el (lit t))).
Proof. intros Hp. gps. intros xt inner. rewrite cc_open. cbn [cb cb1]. rewrite start_bare. cbn [tg_tag]. unfold ot, ct. rewrite Hp. fin. Qed.
Lemma p_manuscript : gp s (visit_manuscript i) (says (fun inner => el (lit "body") (el (lit "div") (el (lit "div") (el (lit "section") (when (av a_title) (el (lit "h1") (val_text (av a_title))) ++ inner)))))).
Proof. unfold visit_manuscript. repeat gps. intros xt inner. unfold when. destruct (truthy _); tidy; fin. Qed.
Lemma p_author : gp s (visit_author i) (says (author_page s i)).
Proof.
  unfold visit_author, author_page, when, val_text. cbv zeta. do 4 gps. destruct (truthy (av a_name)), (truthy (av a_affiliation)), (truthy (av a_email)); cbn [orb]; gps; py.
Qed.
Lemma p_abstract : gp s (visit_abstract i) (says (fun inner => el (lit "div") (el (lit "h3") (lit "Abstract") ++ inner))).
Proof. unfold visit_abstract. repeat gps. py. Qed.
Lemma p_paragraph : gp s (visit_paragraph i) (says (fun inner => el (lit "div") (when (av a_title) (el (lit "span") (no_breaks (fmt_val (av a_title) ++ lit "."))) ++ inner))).
Proof. unfold visit_paragraph. do 4 gps. unfold when. match goal with x : option (_ * _) |- _ => destruct x end; destruct (truthy _); py. Qed.
Lemma p_section lv : level (n_cls n) = Some lv -> gp s (visit_section f i) (says (fun inner => el (lit "section") (el (lit "h" ++ str_of_nat lv) (no_breaks (heading_text f s i)) ++ inner))).
Proof.
  intros Hl. unfold visit_section. gps. rewrite Hl. do 4 gps. unfold heading_text.
  apply (gp_bind s _ _ (fun h => h = (if truthy (av a_nonum) then fmt_val (av a_title) else num f s i ++ lit ". " ++ fmt_val (av a_title)))).
  - destruct (truthy (av a_nonum)); [gps; reflexivity|]. gps. gps. rewrite H. reflexivity.
  - intros h ->. gps. gps. py.
Qed.
Lemma p_contents : gp s (visit_contents i) (says (fun inner => el (lit "div") (el (lit "h3") (lit "Table of Contents") ++ el (lit "div") (el (lit "ul") inner)))).
Proof. unfold visit_contents. repeat gps. py. Qed.
Lemma p_note : gp s (visit_note f i) (says (fun inner => el (lit "span") (el (lit "sup") (el (lit "a") (no_breaks (num f s i))) ++ el (lit "span") inner))).
Proof. unfold visit_note. repeat gps. rewrite H. py. Qed.
Lemma p_math : gp s (visit_math i) (says (fun inner => el (lit "span") (lit "\(" ++ inner ++ lit "\)"))).
Proof. unfold visit_math. repeat gps. py. Qed.
Lemma p_mathblock : gp s (visit_mathblock i) (says (fun inner => el (lit "div") (lit "$$" ++ inner ++ lit "$$"))).
Proof. unfold visit_mathblock. do 2 gps. destruct (negb _); [apply gp_raise|]. repeat gps. py. Qed.
Lemma p_sourcecode : gp s (visit_sourcecode hl i) (says (fun inner => el (lit "code") (no_breaks (if truthy (av a_lang) then hl (text_of (st_heap s) i) (fmt_val (av a_lang)) else text_of (st_heap s) i) ++ inner))).
Proof. unfold visit_sourcecode. repeat gps. unfold text_of. rewrite H. py. Qed.
Lemma p_code : gp s (visit_code i) (says (el (lit "span"))).
Proof. apply p_tag. reflexivity. Qed.
Lemma p_codeblock : gp s (visit_codeblock i) (says (fun inner => el (lit "div") (el (lit "pre") inner))).
Proof. unfold visit_codeblock. repeat gps. py. Qed.
Lemma p_algorithm : gp s (visit_algorithm i) (says (fun inner => el (lit "div") (el (lit "pre") inner))).
Proof. unfold visit_algorithm. repeat gps. py. Qed.
Lemma p_text : gp s (visit_text i) (says (fun inner => no_breaks (text_of (st_heap s) i) ++ inner)).
Proof. unfold visit_text. repeat gps. unfold text_of. rewrite H. py. Qed.
Lemma p_error : gp s (visit_error i) (says (fun inner => el (lit "span") (no_breaks (text_of (st_heap s) i) ++ inner))).
Proof. unfold visit_error. repeat gps. unfold text_of. rewrite H. py. Qed.
Lemma p_span_cmds l : Forall (fun p => p.1 ∉ tr_attrs) l ->
  gp s (mapM (fun p : attr * string => let! v := getattr i p.1 in ret (if truthy v then [open_tag p.2 [] false false] else [])) l)
    (fun xs => xs = map (fun p : attr * string => if truthy (av p.1) then [open_tag p.2 [] false false] else []) l).
Proof.
  induction 1 as [|p l Hp Hl IH]; cbn [mapM map]; [apply gp_ret; reflexivity|]. apply (gp_bind s _ _ (fun x => x = if truthy (av p.1) then [open_tag p.2 [] false false] else [])).
  { eapply gp_bind; [apply gp_getattr; assumption|intros ? ->; apply gp_ret; reflexivity]. }
  intros ? ->. eapply gp_bind; [exact IH|intros ? ->]. apply gp_ret. reflexivity.
Qed.
Lemma p_span : gp s (visit_span i) (says (span_page s i)).
Proof.
  unfold visit_span. gps. eapply gp_bind; [apply p_span_cmds|].
  { unfold span_tags. repeat (first [apply list.Forall_nil_2|apply list.Forall_cons_2]); cbn [fst]; nta. }
  intros ? ->. apply gp_ret. unfold span_page. cbn [map span_tags fst snd concat]. cbv zeta.
  destruct (truthy (av a_strong)), (truthy (av a_emphas)), (truthy (av a_little)), (truthy (av a_insert)), (truthy (av a_delete)); py.
Qed.
Lemma bare_ahref id_ cl hr t : plain_page [make_tag (lit "a") id_ cl false None [(lit "href", hr)]; TRaw t; ctag "a"] = anchor_el t.
Proof. destruct id_, cl, hr; cbn -[lit]; unfold anchor_el, el; isp; reflexivity. Qed.
Lemma p_ahref tg hr id_ cl d : (match tg with HNode t => old s t /\ d = ref f s t | HStr x => d = x end) -> gp s (make_ahref f i tg hr id_ cl) (fun ts => plain_page ts = anchor_el (link_text s i d)).
Proof.
  intros Hd. unfold make_ahref. cbv zeta. gps. gps.
  apply (gp_bind s _ _ (fun m => exists v, v = n_attrs m !! a_overwrite_reftext /\ av a_overwrite_reftext = match v with Some v => v | None => VNone end)).
  { intros s1 s2 m Hs H. unfold get_node in H. destruct (st_heap s1 !! i) as [m'|] eqn:E; [|discriminate H]. injection H as <- <-. split; [assumption|]. eexists. split; [reflexivity|].
    rewrite <- (like_aval s s1) by (assumption || nta). unfold aval. rewrite E. reflexivity. }
  intros m (v & Hv & Ev). rewrite <- Hv.
  apply (gp_bind s _ _ (fun x => x = link_text s i d)).
  - unfold link_text. rewrite Ev. assert (G : gp s (match tg with HNode t => reftext f t | HStr x => ret x end) (fun x => x = d)).
    { destruct tg as [t|y]; [|apply gp_ret; congruence]. destruct Hd as [Ht ->]. apply gp_reftext; assumption. }
    destruct v as [v|]; [|cbn [truthy]; exact G]. destruct (truthy v); [apply gp_ret; reflexivity|exact G].
  - intros x0 ->. do 2 gps. apply gp_ret. apply bare_ahref.
Qed.
Lemma p_label t : gp s (label_text t) (fun _ => True).
Proof. intros s1 s2 a Hs H. split; [|exact I]. apply (like_heap s s1); [|assumption]. assert (Q : quiet (label_text t)) by qs. exact (proj1 (quiet_heap _ _ _ _ Q H)). Qed.
Lemma p_reference : (forall t, av a_target = VNode t -> old s t) ->
  gp s (visit_reference f i) (says (fun inner => match av a_target with VNode t => anchor_el (link_text s i (ref f s t)) | _ => [] end ++ inner)).
Proof.
  intros Ht. unfold visit_reference. gps. destruct (av a_target) as [| | | | | |t| |]; try apply gp_raise. eapply gp_bind; [apply p_label|intros l _].
  eapply gp_bind; [apply (p_ahref _ _ _ _ (ref f s t)); split; [apply Ht|]; reflexivity|]. intros y Hy. apply gp_ret. intros xt inner. cbn [cb cb1]. rewrite Hy.
  change (cc (KText y)) with (@nil N). rewrite app_nil_r. reflexivity.
Qed.
Lemma p_url : gp s (visit_url f i) (says (fun inner => match av a_target with VStr t => anchor_el (link_text s i t) | _ => [] end ++ inner)).
Proof.
  unfold visit_url. gps. destruct (av a_target) as [| | | |t| | | |]; try apply gp_raise.
  eapply gp_bind; [apply (p_ahref _ _ _ _ t); reflexivity|]. intros y Hy. apply gp_ret. intros xt inner. cbn [cb cb1]. rewrite Hy.
  change (cc (KText y)) with (@nil N). rewrite app_nil_r. reflexivity.
Qed.
Lemma p_cite_tags l ts : (forall t, t ∈ ts -> old s t) -> forall k, gp s (cite_tags f i l ts k) (fun xs => map plain_page xs = map (fun t => anchor_el (link_text s i (ref f s t))) ts).
Proof.
  induction ts as [|t ts IH]; intros Ht k; cbn [cite_tags]; [apply gp_ret; reflexivity|]. eapply gp_bind; [apply p_label|intros l0 _].
  eapply gp_bind; [apply (p_ahref _ _ _ _ (ref f s t)); split; [apply Ht; constructor|reflexivity]|]. intros y Hy.
  eapply gp_bind; [apply IH; intros; apply Ht; constructor 2; assumption|]. intros ys Hys. apply gp_ret. cbn [map]. rewrite Hy, Hys. reflexivity.
Qed.
Lemma bare_join sep xs : plain_page (tok_join sep xs) = join (plain_page sep) (map plain_page xs).
Proof.
  induction xs as [|x xs IH]; [reflexivity|]. destruct xs as [|y ys]; [reflexivity|]. change (tok_join sep (x :: y :: ys)) with (x ++ sep ++ tok_join sep (y :: ys)).
  rewrite !bare_app, IH. reflexivity.
Qed.
Lemma p_cite : (forall ts t, av a_targets = VNodes ts -> t ∈ ts -> old s t) -> gp s (visit_cite f i) (says (fun inner => cite_page f s i ++ inner)).
Proof.
  intros Hts. assert (G : forall ts, (forall t, t ∈ ts -> old s t) -> gp s (let! label := label_text i in let! xs := cite_tags f i label ts 0 in
    ret (KText ([raw "["; TOpen (lit "span") [AQ (lit "id") label]] ++ tok_join [raw ", "] xs ++ [ctag "span"; raw "]"])))
    (says (fun inner => (lit "[" ++ el (lit "span") (join (lit ", ") (map (fun t => anchor_el (link_text s i (ref f s t))) ts)) ++ lit "]") ++ inner))).
  { intros ts Ht. eapply gp_bind; [apply p_label|intros l _]. eapply gp_bind; [apply p_cite_tags; assumption|]. intros xs Hxs. apply gp_ret. intros xt inner.
    cbn [cb cb1]. rewrite !bare_app, bare_join, Hxs. match goal with |- context [cc ?k] => change (cc k) with (@nil N) end.
    unfold raw, ctag. cbn [plain_page flat_map plain_tok app]. isp. unfold el. rewrite ?app_nil_r, <- ?app_assoc. reflexivity. }
  unfold visit_cite, cite_page. gps. destruct (av a_targets) as [| | | | | | |ts|]; try apply gp_raise. assert (Ht : forall t, t ∈ ts -> old s t) by (intros t; apply (Hts ts t eq_refl)).
  destruct ts as [|t [|t2 ts]]; [apply (G []); assumption| |apply G; assumption].
  apply gp_skip; [qs|intros tc]. eapply gp_bind; [apply p_label|intros l _]. gps.
  eapply gp_bind; [apply (p_ahref _ _ _ _ (ref f s t)); split; [apply Ht; constructor|reflexivity]|]. intros y Hy. apply gp_ret. intros xt inner.
  cbn [cb cb1]. rewrite !bare_app, Hy. match goal with |- context [cc ?k] => change (cc k) with (@nil N) end.
  unfold raw. cbn [plain_page flat_map plain_tok app]. rewrite ?app_nil_r, <- ?app_assoc. reflexivity.
Qed.
Lemma p_bibliography : gp s (visit_bibliography i) (says (fun inner => el (lit "section") (el (lit "h2") (lit "References") ++ el (lit "ol") inner))).
Proof. unfold visit_bibliography. repeat gps. py. Qed.
Lemma p_backlinks ls : forall k, map plain_page (backlink_tags ls k) = backlinks_page (length ls) k.
Proof.
  induction ls as [|l ls IH]; intros k; [reflexivity|]. cbn [backlink_tags map length backlinks_page]. rewrite IH. reflexivity.
Qed.
Lemma p_strip l : gp s (mapM strip_dots l) (fun xs => xs = map (fun v => strip_char 46%N (fmt_val v)) l).
Proof.
  induction l as [|v l IH]; cbn [mapM map]; [apply gp_ret; reflexivity|]. destruct v as [| | | |x| | | |]; try (intros s1 s2 a _ H; discriminate H).
  eapply gp_bind; [apply (gp_ret s (strip_char 46%N x) (fun y => y = strip_char 46%N x)); reflexivity|intros ? ->]. eapply gp_bind; [exact IH|intros ? ->]. apply gp_ret. reflexivity.
Qed.
Lemma q_warn l t : quiet (warn l t). Proof. qs. Qed.
Lemma gp_maybe (v : val) w : gp s (if truthy v then ret [v] else do! warn logger_tlate w in ret []) (fun y => y = if truthy v then [v] else []).
Proof. destruct (truthy v); [apply gp_ret; reflexivity|]. apply gp_skip; [qs|intros _]. apply gp_ret. reflexivity. Qed.
Lemma p_bibitem : gp s (visit_bibitem i) (says (fun inner => el (lit "li") (entry_page s i ++ inner))).
Proof.
  unfold visit_bibitem. apply (gp_bind s _ _ (fun p => plain_page (bibitem_text p) = entry_page s i)).
  2:{ intros p Hp. gps. gps. intros xt inner. tidy. fold plain_page. change (flat_map plain_tok (bibitem_text p)) with (plain_page (bibitem_text p)). rewrite Hp. fin. }
  unfold bibitem_parts. cbv zeta. do 4 gps. eapply gp_bind; [apply p_label|intros l _].
  set (E := if val_eqb (av a_kind) (VStr (lit "article")) then (if truthy (av a_journal) then [av a_journal] else [])
     else if val_eqb (av a_kind) (VStr (lit "book")) then (if truthy (av a_publisher) then [av a_publisher] else []) else []).
  apply (gp_bind s _ _ (fun x => x = E)).
  { subst E. destruct (val_eqb _ _); [gps; apply gp_maybe|]. destruct (val_eqb _ _); [gps; apply gp_maybe|]. apply gp_ret. reflexivity. }
  intros ? ->. gps. eapply gp_bind; [apply gp_maybe|intros ? ->]. eapply gp_bind; [apply p_strip|intros ? ->]. gps.
  apply (gp_bind s _ _ (fun dt => plain_page (match dt with [] => [] | _ => [raw " "] ++ dt end) = when (av a_doi) (lit " " ++ el (lit "a") (lit "[link]")))).
  { unfold when. destruct (truthy (av a_doi)); [|apply gp_skip; [qs|intros _]; apply gp_ret; reflexivity]. apply gp_ret. destruct (l ++ lit "-doi"); reflexivity. }
  intros dt Hdt. gps. apply gp_ret. unfold bibitem_text, entry_page. rewrite !bare_app, Hdt. f_equal.
  - cbn [plain_page flat_map plain_tok]. rewrite app_nil_r. do 3 f_equal. unfold entry_parts. fold E. destruct (truthy (av a_number)); reflexivity.
  - f_equal. cbv beta in *. match goal with H : av a_backlinks = VStrs ?l |- _ => rewrite H; destruct l as [|b bs]; [reflexivity|] end.
    rewrite !bare_app, bare_join, p_backlinks. unfold raw. cbn [plain_page flat_map plain_tok]. rewrite ?app_nil_r, <- ?app_assoc. reflexivity.
Qed.
Lemma p_draft : gp s (visit_draft i) (says (fun inner => el (lit "span") (lit "[ " ++ inner ++ lit " ]"))).
Proof. unfold visit_draft. repeat gps. py. Qed.
Lemma K1 v : left_out (AQ (lit "id") v) = true. Proof. reflexivity. Qed.
Lemma K2 v : left_out (AQ (lit "src") v) = false. Proof. reflexivity. Qed.
Lemma K3 v : left_out (AQ (lit "alt") v) = false. Proof. reflexivity. Qed.
Lemma K4 v : left_out (AQ (lit "onload") v) = false. Proof. reflexivity. Qed.
Lemma p_figure : gp s (visit_figure f i) (says (fun inner => el (lit "figure") (image_page f s (n_cls n) i ++ inner))).
Proof.
  unfold visit_figure. repeat gps. rewrite H. intros xt inner. tidy.
  match goal with |- context [plain_tok (make_tag ?a ?b ?c ?d ?e ?k)] => replace (plain_tok (make_tag a b c d e k)) with (image_page f s (n_cls n) i) end.
  - fin.
  - unfold image_page. cbv zeta. unfold str_or_empty.
    destruct (if truthy (av a_label) then _ else _), (if truthy (av a_path) then _ else _), (cls_name (n_cls n) ++ _), (if is_one _ then _ else _); unfold make_tag; cbn [plain_tok flat_map app fst snd]; isp; unfold written; cbn [List.filter];
    rewrite ?K1, ?K2, ?K3, ?K4; cbn [negb map concat render_attrib app]; rewrite ?app_nil_r, <- ?app_assoc; reflexivity.
Qed.
Lemma p_caption : gp s (visit_caption f i) (says (caption_page f s n)).
Proof.
  unfold visit_caption. eapply gp_bind; [apply gp_parent; exact Hi|intros ? ->]. unfold caption_page. destruct (n_parent n) as [p|] eqn:Ep; [|apply gp_raise].
  destruct (proj2 (cons_parent _ Hc i p)) as (q & Hq & _); [exists n; auto|]. assert (Hp : old s p) by (exists q; assumption). rewrite Hq.
  gps. gps. gps. rewrite H. destruct (subclass (n_cls q) CFigure); py.
Qed.
End Visits.

(** ** Titles *)
Definition title_of (s : st) (j : id) (l d : str) : Prop := exists t, root t = j /\ built_as (st_heap s) None (title_bt l d) t.
Lemma title_made s l d s' j : good s -> make_title_node l d s = (s', Ok j) -> title_of s' j l d.
Proof. intros Hg H. rewrite make_title_build in H. destruct (build_tree _ _ _ _ Hg H) as (t & Hr & Hb & _). exists t. auto. Qed.
Lemma title_heap s s' j l d : st_heap s' = st_heap s -> title_of s j l d -> title_of s' j l d.
Proof. intros E (t & H). exists t. rewrite E. exact H. Qed.
Lemma built_page f hl s cl x p t : x <> [] -> built_as (st_heap s) p (BT CSpan [(a_types, VStrs [cl])] [BT CText [(a_text, VStr x)] []]) t ->
  tree_at (st_heap s) p t /\ tree_page f hl s t = title_piece x.
Proof.
  intros Hx H. destruct t as [i ts]. apply built_eq in H as [Hi H]. destruct ts as [|[k ks] [|t2 ts]]; cbn [built_all] in H; try (destruct H; contradiction); try contradiction. destruct H as [H _].
  apply built_eq in H as [Hk H]. destruct ks; [|contradiction]. split.
  - econstructor; [exact Hi|reflexivity|reflexivity|]. constructor; [|constructor]. econstructor; [exact Hk|reflexivity|reflexivity|constructor].
  - cbn [tree_page map concat]. unfold node_page. rewrite Hi, Hk. cbn [n_cls]. change (dispatch visit_defined CSpan) with (Some CSpan). change (dispatch visit_defined CText) with (Some CText). cbv iota.
    unfold span_page, text_of, aval. rewrite Hi, Hk. cbn [n_attrs].
    change (mk_attrs CSpan [(a_types, VStrs [cl])] !! a_strong) with (Some (VBool false)).
    change (mk_attrs CSpan [(a_types, VStrs [cl])] !! a_emphas) with (Some (VBool false)).
    change (mk_attrs CSpan [(a_types, VStrs [cl])] !! a_little) with (Some (VBool false)).
    change (mk_attrs CSpan [(a_types, VStrs [cl])] !! a_insert) with (Some (VBool false)).
    change (mk_attrs CSpan [(a_types, VStrs [cl])] !! a_delete) with (Some (VBool false)).
    change (mk_attrs CText [(a_text, VStr x)] !! a_text) with (Some (VStr x)). cbn [truthy]. cbv zeta. rewrite !app_nil_r. unfold title_piece. destruct x; [congruence|reflexivity].
Qed.
Lemma title_page f hl s j l d : title_of s j l d -> exists t, root t = j /\ built_as (st_heap s) None (title_bt l d) t /\ tree_at (st_heap s) None t /\ tree_page f hl s t = block_title l d.
Proof.
  intros ([i ts] & Hr & H). exists (T i ts). split; [assumption|]. split; [assumption|]. unfold title_bt in H. apply built_eq in H as [Hi H].
  assert (G : Forall (tree_at (st_heap s) (Some i)) ts /\ concat (map (tree_page f hl s) ts) = title_piece l ++ title_piece d).
  { destruct l as [|x l], d as [|y d]; cbn [app built_all] in H; repeat match goal with H : match ?t with _ => _ end |- _ => destruct t; try contradiction; cbn [built_all] in H | H : built_as _ _ _ _ /\ _ |- _ => destruct H end; try contradiction.
    - split; [constructor|reflexivity].
    - apply (built_page f hl) in H as [H1 H2]; [|discriminate]. split; [repeat constructor; assumption|]. cbn [map concat]. rewrite H2, app_nil_r. reflexivity.
    - apply (built_page f hl) in H as [H1 H2]; [|discriminate]. split; [repeat constructor; assumption|]. cbn [map concat]. rewrite H2. reflexivity.
    - match goal with H : built_as _ _ _ _, H' : built_as _ _ _ _ |- _ => apply (built_page f hl) in H as [? ?]; [|discriminate]; apply (built_page f hl) in H' as [? ?]; [|discriminate] end.
      split; [repeat constructor; assumption|]. cbn [map concat]. rewrite app_nil_r. congruence. }
  destruct G as [G1 G2]. split.
  - econstructor; [exact Hi|reflexivity|reflexivity|exact G1].
  - cbn [tree_page]. fold (tree_page f hl s). unfold node_page. rewrite Hi. cbn [n_cls]. change (dispatch visit_defined CParagraph) with (Some CParagraph). cbv iota.
    unfold aval at 1. rewrite Hi. cbn [n_attrs].
    change (mk_attrs CParagraph [(a_types, VStrs [lit "hr-label"])] !! a_title) with (Some (VStr [])). cbn [truthy when app]. unfold block_title. f_equal. exact G2.
Qed.

(** ** All visit methods *)
Definition extra (m : cls) (s : st) (i : id) : str := match m with CAbstract => abstract_lists s i | CProof => el (lit "div") [] | _ => [] end.
Definition aims (s : st) (i : id) : Prop :=
  (forall t, aval (st_heap s) i a_target = VNode t -> old s t) /\ (forall ts t, aval (st_heap s) i a_targets = VNodes ts -> t ∈ ts -> old s t).
Definition fits (s : st) (i : id) (m : cls) (sv : st) (c : cmd) (X : str -> str) : Prop :=
  (forall xt, (forall j l d, exts c = [j] -> title_of sv j l d -> xt j = block_title l d) -> forall inner, cb xt c ++ (inner ++ extra m s i) ++ cc c = X inner) /\
  (m = CAbstract -> is_Some (closer c)) /\ (m = CProof -> exists y, closer c = Some (KBatch [y])).
Lemma gp_run s {X} (m : M X) (Q : X -> Prop) s' a : gp s m Q -> m s = (s', Ok a) -> Q a.
Proof. intros H R. exact (proj2 (H _ _ _ (like_refl s) R)). Qed.
Lemma fits_says s i m sv c X : extra m s i = [] -> m <> CAbstract -> m <> CProof -> says X c -> fits s i m sv c X.
Proof. intros E H1 H2 H. split; [|split; intros; contradiction]. intros xt _ inner. rewrite E, app_nil_r. apply H. Qed.
Lemma fits_title s i m sv g t l d : tg_tag g = lit "div" -> plain_tok (start_tag g) = ot (lit "div") -> title_of sv t l d -> m <> CAbstract ->
  fits s i m sv (KBatchDefer [KOpen g; KExternal t]) (fun inner => el (lit "div") (block_title l d ++ inner ++ extra m s i)).
Proof.
  intros Eg Es Ht H1. split; [|split; [intros; contradiction|intros _; eexists; reflexivity]]. intros xt Hx inner.
  cbn [cb flat_map cb1]. rewrite (Hx t l d eq_refl Ht), Es, cc_batch. cbn [closers omap list_omap deferred_text map rev concat app]. rewrite bare_close, Eg. unfold ot, ct. isp.
  unfold el. rewrite ?app_nil_r, <- ?app_assoc. reflexivity.
Qed.
Lemma title_cmd_page s i m sv s6 g0 t l d X tag add b1 b2 : title_of s6 t l d -> node_tag_full i tag add b1 b2 false s6 = (sv, Ok g0) -> lit tag = lit "div" -> m <> CAbstract ->
  (forall inner, el (lit "div") (block_title l d ++ inner ++ extra m s i) = X inner) -> fits s i m sv (KBatchDefer [g0; KExternal t]) X.
Proof.
  intros Ht H Et Hm HX. pose proof (quiet_heap _ _ _ _ (q_node_tag_full _ _ _ _ _ _) H) as [E _].
  destruct (gp_run s6 _ _ _ _ (gp_node_tag_full s6 i tag add b1 b2 false) H) as (id_ & cl & nd & ->). rewrite Et.
  destruct (fits_title s i m sv (MkTag (lit "div") id_ cl b1 b2 false nd) t l d eq_refl (start_bare _ _ _ _ _ _ _) (title_heap _ _ _ _ _ E Ht) Hm) as (F1 & F2 & F3).
  split; [|split; assumption]. intros xt Hx inner. rewrite F1 by assumption. apply HX.
Qed.
Lemma fits_theorem f i s sv c n : good s -> st_heap s !! i = Some n -> visit_theorem f i s = (sv, Ok c) ->
  fits s i CTheorem sv c (fun inner => el (lit "div") (theorem_title f s (n_cls n) i ++ inner)).
Proof.
  unfold visit_theorem. intros Hg Hi H. assert (Ho : old s i) by (exists n; assumption).
  apply bind_ok in H as (s1 & cc & H1 & H). pose proof (gp_run _ _ _ _ _ (gp_cls s i n Hi) H1) as ->. qinv H1.
  assert (L1 : like s s1) by (apply (like_heap s s); [assumption|apply like_refl]).
  apply bind_ok in H as (s2 & x2 & H2 & H). destruct (gp_getattr s i a_nonum Ho ltac:(nta) _ _ _ L1 H2) as [L2 ->]. qinv H2.
  apply bind_ok in H as (s3 & x3 & H3 & H). destruct (gp_getattr s i a_number Ho ltac:(nta) _ _ _ L2 H3) as [L3 ->]. qinv H3.
  apply bind_ok in H as (s4 & x4 & H4 & H).
  assert (E4 : st_heap s4 = st_heap s3 /\ st_next s4 = st_next s3). { eapply quiet_heap; [|exact H4]. qs. } destruct E4 as [E4 N4].
  assert (V4 : like s s4 /\ x4 = if negb (truthy (aval (st_heap s) i a_nonum)) && truthy (aval (st_heap s) i a_number) then lit " " ++ num f s i else []).
  { revert H4. match goal with |- ?m s3 = _ -> like s s4 /\ x4 = ?v => assert (G : gp s m (fun x => x = v)); [|intros H4; exact (G _ _ _ L3 H4)] end.
    destruct (negb _ && _); [|apply gp_ret; reflexivity]. eapply gp_bind; [apply gp_full; [apply Hg|assumption]|intros r Hr]. apply gp_ret. rewrite Hr. reflexivity. }
  destruct V4 as [L4 ->].
  apply bind_ok in H as (s5 & x5 & H5 & H). destruct (gp_getattr s i a_title Ho ltac:(nta) _ _ _ L4 H5) as [L5 ->]. qinv H5. apply bind_ok in H as (s6 & t & Ht & H).
  apply bind_ok in H as (s7 & nt & Hn & H). apply ret_ok in H as [-> ->]. apply title_made in Ht; [|eapply (good_heap s); [congruence|congruence|assumption]].
  eapply title_cmd_page; [exact Ht|exact Hn|reflexivity|discriminate|]. intros inner. unfold theorem_title, str_or_empty, name_lower. cbn [extra]. rewrite app_nil_r. reflexivity.
Qed.
Lemma fits_sketch i s sv c : good s -> visit_sketch i s = (sv, Ok c) -> fits s i CSketch sv c (fun inner => el (lit "div") (block_title (lit "Proof sketch.") [] ++ inner)).
Proof.
  unfold visit_sketch. intros Hg H. apply bind_ok in H as (s6 & t & Ht & H). apply bind_ok in H as (s7 & nt & Hn & H). apply ret_ok in H as [-> ->]. apply title_made in Ht; [|assumption].
  eapply title_cmd_page; [exact Ht|exact Hn|reflexivity|discriminate|]. intros inner. cbn [extra]. rewrite app_nil_r. reflexivity.
Qed.
Lemma fits_proof i s sv c n : good s -> st_heap s !! i = Some n -> visit_proof i s = (sv, Ok c) ->
  fits s i CProof sv c (fun inner => el (lit "div") (block_title (capitalize (lower (cls_name (n_cls n))) ++ lit ".") [] ++ inner ++ el (lit "div") [])).
Proof.
  unfold visit_proof. intros Hg Hi H. apply bind_ok in H as (s1 & l & H1 & H). qinv H1. apply bind_ok in H as (s2 & x2 & H2 & H).
  assert (F : tfr [a_types] s1 s2). { revert H2. match goal with |- ?m s1 = _ -> _ => assert (G : tpres [a_types] m) end; [tps|intros H2; exact (G _ _ _ H2)]. }
  assert (Hg1 : good s1) by (eapply (good_heap s); eassumption). destruct (F Hg1) as (Hg2 & _ & _ & FF).
  rewrite <- E in Hi. destruct (FF _ _ Hi) as (n2 & Hn2 & C2 & _).
  apply bind_ok in H as (s5 & x5 & H5 & H). pose proof (gp_run _ _ _ _ _ (gp_cls s2 i n2 Hn2) H5) as ->. qinv H5. rewrite C2 in H. apply bind_ok in H as (s6 & t & Ht & H).
  apply bind_ok in H as (s7 & nt & Hn & H). apply ret_ok in H as [-> ->]. apply title_made in Ht; [|eapply (good_heap s2); eassumption].
  eapply title_cmd_page; [exact Ht|exact Hn|reflexivity|discriminate|]. intros inner. reflexivity.
Qed.
Lemma fits_abstract i s sv c n : st_heap s !! i = Some n -> visit_abstract i s = (sv, Ok c) ->
  fits s i CAbstract sv c (fun inner => el (lit "div") (el (lit "h3") (lit "Abstract") ++ inner ++ abstract_lists s i)).
Proof.
  intros Hi H. pose proof (gp_run _ _ _ _ _ (p_abstract s i) H) as S. split; [|split; [intros _|discriminate]].
  - intros xt _ inner. apply S.
  - unfold visit_abstract in H. apply bind_ok in H as (s1 & nt & _ & H). apply ret_ok in H as [_ ->]. eexists. reflexivity.
Qed.
Lemma visit_fits hl f m i s sv c n : good s -> st_heap s !! i = Some n -> dispatch visit_defined (n_cls n) = Some m -> m <> CNode -> aims s i ->
  visit_method hl f m i s = (sv, Ok c) -> fits s i m sv c (node_page f hl s i).
Proof.
  intros Hg Hi Hm Hne [A1 A2] H. assert (Hc : consistent (st_heap s)) by apply Hg. assert (Ho : old s i) by (exists n; assumption).
  assert (W : forall X, (forall inner, X inner = node_page f hl s i inner) -> fits s i m sv c X -> fits s i m sv c (node_page f hl s i)).
  { intros X HX (F1 & F2). split; [|assumption]. intros xt Hx inner. rewrite F1 by assumption. apply HX. }
  unfold dispatch in Hm. pose proof Hm as Hm'. apply find_some in Hm' as [_ Hm']. fold (dispatch visit_defined (n_cls n)) in Hm.
  destruct m; try discriminate Hm'; clear Hm'; try congruence; cbn [visit_method] in H;
  (eapply W; [intros inner; unfold node_page; rewrite Hi, Hm; cbv iota; first [reflexivity|idtac]|]);
  lazymatch type of H with
  | visit_theorem _ _ _ = _ => exact (fits_theorem _ _ _ _ _ _ Hg Hi H)
  | visit_sketch _ _ = _ => exact (fits_sketch _ _ _ _ Hg H)
  | visit_proof _ _ = _ => exact (fits_proof _ _ _ _ _ Hg Hi H)
  | visit_abstract _ _ = _ => exact (fits_abstract _ _ _ _ _ Hi H)
  | _ => idtac
  end.
  all: try (apply fits_says; [reflexivity|discriminate|discriminate|]).
  all: try lazymatch type of H with
  | visit_manuscript _ _ = _ => exact (gp_run _ _ _ _ _ (p_manuscript s i n Hi) H)
  | visit_author _ _ = _ => exact (gp_run _ _ _ _ _ (p_author s i n Hi) H)
  | visit_paragraph _ _ = _ => exact (gp_run _ _ _ _ _ (p_paragraph s i n Hi) H)
  | visit_contents _ _ = _ => exact (gp_run _ _ _ _ _ (p_contents s i) H)
  | visit_note _ _ _ = _ => exact (gp_run _ _ _ _ _ (p_note f s Hc i n Hi) H)
  | visit_math _ _ = _ => exact (gp_run _ _ _ _ _ (p_math s i) H)
  | visit_mathblock _ _ = _ => exact (gp_run _ _ _ _ _ (p_mathblock s i) H)
  | visit_sourcecode _ _ _ = _ => exact (gp_run _ _ _ _ _ (p_sourcecode hl s i n Hi) H)
  | visit_code _ _ = _ => exact (gp_run _ _ _ _ _ (p_code s i) H)
  | visit_codeblock _ _ = _ => exact (gp_run _ _ _ _ _ (p_codeblock s i) H)
  | visit_algorithm _ _ = _ => exact (gp_run _ _ _ _ _ (p_algorithm s i n Hi) H)
  | visit_text _ _ = _ => exact (gp_run _ _ _ _ _ (p_text s i n Hi) H)
  | visit_error _ _ = _ => exact (gp_run _ _ _ _ _ (p_error s i n Hi) H)
  | visit_span _ _ = _ => exact (gp_run _ _ _ _ _ (p_span s i n Hi) H)
  | visit_reference _ _ _ = _ => exact (gp_run _ _ _ _ _ (p_reference f s Hc i n Hi A1) H)
  | visit_url _ _ _ = _ => exact (gp_run _ _ _ _ _ (p_url f s Hc i n Hi) H)
  | visit_cite _ _ _ = _ => exact (gp_run _ _ _ _ _ (p_cite f s Hc i n Hi A2) H)
  | visit_bibliography _ _ = _ => exact (gp_run _ _ _ _ _ (p_bibliography s i) H)
  | visit_bibitem _ _ = _ => exact (gp_run _ _ _ _ _ (p_bibitem s i n Hi) H)
  | visit_draft _ _ = _ => exact (gp_run _ _ _ _ _ (p_draft s i) H)
  | visit_figure _ _ _ = _ => exact (gp_run _ _ _ _ _ (p_figure f s Hc i n Hi) H)
  | visit_caption _ _ _ = _ => exact (gp_run _ _ _ _ _ (p_caption f s Hc i n Hi) H)
  end.
  all: lazymatch type of H with
  | visit_section _ _ _ = _ => destruct (level (n_cls n)) as [lv|] eqn:El;
      [exact (gp_run _ _ _ _ _ (p_section f s Hc i n Hi lv El) H)
      |unfold visit_section in H; apply bind_ok in H as (? & ? & H1 & H); apply (gp_run _ _ _ _ _ (gp_cls s i n Hi)) in H1; subst; rewrite El in H; discriminate H]
  | ret _ _ = _ => apply ret_ok in H as [_ ->]; intros xt inner; apply app_nil_r
  | visit_subproof _ _ = _ => revert H; apply (gp_run s); unfold visit_subproof; repeat gps; py
  | _ => revert H; apply (gp_run s); apply p_tag; reflexivity
  end.
Qed.

(** ** Leave methods *)
Lemma extra_same c m m' s i : dispatch visit_defined c = Some m -> dispatch leave_defined c = Some m' -> extra m' s i = extra m s i /\ (m' = CProof -> m = CProof).
Proof. destruct c; intros H1 H2; vm_compute in H1, H2; injection H1 as <-; injection H2 as <-; split; first [reflexivity|discriminate|auto]. Qed.
Lemma leave_page m i d s s1 s2 k u : like s s1 -> old s i -> static d = true -> (m = CProof -> exists y, d = KBatch [y]) ->
  leave_method m i (MkT [] [d]) s1 = (s2, Ok (k, u)) -> plain_page (static_toks k) = extra m s i ++ plain_page (static_toks d).
Proof.
  intros L Ho Hst Hpr H. destruct m; cbn [leave_method] in H;
  lazymatch type of H with
  | leave_node _ _ = _ => apply leave_node_inv in H as (_ & -> & _); reflexivity
  | _ => idtac
  end.
  - unfold leave_abstract in H. apply bind_ok in H as (s3 & kw & K1' & H). destruct (gp_get_strs s i a_keywords Ho ltac:(nta) _ _ _ L K1') as [L3 E1].
    apply bind_ok in H as (s4 & ms & K2' & H). destruct (gp_get_strs s i a_msc Ho ltac:(nta) _ _ _ L3 K2') as [L4 E2]. apply bind_ok in H as (? & [d' u'] & H1 & H).
    apply leave_node_inv in H1 as (-> & -> & ->). apply ret_ok in H as [-> H]. injection H as -> ->. cbn [fst static_toks extra]. unfold abstract_lists. cbv beta in *. rewrite E1, E2.
    rewrite !flat_map_app, !bare_app. cbn [flat_map]. rewrite app_nil_r, <- app_assoc. f_equal; [|f_equal].
    + destruct kw; [reflexivity|]. unfold par, open_close. cbn [flat_map static_toks]. rewrite app_nil_r, !bare_app. cbn [plain_page flat_map]. rewrite start_bare. cbn [tg_inner tg_outer tg_tag nl_if plain_tok]. unfold ot, nl, ctag. isp. cbn [plain_page flat_map plain_tok app]. isp. rewrite !app_nil_r. cbn [app]. reflexivity.
    + destruct ms; [reflexivity|]. unfold par, open_close. cbn [flat_map static_toks]. rewrite app_nil_r, !bare_app. cbn [plain_page flat_map]. rewrite start_bare. cbn [tg_inner tg_outer tg_tag nl_if plain_tok]. unfold ot, nl, ctag. isp. cbn [plain_page flat_map plain_tok app]. isp. rewrite !app_nil_r. cbn [app]. reflexivity.
  - unfold leave_paragraph in H. apply bind_ok in H as (? & [d' u'] & H1 & H). apply leave_node_inv in H1 as (-> & -> & ->).
    apply bind_ok in H as (? & b & _ & H). destruct b.
    + apply bind_ok in H as (? & l & Hl & H). apply items_of_inv in Hl as [-> [E|E]]; cbn in E; subst d; [|discriminate Hst].
      apply ret_ok in H as [-> H]. injection H as -> ->. reflexivity.
    + apply ret_ok in H as [-> H]. injection H as -> ->. reflexivity.
  - unfold leave_mathblock in H. apply bind_ok in H as (? & [d' u'] & H1 & H). apply leave_node_inv in H1 as (-> & -> & ->).
    apply bind_ok in H as (? & p & _ & H). apply bind_ok in H as (? & b & _ & H). destruct b; cbn [negb] in H.
    2:{ apply ret_ok in H as [-> H]. injection H as -> ->. reflexivity. }
    apply bind_ok in H as (? & nx & _ & H). destruct nx, p; try discriminate H.
    2,3: apply ret_ok in H as [-> H]; injection H as -> ->; reflexivity.
    apply bind_ok in H as (? & ? & _ & H). apply bind_ok in H as (? & l & Hl & H). apply items_of_inv in Hl as [-> [E|E]]; cbn in E; subst d; [|discriminate Hst].
    apply ret_ok in H as [-> H]. injection H as -> ->. cbn [static_toks]. rewrite flat_map_app, bare_app. apply app_nil_r.
  - destruct (Hpr eq_refl) as [y ->]. unfold leave_proof in H. apply bind_ok in H as (s3 & [d' u'] & H1 & H). apply leave_node_inv in H1 as (-> & -> & ->).
    apply bind_ok in H as (s4 & l & Hl & H). apply items_of_inv in Hl as [-> [E|E]]; cbn in E; [|discriminate E]. injection E as <-.
    apply ret_ok in H as [-> H]. injection H as -> ->. cbn [insert_before_last rev app static_toks flat_map]. rewrite bare_app. reflexivity.
Qed.

(** ** Opening texts *)
Lemma cb1_text ext xt c s s' t : make_text ext c s = (s', Ok t) -> (forall j, c = KExternal j -> xt j = plain_page t) -> plain_page t = cb1 xt c.
Proof.
  intros H Hj. destruct c as [t0|t0 d|g u|g u|g|j|l|l]; cbn [make_text] in H; try discriminate H.
  1-5: apply ret_ok in H as [_ ->]; cbn [cb1]; rewrite ?bare_app, ?bare_nl, ?app_nil_r; cbn [plain_page flat_map app]; rewrite ?app_nil_r; try reflexivity.
  symmetry. apply Hj. reflexivity.
Qed.
Lemma item_page_none ext xt l : forall s s' t, item_toks ext l s = (s', Ok t) -> exts (KBatchDefer l) = [] -> plain_page t = flat_map (cb1 xt) l.
Proof.
  induction l as [|c l IH]; intros s s' t H E; cbn [item_toks] in H.
  - apply ret_ok in H as [_ ->]. reflexivity.
  - apply bind_ok in H as (s1 & a & Ha & H). apply bind_ok in H as (s2 & b & Hb & H). apply ret_ok in H as [_ ->].
    assert (Hc : forall j, c <> KExternal j) by (intros j ->; discriminate E).
    rewrite bare_app. cbn [flat_map]. rewrite (cb1_text _ xt _ _ _ _ Ha) by (intros j ->; destruct (Hc j eq_refl)). f_equal. eapply IH; [exact Hb|].
    cbn in E |- *. destruct c; try exact E. destruct (Hc root eq_refl).
Qed.
Lemma item_page ext xt l : forall s s' t j, item_toks ext l s = (s', Ok t) -> exts (KBatchDefer l) = [j] ->
  (forall s2 e, ext j s = (s2, Ok e) -> xt j = plain_page e) -> plain_page t = flat_map (cb1 xt) l.
Proof.
  induction l as [|c l IH]; intros s s' t j H E Hj; cbn [item_toks] in H.
  - discriminate E.
  - apply bind_ok in H as (s1 & a & Ha & H). apply bind_ok in H as (s2 & b & Hb & H). apply ret_ok in H as [_ ->].
    rewrite bare_app. cbn [flat_map].
    assert (Hc : (exists x, c = KExternal x) \/ ~ exists x, c = KExternal x).
    { destruct c; try (right; intros (x & E'); discriminate E'). left. eauto. }
    destruct Hc as [[x ->]|Hc].
    + cbn in E. injection E as -> E. rewrite (cb1_text _ xt _ _ _ _ Ha); [|intros j' [= <-]; cbn [make_text] in Ha; eapply Hj; exact Ha].
      f_equal. eapply item_page_none; [exact Hb|exact E].
    + rewrite (cb1_text _ xt _ _ _ _ Ha) by (intros x ->; destruct Hc; eauto). f_equal.
      assert (s1 = s) as ->.
      { destruct c; cbn [make_text] in Ha; try discriminate Ha; try (apply ret_ok in Ha as [-> _]; reflexivity). destruct Hc; eauto. }
      eapply IH; [exact Hb| |exact Hj]. cbn in E |- *. destruct c; try exact E. destruct Hc; eauto.
Qed.
Definition ext_page (ext : id -> M (list tok)) : Prop := forall s j l d s' e, good s -> title_of s j l d -> ext j s = (s', Ok e) -> plain_page e = block_title l d.
Lemma open_page ext s0 sv c s1 op : shape_ok c = true -> exts_fine s0 sv c -> open_toks ext c sv = (s1, Ok op) ->
  exists xt, plain_page op = cb xt c /\ forall j, exts c = [j] -> exists s2 e, ext j sv = (s2, Ok e) /\ xt j = plain_page e.
Proof.
  intros Hs Hx H. destruct c; try discriminate Hs; cbn [open_toks cb] in *.
  all: lazymatch type of H with make_text _ _ _ = _ => exists (fun _ => []); split; [eapply cb1_text; [exact H|discriminate]|discriminate] | _ => idtac end.
  destruct Hx as [E|(j & E & Ht)].
  - exists (fun _ => []). split; [eapply item_page_none; eassumption|]. intros j Hj. rewrite Hj in E. discriminate E.
  - destruct (item_toks_one _ _ _ _ _ _ H E) as [e He]. exists (fun _ => plain_page e). split.
    + eapply item_page; [exact H|exact E|]. intros s2 e' He'. congruence.
    + intros j' Hj'. assert (j' = j) as -> by congruence. eauto.
Qed.

(** ** The page only depends on what the translator leaves alone *)
Definition shows (s : st) (t : tree) : Prop := forall x, x ∈ doc_order t ->
  old s x /\ aims s x /\ forall n, st_heap s !! x = Some n -> dispatch visit_defined (n_cls n) <> Some CNode.
Lemma like_old s s' x : like s s' -> old s x -> old s' x.
Proof. intros L [n Hn]. destruct (L _ _ Hn) as (m & Hm & _). exists m. assumption. Qed.
Lemma like_shows s s' t : like s s' -> shows s t -> shows s' t.
Proof.
  intros L H x Hx. destruct (H x Hx) as (Ho & [A1 A2] & Hn). split; [eapply like_old; eassumption|]. split; [split|].
  - intros t0. rewrite (like_aval s s') by (assumption || nta). intros E. eapply like_old; [exact L|]. exact (A1 _ E).
  - intros ts t0. rewrite (like_aval s s') by (assumption || nta). intros E Hin. eapply like_old; [exact L|]. exact (A2 _ _ E Hin).
  - intros n' Hn'. destruct Ho as [n Hn0]. destruct (L _ _ Hn0) as (m & Hm & E & _). assert (m = n') as -> by congruence. rewrite E. apply Hn. assumption.
Qed.
Section Like.
Context (f : nat) (hl : str -> str -> str) (s s' : st) (Hc : consistent (st_heap s)) (L : like s s').
Lemma num_like x : old s x -> num f s' x = num f s x.
Proof. intros Ho. unfold num. rewrite (rd_full s Hc f x Ho s' L). reflexivity. Qed.
Lemma ref_like x : old s x -> ref f s' x = ref f s x.
Proof. intros Ho. unfold ref. rewrite (rd_reftext s Hc f x Ho s' L). reflexivity. Qed.
Lemma map_ref_like i ts : old s i -> (forall t, t ∈ ts -> old s t) -> map (fun t => anchor_el (link_text s' i (ref f s' t))) ts = map (fun t => anchor_el (link_text s i (ref f s t))) ts.
Proof.
  intros Hi H. induction ts as [|t ts IH]; [reflexivity|]. cbn [map]. rewrite (ref_like t) by (apply H; constructor). unfold link_text at 1. rewrite (like_aval s s') by (assumption || nta).
  f_equal. apply IH. intros x Hx. apply H. constructor 2. assumption.
Qed.
Lemma node_page_like i inner : old s i -> aims s i -> node_page f hl s' i inner = node_page f hl s i inner.
Proof.
  intros Ho [A1 A2]. pose proof Ho as [n Hn]. destruct (L _ _ Hn) as (n' & Hn' & E1 & E2 & E3 & _).
  assert (AV : forall a, a <> a_types -> a <> a_must_close_p_tag -> aval (st_heap s') i a = aval (st_heap s) i a) by (intros; apply (like_aval s s'); [assumption..|apply not_tr; assumption]).
  unfold node_page. rewrite Hn, Hn', E1. destruct (dispatch visit_defined (n_cls n)) as [m|]; [|reflexivity].
  assert (Hp : caption_page f s' n' inner = caption_page f s n inner).
  { unfold caption_page. rewrite E2. destruct (n_parent n) as [p|] eqn:Ep; [|reflexivity]. destruct (proj2 (cons_parent _ Hc i p)) as (q & Hq & _); [exists n; auto|].
    destruct (L _ _ Hq) as (q' & Hq' & Eq & _). rewrite Hq, Hq', Eq, num_like by (exists q; assumption). reflexivity. }
  unfold author_page, abstract_lists, heading_text, span_page, theorem_title, cite_page, entry_page, entry_parts, image_page, text_of.
  destruct m; try reflexivity; try exact Hp; rewrite ?AV by discriminate; rewrite ?num_like by assumption; try reflexivity.
  - destruct (aval (st_heap s) i a_target) eqn:Et; try reflexivity. rewrite ref_like by (apply A1; reflexivity). unfold link_text. rewrite !AV by discriminate. reflexivity.
  - destruct (aval (st_heap s) i a_target) eqn:Et; try reflexivity. unfold link_text. rewrite !AV by discriminate. reflexivity.
  - destruct (aval (st_heap s) i a_targets) as [| | | | | | |ts|] eqn:Et; try reflexivity. pose proof (map_ref_like i ts Ho (fun t Ht => A2 ts t eq_refl Ht)) as E.
    destruct ts as [|t [|t2 ts]]; [reflexivity| |rewrite E; reflexivity]. apply (f_equal (List.hd [])) in E. cbn [map List.hd] in E. rewrite E. reflexivity.
Qed.
Lemma page_like t : shows s t -> tree_page f hl s' t = tree_page f hl s t.
Proof.
  induction t as [i cs IH] using tree_ind'. intros H. cbn [tree_page]. destruct (H i) as (Ho & Ha & _); [rewrite doc_order_T; constructor|].
  rewrite node_page_like by assumption. f_equal. f_equal. apply map_ext_in. intros t Ht. rewrite list.Forall_forall in IH. apply elem_of_list_In in Ht. apply IH; [assumption|].
  intros x Hx. apply H. rewrite doc_order_T. constructor 2. apply elem_doc_orders. eauto.
Qed.
End Like.

(** ** The whole output *)
Section Main.
Context (hl : str -> str -> str) (ext : id -> M (list tok)) (f : nat).
Context (Hext : forall i, tpres tr_attrs (ext i)) (He : ext_page ext).
Let tc := base_tc hl.
Let Htc : tc_ok tr_attrs tc.
Proof. apply base_tc_ok; set_solver. Qed.
Lemma page_main :
  (forall s t h s', renders tc ext f s t h s' -> good s -> shows s t -> plain_page h = tree_page f hl s t) /\
  (forall s ts h s', renders_all tc ext f s ts h s' -> good s -> Forall (shows s) ts -> plain_page h = concat (map (tree_page f hl s) ts)).
Proof using Hext He Htc.
  apply renders_ind2.
  - intros s i cs c sv n s1 op ins s2 cl s3 Hv Hn Hk Hop Hrs IH Hcl Hg Ha.
    destruct (Ha i) as (Ho & Hai & Hcn); [rewrite doc_order_T; constructor|]. pose proof Ho as [ni Hi].
    pose proof (base_visit_shape _ _ _ _ _ _ Hv) as Hsh.
    cbn [tc tc_visit base_tc] in Hv. unfold base_visit in Hv. apply bind_ok in Hv as (s0 & c0 & Hc & Hv). apply cls_of_ok in Hc as (-> & n0 & Hn0 & ->).
    assert (n0 = ni) as -> by congruence. destruct (dispatch visit_defined (n_cls ni)) as [m|] eqn:Ed; [|discriminate Hv].
    assert (Hmn : m <> CNode) by (intros ->; exact (Hcn ni Hi Ed)).
    pose proof (tp_visit_method tr_attrs ltac:(set_solver) hl f _ _ _ _ _ Hv) as Fv. pose proof (exts_visit _ _ _ _ _ _ _ Hg Hv) as Hx.
    destruct (visit_fits hl f m i s sv c ni Hg Hi Ed Hmn Hai Hv) as (V1 & V2 & V3).
    assert (Hgv : good sv) by (apply Fv; assumption).
    pose proof (tp_open_toks ext tr_attrs Hext _ _ _ _ Hop) as Fo. pose proof (tfr_trans _ _ _ _ Fv Fo) as F1.
    assert (Hg1 : good s1) by (apply F1; assumption).
    pose proof (proj2 (renders_frame tc ext f tr_attrs Htc Hext) _ _ _ _ Hrs) as F12.
    assert (L1 : like s s1) by (exact (like_tfr s s s1 Hg F1 (like_refl s))). assert (L2 : like s s2) by (exact (like_tfr s s1 s2 Hg1 F12 L1)).
    assert (Hacs : Forall (shows s) cs).
    { apply list.Forall_forall. intros t Ht x Hxt. apply Ha. rewrite doc_order_T. constructor 2. apply elem_doc_orders. eauto. }
    destruct (open_page ext s sv c s1 op Hsh Hx Hop) as (xt & Eop & Hxt).
    assert (Hcl' : plain_page cl = extra m s i ++ cc c).
    { destruct (closer c) as [d|] eqn:Ec.
      - pose proof (closer_static _ _ Ec) as Hds. apply closes_some in Hcl as (k & Hl & ->).
        cbn [tc_leave base_tc tc] in Hl. unfold base_leave in Hl. apply bind_ok in Hl as (s4 & c4 & Hc4 & Hl). apply cls_of_ok in Hc4 as (-> & n4 & Hn4 & ->).
        destruct (L2 _ _ Hi) as (n5 & Hn5 & C5 & _). assert (n5 = n4) as -> by congruence. rewrite C5 in Hl.
        destruct (dispatch leave_defined (n_cls ni)) as [m'|] eqn:Ed'; [|discriminate Hl]. destruct (extra_same _ _ _ s i Ed Ed') as [X1 X2].
        rewrite (leave_page m' i d s _ _ _ _ L2 Ho Hds) with (2 := Hl).
        + rewrite X1. f_equal. unfold cc, closer_toks. rewrite Ec. reflexivity.
        + intros E. destruct (V3 (X2 E)) as [y Ey]. exists y. congruence.
      - cbn [closes] in Hcl. destruct Hcl as [-> _]. unfold cc, closer_toks. rewrite Ec. destruct m; try reflexivity.
        + destruct (V2 eq_refl) as [y Ey]; congruence.
        + destruct (V3 eq_refl) as [y Ey]; congruence. }
    rewrite !bare_app, Eop, Hcl'. rewrite (IH Hg1) by (eapply list.Forall_impl; [exact Hacs|]; intros t; apply like_shows; assumption).
    assert (Ecs : map (tree_page f hl s1) cs = map (tree_page f hl s) cs).
    { apply map_ext_in. intros t Ht. apply page_like; [apply Hg|assumption|]. rewrite list.Forall_forall in Hacs. apply Hacs, elem_of_list_In. assumption. }
    rewrite Ecs. cbn [tree_page]. rewrite <- (V1 xt); [rewrite <- !app_assoc; reflexivity|].
    intros j l d Ej Ht. destruct (Hxt j Ej) as (s4 & e & Hj & ->). exact (He _ _ _ _ _ _ Hgv Ht Hj).
  - reflexivity.
  - intros s t ts a b s1 s2 Ht IHt Hts IHts Hg Ha. apply list.Forall_cons in Ha as [H0 H1].
    pose proof (proj1 (renders_frame tc ext f tr_attrs Htc Hext) _ _ _ _ Ht) as Ft. assert (Hg1 : good s1) by (apply Ft; assumption).
    assert (L1 : like s s1) by (exact (like_tfr s s s1 Hg Ft (like_refl s))).
    rewrite bare_app, (IHt Hg H0). cbn [map concat]. f_equal. rewrite (IHts Hg1) by (eapply list.Forall_impl; [exact H1|]; intros u; apply like_shows; assumption).
    f_equal. apply map_ext_in. intros u Hu. apply page_like; [apply Hg|assumption|]. rewrite list.Forall_forall in H1. apply H1, elem_of_list_In. assumption.
Qed.
End Main.
Lemma title_shows s l d t : built_as (st_heap s) None (title_bt l d) t -> shows s t.
Proof.
  assert (G : forall i c p ks kw, st_heap s !! i = Some (MkNode c p ks (mk_attrs c kw)) -> dispatch visit_defined c <> Some CNode ->
    mk_attrs c kw !! a_target = None -> mk_attrs c kw !! a_targets = None -> old s i /\ aims s i /\ forall n, st_heap s !! i = Some n -> dispatch visit_defined (n_cls n) <> Some CNode).
  { intros i c p ks kw Hi Hd H1 H2. split; [eexists; exact Hi|]. split; [split|].
    - intros t0. unfold aval. rewrite Hi. cbn [n_attrs]. rewrite H1. discriminate.
    - intros ts t0. unfold aval. rewrite Hi. cbn [n_attrs]. rewrite H2. discriminate.
    - intros n Hn. rewrite Hi in Hn. injection Hn as <-. exact Hd. }
  assert (GT : forall p x t, built_as (st_heap s) p (BT CText [(a_text, VStr x)] []) t -> shows s t).
  { intros p x [i ts] H. apply built_eq in H as [Hi H]. destruct ts; [|contradiction]. intros y Hy. rewrite doc_order_T in Hy. apply elem_of_list_singleton in Hy as ->.
    eapply G; [exact Hi|discriminate|reflexivity|reflexivity]. }
  assert (GS : forall p cl x t, built_as (st_heap s) p (BT CSpan [(a_types, VStrs [cl])] [BT CText [(a_text, VStr x)] []]) t -> shows s t).
  { intros p cl x [i ts] H. apply built_eq in H as [Hi H]. destruct ts as [|t1 [|t2 ts]]; cbn [built_all] in H; try contradiction; [|destruct H; contradiction].
    destruct H as [H _]. intros y Hy. rewrite doc_order_T in Hy. apply elem_of_cons in Hy as [->|Hy]; [eapply G; [exact Hi|discriminate|reflexivity|reflexivity]|].
    cbn [doc_orders flat_map] in Hy. rewrite app_nil_r in Hy. exact (GT _ _ _ H y Hy). }
  destruct t as [i ts]. unfold title_bt. cbv zeta. intros H. apply built_eq in H as [Hi H].
  assert (GA : Forall (shows s) ts).
  { destruct l as [|x l], d as [|y d]; cbn [app built_all] in H; repeat match goal with H : match ?t with _ => _ end |- _ => destruct t; try contradiction; cbn [built_all] in H | H : built_as _ _ _ _ /\ _ |- _ => destruct H end; try contradiction;
    repeat (first [apply list.Forall_nil_2|apply list.Forall_cons_2]); eapply GS; eassumption. }
  intros y Hy. rewrite doc_order_T in Hy. apply elem_of_cons in Hy as [->|Hy]; [eapply G; [exact Hi|discriminate|reflexivity|reflexivity]|].
  apply elem_doc_orders in Hy as (t & Ht & Hy). rewrite list.Forall_forall in GA. exact (GA t Ht y Hy).
Qed.
Lemma ext_page_run hl ext f : (forall i, tpres tr_attrs (ext i)) -> ext_page ext -> ext_page (run_translator (base_tc hl) ext f).
Proof.
  intros Hext He s j l d s' e Hg Ht H.
  assert (Htc : tc_ok tr_attrs (base_tc hl)) by (apply base_tc_ok; set_solver).
  apply (run_renders (base_tc hl) ext f tr_attrs Htc) in H as (t' & Hr' & H); [|reflexivity].
  destruct (title_page f hl _ _ _ _ Ht) as (t & Hr & Hb & Hta & Hp).
  assert (t = t') as <-. { eapply (proj1 (renders_tree _ _ f tr_attrs Htc Hext)); [exact H|exact Hg|exact Hta|congruence]. }
  rewrite <- Hp. eapply (proj1 (page_main hl ext f Hext He)); [exact H|exact Hg|exact (title_shows _ _ _ _ Hb)].
Qed.
Lemma ext_page_translate hl f d : ext_page (translate_ext hl d f).
Proof.
  induction d as [|d IH].
  - intros s j l e s' r _ _ H. discriminate H.
  - apply (ext_page_run hl (translate_ext hl d f) f); [|exact IH]. apply tp_translate_ext; set_solver.
Qed.
(** The page of a document is that of its tree. *)
Lemma translate_page hl f i s s' h t :
  good s -> tree_at (st_heap s) None t -> root t = i -> shows s t -> translate hl f i s = (s', Ok h) -> plain_page h = tree_page f hl s t.
Proof.
  intros Hg Ht Hr Ha H. unfold translate in H. apply bind_ok in H as (s1 & u & H1 & H). apply info_ok in H1. subst s1.
  match type of H with run_translator _ _ _ _ ?s1 = _ => set (s1' := s1) in * end.
  apply (run_renders (base_tc hl) _ f tr_attrs) in H as (t' & Hr' & H); [|apply base_tc_ok; set_solver|reflexivity].
  assert (Hext : forall j, tpres tr_attrs (translate_ext hl f f j)) by (apply tp_translate_ext; set_solver).
  assert (Htc : tc_ok tr_attrs (base_tc hl)) by (apply base_tc_ok; set_solver).
  assert (Hg1 : good s1') by exact Hg.
  assert (t = t') as <-. { eapply (proj1 (renders_tree _ _ f tr_attrs Htc Hext)); [exact H|exact Hg1|exact Ht|congruence]. }
  assert (L : like s s1') by (apply (like_heap s s); [reflexivity|apply like_refl]).
  rewrite (proj1 (page_main hl _ f Hext (ext_page_translate hl f f)) _ _ _ _ H Hg1 (like_shows _ _ _ L Ha)).
  apply page_like; [apply Hg|assumption|assumption].
Qed.
Lemma translate_showable hl f s s' h t :
  good s -> tree_at (st_heap s) None t -> showable s t -> translate hl f (root t) s = (s', Ok h) -> plain_page h = tree_page f hl s t.
Proof.
  intros Hg Ht [S1 S2 S3] H. eapply translate_page; [exact Hg|exact Ht|reflexivity| |exact H].
  intros x Hx. split; [destruct (tree_at_in _ _ _ _ Ht Hx) as [n Hn]; exists n; exact Hn|]. split; [split|].
  - intros y Hy. exact (S2 _ _ Hx Hy).
  - intros ys y Hy Hin. exact (S3 _ _ _ Hx Hy Hin).
  - intros n Hn. exact (S1 _ _ Hx Hn).
Qed.

Lemma page_assembled hl f s t s' h : manuscript s t -> showable s t -> translate hl f (root t) s = (s', Ok h) -> plain_page h = tree_page f hl s t.
Proof. intros M. apply translate_showable; [split|]; apply M. Qed.
