(** Nesting of tags, computed with a stack of open elements. *)
From Verif Require Export TrShape SpecHtml.
From Verif Require Import NodeOps Monad.

Definition is_void (tag : str) : bool := str_mem tag void_tags.
Arguments is_void : simpl never.
Fixpoint run (ts : list tok) (S : list str) : option (list str) :=
  match ts with
  | [] => Some S
  | TOpen tag _ :: r => run r (if is_void tag then S else tag :: S)
  | TClose tag :: r =>
      match S with
      | t :: S' => if str_eqb tag t then run r S' else None
      | [] => None
      end
  | _ :: r => run r S
  end.

Lemma run_app a b : forall S, run (a ++ b) S = match run a S with Some S' => run b S' | None => None end.
Proof.
  induction a as [|t a IH]; intros S; [reflexivity|]. destruct t; cbn; auto.
  destruct S as [|x S]; [reflexivity|]. destruct (str_eqb tag x); auto.
Qed.
Lemma is_void_spec tag : is_void tag = true <-> In tag void_tags.
Proof. unfold is_void. apply str_mem_In. Qed.

Fixpoint prefix (ctx : list (str * list attrib * list tok)) : list tok :=
  match ctx with
  | [] => []
  | (tag, ats, pre) :: ctx => prefix ctx ++ pre ++ [TOpen tag ats]
  end.
Lemma run_nested_aux ts : forall ctx acc,
  Forall (fun x => nested x.2 /\ is_void x.1.1 = false) ctx -> nested acc ->
  run ts (map (fun x => x.1.1) ctx) = Some [] -> nested (prefix ctx ++ acc ++ ts).
Proof.
  induction ts as [|t ts IH]; intros ctx acc Hctx Hacc Hr.
  - cbn in Hr. destruct ctx; [|discriminate Hr]. cbn. rewrite app_nil_r. assumption.
  - destruct t as [tag ats|tag|tag ats|x|j x]; cbn [run] in Hr.
    + destruct (is_void tag) eqn:E.
      * replace (prefix ctx ++ acc ++ TOpen tag ats :: ts) with (prefix ctx ++ (acc ++ [TOpen tag ats]) ++ ts) by (rewrite <- app_assoc; reflexivity).
        apply IH; [assumption| |assumption]. apply nest_app; [assumption|]. apply nest_void. apply is_void_spec. assumption.
      * replace (prefix ctx ++ acc ++ TOpen tag ats :: ts) with (prefix ((tag, ats, acc) :: ctx) ++ [] ++ ts)
          by (cbn; rewrite <- !app_assoc; reflexivity).
        apply IH; [constructor; [split; assumption|assumption]|constructor|exact Hr].
    + destruct ctx as [|[[tag' ats] pre] ctx]; [discriminate Hr|]. cbn [map fst snd] in Hr.
      destruct (str_eqb tag tag') eqn:E; [|discriminate Hr]. apply str_eqb_eq in E as ->.
      apply list.Forall_cons in Hctx as [[Hpre Hv] Hctx]. cbn in Hpre, Hv.
      replace (prefix ((tag', ats, pre) :: ctx) ++ acc ++ TClose tag' :: ts)
        with (prefix ctx ++ (pre ++ TOpen tag' ats :: acc ++ [TClose tag']) ++ ts)
        by (cbn; rewrite <- !app_assoc; cbn; rewrite <- !app_assoc; reflexivity).
      apply IH; [assumption| |assumption]. apply nest_app; [assumption|]. apply nest_elem; [|assumption].
      intros Hin. apply is_void_spec in Hin. congruence.
    + replace (prefix ctx ++ acc ++ TSelf tag ats :: ts) with (prefix ctx ++ (acc ++ [TSelf tag ats]) ++ ts) by (rewrite <- app_assoc; reflexivity).
      apply IH; [assumption| |assumption]. apply nest_app; [assumption|constructor].
    + replace (prefix ctx ++ acc ++ TRaw x :: ts) with (prefix ctx ++ (acc ++ [TRaw x]) ++ ts) by (rewrite <- app_assoc; reflexivity).
      apply IH; [assumption| |assumption]. apply nest_app; [assumption|constructor].
    + replace (prefix ctx ++ acc ++ TText j x :: ts) with (prefix ctx ++ (acc ++ [TText j x]) ++ ts) by (rewrite <- app_assoc; reflexivity).
      apply IH; [assumption| |assumption]. apply nest_app; [assumption|constructor].
Qed.
Lemma run_nested ts : run ts [] = Some [] -> nested ts.
Proof. intros H. apply (run_nested_aux ts [] []); [constructor|constructor|exact H]. Qed.
Lemma nested_run ts : nested ts -> forall S, run ts S = Some S.
Proof.
  induction 1 as [| | | |tag ats Hv|tag ats ts Hv Hn IH|a b Ha IHa Hb IHb]; intros S; try reflexivity.
  - cbn. apply is_void_spec in Hv. rewrite Hv. reflexivity.
  - cbn. destruct (is_void tag) eqn:E; [apply is_void_spec in E; contradiction|]. rewrite run_app, IH. cbn.
    rewrite str_eqb_refl. reflexivity.
  - rewrite run_app, IHa. apply IHb.
Qed.

(** ** Effects *)

Definition moves (ts : list tok) (T1 T2 : list str) : Prop := forall S, run ts (T1 ++ S) = Some (T2 ++ S).
Definition bal (ts : list tok) : Prop := forall S, run ts S = Some S.
Lemma moves_app a b T1 T2 T3 : moves a T1 T2 -> moves b T2 T3 -> moves (a ++ b) T1 T3.
Proof. intros H1 H2 S. rewrite run_app, H1. apply H2. Qed.
Lemma moves_bal a T : bal a -> moves a T T.
Proof. intros H S. apply H. Qed.
Lemma moves_frame a T1 T2 X : moves a T1 T2 -> moves a (T1 ++ X) (T2 ++ X).
Proof. intros H S. rewrite <- !app_assoc. apply H. Qed.
Lemma bal_nil : bal []. Proof. intros S. reflexivity. Qed.
Lemma bal_app a b : bal a -> bal b -> bal (a ++ b).
Proof. intros H1 H2 S. rewrite run_app, H1. apply H2. Qed.
Lemma bal_insert x a b S : bal x -> run (a ++ x ++ b) S = run (a ++ b) S.
Proof. intros H. rewrite !run_app. destruct (run a S); [|reflexivity]. rewrite run_app, H. reflexivity. Qed.
Lemma bal_raw s : bal [TRaw s]. Proof. intros S. reflexivity. Qed.
Lemma bal_nl b : bal (nl_if b). Proof. destruct b; intros S; reflexivity. Qed.
Lemma bal_join sep xs : bal sep -> Forall bal xs -> bal (tok_join sep xs).
Proof.
  intros Hs H. induction H as [|x xs Hx Hxs IH]; [apply bal_nil|]. cbn. destruct xs as [|y xs]; [assumption|].
  apply bal_app; [assumption|]. apply bal_app; assumption.
Qed.
Lemma bal_elem tag ats ts : is_void tag = false -> bal ts -> bal (TOpen tag ats :: ts ++ [TClose tag]).
Proof. intros Hv H S. cbn. rewrite Hv, run_app, H. cbn. rewrite str_eqb_refl. reflexivity. Qed.
Lemma bal_openclose g ct : is_void (tg_tag g) = false -> bal ct -> bal (static_toks (KOpenClose g ct)).
Proof.
  intros Hv H. cbn [static_toks]. apply bal_app; [apply bal_nl|].
  replace ([start_tag g] ++ nl_if (tg_inner g) ++ ct ++ nl_if (tg_inner g) ++ [TClose (tg_tag g)] ++ nl_if (tg_outer g))
    with ((start_tag g :: (nl_if (tg_inner g) ++ ct ++ nl_if (tg_inner g)) ++ [TClose (tg_tag g)]) ++ nl_if (tg_outer g))
    by (cbn; rewrite <- !app_assoc; reflexivity).
  apply bal_app; [|apply bal_nl]. apply bal_elem; [assumption|]. apply bal_app; [apply bal_nl|]. apply bal_app; [assumption|apply bal_nl].
Qed.

(** *** Effect of the items of a batch; external trees count as balanced. *)
Definition eff1 (c : cmd) (S : list str) : option (list str) :=
  match c with
  | KText t | KTextDefer t _ => run t S
  | KOpenClose _ _ | KOpenManual _ _ => run (static_toks c) S
  | KOpen g => Some (if is_void (tg_tag g) then S else tg_tag g :: S)
  | _ => Some S
  end.
Fixpoint ieff (l : list cmd) (S : list str) : option (list str) :=
  match l with [] => Some S | c :: r => match eff1 c S with Some S' => ieff r S' | None => None end end.
Lemma ieff_app a b : forall S, ieff (a ++ b) S = match ieff a S with Some S' => ieff b S' | None => None end.
Proof. induction a as [|c a IH]; intros S; [reflexivity|]. cbn. destruct (eff1 c S); auto. Qed.
Definition exts (c : cmd) : list id :=
  let of1 x := match x with KExternal j => Some j | _ => None end in
  match c with KBatchDefer l => omap of1 l | _ => omap of1 [c] end.
(** The text of an external tree is [Ok]. *)
Definition bal_at (ext : id -> M (list tok)) (s : st) (j : id) : Prop := forall s' e, ext j s = (s', Ok e) -> bal e.
Lemma eff1_text ext c s s' t : make_text ext c s = (s', Ok t) ->
  (forall j, c = KExternal j -> bal t) -> forall S, run t S = eff1 c S.
Proof.
  intros H Hj S. destruct c as [t0|t0 d|g ct|g ct|g|j|l|l]; cbn [make_text] in H; try discriminate H.
  1-5: apply ret_ok in H as [_ ->]; try reflexivity.
  - cbn [eff1]. rewrite !run_app. rewrite bal_nl. unfold start_tag, make_tag. cbn [run]. apply bal_nl.
  - cbn [eff1]. apply (Hj j eq_refl).
Qed.
(** State in which each item is executed. *)
Lemma ieff_toks (P : st -> Prop) ext l : forall s s' t,
  item_toks ext l s = (s', Ok t) ->
  P s -> length (exts (KBatchDefer l)) <= 1 ->
  (forall j, j ∈ exts (KBatchDefer l) -> forall s1 s2 e, P s1 -> ext j s1 = (s2, Ok e) -> bal e) ->
  forall S, run t S = ieff l S.
Proof.
  induction l as [|c l IH]; intros s s' t H HP Hlen Hext S; cbn [item_toks] in H.
  - apply ret_ok in H as [_ ->]. reflexivity.
  - apply bind_ok in H as (s1 & a & Ha & H). apply bind_ok in H as (s2 & b & Hb & H). apply ret_ok in H as [_ ->].
    rewrite run_app. cbn [ieff]. rewrite (eff1_text _ _ _ _ _ Ha).
    2:{ intros j ->. eapply (Hext j); [cbn; constructor|exact HP|exact Ha]. }
    destruct (eff1 c S) as [S'|]; [|reflexivity].
    destruct c as [t0|t0 d|g ct|g ct|g|j|l0|l0]; cbn [make_text] in Ha; try discriminate Ha;
      try (apply ret_ok in Ha as [<- ->]; cbn in Hlen, Hext; eapply IH; eassumption).
    (* after the external tree there is no other one *)
    cbn in Hlen. assert (En : omap (fun x => match x with KExternal j => Some j | _ => None end) l = []).
    { destruct (omap _ l); [reflexivity|cbn in Hlen; lia]. }
    clear - Hb En. revert s1 s2 b S' Hb. induction l as [|c l IHl]; intros s1 s2 b S' Hb; cbn [item_toks] in Hb.
    { apply ret_ok in Hb as [_ ->]. reflexivity. }
    apply bind_ok in Hb as (s3 & a' & Ha' & Hb). apply bind_ok in Hb as (s4 & b' & Hb' & Hb). apply ret_ok in Hb as [_ ->].
    rewrite run_app. cbn [ieff]. rewrite (eff1_text _ _ _ _ _ Ha').
    2:{ intros j' ->. cbn in En. discriminate En. }
    destruct (eff1 c S') as [S''|]; [|reflexivity]. eapply IHl; [|exact Hb'].
    cbn in En. destruct c; try exact En. discriminate En.
Qed.
Definition ceff (c : cmd) (S : list str) : option (list str) :=
  match c with KBatchDefer l => ieff l S | _ => eff1 c S end.
Definition closer_toks (c : cmd) : list tok := match closer c with Some d => static_toks d | None => [] end.
Lemma ceff_toks (P : st -> Prop) ext c s s' t :
  shape_ok c = true -> open_toks ext c s = (s', Ok t) -> P s -> length (exts c) <= 1 ->
  (forall j, j ∈ exts c -> forall s1 s2 e, P s1 -> ext j s1 = (s2, Ok e) -> bal e) ->
  forall S, run t S = ceff c S.
Proof.
  intros Hsh H HP Hl Hext S. destruct c; try discriminate Hsh; cbn [open_toks ceff] in *;
    [eapply eff1_text; [eassumption|discriminate]..|eapply ieff_toks; eassumption].
Qed.

(** *** Commands whose closing undoes their opening *)
Definition undoes (c : cmd) (T1 T2 T3 : list str) : Prop :=
  (forall S, ceff c (T1 ++ S) = Some (T2 ++ S)) /\ moves (closer_toks c) T2 T3.
Definition neat (c : cmd) : Prop := exists T, undoes c [] T [].

(** Open tags of a list of items, last first. *)
Definition tags (l : list cmd) : list str :=
  rev (omap (fun c => match c with KOpen g => if is_void (tg_tag g) then None else Some (tg_tag g) | _ => None end) l).
Definition defer_ok (c : cmd) : Prop :=
  match c with KTextDefer _ d => bal d | KOpen g => is_void (tg_tag g) = false | _ => True end.
Lemma flat_static l : flat_map static_toks (map KText l) = concat l.
Proof. induction l; cbn; congruence. Qed.
Lemma closers_pop l : Forall defer_ok l -> forall S, run (concat (rev (closers l))) (tags l ++ S) = Some S.
Proof.
  induction 1 as [|c l Hc Hl IH]; intros S; [reflexivity|].
  unfold closers, tags in *. cbn [omap list_omap]. destruct c as [| | | |g| | |]; cbn [deferred_text] in *; try apply IH.
  - cbn [rev]. rewrite concat_app, run_app, IH. cbn. rewrite app_nil_r. apply Hc.
  - cbn in Hc. rewrite Hc. cbn [rev]. rewrite concat_app, run_app, <- app_assoc, IH. cbn [concat].
    rewrite app_nil_r. unfold close_text. rewrite run_app, bal_nl. cbn. rewrite str_eqb_refl. apply bal_nl.
Qed.
Lemma closer_toks_batch l : closer_toks (KBatchDefer l) = concat (rev (closers l)).
Proof. unfold closer_toks. cbn [closer static_toks]. rewrite <- map_rev. apply flat_static. Qed.
Lemma neat_batch l : Forall defer_ok l -> (forall S, ieff l S = Some (tags l ++ S)) -> neat (KBatchDefer l).
Proof. intros Hd He. exists (tags l). split; [exact He|]. intros S. rewrite closer_toks_batch. apply closers_pop. assumption. Qed.
Lemma neat_open g : is_void (tg_tag g) = false -> neat (KOpen g).
Proof.
  intros Hv. exists [tg_tag g]. split; [intros S; cbn; rewrite Hv; reflexivity|]. intros S.
  unfold closer_toks. cbn [closer static_toks]. unfold close_text. rewrite run_app, bal_nl. cbn.
  rewrite str_eqb_refl. apply bal_nl.
Qed.
Lemma neat_text t : bal t -> neat (KText t).
Proof. intros H. exists []. split; [apply H|]. intros S. reflexivity. Qed.
