(** Sources without mistakes are rendered. *)
From Verif Require Export ParseShape PresentDoc RenderAny.
From Verif Require Import PresentDemo RenderDemo Fuel.
Local Open Scope string_scope.
Local Open Scope list_scope.

(** The parser returns the manuscript [t], in a process of its own. *)
Definition reads_as (c : cst) (s : st) (t : tree) : Prop :=
  (exists fuel, parse fuel c empty_st = (s, Ok (root t))) /\ tree_at (st_heap s) None t.

Lemma parses_mono c s t : reads_as c s t -> exists F, forall fuel, F <= fuel -> parse fuel c empty_st = (s, Ok (root t)).
Proof. intros [[F H] _]. exists F. intros f Hf. rewrite (mono_parse c F f empty_st Hf); [exact H|]. rewrite H. discriminate. Qed.
Lemma transforms_mono s t s' : transforms_to s t s' -> exists F d, forall fuel, F <= fuel -> transform fuel [] (root t) s = (s', Ok d).
Proof. intros (F & d & H). exists F, d. intros f Hf. rewrite (mono_transform [] (root t) F f s Hf); [exact H|]. rewrite H. discriminate. Qed.

Theorem presentable_pieces ts hl hr add text s t : reads_as (ts text) s t -> (if hr : bool then presentable_handrails s t else presentable s t) ->
  exists F h m, forall fuel, F <= fuel -> pieces ts hl fuel hr add text h m (root t).
Proof.
  intros Hp P. destruct (parses_mono _ _ _ Hp) as [F1 H1].
  assert (G : exists s' F3 h m, transforms_to s t s' /\ forall fuel, F3 <= fuel -> (if hr then translate_handrails hl add fuel (root t) else translate hl fuel (root t)) s' = (m, Ok h)).
  { destruct hr.
    - destruct (presentable_shown_handrails hl add s t P) as (s' & h & m & Ht & F3 & H3). exists s', F3, h, m. auto.
    - destruct (presentable_shown hl s t P) as (s' & h & m & Ht & F3 & H3). exists s', F3, h, m. auto. }
  destruct G as (s' & F3 & h & m & Ht & H3). destruct (transforms_mono _ _ _ Ht) as (F2 & d & H2).
  exists (F1 + F2 + F3), h, m. intros fuel Hf. exists s, s', d. split; [apply H1; lia|]. split; [apply H2; lia|]. apply H3. lia.
Qed.
Theorem render_total ts hl pkg source path hr add c w text s t : fresh_ok (w_mem w) -> given source path (w_fs w) text -> In (lc_format c) formats ->
  reads_as (ts text) s t -> clean_source (ts text) -> (if hr : bool then well_written_handrails s t else well_written s t) ->
  exists F html, forall fuel, F <= fuel -> snd (render_rsm ts hl pkg fuel source path hr add c w) = Ok (PObj (OText html)).
Proof.
  intros Hf Hg Hc Hp C W. assert (P : if hr then presentable_handrails s t else presentable s t).
  { destruct Hp as [[F Hp] Ht]. destruct (parsed_presentable _ _ _ _ C Hp Ht) as [P1 P2]. destruct hr; auto. }
  destruct (presentable_pieces ts hl hr (hr && add) text s t Hp P) as (F & h & m & H). exists F, (Html.render h). intros fuel Hfu.
  eapply render_returns; [exact Hf|exact Hg|exact Hc|apply H, Hfu].
Qed.
