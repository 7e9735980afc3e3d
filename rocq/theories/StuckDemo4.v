(** A source that lint has no quarrel with, and render raises for. *)
From Verif Require Import StuckDemo3 RenderTotal SpecStuck.
From Verif Require Import Stuck9.
Local Open Scope list_scope.

Lemma lint_misses : exists ts : str -> cst, forall hl pkg hr add c w, fresh_ok (w_mem w) -> In (lc_format c) formats ->
  exists F i, forall fuel, F <= fuel ->
    snd (lint_rsm ts hl pkg fuel (lit "x") [] hr c w) = Ok (PObj (OTree i)) /\ snd (render_rsm ts hl pkg fuel (lit "x") [] false add c w) = Err EAssert.
Proof.
  exists (fun _ => loose_cst). intros hl pkg hr add c w Hf Hc.
  destruct loose_raises as (H1 & H2 & H3 & (s' & H4) & (x & H5)).
  assert (G : given (lit "x") [] (w_fs w) (lit "x")) by (left; split; [discriminate|split; reflexivity]).
  destruct (lint_passes (fun _ => loose_cst) hl pkg (lit "x") [] hr c w (lit "x") _ _ s' Hf G Hc H1 H2 loose_arranged H4) as (F1 & i & K1).
  destruct (render_first (fun _ => loose_cst) hl pkg (lit "x") [] false add c w (lit "x") _ _ s' x EAssert Hf G Hc H1 H2 H3 H4 H5) as (F2 & K2).
  exists (F1 + F2), i. intros fuel Hfu. split; [apply K1; lia|apply K2; lia].
Qed.
