(** Syntax trees of the shape that the parser expects are read, whatever is in memory, and rendered. *)
From Verif Require Export NormReady RenderTotal.
From Verif Require Import RenderTotalDemo ParseDemo Fuel.
Local Open Scope string_scope.
Local Open Scope list_scope.

Theorem parse_total c s : source c -> keys_typed c -> well_formed c -> sane s ->
  exists enough s' r, forall fuel, enough <= fuel -> parse fuel c s = (s', Ok r).
Proof.
  intros Hc Hk Hw Hs. destruct (parse_returns c s Hc Hk Hw Hs) as (F & s' & r & H). exists F, s', r. intros fuel Hf.
  rewrite (mono_parse c F fuel s Hf); [exact H|]. rewrite H. discriminate.
Qed.
Theorem parse_reads c : clean_source c -> well_formed c -> exists s t, reads_as c s t.
Proof.
  intros Hc Hw. destruct (parse_returns c empty_st (cl_source _ Hc) (cl_keys _ Hc) Hw empty_sane) as (F & s & r & H).
  destruct (parsed_ready _ _ _ _ (cl_source _ Hc) (cl_errors _ Hc) H) as (t & Hr & R & _). exists s, t. split; [exists F; rewrite Hr; exact H|].
  exact (proj1 (ms_document _ _ (proj1 R))).
Qed.
Theorem render_from_source ts hl pkg source path hr add c w text : fresh_ok (w_mem w) -> given source path (w_fs w) text -> In (lc_format c) formats ->
  clean_source (ts text) -> well_formed (ts text) ->
  (forall s t, reads_as (ts text) s t -> if hr : bool then well_written_handrails s t else well_written s t) ->
  exists F html, forall fuel, F <= fuel -> snd (render_rsm ts hl pkg fuel source path hr add c w) = Ok (PObj (OText html)).
Proof.
  intros Hf Hg Hc C Hw W. destruct (parse_reads _ C Hw) as (s & t & Hp). exact (render_total ts hl pkg source path hr add c w text s t Hf Hg Hc Hp C (W s t Hp)).
Qed.
Lemma article_formed : well_formed article_cst. Proof. vm_compute. reflexivity. Qed.

(** ** Trees of another shape *)

Definition odd_construct : cst :=
  nd "source_file" 0 0 "" [nd "paragraph" 1 0 "" [nd "construct" 1 0 "" [fd "tag" (leaf "perhaps" 1 1 "perhaps"); leaf "text" 1 9 "x"]]].
Definition odd_ref : cst := nd "source_file" 0 0 "" [nd "paragraph" 1 0 "" [nd "specialinline" 1 0 "" [leaf "ref" 1 1 "ref"]]].
Definition odd_item : cst := nd "source_file" 0 0 "" [nd "paragraph" 1 0 "" [nd "item" 1 0 "" [leaf "text" 1 1 "x"]]].
Definition odd_math : cst := nd "source_file" 0 0 "" [nd "paragraph" 1 0 "" [nd "specialinline" 1 0 "" [nd "math" 1 0 "" []; leaf "text" 1 1 "x"]]].
Definition odd_block : cst := nd "source_file" 0 0 "" [nd "block" 1 0 "" [leaf "text" 1 1 "x"]].
Definition odd_meta : cst :=
  nd "source_file" 0 0 "" [nd "block" 1 0 "" [fd "tag" (leaf "theorem" 1 1 "theorem"); fd "meta" (nd "blockmeta" 1 2 "" [pair_ 1 "full_number" "x"])]].
Definition odds : list cst := [odd_construct; odd_ref; odd_item; odd_math; odd_block; odd_meta].
Definition oddb (c : cst) : bool := negb (fits c None) && match snd (parse 50 c empty_st) with Err EOutOfFuel | Err EUnsupported | Ok _ => false | Err _ => true end.
Lemma odds_fail : forallb oddb odds = true. Proof. vm_compute. reflexivity. Qed.
Lemma odd_fails c : In c odds -> fits c None = false /\ exists e, forall fuel, 50 <= fuel -> snd (parse fuel c empty_st) = Err e.
Proof.
  intros H. pose proof odds_fail as Ho. rewrite forallb_forall in Ho. specialize (Ho c H). unfold oddb in Ho. apply andb_true_iff in Ho as [H1 H2].
  split; [apply negb_true_iff, H1|]. destruct (snd (parse 50 c empty_st)) as [i|e] eqn:E; [discriminate H2|]. exists e. intros fuel Hf.
  rewrite (mono_parse c 50 fuel empty_st Hf); [exact E|]. unfold enough. rewrite E. destruct e; discriminate.
Qed.
