(** A source with signs of comparison and quotes, and one with a tag in a text. *)
From Verif Require Export InputRead RenderDemo.
From Verif Require Import NodeOps Monad.
Local Open Scope string_scope.
Local Open Scope list_scope.

Definition both_lack (s : str) : bool := lacks LT s && lacks QUOTE s.
Definition opt {A} (f : A -> bool) (o : option A) : bool := match o with Some x => f x | None => true end.
Definition markless (d : cst) : bool :=
  SpecInput.mild (c_text d)
  && (negb (suffixb (lit "pair") (c_type d))
      || forallb (fun e => lacks LT (c_text e) && (forallb (fun k => str_mem k shown_keys) (pair_keys d) || lacks QUOTE (c_text e))) (c_preorder d))
  && opt (fun t => lacks LT (c_text (pl_node t))) (field_child "title" d)
  && opt (fun t => both_lack (c_type (pl_node t))) (field_child "tag" d)
  && (negb (is_type "bibitem" d) || forallb (fun e => both_lack (c_text e)) (c_children d))
  && (negb (tagged links d)
      || match named_children d with
         | _ :: q :: r => both_lack (c_text (pl_node q)) && opt (fun z => lacks LT (c_text (pl_node z))) (hd_error r)
         | _ => true
         end).
Lemma markless_ok c : forallb markless (c_preorder c) = true -> lacks LT (c_text c) = true -> no_markup true c.
Proof.
  intros H HS. assert (K : forall d, In d (c_preorder c) -> markless d = true) by (intros d Hd; rewrite forallb_forall in H; apply H, Hd).
  clear H. unfold markless in K. split.
  - intros d Hd. specialize (K d Hd). rewrite !andb_true_iff in K. apply K.
  - intros d e Hd Hp He. specialize (K d Hd). rewrite !andb_true_iff in K. destruct K as [[[[[_ K] _] _] _] _]. rewrite Hp in K. cbn [negb orb] in K.
    rewrite forallb_forall in K. specialize (K e He). apply andb_true_iff in K as [K1 K2]. split; [exact K1|]. apply orb_true_iff in K2 as [K2|K2]; [left|right; exact K2].
    rewrite forallb_forall in K2. intros k Hk. apply str_mem_In, K2, Hk.
  - intros d t Hd Ht. specialize (K d Hd). rewrite !andb_true_iff in K. destruct K as [[[[_ K] _] _] _]. rewrite Ht in K. exact K.
  - intros d x p Hd Hb Hx. specialize (K d Hd). rewrite !andb_true_iff in K. destruct K as [[_ K] _]. rewrite Hb in K. cbn [negb orb] in K.
    rewrite forallb_forall in K. apply fielded_child in Hx. apply andb_true_iff, (K _ Hx).
  - intros d p q r Hd Ht En. specialize (K d Hd). rewrite !andb_true_iff in K. destruct K as [_ K]. rewrite Ht, En in K. cbn [negb orb] in K.
    apply andb_true_iff in K as [K1 K2]. apply andb_true_iff in K1 as [K1 K3]. split; [exact K1|]. split; [exact K3|]. intros z Hz. rewrite Hz in K2. exact K2.
  - intros d p Hd Ht. specialize (K d Hd). rewrite !andb_true_iff in K. destruct K as [[[_ K] _] _]. rewrite Ht in K. apply andb_true_iff, K.
  - intros _. exact HS.
Qed.
Lemma no_markup_less c : no_markup true c -> no_markup false c.
Proof. intros [H1 H2 H3 H4 H5 H6 H7]. split; try assumption. discriminate. Qed.

(** The text of the paragraph is given. *)
Definition input_cst (u : string) : cst :=
  nd "source_file" 0 0 "the source"
    [fd "title" (leaf "text" 0 2 "A ""title""");
     nd "paragraph" 2 0 ""
       [leaf "text" 2 0 u; nd "specialinline" 3 30 "" [nd "ref" 3 31 "" []; leaf "text" 3 34 "thm"]; leaf "text" 3 40 " or ";
        nd "specialinline" 4 30 "" [nd "ref" 4 31 "" []; leaf "text" 4 34 "nowhere"];
        nd "mathblock" 5 0 "" [leaf "asis_text" 5 2 "x < y"]; leaf "text" 6 0 "again."];
     nd "section" 7 0 ""
       [fd "title" (leaf "text" 7 2 "Next");
        fd "meta" (nd "blockmeta" 8 0 "" [pair_ 8 "label" "sec"]);
        nd "block" 9 0 "" [fd "tag" (leaf "theorem" 9 1 "theorem");
                           fd "meta" (nd "blockmeta" 10 0 "" [pair_ 10 "label" "thm"; pair_ 10 "title" "On ""sums"""]);
                           nd "paragraph" 11 0 "" [leaf "text" 11 0 "Small."]]]].
Definition good_cst : cst := input_cst "If 1 < 2 then ""see"" ".
Definition bad_cst : cst := input_cst "If a <b then see ".
Definition good_ts (_ : str) : cst := good_cst.
Definition bad_ts (_ : str) : cst := bad_cst.
Definition good_run (hr : bool) := render_rsm good_ts demo_hl [] 400 (lit "x") [] hr true demo_lc (new_process demo_fs).
Definition good_out (hr : bool) : str := out_of (good_run hr).
Lemma hl_harmless : forall u l : str, harmless u = true -> harmless (demo_hl u l) = true.
Proof. auto. Qed.
Lemma good_input : no_markup true good_cst.
Proof. apply markless_ok; vm_compute; reflexivity. Qed.
Lemma clean_ok c : is_type "source_file" c && forallb no_source (c_children c) = true -> forallb key_typed (c_preorder c) = true ->
  forallb (fun d => negb (is_type "ERROR" d)) (c_preorder c) = true -> clean_source c.
Proof.
  intros H1 H2 H3. rewrite forallb_forall in H2, H3. apply andb_true_iff in H1. split; [exact H1|exact H2|].
  intros d Hd. specialize (H3 d Hd). destruct (is_type "ERROR" d); [discriminate H3|reflexivity].
Qed.
Lemma good_clean : clean_source good_cst. Proof. apply clean_ok; vm_compute; reflexivity. Qed.
Lemma bad_clean : clean_source bad_cst. Proof. apply clean_ok; vm_compute; reflexivity. Qed.
Lemma good_placed : formulas_placed (manuscript_of good_cst). Proof. apply RenderDemo.placed_ok. vm_compute. reflexivity. Qed.
Lemma bad_placed : formulas_placed (manuscript_of bad_cst). Proof. apply RenderDemo.placed_ok. vm_compute. reflexivity. Qed.
Lemma good_contents : contents_empty (manuscript_of good_cst). Proof. apply contents_ok. vm_compute. reflexivity. Qed.
Lemma some_out p : match p with (_, Ok (PObj (OText (_ :: _)))) => true | _ => false end = true ->
  exists w', p = (w', Ok (PObj (OText (out_of p)))) /\ out_of p <> [].
Proof. destruct p as [w' [[| | |[[|x s]|i|q]]|e]]; try discriminate. exists w'. split; [reflexivity|discriminate]. Qed.
Lemma good_renders hr : exists w', good_run hr = (w', Ok (PObj (OText (good_out hr)))) /\ good_out hr <> [].
Proof. apply some_out. destruct hr; vm_compute; reflexivity. Qed.
(** The tag is read from the text of the source. *)
Definition bad_run := render_rsm bad_ts demo_hl [] 400 (lit "x") [] false false demo_lc (new_process demo_fs).
Lemma bad_reads : exists ts hl pkg fuel source path c w w' out, fresh_ok (w_mem w) /\
  (forall text, given source path (w_fs w) text -> clean_source (ts text) /\ formulas_placed (manuscript_of (ts text))) /\
  render_rsm ts hl pkg fuel source path false false c w = (w', Ok (PObj (OText out))) /\ out <> [] /\ ~ nested (read_html out).
Proof.
  assert (E : exists w', bad_run = (w', Ok (PObj (OText (out_of bad_run)))) /\ out_of bad_run <> []) by (apply some_out; vm_compute; reflexivity).
  destruct E as (w' & E & Ho). exists bad_ts, demo_hl, [], 400, (lit "x"), [], demo_lc, (new_process demo_fs), w', (out_of bad_run).
  split; [apply new_fresh|]. split; [intros; split; [exact bad_clean|exact bad_placed]|]. split; [exact E|]. split; [exact Ho|].
  intros K. apply nestedb_ok in K. vm_compute in K. discriminate K.
Qed.
