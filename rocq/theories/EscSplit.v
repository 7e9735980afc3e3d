(** Splitting an escaped string at an escapable character: where it is cut, and what is kept. *)
From Verif Require Export EscProofs.
From Coq Require Import Lia.
Local Open Scope list_scope.

(** ** Specification *)

(** The string is cut at [i]: an escapable character, not the first of the string, with no backslash
    before it. *)
Definition cut (e : estr) (i : nat) : bool :=
  match i, nth_error (es_src e) i with
  | S j, Some c => existsb (N.eqb c) (es_chars e) && negb (match nth_error (es_src e) j with Some b => N.eqb b backslash | None => false end)
  | _, _ => false
  end.
Definition cuts (e : estr) : list nat := List.filter (cut e) (seq 0 (length (es_src e))).
(** The characters strictly between [a] and [b], without the last one. *)
Definition between (s : str) (a b : nat) : str := firstn (b - 1 - S a) (skipn (S a) s).
(** The parts of [s] for the cuts [l], the last one having been at [p]. *)
Fixpoint parts (s : str) (p : nat) (l : list nat) : list str :=
  match l with [] => [between s p (length s)] | c :: r => between s p c :: parts s c r end.
(** [sub] is in [s] at [i] and ends no later than [b]. *)
Definition occurs (sub s : str) (b i : nat) : Prop :=
  i + length sub <= b /\ forall k, k < length sub -> nth_error s (i + k) = nth_error sub k.

(** ** Proofs *)

Lemma cut_true e i : cut e i = true <-> 0 < i /\ exists c, In c (es_chars e) /\ unescaped c (es_src e) i.
Proof.
  unfold cut, unescaped, here. destruct i as [|j]; [split; [discriminate|intros [H _]; lia]|]. split.
  - destruct (nth_error (es_src e) (S j)) as [c|] eqn:E; [|discriminate]. rewrite andb_true_iff, negb_true_iff. intros [H1 H2]. split; [lia|].
    apply existsb_exists in H1 as (d & Hd & He). apply N.eqb_eq in He as ->. exists d. split; [assumption|]. split; [reflexivity|].
    intros k [= <-] Hk. rewrite Hk in H2. rewrite N.eqb_refl in H2. discriminate H2.
  - intros [_ (c & Hc & E & H)]. rewrite E, andb_true_iff, negb_true_iff. split; [apply existsb_exists; exists c; split; [assumption|apply N.eqb_refl]|].
    destruct (nth_error (es_src e) j) as [b|] eqn:Eb; [|reflexivity]. apply N.eqb_neq. intros ->. exact (H j eq_refl Eb).
Qed.
Lemma between_slice s a b : 1 <= b \/ s = [] -> b <= length s -> a <= length s -> py_slice s (Z.of_nat a + 1) (Z.of_nat b - 1) = between s a b.
Proof.
  intros Hb Hl Ha. destruct Hb as [Hb| ->].
  - unfold between, py_slice, sub_str, clamp, slen. 
    destruct (Z.ltb_spec (Z.of_nat a + 1) 0); [lia|]. destruct (Z.ltb_spec (Z.of_nat b - 1) 0); [lia|].
    destruct (le_lt_dec (length s) a) as [Hge|Hlt].
    + rewrite (skipn_all2 (n := S a)) by lia. rewrite skipn_all2 by lia. rewrite !firstn_nil. reflexivity.
    + replace (Z.to_nat (Z.max 0 (Z.min (Z.of_nat (length s)) (Z.of_nat a + 1)))) with (S a) by lia.
      f_equal. lia.
  - unfold between, py_slice, sub_str. rewrite !skipn_nil, !firstn_nil. reflexivity.
Qed.
Lemma runs_parts e : forall togo k p, k + togo = length (es_src e) -> p <= k ->
  runs_loop togo e (Z.of_nat p) (Z.of_nat k) = parts (es_src e) p (List.filter (cut e) (seq k togo)).
Proof.
  induction togo as [|togo IH]; intros k p Hk Hp; cbn [runs_loop seq List.filter].
  - cbn [parts]. rewrite between_slice; [f_equal; f_equal; lia| |lia|lia]. destruct (es_src e); [right; reflexivity|left; cbn [length] in Hk; lia].
  - rewrite char_at_nat. destruct k as [|j].
    + cbn [cut]. change ((0 <? Z.of_nat 0)%Z) with false. cbn [andb]. rewrite andb_false_r. change (Z.of_nat 0 + 1)%Z with (Z.of_nat 1). apply IH; lia.
    + replace (Z.of_nat (S j) - 1)%Z with (Z.of_nat j) by lia. rewrite char_at_nat.
      replace (0 <? Z.of_nat (S j))%Z with true by (symmetry; apply Z.ltb_lt; lia). cbn [andb].
      replace (Z.of_nat (S j) + 1)%Z with (Z.of_nat (S (S j))) by lia. cbn [cut]. destruct (nth_error (es_src e) (S j)) as [c|]; [|apply IH; lia].
      destruct (existsb (N.eqb c) (es_chars e) && negb _).
      * cbn [parts]. replace (Z.of_nat j) with (Z.of_nat (S j) - 1)%Z by lia. rewrite between_slice by lia. f_equal. apply IH; lia.
      * apply IH; lia.
Qed.
Lemma split_escapable e sep : escapable e sep = true -> es_split e (Some sep) true = Ok (parts (es_src e) 0 (cuts e)).
Proof.
  intros H. unfold es_split. rewrite H. cbn [negb orb]. f_equal. change 0%Z with (Z.of_nat 0). apply runs_parts; lia.
Qed.
Lemma parts_length s : forall l p, length (parts s p l) = S (length l).
Proof. induction l as [|c l IH]; intros p; [reflexivity|]. cbn [parts length]. rewrite IH. reflexivity. Qed.
Lemma split_count e sep : escapable e sep = true ->
  exists ps, es_split e (Some sep) true = Ok ps /\ length ps = S (length (cuts e)).
Proof. intros H. exists (parts (es_src e) 0 (cuts e)). split; [apply split_escapable, H|apply parts_length]. Qed.
Lemma cuts_spec e i : In i (cuts e) <-> 0 < i /\ exists c, In c (es_chars e) /\ unescaped c (es_src e) i.
Proof.
  unfold cuts. rewrite filter_In, cut_true, in_seq. split; [tauto|]. intros [H (c & Hc & Hu)]. split; [|eauto].
  pose proof (proj1 Hu) as Hn. unfold here in Hn. assert (i < length (es_src e)) by (apply nth_error_Some; congruence). lia.
Qed.
Lemma between_char s a b i : nth_error (between s a b) i = if Nat.ltb (S a + i) (b - 1) then nth_error s (S a + i) else None.
Proof. unfold between. rewrite nth_firstn, nth_skipn. destruct (Nat.ltb_spec i (b - 1 - S a)), (Nat.ltb_spec (S a + i) (b - 1)); try reflexivity; lia. Qed.

(** ** Searching for any string *)

Lemma prefixb_nth sub : forall s, prefixb sub s = true <-> forall k, k < length sub -> nth_error s k = nth_error sub k.
Proof.
  induction sub as [|c sub IH]; intros s; cbn [prefixb length].
  - split; [intros _ k Hk; lia|reflexivity].
  - destruct s as [|d s].
    + split; [discriminate|]. intros H. specialize (H 0 ltac:(lia)). discriminate H.
    + rewrite andb_true_iff, IH. split.
      * intros [H1 H2] [|k] Hk; [apply N.eqb_eq in H1 as ->; reflexivity|]. apply H2. lia.
      * intros H. split; [specialize (H 0 ltac:(lia)); injection H as ->; apply N.eqb_refl|]. intros k Hk. apply (H (S k)). lia.
Qed.
Lemma prefix_length sub s : prefixb sub s = true -> length sub <= length s.
Proof.
  intros H. rewrite prefixb_nth in H. destruct (le_lt_dec (length sub) (length s)) as [|Hlt]; [assumption|]. exfalso.
  specialize (H (length s) Hlt). rewrite (proj2 (nth_error_None s (length s)) (le_n _)) in H. symmetry in H. apply nth_error_None in H. lia.
Qed.
Lemma find_at_least sub : forall s, match find_at sub s with
  | Some k => occurs sub s (length s) k /\ forall j, j < k -> ~ occurs sub s (length s) j
  | None => forall j, ~ occurs sub s (length s) j end.
Proof.
  assert (H0 : forall s, occurs sub s (length s) 0 <-> prefixb sub s = true).
  { intros s. rewrite prefixb_nth. unfold occurs. split; [intros [_ H]; exact H|]. intros H. split; [|exact H]. cbn. apply prefix_length. apply prefixb_nth, H. }
  assert (HS : forall c s j, occurs sub (c :: s) (length (c :: s)) (S j) <-> occurs sub s (length s) j).
  { intros c s j. unfold occurs. cbn [length Nat.add nth_error]. split; (intros [H1 H2]; split; [lia|exact H2]). }
  induction s as [|c s IH]; cbn [find_at].
  - destruct (prefixb sub []) eqn:E; [split; [apply H0, E|intros; lia]|]. intros [|j] H; [apply H0 in H; congruence|].
    destruct H as [H1 H2]. cbn [length] in H1. lia.
  - destruct (prefixb sub (c :: s)) eqn:E; [split; [apply H0, E|intros; lia]|]. destruct (find_at sub s) as [k|].
    + destruct IH as [H1 H2]. split; [apply HS, H1|]. intros [|j] Hj H; [apply H0 in H; congruence|]. apply HS in H. apply (H2 j); [lia|exact H].
    + intros [|j] H; [apply H0 in H; congruence|]. apply HS in H. exact (IH j H).
Qed.
Lemma slice_length s a b : length (py_slice s a b) = lo s b - lo s a.
Proof. unfold py_slice, sub_str. fold (lo s a) (lo s b). rewrite firstn_length, skipn_length. pose proof (lo_le s b). lia. Qed.
Lemma occurs_slice sub s a b j : lo s a <= lo s b -> occurs sub (py_slice s a b) (length (py_slice s a b)) j <-> occurs sub s (lo s b) (lo s a + j).
Proof.
  intros Hab. unfold occurs. rewrite slice_length. split; intros [H1 H2]; split; try lia; intros k Hk; specialize (H2 k Hk).
  - rewrite <- H2. rewrite nth_slice. destruct (Nat.ltb_spec (lo s a + (j + k)) (lo s b)); [f_equal; lia|lia].
  - rewrite nth_slice. destruct (Nat.ltb_spec (lo s a + (j + k)) (lo s b)); [|lia]. rewrite <- H2. f_equal. lia.
Qed.
Lemma py_find_any sub s start fin : (start <= slen s)%Z -> least (occurs sub s (lo s fin)) (lo s start) (S (lo s fin)) (py_find sub s start fin).
Proof.
  intros Hs. unfold py_find. destruct (Z.ltb_spec (slen s) start) as [H|_]; [lia|]. pose proof (find_at_least sub (py_slice s start fin)) as H.
  destruct (le_lt_dec (lo s start) (lo s fin)) as [Hab|Hab].
  - destruct (find_at sub (py_slice s start fin)) as [k|].
    + destruct (Z.ltb_spec (clamp s fin) (clamp s start)) as [Hf|Hf]; [unfold lo, clamp in *; lia|]. destruct H as [H1 H2]. apply occurs_slice in H1; [|assumption].
      right. exists (lo s start + k). split; [unfold lo, clamp in *; lia|]. split; [destruct H1; lia|]. split; [exact H1|].
      intros j Hj Ho. apply (H2 (j - lo s start)); [lia|]. apply occurs_slice; [assumption|]. replace (lo s start + (j - lo s start)) with j by lia. exact Ho.
    + left. split; [reflexivity|]. intros j Hj Ho. apply (H (j - lo s start)). apply occurs_slice; [assumption|]. replace (lo s start + (j - lo s start)) with j by lia. exact Ho.
  - left. split; [|intros j Hj; lia]. destruct (find_at _ _) as [k|]; [|reflexivity].
    destruct (Z.ltb_spec (clamp s fin) (clamp s start)) as [Hf|Hf]; [reflexivity|unfold lo, clamp in *; lia].
Qed.
Lemma find_any e sub start fin a b sk : (sk = false \/ escapable e sub = false) -> (start <= Z.of_nat (length (es_src e)))%Z -> from_to (es_src e) start fin = (a, b) ->
  exists r, es_find e sub start fin sk = Ok r /\ least (occurs sub (es_src e) b) a (S b) r.
Proof.
  intros Hc Hs E. rewrite from_to_lo in E. injection E as <- <-. unfold es_find.
  assert (negb sk || negb (escapable e sub) = true) as -> by (destruct Hc as [-> | ->]; [reflexivity|apply orb_true_r]).
  eexists. split; [reflexivity|]. replace (match fin with Some k => lo (es_src e) k | None => length (es_src e) end) with (lo (es_src e) (match fin with None => slen (es_src e) | Some k => k end)).
  - apply py_find_any, Hs.
  - destruct fin; [reflexivity|apply lo_end].
Qed.
Lemma find_beyond e sub start fin sk : (Z.of_nat (length (es_src e)) < start)%Z -> es_find e sub start fin sk = Ok (-1)%Z.
Proof.
  intros H. unfold es_find, py_find. destruct (Z.ltb_spec (slen (es_src e)) start) as [_|Hn]; [|unfold slen in Hn; lia]. destruct (_ || _); reflexivity.
Qed.
