From Verif Require Export SpecEsc.
From Coq Require Import Lia.
Local Open Scope Z_scope.

(** ** Positions *)
Lemma find_at_char c s : match find_at [c] s with
  | Some k => nth_error s k = Some c /\ forall j, (j < k)%nat -> nth_error s j <> Some c
  | None => forall j, nth_error s j <> Some c end.
Proof.
  induction s as [|d s IH]; cbn [find_at prefixb].
  - intros [|j]; discriminate.
  - rewrite andb_true_r. destruct (N.eqb_spec c d) as [->|E]; [split; [reflexivity|intros; lia]|].
    destruct (find_at [c] s) as [k|].
    + destruct IH as [H1 H2]. split; [exact H1|]. intros [|j] Hj; cbn; [congruence|]. apply H2. lia.
    + intros [|j]; cbn; [congruence|apply IH].
Qed.
Lemma nth_firstn {X} (l : list X) n i : nth_error (firstn n l) i = if Nat.ltb i n then nth_error l i else None.
Proof.
  revert n i. induction l as [|x l IH]; intros [|n] [|i]; cbn; try reflexivity.
  - match goal with |- context [if ?b then _ else _] => destruct b end; reflexivity.
  - rewrite IH. reflexivity.
Qed.
Lemma nth_skipn {X} (l : list X) a i : nth_error (skipn a l) i = nth_error l (a + i).
Proof. revert l. induction a as [|a IH]; intros [|x l]; cbn; try reflexivity; [destruct i; reflexivity|apply IH]. Qed.
Definition lo (s : str) (k : Z) : nat := Z.to_nat (clamp s k).
Lemma lo_le s k : (lo s k <= length s)%nat. Proof. unfold lo, clamp, slen. lia. Qed.
Lemma nth_slice s a b i : nth_error (py_slice s a b) i = if Nat.ltb (lo s a + i) (lo s b) then nth_error s (lo s a + i) else None.
Proof.
  unfold py_slice, sub_str. fold (lo s a) (lo s b). rewrite nth_firstn, nth_skipn.
  destruct (Nat.ltb_spec i (lo s b - lo s a)), (Nat.ltb_spec (lo s a + i) (lo s b)); try reflexivity; lia.
Qed.
Lemma py_find_least c s start fin : least (here c s) (lo s start) (lo s fin) (py_find [c] s start fin).
Proof.
  unfold py_find. destruct (Z.ltb_spec (slen s) start) as [Hs|Hs].
  - left. split; [reflexivity|]. intros i Hi. exfalso. unfold lo, clamp, slen in *. destruct (Z.ltb_spec start 0); destruct (Z.ltb_spec fin 0); lia.
  - pose proof (find_at_char c (py_slice s start fin)) as H. destruct (find_at [c] (py_slice s start fin)) as [k|].
    + destruct H as [H1 H2]. rewrite nth_slice in H1. destruct (Nat.ltb_spec (lo s start + k) (lo s fin)) as [Hk|]; [|discriminate H1].
      destruct (Z.ltb_spec (clamp s fin) (clamp s start)) as [Hf|Hf]; [unfold lo in *; lia|].
      right. exists (lo s start + k)%nat. split; [unfold lo, clamp in *; lia|]. split; [lia|]. split; [exact H1|].
      intros j Hj E. apply (H2 (j - lo s start)%nat); [lia|]. rewrite nth_slice. replace (lo s start + (j - lo s start))%nat with j by lia.
      destruct (Nat.ltb_spec j (lo s fin)); [exact E|lia].
    + left. split; [reflexivity|]. intros i Hi E. apply (H (i - lo s start)%nat). rewrite nth_slice. replace (lo s start + (i - lo s start))%nat with i by lia.
      destruct (Nat.ltb_spec i (lo s fin)); [exact E|lia].
Qed.
Lemma from_to_lo s start fin : from_to s start fin = (lo s start, match fin with None => length s | Some k => lo s k end).
Proof. unfold from_to, lo, clamp, slen. destruct fin; f_equal; lia. Qed.
Lemma lo_end s : lo s (slen s) = length s. Proof. unfold lo, clamp, slen. destruct (Z.ltb_spec (Z.of_nat (length s)) 0); lia. Qed.
Lemma lo_nat s i : (i <= length s)%nat -> lo s (Z.of_nat i) = i.
Proof. intros H. unfold lo, clamp, slen. destruct (Z.ltb_spec (Z.of_nat i) 0); lia. Qed.
Lemma here_lt c s i : here c s i -> (i < length s)%nat.
Proof. intros H. apply nth_error_Some. unfold here in H. congruence. Qed.
Lemma char_at_nat s i : char_at s (Z.of_nat i) = nth_error s i.
Proof. unfold char_at. destruct (Z.ltb_spec (Z.of_nat i) 0); [lia|]. destruct (Z.ltb_spec (Z.of_nat i) 0); [lia|]. rewrite Nat2Z.id. reflexivity. Qed.

(** ** find *)
Lemma find_loop_ok c s fin a : forall fuel i, here c s i -> (1 <= i)%nat -> (a <= i < lo s fin)%nat -> (length s - i <= fuel)%nat ->
  (forall j, (a <= j < i)%nat -> ~ unescaped c s j) ->
  exists r, find_loop fuel s [c] fin (Z.of_nat i) = Ok r /\ least (unescaped c s) a (lo s fin) r.
Proof.
  induction fuel as [|fuel IH]; intros i Hi H1 Ha Hf Hb; [apply here_lt in Hi; lia|]. cbn [find_loop].
  replace (Z.of_nat i - 1) with (Z.of_nat (i - 1)) by lia. rewrite char_at_nat.
  pose proof (here_lt _ _ _ Hi) as Hl. destruct (nth_error s (i - 1)) as [d|] eqn:Ed; [|apply nth_error_None in Ed; lia].
  destruct (N.eqb_spec d backslash) as [->|En].
  - replace (Z.of_nat i + 1) with (Z.of_nat (S i)) by lia. pose proof (py_find_least c s (Z.of_nat (S i)) fin) as HL. rewrite lo_nat in HL by lia.
    assert (Hni : ~ unescaped c s i) by (intros [_ H]; apply (H (i - 1)%nat); [lia|assumption]).
    destruct HL as [[-> Hno]|(k & -> & Hk & Hhk & Hno)].
    + exists (-1). split; [reflexivity|]. left. split; [reflexivity|]. intros j Hj Hu. destruct (Nat.lt_trichotomy j i) as [L|[->|L]]; [apply (Hb j); [lia|assumption]|contradiction|].
      apply (Hno j); [lia|]. apply Hu.
    + destruct (Z.ltb_spec (Z.of_nat k) 0); [lia|]. apply IH; [assumption|lia|lia|lia|]. intros j Hj Hu.
      destruct (Nat.lt_trichotomy j i) as [L|[->|L]]; [apply (Hb j); [lia|assumption]|contradiction|]. apply (Hno j); [lia|]. apply Hu.
  - exists (Z.of_nat i). split; [reflexivity|]. right. exists i. split; [reflexivity|]. split; [lia|]. split; [|assumption].
    split; [assumption|]. intros j Hj E. subst i. replace (S j - 1)%nat with j in Ed by lia. congruence.
Qed.
Lemma fin_lo s fin : lo s (match fin with None => slen s | Some k => k end) = match fin with None => length s | Some k => lo s k end.
Proof. destruct fin; [reflexivity|apply lo_end]. Qed.
Lemma find_first e c start fin a b : In c (es_chars e) -> from_to (es_src e) start fin = (a, b) ->
  exists r, es_find e [c] start fin true = Ok r /\ least (unescaped c (es_src e)) a b r.
Proof.
  intros Hc E. rewrite from_to_lo in E. injection E as <- <-. unfold es_find. rewrite <- fin_lo.
  set (f := match fin with None => slen (es_src e) | Some k => k end).
  assert (escapable e [c] = true) as -> by (cbn; apply existsb_exists; exists c; split; [assumption|apply N.eqb_refl]). cbn [negb orb].
  destruct (py_find_least c (es_src e) start f) as [[-> Hno]|(i & -> & Hi & Hh & Hno)].
  - exists (-1). split; [reflexivity|]. left. split; [reflexivity|]. intros j Hj Hu. apply (Hno j Hj). apply Hu.
  - destruct (Z.ltb_spec (Z.of_nat i) 1) as [Hz|Hz].
    + exists (Z.of_nat i). split; [reflexivity|]. right. exists i. split; [reflexivity|]. split; [assumption|]. split; [split; [assumption|intros j Hj; lia]|].
      intros j Hj; lia.
    + apply find_loop_ok; [assumption|lia|lia|lia|]. intros j Hj Hu. apply (Hno j Hj). apply Hu.
Qed.
(** [unescaped] marks the positions that are counted. *)
Lemma find_plain e c start fin a b sk : (sk = false \/ ~ In c (es_chars e)) -> from_to (es_src e) start fin = (a, b) ->
  exists r, es_find e [c] start fin sk = Ok r /\ least (here c (es_src e)) a b r.
Proof.
  intros Hc E. rewrite from_to_lo in E. injection E as <- <-. unfold es_find. rewrite <- fin_lo.
  set (f := match fin with None => slen (es_src e) | Some k => k end).
  assert (negb sk || negb (escapable e [c]) = true) as ->.
  { destruct Hc as [-> |Hc]; [reflexivity|]. apply orb_true_iff. right. apply negb_true_iff. cbn. destruct (existsb (N.eqb c) (es_chars e)) eqn:E; [|reflexivity].
    apply existsb_exists in E as (d & Hd & E). apply N.eqb_eq in E as ->. contradiction. }
  eexists. split; [reflexivity|]. apply py_find_least.
Qed.

(** ** index *)
Lemma least_unique P a b r r' : least P a b r -> least P a b r' -> r = r'.
Proof.
  intros [[-> H]|(i & -> & Hi & Hp & Hn)] [[-> H']|(i' & -> & Hi' & Hp' & Hn')]; try reflexivity.
  - exfalso. apply (H i'); assumption.
  - exfalso. apply (H' i); assumption.
  - f_equal. destruct (Nat.lt_trichotomy i i') as [L|[L|L]]; [|assumption|]; exfalso; [apply (Hn' i)|apply (Hn i')]; auto; lia.
Qed.
Lemma index_loop_ok c s fin a k : (a <= k < lo s fin)%nat -> unescaped c s k -> (forall j, (a <= j < k)%nat -> ~ unescaped c s j) ->
  forall fuel i, here c s i -> (1 <= i)%nat -> (a <= i)%nat -> (i <= k)%nat -> (k - i < fuel)%nat ->
  index_loop fuel s [c] fin (Z.of_nat i) = Ok (Z.of_nat k).
Proof.
  intros Hk Huk Hb. induction fuel as [|fuel IH]; intros i Hi H1 Ha Hik Hf; [lia|]. cbn [index_loop].
  replace (Z.of_nat i - 1) with (Z.of_nat (i - 1)) by lia. rewrite char_at_nat.
  pose proof (here_lt _ _ _ Hi) as Hl. destruct (nth_error s (i - 1)) as [d|] eqn:Ed; [|apply nth_error_None in Ed; lia].
  destruct (N.eqb_spec d backslash) as [->|En].
  - assert (i <> k) by (intros ->; destruct Huk as [_ H]; apply (H (k - 1)%nat); [lia|assumption]).
    replace (Z.of_nat i + 1) with (Z.of_nat (S i)) by lia. pose proof (py_find_least c s (Z.of_nat (S i)) fin) as HL. rewrite lo_nat in HL by lia.
    destruct HL as [[_ Hno]|(m & -> & Hm & Hhm & Hno)].
    + exfalso. apply (Hno k); [lia|]. apply Huk.
    + assert (m <= k)%nat by (destruct (Nat.le_gt_cases m k); [assumption|]; exfalso; apply (Hno k); [lia|apply Huk]). apply IH; auto; lia.
  - destruct (Nat.eq_dec i k) as [->|Hne]; [reflexivity|]. exfalso. apply (Hb i); [lia|]. split; [assumption|].
    intros j -> E. replace (S j - 1)%nat with j in Ed by lia. congruence.
Qed.
Lemma index_found e c start fin a b k fuel : In c (es_chars e) -> from_to (es_src e) start fin = (a, b) ->
  least (unescaped c (es_src e)) a b (Z.of_nat k) -> (length (es_src e) <= fuel)%nat -> es_index fuel e [c] start fin true = Ok (Z.of_nat k).
Proof.
  intros Hc E HL Hf. rewrite from_to_lo in E. injection E as <- <-. unfold es_index. rewrite <- fin_lo in HL.
  set (f := match fin with None => slen (es_src e) | Some k => k end) in *.
  assert (escapable e [c] = true) as -> by (cbn; apply existsb_exists; exists c; split; [assumption|apply N.eqb_refl]). cbn [negb orb].
  destruct HL as [[Hbad _]|(k' & Ek & Hk & Hu & Hno)]; [lia|]. apply Nat2Z.inj in Ek as <-.
  destruct (py_find_least c (es_src e) start f) as [[-> Hn]|(i & -> & Hi & Hh & Hn)]; [exfalso; apply (Hn k Hk); apply Hu|].
  destruct (Z.ltb_spec (Z.of_nat i) 0); [lia|].
  assert (i <= k)%nat by (destruct (Nat.le_gt_cases i k); [assumption|]; exfalso; apply (Hn k); [lia|apply Hu]).
  destruct (Z.eqb_spec (Z.of_nat i) 0) as [Ez|Ez].
  - f_equal. f_equal. assert (i = 0%nat) as -> by lia. destruct (Nat.eq_dec k 0%nat) as [->|Hne]; [reflexivity|]. exfalso. apply (Hno 0%nat); [lia|]. split; [assumption|]. intros j; lia.
  - pose proof (here_lt _ _ _ (proj1 Hu)). eapply index_loop_ok; try eassumption; try lia.
Qed.
Lemma index_absent e c start fin a b fuel sk : from_to (es_src e) start fin = (a, b) ->
  (forall i, (a <= i < b)%nat -> ~ here c (es_src e) i) -> es_index fuel e [c] start fin sk = Err EValue.
Proof.
  intros E Hno. rewrite from_to_lo in E. injection E as <- <-. unfold es_index. rewrite <- fin_lo in Hno.
  set (f := match fin with None => slen (es_src e) | Some k => k end) in *.
  destruct (py_find_least c (es_src e) start f) as [[-> Hn]|(i & -> & Hi & Hh & Hn)]; [reflexivity|]. exfalso. apply (Hno i Hi Hh).
Qed.
(** All occurrences are escaped: -1 is returned. *)
Lemma index_minus : forall fuel, (2 <= fuel)%nat -> es_index fuel (MkE (lit "a\:b") (lit ":")) (lit ":") 0 None true = Ok (-1).
Proof. intros [|[|fuel]] H; try lia. reflexivity. Qed.
(** Or the loop goes on for ever. *)
Lemma index_forever : forall fuel, es_index fuel (MkE (lit "\:") (lit ":")) (lit ":") 0 None true = Err EOutOfFuel.
Proof.
  assert (H : forall fuel, index_loop fuel (lit "\:") (lit ":") 2 1 = Err EOutOfFuel /\ index_loop fuel (lit "\:") (lit ":") 2 (-1) = Err EOutOfFuel).
  { induction fuel as [|fuel [IH1 IH2]]; [split; reflexivity|]. split; [exact IH2|exact IH1]. }
  intros fuel. exact (proj1 (H fuel)).
Qed.

(** ** escape *)
(** One replacement removes the backslashes before one character. *)
Lemma replace_step c b r : c <> backslash -> replace [backslash; c] [c] (b :: r) =
  match r with
  | d :: r' => if N.eqb b backslash && N.eqb d c then c :: replace [backslash; c] [c] r' else b :: replace [backslash; c] [c] r
  | [] => [b]
  end.
Proof.
  intros Hc. unfold replace. cbn [replace_go prefixb]. rewrite (N.eqb_sym backslash b). destruct r as [|d r']; [rewrite andb_false_r; reflexivity|].
  rewrite andb_true_r, (N.eqb_sym c d). destruct (N.eqb b backslash && N.eqb d c); reflexivity.
Qed.
Definition unesc1 (c : char) (s : str) : str := unescape [c] s.
Lemma replace_unescape c s : c <> backslash -> replace [backslash; c] [c] s = unescape [c] s.
Proof.
  intros Hc. remember (length s) as n eqn:En. revert s En. induction n as [n IH] using (well_founded_induction lt_wf). intros s ->.
  destruct s as [|b r]; [reflexivity|]. rewrite replace_step by assumption. destruct r as [|d r']; [reflexivity|].
  cbn [unescape existsb]. rewrite orb_false_r. destruct (N.eqb_spec b backslash) as [->|Eb]; cbn [andb].
  - destruct (N.eqb_spec d c) as [->|Ed].
    + rewrite (IH (length r')) by (cbn; auto; lia). destruct r' as [|e r'']; [reflexivity|]. apply N.eqb_neq in Hc. cbn [unescape existsb]. rewrite Hc. reflexivity.
    + rewrite (IH (length (d :: r'))) by (cbn; auto; lia). reflexivity.
  - rewrite (IH (length (d :: r'))) by (cbn; auto; lia). reflexivity.
Qed.
Definition headis (p : char -> bool) (s : str) : bool := match s with c :: _ => p c | [] => false end.
Lemma unescape_cons l b r : unescape l (b :: r) = if N.eqb b backslash && headis (fun c => existsb (N.eqb c) l) r then unescape l r else b :: unescape l r.
Proof. destruct r as [|c r]; [cbn; rewrite andb_false_r; reflexivity|reflexivity]. Qed.
Definition inb (l : list char) (c : char) : bool := existsb (N.eqb c) l.
Lemma inb_spec l c : inb l c = true <-> In c l.
Proof.
  unfold inb. split; [intros H; apply existsb_exists in H as (d & Hd & E); apply N.eqb_eq in E as ->; assumption|].
  intros H. apply existsb_exists. exists c. split; [assumption|apply N.eqb_refl].
Qed.
Lemma inb_app l l' c : inb (l ++ l') c = inb l c || inb l' c. Proof. apply existsb_app. Qed.
(** The first character of the result, when it is of the other set. *)
Lemma unescape_head l l' s : ~ In backslash l -> ~ In backslash l' -> (forall c, In c l -> ~ In c l') ->
  headis (inb l') (unescape l s) = headis (inb l') s.
Proof.
  intros Hb Hb' Hd. destruct s as [|b r]; [reflexivity|]. rewrite unescape_cons. fold (inb l). destruct (N.eqb_spec b backslash) as [->|Eb]; cbn [andb]; [|reflexivity].
  destruct r as [|c r]; [reflexivity|]. cbn [headis]. change (existsb (N.eqb c) l) with (inb l c).
  destruct (inb l c) eqn:E; [|reflexivity]. apply inb_spec in E.
  assert (Hl' : inb l' backslash = false) by (destruct (inb l' backslash) eqn:F; [apply inb_spec in F; contradiction|reflexivity]). rewrite Hl'.
  rewrite unescape_cons. destruct (N.eqb_spec c backslash) as [->|Ec]; [contradiction|]. cbn [andb headis].
  destruct (inb l' c) eqn:F; [|reflexivity]. apply inb_spec in F. exfalso. exact (Hd c E F).
Qed.
Lemma unescape_comp l l' s : ~ In backslash l -> ~ In backslash l' -> (forall c, In c l -> ~ In c l') ->
  unescape l' (unescape l s) = unescape (l ++ l') s.
Proof.
  intros Hb Hb' Hd. induction s as [|b r IH]; [reflexivity|]. rewrite (unescape_cons l), (unescape_cons (l ++ l')).
  assert (Hh : headis (fun c => existsb (N.eqb c) (l ++ l')) r = headis (inb l) r || headis (inb l') r) by (destruct r; [reflexivity|apply inb_app]).
  rewrite Hh. change (fun c => existsb (N.eqb c) l) with (inb l). destruct (N.eqb b backslash) eqn:Eb; cbn [andb].
  - destruct (headis (inb l) r); cbn [orb]; [exact IH|]. rewrite unescape_cons, Eb. cbn [andb]. change (fun c => existsb (N.eqb c) l') with (inb l').
    rewrite unescape_head by assumption. rewrite IH. reflexivity.
  - rewrite unescape_cons, Eb. cbn [andb]. rewrite IH. reflexivity.
Qed.
Lemma unescape_nil s : unescape [] s = s.
Proof. induction s as [|b r IH]; [reflexivity|]. rewrite unescape_cons. destruct r; cbn [headis existsb]; rewrite andb_false_r, IH; reflexivity. Qed.
Lemma escape_fold l : forall l0 s, ~ In backslash (l0 ++ l) -> NoDup (l0 ++ l) ->
  fold_left (fun ret c => replace [backslash; c] [c] ret) l (unescape l0 s) = unescape (l0 ++ l) s.
Proof.
  induction l as [|c l IH]; intros l0 s Hb Hn; [rewrite app_nil_r; reflexivity|]. cbn [fold_left].
  rewrite replace_unescape by (intros ->; apply Hb; apply in_or_app; right; left; reflexivity).
  rewrite unescape_comp.
  - replace (l0 ++ c :: l) with ((l0 ++ [c]) ++ l) in * by (rewrite <- app_assoc; reflexivity). apply IH; assumption.
  - intros H. apply Hb. apply in_or_app. left. assumption.
  - intros [-> |[]]. apply Hb. apply in_or_app. right. left. reflexivity.
  - intros d Hd [-> |[]]. apply list.NoDup_app in Hn as (_ & Hn & _). apply (Hn d); [apply elem_of_list_In; assumption|constructor].
Qed.
Lemma escape_exact e : ~ In backslash (es_chars e) -> NoDup (es_chars e) -> escape e = unescape (es_chars e) (es_src e).
Proof. intros Hb Hn. unfold escape. rewrite <- (unescape_nil (es_src e)) at 1. apply (escape_fold (es_chars e) []); assumption. Qed.
Lemma unescape_same l l' s : (forall c, In c l <-> In c l') -> unescape l s = unescape l' s.
Proof.
  intros H. assert (E : forall c, inb l c = inb l' c) by (intros c; apply eq_true_iff_eq; rewrite !inb_spec; apply H).
  induction s as [|b r IH]; [reflexivity|]. rewrite !unescape_cons. change (fun c => existsb (N.eqb c) l) with (inb l). change (fun c => existsb (N.eqb c) l') with (inb l').
  assert (headis (inb l) r = headis (inb l') r) as -> by (destruct r; [reflexivity|apply E]). rewrite IH. reflexivity.
Qed.
Lemma escape_order s l l' : ~ In backslash l -> NoDup l -> Permutation l l' -> escape (MkE s l) = escape (MkE s l').
Proof.
  intros Hb Hn Hp. rewrite escape_exact by assumption. assert (Hs : forall c, In c l <-> In c l') by (intros c; split; apply Permutation_in; [|symmetry]; assumption).
  rewrite escape_exact; cbn [es_chars es_src]; [apply unescape_same; assumption| |rewrite <- Hp; assumption].
  intros H. apply Hb. apply Hs. assumption.
Qed.
(** A string without backslashes, and escaping every escapable character. *)
Lemma unescape_plain l s : ~ In backslash s -> unescape l s = s.
Proof.
  induction s as [|b r IH]; intros H; [reflexivity|]. rewrite unescape_cons. destruct (N.eqb_spec b backslash) as [->|E]; [exfalso; apply H; left; reflexivity|].
  cbn [andb]. rewrite IH; [reflexivity|]. intros Hr. apply H. right. assumption.
Qed.

(** ** split *)
Lemma prefixb_app p s : prefixb p s = true <-> exists r, s = p ++ r.
Proof.
  revert s. induction p as [|a p IH]; intros s; [split; [exists s; reflexivity|reflexivity]|]. destruct s as [|b s]; cbn [prefixb].
  - split; [discriminate|]. intros [r E]. discriminate E.
  - rewrite andb_true_iff, N.eqb_eq, IH. split; [intros [-> [r ->]]; exists r; reflexivity|]. intros [r E]. injection E as -> ->. split; [reflexivity|exists r; reflexivity].
Qed.
Lemma split_skip sep p : forall s cur, split_go sep (p ++ s) cur (length p) = split_go sep s cur 0.
Proof. induction p as [|a p IH]; intros s cur; [reflexivity|]. cbn [app length split_go]. apply IH. Qed.
Lemma split_ne sep s : forall cur k, split_go sep s cur k <> [].
Proof.
  induction s as [|c s IH]; intros cur k; cbn [split_go]; [discriminate|]. destruct k; [|apply IH]. destruct (prefixb sep (c :: s)); [discriminate|apply IH].
Qed.
Lemma join_cons sep a l : l <> [] -> join sep (a :: l) = a ++ sep ++ join sep l.
Proof. destruct l; [congruence|reflexivity]. Qed.
Lemma split_join_go sep : sep <> [] -> forall n s cur, (length s <= n)%nat -> join sep (split_go sep s cur 0) = rev cur ++ s.
Proof.
  intros Hs. induction n as [|n IH]; intros s cur Hn; (destruct s as [|c s]; [cbn; rewrite app_nil_r; reflexivity|]); [cbn in Hn; lia|].
  cbn [split_go]. destruct (prefixb sep (c :: s)) eqn:E.
  - apply prefixb_app in E as [r E]. rewrite join_cons by apply split_ne. f_equal. destruct sep as [|d sep]; [congruence|]. injection E as -> ->.
    cbn [length]. rewrite Nat.sub_succ, Nat.sub_0_r, split_skip. rewrite IH; [reflexivity|]. cbn in Hn. rewrite app_length in Hn. lia.
  - rewrite IH by (cbn in Hn; lia). cbn [rev]. rewrite <- app_assoc. reflexivity.
Qed.
Lemma split_join sep s : sep <> [] -> join sep (py_split sep s) = s.
Proof. intros H. unfold py_split. apply (split_join_go sep H (length s)). lia. Qed.
(** No part contains the separator, for a separator of one character. *)
Lemma split_parts c s : forall cur, ~ In c cur -> Forall (fun p => ~ In c p) (split_go [c] s cur 0).
Proof.
  induction s as [|d s IH]; intros cur Hc; cbn [split_go].
  - constructor; [rewrite <- in_rev; assumption|constructor].
  - cbn [prefixb]. rewrite andb_true_r. destruct (N.eqb_spec c d) as [->|E].
    + constructor; [rewrite <- in_rev; assumption|]. cbn [length]. apply IH. intros [].
    + apply IH. intros [->|H]; [congruence|contradiction].
Qed.
Lemma split_plain e sep sk : sep <> [] -> (sk = false \/ escapable e sep = false) ->
  exists parts, es_split e (Some sep) sk = Ok parts /\ join sep parts = es_src e /\ (forall c, sep = [c] -> Forall (fun p => ~ In c p) parts).
Proof.
  intros Hs H. unfold es_split. assert (negb sk || negb (escapable e sep) = true) as -> by (destruct H as [-> | ->]; [reflexivity|apply orb_true_r]).
  exists (py_split sep (es_src e)). split; [destruct sep; [congruence|reflexivity]|]. split; [apply split_join; assumption|].
  intros c ->. apply split_parts. intros [].
Qed.
(** At an escapable character it loses everything here. *)
Lemma split_loses : es_split (MkE (lit "a:b:c") (lit ":")) (Some (lit ":")) true = Ok [[]; []; []].
Proof. vm_compute. reflexivity. Qed.
Lemma split_loses_ex : exists e sep parts, escapable e sep = true /\ es_split e (Some sep) true = Ok parts /\ join sep parts <> es_src e.
Proof.
  exists (MkE (lit "a:b:c") (lit ":")), (lit ":"), [[]; []; []]. split; [reflexivity|]. split; [apply split_loses|]. vm_compute. discriminate.
Qed.
Lemma index_minus_ex : exists e c, In c (es_chars e) /\
  (forall i, ~ unescaped c (es_src e) i) /\ forall fuel, (2 <= fuel)%nat -> es_index fuel e [c] 0 None true = Ok (-1).
Proof.
  exists (MkE (lit "a\:b") (lit ":")), 58%N. split; [left; reflexivity|]. split; [|exact index_minus].
  intros i [H1 H2]. unfold here in H1. cbn in H1. destruct i as [|[|[|[|[|i]]]]]; try discriminate H1. apply (H2 1%nat); reflexivity.
Qed.
Lemma index_forever_ex : exists e c, In c (es_chars e) /\ forall fuel, es_index fuel e [c] 0 None true = Err EOutOfFuel.
Proof. exists (MkE (lit "\:") (lit ":")), 58%N. split; [left; reflexivity|exact index_forever]. Qed.
Lemma escape_order_matters : exists s l l', NoDup l /\ Permutation l l' /\ escape (MkE s l) <> escape (MkE s l').
Proof.
  exists (lit "\\:"), [backslash; 58%N], [58%N; backslash]. split; [apply (bool_decide_unpack _); vm_compute; exact I|].
  split; [constructor|]. vm_compute. discriminate.
Qed.
