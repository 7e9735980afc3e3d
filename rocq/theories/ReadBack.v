(** Reading what has been written. *)
From Verif Require Export SpecRead.
Local Open Scope string_scope.
Local Open Scope list_scope.
Local Open Scope N_scope.

Lemma read_eq m c r : read m (c :: r) = snd (step m c) ++ read (fst (step m c)) r. Proof. reflexivity. Qed.
Lemma lacks_app c a b : lacks c (a ++ b) = lacks c a && lacks c b. Proof. apply forallb_app. Qed.
Lemma lacks_harmless s : lacks LT s = true -> harmless s = true.
Proof.
  induction s as [|c s IH]; [reflexivity|]. cbn. destruct (c =? LT); [discriminate|]. apply IH.
Qed.

(** A word of a tag: no blanks, quotes, [=], [/], [<], [>]. *)
Definition word_char (c : char) : bool :=
  negb (is_blank c) && negb (c =? QUOTE) && negb (c =? 39) && negb (c =? EQUALS) && negb (c =? SLASH) && negb (c =? LT) && negb (c =? GT).
Definition word (s : str) : bool := match s with [] => false | _ => forallb word_char s end.
Definition tag_name (s : str) : bool := match s with c :: _ => is_letter c && forallb word_char s | [] => false end.
Definition clean_attrib (a : attrib) : bool :=
  match a with AQ k v => word k && lacks QUOTE v | AU k v => word k && word v end.
Definition clean_tok (t : tok) : bool :=
  match t with
  | TOpen tag ats | TSelf tag ats => tag_name tag && forallb clean_attrib ats
  | TClose tag => tag_name tag
  | TRaw s => lacks LT s
  | TText _ s => harmless s
  end.

Lemma word_char_ne c : word_char c = true ->
  is_blank c = false /\ (c =? QUOTE) = false /\ (c =? 39) = false /\ (c =? EQUALS) = false /\ (c =? SLASH) = false /\ (c =? LT) = false /\ (c =? GT) = false.
Proof.
  unfold word_char. destruct (is_blank c), (c =? QUOTE), (c =? 39), (c =? EQUALS), (c =? SLASH), (c =? LT), (c =? GT); cbn; intros H; try discriminate H; repeat split; reflexivity.
Qed.
Ltac wc H := let A := fresh in pose proof (word_char_ne _ H) as A; destruct A as (?E0 & ?E1 & ?E2 & ?E3 & ?E4 & ?E5 & ?E6).
Lemma read_text s r : harmless s = true -> read Text (s ++ r) = map (fun c => TRaw [c]) s ++ read Text r.
Proof.
  induction s as [|c s IH]; [reflexivity|]. cbn [harmless]. intros H. apply andb_true_iff in H as [H1 H2].
  cbn [app]. rewrite read_eq. cbn [step]. destruct (c =? LT) eqn:E; [|cbn; f_equal; auto].
  apply N.eqb_eq in E as ->. destruct s as [|d s]; [discriminate H1|]. apply negb_true_iff in H1. specialize (IH H2).
  cbn [app fst snd map] in *. rewrite read_eq in IH |- *. cbn [step] in *. destruct (d =? SLASH) eqn:E1; [apply N.eqb_eq in E1 as ->; discriminate H1|].
  rewrite H1. destruct (d =? LT) eqn:E2; cbn in *; [apply N.eqb_eq in E2 as ->; f_equal; assumption|]. f_equal. assumption.
Qed.
Lemma read_name tag : forall w r, forallb word_char tag = true -> read (Name w) (tag ++ r) = read (Name (rev tag ++ w)) r.
Proof.
  induction tag as [|c tag IH]; intros w r H; [reflexivity|]. cbn in H. apply andb_true_iff in H as [H1 H2]. wc H1.
  cbn [app]. rewrite read_eq. cbn [step]. rewrite E6, E4, E0. cbn [fst snd app]. rewrite IH by assumption. cbn [rev]. rewrite <- app_assoc. reflexivity.
Qed.
Lemma read_endname tag : forall w r, forallb word_char tag = true -> read (EndName w) (tag ++ r) = read (EndName (rev tag ++ w)) r.
Proof.
  induction tag as [|c tag IH]; intros w r H; [reflexivity|]. cbn in H. apply andb_true_iff in H as [H1 H2]. wc H1.
  cbn [app]. rewrite read_eq. cbn [step]. rewrite E6. cbn [fst snd app]. rewrite IH by assumption. cbn [rev]. rewrite <- app_assoc. reflexivity.
Qed.
Lemma read_key tag ats k : forall w r, forallb word_char k = true -> read (Key tag ats w) (k ++ r) = read (Key tag ats (rev k ++ w)) r.
Proof.
  induction k as [|c k IH]; intros w r H; [reflexivity|]. cbn in H. apply andb_true_iff in H as [H1 H2]. wc H1.
  cbn [app]. rewrite read_eq. cbn [step]. rewrite E3, E6, E0. cbn [fst snd app]. rewrite IH by assumption. cbn [rev]. rewrite <- app_assoc. reflexivity.
Qed.
Lemma read_bare tag ats k v : forall w r, forallb word_char v = true -> read (Bare tag ats k w) (v ++ r) = read (Bare tag ats k (rev v ++ w)) r.
Proof.
  induction v as [|c v IH]; intros w r H; [reflexivity|]. cbn in H. apply andb_true_iff in H as [H1 H2]. wc H1.
  cbn [app]. rewrite read_eq. cbn [step]. rewrite E6, E0. cbn [fst snd app]. rewrite IH by assumption. cbn [rev]. rewrite <- app_assoc. reflexivity.
Qed.
Lemma read_quoted tag ats k v : forall w r, lacks QUOTE v = true -> read (Quoted QUOTE tag ats k w) (v ++ r) = read (Quoted QUOTE tag ats k (rev v ++ w)) r.
Proof.
  induction v as [|c v IH]; intros w r H; [reflexivity|]. cbn in H. apply andb_true_iff in H as [H1 H2]. apply negb_true_iff in H1.
  cbn [app]. rewrite read_eq. cbn [step]. rewrite H1. cbn [fst snd app]. rewrite IH by assumption. cbn [rev]. rewrite <- app_assoc. reflexivity.
Qed.

(** The reader after a tag's name or attribute: before [>] or a blank these modes behave alike. *)
Definition after (m : mode) (tag : str) (ats : list attrib) : Prop :=
  (forall r, read m (GT :: r) = TOpen tag (rev ats) :: read Text r) /\ (forall r, read m (32 :: r) = read (Inside tag ats) r).
Lemma after_name tag : after (Name (rev tag)) tag [].
Proof. split; intros r; rewrite read_eq; cbn; rewrite rev_involutive; reflexivity. Qed.
Lemma after_inside tag ats : after (Inside tag ats) tag ats.
Proof. split; intros r; rewrite read_eq; reflexivity. Qed.
Lemma after_bare tag ats k v : after (Bare tag ats k (rev v)) tag (AU k v :: ats).
Proof. split; intros r; rewrite read_eq; cbn; rewrite rev_involutive; reflexivity. Qed.
Lemma read_inside_key tag ats k r : word k = true -> read (Inside tag ats) (k ++ r) = read (Key tag ats (rev k)) r.
Proof.
  destruct k as [|c k]; [discriminate|]. unfold word. intros H. cbn in H. apply andb_true_iff in H as [H1 H2]. wc H1.
  cbn [app]. rewrite read_eq. cbn [step]. rewrite E6, E4, E0. cbn [fst snd app]. rewrite read_key by assumption. reflexivity.
Qed.
Lemma read_attrib m tag ats a : after m tag ats -> clean_attrib a = true ->
  exists m', after m' tag (a :: ats) /\ forall r, read m (render_attrib a ++ r) = read m' r.
Proof.
  intros [_ Hb] Ha. destruct a as [k v|k v]; cbn in Ha; apply andb_true_iff in Ha as [Hk Hv].
  - exists (Inside tag (AQ k v :: ats)). split; [apply after_inside|]. intros r. cbn [render_attrib].
    change (lit " ") with [32]. change (lit "=""") with [EQUALS; QUOTE]. change (lit """") with [QUOTE]. rewrite <- !app_assoc. cbn [app].
    rewrite Hb, read_inside_key by assumption. rewrite read_eq. cbn [step]. cbn. rewrite rev_involutive.
    change (read (Quoted QUOTE tag ats k []) (v ++ [QUOTE] ++ r) = read (Inside tag (AQ k v :: ats)) r).
    rewrite read_quoted by assumption. rewrite app_nil_r. cbn [app]. rewrite read_eq. cbn. rewrite rev_involutive. reflexivity.
  - exists (Bare tag ats k (rev v)). split; [apply after_bare|]. intros r. cbn [render_attrib].
    change (lit " ") with [32]. change (lit "=") with [EQUALS]. rewrite <- !app_assoc. cbn [app].
    rewrite Hb, read_inside_key by assumption. rewrite read_eq. cbn [step]. cbn. rewrite rev_involutive.
    destruct v as [|c v]; [discriminate Hv|]. unfold word in Hv. cbn in Hv. apply andb_true_iff in Hv as [H1 H2]. wc H1.
    cbn [app]. change (read (Equals tag ats k) (c :: v ++ r) = read (Bare tag ats k (rev (c :: v))) r). rewrite read_eq. cbn [step]. rewrite E1, E2, E6. cbn [orb fst snd app].
    rewrite read_bare by assumption. reflexivity.
Qed.
Lemma read_attribs ats2 : forall m tag ats, after m tag ats -> forallb clean_attrib ats2 = true ->
  exists m', after m' tag (rev ats2 ++ ats) /\ forall r, read m (concat (map render_attrib ats2) ++ r) = read m' r.
Proof.
  induction ats2 as [|a ats2 IH]; intros m tag ats Hm H; [exists m; auto|]. cbn in H. apply andb_true_iff in H as [H1 H2].
  destruct (read_attrib m tag ats a Hm H1) as (m1 & Hm1 & E1). destruct (IH m1 tag (a :: ats) Hm1 H2) as (m2 & Hm2 & E2).
  exists m2. split; [cbn [rev]; rewrite <- app_assoc; exact Hm2|]. intros r. cbn [map concat]. rewrite <- app_assoc, E1, E2. reflexivity.
Qed.
Lemma letter_less c : is_letter c = true -> step Less c = (Name [c], []).
Proof.
  intros H. cbn. destruct (c =? SLASH) eqn:E; [apply N.eqb_eq in E as ->; discriminate H|]. unfold opens_tag. rewrite H. reflexivity.
Qed.
Lemma read_start tag ats : tag_name tag = true -> forallb clean_attrib ats = true ->
  exists m, after m tag (rev ats) /\ forall r, read Text (lit "<" ++ tag ++ concat (map render_attrib ats) ++ r) = read m r.
Proof.
  intros Ht Ha. destruct (read_attribs ats (Name (rev tag)) tag [] (after_name tag) Ha) as (m & Hm & E). rewrite app_nil_r in Hm.
  exists m. split; [assumption|]. intros r. rewrite <- E. destruct tag as [|c tag]; [discriminate Ht|].
  unfold tag_name in Ht. apply andb_true_iff in Ht as [Hl Hw]. cbn [forallb] in Hw. apply andb_true_iff in Hw as [_ Hw].
  change (lit "<") with [LT]. cbn [app]. rewrite read_eq. cbn [step fst snd app].
  change (read Less (c :: tag ++ concat (map render_attrib ats) ++ r) = read (Name (rev (c :: tag))) (concat (map render_attrib ats) ++ r)).
  rewrite read_eq, letter_less by assumption. cbn [fst snd app]. apply read_name. assumption.
Qed.
Lemma read_tok t r : clean_tok t = true -> read Text (render_tok t ++ r) = letters [t] ++ read Text r.
Proof.
  destruct t as [tag ats|tag|tag ats|s|i s]; cbn [clean_tok render_tok letters flat_map]; intros H; rewrite ?app_nil_r.
  - apply andb_true_iff in H as [H1 H2]. destruct (read_start tag ats H1 H2) as (m & [Hm _] & E).
    rewrite <- !app_assoc. rewrite E. change (lit ">" ++ r) with (GT :: r). rewrite Hm, rev_involutive. reflexivity.
  - destruct tag as [|c tag]; [discriminate H|]. unfold tag_name in H. apply andb_true_iff in H as [Hl Hw].
    change (lit "</") with [LT; SLASH]. rewrite <- !app_assoc. cbn [app]. rewrite read_eq. cbn [step fst snd app].
    change (read Less (SLASH :: c :: tag ++ lit ">" ++ r) = TClose (c :: tag) :: read Text r). rewrite read_eq. cbn [step]. cbn.
    change (read (EndName []) ((c :: tag) ++ lit ">" ++ r) = TClose (c :: tag) :: read Text r). rewrite read_endname by assumption.
    rewrite app_nil_r. change (lit ">" ++ r) with (GT :: r). rewrite read_eq. cbn [step]. change (GT =? GT) with true. cbn [fst snd app]. rewrite rev_involutive. reflexivity.
  - apply andb_true_iff in H as [H1 H2]. destruct (read_start tag ats H1 H2) as (m & [_ Hm] & E).
    rewrite <- !app_assoc. rewrite E. change (lit " />" ++ r) with (32 :: SLASH :: GT :: r). rewrite Hm.
    rewrite read_eq. cbn [step]. cbn. rewrite rev_involutive. reflexivity.
  - apply read_text. apply lacks_harmless, H.
  - apply read_text, H.
Qed.
Lemma letters_app a b : letters (a ++ b) = letters a ++ letters b. Proof. apply flat_map_app. Qed.
Lemma read_render ts : Forall (fun t => clean_tok t = true) ts -> read_html (render ts) = letters ts.
Proof.
  unfold read_html. induction 1 as [|t ts Ht _ IH]; [reflexivity|]. change (render (t :: ts)) with (render_tok t ++ render ts).
  rewrite read_tok by assumption. rewrite IH. change (t :: ts) with ([t] ++ ts). rewrite letters_app. reflexivity.
Qed.

(** What is known of tokens carries over to the characters. *)
Lemma nested_letters ts : nested ts -> nested (letters ts).
Proof.
  assert (G : forall s, nested (map (fun c => TRaw [c]) s)).
  { induction s as [|c s IH]; cbn; [constructor|]. apply (nest_app [TRaw [c]]); [constructor|assumption]. }
  induction 1; cbn [letters flat_map]; rewrite ?app_nil_r; try apply G; try (constructor; assumption).
  - change (nested (TOpen tag ats :: letters (ts ++ [TClose tag]))). rewrite letters_app. apply nest_elem; assumption.
  - rewrite letters_app. apply nest_app; assumption.
Qed.
Lemma attribs_letters ts : all_attribs (letters ts) = all_attribs ts.
Proof.
  assert (G : forall s, all_attribs (map (fun c => TRaw [c]) s) = []) by (induction s; [reflexivity|assumption]).
  induction ts as [|t ts IH]; [reflexivity|]. change (t :: ts) with ([t] ++ ts). rewrite letters_app. unfold all_attribs in *.
  rewrite !flat_map_app, IH. f_equal. destruct t; cbn [letters flat_map]; rewrite ?app_nil_r; try apply G; cbn [flat_map]; rewrite ?app_nil_r; reflexivity.
Qed.
Lemma ids_letters ts : SpecHtml.ids (letters ts) = SpecHtml.ids ts.
Proof. unfold SpecHtml.ids. rewrite attribs_letters. reflexivity. Qed.
Lemma hrefs_letters ts : SpecHtml.hrefs (letters ts) = SpecHtml.hrefs ts.
Proof. unfold SpecHtml.hrefs. rewrite attribs_letters. reflexivity. Qed.
Lemma text_letters ts : text_shown (letters ts) = text_shown ts.
Proof.
  assert (G : forall s, text_shown (map (fun c => TRaw [c]) s) = s) by (induction s as [|c s IH]; [reflexivity|]; change (c :: text_shown (map (fun c => TRaw [c]) s) = c :: s); congruence).
  induction ts as [|t ts IH]; [reflexivity|]. change (t :: ts) with ([t] ++ ts). rewrite letters_app. unfold text_shown in *.
  rewrite !flat_map_app, IH. f_equal. destruct t; cbn [letters flat_map]; rewrite ?app_nil_r; try apply G; cbn [flat_map]; rewrite ?app_nil_r; reflexivity.
Qed.
