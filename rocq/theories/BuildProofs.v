(** Proofs about the builder and the writer. *)
From Coq Require Import Lia.
From Verif Require Export SpecBuild.
Local Open Scope string_scope.
Local Open Scope list_scope.

Lemma prefixb_iff p : forall s, prefixb p s = true <-> exists r, s = p ++ r.
Proof.
  induction p as [|c p IH]; intros s; cbn.
  - split; [eauto|reflexivity].
  - destruct s as [|d s]; [split; [discriminate|intros [r H]; discriminate H]|].
    rewrite andb_true_iff, IH, N.eqb_eq. split.
    + intros [-> [r ->]]. eauto.
    + intros [r H]. injection H as -> ->. eauto.
Qed.
Lemma skipn_app_exact {A} (p r : list A) : skipn (length p) (p ++ r) = r.
Proof. rewrite skipn_app, skipn_all, Nat.sub_diag. reflexivity. Qed.

Definition lazy_spec (close s g r : str) : Prop :=
  s = g ++ close ++ r /\ ~ In 10%N g /\ forall g' r', s = g' ++ close ++ r' -> length g <= length g'.
Lemma lazy_some close s : forall acc g r, lazy_to close s acc = Some (g, r) -> exists g0, g = rev acc ++ g0 /\ lazy_spec close s g0 r.
Proof.
  induction s as [|c s IH]; intros acc g r; cbn.
  - destruct (prefixb close []) eqn:E; [|discriminate]. intros [= <- <-]. apply prefixb_iff in E as [q E].
    exists []. rewrite app_nil_r. split; [reflexivity|]. split; [|split; [intros []|cbn; lia]]. cbn. rewrite E at 1. rewrite E, skipn_app_exact. reflexivity.
  - destruct (prefixb close (c :: s)) eqn:E.
    + intros [= <- <-]. apply prefixb_iff in E as [q E]. exists []. rewrite app_nil_r. split; [reflexivity|].
      split; [|split; [intros []|cbn; lia]]. cbn [app]. rewrite E, skipn_app_exact. reflexivity.
    + destruct (N.eqb_spec c 10); [discriminate|]. intros H. apply IH in H as (g0 & -> & A & B & C).
      exists (c :: g0). cbn [rev]. rewrite <-app_assoc. split; [reflexivity|]. split; [cbn; rewrite <-A; reflexivity|]. split.
      * intros [K|K]; [congruence|auto].
      * intros [|d g'] r' K.
        -- cbn in K. assert (prefixb close (c :: s) = true) by (apply prefixb_iff; eauto). congruence.
        -- cbn in K. injection K as -> K. specialize (C _ _ K). cbn. lia.
Qed.
Lemma lazy_none close s : forall acc, lazy_to close s acc = None -> forall g r, ~ lazy_spec close s g r.
Proof.
  induction s as [|c s IH]; intros acc; cbn.
  - destruct (prefixb close []) eqn:E; [discriminate|]. intros _ g r (A & _).
    destruct g; [|discriminate A]. assert (prefixb close [] = true) by (apply prefixb_iff; exists r; exact A). congruence.
  - destruct (prefixb close (c :: s)) eqn:E; [discriminate|].
    assert (X : forall g r, c :: s = g ++ close ++ r -> exists g0, g = c :: g0 /\ s = g0 ++ close ++ r).
    { intros [|d g] r K; cbn in K.
      - assert (prefixb close (c :: s) = true) by (apply prefixb_iff; eauto). congruence.
      - injection K as -> K. eauto. }
    destruct (N.eqb_spec c 10).
    + intros _ g r (A & B & _). destruct (X _ _ A) as (g0 & -> & _). apply B. left. congruence.
    + intros H g r (A & B & C). destruct (X _ _ A) as (g0 & -> & A'). apply (IH _ H g0 r).
      split; [exact A'|]. split; [intros K; apply B; right; exact K|]. intros g' r' K.
      specialize (C (c :: g') r'). cbn in C. rewrite <-K in C. specialize (C eq_refl). lia.
Qed.
Lemma match_here_some op close s g r : match_here op close s = Some (g, r) -> match_at op close s 0 g r.
Proof.
  unfold match_here. destruct (prefixb op s) eqn:E; [|discriminate]. apply prefixb_iff in E as [q ->]. rewrite skipn_app_exact.
  intros H. apply lazy_some in H as (g0 & -> & A & B & C). cbn. split; [cbn; rewrite A; reflexivity|]. split; [exact B|].
  intros g' r' K. cbn in K. apply app_inv_head in K. exact (C _ _ K).
Qed.
Lemma match_here_none op close s : match_here op close s = None -> forall g r, ~ match_at op close s 0 g r.
Proof.
  unfold match_here. destruct (prefixb op s) eqn:E.
  - apply prefixb_iff in E as [q ->]. rewrite skipn_app_exact. intros H g r (A & B & C). cbn in A, C. apply app_inv_head in A.
    apply (lazy_none _ _ _ H g r). split; [exact A|]. split; [exact B|]. intros g' r' K. apply (C g' r'). rewrite K. reflexivity.
  - intros _ g r (A & _). cbn in A. assert (prefixb op s = true) by (apply prefixb_iff; eauto). congruence.
Qed.
Lemma match_at_S op close c s k g r : match_at op close (c :: s) (S k) g r <-> match_at op close s k g r.
Proof. reflexivity. Qed.
Lemma match_at_nil op close k g r : op <> [] -> ~ match_at op close [] k g r.
Proof. intros N (A & _). rewrite skipn_nil in A. destruct op; [auto|discriminate A]. Qed.

Lemma re_search_some op close s g : re_search op close s = Some g -> exists k r, first_match_at op close s k g r.
Proof.
  induction s as [|c s IH]; cbn [re_search].
  - destruct (match_here op close []) as [[g1 r]|] eqn:E; [|discriminate]. intros [= <-]. exists 0, r.
    split; [apply match_here_some, E|]. intros k' ? ? ?. lia.
  - destruct (match_here op close (c :: s)) as [[g1 r]|] eqn:E.
    + intros [= <-]. exists 0, r. split; [apply match_here_some, E|]. intros k' ? ? ?. lia.
    + intros H. destruct (IH H) as (k & r & A & B). exists (S k), r. split; [exact A|].
      intros [|k'] g' r' L; [apply match_here_none, E|]. rewrite match_at_S. apply B. lia.
Qed.
Lemma re_search_none op close s : op <> [] -> re_search op close s = None -> no_match op close s.
Proof.
  intros N. induction s as [|c s IH]; cbn [re_search].
  - intros _ k g r. apply match_at_nil, N.
  - destruct (match_here op close (c :: s)) as [[g1 r]|] eqn:E; [discriminate|].
    intros H [|k] g r; [apply match_here_none, E|]. rewrite match_at_S. apply IH, H.
Qed.
Lemma extract_title_of body : title_of body (extract_title body).
Proof.
  unfold extract_title. destruct (re_search _ _ body) as [t|] eqn:E.
  - right. apply re_search_some in E. exact E.
  - left. split; [|reflexivity]. apply re_search_none; [discriminate|exact E].
Qed.

(** *** findall *)

Lemma findall_nil op close k : op <> [] -> re_findall op close [] k = [].
Proof. intros N. destruct op; [destruct (N eq_refl)|]. destruct k; reflexivity. Qed.
Lemma findall_skip op close k : op <> [] -> forall s, re_findall op close s k = re_findall op close (skipn k s) 0.
Proof.
  intros N. induction k as [|k IH]; intros s; [reflexivity|]. destruct s as [|c s]; cbn [skipn]; [|apply IH].
  rewrite !(findall_nil op close) by exact N. reflexivity.
Qed.
Lemma scanned_later op close c s l : (forall g r, ~ match_at op close (c :: s) 0 g r) -> scanned op close s l -> scanned op close (c :: s) l.
Proof.
  intros M H. inversion H as [s' N|s' k g rest l' [A B] R]; subst.
  - apply scan_end. intros [|k] g r; [apply M|]. rewrite match_at_S. apply N.
  - apply (scan_hit _ _ _ (S k) g rest); [|exact R]. split; [exact A|]. intros [|k'] g' r' L; [apply M|]. rewrite match_at_S. apply B. lia.
Qed.
Lemma findall_scanned op close : op <> [] -> forall n s, length s <= n -> scanned op close s (re_findall op close s 0).
Proof.
  intros N. induction n as [|n IH]; intros s L.
  - destruct s; [|cbn in L; lia]. rewrite findall_nil by exact N. apply scan_end. intros k g r. apply match_at_nil, N.
  - destruct s as [|c s].
    { rewrite findall_nil by exact N. apply scan_end. intros k g r. apply match_at_nil, N. }
    cbn [re_findall]. destruct (match_here op close (c :: s)) as [[g r]|] eqn:E.
    + rewrite findall_skip by exact N. apply match_here_some in E. pose proof E as (A & _). cbn [skipn] in A.
      assert (R : skipn (length op + length g + length close - 1) s = r).
      { destruct op as [|o op]; [destruct (N eq_refl)|]. cbn in A. injection A as _ A. rewrite A.
        replace (length (o :: op) + length g + length close - 1) with (length (op ++ g ++ close)) by (cbn; rewrite !app_length; lia).
        replace (op ++ g ++ close ++ r) with ((op ++ g ++ close) ++ r) by (rewrite <-!app_assoc; reflexivity). apply skipn_app_exact. }
      rewrite R. apply (scan_hit _ _ _ 0 g r).
      * split; [exact E|]. intros k' ? ? ?. lia.
      * apply IH. cbn in L. rewrite <-R, skipn_length. lia.
    + apply scanned_later; [apply match_here_none, E|]. apply IH. cbn in L. lia.
Qed.
Lemma assets_mentioned body : mentioned body (find_required_assets body).
Proof. apply (findall_scanned (lit "src=""") (lit """") ltac:(discriminate) (length body)). lia. Qed.
Lemma match_at_fun op close s k g r g' r' : match_at op close s k g r -> match_at op close s k g' r' -> g = g' /\ r = r'.
Proof.
  intros (A & _ & C) (A' & _ & C'). assert (L : length g = length g') by (specialize (C _ _ A'); specialize (C' _ _ A); lia).
  rewrite A in A'. apply app_inv_head in A'. apply app_inj_1 in A' as [-> A']; [|exact L]. apply app_inv_head in A'. auto.
Qed.
Lemma first_match_fun op close s k g r k' g' r' : first_match_at op close s k g r -> first_match_at op close s k' g' r' -> k = k' /\ g = g' /\ r = r'.
Proof.
  intros [A B] [A' B']. assert (k = k') as <-.
  { destruct (Nat.lt_trichotomy k k') as [L|[E|L]]; [|exact E|]; exfalso; [exact (B' _ _ _ L A)|exact (B _ _ _ L A')]. }
  split; [reflexivity|]. exact (match_at_fun _ _ _ _ _ _ _ _ A A').
Qed.
(** There is one scan. *)
Lemma scanned_fun op close s l : scanned op close s l -> forall l', scanned op close s l' -> l = l'.
Proof.
  induction 1 as [s N|s k g r l F R IH]; intros l' H'; inversion H' as [s' N'|s' k' g' r' l1 F' R']; subst.
  - reflexivity.
  - destruct (N _ _ _ (proj1 F')).
  - destruct (N' _ _ _ (proj1 F)).
  - destruct (first_match_fun _ _ _ _ _ _ _ _ _ F F') as (_ & -> & ->). f_equal. apply IH, R'.
Qed.
Lemma title_fun body t t' : title_of body t -> title_of body t' -> t = t'.
Proof.
  intros [[N ->]|(k & r & F)] [[N' ->]|(k' & r' & F')].
  - reflexivity.
  - destruct (N _ _ _ (proj1 F')).
  - destruct (N' _ _ _ (proj1 F)).
  - apply (first_match_fun _ _ _ _ _ _ _ _ _ F F').
Qed.

(** ** The page *)

Definition page_top : str :=
  flat_map (fun l => l ++ nl) (firstn 15 (tl header_lines)) ++ lit "  ".
Lemma header_title title : replace placeholder title header =
  lit "<head>" ++ nl ++ page_top ++ lit "<title>" ++ title ++ lit "</title>" ++ nl ++ lit "</head>" ++ nl.
Proof. vm_compute. reflexivity. Qed.
Lemma app5 {A} (a b c d e f : list A) : (a ++ b ++ c ++ d ++ e) ++ f = a ++ b ++ c ++ d ++ e ++ f.
Proof. rewrite <-!app_assoc. reflexivity. Qed.
Lemma main_file_page body : make_main_file body = page page_top (extract_title body) body.
Proof.
  unfold make_main_file, make_html_header, page, make_html_footer. rewrite header_title. rewrite <-!app_assoc. reflexivity.
Qed.
Fixpoint absentb (x s : str) : bool := negb (prefixb x s) && match s with [] => true | _ :: s => absentb x s end.
Lemma absentb_ok x s : absentb x s = true -> absent x s.
Proof.
  induction s as [|c s IH]; cbn [absentb]; rewrite andb_true_iff, negb_true_iff; intros [A B] a b E.
  - destruct a; [|discriminate E]. cbn in E. assert (prefixb x [] = true) by (apply prefixb_iff; eauto). congruence.
  - destruct a as [|d a]; cbn in E.
    + assert (prefixb x (c :: s) = true) by (apply prefixb_iff; eauto). congruence.
    + injection E as -> E. exact (IH B _ _ E).
Qed.
Lemma page_shape : exists top, absent (lit "<title>") top /\ absent (lit "</head>") top /\ absent (lit "<body") top /\
  forall body, exists title, title_of body title /\ make_main_file body = page top title body.
Proof.
  exists page_top. repeat (split; [apply absentb_ok; vm_compute; reflexivity|]). intros body. exists (extract_title body).
  split; [apply extract_title_of|apply main_file_page].
Qed.

(** ** Files *)

Lemma mount_required_inv cwd l : forall w w', mount_required_assets cwd l w = Ok w' ->
  (forall a, In a l -> is_Some (cwd !! path_str a)) /\
  (forall f c, w' !! f = Some c -> w !! f = Some c \/ exists a, In a l /\ f = in_static (path_name a) /\ cwd !! path_str a = Some c) /\
  (forall f, (forall a, In a l -> f <> in_static (path_name a)) -> w' !! f = w !! f) /\
  (forall a, In a l -> exists b, In b l /\ path_name b = path_name a /\ w' !! in_static (path_name a) = cwd !! path_str b).
Proof.
  induction l as [|a l IH]; intros w w' H; cbn in H.
  - injection H as <-. split; [intros a []|]. split; [auto|]. split; [auto|]. intros a [].
  - destruct (plain_path a); [|discriminate]. unfold copy_file in H. destruct (cwd !! path_str a) as [c|] eqn:E; [|discriminate].
    destruct (IH _ _ H) as (A & B & C & D). split; [|split; [|split]].
    + intros x [<-|I]; eauto.
    + intros f d F. destruct (B f d F) as [G|(x & I & G)].
      * apply lookup_insert_Some in G as [[<- <-]|[_ G]]; [|auto]. right. exists a. cbn. auto.
      * right. exists x. cbn. auto.
    + intros f F. rewrite C by (intros x I; apply F; right; exact I). apply lookup_insert_ne. intros K. apply (F a); [left; reflexivity|congruence].
    + intros x I. assert (Y : In x l \/ x = a) by (destruct I; auto). clear I.
      destruct (in_dec (list_eq_dec N.eq_dec) (path_name x) (map path_name l)) as [J|J].
      * apply in_map_iff in J as (y & J1 & J2). destruct (D y J2) as (b & B1 & B2 & B3). exists b.
        split; [right; exact B1|]. rewrite <-J1. auto.
      * destruct Y as [Y| -> ]; [exfalso; apply J; apply in_map; exact Y|]. exists a. split; [left; reflexivity|]. split; [reflexivity|].
        rewrite C. { rewrite E. apply lookup_insert. }
        intros y I K. apply J. apply in_map_iff. exists y. split; [|exact I]. unfold in_static in K. apply app_inv_head in K. congruence.
Qed.
Lemma mount_static_inv pkg : forall w f, (forall n c, In (n, c) pkg -> f <> in_static n) -> mount_static pkg w !! f = w !! f.
Proof.
  unfold mount_static. induction pkg as [|[n c] pkg IH]; intros w f H; cbn; [reflexivity|].
  rewrite IH by (intros m d I; apply (H m d); right; exact I). apply lookup_insert_ne. intros K. apply (H n c); [left; reflexivity|]. auto.
Qed.
Lemma mount_static_cases pkg : forall w f c, mount_static pkg w !! f = Some c -> w !! f = Some c \/ exists n, In (n, c) pkg /\ f = in_static n.
Proof.
  unfold mount_static. induction pkg as [|[n d] pkg IH]; intros w f c H; cbn in H; [auto|].
  destruct (IH _ _ _ H) as [G|(m & I & E)].
  - apply lookup_insert_Some in G as [[<- <-]|[_ G]]; [|auto]. right. exists n. cbn. auto.
  - right. exists m. cbn. auto.
Qed.
Lemma index_not_static n : lit "index.html" <> in_static n.
Proof. unfold in_static. intros H. vm_compute in H. discriminate H. Qed.

Lemma build_files pkg cwd body w l : mentioned body l -> full_build pkg cwd body = Ok w ->
  w_body w = body /\ w_html w = make_main_file body /\ w_files w !! lit "index.html" = Some (make_main_file body) /\
  (forall f c, w_files w !! f = Some c -> f = lit "index.html" \/
     (exists n, In (n, c) pkg /\ f = in_static n) \/
     (exists a, In a l /\ f = in_static (path_name a) /\ cwd !! path_str a = Some c)) /\
  (forall a, In a l -> exists b, In b l /\ path_name b = path_name a /\ is_Some (cwd !! path_str b) /\
     w_files w !! in_static (path_name a) = cwd !! path_str b).
Proof.
  intros M H. assert (l = find_required_assets body) as -> by (apply (scanned_fun _ _ _ _ M), assets_mentioned).
  unfold full_build in H. destruct (mount_required_assets cwd _ _) as [fs|e] eqn:E; [|discriminate]. injection H as <-. cbn.
  apply mount_required_inv in E as (A & B & C & D). split; [reflexivity|]. split; [reflexivity|]. split; [|split].
  - rewrite C by (intros a _; apply index_not_static). rewrite mount_static_inv by (intros n c _; apply index_not_static). apply lookup_insert.
  - intros f c F. destruct (B f c F) as [G|G]; [|auto]. apply mount_static_cases in G as [G|G]; [|auto].
    apply lookup_insert_Some in G as [[<- _]|[_ G]]; [auto|]. apply lookup_empty_Some in G. destruct G.
  - intros a I. destruct (D a I) as (b & B1 & B2 & B3). exists b. split; [exact B1|]. split; [exact B2|]. split; [apply A, B1|exact B3].
Qed.
Lemma build_assets_apart pkg cwd body w l : mentioned body l -> full_build pkg cwd body = Ok w ->
  (forall a b, In a l -> In b l -> path_name a = path_name b -> path_str a = path_str b) ->
  forall a, In a l -> w_files w !! in_static (path_name a) = cwd !! path_str a /\ is_Some (cwd !! path_str a).
Proof.
  intros M H U a I. destruct (build_files _ _ _ _ _ M H) as (_ & _ & _ & _ & D). destruct (D a I) as (b & B1 & B2 & B3 & B4).
  rewrite B4, <-(U b a B1 I B2). auto.
Qed.
Lemma build_succeeds pkg cwd body l : mentioned body l -> (forall a, In a l -> plain_path a = true /\ is_Some (cwd !! path_str a)) ->
  exists w, full_build pkg cwd body = Ok w.
Proof.
  intros M H. assert (l = find_required_assets body) as -> by (apply (scanned_fun _ _ _ _ M), assets_mentioned).
  unfold full_build. set (w := mount_static _ _). clearbody w. revert H w. generalize (find_required_assets body) as l.
  induction l as [|a l IH]; intros H w; cbn; [eauto|].
  destruct (H a (or_introl eq_refl)) as [P [c E]]. rewrite P. unfold copy_file. rewrite E. apply IH. intros x I. apply H. right. exact I.
Qed.
Lemma build_fails pkg cwd body l a : mentioned body l -> In a l -> plain_path a = true -> cwd !! path_str a = None ->
  exists e, full_build pkg cwd body = Err e.
Proof.
  intros M I P N. destruct (full_build pkg cwd body) as [w|e] eqn:E; [|eauto]. exfalso.
  assert (l = find_required_assets body) as -> by (apply (scanned_fun _ _ _ _ M), assets_mentioned).
  unfold full_build in E. destruct (mount_required_assets cwd _ _) as [fs|e] eqn:F; [|discriminate].
  apply mount_required_inv in F as (A & _). destruct (A a I) as [c C]. congruence.
Qed.
(** Writing. *)
Lemma write_files w cwd f : write w cwd !! f = match w_files w !! f with Some c => Some c | None => cwd !! f end.
Proof. unfold write. destruct (w_files w !! f) eqn:A; [apply lookup_union_Some_l; exact A|apply lookup_union_r; exact A]. Qed.
Lemma write_touches pkg cwd body w f : full_build pkg cwd body = Ok w -> f <> lit "index.html" -> (forall n, f <> in_static n) ->
  write w cwd !! f = cwd !! f.
Proof.
  intros H A B. rewrite write_files. destruct (w_files w !! f) as [c|] eqn:E; [|reflexivity].
  destruct (build_files _ _ _ _ _ (assets_mentioned body) H) as (_ & _ & _ & D & _).
  destruct (D f c E) as [K|[(n & _ & K)|(a & _ & K & _)]]; subst f; [destruct (A eq_refl)|destruct (B _ eq_refl)|destruct (B _ eq_refl)].
Qed.

(** *** Witnesses *)

Definition two_figures : str := lit "<img src=""a/x.png""><img src=""b/x.png"">".
Definition two_files : files := <[lit "a/x.png" := lit "A"]> (<[lit "b/x.png" := lit "B"]> ∅).
Lemma collision_ex : exists pkg cwd body w l a, mentioned body l /\ full_build pkg cwd body = Ok w /\ In a l /\
  w_files w !! in_static (path_name a) <> cwd !! path_str a.
Proof.
  exists [], two_files, two_figures. eexists _, (find_required_assets two_figures), (lit "a/x.png").
  split; [apply assets_mentioned|]. split; [vm_compute; reflexivity|]. split; [vm_compute; auto|]. vm_compute. discriminate.
Qed.
(** Text that looks like an attribute, or a figure on the web, makes the build fail. *)
Lemma external_ex : exists pkg cwd body e, full_build pkg cwd body = Err e /\ body = lit "<img src=""https://a.org/x.png"">".
Proof. eexists [], two_files, _, _. split; [|reflexivity]. vm_compute. reflexivity. Qed.
Lemma default_overwritten_ex : exists pkg cwd body w c, full_build pkg cwd body = Ok w /\ In (lit "rsm.css", c) pkg /\
  w_files w !! in_static (lit "rsm.css") <> Some c.
Proof.
  exists [(lit "rsm.css", lit "D")], (<[lit "my/rsm.css" := lit "U"]> ∅), (lit "<img src=""my/rsm.css"">"). eexists _, (lit "D").
  split; [vm_compute; reflexivity|]. split; [left; reflexivity|]. vm_compute. discriminate.
Qed.
