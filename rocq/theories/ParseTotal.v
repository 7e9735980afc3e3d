(** The loop of the parser returns on the syntax trees that fit. *)
From Verif Require Import TreeFacts Meta TocBuild Queries.
From Verif Require Export SpecShape SpecTyped ParseReady.
From Verif Require Import ParseTyped Consistency EditTotal NodeProofs NodeOps Monad.
Local Open Scope string_scope.
Local Open Scope list_scope.

(** ** The specification, one level at a time *)

Definition fit_kids (p : cls) (skip : list nat) (c : cst) : bool := forallb (fun x => fits (pl_node x) (Some p)) (pushed skip c).
Definition node_fit (t : str) (c : cst) (skip : list nat) (p : option cls) : bool :=
  let k := a_class (shaped t (alone c) c []) in
  parts_fit t c && may_be_in k p && fit_kids k (skip ++ skipped_parts t c) c.
Definition fits_at (c : cst) (p : option cls) : bool :=
  let t := c_type c in
  if is_type "comment" c then true
  else if is_type "specialblock" c && match c_children c with b :: _ => is_type "bibliography" b | [] => false end then true
  else if is_type "bibtex" c then
    forallb (fun q => bibitem_fits (pl_node q)) (List.filter (fun q => is_type "bibitem" (pl_node q)) (named_children c))
  else if is_type "bibitem" c then
    bibitem_fits c && match p with Some d => has_children d | None => false end
  else if is_type "source_file" c || suffixb (lit "section") t then
    match ast_type t with
    | Some (k, _) => meta_fits c && may_be_in k p && fit_kids k (skipped_title c) c
    | None => false
    end
  else if type_in ["specialblock"; "specialinline"] t then
    match nth_error (named_children c) 0 with
    | None => false
    | Some f => if is_type "table" (pl_node f) then fits (pl_node f) p else node_fit (c_type (pl_node f)) c [] p
    end
  else if is_type "td" c then match nth_error (named_children c) 0 with None => false | Some f => fits (pl_node f) p end
  else if is_type "paragraph" c then
    match nth_error (named_children c) 0 with
    | None => false
    | Some f => if type_in ["item"; "caption"] (c_type (pl_node f)) then fits (pl_node f) p else node_fit t c [] p
    end
  else if type_in ["block"; "inline"] t then
    match field_child "tag" c with
    | None => false
    | Some g => node_fit (c_type (pl_node g)) c [pl_pos g] p
    end
  else node_fit t c [] p.
Definition checks (c : cst) : list (place * (option cls -> bool)) := map (fun x => (x, fits (pl_node x))) (places c).
Lemma checks_all l : forall k prev,
  (fix go (k : nat) (prev : option cst) (l : list cst) : list (place * (option cls -> bool)) :=
     match l with
     | [] => []
     | d :: r => (MkPlace k prev d (hd_error r), fits d) :: go (S k) (Some d) r
     end) k prev l = map (fun x => (x, fits (pl_node x))) (places_from k prev l).
Proof. induction l as [|d l IH]; intros k prev; [reflexivity|]. simpl. rewrite IH. reflexivity. Qed.
Lemma all_fit_eq p skip c : all_fit p skip (checks c) = fit_kids p skip c.
Proof.
  unfold all_fit, checks, fit_kids, pushed, named_children.
  rewrite (filter_map_pair (fun x => fits (pl_node x)) (fun p => c_named (pl_node p) && str_mem (c_type (pl_node p)) push_types && negb (existsb (Nat.eqb (pl_pos p)) skip))) by reflexivity.
  generalize (places c). intros l. induction l as [|x l IH]; [reflexivity|]. cbn [List.filter map].
  destruct (c_named (pl_node x)); cbn [andb]; [|exact IH]. cbn [List.filter]. destruct (str_mem _ _ && _); [|exact IH]. cbn [map forallb snd]. rewrite IH. reflexivity.
Qed.
Lemma first_check_eq c : first_named (checks c) = option_map (fun x => (x, fits (pl_node x))) (nth_error (named_children c) 0).
Proof.
  unfold first_named, checks, named_children.
  rewrite (filter_map_pair (fun x => fits (pl_node x)) (fun p => c_named (pl_node p))) by reflexivity.
  destruct (List.filter _ (places c)); reflexivity.
Qed.
Lemma fits_eq c p : fits c p = fits_at c p.
Proof.
  transitivity (
  let all := checks c in
  let t := c_type c in
  if is_type "comment" c then true
  else if is_type "specialblock" c && match c_children c with b :: _ => is_type "bibliography" b | [] => false end then true
  else if is_type "bibtex" c then
    forallb (fun q => bibitem_fits (pl_node q)) (List.filter (fun q => is_type "bibitem" (pl_node q)) (named_children c))
  else if is_type "bibitem" c then
    bibitem_fits c && match p with Some d => has_children d | None => false end
  else if is_type "source_file" c || suffixb (lit "section") t then
    match ast_type t with
    | Some (k, _) => meta_fits c && may_be_in k p && all_fit k (skipped_title c) all
    | None => false
    end
  else if type_in ["specialblock"; "specialinline"] t then
    match first_named all with
    | None => false
    | Some (f, o) => if is_type "table" (pl_node f) then o p else node_fits (c_type (pl_node f)) c [] all p
    end
  else if is_type "td" c then match first_named all with None => false | Some (_, o) => o p end
  else if is_type "paragraph" c then
    match first_named all with
    | None => false
    | Some (f, o) => if type_in ["item"; "caption"] (c_type (pl_node f)) then o p else node_fits t c [] all p
    end
  else if type_in ["block"; "inline"] t then
    match field_child "tag" c with
    | None => false
    | Some g => node_fits (c_type (pl_node g)) c [pl_pos g] all p
    end
  else node_fits t c [] all p).
  - destruct c as [ty fd nm tx sp ep cs]. cbn [fits c_children]. rewrite (checks_all cs 0 None). reflexivity.
  - cbv zeta. unfold fits_at, node_fits, node_fit. rewrite first_check_eq, !all_fit_eq. destruct (nth_error (named_children c) 0) as [f|]; cbn [option_map]; rewrite ?all_fit_eq;
    repeat match goal with |- context [match ?x with _ => _ end] => destruct x end; rewrite ?all_fit_eq; reflexivity.
Qed.

(** ** Meta data *)

Notation returns m s := (exists s' r, m s = (s', Ok r)).
Lemma settable_ok key i v s : settable key = true -> str_eqb key (lit "reftext") = false -> is_Some (st_heap s !! i) ->
  exists s', py_setattr i key v s = (s', Ok tt) /\ is_Some (st_heap s' !! i).
Proof.
  intros Hk Hr [n Hn]. unfold py_setattr. unfold settable, type_in, str_mem in Hk. cbn [map existsb] in Hk.
  destruct (str_mem key readonly_props || str_eqb key (lit "parent")) eqn:E.
  { exfalso. unfold str_mem, readonly_props in E. cbn [existsb] in E. rewrite Hr in E. rewrite ?orb_false_r, ?orb_false_l in *.
    destruct (str_eqb key (lit "children")), (str_eqb key (lit "number_within")), (str_eqb key (lit "number_as")), (str_eqb key (lit "full_number")),
      (str_eqb key (lit "keyword")), (str_eqb key (lit "long_reftext")), (str_eqb key (lit "parent")); cbn in *; congruence. }
  apply orb_false_iff in E as [-> ->]. exists (upd s i (set_n_attr (attr_of_name key) v n)). split.
  - unfold setattr, mod_node, bind, get_node. rewrite Hn. reflexivity.
  - rewrite upd_lookup, decide_True by reflexivity. eauto.
Qed.
Lemma set_all_ok i l : forall s, is_Some (st_heap s !! i) -> Forall (fun p => settable p.1 = true /\ str_eqb p.1 (lit "reftext") = false) l ->
  exists s', iterM (fun p => py_setattr i p.1 p.2) l s = (s', Ok tt).
Proof.
  induction l as [|p l IH]; intros s Hi Hl; [eexists; reflexivity|]. apply list.Forall_cons in Hl as [[H1 H2] Hl].
  destruct (settable_ok p.1 i p.2 s H1 H2 Hi) as (s1 & E1 & Hi1). destruct (IH s1 Hi1 Hl) as [s' E]. exists s'. cbn [iterM]. unfold bind. rewrite E1. exact E.
Qed.
Lemma template_keys d : Forall (fun p => settable p.1 = true) d -> Forall (fun p => settable p.1 = true /\ str_eqb p.1 (lit "reftext") = false) (reftext_to_template d).
Proof.
  intros H. unfold reftext_to_template. destruct (dict_get d _) as [v|] eqn:E.
  - unfold dict_del. apply List.Forall_forall. intros q Hq. apply filter_In in Hq as [Hq Hn]. split; [|destruct (str_eqb _ _); [discriminate Hn|reflexivity]].
    rewrite List.Forall_forall in H. unfold dict_set in Hq. destruct (existsb _ _).
    + apply in_map_iff in Hq as (p & <- & Hp). destruct (str_eqb p.1 _); apply (H p Hp).
    + apply in_app_iff in Hq as [Hq|[<-|[]]]; [apply H, Hq|reflexivity].
  - apply List.Forall_forall. intros p Hp. rewrite List.Forall_forall in H. split; [apply H, Hp|].
    unfold dict_get in E. destruct (find _ d) eqn:Ef; [discriminate E|]. exact (find_none _ _ Ef p Hp).
Qed.
Lemma ingest_returns i c s : meta_fits c = true -> is_Some (st_heap s !! i) -> exists s', ingest_meta i c s = (s', Ok tt).
Proof.
  unfold meta_fits, ingest_meta. intros H Hi. destruct (field_child "meta" c) as [m|]; [|eexists; reflexivity].
  destruct (parse_meta (pl_node m)) as [d|]; [|discriminate H]. cbn [lift]. unfold bind, ret. unfold ingest_dict_as_meta.
  apply set_all_ok; [exact Hi|]. apply template_keys. rewrite forallb_forall in H. apply List.Forall_forall. exact H.
Qed.
(** Meta data leave what is there, and of its type. *)
Lemma meta_some c a m : is_Some (m !! a) -> is_Some (with_meta c m !! a).
Proof.
  unfold with_meta. generalize (meta_data c). intros l. revert m. induction l as [|p l IH]; intros m H; [exact H|]. cbn [fold_left]. apply IH.
  unfold assign. destruct (decide (attr_of_name p.1 = a)) as [->|Hn]; [rewrite lookup_insert; eauto|rewrite lookup_insert_ne by assumption; exact H].
Qed.
Lemma meta_typed c : keys_typed c -> Forall (fun p => plain_val (attr_of_name p.1) p.2) (meta_data c).
Proof.
  intros Hk. unfold meta_data. destruct (field_child "meta" c) as [m|] eqn:E; [|constructor]. destruct (parse_meta (pl_node m)) as [d|] eqn:Ed; [|constructor].
  apply dict_values. unfold parse_meta in Ed. eapply (parse_pairs_ok _ (fun d => key_typed d = true)); [|  |constructor|exact Ed].
  - intros k v key x Hx Ex. exact (pair_simple _ _ _ _ Hx Ex).
  - intros p Hp q Hq. apply filter_In in Hp as [Hp _]. apply Hk.
    assert (Hin : forall a b, In a (named_children b) -> In (pl_node a) (c_children b)).
    { intros a b Ha. unfold named_children in Ha. apply filter_In in Ha as [Ha _]. unfold places in Ha. apply places_from_in in Ha. exact Ha. }
    assert (Hm : In (pl_node m) (c_children c)).
    { unfold field_child in E. apply find_some in E as [E _]. unfold places in E. apply places_from_in in E. exact E. }
    assert (Hdown : forall a b e, In a (c_children b) -> In b (c_preorder e) -> In a (c_preorder e)).
    { intros a b e Ha. induction e as [ty fd nm tx sp ep cs IH] using cst_ind'. intros [<-|Hb].
      - right. apply in_flat_map. exists a. split; [exact Ha|]. destruct a. left. reflexivity.
      - right. apply in_flat_map in Hb as (d0 & Hd0 & Hb). apply in_flat_map. exists d0. split; [exact Hd0|].
        rewrite List.Forall_forall in IH. apply IH; assumption. }
    eapply Hdown; [apply Hin, Hq|]. eapply Hdown; [apply Hin, Hp|]. eapply Hdown; [exact Hm|]. destruct c. left. reflexivity.
Qed.
Lemma meta_str c a m : keys_typed c -> (forall v, attr_shape a v = true -> is_str v = true) ->
  (exists x, m !! a = Some (VStr x)) -> exists x, with_meta c m !! a = Some (VStr x).
Proof.
  intros Hk Ha. unfold with_meta. pose proof (meta_typed c Hk) as Hl. revert m. induction Hl as [|p l Hp _ IH]; intros m Hm; [exact Hm|]. cbn [fold_left].
  apply IH. unfold assign. destruct (decide (attr_of_name p.1 = a)) as [<-|Hn]; [rewrite lookup_insert|rewrite lookup_insert_ne by assumption; exact Hm].
  destruct Hp as [Hp _]. specialize (Ha _ Hp). destruct (p.2); try discriminate Ha. eauto.
Qed.

(** ** One node *)

Lemma returns_bind {A B} (m : M A) (k : A -> M B) s s1 a : m s = (s1, Ok a) -> returns (k a) s1 -> returns (bind m k) s.
Proof. intros H (s' & r & H'). exists s', r. rewrite (bind_eq _ _ _ _ _ H). exact H'. Qed.
Lemma new_returns c kw s : new_node c kw s = (new s (mk_node c kw), Ok (st_next s)). Proof. reflexivity. Qed.
Lemma set_returns i a v s : is_Some (st_heap s !! i) -> exists s', setattr i a v s = (s', Ok tt) /\ is_Some (st_heap s' !! i).
Proof.
  intros [n Hn]. exists (upd s i (set_n_attr a v n)). split; [unfold setattr; exact (mod_node_eq _ _ _ _ Hn)|].
  rewrite upd_lookup, decide_True by reflexivity. eauto.
Qed.
Lemma make_returns t c s : parts_fit t c = true -> returns (make_node t c) s.
Proof.
  intros H. unfold parts_fit in H. rewrite !andb_true_iff in H. destruct H as [[[[H _] _] _] _]. unfold make_node. destruct (ast_type t) as [[k kw]|].
  - eapply returns_bind; [apply new_returns|]. destruct (subclass k CText).
    + destruct (set_returns (st_next s) a_text (VStr (c_text c)) (new s (mk_node k (kw ++ span_attrs c)))) as (s2 & E & _).
      { rewrite new_lookup, decide_True by reflexivity. eauto. }
      eapply returns_bind; [exact E|]. do 2 eexists. reflexivity.
    + do 2 eexists. reflexivity.
  - rewrite H. do 2 eexists. reflexivity.
Qed.
Lemma new_append_returns c kw i n s : st_heap s !! i = Some n -> i < st_next s -> has_children (n_cls n) = true -> permitted c (n_cls n) ->
  returns (let! k := new_node c kw in append i [k]) s.
Proof.
  intros Hn Hi Hh Hp. eapply returns_bind; [apply new_returns|].
  destruct (append_total i [st_next s] (new s (mk_node c kw)) n) as [s' E]; [| | | |exists s', tt; exact E].
  - rewrite new_lookup, decide_False by lia. exact Hn.
  - exact Hh.
  - apply NoDup_singleton.
  - intros k [<-|[]]. exists (mk_node c kw). rewrite new_lookup, decide_True by reflexivity. split; [reflexivity|]. split; [reflexivity|exact Hp].
Qed.
Lemma code_lang t c : type_in ["code"; "codeblock"] t = true -> is_Some (first_attrs t c !! a_lang).
Proof. intros H. apply type_in_true in H as (z & [<-|[<-|[]]] & ->); vm_compute; eauto. Qed.
Lemma asis_returns t i c s s1 m : draft s s1 i (node_class t) m [] [] -> parts_fit t c = true ->
  (type_in ["code"; "codeblock"] t = true -> is_Some (m !! a_lang)) -> returns (add_asis t i c) s1.
Proof.
  intros Hd H Hl. unfold add_asis. destruct (type_in ["math"; "code"; "mathblock"; "codeblock"; "algorithm"] t) eqn:Et; [|do 2 eexists; reflexivity].
  unfold parts_fit in H. rewrite Et, !andb_true_iff in H. destruct H as [[[_ H] _] _].
  destruct (rev (named_children c)) as [|a l]; [discriminate H|]. rewrite H.
  assert (Hc : has_children (node_class t) = true).
  { apply type_in_true in Et as (z & [<-|[<-|[<-|[<-|[<-|[]]]]]] & ->); reflexivity. }
  pose proof (dr_node _ _ _ _ _ _ _ Hd) as Hn0. pose proof (dr_hi _ _ _ _ _ _ _ Hd) as Hi0. destruct (type_in ["code"; "codeblock"] t).
  - destruct (Hl eq_refl) as [lang El].
    destruct (new_append_returns CSourceCode [(a_text, VStr (c_text (pl_node a))); (a_lang, lang)] i _ s1 Hn0 Hi0 Hc (or_introl eq_refl)) as (s' & r & E).
    exists s', r. rewrite <- E. unfold bind. unfold getattr, bind, get_node. rewrite Hn0. cbn [n_attrs]. rewrite El. reflexivity.
  - apply (new_append_returns CText _ i _ s1 Hn0 Hi0 Hc (or_introl eq_refl)).
Qed.
Lemma wrap_returns t i c s s1 m us own : draft s s1 i (node_class t) m us own ->
  (type_in ["mathblock"] t = true -> is_Some (m !! a_isclaim)) -> returns (wrap_claim t i c) s1.
Proof.
  intros Hd Hl. pose proof (dr_node _ _ _ _ _ _ _ Hd) as Hn0. pose proof (dr_hi _ _ _ _ _ _ _ Hd) as Hi0. unfold wrap_claim. destruct (type_in ["mathblock"] t) eqn:Et; [|do 2 eexists; reflexivity].
  destruct (Hl eq_refl) as [v Ev]. eapply returns_bind; [unfold getattr, bind, get_node; rewrite Hn0; cbn [n_attrs]; rewrite Ev; reflexivity|].
  destruct (truthy v); [|do 2 eexists; reflexivity]. eapply returns_bind; [apply new_returns|].
  destruct (append_total (st_next s1) [i] (new s1 (mk_node CClaimBlock (span_attrs c))) (mk_node CClaimBlock (span_attrs c))) as [s' E]; [| | | |].
  - rewrite new_lookup, decide_True by reflexivity. reflexivity.
  - reflexivity.
  - apply NoDup_singleton.
  - intros k [<-|[]]. eexists. rewrite new_lookup, decide_False by lia. split; [exact Hn0|]. split; [reflexivity|]. cbn [n_cls].
    apply type_in_true in Et as (z & [<-|[]] & ->). left. reflexivity.
  - eapply returns_bind; [exact E|]. do 2 eexists. reflexivity.
Qed.
Lemma parts_return t i c s : is_Some (st_heap s !! i) -> parts_fit t c = true -> returns (set_parts t i c) s.
Proof.
  intros Hi H. unfold parts_fit in H. rewrite !andb_true_iff in H. destruct H as [[_ Hr] _].
  unfold set_parts.
  assert (H1 : exists s', set_kind t i c s = (s', Ok tt) /\ is_Some (st_heap s' !! i)).
  { unfold set_kind. destruct (type_in ["construct"; "specialconstruct"] t); [|eauto]. destruct (field_child "tag" c); [|eauto]. apply set_returns, Hi. }
  destruct H1 as (s1 & E1 & Hi1). eapply returns_bind; [exact E1|].
  assert (H2 : exists s' l, set_target t i c s1 = (s', Ok l) /\ is_Some (st_heap s' !! i)).
  { unfold set_target. destruct (type_in ["ref"; "previous"; "url"] t) eqn:Et; [|eauto].
    assert (type_in ["ref"; "previous"; "url"; "cite"] t = true) as Et2 by (apply type_in_true in Et as (z & [<-|[<-|[<-|[]]]] & ->); reflexivity).
    rewrite Et2 in Hr. unfold nth_named. destruct (named_children c) as [|a [|b l]]; try discriminate Hr. cbn [nth_error].
    unfold ret at 1. unfold bind at 1. destruct (set_returns i a_target (VStr (c_text (pl_node b))) s1 Hi1) as (s2 & E2 & Hi2). unfold bind at 1. rewrite E2.
    destruct l as [|d l]; cbn [hd_error]; [eauto|].
    destruct (set_returns i a_overwrite_reftext (VStr (c_text (pl_node d))) s2 Hi2) as (s3 & E3 & Hi3). unfold bind. rewrite E3. unfold ret. eauto. }
  destruct H2 as (s2 & l & E2 & Hi2). eapply returns_bind; [exact E2|].
  assert (H3 : exists s', set_prev t i s2 = (s', Ok tt) /\ is_Some (st_heap s' !! i)).
  { unfold set_prev. destruct (str_eqb t _); [apply set_returns, Hi2|]. destruct (str_eqb t _); [apply set_returns, Hi2|].
    destruct (str_eqb t _); [apply set_returns, Hi2|]. eauto. }
  destruct H3 as (s3 & E3 & Hi3). eapply returns_bind; [exact E3|].
  unfold set_cite. destruct (type_in ["cite"] t) eqn:Et; [|do 2 eexists; reflexivity].
  assert (type_in ["ref"; "previous"; "url"; "cite"] t = true) as Et2 by (apply type_in_true in Et as (z & [<-|[]] & ->); reflexivity).
  rewrite Et2 in Hr. unfold nth_named. destruct (named_children c) as [|a [|b r]]; try discriminate Hr. cbn [nth_error].
  destruct (set_returns i a_targetlabels (VStrs (map strip (split_on 44 (c_text (pl_node b))))) s3 Hi3) as (s4 & E4 & _).
  do 2 eexists. unfold bind, ret. rewrite E4. reflexivity.
Qed.
Lemma get_text_returns i s n x : st_heap s !! i = Some n -> n_attrs n !! a_text = Some (VStr x) -> get_str i a_text s = (s, Ok x).
Proof. intros Hn E. unfold get_str, getattr, bind, get_node. rewrite Hn, E. reflexivity. Qed.
Lemma pad_returns t i x s : (type_in ["text"] t = true -> exists n y, st_heap s !! i = Some n /\ n_attrs n !! a_text = Some (VStr y)) ->
  returns (pad_text t i x (pl_node x)) s.
Proof.
  intros H. unfold pad_text. destruct (type_in ["text"] t); [|do 2 eexists; reflexivity]. specialize (H eq_refl).
  assert (Hset : forall s f, (exists n y, st_heap s !! i = Some n /\ n_attrs n !! a_text = Some (VStr y)) ->
    exists s', (let! y := get_str i a_text in setattr i a_text (VStr (f y))) s = (s', Ok tt) /\ exists n y, st_heap s' !! i = Some n /\ n_attrs n !! a_text = Some (VStr y)).
  { intros s0 f (n & y & Hn & Hy). exists (upd s0 i (set_n_attr a_text (VStr (f y)) n)). split.
    - unfold bind. rewrite (get_text_returns _ _ _ _ Hn Hy). unfold setattr. exact (mod_node_eq _ _ _ _ Hn).
    - exists (set_n_attr a_text (VStr (f y)) n), (f y). rewrite upd_lookup, decide_True by reflexivity. split; [reflexivity|]. cbn [n_attrs set_n_attr]. apply lookup_insert. }
  assert (H1 : exists s', (match pl_next x with
         | Some n => if ((c_end (pl_node x)).1 <? (c_start n).1)%Z
                     then let! s := get_str i a_text in setattr i a_text (VStr (s ++ lit " ")) else ret tt
         | None => ret tt
         end) s = (s', Ok tt) /\ exists n y, st_heap s' !! i = Some n /\ n_attrs n !! a_text = Some (VStr y)).
  { destruct (pl_next x) as [q|]; [|eauto]. destruct (_ <? _)%Z; [|eauto]. apply (Hset s (fun y => y ++ lit " ") H). }
  destruct H1 as (s1 & E1 & H1). eapply returns_bind; [exact E1|].
  destruct (pl_prev x) as [q|]; [|do 2 eexists; reflexivity]. destruct (_ <? _)%Z; [|do 2 eexists; reflexivity].
  destruct (Hset s1 (fun y => lit " " ++ y) H1) as (s2 & E2 & _). eauto.
Qed.
(** The parent is there, and of a class that may hold the node. *)
Definition open_to (k : cls) (s : st) (parent : option id) : Prop :=
  match parent with None => True | Some p => exists n, st_heap s !! p = Some n /\ may_be_in k (Some (n_cls n)) = true end.
Lemma attach_returns s s1 parent i cl m us own : good s -> draft s s1 i cl m us own -> open_to cl s parent -> returns (attach parent i) s1.
Proof.
  intros Hg Hd Ho. destruct parent as [p|]; [|do 2 eexists; reflexivity]. destruct Ho as (n & Hn & Hm).
  assert (Hp : p < st_next s) by exact (proj1 Hg _ _ Hn). pose proof (dr_old _ _ _ _ _ _ _ Hd p Hp) as Eo. rewrite Hn in Eo.
  cbn [attach]. eapply returns_bind; [unfold cls_of, bind, get_node; rewrite Eo; reflexivity|]. unfold may_be_in in Hm.
  destruct (has_children (n_cls n)) eqn:Eh; [|do 2 eexists; reflexivity]. cbn [negb orb] in Hm.
  destruct (append_total p [i] s1 n) as [s2 E2]; [exact Eo|exact Eh|apply NoDup_singleton| |exists s2, tt; exact E2].
  intros k [<-|[]]. eexists. split; [exact (dr_node _ _ _ _ _ _ _ Hd)|]. split; [reflexivity|]. cbn [n_cls]. unfold permitted.
  destruct (possible_parents cl) as [|d l]; [left; reflexivity|]. right. apply cls_mem_spec. exact Hm.
Qed.
Lemma shaped_class t x y c ts us : a_class (shaped t x c ts) = a_class (shaped t y c us).
Proof.
  unfold shaped. destruct (type_in ["mathblock"] t) eqn:E; [|reflexivity]. apply type_in_true in E as (z & [<-|[]] & ->).
  change (node_attrs (lit "mathblock") y c) with (node_attrs (lit "mathblock") x c). destruct (_ && _); reflexivity.
Qed.
Lemma valid_open k s parent : good s -> open_to k s parent -> valid s parent.
Proof. intros Hg Ho p ->. destruct Ho as (n & Hn & _). exact (proj1 Hg _ _ Hn). Qed.
Lemma text_there t c : type_in ["text"] t = true -> exists y, first_attrs t c !! a_text = Some (VStr y).
Proof. intros E. apply type_in_true in E as (z & [<-|[]] & ->). exists (c_text c). reflexivity. Qed.
Lemma claim_there t c : type_in ["mathblock"] t = true -> is_Some (first_attrs t c !! a_isclaim).
Proof. intros E. apply type_in_true in E as (z & [<-|[]] & ->). vm_compute. eauto. Qed.

Lemma step_node_returns v parent t x skip s :
  good s -> keys_typed (pl_node x) -> parts_fit t (pl_node x) = true -> open_to (a_class (shaped t (alone (pl_node x)) (pl_node x) [])) s parent ->
  returns (step_node v parent t x (pl_node x) skip) s.
Proof.
  intros Hg Hk Hf Ho. set (c := pl_node x) in *. unfold step_node.
  destruct (make_returns t c s Hf) as (s1 & i & E1). eapply returns_bind; [exact E1|].
  apply (make_node_draft _ _ _ _ _ false Hg) in E1 as [Hd _].
  assert (Hm : meta_fits c = true) by (unfold parts_fit in Hf; rewrite !andb_true_iff in Hf; apply Hf).
  destruct (ingest_returns i c s1 Hm) as [s2 E2]; [rewrite (dr_node _ _ _ _ _ _ _ Hd); eauto|]. eapply returns_bind; [exact E2|].
  apply ingest_meta_ok in E2; [|rewrite (dr_node _ _ _ _ _ _ _ Hd); eauto].
  pose proof (draft_attrs _ _ _ _ _ _ _ _ _ Hd E2) as Hd2.
  destruct (asis_returns t i c s s2 _ Hd2 Hf) as (s3 & u3 & E3); [intros Et; apply meta_some, code_lang, Et|]. eapply returns_bind; [exact E3|].
  apply (verbatim_ok _ _ _ _ _ _ _ _ _ Hd2) in E3 as (us & Hd3 & _).
  destruct (wrap_returns t i c s s3 _ _ _ Hd3) as (s4 & i4 & E4); [intros Et; apply meta_some, claim_there, Et|]. eapply returns_bind; [exact E4|].
  apply (wrap_claim_ok _ _ _ _ _ _ _ _ _ _ Hd3) in E4 as (_ & Hw).
  set (m := with_meta c (first_attrs t c)) in *.
  assert (Hw' : exists cl m4 us4 own4, draft s s4 i4 cl m4 us4 own4 /\ cl = a_class (shaped t (alone c) c []) /\ (type_in ["text"] t = true -> m4 = m)).
  { assert (Hmb : type_in ["mathblock"] t = true -> node_attrs t (alone c) c = m).
    { intros Et. apply type_in_true in Et as (z & [<-|[]] & ->). reflexivity. }
    assert (Hcl : type_in ["mathblock"] t && match node_attrs t (alone c) c !! a_isclaim with Some v => truthy v | None => false end =
                  type_in ["mathblock"] t && match m !! a_isclaim with Some v => truthy v | None => false end).
    { destruct (type_in ["mathblock"] t); [rewrite Hmb by reflexivity|]; reflexivity. }
    unfold shaped. rewrite Hcl. destruct Hw as [(Ew & -> & ->)|(Ew & Hd4)]; rewrite Ew.
    - exists (node_class t), m, us, (verbatim t m c). auto.
    - do 4 eexists. split; [exact Hd4|]. split; [reflexivity|]. intros Et. apply type_in_true in Et as (z & [<-|[]] & ->). discriminate Ew. }
  clear Hw. destruct Hw' as (cl & m4 & us4 & own4 & Hd4 & Ecl & Etext).
  assert (Hi4 : is_Some (st_heap s4 !! i4)) by (rewrite (dr_node _ _ _ _ _ _ _ Hd4); eauto).
  destruct (parts_return t i4 c s4 Hi4 Hf) as (s5 & l & E5). pose proof E5 as E5'. unfold set_parts in E5.
  apply bind_ok in E5 as (t1 & w1 & K1 & E5). apply bind_ok in E5 as (t2 & w2 & K2 & E5).
  apply bind_ok in E5 as (t3 & w3 & K3 & E5). apply bind_ok in E5 as (t4 & w4 & K4 & E5). apply ret_ok in E5 as [-> ->].
  eapply returns_bind; [exact K1|]. eapply returns_bind; [exact K2|]. eapply returns_bind; [exact K3|]. eapply returns_bind; [exact K4|].
  apply (set_parts_ok _ _ _ _ _ _ Hi4) in E5' as [H5 _]. pose proof (draft_attrs _ _ _ _ _ _ _ _ _ Hd4 H5) as Hd5.
  destruct (pad_returns t i4 x t4) as (s6 & u6 & E6).
  { intros Et. pose proof (dr_node _ _ _ _ _ _ _ Hd5) as Hn. rewrite (Etext Et) in Hn. destruct (text_there t c Et) as [y Hy].
    destruct (meta_str c a_text _ Hk (fun v H => H) (ex_intro _ y Hy)) as [y' Hy']. fold m in Hy'.
    eexists _, y'. split; [exact Hn|]. cbn [n_attrs]. apply type_in_true in Et as (z & [<-|[]] & ->). exact Hy'. }
  eapply returns_bind; [exact E6|].
  apply pad_text_ok in E6; [|rewrite (dr_node _ _ _ _ _ _ _ Hd5); eauto]. pose proof (draft_attrs _ _ _ _ _ _ _ _ _ Hd5 E6) as Hd6.
  rewrite <- Ecl in Ho. destruct (attach_returns _ _ parent _ _ _ _ _ Hg Hd6 Ho) as (s7 & u7 & E7). eapply returns_bind; [exact E7|]. do 2 eexists. reflexivity.
Qed.
Lemma step_section_returns v parent c s k kw :
  good s -> ast_type (c_type c) = Some (k, kw) -> meta_fits c = true -> open_to k s parent -> returns (step_section v parent c) s.
Proof.
  intros Hg Et Hm Ho. unfold step_section. rewrite Et. eapply returns_bind; [apply new_returns|].
  set (n0 := mk_node k (kw ++ span_attrs c)).
  assert (Hd : draft s (new s n0) (st_next s) k (mk_attrs k (kw ++ span_attrs c)) [] []) by (apply new_draft; assumption).
  assert (H2 : exists s2, (match field_child "title" c with Some t => setattr (st_next s) a_title (VStr (c_text (pl_node t))) | None => ret tt end) (new s n0) = (s2, Ok tt)
    /\ attrs_became (new s n0) s2 (st_next s) (with_field "title" a_title c)).
  { pose proof (dr_node _ _ _ _ _ _ _ Hd) as Hn. unfold with_field. destruct (field_child "title" c) as [q|].
    - eexists. split; [unfold setattr; exact (mod_node_eq _ _ _ _ Hn)|]. apply attrs_became_set, Hn.
    - eexists. split; [reflexivity|]. apply attrs_became_refl. rewrite Hn. eauto. }
  destruct H2 as (s2 & E2 & H2). eapply returns_bind; [exact E2|]. pose proof (draft_attrs _ _ _ _ _ _ _ _ _ Hd H2) as Hd2.
  destruct (ingest_returns (st_next s) c s2 Hm) as [s3 E3]; [rewrite (dr_node _ _ _ _ _ _ _ Hd2); eauto|]. eapply returns_bind; [exact E3|].
  apply ingest_meta_ok in E3; [|rewrite (dr_node _ _ _ _ _ _ _ Hd2); eauto]. pose proof (draft_attrs _ _ _ _ _ _ _ _ _ Hd2 E3) as Hd3.
  destruct (attach_returns _ _ parent _ _ _ _ _ Hg Hd3 Ho) as (s7 & u7 & E7). eapply returns_bind; [exact E7|]. do 2 eexists. reflexivity.
Qed.
Lemma field_returns f c s q : field_child f c = Some q -> field_text f c s = (s, Ok (c_text (pl_node q))).
Proof. unfold field_text. intros ->. reflexivity. Qed.
Lemma set_pairs_return i l : forall s, is_Some (st_heap s !! i) ->
  forallb (fun q => match named_children (pl_node q) with
                    | [k; _] => settable (c_text (pl_node k)) && negb (type_in ["reftext"] (c_text (pl_node k)))
                    | _ => false end) l = true ->
  exists s', iterM (set_pair i) (map pl_node l) s = (s', Ok tt).
Proof.
  induction l as [|q l IH]; intros s Hi H; [eexists; reflexivity|]. cbn [forallb] in H. apply andb_true_iff in H as [H1 H2]. cbn [map iterM]. unfold bind. unfold set_pair at 1.
  destruct (named_children (pl_node q)) as [|a [|b [|]]]; try discriminate H1. apply andb_true_iff in H1 as [Hs Hr].
  destruct (settable_ok (c_text (pl_node a)) i (VStr (c_text (pl_node b))) s Hs) as (s1 & E1 & Hi1); [|exact Hi|].
  - unfold type_in, str_mem in Hr. cbn [map existsb] in Hr. rewrite orb_false_r in Hr. apply negb_true_iff in Hr. exact Hr.
  - rewrite E1. apply (IH s1 Hi1 H2).
Qed.
Lemma step_bibitem_returns v p n c s : good s -> st_heap s !! p = Some n -> has_children (n_cls n) = true -> bibitem_fits c = true ->
  returns (step_bibitem v (Some p) c) s.
Proof.
  intros Hg Hn Hc Hf. unfold step_bibitem. unfold bibitem_fits in Hf. destruct (field_child "kind" c) as [q1|] eqn:E1; [|discriminate Hf].
  destruct (field_child "label" c) as [q2|] eqn:E2; [|discriminate Hf]. eapply returns_bind; [apply new_returns|].
  set (n0 := mk_node CBibitem []).
  assert (Hd : draft s (new s n0) (st_next s) CBibitem (mk_attrs CBibitem []) [] []) by (apply new_draft; assumption).
  eapply returns_bind; [exact (field_returns _ _ _ _ E1)|]. eapply returns_bind; [unfold setattr; exact (mod_node_eq _ _ _ _ (dr_node _ _ _ _ _ _ _ Hd))|].
  pose proof (attrs_became_set _ _ a_kind (VStr (c_text (pl_node q1))) _ (dr_node _ _ _ _ _ _ _ Hd)) as H3.
  pose proof (draft_attrs _ _ _ _ _ _ _ _ _ Hd H3) as Hd3.
  eapply returns_bind; [exact (field_returns _ _ _ _ E2)|]. eapply returns_bind; [unfold setattr; exact (mod_node_eq _ _ _ _ (dr_node _ _ _ _ _ _ _ Hd3))|].
  pose proof (attrs_became_set _ _ a_label (VStr (c_text (pl_node q2))) _ (dr_node _ _ _ _ _ _ _ Hd3)) as H4.
  pose proof (draft_attrs _ _ _ _ _ _ _ _ _ Hd3 H4) as Hd4.
  match type of Hd4 with draft _ ?s4 _ _ _ _ _ => destruct (set_pairs_return (st_next s) _ s4 ltac:(rewrite (dr_node _ _ _ _ _ _ _ Hd4); eauto) Hf) as [s5 E5] end.
  eapply returns_bind; [exact E5|]. apply set_pairs_ok in E5; [|rewrite (dr_node _ _ _ _ _ _ _ Hd4); eauto].
  pose proof (draft_attrs _ _ _ _ _ _ _ _ _ Hd4 E5) as Hd5.
  assert (Hp : p < st_next s) by exact (proj1 Hg _ _ Hn).
  destruct (append_total p [st_next s] s5 n) as [s6 E6]; [rewrite (dr_old _ _ _ _ _ _ _ Hd5) by exact Hp; exact Hn|exact Hc|apply NoDup_singleton| |].
  - intros k [<-|[]]. eexists. split; [exact (dr_node _ _ _ _ _ _ _ Hd5)|]. split; [reflexivity|]. left. reflexivity.
  - eapply returns_bind; [exact E6|]. do 2 eexists. reflexivity.
Qed.
Lemma step_bibliography_returns v r n s : good s -> ps_root v = Some r -> st_heap s !! r = Some n -> has_children (n_cls n) = true -> returns (step_bibliography v) s.
Proof.
  intros Hg Hr Hn Hc. unfold step_bibliography. rewrite Hr.
  destruct (new_append_returns CBibliography [] r n s Hn (proj1 Hg _ _ Hn) Hc (or_introl eq_refl)) as (s' & u & E).
  apply bind_ok in E as (s1 & b & E1 & E2). eapply returns_bind; [exact E1|]. eapply returns_bind; [exact E2|]. do 2 eexists. reflexivity.
Qed.

(** ** One iteration *)

Lemma keys_down c x : keys_typed c -> In x (c_children c) -> keys_typed x.
Proof. intros H Hx d Hd. apply H. destruct c. right. apply in_flat_map. exists x. auto. Qed.
Lemma named_child x c : In x (named_children c) -> In (pl_node x) (c_children c).
Proof. intros H. unfold named_children in H. apply filter_In in H as [H _]. unfold places in H. exact (places_from_in _ _ _ _ H). Qed.
Definition entry_ok (s : st) (e : entry) : Prop :=
  keys_typed (pl_node e.2) /\
  match e.1 with
  | None => fits (pl_node e.2) None = true
  | Some p => exists n, st_heap s !! p = Some n /\ fits (pl_node e.2) (Some (n_cls n)) = true
  end.
Definition pst_ok (s : st) (v : pst) : Prop :=
  (exists r n, ps_root v = Some r /\ st_heap s !! r = Some n /\ has_children (n_cls n) = true) /\
  (forall b, ps_bib v = Some b -> exists n, st_heap s !! b = Some n /\ n_cls n = CBibliography).
(** Nodes stay, with their class. *)
Definition steady (s s' : st) : Prop := forall j n, st_heap s !! j = Some n -> exists n', st_heap s' !! j = Some n' /\ n_cls n' = n_cls n.
Lemma steady_refl s : steady s s. Proof. intros j n H. eauto. Qed.
Lemma entry_steady s s' e : steady s s' -> entry_ok s e -> entry_ok s' e.
Proof. intros H [Hk He]. split; [exact Hk|]. destruct (e.1) as [p|]; [|exact He]. destruct He as (n & Hn & He). destruct (H _ _ Hn) as (n' & Hn' & Ec). exists n'. rewrite Ec. auto. Qed.
Lemma pst_steady s s' v : steady s s' -> pst_ok s v -> pst_ok s' v.
Proof.
  intros H [(r & n & Hr & Hn & Hc) Hb]. split.
  - destruct (H _ _ Hn) as (n' & Hn' & Ec). exists r, n'. rewrite Ec. auto.
  - intros b Eb. destruct (Hb b Eb) as (m & Hm & Em). destruct (H _ _ Hm) as (m' & Hm' & Ec). exists m'. rewrite Ec. auto.
Qed.
Lemma placed_steady s s' p i cl m us own : good s -> placed s s' p i cl m us own -> steady s s'.
Proof.
  intros Hg Hp j n Hj. destruct (hd_delta _ _ _ _ _ _ _ _ Hp) as [_ Hd]. rewrite Hd, Hj by exact (proj1 Hg _ _ Hj). cbn [option_map]. eexists. split; [reflexivity|]. reflexivity.
Qed.
Lemma kids_ready s i n k skip c : keys_typed c -> st_heap s !! i = Some n -> n_cls n = k -> fit_kids k skip c = true -> Forall (entry_ok s) (under (Some i) (pushed skip c)).
Proof.
  intros Hk Hn <- Hf. apply List.Forall_forall. intros e He. unfold under in He. apply in_map_iff in He as (x & <- & Hx). split; cbn [fst snd].
  - eapply keys_down; [exact Hk|]. apply named_child. unfold pushed in Hx. apply filter_In in Hx as [Hx _]. exact Hx.
  - exists n. split; [exact Hn|]. unfold fit_kids in Hf. rewrite forallb_forall in Hf. exact (Hf x Hx).
Qed.
Notation goes_on m s := (exists s' v es, m s = (s', Ok (v, es)) /\ good s' /\ steady s s' /\ pst_ok s' v /\ Forall (entry_ok s') es).
Definition parent_class (s : st) (p : option id) (k : option cls) : Prop :=
  match p with None => k = None | Some i => exists n, st_heap s !! i = Some n /\ k = Some (n_cls n) end.
Lemma open_may k s p d : parent_class s p d -> may_be_in k d = true -> open_to k s p.
Proof. intros Hp Hm. destruct p as [i|]; [|exact I]. destruct Hp as (n & Hn & ->). exists n. auto. Qed.
Lemma node_goes_on v p d t x skip s : good s -> pst_ok s v -> keys_typed (pl_node x) -> parent_class s p d -> node_fit t (pl_node x) skip d = true ->
  goes_on (step_node v p t x (pl_node x) skip) s.
Proof.
  intros Hg Hv Hk Hp Hf. unfold node_fit in Hf. rewrite !andb_true_iff in Hf. destruct Hf as [[Hf Hm] Hks].
  pose proof (open_may _ _ _ _ Hp Hm) as Ho. destruct (step_node_returns v p t x skip s Hg Hk Hf Ho) as (s' & [v' es] & E).
  exists s', v', es. split; [exact E|]. apply (step_node_ok _ _ _ _ _ _ _ _ _ false Hg (valid_open _ _ _ Hg Ho)) in E as (i & cl & m & us & own & Hpl & Hsh & -> & -> & _).
  pose proof (placed_steady _ _ _ _ _ _ _ _ Hg Hpl) as Hst. split; [exact (hd_good _ _ _ _ _ _ _ _ Hpl)|]. split; [exact Hst|]. split; [exact (pst_steady _ _ _ Hst Hv)|].
  eapply kids_ready; [exact Hk|exact (hd_node _ _ _ _ _ _ _ _ Hpl)| |exact Hks]. cbn [n_cls].
  rewrite <- (shaped_class t x (alone (pl_node x)) (pl_node x) [] []), (Hsh []) by reflexivity. reflexivity.
Qed.
Lemma manuscript_only k : subclass k CManuscript = true -> k = CManuscript.
Proof. destruct k; vm_compute; intros H; try discriminate H; reflexivity. Qed.
Lemma section_goes_on v p d c k kw s : good s -> (pst_ok s v \/ subclass k CManuscript = true /\ ps_bib v = None) -> keys_typed c -> parent_class s p d ->
  ast_type (c_type c) = Some (k, kw) -> meta_fits c = true -> may_be_in k d = true -> fit_kids k (skipped_title c) c = true ->
  goes_on (step_section v p c) s.
Proof.
  intros Hg Hv Hk Hp Et Hmf Hm Hks. pose proof (open_may _ _ _ _ Hp Hm) as Ho.
  destruct (step_section_returns v p c s k kw Hg Et Hmf Ho) as (s' & [v' es] & E).
  exists s', v', es. split; [exact E|]. apply (step_section_ok _ _ _ _ _ _ _ Hg (valid_open _ _ _ Hg Ho)) in E as (i & Hpl & -> & -> & _ & _).
  pose proof (placed_steady _ _ _ _ _ _ _ _ Hg Hpl) as Hst. assert (Ek : node_class (c_type c) = k) by (unfold node_class; rewrite Et; reflexivity). rewrite Ek in *.
  pose proof (hd_node _ _ _ _ _ _ _ _ Hpl) as Hn.
  split; [exact (hd_good _ _ _ _ _ _ _ _ Hpl)|]. split; [exact Hst|]. split.
  - destruct (subclass k CManuscript) eqn:Es.
    + apply manuscript_only in Es as ->. split; [exists i; eexists; split; [reflexivity|]; split; [exact Hn|reflexivity]|]. cbn [ps_bib].
      destruct Hv as [Hv|[_ Hv]]; [|rewrite Hv; discriminate]. exact (proj2 (pst_steady _ _ _ Hst Hv)).
    + destruct Hv as [Hv|[Hv _]]; [|discriminate Hv]. exact (pst_steady _ _ _ Hst Hv).
  - eapply kids_ready; [exact Hk|exact Hn|reflexivity|exact Hks].
Qed.
Lemma warn_steady {X} (f : X -> M unit) (l : list X) : (forall x s, exists r, f x s = (MkSt (st_heap s) (st_next s) (st_logs s ++ [r]), Ok tt)) ->
  forall s, exists L, iterM f l s = (MkSt (st_heap s) (st_next s) L, Ok tt).
Proof.
  intros Hf. induction l as [|x l IH]; intros s; [exists (st_logs s); destruct s; reflexivity|]. cbn [iterM]. unfold bind. destruct (Hf x s) as [r ->].
  destruct (IH (MkSt (st_heap s) (st_next s) (st_logs s ++ [r]))) as [L ->]. eauto.
Qed.
Lemma good_logs s L : good s -> good (MkSt (st_heap s) (st_next s) L).
Proof. intros H. exact H. Qed.
Lemma bibtex_goes_on v c s : good s -> pst_ok s v -> keys_typed c ->
  forallb (fun q => bibitem_fits (pl_node q)) (List.filter (fun q => is_type "bibitem" (pl_node q)) (named_children c)) = true ->
  goes_on (step_bibtex v c) s.
Proof.
  intros Hg Hv Hk Hf. unfold step_bibtex. destruct (ps_bib v) as [b|] eqn:Eb.
  - match goal with |- context [iterM ?f ?l] => destruct (warn_steady f l ltac:(intros x0 s0; eexists; reflexivity) s) as [L EL]; unfold bind; rewrite EL end.
    eexists _, _, _. split; [reflexivity|]. split; [apply good_logs, Hg|]. split; [exact (steady_refl s)|]. split; [exact Hv|].
    destruct (proj2 Hv b Eb) as (n & Hn & Ec). apply List.Forall_forall. intros e He. unfold under in He. apply in_map_iff in He as (x & <- & Hx).
    rewrite forallb_forall in Hf. pose proof (Hf x Hx) as Hb. apply filter_In in Hx as [Hx Ht]. split; cbn [fst snd].
    + eapply keys_down; [exact Hk|]. apply named_child, Hx.
    + exists n. split; [exact Hn|]. rewrite fits_eq. unfold fits_at. unfold is_type in *. apply str_eqb_eq in Ht. rewrite Ht.
      cbv zeta. rewrite Hb, Ec. reflexivity.
  - eexists _, _, _. split; [reflexivity|]. split; [apply good_logs, Hg|]. split; [exact (steady_refl s)|]. split; [exact Hv|constructor].
Qed.
Lemma step_goes_on v p x s : good s -> pst_ok s v -> entry_ok s (p, x) -> goes_on (step v p x) s.
Proof.
  intros Hg Hv [Hk He]. cbn [fst snd] in *. set (c := pl_node x) in *.
  assert (Hd : exists d, parent_class s p d /\ fits_at c d = true).
  { destruct p as [i|]; [destruct He as (n & Hn & He); exists (Some (n_cls n)); split; [exists n; auto|]|exists None; split; [reflexivity|]]; rewrite <- fits_eq; exact He. }
  clear He. destruct Hd as (d & Hp & Hf). unfold fits_at in Hf. unfold step. fold c. cbv zeta in *.
  destruct (is_type "comment" c).
  { eexists _, _, _. split; [reflexivity|]. split; [exact Hg|]. split; [apply steady_refl|]. split; [exact Hv|constructor]. }
  destruct (is_type "specialblock" c && _).
  { destruct (proj1 Hv) as (r & n & Hr & Hn & Hc). destruct (step_bibliography_returns v r n s Hg Hr Hn Hc) as (s' & [v' es] & E). exists s', v', es. split; [exact E|].
    apply (step_bibliography_ok _ _ _ _ _ _ Hg Hr (proj1 Hg _ _ Hn)) in E as (i & Hpl & -> & -> & _).
    pose proof (placed_steady _ _ _ _ _ _ _ _ Hg Hpl) as Hst. split; [exact (hd_good _ _ _ _ _ _ _ _ Hpl)|]. split; [exact Hst|]. split; [|constructor].
    split; [destruct (Hst _ _ Hn) as (n' & Hn' & Ec); exists r, n'; rewrite Ec; auto|]. cbn [ps_bib]. intros b [= <-]. eexists. split; [exact (hd_node _ _ _ _ _ _ _ _ Hpl)|reflexivity]. }
  destruct (is_type "bibtex" c); [apply bibtex_goes_on; assumption|].
  destruct (is_type "bibitem" c).
  { apply andb_true_iff in Hf as [Hb Hh]. destruct p as [i|]; [|rewrite Hp in Hh; discriminate Hh]. destruct Hp as (n & Hn & ->).
    destruct (step_bibitem_returns v i n c s Hg Hn Hh Hb) as (s' & [v' es] & E). exists s', v', es. split; [exact E|].
    assert (Hval : valid s (Some i)) by (intros j [= <-]; exact (proj1 Hg _ _ Hn)).
    apply (step_bibitem_ok _ _ _ _ _ _ _ Hg Hval) in E as (? & j & _ & Hpl & -> & -> & _).
    pose proof (placed_steady _ _ _ _ _ _ _ _ Hg Hpl) as Hst. split; [exact (hd_good _ _ _ _ _ _ _ _ Hpl)|]. split; [exact Hst|]. split; [exact (pst_steady _ _ _ Hst Hv)|constructor]. }
  destruct (is_type "source_file" c || suffixb (lit "section") (c_type c)).
  { destruct (ast_type (c_type c)) as [[k kw]|] eqn:Et; [|discriminate Hf]. rewrite !andb_true_iff in Hf. destruct Hf as [[H1 H2] H3].
    eapply section_goes_on; eauto. }
  assert (Hfirst : forall f, nth_error (named_children c) 0 = Some f -> keys_typed (pl_node f)).
  { intros f E. eapply keys_down; [exact Hk|]. apply named_child. eapply nth_error_In, E. }
  assert (Hon : forall f, keys_typed (pl_node f) -> fits (pl_node f) d = true -> Forall (entry_ok s) [(p, f)]).
  { intros f Hkf Hff. constructor; [|constructor]. split; [exact Hkf|]. cbn [fst snd]. destruct p as [i|]; [destruct Hp as (n & Hn & ->); eauto|]. rewrite Hp in Hff. exact Hff. }
  destruct (type_in ["specialblock"; "specialinline"] (c_type c)).
  { unfold nth_named. destruct (nth_error (named_children c) 0) as [f|] eqn:Ef; [|discriminate Hf]. unfold bind, ret. destruct (is_type "table" (pl_node f)).
    - eexists _, _, _. split; [reflexivity|]. split; [exact Hg|]. split; [apply steady_refl|]. split; [exact Hv|apply Hon; auto].
    - apply (node_goes_on v p d (c_type (pl_node f)) x [] s Hg Hv Hk Hp Hf). }
  destruct (is_type "td" c).
  { unfold nth_named. destruct (nth_error (named_children c) 0) as [f|] eqn:Ef; [|discriminate Hf]. unfold bind, ret.
    eexists _, _, _. split; [reflexivity|]. split; [exact Hg|]. split; [apply steady_refl|]. split; [exact Hv|apply Hon; auto]. }
  destruct (is_type "paragraph" c).
  { unfold nth_named. destruct (nth_error (named_children c) 0) as [f|] eqn:Ef; [|discriminate Hf]. unfold bind, ret.
    destruct (type_in ["item"; "caption"] (c_type (pl_node f))) eqn:Et; [|apply (node_goes_on v p d (c_type c) x [] s Hg Hv Hk Hp Hf)].
    apply (node_goes_on v p d (c_type (pl_node f)) f [] s Hg Hv (Hfirst f eq_refl) Hp).
    rewrite fits_eq in Hf. unfold fits_at in Hf. unfold is_type in Hf. apply type_in_true in Et as (z & [<-|[<-|[]]] & Et); rewrite Et in *; exact Hf. }
  destruct (type_in ["block"; "inline"] (c_type c)).
  { destruct (field_child "tag" c) as [g|]; [|discriminate Hf]. apply (node_goes_on v p d _ x _ s Hg Hv Hk Hp Hf). }
  apply (node_goes_on v p d _ x _ s Hg Hv Hk Hp Hf).
Qed.

(** ** The loop *)

Lemma loop_goes_on fuel : forall v st s, good s -> pst_ok s v -> Forall (entry_ok s) st ->
  (exists s' v', abs_loop fuel v st s = (s', Ok v')) \/ (exists s', abs_loop fuel v st s = (s', Err EOutOfFuel)).
Proof.
  induction fuel as [|fuel IH]; intros v [|[p x] st] s Hg Hv Hst; cbn [abs_loop].
  - left. do 2 eexists. reflexivity.
  - right. eexists. reflexivity.
  - left. do 2 eexists. reflexivity.
  - apply list.Forall_cons in Hst as [He Hst]. destruct (step_goes_on v p x s Hg Hv He) as (s1 & v1 & es & E & Hg1 & Hs1 & Hv1 & Hes). unfold bind. rewrite E. cbn [fst snd].
    apply IH; [exact Hg1|exact Hv1|]. apply Forall_app. split; [exact Hes|]. eapply List.Forall_impl; [|exact Hst]. intros e. apply entry_steady, Hs1.
Qed.
(** The loop over the syntax tree returns. *)
Lemma abs_loop_returns c s : source c -> keys_typed c -> well_formed c -> good s ->
  exists fuel s' v, abs_loop fuel (MkPst None None) [(None, alone c)] s = (s', Ok v).
Proof.
  intros [Hs _] Hk Hw Hg. exists (S (c_size c)). assert (Hend : forall s', abs_loop (S (c_size c)) (MkPst None None) [(None, alone c)] s <> (s', Err EOutOfFuel)).
  { intros s'. apply abs_loop_ends. unfold depth_left, load. cbn [map snd alone pl_node]. unfold list_sum. cbn [fold_right]. lia. }
  unfold well_formed in Hw. rewrite fits_eq in Hw. unfold fits_at, is_type in Hw. unfold is_type in Hs. pose proof Hs as Et. apply str_eqb_eq in Et.
  rewrite Et in Hw. change (match ast_type (lit "source_file") with Some (k, _) => meta_fits c && may_be_in k None && fit_kids k (skipped_title c) c | None => false end = true) in Hw.
  cbn [may_be_in] in Hw. rewrite andb_true_r in Hw. change (meta_fits c && fit_kids CManuscript (skipped_title c) c = true) in Hw. apply andb_true_iff in Hw as [H1 H2].
  destruct (section_goes_on (MkPst None None) None None c CManuscript [] s Hg) as (s1 & v1 & es & E & Hg1 & Hs1 & Hv1 & Hes); auto.
  { reflexivity. }
  { rewrite Et. reflexivity. }
  assert (Estep : step (MkPst None None) None (alone c) s = (s1, Ok (v1, es))).
  { rewrite <- E. unfold step. cbn [pl_node alone]. unfold is_type. rewrite Et. reflexivity. }
  cbn [abs_loop] in *. unfold bind in *. rewrite Estep in *. cbn [fst snd] in *. rewrite app_nil_r in *.
  destruct (loop_goes_on (c_size c) v1 es s1 Hg1 Hv1 Hes) as [(s' & v' & E')|(s' & E')]; [eauto|]. exfalso. exact (Hend _ E').
Qed.
