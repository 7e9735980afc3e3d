(** The exceptions of the parser. *)
From Verif Require Import TreeFacts Consistency.
From Verif Require Export ExnBound ParseEnds.
From Verif Require Import NodeOps Monad.
Local Open Scope list_scope.
Local Notation grows := TypedStep.grows.

Definition inner (e : exn) : Prop :=
  match e with
  | EParser _ | ENode _ | EAttribute | EIndex | EValue | EAssert | EKey | EType | EUnsupported | EOutOfFuel => True
  | _ => False
  end.
#[export] Instance inner_errs : node_errs inner. Proof. split; intros; exact I. Qed.

(** ** The loop over the syntax tree *)

Lemma in_pair k v e : parse_pair k v = Err e -> inner e.
Proof.
  unfold parse_pair. assert (K : forall e, key_name k = Err e -> inner e) by (intros e'; unfold key_name; destruct (named_children k); [intros [= <-]; exact I|discriminate]).
  destruct (str_eqb _ _); [destruct (key_name k) as [a|f]; [destruct v; [discriminate|intros [= <-]; exact I]|intros [= <-]; apply K; reflexivity]|].
  destruct (_ || _); [destruct (key_name k) as [a|f]; [destruct v; [discriminate|intros [= <-]; exact I]|intros [= <-]; apply K; reflexivity]|].
  destruct (str_eqb _ _); [destruct (key_name k) as [a|f]; [discriminate|intros [= <-]; apply K; reflexivity]|].
  destruct (str_eqb _ _); intros [= <-]; exact I.
Qed.
Lemma in_pairs l : forall d e, parse_pairs l d = Err e -> inner e.
Proof.
  induction l as [|p l IH]; intros d e H; cbn [parse_pairs] in H; [discriminate|].
  destruct (named_children (pl_node p)) as [|k [|v [|w r]]]; try (injection H as <-; exact I).
  - destruct (parse_pair (pl_node k) None) as [[a b]|e'] eqn:E; [eapply IH, H|]. injection H as <-. eapply in_pair, E.
  - destruct (parse_pair (pl_node k) (Some (pl_node v))) as [[a b]|e'] eqn:E; [eapply IH, H|]. injection H as <-. eapply in_pair, E.
Qed.
Lemma sf_py_setattr X i k v : In i X -> sf inner X (py_setattr i k v) none_. Proof. intros H. unfold py_setattr. sfs. Qed.
Ltac leaf ::= first [apply sf_remove; inx | apply sf_py_setattr; inx].
Lemma sf_ingest X i c : In i X -> sf inner X (ingest_meta i c) none_.
Proof.
  intros H. unfold ingest_meta. destruct (field_child _ _) as [m|]; [|sret]. eapply sf_bind; [apply sf_lift; intros e; apply in_pairs|]. intros d. cbn [app none_].
  unfold ingest_dict_as_meta. apply sf_iterM. intros p _. apply sf_py_setattr, H.
Qed.
Lemma sf_attach X p i : In i X -> (forall q, p = Some q -> In q X) -> sf inner X (attach p i) none_.
Proof.
  intros H Hp. unfold attach. destruct p as [q|]; [|sret]. specialize (Hp q eq_refl). sfs. apply sf_append; [exact Hp|]. intros c [<-|[]]. exact H.
Qed.
Lemma sf_nth X k c : sf inner X (nth_named k c) none_. Proof. unfold nth_named. sfs. Qed.
Lemma sf_field X n c : sf inner X (field_text n c) none_. Proof. unfold field_text. sfs. Qed.

(** The nodes in the variables and on the stack. *)
Definition vars (v : pst) : list id := opt_ (ps_root v) ++ opt_ (ps_bib v).
Definition parents (l : list (option id * place)) : list id := flat_map (fun e => opt_ e.1) l.
Definition res_ (r : step_res) : list id := vars r.1 ++ parents r.2.
Lemma in_under x p l : In x (parents (under p l)) -> In x (opt_ p).
Proof. unfold parents, under. rewrite in_flat_map. intros (e & He & Hx). apply in_map_iff in He as (q & <- & _). exact Hx. Qed.

Ltac vx := unfold res_ in *; cbn [fst snd] in *; rewrite ?in_app_iff in *; cbn [In parents flat_map opt_ none_ app fst snd] in *.
Lemma sf_result X v es : (forall x, In x (vars v) -> In x X) -> (forall x, In x (parents es) -> In x X) -> sf inner X (ret (v, es)) res_.
Proof. intros H1 H2. apply sf_ret. intros x Hx. unfold res_ in Hx. apply in_app_iff in Hx as [Hx|Hx]; auto. Qed.
Lemma sf_bibitem X v p c : (forall x, In x (vars v) -> In x X) -> (forall x, In x (opt_ p) -> In x X) -> sf inner X (step_bibitem v p c) res_.
Proof.
  intros Hv Hp. unfold step_bibitem. eapply sf_bind; [apply sf_new|intros b]. eapply sf_bind; [apply sf_field|intros kind; cbn [app none_]].
  eapply sf_bind; [apply sf_setattr; inx|intros u; cbn [app none_]]. eapply sf_bind; [apply sf_field|intros lab; cbn [app none_]].
  eapply sf_bind; [apply sf_setattr; inx|intros u2; cbn [app none_]].
  eapply sf_bind; [apply sf_iterM; intros d _; unfold set_pair; sfs|intros u3; cbn [app none_]].
  destruct p as [p|]; [|apply sf_raise; exact I]. specialize (Hp p (or_introl eq_refl)).
  eapply sf_bind; [apply sf_append; [inx|intros x [<-|[]]; inx]|intros u4; cbn [app none_]].
  apply sf_result; [intros x Hx; specialize (Hv x Hx); inx|intros x []].
Qed.
Lemma sf_bibliography X v : (forall x, In x (vars v) -> In x X) -> sf inner X (step_bibliography v) res_.
Proof.
  intros Hv. unfold step_bibliography. eapply sf_bind; [apply sf_new|intros b]. destruct (ps_root v) as [r|] eqn:Er; [|apply sf_raise; exact I].
  assert (Hr : In r X) by (apply Hv; unfold vars; rewrite Er; left; reflexivity).
  eapply sf_bind; [apply sf_append; [inx|intros x [<-|[]]; inx]|intros u; cbn [app none_]].
  apply sf_result; [|intros x []]. intros x Hx. unfold vars in Hx. cbn in Hx. inx.
Qed.
Lemma sf_bibtex X v c : (forall x, In x (vars v) -> In x X) -> sf inner X (step_bibtex v c) res_.
Proof.
  intros Hv. unfold step_bibtex. destruct (ps_bib v) as [b|] eqn:Eb.
  - eapply sf_bind; [apply sf_iterM; intros e _; unfold warn; apply sf_log|intros u; cbn [app none_]].
    apply sf_result; [exact Hv|]. intros x Hx. apply in_under in Hx. destruct Hx as [<-|[]]. apply Hv. unfold vars. rewrite Eb, in_app_iff. right. left. reflexivity.
  - eapply sf_bind; [unfold warn; apply sf_log|intros u; cbn [app none_]]. apply sf_result; [exact Hv|intros x []].
Qed.
Lemma sf_section X v p c : (forall x, In x (vars v) -> In x X) -> (forall x, In x (opt_ p) -> In x X) -> sf inner X (step_section v p c) res_.
Proof.
  intros Hv Hp. unfold step_section. destruct (ast_type (c_type c)) as [[k kw]|]; [|apply sf_raise; exact I].
  eapply sf_bind; [apply sf_new|intros i].
  eapply sf_bind; [instantiate (1 := none_); destruct (field_child _ _); [apply sf_setattr; inx|sret]|intros u; cbn [app none_]].
  eapply sf_bind; [apply sf_ingest; inx|intros u2; cbn [app none_]].
  eapply sf_bind; [apply sf_attach; [inx|intros q ->; specialize (Hp q (or_introl eq_refl)); inx]|intros u3; cbn [app none_]].
  apply sf_result.
  - intros x Hx. destruct (subclass k CManuscript); [|specialize (Hv x Hx); inx]. unfold vars in *. cbn in Hx.
    destruct Hx as [<-|Hx]; [inx|]. right. apply Hv. apply in_app_iff. right. exact Hx.
  - intros x Hx. apply in_under in Hx. inx.
Qed.
Lemma sf_make_node X t c : sf inner X (make_node t c) (fun i => [i]).
Proof.
  unfold make_node. destruct (ast_type t) as [[k kw]|].
  - eapply sf_bind; [apply sf_new|intros i]. eapply sf_bind; [instantiate (1 := none_); destruct (subclass k CText); [apply sf_setattr; inx|sret]|intros u; cbn [app none_]]. sret.
  - destruct (str_eqb _ _); [|apply sf_raise; exact I]. eapply sf_bind; [apply sf_log|intros u]. apply sf_new.
Qed.
Lemma sf_add_asis X t i c : In i X -> sf inner X (add_asis t i c) none_.
Proof.
  intros H. unfold add_asis. destruct (type_in _ _); [|sret]. destruct (rev _) as [|a r]; [apply sf_raise; exact I|]. destruct (is_type _ _); [|apply sf_raise; exact I].
  eapply sf_bind; [instantiate (1 := fun i => [i]); destruct (type_in _ _); [eapply sf_bind; [apply sf_getattr, H|intros l; apply sf_new]|apply sf_new]|intros ch; cbn [app]].
  apply sf_append; [inx|]. intros x [<-|[]]. inx.
Qed.
Lemma sf_wrap X t i c : In i X -> sf inner X (wrap_claim t i c) (fun i => [i]).
Proof.
  intros H. unfold wrap_claim. sfs. eapply sf_bind; [apply sf_append; [inx|intros x [<-|[]]; inx]|intros u; sret].
Qed.
Lemma sf_set_kind X t i c : In i X -> sf inner X (set_kind t i c) none_. Proof. intros H. unfold set_kind. sfs. Qed.
Lemma sf_set_target X t i c : In i X -> sf inner X (set_target t i c) none_.
Proof.
  intros H. unfold set_target. destruct (type_in _ _); [|sret]. eapply sf_bind; [apply sf_nth|intros p; cbn [app none_]].
  eapply sf_bind; [apply sf_setattr, H|intros u; cbn [app none_]]. destruct (nth_error _ _); [|sret]. eapply sf_bind; [apply sf_setattr, H|intros u2; sret].
Qed.
Lemma sf_set_prev X t i : In i X -> sf inner X (set_prev t i) none_. Proof. intros H. unfold set_prev. sfs. Qed.
Lemma sf_set_cite X t i c : In i X -> sf inner X (set_cite t i c) none_.
Proof. intros H. unfold set_cite. destruct (type_in _ _); [|sret]. eapply sf_bind; [apply sf_nth|intros p; cbn [app none_]]. eapply sf_bind; [apply sf_setattr, H|intros u2; sret]. Qed.
Lemma sf_pad_text X t i x c : In i X -> sf inner X (pad_text t i x c) none_.
Proof. intros H. unfold pad_text. sfs. Qed.
Lemma sf_step_node X v p t x c skip : (forall x, In x (vars v) -> In x X) -> (forall x, In x (opt_ p) -> In x X) -> sf inner X (step_node v p t x c skip) res_.
Proof.
  intros Hv Hp. unfold step_node. eapply sf_bind; [apply sf_make_node|intros i; cbn [app]].
  eapply sf_bind; [apply sf_ingest; inx|intros u1; cbn [app none_]].
  eapply sf_bind; [apply sf_add_asis; inx|intros u2; cbn [app none_]].
  eapply sf_bind; [apply sf_wrap; inx|intros j; cbn [app]].
  eapply sf_bind; [apply sf_set_kind; inx|intros u3; cbn [app none_]].
  eapply sf_bind; [apply sf_set_target; inx|intros s1; cbn [app none_]].
  eapply sf_bind; [apply sf_set_prev; inx|intros u4; cbn [app none_]].
  eapply sf_bind; [apply sf_set_cite; inx|intros s2; cbn [app none_]].
  eapply sf_bind; [apply sf_pad_text; inx|intros u5; cbn [app none_]].
  eapply sf_bind; [apply sf_attach; [inx|intros q ->; specialize (Hp q (or_introl eq_refl)); inx]|intros u6; cbn [app none_]].
  apply sf_result; [intros y Hy; specialize (Hv y Hy); inx|intros y Hy; apply in_under in Hy; inx].
Qed.
Lemma sf_step X v p x : (forall x, In x (vars v) -> In x X) -> (forall x, In x (opt_ p) -> In x X) -> sf inner X (step v p x) res_.
Proof.
  intros Hv Hp. assert (Hone : forall f, sf inner X (ret (v, [(p, f)])) res_) by (intros f; apply sf_result; [exact Hv|intros y Hy; unfold parents in Hy; cbn in Hy; rewrite app_nil_r in Hy; apply Hp, Hy]).
  unfold step. destruct (is_type "comment" _); [apply sf_result; [exact Hv|intros y []]|].
  destruct (_ && _); [apply sf_bibliography, Hv|]. destruct (is_type "bibtex" _); [apply sf_bibtex, Hv|]. destruct (is_type "bibitem" _); [apply sf_bibitem; assumption|].
  destruct (_ || _); [apply sf_section; assumption|]. destruct (type_in _ _).
  { eapply sf_bind; [apply sf_nth|intros f; cbn [app none_]]. destruct (is_type _ _); [apply Hone|apply sf_step_node; assumption]. }
  destruct (is_type "td" _); [eapply sf_bind; [apply sf_nth|intros f; apply Hone]|].
  destruct (is_type "paragraph" _).
  { eapply sf_bind; [apply sf_nth|intros f; cbn [app none_]]. destruct (type_in _ _); apply sf_step_node; assumption. }
  destruct (type_in _ _); [|apply sf_step_node; assumption]. destruct (field_child _ _); [apply sf_step_node; assumption|apply sf_raise; exact I].
Qed.
Lemma parents_app a b x : In x (parents (a ++ b)) <-> In x (parents a) \/ In x (parents b).
Proof. unfold parents. rewrite flat_map_app, in_app_iff. tauto. Qed.
Lemma sf_abs fuel : forall X v stack, (forall x, In x (vars v) -> In x X) -> (forall x, In x (parents stack) -> In x X) -> sf inner X (abs_loop fuel v stack) vars.
Proof.
  induction fuel as [|fuel IH]; intros X v stack Hv Hs; destruct stack as [|[p x] rest]; cbn [abs_loop]; try (apply sf_ret; exact Hv); [apply sf_raise; exact I|].
  eapply sf_bind; [apply sf_step; [exact Hv|intros y Hy; apply Hs; unfold parents; cbn; apply in_app_iff; left; exact Hy]|]. intros r. apply IH.
  - intros y Hy. apply in_app_iff. left. unfold res_. apply in_app_iff. auto.
  - intros y Hy. apply parents_app in Hy as [Hy|Hy]; apply in_app_iff; [left; unfold res_; apply in_app_iff; auto|right; apply Hs]. unfold parents. cbn. apply in_app_iff. right. exact Hy.
Qed.

(** ** Normalisation *)

Lemma sf_is_text X i : In i X -> sf inner X (Parser.is_text i) none_. Proof. apply sf_inst. Qed.
Lemma runs_in l : forall cur r x, In r (text_runs l cur) -> In x r -> In x cur \/ In x (map fst l).
Proof.
  assert (C : forall cur rs r x, In r (close_run cur rs) -> In x r -> In x cur \/ In r rs).
  { intros cur rs r x H Hx. unfold close_run in H. destruct cur as [|c cur]; [auto|]. destruct H as [<-|H]; [left; apply in_rev; exact Hx|auto]. }
  induction l as [|[i b] l IH]; intros cur r x Hr Hx; cbn [text_runs] in Hr.
  - destruct (C _ _ _ _ Hr Hx) as [H|[]]. auto.
  - destruct b.
    + destruct (IH _ _ _ Hr Hx) as [[<-|H]|H]; cbn; auto.
    + destruct (C _ _ _ _ Hr Hx) as [H|H]; [auto|]. destruct (IH _ _ _ H Hx) as [[]|H']. cbn. auto.
Qed.
Lemma in_removelast {A} (l : list A) x : In x (removelast l) -> In x l.
Proof. induction l as [|a l IH]; [intros []|]. cbn [removelast]. destruct l; [intros []|]. intros [<-|H]; [left; reflexivity|right; apply IH, H]. Qed.
Lemma in_last {A} (l : list A) d : In (List.last l d) l \/ List.last l d = d.
Proof. induction l as [|a l IH]; [right; reflexivity|]. destruct l as [|b l]; [left; left; reflexivity|]. destruct IH as [H|H]; [left; right; exact H|]. left. right. change (List.last (a :: b :: l) d) with (List.last (b :: l) d). clear -l. revert b. induction l as [|c l IH]; intros b; [left; reflexivity|right; apply IH]. Qed.
Lemma sf_merge X run : (forall x, In x run -> In x X) -> sf inner X (merge_run run) none_.
Proof.
  intros H. unfold merge_run. destruct run as [|f [|g rest]]; [sret..|]. set (r := g :: rest) in *.
  assert (Hf : In f X) by (apply H; left; reflexivity). assert (Hr : forall x, In x r -> In x X) by (intros x Hx; apply H; right; exact Hx).
  eapply sf_bind; [apply sf_get_str, Hf|intros t; cbn [app none_]].
  eapply sf_bind; [apply (sf_mapM _ _ none_); intros a Ha; apply sf_get_str, Hr, in_removelast, Ha|intros m].
  eapply sf_bind; [apply sf_get_str; apply in_app_iff; right; destruct (in_last r f) as [E|E]; [apply Hr, E|rewrite E; exact Hf]|intros l; cbn [app none_]].
  eapply sf_bind; [apply sf_setattr; apply in_app_iff; auto|intros u; cbn [app none_]].
  apply sf_iterM. intros a Ha. apply sf_remove_self. apply in_app_iff. right. apply Hr, Ha.
Qed.
Lemma sf_update X i f : In i X -> sf inner X (update_text i f) none_. Proof. intros H. unfold update_text. sfs. Qed.
Lemma sf_when X i f : In i X -> sf inner X (when_text i f) none_.
Proof. intros H. unfold when_text. eapply sf_bind; [apply sf_is_text, H|intros b; cbn [app none_]]. destruct b; [apply sf_update, H|sret]. Qed.
Lemma sf_strip_ends X i : In i X -> sf inner X (strip_ends i) none_.
Proof.
  intros H. unfold strip_ends. eapply sf_bind; [apply sf_cls_of, H|intros c; cbn [app none_]]. eapply sf_bind; [apply sf_children_of, H|intros cs].
  destruct (subclass _ _); [sret|]. destruct cs as [|f r]; [sret|]. eapply sf_bind; [apply sf_when; inx|intros u; cbn [app none_]].
  apply sf_when. destruct (in_last (f :: r) f) as [E|E]; [destruct E as [E|E]; [left; exact E|right; apply in_app_iff; left; exact E]|rewrite E; left; reflexivity].
Qed.
Lemma sf_strip_paragraph X i : In i X -> sf inner X (strip_paragraph i) none_.
Proof.
  intros H. unfold strip_paragraph. eapply sf_bind; [apply sf_cls_of, H|intros c; cbn [app none_]]. destruct (subclass _ _); [|sret].
  eapply sf_bind; [apply sf_first_of, H|intros f]. eapply sf_bind; [instantiate (1 := none_)|intros u; cbn [app none_]].
  { destruct f as [[f k]|]; [|sret]. cbn [optp_]. eapply sf_bind; [apply sf_prev_any; inx|intros q; cbn [app none_]]. destruct q; [sret|apply sf_update; inx]. }
  eapply sf_bind; [apply sf_last_of; inx|intros l]. destruct l as [[l k]|]; [|sret]. cbn [optp_].
  eapply sf_bind; [apply sf_next_any; inx|intros q]. destruct q; [sret|apply sf_update; inx].
Qed.
Lemma sf_pad_construct X i : In i X -> sf inner X (pad_construct i) none_.
Proof.
  intros H. unfold pad_construct. eapply sf_bind; [apply sf_cls_of, H|intros c; cbn [app none_]]. destruct (subclass _ _); [|sret].
  eapply sf_bind; [apply sf_first_of, H|intros f]. eapply sf_bind; [instantiate (1 := none_)|intros u; cbn [app none_]].
  { destruct f as [[f k]|]; [|sret]. cbn [optp_]. eapply sf_bind; [apply sf_prev_any; inx|intros q; cbn [app none_]]. destruct q; [sret|apply sf_update; inx]. }
  eapply sf_bind; [apply sf_first_of; inx|intros m]. eapply sf_bind; [instantiate (1 := none_)|intros u2; cbn [app none_]].
  { destruct m as [[m k]|]; [|sret]. cbn [optp_]. eapply sf_bind; [apply sf_prev_any; inx|intros q; cbn [app none_]]. destruct q; [sret|].
    eapply sf_bind; [apply sf_new|intros t; cbn [app]]. apply sf_prepend; [inx|]. intros x [<-|[]]. inx. }
  eapply sf_bind; [apply sf_new|intros k; cbn [app]]. eapply sf_bind; [apply sf_getattr; inx|intros kind; cbn [app none_]].
  destruct (keyword_of kind); [|apply sf_raise; exact I]. eapply sf_bind; [apply sf_new|intros t; cbn [app]].
  eapply sf_bind; [apply sf_append; [inx|intros x [<-|[]]; inx]|intros u3; cbn [app none_]]. apply sf_prepend; [inx|]. intros x [<-|[]]. inx.
Qed.
Lemma sf_squeeze X i : In i X -> sf inner X (squeeze_children i) none_.
Proof. intros H. unfold squeeze_children. eapply sf_bind; [apply sf_children_of, H|intros cs]. apply sf_iterM. intros c Hc. apply sf_when. inx. Qed.
Lemma sf_space X i : In i X -> sf inner X (space_after i) none_.
Proof.
  intros H. unfold space_after. eapply sf_bind; [apply sf_next_any, H|intros n]. destruct n as [n|]; [|sret]. cbn [opt_ app].
  eapply sf_bind; [apply sf_cls_of; inx|intros c; cbn [app none_]]. eapply sf_bind; [apply sf_cls_of; inx|intros d; cbn [app none_]]. destruct (_ && _); [|sret].
  eapply sf_bind; [apply sf_new|intros t; cbn [app]]. apply sf_replace; [inx|]. intros x [<-|[<-|[]]]; inx.
Qed.
Ltac leaf ::= apply sf_update; inx.
Lemma sf_escape X i : In i X -> sf inner X (escape_node i) none_.
Proof. intros H. unfold escape_node. sfs. eapply (sf_bind _ _ _ none_); [sfs|intros u; cbn [app none_]]. eapply (sf_bind _ _ _ none_); [sfs|intros u2; cbn [app none_]]. sfs. Qed.
Lemma sf_normalize X u i : In i X -> sf inner X (normalize_body u i) none_.
Proof.
  intros H. unfold normalize_body. eapply sf_bind; [apply sf_children_of, H|intros cs].
  eapply sf_bind; [instantiate (1 := map fst)|intros bs].
  { eapply sf_weaken; [apply (sf_mapM _ _ (fun p : id * bool => [p.1])); intros c Hc; eapply sf_bind; [apply sf_is_text; inx|intros b; apply sf_ret; intros x Hx; inx]|].
    intros a x Hx. apply in_app_iff. left. induction a as [|[j b] a IH]; [destruct Hx|]. cbn in *. destruct Hx as [<-|Hx]; auto. }
  eapply sf_bind; [apply sf_iterM; intros r Hr; apply sf_merge; intros x Hx; destruct (runs_in _ _ _ _ Hr Hx) as [[]|Hx']; apply in_app_iff; left; exact Hx'|intros u1; cbn [app none_]].
  eapply sf_bind; [apply sf_strip_ends; inx|intros u2; cbn [app none_]].
  eapply sf_bind; [apply sf_strip_paragraph; inx|intros u3; cbn [app none_]].
  eapply sf_bind; [apply sf_pad_construct; inx|intros u4; cbn [app none_]].
  eapply sf_bind; [apply sf_squeeze; inx|intros u5; cbn [app none_]].
  eapply sf_bind; [apply sf_space; inx|intros u6; cbn [app none_]]. apply sf_escape. inx.
Qed.
Lemma sf_trav fuel cond (body : unit -> id -> M unit) : (forall X u i, In i X -> sf inner X (body u i) none_) ->
  forall X u stack, (forall x, In x stack -> In x X) -> sf inner X (trav_loop fuel cond body u stack) none_.
Proof.
  intros Hb. induction fuel as [|fuel IH]; intros X u stack Hs; destruct stack as [|i rest]; cbn [trav_loop]; try sret; [apply sf_raise; exact I|].
  assert (Hi : In i X) by (apply Hs; left; reflexivity).
  eapply sf_bind; [apply sf_get_node, Hi|intros n]. eapply sf_bind; [instantiate (1 := none_); destruct (cond n); [apply Hb; inx|sret]|intros u2; cbn [app none_]].
  eapply sf_bind; [apply sf_children_of; inx|intros cs]. apply IH. intros x Hx. apply in_app_iff in Hx as [Hx|Hx]; [inx|]. specialize (Hs x (or_intror Hx)). inx.
Qed.
Lemma sf_abstractify X fuel c : sf inner X (abstractify fuel c) opt_.
Proof.
  unfold abstractify. eapply sf_bind; [apply sf_abs; intros x []|intros v].
  eapply sf_bind; [instantiate (1 := none_); unfold normalize_text; destruct (ps_root v) as [r|] eqn:Er; [|sret]|intros u; cbn [app none_]].
  - unfold for_traverse. apply sf_trav; [intros Y w i Hi; apply sf_normalize, Hi|]. intros x [<-|[]]. unfold vars. rewrite Er. left. reflexivity.
  - apply sf_ret. intros x Hx. unfold vars. rewrite !in_app_iff. auto.
Qed.

(** ** The parser *)

(** What the parser raises: besides RSMParserError, an exception of a node, IndexError, ValueError, AssertionError, KeyError and TypeError.  [EUnsupported]
    stands for meta data or a bibliography entry with the key [parent], which is outside the model. *)
Definition parser_raises (e : exn) : Prop :=
  match e with EParser _ | ENode _ | EIndex | EValue | EAssert | EKey | EType | EUnsupported => True | _ => False end.
Lemma parse_inner fuel c s s' e : all_there s -> parse fuel c s = (s', Err e) -> parser_raises e \/ e = EOutOfFuel.
Proof.
  intros Hc H. unfold parse in H. unfold bind at 1 in H. unfold info, log_rec at 1 in H. unfold bind at 1 in H. unfold log_rec at 1 in H. cbn [st_heap st_next st_logs] in H.
  match type of H with bind _ _ ?S = _ => set (s0 := S) in H end.
  assert (Hc0 : all_there s0) by exact Hc. clearbody s0. unfold bind at 1 in H. unfold catch at 1 in H.
  destruct (sf_abstractify [] fuel c s0 Hc0 ltac:(intros x [])) as (C1 & _ & C3).
  destruct (abstractify fuel c s0) as [s1 [[r|]|e1]]; cbn [fst snd] in C1, C3.
  -
    unfold bind, setattr, mod_node, bind, get_node in H. destruct (C3 r (or_introl eq_refl)) as [n Hn]. rewrite Hn in H. discriminate H.
  - injection H as _ <-. left. exact I.
  - destruct e1; cbn in C3; try (destruct C3; fail); cbn in H; injection H as _ <-; first [left; exact I | right; reflexivity].
Qed.
Lemma parse_raises fuel c s s' e : source c -> good s -> 7 * c_size c <= fuel -> parse fuel c s = (s', Err e) -> parser_raises e.
Proof.
  intros Hc Hg Hf H. destruct (parse_inner _ _ _ _ _ (good_there _ Hg) H) as [E|E]; [exact E|]. subst e. destruct (parse_ends _ _ _ _ Hc Hg Hf H).
Qed.
