(** The types of the values that attributes have. *)
From Verif Require Export SpecResult Parser ParseOrder.
Local Open Scope string_scope.
Local Open Scope list_scope.

(** ** Attributes *)

Definition is_str (v : val) : bool := match v with VStr _ => true | _ => false end.
Definition is_strs (v : val) : bool := match v with VStrs _ => true | _ => false end.
(** The nodes that a value refers to. *)
Definition nodes_in (v : val) : list id := match v with VNode y => [y] | VNodes l => l | _ => [] end.
(** The kind of value that each attribute has; the last two are private flags which are not set. *)
Definition attr_shape (a : attr) (v : val) : bool :=
  match a with
  | a_label | a_reftext_template | a_text | a_kind | a_overwrite_reftext => is_str v
  | a_types | a_targetlabels | a_backlinks | a_keywords | a_msc => is_strs v
  | a_handrail_depth => match v with VInt _ => true | _ => false end
  | a_lang => match v with VStr _ | VNone => true | _ => false end
  | a_target => match v with VNodes _ => false | _ => true end
  | a_targets => match v with VNodes _ => true | _ => false end
  | a_start_point | a_end_point => match v with VPoint _ _ => true | _ => false end
  | a_must_close_p_tag | a_followed_by_dot => false
  | _ => match v with VNode _ | VNodes _ => false | _ => true end
  end.
(** Every attribute has a value of its type, and refers to existing nodes only. *)
Definition typed (s : st) : Prop :=
  forall i n a v, st_heap s !! i = Some n -> n_attrs n !! a = Some v ->
    attr_shape a v = true /\ forall y, y ∈ nodes_in v -> is_Some (st_heap s !! y).
(** Every node has the attributes that the constructor of its class sets. *)
Definition complete (s : st) : Prop :=
  forall i n a, st_heap s !! i = Some n -> In a (map fst (default_attrs (n_cls n))) -> is_Some (n_attrs n !! a).

(** ** Meta data in the source *)

(** The attribute in which the value of a key is stored. *)
Definition key_attr (key : str) : attr := if str_eqb key (lit "reftext") then a_reftext_template else attr_of_name key.
(** A key is used with the kind of value it is meant for: this is how the grammar tells text, lists
    and flags apart; the keys of bibliography items are text. *)
Definition key_typed (d : cst) : bool :=
  match key_name d with
  | Err _ => true
  | Ok key =>
      let ok v := attr_shape (attr_of_name key) v && attr_shape (key_attr key) v in
      if is_type "metakey_list" d then ok (VStrs [])
      else if is_type "metakey_text" d || is_type "metakey_any" d then ok (VStr [])
      else if is_type "metakey_bool" d then ok (VBool true)
      else true
  end &&
  (if is_type "bibitempair" d
   then match named_children d with [k; v] => attr_shape (attr_of_name (c_text (pl_node k))) (VStr []) | _ => true end
   else true).
Definition keys_typed (c : cst) : Prop := forall d, In d (c_preorder c) -> key_typed d = true.
