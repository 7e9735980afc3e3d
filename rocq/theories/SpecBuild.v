(** What is expected of the built page. *)
From Verif Require Export Builder.
Local Open Scope string_scope.
Local Open Scope list_scope.

(** Position [k] of [s] starts with [op], then a group [g] within one line that ends at the
    first [close], then [rest]. *)
Definition match_at (op close s : str) (k : nat) (g rest : str) : Prop :=
  skipn k s = op ++ g ++ close ++ rest /\ ~ In 10%N g /\
  forall g' rest', skipn k s = op ++ g' ++ close ++ rest' -> length g <= length g'.
Definition no_match (op close s : str) : Prop := forall k g rest, ~ match_at op close s k g rest.
Definition first_match_at (op close s : str) (k : nat) (g rest : str) : Prop :=
  match_at op close s k g rest /\ forall k' g' rest', k' < k -> ~ match_at op close s k' g' rest'.

(** The title of a body: its first h1 element. *)
Definition title_of (body title : str) : Prop :=
  (no_match (lit "<h1>") (lit "</h1>") body /\ title = []) \/
  (exists k rest, first_match_at (lit "<h1>") (lit "</h1>") body k title rest).
(** The values of the src attributes, from left to right. *)
Inductive scanned (op close : str) : str -> list str -> Prop :=
| scan_end s : no_match op close s -> scanned op close s []
| scan_hit s k g rest l : first_match_at op close s k g rest -> scanned op close rest l -> scanned op close s (g :: l).
Definition mentioned (body : str) (l : list str) : Prop := scanned (lit "src=""") (lit """") body l.

(** [x] does not occur in [s]. *)
Definition absent (x s : str) : Prop := forall a b, s <> a ++ x ++ b.
(** Any page: what comes before the title is always the same. *)
Definition page (top title body : str) : str :=
  lit "<html>" ++ nl ++ nl ++ lit "<head>" ++ nl ++ top ++ lit "<title>" ++ title ++ lit "</title>" ++ nl ++ lit "</head>" ++ nl ++
  nl ++ strip body ++ nl ++ nl ++ lit "</html>" ++ nl.
