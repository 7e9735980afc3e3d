(** Properties C61, C62 and C64: the linter, the builder and the writer
    (rsm/linter.py, rsm/builder.py, rsm/writer.py). *)
From Verif Require Import LintProofs BuildProofs TrDemo.
Local Open Scope string_scope.
Local Open Scope list_scope.

(** ** C61 *)

(** [offences] lists the nodes that break a rule; nothing but the log changes. *)
Theorem C61_lint_exact : forall fuel s t, document (st_heap s) t -> lintable (st_heap s) t -> length (doc_order t) <= fuel ->
  lint fuel (root t) s =
  (with_logs s (MkLog (lit "RSM") INFO (lit "Linting...") None :: map (lint_record (st_heap s)) (offences (st_heap s) t)), Ok (root t)).
Proof. exact lint_exact. Qed.
Print Assumptions C61_lint_exact.
Theorem C61_once : forall h t, document h t -> NoDup (offences h t).
Proof. exact offences_once. Qed.
Print Assumptions C61_once.
Definition lint_demo : bt :=
  BT CManuscript [] [
    BT CSection [(a_title, VStr (lit "A"))] [BT CMathBlock [(a_start_point, VPoint 3 0)] []];
    BT CSection [(a_label, VStr (lit "s"))] [BT CParagraph [] [BT CMathBlock [] []]; BT CSubsection [] []]].
Example C61_nonvacuous :
  let s := fst (run (build lint_demo)) in let t := built_tree lint_demo in
  document (st_heap s) t /\ lintable (st_heap s) t /\ length (doc_order t) = 7 /\
  offences (st_heap s) t =
   [(0, lit "Manuscript with no title"); (1, lit "Section with no label"); (6, lit "Section with no label");
    (2, lit "MathBlock must be direct child of Paragraph, not <class 'rsm.nodes.Section'>")] /\
  map (fun o => lg_pos (lint_record (st_heap s) o)) (offences (st_heap s) t) = [Some (0, 0); Some (0, 0); Some (0, 0); Some (4, 1)]%Z.
Proof.
  cbv zeta. split; [apply check_document_sound; vm_compute; reflexivity|].
  split; [apply lintableb_ok; vm_compute; reflexivity|]. vm_compute. auto.
Qed.

(** ** C62 *)

(** The page: a head with the title of the body, then the body. *)
Theorem C62_page : exists top, absent (lit "<title>") top /\ absent (lit "</head>") top /\ absent (lit "<body") top /\
  forall body, exists title, title_of body title /\ make_main_file body = page top title body.
Proof. exact page_shape. Qed.
Print Assumptions C62_page.
Theorem C62_title_unique : forall body t t', title_of body t -> title_of body t' -> t = t'.
Proof. exact title_fun. Qed.
Print Assumptions C62_title_unique.
(** What is built: the page, the assets of the package and those of the body. *)
Theorem C62_files : forall pkg cwd body w l, mentioned body l -> full_build pkg cwd body = Ok w ->
  w_body w = body /\ w_html w = make_main_file body /\ w_files w !! lit "index.html" = Some (make_main_file body) /\
  (forall f c, w_files w !! f = Some c -> f = lit "index.html" \/
     (exists n, In (n, c) pkg /\ f = in_static n) \/
     (exists a, In a l /\ f = in_static (path_name a) /\ cwd !! path_str a = Some c)) /\
  (forall a, In a l -> exists b, In b l /\ path_name b = path_name a /\ is_Some (cwd !! path_str b) /\
     w_files w !! in_static (path_name a) = cwd !! path_str b).
Proof. exact build_files. Qed.
Print Assumptions C62_files.
Theorem C62_assets_copied_partial : forall pkg cwd body w l, mentioned body l -> full_build pkg cwd body = Ok w ->
  (forall a b, In a l -> In b l -> path_name a = path_name b -> path_str a = path_str b) ->
  forall a, In a l -> w_files w !! in_static (path_name a) = cwd !! path_str a /\ is_Some (cwd !! path_str a).
Proof. exact build_assets_apart. Qed.
Print Assumptions C62_assets_copied_partial.
Theorem C62_builds : forall pkg cwd body l, mentioned body l ->
  (forall a, In a l -> plain_path a = true /\ is_Some (cwd !! path_str a)) -> exists w, full_build pkg cwd body = Ok w.
Proof. exact build_succeeds. Qed.
Print Assumptions C62_builds.
Theorem C62_missing_asset : forall pkg cwd body l a, mentioned body l -> In a l -> plain_path a = true -> cwd !! path_str a = None ->
  exists e, full_build pkg cwd body = Err e.
Proof. exact build_fails. Qed.
Print Assumptions C62_missing_asset.
(** Two assets with the same name: only one is kept. *)
Theorem C62_assets_copied_refuted : exists pkg cwd body w l a, mentioned body l /\ full_build pkg cwd body = Ok w /\ In a l /\
  w_files w !! in_static (path_name a) <> cwd !! path_str a.
Proof. exact collision_ex. Qed.
Print Assumptions C62_assets_copied_refuted.
(** A figure on the web cannot be built. *)
Theorem C62_external_asset_refuted : exists pkg cwd body e, full_build pkg cwd body = Err e /\ body = lit "<img src=""https://a.org/x.png"">".
Proof. exact external_ex. Qed.
Print Assumptions C62_external_asset_refuted.
(** An asset can take the place of a file of the package. *)
Theorem C62_package_asset_refuted : exists pkg cwd body w c, full_build pkg cwd body = Ok w /\ In (lit "rsm.css", c) pkg /\
  w_files w !! in_static (lit "rsm.css") <> Some c.
Proof. exact default_overwritten_ex. Qed.
Print Assumptions C62_package_asset_refuted.
Example C62_nonvacuous :
  extract_title (lit "<div><h1>A <b>b</b></h1><h1>c</h1></div>") = lit "A <b>b</b>" /\
  find_required_assets two_figures = [lit "a/x.png"; lit "b/x.png"] /\ path_name (lit "a//./x.png") = lit "x.png" /\
  path_str (lit "a//./x.png") = lit "a/x.png" /\
  exists w, full_build [(lit "rsm.css", lit "x")] two_files (lit "<h1>T</h1><img src=""a/x.png"">") = Ok w /\
    w_files w !! lit "static/x.png" = Some (lit "A").
Proof. repeat (split; [vm_compute; reflexivity|]). eexists. split; vm_compute; reflexivity. Qed.

(** ** C64 *)

(** After writing, other files than index.html and those in static are as before. *)
Theorem C64_write_touches : forall pkg cwd body w f, full_build pkg cwd body = Ok w -> f <> lit "index.html" ->
  (forall n, f <> lit "static/" ++ n) -> write w cwd !! f = cwd !! f.
Proof. exact write_touches. Qed.
Print Assumptions C64_write_touches.
Theorem C64_write_all : forall w cwd f, write w cwd !! f = match w_files w !! f with Some c => Some c | None => cwd !! f end.
Proof. exact write_files. Qed.
Print Assumptions C64_write_all.
Example C64_nonvacuous : exists w, full_build [] two_files two_figures = Ok w /\ write w two_files !! lit "a/x.png" = Some (lit "A") /\
  write w two_files !! lit "static/x.png" = Some (lit "B").
Proof. eexists. split; [vm_compute; reflexivity|]. split; vm_compute; reflexivity. Qed.
