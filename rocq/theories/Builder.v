(** Model of rsm/builder.py, rsm/writer.py and the part of rsm/manuscript.py they use. *)
From Verif Require Export Heap.
Local Open Scope string_scope.
Local Open Scope list_scope.

(** ** Regular expressions *)

(** The lazy group [(.*?)] followed by [close], at the start of [s]: the dot matches no newline. *)
Fixpoint lazy_to (close s acc : str) : option (str * str) :=
  if prefixb close s then Some (rev acc, skipn (length close) s)
  else match s with
       | [] => None
       | c :: s => if N.eqb c 10 then None else lazy_to close s (c :: acc)
       end.
(** A match of [open(.*?)close] at the start of [s]: the group and what follows. *)
Definition match_here (op close s : str) : option (str * str) :=
  if prefixb op s then lazy_to close (skipn (length op) s) [] else None.
(** re.search: the first position with a match. *)
Fixpoint re_search (op close s : str) : option str :=
  match match_here op close s with
  | Some (g, _) => Some g
  | None => match s with [] => None | _ :: s => re_search op close s end
  end.
(** re.findall: matches that do not overlap, from left to right.  [skip] counts the characters of
    the last match that are still to be passed. *)
Fixpoint re_findall (op close s : str) (skip : nat) : list str :=
  match skip with
  | S k => match s with [] => [] | _ :: s => re_findall op close s k end
  | 0 =>
      match match_here op close s with
      | Some (g, _) => g :: match s with [] => [] | _ :: s => re_findall op close s (length op + length g + length close - 1) end
      | None => match s with [] => [] | _ :: s => re_findall op close s 0 end
      end
  end.

(** ** The page *)

Definition nl : str := [10%N].
(** rsm/builder.py:70-91 *)
Definition header_lines : list str := map lit
  ["<head>";
   "  <meta charset=""utf-8"" />";
   "  <meta name=""viewport"" content=""width=device-width, initial-scale=1.0"" />";
   "  <meta name=""generator"" content=""RSM 0.0.1 https://github.com/leotrs/rsm"" />";
   "";
   "  <link rel=""stylesheet"" type=""text/css"" href=""static/rsm.css"" />";
   "  <link rel=""stylesheet"" type=""text/css"" href=""static/tooltipster.bundle.css"" />";
   "  <link rel=""stylesheet"" href=""https://cdn.jsdelivr.net/npm/pseudocode@latest/build/pseudocode.min.css"">";
   "";
   "  <script src=""static/jquery-3.6.0.js""></script>";
   "  <script src=""static/tooltipster.bundle.js""></script>";
   "  <script type=""module"">";
   "    import { onload } from '/static/onload.js';";
   "    window.addEventListener('load', (ev) => {window.lsp_ws = onload();});";
   "  </script>";
   "";
   "  <title>__TITLE_PLACEHOLDER__</title>";
   "</head>"].
Definition header : str := flat_map (fun l => l ++ nl) header_lines.
Definition placeholder : str := lit "__TITLE_PLACEHOLDER__".
(** rsm/builder.py:99-104 *)
Definition extract_title (body : str) : str :=
  match re_search (lit "<h1>") (lit "</h1>") body with None => [] | Some t => t end.
(** rsm/builder.py:69-94 and 96-97 *)
Definition make_html_header (body : str) : str := replace placeholder (extract_title body) header.
Definition make_html_footer : str := [].
(** rsm/builder.py:56-67 *)
Definition make_main_file (body : str) : str :=
  lit "<html>" ++ nl ++ nl ++ make_html_header body ++ nl ++ strip body ++ nl ++ nl ++ make_html_footer ++ lit "</html>" ++ nl.

(** ** Files *)

(** A file system: the contents of each file, by path.  Directories are not modelled. *)
Definition files := gmap str str.
(** The parts of a pathlib path; Path("a//./b") is Path("a/b"). *)
Definition path_parts (s : str) : list str :=
  List.filter (fun p => negb (str_eqb p []) && negb (str_eqb p (lit "."))) (split_on 47 s).
(** str(Path(s)) and Path(s).name for a relative path. *)
Definition path_str (s : str) : str := match path_parts s with [] => lit "." | l => join (lit "/") l end.
Definition path_name (s : str) : str := match rev (path_parts s) with [] => [] | n :: _ => n end.
(** A path that the fs package does not accept here: absolute ones are looked up from the root of
    the file system and ".." leaves it; neither is modelled. *)
Definition plain_path (s : str) : bool :=
  negb (prefixb (lit "/") s) && negb (existsb (str_eqb (lit "..")) (path_parts s)).

(** rsm/builder.py:46-49 *)
Definition find_required_assets (body : str) : list str := re_findall (lit "src=""") (lit """") body 0.
(** fs.copy.copy_file(source, src, web, dst); a file that is not there raises ResourceNotFound. *)
Definition copy_file (source : files) (src dst : str) (web : files) : res files :=
  match source !! src with
  | None => Err (EOther (lit "ResourceNotFound"))
  | Some c => Ok (<[dst := c]> web)
  end.
(** rsm/builder.py:117-126: the .js and .css files of the package, by name. *)
Definition in_static (name : str) : str := lit "static/" ++ name.
Definition mount_static (pkg : list (str * str)) (web : files) : files :=
  fold_left (fun w f => <[in_static (fst f) := snd f]> w) pkg web.
(** rsm/builder.py:128-132: [cwd] is the working directory. *)
Fixpoint mount_required_assets (cwd : files) (assets : list str) (web : files) : res files :=
  match assets with
  | [] => Ok web
  | a :: l =>
      if plain_path a then
        match copy_file cwd (path_str a) (in_static (path_name a)) web with
        | Ok web => mount_required_assets cwd l web
        | Err e => Err e
        end
      else Err EUnsupported
  end.
(** The WebManuscript: body, html and files. *)
Record web := MkWeb { w_body : str; w_html : str; w_files : files }.
(** rsm/builder.py:28-40 and 108-115 *)
Definition full_build (pkg : list (str * str)) (cwd : files) (body : str) : res web :=
  let assets := find_required_assets body in
  let html := make_main_file body in
  let w := mount_static pkg (<[lit "index.html" := html]> ∅) in
  match mount_required_assets cwd assets w with
  | Ok w => Ok (MkWeb body html w)
  | Err e => Err e
  end.
(** rsm/writer.py:21-23: copy_fs(web, "./") overwrites. *)
Definition write (w : web) (cwd : files) : files := w_files w ∪ cwd.
