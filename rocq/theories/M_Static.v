(** Model of the file server: /repo/static/fs.go (Dir, dirList, serveFile, ServeFile, ioFS and
    helpers), /repo/static/static.go and the Run methods of /repo/static.go,
    /repo/static_embed.go, /repo/static_embed_fix.go. *)
From Verif Require Import Base GoStrings GoPath GoInt M_Text M_Range M_Cond M_Sniff M_Content.

(** Environment: an error as seen through errors.Is and Error() *)
Record goerr := GoErr { e_not_exist : bool; e_permission : bool; e_msg : bytes }.
(** fs.FileInfo *)
Record finfo := FInfo { fi_name : bytes; fi_dir : bool; fi_mod : gtime; fi_size : Z }.
(** an opened file: Stat, contents, directory entries (name, is a directory) *)
Record gofile := GoFile {
  g_stat : finfo + goerr;
  g_content : content;
  g_entries : list (bytes * bool) + goerr
}.
(** calls to the operating system or the mounted fs.FS *)
Inductive call := COpen (name : bytes) | CStat (name : bytes).
Definition call_name (c : call) : bytes := match c with COpen n => n | CStat n => n end.
(** an fs.FS, or the operating system *)
Record iofs := IoFs { io_open : bytes -> gofile + goerr; io_stat : bytes -> finfo + goerr }.
(** FileSystem.Open: the result and the calls it made *)
Definition fsystem := bytes -> (gofile + goerr) * list call.

(** fs.go:51-70 mapOpenError; separator '/'.  [seen]: parts[:i] *)
Definition err_not_exist : goerr := GoErr true false (B"file does not exist").
Fixpoint map_open_loop (original : goerr) (stat : bytes -> finfo + goerr) (seen parts : list bytes)
  : goerr * list call :=
  match parts with
  | [] => (original, [])
  | part :: parts' =>
      let seen' := seen ++ [part] in
      if is_empty part then map_open_loop original stat seen' parts'
      else let name := join "/" seen' in
           match stat name with
           | inr _ => (original, [CStat name])
           | inl fi => if fi_dir fi then
                         let '(e, calls) := map_open_loop original stat seen' parts' in (e, CStat name :: calls)
                       else (err_not_exist, [CStat name])
           end
  end.
Definition map_open_error (original : goerr) (name : bytes) (stat : bytes -> finfo + goerr) : goerr * list call :=
  if e_not_exist original || e_permission original then (original, [])
  else map_open_loop original stat [] (split "/" name).

(** fs.go:74-88 Dir.Open over the operating system [os]; the separator is '/' *)
Definition dir_open (os : iofs) (d : bytes) : fsystem := fun name =>
  let dir := if is_empty d then dot else d in
  let full := filepath_join dir (path_clean ("/"%char :: name)) in
  match io_open os full with
  | inl f => (inl f, [COpen full])
  | inr e => let '(e, calls) := map_open_error e full (io_stat os) in (inr e, COpen full :: calls)
  end.
(** fs.go:800-813 ioFS.Open *)
Definition iofs_open (fsys : iofs) : fsystem := fun name =>
  let name := if beq name (B"/") then dot else trim_prefix name (B"/") in
  match io_open fsys name with
  | inl f => (inl f, [COpen name])
  | inr e => let '(e, calls) := map_open_error e name (io_stat fsys) in (inr e, COpen name :: calls)
  end.

(** fs.go:713-723 toHTTPError *)
Definition to_http_error (e : goerr) : bytes * Z :=
  if e_not_exist e then (B"404 page not found", 404%Z)
  else if e_permission e then (B"403 Forbidden", 403%Z)
  else (B"500 Internal Server Error", 500%Z).
Definition err_permission : goerr := GoErr false true (B"permission denied").

(** fs.go:727-735 localRedirect *)
Definition local_redirect (q : sreq) (p : sresp) (new_path : bytes) : sresp :=
  let new_path := if is_empty (q_uri q) then new_path else new_path ++ B"?" ++ q_uri q in
  set_status 301 (hset (B"Location") new_path p).

(** fs_utils.go:20-28 htmlReplacer *)
Definition html_escape1 (c : ascii) : bytes :=
  if Ascii.eqb c "&" then B"&amp;" else if Ascii.eqb c "<" then B"&lt;"
  else if Ascii.eqb c ">" then B"&gt;" else if Ascii.eqb c """" then B"&#34;"
  else if Ascii.eqb c "'" then B"&#39;" else [c].
Definition html_replace (s : bytes) : bytes := concat (map html_escape1 s).
(** string comparison, and sort.Slice by name (names in a directory are distinct, so the
    order of equal names does not matter) *)
Fixpoint bytes_ltb (a b : bytes) : bool :=
  match a, b with
  | _, [] => false
  | [], _ :: _ => true
  | x :: a', y :: b' => if (bv x <? bv y)%N then true else if (bv y <? bv x)%N then false else bytes_ltb a' b'
  end.
Fixpoint insert_entry (e : bytes * bool) (l : list (bytes * bool)) : list (bytes * bool) :=
  match l with
  | [] => [e]
  | x :: l' => if bytes_ltb (fst e) (fst x) then e :: l else x :: insert_entry e l'
  end.
Definition sort_entries (l : list (bytes * bool)) : list (bytes * bool) :=
  fold_left (fun acc e => insert_entry e acc) l [].

(** what a handler function returns: nil, or an error *)
Inductive ferr := FNil | FErr (e : goerr) | FServe (e : serr) | FBadPath.

Section Env.
  Variable time_parse : bytes -> bytes -> option gtime.
  Variable fmt_time : gtime -> bytes.
  Variable mime_type : bytes -> bytes.
  Variables boundary1 boundary2 : bytes.
  Variable url_string : bytes -> bytes.     (* url.URL{Path: name}.String() *)

  (** fs.go:131-178 dirList; writing to the response cannot fail *)
  Definition nl : bytes := [ch 10].
  Definition dir_list (p : sresp) (f : gofile) : sresp * ferr :=
    match g_entries f with
    | inr e => (error_reply p (B"Error reading directory") 500, FErr e)
    | inl l =>
        let line (e : bytes * bool) := let name := if snd e then fst e ++ B"/" else fst e in
                      B"<a href=""" ++ url_string name ++ B""">" ++ html_replace name ++ B"</a>" ++ nl in
        (append_body (B"<pre>" ++ nl ++ concat (map line (sort_entries l)) ++ B"</pre>" ++ nl)
           (hset (B"Content-Type") (B"text/html; charset=utf-8") p), FNil)
    end.
  (** a file after Close: nothing can be read or sought, and a directory not listed (files of the operating system) *)
  Definition closed_content : content := Content [] (fun _ => false) false.
  Definition err_closed : goerr := GoErr false false (B"use of closed file").

  (** fs.go:616-706 serveFile; [path]: ctx.Path().  None: out-of-range index *)
  Definition serve_file (q : sreq) (path : bytes) (p : sresp) (open : fsystem) (name : bytes)
             (show_dir redirect : bool) : option (sresp * ferr * list call) :=
    if has_suffix path (B"/index.html") then Some (local_redirect q p (B"./"), FNil, [])
    else
      let '(r, calls) := open name in
      match r with
      | inr e => let '(msg, code) := to_http_error e in Some (error_reply p msg code, FErr e, calls)
      | inl file =>
          match g_stat file with
          | inr e => let '(msg, code) := to_http_error e in Some (error_reply p msg code, FErr e, calls)
          | inl info =>
              if negb show_dir && fi_dir info then
                let '(msg, code) := to_http_error err_permission in
                Some (error_reply p msg code, FNil, calls)        (* returns err, which is nil here *)
              else
                (* fs.go:650-665 *)
                let redir : option (option bytes) :=
                  if redirect then
                    match rev path with
                    | [] => None
                    | c :: _ =>
                        if fi_dir info then
                          if negb (Ascii.eqb c "/") then Some (Some (path_base path ++ B"/")) else Some None
                        else if Ascii.eqb c "/" then Some (Some (B"../" ++ path_base path)) else Some None
                    end
                  else Some None in
                match redir with
                | None => None
                | Some (Some target) => Some (local_redirect q p target, FNil, calls)
                | Some None =>
                    (* the rest for a file that is not (or no longer) a directory, fs.go:700-705 *)
                    let serve (info : finfo) (c : content) (calls : list call) :=
                      match serve_content time_parse fmt_time mime_type boundary1 boundary2
                              q p (fi_name info) (fi_mod info) (Some (fi_size info)) c with
                      | None => None
                      | Some (r, e) => Some (r, match e with SOk => FNil | _ => FServe e end, calls)
                      end in
                    (* fs.go:691-698 *)
                    let list_it (info : finfo) (calls : list call) :=
                      if is_cfalse (check_if_modified_since time_parse q (fi_mod info))
                      then Some (write_not_modified p, FNil, calls)
                      else let '(r, e) := dir_list (set_last_modified fmt_time (fi_mod info) p) file in
                           Some (r, e, calls) in
                    if fi_dir info then
                      (* fs.go:667-689 *)
                      if is_empty path || negb (match rev path with c :: _ => Ascii.eqb c "/" | [] => false end)
                      then Some (local_redirect q p (path_base path ++ B"/"), FNil, calls)
                      else let '(ri, calls2) := open (trim_suffix name (B"/") ++ B"/index.html") in
                           let calls := calls ++ calls2 in
                           match ri with
                           | inr _ => list_it info calls
                           | inl ff =>
                               match g_stat ff with
                               | inr _ => list_it info calls
                               | inl dd => (* ff was closed; fs.go:692 tests dd now *)
                                   if fi_dir dd then
                                     if is_cfalse (check_if_modified_since time_parse q (fi_mod dd))
                                     then Some (write_not_modified p, FNil, calls)
                                     else let '(r, e) := dir_list (set_last_modified fmt_time (fi_mod dd) p)
                                                          (GoFile (g_stat ff) closed_content (inr err_closed)) in
                                          Some (r, e, calls)
                                   else serve dd closed_content calls
                               end
                           end
                    else serve info (g_content file) calls
                end
          end
      end.

  (** static/static.go:39-49 fileHandler.ServeHTTP: also gives the path the URI has afterwards *)
  Definition serve_http (q : sreq) (path : bytes) (p : sresp) (root : fsystem)
    : option (sresp * ferr * list call) * bytes :=
    let '(upath, path') := if has_prefix path (B"/") then (path, path)
                           else ("/"%char :: path, set_path ("/"%char :: path)) in
    (serve_file q path' p root (path_clean upath) false false, path').

  (** fs.go:774-786 containsDotDot, isSlashRune: strings.FieldsFunc gives the maximal runs
      without separators *)
  Definition is_slash_rune (c : ascii) : bool := Ascii.eqb c "/" || Ascii.eqb c (ch 92).
  Fixpoint fields (cur : bytes) (s : bytes) : list bytes :=       (* [cur]: the current run, reversed *)
    match s with
    | [] => if is_empty cur then [] else [rev cur]
    | c :: s' => if is_slash_rune c then (if is_empty cur then fields [] s' else rev cur :: fields [] s')
                 else fields (c :: cur) s'
    end.
  Fixpoint contains (s sub : bytes) : bool :=                     (* strings.Contains *)
    has_prefix s sub || match s with [] => false | _ :: s' => contains s' sub end.
  Definition contains_dotdot (v : bytes) : bool :=
    if negb (contains v dotdot) then false
    else existsb (fun e => beq e dotdot) (fields [] v).
  (** fs.go:758-772 ServeFile over the operating system *)
  Definition serve_file_name (os : iofs) (q : sreq) (path : bytes) (p : sresp) (name : bytes)
    : option (sresp * ferr * list call) :=
    if contains_dotdot path then Some (error_reply p (B"invalid URL path") 400, FBadPath, [])
    else let '(dir, file) := filepath_split name in
         serve_file q path p (dir_open os dir) file false false.

  (** ** The three handlers: the answer and the request path afterwards.
      Deferred calls run last; the debug log entries are left out. *)
  (** /repo/static.go:26-39 StaticFileHandler.Run; [url_path] has lost a leading slash *)
  Definition static_file_run (fsys : iofs) (url_path : bytes) (q : sreq) (path : bytes) (p : sresp)
    : option (sresp * ferr * list call) * bytes :=
    let old := path in
    let new_u := trim_prefix (trim_prefix old (B"/")) url_path in
    let '(r, _) := serve_http q (set_path new_u) p (iofs_open fsys) in
    (r, set_path old).
  (** /repo/static_embed.go:25-40 StaticHandler.Run *)
  Definition static_embed_run (fsys : iofs) (file_path url_path : bytes) (q : sreq) (path : bytes) (p : sresp)
    : option (sresp * ferr * list call) * bytes :=
    let old := path in
    let u := trim_prefix (trim_prefix old (B"/")) url_path in
    let new_u := path_join file_path u in
    let '(r, _) := serve_http q (set_path new_u) p (iofs_open fsys) in
    (r, set_path old).
  (** /repo/static_embed_fix.go:22-34 FixStaticHandler.Run *)
  Definition static_fix_run (fsys : iofs) (file_path : bytes) (q : sreq) (path : bytes) (p : sresp)
    : option (sresp * ferr * list call) * bytes :=
    let old := path in
    let '(r, _) := serve_http q (set_path file_path) p (iofs_open fsys) in
    (r, set_path old).
End Env.
