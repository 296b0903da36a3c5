(** Model of the registration of static mounts: /repo/static.go (StaticFile),
    /repo/static_embed.go (StaticFileFS), /repo/static_embed_fix.go (FixStaticFileFS) and
    Server.Add/AddReg (/repo/server.go:157-167), over the route tables of M_Tree and M_RegTree,
    with a model of regexp.Compile for the expressions those functions build. *)
From Verif Require Import Base GoStrings GoPath M_Tree M_RegTree M_Cond M_Content M_Static.

(** ** Environment: Go's package regexp on expressions "^" item*, an item being a character
    that is not special, or a dot, either of them possibly followed by a star.  ASCII only.
    Expressions of any other form are left to the parameter [other] of [compile]. *)
Inductive atom := Chr (c : ascii) | AnyRune.
Definition item := (atom * bool)%type.         (* true: starred *)

(** the characters with a meaning in an expression, and all that is not ASCII *)
Definition special (c : ascii) : bool :=
  existsb (Ascii.eqb c) (B"\.+*?()|[]{}^$") || (127 <? bv c)%N.

Fixpoint items (p : bytes) : option (list item) :=
  match p with
  | [] => Some []
  | c :: p' =>
      match (if Ascii.eqb c "." then Some AnyRune else if special c then None else Some (Chr c)) with
      | None => None
      | Some a =>
          match p' with
          | "*"%char :: p'' => option_map (cons (a, true)) (items p'')
          | _ => option_map (cons (a, false)) (items p')
          end
      end
  end.

(** utf8.DecodeRuneInString: the width of the first rune; an invalid byte is a rune of its own *)
Definition in_range (lo hi : N) (c : ascii) : bool := ((lo <=? bv c) && (bv c <=? hi))%N.
Definition cont (c : ascii) : bool := in_range 128 191 c.
Definition rune_width (s : bytes) : nat :=
  match s with
  | c0 :: c1 :: c2 :: c3 :: _ =>
      if (in_range 240 240 c0 && in_range 144 191 c1 || in_range 241 243 c0 && cont c1 ||
          in_range 244 244 c0 && in_range 128 143 c1) && cont c2 && cont c3 then 4
      else if (in_range 224 224 c0 && in_range 160 191 c1 ||
               (in_range 225 236 c0 || in_range 238 239 c0) && cont c1 ||
               in_range 237 237 c0 && in_range 128 159 c1) && cont c2 then 3
      else if in_range 194 223 c0 && cont c1 then 2 else 1
  | [c0; c1; c2] =>
      if (in_range 224 224 c0 && in_range 160 191 c1 ||
          (in_range 225 236 c0 || in_range 238 239 c0) && cont c1 ||
          in_range 237 237 c0 && in_range 128 159 c1) && cont c2 then 3
      else if in_range 194 223 c0 && cont c1 then 2 else 1
  | [c0; c1] => if in_range 194 223 c0 && cont c1 then 2 else 1
  | [_] => 1
  | [] => 0
  end.
(** one character of the text: a dot takes any rune but a newline *)
Definition eat (a : atom) (s : bytes) : option bytes :=
  match s with
  | [] => None
  | x :: s' =>
      match a with
      | Chr c => if Ascii.eqb c x then Some s' else None
      | AnyRune => if Ascii.eqb x (ch 10) then None else Some (skipn (rune_width s) s)
      end
  end.
(** the items match at the beginning of [s] *)
Fixpoint match_items (l : list item) (s : bytes) : bool :=
  match l with
  | [] => true
  | (a, false) :: l' => match eat a s with Some s' => match_items l' s' | None => false end
  | (a, true) :: l' =>
      (fix star (n : nat) (s : bytes) {struct n} : bool :=
         match_items l' s ||
         match n with
         | 0 => false
         | S n' => match eat a s with Some s' => star n' s' | None => false end
         end) (length s) s
  end.

(** regexp.MatchString of a compiled expression *)
Definition matcher := bytes -> bool.
(** regexp.Compile *)
Definition compile (other : bytes -> option matcher) (expr : bytes) : option matcher :=
  match expr with
  | "^"%char :: p => match items p with Some l => Some (match_items l) | None => other expr end
  | _ => other expr
  end.

(** main handlers: the static ones, and those of the program *)
Inductive handler :=
| HFile (fsys : iofs) (url_path : bytes)                      (* StaticFileHandler *)
| HEmbed (fsys : iofs) (file_path url_path : bytes)           (* StaticHandler *)
| HFix (fsys : iofs) (file_path : bytes)                      (* FixStaticHandler *)
| HUser (n : nat).

Section Mount.
  (** what a HandlerSet has besides its main handler *)
  Context {U : Type}.
  Variable other : bytes -> option matcher.
  Variable dir_fs : bytes -> iofs.              (* os.DirFS *)
  Variable fresh_set : bytes -> U.              (* Set(name) *)

  Definition hs := (U * handler)%type.
  (** server.go:18-42 Server: the two route tables, and the expressions in memory ([rgx] is
      a position in that list) *)
  Record srv := Srv { sv_top : node hs; sv_rt : rtree hs; sv_exprs : list matcher }.
  (** server.go:44-52 New: empty tables *)
  Definition new_srv : srv := Srv new_tree new_reg_tree [].

  (** server.go:157-161 Add; a nil set panics in Clone *)
  Definition server_add (sv : srv) (method route : bytes) (h : handler) (set : option U) : res srv :=
    match set with
    | None => Panic
    | Some u => Ok (Srv (tree_add (sv_top sv) method route (Some (u, h))) (sv_rt sv) (sv_exprs sv))
    end.
  (** server.go:163-167 AddReg with an expression that was compiled for this call *)
  Definition server_add_reg (sv : srv) (method : bytes) (f : matcher) (h : handler) (set : option U) : res srv :=
    match set with
    | None => Panic
    | Some u =>
        match reg_add (sv_rt sv) method (length (sv_exprs sv)) (u, h) with
        | Ok rt => Ok (Srv (sv_top sv) rt (sv_exprs sv ++ [f]))
        | Panic => Panic
        end
    end.

  (** static.go:56-61, static_embed.go:63-68, static_embed_fix.go:50-55; a set is a pointer *)
  Definition pick_set (sets : list (option U)) (url : bytes) : option U :=
    match sets with
    | s :: _ => s
    | [] => Some (fresh_set (B"static for '" ++ url ++ B"'"))
    end.
  (** the handlers: static.go:43-47, static_embed.go:49-54, static_embed_fix.go:43-48.
      fs.Sub(emfs, ".") is emfs.  The debug log entries are left out. *)
  Definition file_handler (file url : bytes) : handler := HFile (dir_fs file) (trim_prefix url (B"/")).
  Definition embed_handler (file url : bytes) (fsys : iofs) : handler :=
    HEmbed fsys (trim_prefix file (B"/")) (trim_prefix url (B"/")).
  Definition fix_handler (file : bytes) (fsys : iofs) : handler := HFix fsys file.

  (** static.go:51 and static_embed.go:58 *)
  Definition mount_expr (url : bytes) : bytes := "^"%char :: url ++ B"/.*".
  (** static.go:51-63 and static_embed.go:58-70; [None]: the error of Compile is returned and
      nothing is registered *)
  Definition add_mount (sv : srv) (url : bytes) (h : handler) (sets : list (option U)) : res (option srv) :=
    match compile other (mount_expr url) with
    | None => Ok None
    | Some f =>
        match server_add_reg sv MethodGetHead f h (pick_set sets url) with
        | Ok sv' => Ok (Some sv')
        | Panic => Panic
        end
    end.
  (** static.go:42-65 StaticFile *)
  Definition static_file (sv : srv) (file url : bytes) (sets : list (option U)) : res (option srv) :=
    add_mount sv url (file_handler file url) sets.
  (** static_embed.go:43-72 StaticFileFS *)
  Definition static_file_fs (sv : srv) (file url : bytes) (fsys : iofs) (sets : list (option U)) : res (option srv) :=
    add_mount sv url (embed_handler file url fsys) sets.
  (** static_embed_fix.go:37-60 FixStaticFileFS *)
  Definition fix_static_file_fs (sv : srv) (file url : bytes) (fsys : iofs) (sets : list (option U)) : res srv :=
    server_add sv MethodGetPost url (fix_handler file fsys) (pick_set sets url).

  (** a program setting up a server *)
  Inductive op :=
  | OAdd (method route : bytes) (n : nat) (set : option U)
  | OAddReg (method : bytes) (f : matcher) (n : nat) (set : option U)
  | OStaticFile (file url : bytes) (sets : list (option U))
  | OStaticFileFS (file url : bytes) (fsys : iofs) (sets : list (option U))
  | OFixStaticFileFS (file url : bytes) (fsys : iofs) (sets : list (option U)).
  Definition keep (sv : srv) (r : res (option srv)) : res srv :=
    match r with Ok (Some sv') => Ok sv' | Ok None => Ok sv | Panic => Panic end.
  Definition setup1 (sv : srv) (o : op) : res srv :=
    match o with
    | OAdd m route n set => server_add sv m route (HUser n) set
    | OAddReg m f n set => server_add_reg sv m f (HUser n) set
    | OStaticFile file url sets => keep sv (static_file sv file url sets)
    | OStaticFileFS file url fsys sets => keep sv (static_file_fs sv file url fsys sets)
    | OFixStaticFileFS file url fsys sets => fix_static_file_fs sv file url fsys sets
    end.
  Fixpoint setup (sv : srv) (os : list op) : res srv :=
    match os with
    | [] => Ok sv
    | o :: os' => match setup1 sv o with Ok sv' => setup sv' os' | Panic => Panic end
    end.

  (** server.go:131-141 Find on this server *)
  Definition srv_matches (sv : srv) (re : rgx) (path : bytes) : bool :=
    match nth_error (sv_exprs sv) re with Some f => f path | None => false end.
  Definition srv_find (order : rmap hs -> rmap hs) (sv : srv) (method path : bytes) (old : args) : tres hs * args :=
    server_find (srv_matches sv) order (sv_top sv) (sv_rt sv) method path old.
End Mount.
Arguments srv U : clear implicits.
Arguments op U : clear implicits.

(** Run of a static main handler (M_Static); [None] for a handler of the program *)
Definition handler_run time_parse fmt_time mime_type b1 b2 url_string (h : handler) (q : sreq) (path : bytes) (p : sresp)
  : option (option (sresp * ferr * list call) * bytes) :=
  match h with
  | HFile fsys up => Some (static_file_run time_parse fmt_time mime_type b1 b2 url_string fsys up q path p)
  | HEmbed fsys fp up => Some (static_embed_run time_parse fmt_time mime_type b1 b2 url_string fsys fp up q path p)
  | HFix fsys fp => Some (static_fix_run time_parse fmt_time mime_type b1 b2 url_string fsys fp q path p)
  | HUser _ => None
  end.
