(** Model of the request side of Context (/repo/ctx.go) and of
    /repo/params/params.go. *)
From Verif Require Import Base GoStrings.

(** Environment: fasthttp.Args, the pairs in order of occurrence. *)
Definition fargs := list (bytes * bytes).
Definition fpeek (a : fargs) (k : bytes) : bytes :=                 (* Args.Peek *)
  match find (fun kv => beq (fst kv) k) a with Some (_, v) => v | None => [] end.
Definition fpeek_multi (a : fargs) (k : bytes) : list bytes :=      (* Args.PeekMulti *)
  map snd (filter (fun kv => beq (fst kv) k) a).

(** The three sources of parameters: URL, query string, form body. *)
Record sources := Sources { src_url : fargs; src_query : fargs; src_post : fargs }.

(** ctx.go:178-188 PeekParam *)
Definition peek_param (c : sources) (k : bytes) : bytes :=
  let out := fpeek (src_url c) k in
  if 0 <? length out then out
  else let out := fpeek (src_query c) k in
       if 0 <? length out then out else fpeek (src_post c) k.
(** ctx.go:190-200 PeekMultiParam *)
Definition peek_multi_param (c : sources) (k : bytes) : list bytes :=
  let out := fpeek_multi (src_url c) k in
  if 0 <? length out then out
  else let out := fpeek_multi (src_query c) k in
       if 0 <? length out then out else fpeek_multi (src_post c) k.
(** ctx.go:202-210 PeekMultiStringParam: the copies, in order *)
Definition peek_multi_string_param (c : sources) (k : bytes) : list bytes :=
  fold_left (fun out v => out ++ [v]) (peek_multi_param c k) [].
(** ctx.go:216-223 PeekBoolParam; [uni] as in GoStrings.to_lower *)
Definition peek_bool_param (uni : bytes -> bytes) (c : sources) (k : bytes) : bool :=
  let v := to_lower uni (peek_param c k) in
  negb (beq v (B"") || beq v (B"0") || beq v (B"f") || beq v (B"false")).

(** ctx.go:225-246 SqueezeParams: the dynamic value is a string or a []string *)
Inductive sval := VStr (s : bytes) | VList (l : list bytes).
Definition squeeze1 (out : list (bytes * sval)) (kv : bytes * bytes) : list (bytes * sval) :=
  let '(k, v) := kv in
  match aget k out with
  | None => aput k (VStr v) out
  | Some (VStr t) => aput k (VList [v; t]) out
  | Some (VList t) => aput k (VList (t ++ [v])) out
  end.
Definition squeeze_params (c : sources) : list (bytes * sval) :=
  fold_left squeeze1 (src_post c) [].

(** ** Context data (ctx.go:47, 66-85, 87-100, 252-260) *)
(** Maps live on a heap; a context refers to its map.  [V]: values of type any. *)
Section Data.
  Context {V : Type}.
  Definition dmap := list (bytes * V).
  Record dstate := DState { d_heap : list dmap; d_ctxs : list nat }.
  Definition dinit : dstate := DState [] [].
  Inductive dop :=
  | DNew                                  (* NewContext *)
  | DSet (c : nat) (k : bytes) (v : V)
  | DClone (c : nat).
  (** the iteration order of a Go map range loop *)
  Variable order : dmap -> dmap.
  Definition dstep (st : dstate) (o : dop) : res dstate :=
    match o with
    | DNew => Ok (DState (d_heap st ++ [[]]) (d_ctxs st ++ [length (d_heap st)]))
    | DSet c k v =>
        match nth_error (d_ctxs st) c with
        | Some r => Ok (DState (upd_nth r (aput k v) (d_heap st)) (d_ctxs st))
        | None => Panic
        end
    | DClone c =>                          (* ctx.go:88-91: data[k] = ctx.data[k] *)
        match nth_error (d_ctxs st) c with
        | Some r =>
            let m := nth r (d_heap st) [] in
            let copy := fold_left (fun d kv => match aget (fst kv) m with
                                               | Some v => aput (fst kv) v d
                                               | None => d
                                               end) (order m) [] in
            Ok (DState (d_heap st ++ [copy]) (d_ctxs st ++ [length (d_heap st)]))
        | None => Panic
        end
    end.
  Fixpoint drun (st : dstate) (os : list dop) : res dstate :=
    match os with
    | [] => Ok st
    | o :: os' => match dstep st o with Ok st' => drun st' os' | Panic => Panic end
    end.
  (** ctx.go:258-260 Get; None is the nil any *)
  Definition dget (st : dstate) (c : nat) (k : bytes) : option V :=
    match nth_error (d_ctxs st) c with
    | Some r => aget k (nth r (d_heap st) [])
    | None => None
    end.
End Data.
Arguments dmap V : clear implicits.
Arguments dstate V : clear implicits.
Arguments dop V : clear implicits.

(** ** Cookies *)
(** ctx.go:330-346 validOptionalPort *)
Definition is_digit (c : ascii) : bool := ((48 <=? bv c) && (bv c <=? 57))%N.
Definition valid_optional_port (port : bytes) : bool :=
  match port with
  | [] => true
  | c :: rest => Ascii.eqb c ":" && forallb is_digit rest
  end.
(** bytes.LastIndexByte *)
Fixpoint last_index_byte (c : ascii) (s : bytes) : option nat :=
  match s with
  | [] => None
  | x :: s' => match last_index_byte c s' with
               | Some i => Some (S i)
               | None => if Ascii.eqb x c then Some 0 else None
               end
  end.
(** ctx.go:314-326 splitHost; the slice expression of line 322 is checked *)
Definition split_host (host_port : bytes) : res bytes :=
  let host := match last_index_byte ":" host_port with
              | Some colon => if valid_optional_port (skipn colon host_port)
                              then firstn colon host_port else host_port
              | None => host_port
              end in
  if has_prefix host (B"[") && has_suffix host (B"]")
  then if 2 <=? length host then Ok (firstn (length host - 2) (skipn 1 host)) else Panic
  else Ok host.

(** Environment: url.QueryEscape *)
Definition hex_digit (n : N) : ascii := ch (if (n <? 10)%N then 48 + n else 55 + n).
Definition query_safe (c : ascii) : bool :=
  let n := bv c in
  ((97 <=? n)%N && (n <=? 122)%N) || ((65 <=? n)%N && (n <=? 90)%N) || ((48 <=? n)%N && (n <=? 57)%N)
  || (n =? 45)%N || (n =? 95)%N || (n =? 46)%N || (n =? 126)%N.         (* - _ . ~ *)
Definition query_escape (s : bytes) : bytes :=
  flat_map (fun c => if query_safe c then [c]
                     else if (bv c =? 32)%N then ["+"%char]
                     else ["%"%char; hex_digit (bv c / 16); hex_digit (bv c mod 16)]) s.

(** ctx.go:349-375 SetCookie: the cookie handed to fasthttp *)
Record cookie := Cookie {
  ck_domain : bytes; ck_path : bytes; ck_max_age : Z; ck_key : bytes; ck_value : bytes;
  ck_secure : bool; ck_same_site : nat; ck_http_only : bool
}.
Definition set_cookie (host : bytes) (same_site : nat) (name value : bytes) (max_age : Z)
           (path domain : bytes) (secure http_only : bool) : res cookie :=
  let path := if is_empty path then B"/" else path in
  match (if is_empty domain then split_host host else Ok domain) with
  | Panic => Panic
  | Ok d => Ok (Cookie d path max_age name (query_escape value) secure same_site http_only)
  end.

(** ctx.go:29-37 Cookies.Get over (name, cookie) pairs; None is the empty cookie *)
Definition cookies_get {C} (cs : list (bytes * C)) (name : bytes) : option C :=
  match find (fun c => beq (fst c) name) cs with Some (_, c) => Some c | None => None end.

(** ** params/params.go *)
Record param := Param { p_key : bytes; p_value : list bytes }.
(** params.go:11-18 Get *)
Fixpoint params_get (p : list param) (name : bytes) : list bytes * bool :=
  match p with
  | [] => ([], false)
  | e :: p' => if beq (p_key e) name then (p_value e, true) else params_get p' name
  end.
(** params.go:20-26 ByName; va[0] is checked *)
Definition by_name (p : list param) (name : bytes) : res bytes :=
  match params_get p name with
  | (va, true) => match va with v :: _ => Ok v | [] => Panic end
  | (_, false) => Ok []
  end.
