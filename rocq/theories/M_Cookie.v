(** Model of Context.Cookie (/repo/ctx.go:166-176), over an environment model of fasthttp's
    cookie scanner (fasthttp v1.58, cookie.go: cookieScanner.next, decodeCookieArg,
    parseRequestCookies, Cookie.ParseBytes; header.go: RequestHeader.Cookie). *)
From Verif Require Import Base GoStrings.

(** the parts before and after the first [c] *)
Fixpoint cut (c : ascii) (s : bytes) : option (bytes * bytes) :=
  match s with
  | [] => None
  | x :: s' => if Ascii.eqb x c then Some ([], s')
               else match cut c s' with Some (a, b) => Some (x :: a, b) | None => None end
  end.
(** Environment: decodeCookieArg: blanks removed at both ends, and a pair of quotes *)
Definition dquote : ascii := ch 34.
Definition unquote (s : bytes) : bytes :=
  match s, rev s with
  | c :: (_ :: _) as t, d :: _ => if Ascii.eqb c dquote && Ascii.eqb d dquote then firstn (length s - 2) (tl s) else s
  | _, _ => s
  end.
Definition decode_cookie_arg (s : bytes) (skip_quotes : bool) : bytes :=
  let s := trim " " s in if skip_quotes then unquote s else s.
(** Environment: cookieScanner.next: key, value, what is left *)
Definition cookie_next (b : bytes) : option (bytes * bytes * bytes) :=
  if is_empty b then None
  else let '(seg, rest) := match cut ";" b with Some x => x | None => (b, []) end in
       match cut "=" seg with
       | Some (k, v) => Some (decode_cookie_arg k false, decode_cookie_arg v true, rest)
       | None => Some ([], decode_cookie_arg seg true, rest)
       end.
(** Environment: parseRequestCookies; every step shortens the text *)
Fixpoint request_cookies (fuel : nat) (b : bytes) : list (bytes * bytes) :=
  match fuel with
  | O => []
  | S f => match cookie_next b with
           | None => []
           | Some (k, v, rest) =>
               if is_empty k && is_empty v then request_cookies f rest
               else (k, v) :: request_cookies f rest
           end
  end.
(** Environment: RequestHeader.Cookie(name): the first such cookie, or nil *)
Definition header_cookie (header name : bytes) : bytes :=
  match find (fun kv => beq (fst kv) name) (request_cookies (length header) header) with
  | Some (_, v) => v
  | None => []
  end.

(** what Context.Cookie returns: the error, or the cookie's key and value.  [CkAttributes]:
    ParseBytes goes on to read attributes (shown impossible: C89_no_attributes) *)
Inductive cookie_result := CkNotFound | CkCookie (key value : bytes) | CkAttributes.
(** ctx.go:168-176 Context.Cookie *)
Definition ctx_cookie (header name : bytes) : cookie_result :=
  let b := header_cookie header name in
  if is_empty b then CkNotFound
  else match cookie_next b with                      (* Cookie.ParseBytes *)
       | None => CkNotFound
       | Some (k, v, []) => CkCookie k v
       | Some (_, _, _ :: _) => CkAttributes
       end.
