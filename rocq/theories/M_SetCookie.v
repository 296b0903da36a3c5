(** Model of Context.SetCookie (/repo/ctx.go:349-375) down to the Set-Cookie headers of the
    response, over an environment model of fasthttp v1.58: cookie.go (the setters of Cookie and
    AppendBytes), header.go (ResponseHeader.SetCookie, and the cookie lines of AppendBytes). *)
From Verif Require Import Base GoStrings GoInt GoPath M_Ctx.

(** Environment: fasthttp.CookieSameSite *)
Definition SameSiteDisabled := 0. Definition SameSiteDefault := 1. Definition SameSiteLax := 2.
Definition SameSiteStrict := 3. Definition SameSiteNone := 4.
(** Environment: an empty Cookie (AcquireCookie), and its setters.  SetPath normalises the path
    (decoding percent escapes), SetSameSite(None) makes the cookie secure. *)
Definition cookie0 : cookie := Cookie [] [] 0%Z [] [] false SameSiteDisabled false.
Inductive setter :=
| SetDomain (d : bytes) | SetPath (p : bytes) | SetMaxAge (n : Z) | SetKey (k : bytes) | SetValue (v : bytes)
| SetSecure (b : bool) | SetSameSite (m : nat) | SetHTTPOnly (b : bool).
Definition set1 (c : cookie) (s : setter) : cookie :=
  let '(Cookie d p a k v sec ss h) := c in
  match s with
  | SetDomain d' => Cookie d' p a k v sec ss h
  | SetPath p' => Cookie d (normalize_path p') a k v sec ss h
  | SetMaxAge n => Cookie d p n k v sec ss h
  | SetKey k' => Cookie d p a k' v sec ss h
  | SetValue v' => Cookie d p a k v' sec ss h
  | SetSecure b => Cookie d p a k v b ss h
  | SetSameSite m => Cookie d p a k v (sec || (m =? SameSiteNone)) m h
  | SetHTTPOnly b => Cookie d p a k v sec ss b
  end.
(** Environment: Cookie.AppendBytes *)
Definition part (name value : bytes) : bytes := B"; " ++ name ++ B"=" ++ value.
Definition cookie_line (c : cookie) : bytes :=
  (if is_empty (ck_key c) then [] else ck_key c ++ B"=") ++ ck_value c
  ++ (if (0 <? ck_max_age c)%Z then part (B"max-age") (fmt_nat (Z.to_N (ck_max_age c))) else [])
  ++ (if is_empty (ck_domain c) then [] else part (B"domain") (ck_domain c))
  ++ (if is_empty (ck_path c) then [] else part (B"path") (ck_path c))
  ++ (if ck_http_only c then B"; HttpOnly" else [])
  ++ (if ck_secure c then B"; secure" else [])
  ++ match ck_same_site c with
     | 1 => B"; SameSite" | 2 => B"; SameSite=Lax" | 3 => B"; SameSite=Strict" | 4 => B"; SameSite=None"
     | _ => []
     end.
(** Environment: ResponseHeader.SetCookie: the cookies of the response, by name; a new value
    takes the place of the old *)
Fixpoint put_cookie (k line : bytes) (l : list (bytes * bytes)) : list (bytes * bytes) :=
  match l with
  | [] => [(k, line)]
  | (k', v) :: l' => if beq k' k then (k', line) :: l' else (k', v) :: put_cookie k line l'
  end.

(** ctx.go:350-372 SetCookie: the cookie sent.  [host]: the request's Host; [ss]: the context's
    sameSite *)
Definition sent_cookie (host : bytes) (ss : nat) (name value : bytes) (max_age : Z)
           (path domain : bytes) (secure http_only : bool) : res cookie :=
  let path := if is_empty path then B"/" else path in
  match (if is_empty domain then split_host host else Ok domain) with
  | Panic => Panic
  | Ok d => Ok (fold_left set1
      [SetDomain d; SetPath path; SetMaxAge max_age; SetKey name; SetKey name; SetValue (query_escape value);
       SetSecure secure; SetSameSite ss; SetHTTPOnly http_only] cookie0)
  end.
(** a context's cookie state: sameSite (ctx.go:75: Disabled at first) and the response's cookies *)
Record jar := Jar { j_same_site : nat; j_cookies : list (bytes * bytes) }.
Definition jar0 : jar := Jar SameSiteDisabled [].
Inductive cookie_op :=
| OpSameSite (m : nat)                                                        (* ctx.go:263-267 *)
| OpCookie (name value : bytes) (max_age : Z) (path domain : bytes) (secure http_only : bool).
Definition cookie_step (host : bytes) (j : jar) (o : cookie_op) : res jar :=
  match o with
  | OpSameSite m => Ok (Jar m (j_cookies j))
  | OpCookie n v a p d s h =>
      match sent_cookie host (j_same_site j) n v a p d s h with
      | Panic => Panic
      | Ok c => Ok (Jar (j_same_site j) (put_cookie (ck_key c) (cookie_line c) (j_cookies j)))
      end
  end.
Fixpoint cookie_run (host : bytes) (j : jar) (os : list cookie_op) : res jar :=
  match os with
  | [] => Ok j
  | o :: os' => match cookie_step host j o with Ok j' => cookie_run host j' os' | Panic => Panic end
  end.
(** the values of the Set-Cookie headers of the response *)
Definition set_cookie_headers (j : jar) : list bytes := map snd (j_cookies j).
