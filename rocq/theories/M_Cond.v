(** Model of the conditional-request code of /repo/static/fs.go:367-613. *)
From Verif Require Import Base GoStrings GoInt.

(** ** The request and response as seen by package static
    Environment: fasthttp.RequestCtx.  Header names are in canonical form; Peek of an
    absent header gives the empty string. *)
Definition headers := list (bytes * bytes).
Definition hpeek (h : headers) (k : bytes) : bytes := match aget k h with Some v => v | None => [] end.
Record sreq := SReq {
  q_method : bytes;       (* ctx.Method() *)
  q_uri : bytes;          (* ctx.Request.RequestURI() *)
  q_hdr : headers         (* ctx.Request.Header *)
}.
Record sresp := SResp {
  p_status : Z;           (* ctx.Response.StatusCode *)
  p_hdr : headers;        (* ctx.Response.Header *)
  p_body : bytes
}.
Definition hset (k v : bytes) (p : sresp) : sresp := SResp (p_status p) (aput k v (p_hdr p)) (p_body p).
Definition hdel (k : bytes) (p : sresp) : sresp := SResp (p_status p) (adel k (p_hdr p)) (p_body p).
Definition set_status (c : Z) (p : sresp) : sresp := SResp c (p_hdr p) (p_body p).
Definition append_body (b : bytes) (p : sresp) : sresp := SResp (p_status p) (p_hdr p) (p_body p ++ b).

(** Environment: time.Time as nanoseconds since the Unix epoch. *)
Definition gtime := Z.
Definition zero_time : gtime := (-62135596800 * 1000000000)%Z.   (* 1 January, year 1 *)
Definition unix (t : gtime) : Z := (t / 1000000000)%Z.            (* Time.Unix *)
Definition truncate_sec (t : gtime) : gtime := (unix t * 1000000000)%Z.  (* Truncate(time.Second) *)

(** ** ETags *)
(** fs.go:384: a byte allowed inside an ETag *)
Definition etag_byte (c : ascii) : bool :=
  ((bv c =? 33) || ((35 <=? bv c) && (bv c <=? 126)) || (128 <=? bv c))%N.
(** fs.go:380-391: the loop from position [i] on; [rest] = s[i:], [seen] = s[:i] reversed *)
Fixpoint scan_quoted (seen rest : bytes) : bytes * bytes :=
  match rest with
  | [] => ([], [])
  | c :: rest' =>
      if etag_byte c then scan_quoted (c :: seen) rest'
      else if Ascii.eqb c """" then (rev (c :: seen), rest')
      else ([], [])
  end.
(** fs.go:370-393 scanETag; s[start] is read only when len(s[start:]) >= 2 *)
Definition scan_etag (s : bytes) : bytes * bytes :=
  let s := textproto_trim s in
  let start := if has_prefix s (B"W/") then 2 else 0 in
  let tail := skipn start s in
  match tail with
  | c :: (_ :: _) as rest =>
      if Ascii.eqb c """" then scan_quoted (rev (firstn (start + 1) s)) rest else ([], [])
  | _ => ([], [])
  end.
(** fs.go:397-399 etagStrongMatch: equal, non-empty, and a[0] is a double quote *)
Definition etag_strong (a b : bytes) : bool :=
  beq a b && negb (is_empty a) && match a with c :: _ => Ascii.eqb c """" | [] => false end.
(** fs.go:403-405 etagWeakMatch *)
Definition etag_weak (a b : bytes) : bool := beq (trim_prefix a (B"W/")) (trim_prefix b (B"W/")).

(** fs.go:409-415 condResult *)
Inductive cond := CNone | CTrue | CFalse.
Definition is_cfalse (c : cond) : bool := match c with CFalse => true | _ => false end.

(** The loops of fs.go:422-442 and 472-492.  They differ in the comparison and in the
    answers; both exits are returned: Some b = left by return (a match), Some false =
    left by break, None = [fuel] exhausted.  C56 shows fuel = length suffices. *)
Fixpoint etag_loop (fuel : nat) (same : bytes -> bool) (im : bytes) : option bool :=
  let im := textproto_trim im in
  match im with
  | [] => Some false                                  (* len(im) == 0: break *)
  | c :: im' =>
      if Ascii.eqb c "," then
        match fuel with O => None | S f => etag_loop f same im' end
      else if Ascii.eqb c "*" then Some true
      else let '(etag, remain) := scan_etag im in
           if is_empty etag then Some false           (* break *)
           else if same etag then Some true
           else match fuel with O => None | S f => etag_loop f same remain end
  end.

Section Env.
  (** time.Parse(layout, text): None on error *)
  Variable time_parse : bytes -> bytes -> option gtime.
  (** t.UTC().Format(TimeFormat) *)
  Variable fmt_time : gtime -> bytes.

  (** fs_utils.go:73-77 timeFormats: TimeFormat, time.RFC850, time.ANSIC *)
  Definition time_formats : list bytes :=
    [B"Mon, 02 Jan 2006 15:04:05 GMT"; B"Monday, 02-Jan-06 15:04:05 MST"; B"Mon Jan _2 15:04:05 2006"].
  (** fs_utils.go:82-90 ParseTime *)
  Fixpoint parse_time_in (ls : list bytes) (text : bytes) : option gtime :=
    match ls with
    | [] => None
    | l :: ls' => match time_parse l text with Some t => Some t | None => parse_time_in ls' text end
    end.
  Definition parse_time (text : bytes) : option gtime := parse_time_in time_formats text.

  (** fs.go:555-557 isZeroTime *)
  Definition is_zero_time (t : gtime) : bool := (t =? zero_time)%Z || (t =? 0)%Z.

  (** fs.go:417-445 checkIfMatch; the fuel is the header's length (C56) *)
  Definition check_if_match (q : sreq) (p : sresp) : option cond :=
    let im := hpeek (q_hdr q) (B"If-Match") in
    if is_empty im then Some CNone
    else match etag_loop (length im) (fun e => etag_strong e (hpeek (p_hdr p) (B"Etag"))) im with
         | None => None
         | Some true => Some CTrue
         | Some false => Some CFalse
         end.
  (** fs.go:447-464 checkIfUnmodifiedSince *)
  Definition check_if_unmodified_since (q : sreq) (mod_time : gtime) : cond :=
    let ius := hpeek (q_hdr q) (B"If-Unmodified-Since") in
    if is_empty ius || is_zero_time mod_time then CNone
    else match parse_time ius with
         | None => CNone
         | Some t => let m := truncate_sec mod_time in
                     if (m <? t)%Z || (m =? t)%Z then CTrue else CFalse
         end.
  (** fs.go:466-494 checkIfNoneMatch *)
  Definition check_if_none_match (q : sreq) (p : sresp) : option cond :=
    let inm := hpeek (q_hdr q) (B"If-None-Match") in
    if is_empty inm then Some CNone
    else match etag_loop (length inm) (fun e => etag_weak e (hpeek (p_hdr p) (B"Etag"))) inm with
         | None => None
         | Some true => Some CFalse
         | Some false => Some CTrue
         end.
  Definition get_or_head (q : sreq) : bool := beq (q_method q) (B"GET") || beq (q_method q) (B"HEAD").
  (** fs.go:496-515 checkIfModifiedSince *)
  Definition check_if_modified_since (q : sreq) (mod_time : gtime) : cond :=
    if negb (get_or_head q) then CNone
    else let ims := hpeek (q_hdr q) (B"If-Modified-Since") in
         if is_empty ims || is_zero_time mod_time then CNone
         else match parse_time ims with
              | None => CNone
              | Some t => let m := truncate_sec mod_time in
                          if (m <? t)%Z || (m =? t)%Z then CFalse else CTrue
              end.
  (** fs.go:517-550 checkIfRange; only modTime.IsZero() is tested here *)
  Definition check_if_range (q : sreq) (p : sresp) (mod_time : gtime) : cond :=
    if negb (get_or_head q) then CNone
    else let ir := hpeek (q_hdr q) (B"If-Range") in
         if is_empty ir then CNone
         else let '(etag, _) := scan_etag ir in
              if negb (is_empty etag) then
                if etag_strong etag (hpeek (p_hdr p) (B"Etag")) then CTrue else CFalse
              else if (mod_time =? zero_time)%Z then CFalse
              else match parse_time ir with
                   | None => CFalse
                   | Some t => if (unix t =? unix mod_time)%Z then CTrue else CFalse
                   end.

  (** fs.go:559-563 setLastModified *)
  Definition set_last_modified (mod_time : gtime) (p : sresp) : sresp :=
    if is_zero_time mod_time then p else hset (B"Last-Modified") (fmt_time mod_time) p.
  (** fs.go:565-578 writeNotModified *)
  Definition write_not_modified (p : sresp) : sresp :=
    let p := hdel (B"Content-Encoding") (hdel (B"Content-Length") (hdel (B"Content-Type") p)) in
    let p := if is_empty (hpeek (p_hdr p) (B"Etag")) then p else hdel (B"Last-Modified") p in
    set_status 304 p.

  (** fs.go:582-613 checkPreconditions: None if a loop does not end; otherwise the
      response so far, done, and the range header *)
  Definition check_preconditions (q : sreq) (p : sresp) (mod_time : gtime)
    : option (sresp * bool * bytes) :=
    match check_if_match q p with
    | None => None
    | Some c =>
        let c := match c with CNone => check_if_unmodified_since q mod_time | _ => c end in
        if is_cfalse c then Some (set_status 412 p, true, [])
        else match check_if_none_match q p with
             | None => None
             | Some CFalse =>
                 if get_or_head q then Some (write_not_modified p, true, [])
                 else Some (set_status 412 p, true, [])
             | Some cn =>
                 if match cn with CNone => is_cfalse (check_if_modified_since q mod_time) | _ => false end
                 then Some (write_not_modified p, true, [])
                 else let range := hpeek (q_hdr q) (B"Range") in
                      let range := if negb (is_empty range) && is_cfalse (check_if_range q p mod_time)
                                   then [] else range in
                      Some (p, false, range)
             end
    end.
End Env.
