(** Model of ServeContent, serveContent (/repo/static/fs.go:205-365) and Error
    (/repo/static/fs_utils.go:66-71). *)
From Verif Require Import Base GoStrings GoInt M_Text M_Range M_Cond M_Sniff.
Local Open Scope Z_scope.

(** fs_utils.go:66-71 Error *)
Definition error_reply (p : sresp) (text : bytes) (code : Z) : sresp :=
  append_body text (set_status code
    (hset (B"X-Content-Type-Options") (B"nosniff") (hset (B"Content-Type") (B"text/plain; charset=utf-8") p))).

(** Environment: an io.ReadSeeker over [c_data]; [c_seek off]: Seek(off, SeekStart)
    succeeds; [c_seek_end]: Seek(0, SeekEnd) succeeds. *)
Record content := Content { c_data : bytes; c_seek : Z -> bool; c_seek_end : bool }.

(** what serveContent returns, besides changing the response *)
Inductive serr := SOk | SSeek | SRange (e : rerr).

(** filepath.Ext: from the last dot of the last path element on *)
Fixpoint ext_rev (seen rest : bytes) : bytes :=
  match rest with
  | [] => []
  | c :: rest' => if Ascii.eqb c "/" then []
                  else if Ascii.eqb c "." then c :: seen
                  else ext_rev (c :: seen) rest'
  end.
Definition file_ext (name : bytes) : bytes := ext_rev [] (rev name).

(** the bytes from position [off] on, at most [n] of them: io.CopyN / io.ReadFull *)
Definition read_n (data : bytes) (off n : Z) : bytes :=
  firstn (Z.to_nat n) (skipn (Z.to_nat off) data).

(** fs.go:323-341, the goroutine that feeds the pipe: the bytes written until it ends or
    fails (CreatePart cannot fail as long as the pipe is read).  A failure closes the pipe
    with an error, so the reader sees exactly these bytes and then an error. *)
Fixpoint pipe_bytes (boundary : bytes) (first : bool) (rs : list hrange) (ctype : bytes) (size : Z)
         (c : content) : bytes :=
  match rs with
  | [] => close_mw boundary
  | r :: rs' =>
      create_part boundary first r ctype size ++
      (if c_seek c (r_start r) then
         let chunk := read_n (c_data c) (r_start r) (r_len r) in
         chunk ++ (if (Z.of_nat (length chunk) <? r_len r)%Z then []    (* CopyN: EOF *)
                   else pipe_bytes boundary false rs' ctype size c)
       else [])
  end.

(** fs.go:345-364, the last statements: header fields ([ranged]: size >= 0), status, body;
    io.CopyN copies at most [send_size] bytes of [source], a shortage is only logged *)
Definition finish (q : sreq) (p : sresp) (ranged : bool) (code send_size : Z) (source : bytes) : sresp :=
  let p := if ranged then
             let p := hset (B"Accept-Ranges") (B"bytes") p in
             if is_empty (hpeek (p_hdr p) (B"Content-Encoding"))
             then hset (B"Content-Length") (fmt_int send_size) p else p
           else p in
  let p := set_status code p in
  if beq (q_method q) (B"HEAD") then p
  else append_body (firstn (Z.to_nat send_size) source) p.

Section Env.
  Variable time_parse : bytes -> bytes -> option gtime.
  Variable fmt_time : gtime -> bytes.
  Variable mime_type : bytes -> bytes.            (* mime.TypeByExtension *)
  Variables boundary1 boundary2 : bytes.          (* the random boundaries of the two multipart writers *)

  (** fs.go:233-365 serveContent; [size]: the result of sizeFunc(), None for an error
      (errSeeker is its only one).  None: a loop does not end or an access is out of range
      (shown impossible: C83). *)
  Definition serve_content (q : sreq) (p : sresp) (name : bytes) (mod_time : gtime)
             (size : option Z) (c : content) : option (sresp * serr) :=
    let p := set_last_modified fmt_time mod_time p in
    match check_preconditions time_parse q p mod_time with
    | None => None
    | Some (p, true, _) => Some (p, SOk)
    | Some (p, false, range_req) =>
        (* fs.go:244-259 *)
        let ct0 := hpeek (q_hdr q) (B"Content-Type") in
        let typed : option (bytes * sresp + sresp) :=
          if is_empty ct0 then
            let by_ext := mime_type (file_ext name) in
            if is_empty by_ext then
              match detect_content_type (firstn 512 (c_data c)) with
              | Panic => None
              | Ok ct =>
                  if c_seek c 0 then Some (inl (ct, hset (B"Content-Type") ct p))
                  else Some (inr (error_reply p (B"seeker can't seek") 500))
              end
            else Some (inl (by_ext, hset (B"Content-Type") by_ext p))
          else Some (inl (ct0, p)) in
        match typed with
        | None => None
        | Some (inr p) => Some (p, SSeek)
        | Some (inl (ctype, p)) =>
            match size with
            | None => Some (error_reply p (B"seeker can't seek") 500, SSeek)
            | Some size =>
                if size <? 0 then Some (finish q p false 200 size (c_data c), SOk)
                else match parse_range range_req size with
                     | inr e =>
                         let p := match e with
                                  | RNoOverlap => hset (B"Content-Range") (B"bytes */" ++ fmt_int size) p
                                  | RInvalid => p
                                  end in
                         Some (error_reply p (rerr_text e) 416, SRange e)
                     | inl rs =>
                         let rs := if size <? sum_ranges rs then [] else rs in
                         match rs with
                         | [] => Some (finish q p true 200 size (c_data c), SOk)
                         | [ra] =>
                             if c_seek c (r_start ra) then
                               Some (finish q (hset (B"Content-Range") (content_range ra size) p)
                                            true 206 (r_len ra) (skipn (Z.to_nat (r_start ra)) (c_data c)), SOk)
                             else Some (error_reply p (B"seek error") 416, SSeek)
                                  (* simplification: err.Error() of the Seek is one fixed text *)
                         | _ =>
                             let send_size := ranges_mime_size boundary1 rs ctype size in
                             let p := hset (B"Content-Type") (B"multipart/byteranges; boundary=" ++ boundary2) p in
                             Some (finish q p true 206 send_size (pipe_bytes boundary2 true rs ctype size c), SOk)
                         end
                     end
            end
        end
    end.

  (** fs.go:205-219 ServeContent: size by seeking to the end and back *)
  Definition serve_content_seek (q : sreq) (p : sresp) (name : bytes) (mod_time : gtime) (c : content)
    : option (sresp * serr) :=
    serve_content q p name mod_time
      (if c_seek_end c && c_seek c 0 then Some (Z.of_nat (length (c_data c))) else None) c.
End Env.
