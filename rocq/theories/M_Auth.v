(** Model of basic authentication (/repo/baseauth.go) and of Server.ServeHTTP
    (/repo/server_run.go:109-121). *)
From Verif Require Import Base GoStrings M_Pipeline.

(** ** Environment: encoding/base64 StdEncoding and bytes.EqualFold *)
Definition alphabet : bytes :=
  B"ABCDEFGHIJKLMNOPQRSTUVWXYZabcdefghijklmnopqrstuvwxyz0123456789+/".
Definition dec64 (c : ascii) : option nat := index_byte c alphabet.
Definition byte_of (n : nat) : ascii := ascii_of_nat n.

(** decodeQuantum without strictness: '=' only at the end; leftover bits are
    dropped; the input's CR and LF have been removed. *)
Fixpoint dec_quanta (s : bytes) : option bytes :=
  match s with
  | [] => Some []
  | [a; b; c; d] =>
      match dec64 a, dec64 b with
      | Some x, Some y =>
          match dec64 c with
          | Some z =>
              match dec64 d with
              | Some w => Some [byte_of (x * 4 + y / 16); byte_of (y mod 16 * 16 + z / 4);
                                byte_of (z mod 4 * 64 + w)]
              | None => if Ascii.eqb d "="
                        then Some [byte_of (x * 4 + y / 16); byte_of (y mod 16 * 16 + z / 4)]
                        else None
              end
          | None => if Ascii.eqb c "=" && Ascii.eqb d "=" then Some [byte_of (x * 4 + y / 16)]
                    else None
          end
      | _, _ => None
      end
  | a :: b :: c :: d :: s' =>
      match dec64 a, dec64 b, dec64 c, dec64 d with
      | Some x, Some y, Some z, Some w =>
          match dec_quanta s' with
          | Some r => Some (byte_of (x * 4 + y / 16) :: byte_of (y mod 16 * 16 + z / 4)
                            :: byte_of (z mod 4 * 64 + w) :: r)
          | None => None
          end
      | _, _, _, _ => None
      end
  | _ => None
  end.
Definition is_crlf (c : ascii) : bool := (bv c =? 10)%N || (bv c =? 13)%N.
(** base64.StdEncoding.DecodeString; None is an error *)
Definition b64_decode (s : bytes) : option bytes :=
  dec_quanta (filter (fun c => negb (is_crlf c)) s).

(** bytes.EqualFold(s, "basic"): 's' also folds to U+017F (bytes C5 BF); the other
    letters have only their two ASCII cases. *)
Definition either (c a b : ascii) : bool := Ascii.eqb c a || Ascii.eqb c b.
Definition fold_ic (s : bytes) : bool :=
  match s with
  | [i; c] => either i "i" "I" && either c "c" "C"
  | _ => false
  end.
Definition equal_fold_basic (s : bytes) : bool :=
  match s with
  | b :: a :: s' =>
      either b "b" "B" && either a "a" "A" &&
      match s' with
      | c :: s'' =>
          if either c "s" "S" then fold_ic s''
          else match s'' with
               | c2 :: s3 => Ascii.eqb c (ch 197) && Ascii.eqb c2 (ch 191) && fold_ic s3
               | [] => false
               end
      | [] => false
      end
  | _ => false
  end.

(** ** baseauth.go *)
Section Auth.
  (** strings.ToLower on strings with non-ASCII bytes *)
  Variable uni : bytes -> bytes.

  (** baseauth.go:109-134 getUserPassword *)
  Definition get_user_password (auth : bytes) : bytes * bytes :=
    match index_byte " " auth with                                       (* 110-117 *)
    | None => ([], [])
    | Some i =>
        if negb (equal_fold_basic (firstn i auth)) then ([], [])         (* 119-121 *)
        else match b64_decode (skipn (S i) auth) with                    (* 123-126 *)
             | None => ([], [])
             | Some decoded =>
                 match split ":" decoded with                            (* 128-133 *)
                 | c0 :: c1 :: _ => (to_lower uni c0, c1)
                 | _ => ([], [])
                 end
             end
    end.

  (** The parts of a request that authentication and dispatch look at; [rq_auth]
      is the Authorization header, empty if absent. *)
  Record request := Request { rq_method : bytes; rq_path : bytes; rq_auth : bytes }.

  (** baseauth.go:24-33 BaseAuth; nil functions are None *)
  Record base_auth := BaseAuth {
    a_use : bool;
    a_message : bytes;
    a_charset : bytes;
    a_header : bytes;
    a_roles : list (bytes * bytes);
    a_use_log : bool;
    a_log_nil : bool;                            (* the log function is nil *)
    a_access : option (request -> res bool)
  }.
  (** baseauth.go:35-45 NewBaseAuth *)
  Definition new_auth : base_auth :=
    BaseAuth false (B"Access to the staging site") (B"UTF-8")
      (B"Basic realm=""Access to the staging site"", charset=""UTF-8""") [] false true
      (Some (fun _ => Ok true)).

  (** baseauth.go:47-81: the setters *)
  Inductive auth_op :=
  | SetMessage (message charset : bytes) | SetCheckAccessFunc (f : option (request -> res bool))
  | SetLogFunc (is_nil : bool) | SetUse (u : bool) | SetRoles (roles : list (bytes * bytes)).
  Definition auth_step (h : base_auth) (o : auth_op) : base_auth :=
    match o with
    | SetMessage m c =>
        BaseAuth (a_use h) m c (B"Basic realm=""" ++ m ++ B""", charset=""" ++ c ++ B"""")
          (a_roles h) (a_use_log h) (a_log_nil h) (a_access h)
    | SetCheckAccessFunc f =>
        BaseAuth (a_use h) (a_message h) (a_charset h) (a_header h) (a_roles h)
          (a_use_log h) (a_log_nil h) f
    | SetLogFunc n =>
        BaseAuth (a_use h) (a_message h) (a_charset h) (a_header h) (a_roles h) true n (a_access h)
    | SetUse u =>
        BaseAuth u (a_message h) (a_charset h) (a_header h) (a_roles h)
          (a_use_log h) (a_log_nil h) (a_access h)
    | SetRoles r =>
        BaseAuth (a_use h) (a_message h) (a_charset h) (a_header h) r
          (a_use_log h) (a_log_nil h) (a_access h)
    end.
  Definition auth_run (os : list auth_op) : base_auth := fold_left auth_step os new_auth.

  (** what happens while a request is served *)
  Inductive event :=
  | EvLog (user password : bytes) (success : bool)     (* the log function is called *)
  | EvStatus (code : N) | EvHeader (name value : bytes) (* written to the response *)
  | EvLookup (method path : bytes)                      (* Server.Find *)
  | EvPipeline (h : http).                              (* the rest of runHTTP *)

  (** baseauth.go:87-107 Check.  A log function that returns normally is assumed;
      fastCtx.Write of no bytes does not fail. *)
  Definition check (h : base_auth) (rq : request) : list event * res bool :=
    if negb (a_use h) then ([], Ok true)
    else
      let '(user, passwd) := get_user_password (rq_auth rq) in
      let find := negb (is_empty user) &&
                  beq (match aget user (a_roles h) with Some p => p | None => [] end) passwd in
      if a_use_log h && a_log_nil h then ([], Panic)
      else
        let lg := if a_use_log h then [EvLog user passwd find] else [] in
        if find then (lg, Ok true)
        else (lg ++ [EvStatus 401; EvHeader (B"WWW-Authenticate") (a_header h)], Ok false).

  (** Server: the authentication object (nil = None), Server.Find, and what runHTTP
      does after the lookup (M_Pipeline.run_http). *)
  Record server := Server {
    sv_auth : option base_auth;
    sv_find : bytes -> bytes -> option hset;
    sv_ses : option (ctx -> beh);
    sv_level : Z;
    sv_sched : list (option GoErrors.err) -> list (option GoErrors.err)
  }.
  (** server_run.go:123-167 *)
  Definition run_request (s : server) (rq : request) : list event * res unit :=
    let h := run_http (sv_find s (rq_method rq) (rq_path rq)) (sv_ses s) (rq_path rq)
                      (sv_level s) (sv_sched s) in
    ([EvLookup (rq_method rq) (rq_path rq); EvPipeline h],
     match x_result h with RPanic => Panic | RRet _ => Ok tt end).

  (** server_run.go:109-121 ServeHTTP *)
  Definition serve_http (s : server) (rq : request) : list event * res unit :=
    match sv_auth s with
    | None => ([], Panic)
    | Some h =>
        let sel := if a_use h
                   then match a_access h with None => Panic | Some f => f rq end
                   else Ok false in
        match sel with
        | Panic => ([], Panic)
        | Ok false => run_request s rq
        | Ok true =>
            match check h rq with
            | (ev, Panic) => (ev, Panic)
            | (ev, Ok false) => (ev, Ok tt)
            | (ev, Ok true) => let '(ev2, r) := run_request s rq in (ev ++ ev2, r)
            end
        end
    end.
End Auth.
