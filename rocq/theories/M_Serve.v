(** Model of a server answering requests concurrently: Server.ServeHTTP and runHTTP
    (/repo/server_run.go:109-167), HandlerSet.Run and RunLast (/repo/top_handler.go:24-81),
    with handlers that are programs over the Context API, and the pool the URL parameters come
    from (environment: fasthttp.AcquireArgs / ReleaseArgs over sync.Pool; ReleaseArgs resets).
    Simplifications: a lookup is one step (races: M_Race); handlers have no state outside the
    Context; a goroutine started with EGGo is its result only (as in M_Pipeline); errors logged
    by printError are not listed. *)
From Verif Require Import Base GoStrings GoErrors M_Tree M_RegTree M_Ctx M_Pipeline M_Auth.
From Coq Require Import Permutation.

Section Serve.
  Context {V : Type}.                                   (* values of type any *)

  (** A piece of user code: the calls it makes and how it ends. *)
  Inductive prog :=
  | Done (o : outcome)
  | Act (a : action) (k : prog)                         (* Stop, Abort, SkipMain, EGGo, SetLoggerLevel *)
  | Look (k : ctx -> prog)                              (* Stopped, Aborted, LoggerLevel, CalledHandles.. *)
  | Write (b : bytes) (k : prog)                        (* ctx.go:117-127 Write, WriteString *)
  | Status (code : N) (k : prog)                        (* FastCtx().SetStatusCode *)
  | SetData (key : bytes) (v : V) (k : prog)            (* ctx.go:252-256 Set *)
  | GetData (key : bytes) (k : option V -> prog)        (* ctx.go:258-260 Get *)
  | Param (key : bytes) (k : bytes -> prog)             (* ctx.go:178-188 PeekParam *)
  | Params (key : bytes) (k : list bytes -> prog)       (* ctx.go:190-200 PeekMultiParam *)
  | UrlAdd (key value : bytes) (k : prog).              (* ctx.go:162-164 UrlIds().Add *)

  (** handler.go:3-19, top_handler.go:5-14 *)
  Record ihandler := IHandler { ih_name : bytes; ih_run : prog }.
  Record imain := IMain { im_name : bytes; im_init : prog; im_run : prog }.
  Record ilast := ILast { il_name : bytes; il_run : option err -> prog }.
  Record iset := ISet { is_before : list ihandler; is_after : list ihandler; is_last : option ilast; is_main : option imain }.

  (** what is observed of a request being handled *)
  Inductive event :=
  | VStart (w : who) (name : bytes) | VEnd (w : who) (o : outcome)
  | VAct (a : action) | VWrite (b : bytes) | VStatus (code : N)
  | VSet (key : bytes) (v : V) | VGet (key : bytes) (r : option V)
  | VParam (key r : bytes) | VParams (key : bytes) (r : list bytes) | VUrlAdd (key value : bytes)
  | VWait (eg : option err).

  (** a request: what authentication and routing look at, and its other parameters *)
  Record req := Req { rq_head : request; rq_query : fargs; rq_post : fargs }.

  (** the Context (control part, data) and the response; the events, latest first *)
  Record loc := Loc { o_ctl : ctx; o_data : list (bytes * V); o_status : N; o_body : bytes; o_trace : list event }.
  (** ctx.go:66-85 NewContext; fasthttp: a response starts as 200 with an empty body *)
  Definition new_loc : loc := Loc new_ctx [] 200 [] [].
  Definition see (e : event) (l : loc) : loc := Loc (o_ctl l) (o_data l) (o_status l) (o_body l) (e :: o_trace l).
  Definition set_ctl (c : ctx) (l : loc) : loc := Loc c (o_data l) (o_status l) (o_body l) (o_trace l).

  (** one call made by user code; [u]: the URL parameters.  None: it has ended *)
  Definition op1 (q : req) (p : prog) (l : loc) (u : fargs) : option (prog * loc * fargs) :=
    match p with
    | Done _ => None
    | Act a k => Some (k, see (VAct a) (set_ctl (apply1 (o_ctl l) a) l), u)
    | Look k => Some (k (o_ctl l), l, u)
    | Write b k => Some (k, see (VWrite b) (Loc (o_ctl l) (o_data l) (o_status l) (o_body l ++ b) (o_trace l)), u)
    | Status n k => Some (k, see (VStatus n) (Loc (o_ctl l) (o_data l) n (o_body l) (o_trace l)), u)
    | SetData x v k => Some (k, see (VSet x v) (Loc (o_ctl l) (aput x v (o_data l)) (o_status l) (o_body l) (o_trace l)), u)
    | GetData x k => let r := aget x (o_data l) in Some (k r, see (VGet x r) l, u)
    | Param x k => let r := peek_param (Sources u (rq_query q) (rq_post q)) x in Some (k r, see (VParam x r) l, u)
    | Params x k => let r := peek_multi_param (Sources u (rq_query q) (rq_post q)) x in Some (k r, see (VParams x r) l, u)
    | UrlAdd x v k => Some (k, see (VUrlAdd x v) l, u ++ [(x, v)])
    end.

  (** ** The parts of HandlerSet.Run, in order (top_handler.go:24-70) *)
  Inductive stg := GInit (m : imain) | GBefore (i : nat) (h : ihandler) | GMain (m : imain) | GAfter (i : nat) (h : ihandler).
  Fixpoint numbered {A} (i : nat) (l : list A) : list (nat * A) :=
    match l with [] => [] | x :: l' => (i, x) :: numbered (S i) l' end.
  (** None: no main handler, set.handler.Name() panics (line 29) *)
  Definition stages (s : iset) : option (list stg) :=
    match is_main s with
    | None => None
    | Some m => Some (GInit m :: map (fun ih => GBefore (fst ih) (snd ih)) (numbered 0 (is_before s))
                      ++ GMain m :: map (fun ih => GAfter (fst ih) (snd ih)) (numbered 0 (is_after s)))
    end.
  (** lines 29, 36, 47, 59: AddDebugHandleName, then the call *)
  Definition begin (w : who) (name : bytes) (l : loc) : loc := see (VStart w name) (set_ctl (add_debug (o_ctl l) name) l).
  (** the next part to run; line 46: the main handler may be skipped *)
  Fixpoint next (rest : list stg) (l : loc) : option (who * prog * list stg * loc) :=
    match rest with
    | [] => None
    | GInit m :: r => Some (WInit, im_init m, r, begin WInit (im_name m) l)
    | GBefore i h :: r => Some (WBefore i, ih_run h, r, begin (WBefore i) (ih_name h) l)
    | GMain m :: r => if c_skip (o_ctl l) then next r l else Some (WMain, im_run m, r, begin WMain (im_name m) l)
    | GAfter i h :: r => Some (WAfter i, ih_run h, r, begin (WAfter i) (ih_name h) l)
    end.

  (** What the client gets, what runHTTP returns, what happened; the URL parameters at the end *)
  Record answer := Answer { an_status : N; an_body : bytes; an_result : rout; an_trace : list event; an_url : fargs }.
  Definition answer_of (l : loc) (u : fargs) (r : rout) : answer := Answer (o_status l) (o_body l) r (rev (o_trace l)) u.

  (** ** A request being handled; [id]: its parameter object *)
  Inductive thread :=
  | TArrived
  | TRouting (id : nat)                                             (* server_run.go:124: args acquired *)
  | TRunning (id : nat) (s : iset) (w : who) (p : prog) (rest : list stg) (l : loc)
  | TWaiting (id : nat) (s : iset) (e : option err) (l : loc)       (* 158: in EGWait *)
  | TDone (kept : option nat) (a : answer)      (* [kept]: the object its Context still refers to *)
  | TPanic.

  (** server configuration *)
  Variable matches : rgx -> bytes -> bool.
  Variable uni : bytes -> bytes.
  Variable auth : option base_auth.
  Variable ses : option prog.                   (* SesInit *)
  Variable lvl : Z.                             (* log level *)
  (** the routes *)
  Record table := Table { tb_tree : node iset; tb_reg : rtree iset }.

  (** server_run.go:109-119: is the request answered by authentication? *)
  Definition gate (q : req) : res bool :=
    match auth with
    | None => Panic
    | Some h =>
        match (if a_use h then match a_access h with None => Panic | Some f => f (rq_head q) end else Ok false) with
        | Panic => Panic
        | Ok false => Ok true
        | Ok true => snd (check uni h (rq_head q))
        end
    end.
  Definition denied : answer := Answer 401 [] (RRet None) [] [].
  (** 129-133 *)
  Definition not_found (q : req) : answer :=
    Answer 404 (B"not found") (RRet (new_err (B"path '" ++ rq_path (rq_head q) ++ B"' not found"))) [] [].

  (** 153-156, 158: after Run returned [e] *)
  Definition finish (id : nat) (s : iset) (e : option err) (l : loc) (u : fargs) : thread :=
    if c_aborted (o_ctl l) then TDone (Some id) (answer_of l u (RRet e)) else TWaiting id s e l.
  Definition proceed (id : nat) (s : iset) (rest : list stg) (l : loc) (u : fargs) : thread :=
    match next rest l with
    | Some (w, p, r, l') => TRunning id s w p r l'
    | None => finish id s None l u
    end.
  (** 151-153: the logger is replaced, then Run *)
  Definition enter (id : nat) (s : iset) (l : loc) (u : fargs) : thread :=
    let c := o_ctl l in
    let l := set_ctl (Ctx (c_stopped c) (c_aborted c) (c_skip c) (c_cancelled c) lvl (c_log c) (c_tasks c)) l in
    match stages s with
    | None => TPanic
    | Some st => proceed id s st l u
    end.
  (** user code [w] ended with [o] *)
  Definition ended (q : req) (id : nat) (s : iset) (w : who) (o : outcome) (rest : list stg) (l : loc) (u : fargs) : thread :=
    match o with
    | HPanic => TPanic
    | HRet e =>
        let l := see (VEnd w o) l in
        match w, e with
        | WSesInit, Some e => TDone (Some id) (answer_of l u (RRet (new_err (B"path '" ++ rq_path (rq_head q) ++ B"': " ++ err_text e))))
        | WSesInit, None => enter id s l u
        | WLast _, _ => TDone (Some id) (answer_of l u (RRet e))
        | WInit, None => proceed id s rest l u                       (* Stopped is not tested *)
        | _, Some e => finish id s (Some e) l u
        | _, None => if stopped (o_ctl l) then finish id s None l u else proceed id s rest l u
        end
    end.
  (** 134-149 *)
  Definition found (id : nat) (s : iset) (u : fargs) : thread :=
    match ses with
    | Some p => TRunning id s WSesInit p [] (see (VStart WSesInit []) new_loc)
    | None => enter id s new_loc u
    end.
  (** 158-164: the goroutines have ended, [eg] is what Wait returns *)
  Definition waited (id : nat) (s : iset) (e eg : option err) (l : loc) (u : fargs) : thread :=
    let c := o_ctl l in
    let l := see (VWait eg) (set_ctl (Ctx (c_stopped c) (c_aborted c) (c_skip c) true (c_level c) (c_log c) (c_tasks c)) l) in
    match is_last s with
    | None => TDone (Some id) (answer_of l u (RRet (combine_err e eg)))
    | Some h => TRunning id s (WLast (combine_err e eg)) (il_run h (combine_err e eg)) [] (see (VStart (WLast (combine_err e eg)) (il_name h)) l)
    end.
  (** environment: errgroup.Wait *)
  Definition wait_result (tasks : list (option err)) (eg : option err) : Prop :=
    exists fin, Permutation fin tasks /\ eg = first_error fin.

  (** ** All requests together *)
  Record sys := Sys {
    y_tables : list table;           (* the routes at all times, latest first *)
    y_heap : list fargs;             (* parameter objects *)
    y_pool : list nat;               (* those in the pool *)
    y_threads : list (req * thread)
  }.
  Definition start (t : table) (qs : list req) : sys := Sys [t] [] [] (map (fun q => (q, TArrived)) qs).
  Definition put (id : nat) (u : fargs) (h : list fargs) : list fargs := upd_nth id (fun _ => u) h.
  (** deferred ReleaseArgs: when the handling ends *)
  Definition leave (th : thread) (h : list fargs) (pool : list nat) : list fargs * list nat :=
    match th with
    | TDone (Some id) _ => (put id [] h, id :: pool)
    | _ => (h, pool)
    end.

  (** one step of one request: thread, heap and pool before and after *)
  Inductive treq (t : table) (q : req) : thread -> list fargs -> list nat -> thread -> list fargs -> list nat -> Prop :=
  | R_panic : forall h pl, gate q = Panic -> treq t q TArrived h pl TPanic h pl
  | R_denied : forall h pl, gate q = Ok false -> treq t q TArrived h pl (TDone None denied) h pl
  | R_fresh : forall h pl, gate q = Ok true -> treq t q TArrived h pl (TRouting (length h)) (h ++ [[]]) pl
  | R_reuse : forall h p1 id p2, gate q = Ok true -> treq t q TArrived h (p1 ++ id :: p2) (TRouting id) h (p1 ++ p2)
  | R_find : forall id h pl order r u th' h' pl', (forall m, Permutation (order m) m) ->
      server_find matches order (tb_tree t) (tb_reg t) (rq_method (rq_head q)) (rq_path (rq_head q)) (nth id h []) = (r, u) ->
      th' = match r with
            | TFound s => found id s u
            | TNotFound => TDone (Some id) (not_found q)
            | _ => TPanic
            end ->
      leave th' (put id u h) pl = (h', pl') -> treq t q (TRouting id) h pl th' h' pl'
  | R_op : forall id s w p rest l h pl p' l' u', op1 q p l (nth id h []) = Some (p', l', u') ->
      treq t q (TRunning id s w p rest l) h pl (TRunning id s w p' rest l') (put id u' h) pl
  | R_end : forall id s w o rest l h pl th' h' pl', th' = ended q id s w o rest l (nth id h []) ->
      leave th' h pl = (h', pl') -> treq t q (TRunning id s w (Done o) rest l) h pl th' h' pl'
  | R_wait : forall id s e l h pl eg th' h' pl', wait_result (c_tasks (o_ctl l)) eg ->
      th' = waited id s e eg l (nth id h []) -> leave th' h pl = (h', pl') ->
      treq t q (TWaiting id s e l) h pl th' h' pl'.

  (** a panic ends the process; the pool may lose objects (garbage collection) *)
  Definition alive (y : sys) : Prop := Forall (fun x => snd x <> TPanic) (y_threads y).
  Inductive ystep : sys -> sys -> Prop :=
  | Y_req : forall ts t tss h pl l1 q th l2 th' h' pl', ts = t :: tss -> alive (Sys ts h pl (l1 ++ (q, th) :: l2)) ->
      treq t q th h pl th' h' pl' -> ystep (Sys ts h pl (l1 ++ (q, th) :: l2)) (Sys ts h' pl' (l1 ++ (q, th') :: l2))
  | Y_routes : forall ts h pl l t', alive (Sys ts h pl l) -> ystep (Sys ts h pl l) (Sys (t' :: ts) h pl l)
  | Y_gc : forall ts h p1 id p2 l, alive (Sys ts h (p1 ++ id :: p2) l) -> ystep (Sys ts h (p1 ++ id :: p2) l) (Sys ts h (p1 ++ p2) l).
  Inductive ymany : sys -> sys -> Prop :=
  | Y_none : forall y, ymany y y
  | Y_more : forall x y z, ymany x y -> ystep y z -> ymany x z.
End Serve.
Arguments prog V : clear implicits.
Arguments iset V : clear implicits.
Arguments event V : clear implicits.
Arguments loc V : clear implicits.
Arguments answer V : clear implicits.
Arguments thread V : clear implicits.
Arguments table V : clear implicits.
Arguments sys V : clear implicits.
