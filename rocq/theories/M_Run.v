(** Model of the server's life: /repo/server_run.go:22-91 (Run), 99-107 (Shutdown),
    /repo/server.go:143-155 (resolveAddress), as a transition system.  Environment:
    golang.org/x/sync/errgroup, os/signal, sync/atomic and github.com/valyala/fasthttp
    v1.58 (Server.Serve, Server.ShutdownWithContext).  Not modelled: handling of requests
    (M_Pipeline).  A second Run of the same server and Shutdown while there is no underlying
    server are in M_Life. *)
From Verif Require Import Base GoErrors GoInt.
Local Open Scope Z_scope.

(** ** resolveAddress, server.go:143-155; [port]: the PORT environment variable *)
Definition resolve_address (port : bytes) (addr : list bytes) : res bytes :=
  match addr with
  | [] => if is_empty port then Ok (B":8080") else Ok (B":" ++ port)
  | [a] => Ok a
  | _ => Panic
  end.
(** server_run.go:23-30: the address Run listens on, None if it already has a listener *)
Definition run_address (port : bytes) (has_listener : bool) (add : bytes) (addr : list bytes) : res (option bytes) :=
  if has_listener then Ok None
  else match resolve_address port (add :: addr) with Ok a => Ok (Some a) | Panic => Panic end.

(** ** fasthttp's server *)
(** the listener list: Serve has not added the listener yet, it is open, Shutdown closed it *)
Inductive lnst := LNone | LOpen | LClosed.
Inductive owner := OWatch | OCall (i : nat).
Record core := Core {
  k_ln : lnst;
  k_mu : option owner;       (* the server's mutex *)
  k_conns : bool;            (* there are open connections *)
  k_lost : bool;             (* history: a shutdown found no listener, Serve came later *)
  k_parent : bool            (* the context given to Run is cancelled *)
}.
(** the context a shutdown is given: Background, one with a timeout, Run's own *)
Inductive kind := KBackground | KTimeout | KParent.
(** ShutdownWithContext: waiting for the mutex; listeners closed (with this result),
    waiting for the connections *)
Inductive shut := ShLock | ShWait (lnerr : option err).
Definition ctx_err (k : kind) (parent : bool) : option err :=
  match k with
  | KBackground => None
  | KTimeout => Some (EUser 1 (B"context deadline exceeded"))
  | KParent => if parent then Some (EUser 2 (B"context canceled")) else None
  end.
Inductive shut_step (k : kind) (me : owner) : core -> shut -> core -> shut + option err -> Prop :=
| SH_close : forall c lnerr, k_mu c = None -> k_ln c = LOpen ->
    shut_step k me c ShLock (Core LClosed (Some me) (k_conns c) (k_lost c) (k_parent c)) (inl (ShWait lnerr))
| SH_none : forall c, k_mu c = None -> k_ln c <> LOpen ->
    shut_step k me c ShLock
      (Core (k_ln c) None (k_conns c) (match k_ln c with LNone => true | _ => k_lost c end) (k_parent c)) (inr None)
| SH_idle : forall c lnerr, k_conns c = false ->
    shut_step k me c (ShWait lnerr) (Core (k_ln c) None false (k_lost c) (k_parent c)) (inr lnerr)
| SH_ctx : forall c lnerr e, ctx_err k (k_parent c) = Some e ->
    shut_step k me c (ShWait lnerr) (Core (k_ln c) None (k_conns c) (k_lost c) (k_parent c)) (inr (Some e)).

(** ** Threads *)
(** the watcher, server_run.go:47-68 *)
Inductive wst := WSelect | WAdd | WShut (k : kind) (msg : bytes) (s : shut) | WDone (r : option err).
(** the serving goroutine, server_run.go:70-88 *)
Inductive sst := SLoad | SReady | SServing | SDone (r : option err).
(** a goroutine calling Server.Shutdown, server_run.go:99-107; [reached]: it got as far as
    the underlying server's Shutdown *)
Inductive cst := CAdd | CShut (s : shut) | CRet (reached : bool) (r : option err).
Record rs := RS {
  r_core : core;
  r_signal : option bytes;          (* a signal waiting in the channel *)
  r_first : option err;             (* errgroup: the first error *)
  r_watch : wst;
  r_serve : sst;
  r_counter : Z;                    (* *server.shutdownLocker, an int64 *)
  r_adds : list (owner * bool);     (* history: who did AddInt64 and whether it gave 1; latest first *)
  r_callers : list cst;
  r_result : option (option err)    (* what Run returned *)
}.
(** errCtx: cancelled with the parent or by the first error *)
Definition group_done (s : rs) : bool :=
  k_parent (r_core s) || match r_first s with Some _ => true | None => false end.
(** errgroup.Go: the first error is kept and cancels the context *)
Definition keep_first (f r : option err) : option err := match f with Some _ => f | None => r end.

(** Run's configuration: shutdownTimeOut > 0; certFile and keyFile given *)
Section Run.
  Variables with_timeout tls : bool.

  (** server_run.go:102: atomic.AddInt64(server.shutdownLocker, 1) *)
  Definition bump (c : Z) : Z := wrap64 (c + 1).

  (** what the program, and time, do by themselves *)
  Inductive istep : rs -> rs -> Prop :=
  (* server_run.go:51-63: errCtx.Done() *)
  | I_cancelled : forall c sg f sv n a cs res,
      group_done (RS c sg f WSelect sv n a cs res) = true ->
      istep (RS c sg f WSelect sv n a cs res)
            (RS c sg f (if with_timeout then WShut KTimeout (B"context canceled") ShLock else WAdd) sv n a cs res)
  (* server_run.go:64-67: a signal *)
  | I_signal : forall c sig f sv n a cs res,
      istep (RS c (Some sig) f WSelect sv n a cs res)
            (RS c None f (WShut KParent (B"server shutdown: " ++ sig) ShLock) sv n a cs res)
  (* server_run.go:60: server.Shutdown(), the atomic counter *)
  | I_watch_add : forall c sg f sv n a cs res,
      istep (RS c sg f WAdd sv n a cs res)
            (if bump n =? 1 then RS c sg f (WShut KBackground (B"context canceled") ShLock) sv (bump n) ((OWatch, true) :: a) cs res
             else RS c sg (keep_first f None) (WDone None) sv (bump n) ((OWatch, false) :: a) cs res)
  (* the watcher in ShutdownWithContext *)
  | I_watch_shut : forall c sg f k msg s sv n a cs res c' s',
      shut_step k OWatch c s c' (inl s') ->
      istep (RS c sg f (WShut k msg s) sv n a cs res) (RS c' sg f (WShut k msg s') sv n a cs res)
  | I_watch_end : forall c sg f k msg s sv n a cs res c' r,
      shut_step k OWatch c s c' (inr r) ->
      istep (RS c sg f (WShut k msg s) sv n a cs res)
            (RS c' sg (keep_first f (wrap r msg)) (WDone (wrap r msg)) sv n a cs res)
  (* server_run.go:71-87: the certificate is loaded, if there is one *)
  | I_load : forall c sg f w n a cs res,
      istep (RS c sg f w SLoad n a cs res) (RS c sg f w SReady n a cs res)
  (* Serve adds the listener, under the mutex *)
  | I_register : forall c sg f w n a cs res, k_mu c = None ->
      istep (RS c sg f w SReady n a cs res)
            (RS (Core LOpen None (k_conns c) (k_lost c) (k_parent c)) sg f w SServing n a cs res)
  (* Serve returns nil when its listener was closed *)
  | I_closed : forall c sg f w n a cs res, k_ln c = LClosed ->
      istep (RS c sg f w SServing n a cs res) (RS c sg (keep_first f None) w (SDone None) n a cs res)
  (* a caller of Shutdown *)
  | I_call_add : forall c sg f w sv n a cs res i, nth_error cs i = Some CAdd ->
      istep (RS c sg f w sv n a cs res)
            (if bump n =? 1 then RS c sg f w sv (bump n) ((OCall i, true) :: a) (upd_nth i (fun _ => CShut ShLock) cs) res
             else RS c sg f w sv (bump n) ((OCall i, false) :: a) (upd_nth i (fun _ => CRet false None) cs) res)
  | I_call_shut : forall c sg f w sv n a cs res i s c' s', nth_error cs i = Some (CShut s) ->
      shut_step KBackground (OCall i) c s c' (inl s') ->
      istep (RS c sg f w sv n a cs res) (RS c' sg f w sv n a (upd_nth i (fun _ => CShut s') cs) res)
  | I_call_end : forall c sg f w sv n a cs res i s c' r, nth_error cs i = Some (CShut s) ->
      shut_step KBackground (OCall i) c s c' (inr r) ->
      istep (RS c sg f w sv n a cs res) (RS c' sg f w sv n a (upd_nth i (fun _ => CRet true r) cs) res)
  (* server_run.go:90: errGroup.Wait() *)
  | I_return : forall c sg f rw rv n a cs,
      istep (RS c sg f (WDone rw) (SDone rv) n a cs None) (RS c sg f (WDone rw) (SDone rv) n a cs (Some f))
  (* connections end once no new ones are accepted *)
  | I_drain : forall c sg f w sv n a cs res, k_conns c = true -> k_ln c <> LOpen ->
      istep (RS c sg f w sv n a cs res)
            (RS (Core (k_ln c) (k_mu c) false (k_lost c) (k_parent c)) sg f w sv n a cs res).

  (** what happens to the program *)
  Inductive estep : rs -> rs -> Prop :=
  | E_cancel : forall c sg f w sv n a cs res,
      estep (RS c sg f w sv n a cs res) (RS (Core (k_ln c) (k_mu c) (k_conns c) (k_lost c) true) sg f w sv n a cs res)
  (* the channel holds one signal, further ones are dropped *)
  | E_signal : forall c f w sv n a cs res sig,
      estep (RS c None f w sv n a cs res) (RS c (Some sig) f w sv n a cs res)
  (* server_run.go:72-75: the certificate cannot be loaded *)
  | E_load : forall c sg f w n a cs res e, tls = true ->
      estep (RS c sg f w SLoad n a cs res) (RS c sg (keep_first f (Some e)) w (SDone (Some e)) n a cs res)
  (* Serve ends by itself, with an error or (fasthttp turns the errors of Accept into io.EOF,
     and that into nil) without one *)
  | E_serve : forall c sg f w n a cs res r,
      estep (RS c sg f w SServing n a cs res) (RS c sg (keep_first f r) w (SDone r) n a cs res)
  (* connections come and go *)
  | E_conns : forall c sg f w sv n a cs res b, (b = true -> k_ln c = LOpen) ->
      estep (RS c sg f w sv n a cs res) (RS (Core (k_ln c) (k_mu c) b (k_lost c) (k_parent c)) sg f w sv n a cs res)
  (* another goroutine calls Shutdown *)
  | E_call : forall c sg f w sv n a cs res,
      estep (RS c sg f w sv n a cs res) (RS c sg f w sv n a (cs ++ [CAdd]) res).

  Definition step (s t : rs) : Prop := istep s t \/ estep s t.
  (** server_run.go:31-47: Run has a listener and an underlying server *)
  Definition start : rs := RS (Core LNone None false false false) None None WSelect SLoad 0 [] [] None.
End Run.
