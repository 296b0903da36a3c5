(** Model of a Server used more than once: /repo/server_run.go:22-107 (Run, Shutdown),
    /repo/server.go:58-95 (SetServer, SetListener, SetServerTLS, SetShutdownTimeOut) over the
    transition system of one Run in M_Run.  Environment: as there; a fasthttp server forgets its
    listeners when a shutdown has closed them, and Serve on a closed listener accepts nothing.
    Simplifications: one Run at a time; setters are called, and Run is started, only while no
    Run and no call of Shutdown is under way. *)
From Verif Require Import Base GoErrors GoInt M_Run.
Local Open Scope Z_scope.

(** server.listener: closed by a shutdown (or given closed), number of TLS layers around it *)
Record ln := Ln { ln_closed : bool; ln_layers : nat }.
Record life := Life {
  l_srv : bool;                 (* server.srv is not nil *)
  l_ln : option ln;             (* server.listener *)
  l_timeout : bool;             (* server.shutdownTimeOut > 0 *)
  l_cert : bytes; l_key : bytes;
  l_rs : rs;                    (* the Run under way, or the last one *)
  l_panics : list nat           (* history: calls of Shutdown that panicked *)
}.
(** server_run.go:71 *)
Definition with_tls (l : life) : bool := negb (is_empty (l_cert l)) && negb (is_empty (l_key l)).

(** ** Run, server_run.go:22-47 *)
Definition idle (l : life) : Prop :=
  r_result (l_rs l) <> None /\ forall x, In x (r_callers (l_rs l)) -> exists b r, x = CRet b r.
(** the state of one Run when it starts on a used server: counter and calls of Shutdown are
    kept, listeners that were shut down forgotten *)
Definition start_run (s : rs) : rs :=
  RS (Core (match k_ln (r_core s) with LOpen => LOpen | _ => LNone end) (k_mu (r_core s)) (k_conns (r_core s)) false false)
     None None WSelect SLoad (r_counter s) (r_adds s) (r_callers s) None.
(** server_run.go:23-30: an existing listener is kept *)
Definition listen (l : option ln) : ln := match l with Some x => x | None => Ln false 0 end.

(** ** What one step of the current Run does to the listener *)
Definition ln_step (tls : bool) (s t : rs) (l : option ln) : option ln :=
  match l with
  | None => None
  | Some x =>
      let x := match k_ln (r_core s), k_ln (r_core t) with LOpen, LClosed => Ln true (ln_layers x) | _, _ => x end in
      Some match r_serve s, r_serve t with
           | SLoad, SReady => if tls then Ln (ln_closed x) (S (ln_layers x)) else x     (* server_run.go:84 *)
           | _, _ => x
           end
  end.

Inductive lstep : life -> life -> Prop :=
(** a step of the Run under way, or of calls of Shutdown; the underlying server must exist for
    those that get there, and a closed listener accepts nothing *)
| L_step : forall l t, step (l_timeout l) (with_tls l) (l_rs l) t ->
    (r_counter t <> r_counter (l_rs l) -> r_counter t = 1 -> l_srv l = true) ->
    (k_conns (r_core t) = true -> k_conns (r_core (l_rs l)) = true \/ exists x, l_ln l = Some x /\ ln_closed x = false) ->
    lstep l (Life (l_srv l) (ln_step (with_tls l) (l_rs l) t (l_ln l)) (l_timeout l) (l_cert l) (l_key l) t (l_panics l))
(** server_run.go:102-106: Shutdown without an underlying server: the counter, then a nil pointer *)
| L_panic : forall l i, l_srv l = false -> nth_error (r_callers (l_rs l)) i = Some CAdd -> bump (r_counter (l_rs l)) = 1 ->
    lstep l (Life (l_srv l) (l_ln l) (l_timeout l) (l_cert l) (l_key l)
               (let s := l_rs l in RS (r_core s) (r_signal s) (r_first s) (r_watch s) (r_serve s) (bump (r_counter s))
                  ((OCall i, true) :: r_adds s) (upd_nth i (fun _ => CRet true None) (r_callers s)) (r_result s))
               (i :: l_panics l))
(** Run *)
| L_run : forall l, idle l ->
    lstep l (Life true (Some (listen (l_ln l))) (l_timeout l) (l_cert l) (l_key l) (start_run (l_rs l)) (l_panics l))
(** setters *)
| L_set_server : forall l b, idle l ->
    lstep l (Life b (l_ln l) (l_timeout l) (l_cert l) (l_key l)
               (let s := l_rs l in RS (Core LNone None false (k_lost (r_core s)) (k_parent (r_core s))) (r_signal s) (r_first s)
                  (r_watch s) (r_serve s) (r_counter s) (r_adds s) (r_callers s) (r_result s)) (l_panics l))
| L_set_listener : forall l x, idle l ->
    lstep l (Life (l_srv l) x (l_timeout l) (l_cert l) (l_key l) (l_rs l) (l_panics l))
| L_set_timeout : forall l b, idle l -> lstep l (Life (l_srv l) (l_ln l) b (l_cert l) (l_key l) (l_rs l) (l_panics l))
| L_set_tls : forall l c k, idle l -> lstep l (Life (l_srv l) (l_ln l) (l_timeout l) c k (l_rs l) (l_panics l)).
(** server.go:44-52: New *)
Definition new_server : life :=
  Life false None false [] []
    (RS (Core LNone None false false false) None None (WDone None) (SDone None) 0 [] [] (Some None)) [].
