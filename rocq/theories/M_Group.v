(** Model of one request with the goroutines its handlers start: Server.runHTTP
    (/repo/server_run.go:135-167), HandlerSet.Run and RunLast (/repo/top_handler.go:24-81), the
    EG methods, Ctx, Stop, SkipMain and Abort of Context (/repo/ctx.go:66-85, 113-115, 270-301,
    377-391).  Handlers and the functions given to EGGo are programs that run at the same time.
    Environment: context.WithCancel, errgroup v0.10.0 (Go, TryGo, SetLimit, Wait, with its
    semaphore), fasthttp.RequestCtx as the parent context (done when the server shuts down).
    Simplifications: every access is atomic (races: C103); an unrecovered panic ends the
    process; a goroutine that waits for its token when the limit is replaced goes on with the
    new semaphore (in errgroup it would wait for the old one); what handlers do besides is in
    M_Serve. *)
From Verif Require Import Base GoErrors M_Pipeline.

Record flags := Flags { f_stopped : bool; f_aborted : bool; f_skip : bool }.
Inductive act := DoStop | DoAbort | DoSkip.
(** points of runHTTP *)
Inductive mark :=
| MStart (w : who) | MEnd (w : who) (o : outcome)     (* a handler is called, and has ended *)
| MReturn (r : rout).                                 (* runHTTP ends: server_run.go:136, deferred cancel *)
Inductive prog :=
| Ret (o : outcome)
| Mark (m : mark) (k : prog)
| Act (a : act) (k : prog)                            (* ctx.go:270-293 *)
| Look (k : flags -> prog)                            (* ctx.go:295-301 *)
| Done (k : bool -> prog)                             (* Ctx().Err() != nil *)
| Await (k : prog)                                    (* <-Ctx().Done() *)
| Go (body k : prog)                                  (* ctx.go:381-383 EGGo *)
| TryGo (body : prog) (k : bool -> prog)              (* ctx.go:385-387 EGTryGo *)
| Limit (n : Z) (k : prog)                            (* ctx.go:389-391 EGSetLimit *)
| Wait (k : option err -> prog).                      (* ctx.go:377-379 EGWait *)

(** [p], then [f] with what it returned *)
Fixpoint bind (p : prog) (f : outcome -> prog) : prog :=
  match p with
  | Ret o => f o
  | Mark m k => Mark m (bind k f)
  | Act a k => Act a (bind k f)
  | Look k => Look (fun x => bind (k x) f)
  | Done k => Done (fun x => bind (k x) f)
  | Await k => Await (bind k f)
  | Go b k => Go b (bind k f)
  | TryGo b k => TryGo b (fun x => bind (k x) f)
  | Limit n k => Limit n (bind k f)
  | Wait k => Wait (fun x => bind (k x) f)
  end.

(** handler.go:3-19, top_handler.go:5-14 *)
Record gset := GSet {
  gs_before : list prog; gs_after : list prog;
  gs_last : option (option err -> prog);
  gs_main : option (prog * prog)                      (* Init, Run *)
}.
Definition call (w : who) (p : prog) (k : outcome -> prog) : prog :=
  Mark (MStart w) (bind p (fun o => Mark (MEnd w o) (k o))).
(** after a handler: error, then Stopped (top_handler.go:37-43, 48-54, 60-66) *)
Definition checked (k : rout -> prog) (cont : prog) (o : outcome) : prog :=
  match o with
  | HPanic => k RPanic
  | HRet (Some e) => k (RRet (Some e))
  | HRet None => Look (fun f => if f_aborted f || f_stopped f then k (RRet None) else cont)
  end.
(** top_handler.go:34-44, 57-67 *)
Fixpoint list_run (mkw : nat -> who) (i : nat) (hs : list prog) (k : rout -> prog) (cont : prog) : prog :=
  match hs with
  | [] => cont
  | h :: hs' => call (mkw i) h (checked k (list_run mkw (S i) hs' k cont))
  end.
(** top_handler.go:24-70 Run *)
Definition set_run (s : gset) (k : rout -> prog) : prog :=
  match gs_main s with
  | None => k RPanic
  | Some (init, main) =>
      call WInit init (fun o =>
        match o with
        | HPanic => k RPanic
        | HRet (Some e) => k (RRet (Some e))
        | HRet None =>
            list_run WBefore 0 (gs_before s) k
              (Look (fun f =>
                 let rest := list_run WAfter 0 (gs_after s) k (k (RRet None)) in
                 if f_skip f then rest else call WMain main (checked k rest)))
        end)
  end.
Definition return_ (r : rout) : prog := Mark (MReturn r) (Ret (match r with RPanic => HPanic | RRet e => HRet e end)).
(** server_run.go:153-166, top_handler.go:72-81 *)
Definition body (s : gset) : prog :=
  set_run s (fun r =>
    match r with
    | RPanic => return_ RPanic
    | RRet e =>
        Look (fun f =>
          if f_aborted f then return_ (RRet e)
          else Wait (fun eg =>
                 match gs_last s with
                 | None => return_ (RRet (combine_err e eg))
                 | Some l => call (WLast (combine_err e eg)) (l (combine_err e eg))
                               (fun o => return_ (match o with HPanic => RPanic | HRet e' => RRet e' end))
                 end))
    end).
(** server_run.go:135-167, from NewContext on; [ses]: the SesInit function *)
Definition request (s : gset) (ses : option prog) (path : bytes) : prog :=
  match ses with
  | None => body s
  | Some p => call WSesInit p (fun o =>
      match o with
      | HPanic => return_ RPanic
      | HRet (Some e) => return_ (RRet (new_err (B"path '" ++ path ++ B"': " ++ err_text e)))
      | HRet None => body s
      end)
  end.

(** ** Shared state *)
Record shared := Sh {
  h_flags : flags;
  h_cancelled : bool;               (* the context of NewContext, ctx.go:67 *)
  h_group : bool;                   (* the group's context, ctx.go:68 *)
  h_server : bool;                  (* its parent: the server shuts down *)
  h_err : option err;               (* errgroup: the error kept *)
  h_sem : option (nat * nat);       (* errgroup: capacity and tokens of the semaphore *)
  h_crashed : bool
}.
(** ctx.go:66-85 NewContext *)
Definition sh0 : shared := Sh (Flags false false false) false false false None None false.
(** Ctx().Done() is closed *)
Definition ctx_done (h : shared) : bool := h_cancelled h || h_group h || h_server h.
Definition set_flags (f : flags) (h : shared) := Sh f (h_cancelled h) (h_group h) (h_server h) (h_err h) (h_sem h) (h_crashed h).
Definition set_cancel (h : shared) := Sh (h_flags h) true (h_group h) (h_server h) (h_err h) (h_sem h) (h_crashed h).
Definition set_group (e : option err) (h : shared) := Sh (h_flags h) (h_cancelled h) true (h_server h) e (h_sem h) (h_crashed h).
Definition set_sem (m : option (nat * nat)) (h : shared) := Sh (h_flags h) (h_cancelled h) (h_group h) (h_server h) (h_err h) m (h_crashed h).
Definition set_server (h : shared) := Sh (h_flags h) (h_cancelled h) (h_group h) true (h_err h) (h_sem h) (h_crashed h).
Definition crash (h : shared) := Sh (h_flags h) (h_cancelled h) (h_group h) (h_server h) (h_err h) (h_sem h) true.
Definition do_act (a : act) (h : shared) : shared :=
  let f := h_flags h in
  match a with
  | DoStop => set_flags (Flags true (f_aborted f) (f_skip f)) h                     (* ctx.go:270-275 *)
  | DoAbort => set_cancel (set_flags (Flags (f_stopped f) true (f_skip f)) h)       (* ctx.go:286-293 *)
  | DoSkip => set_flags (Flags (f_stopped f) (f_aborted f) true) h                  (* ctx.go:278-283 *)
  end.
Definition do_mark (m : mark) (h : shared) : shared :=
  match m with
  | MReturn RPanic => crash (set_cancel h)
  | MReturn _ => set_cancel h
  | _ => h
  end.

(** ** What happens, with who does it: None the request itself, Some i a goroutine *)
Inductive event :=
| EMark (m : mark) | EAct (a : act) | ELook (f : flags) | ESaw (done : bool) | EWoken
| EGo | ERefused                       (* a goroutine is started; TryGo returned false *)
| ELimit (n : Z) | EWaited (r : option err)
| EReturned (r : option err)           (* the function given to EGGo returned *)
| EGone                                (* the goroutine has left the group *)
| EShutdown | EPanic.
Inductive gor := Run (p : prog) | Leaving | Ended.
Definition active (g : gor) : bool := match g with Ended => false | _ => true end.

(** one operation of a program; [idle]: no goroutine is active.  What is started; the rest *)
Inductive pstep (idle : bool) : shared -> prog -> event -> shared -> option prog -> prog -> Prop :=
| P_mark : forall h m k, pstep idle h (Mark m k) (EMark m) (do_mark m h) None k
| P_act : forall h a k, pstep idle h (Act a k) (EAct a) (do_act a h) None k
| P_look : forall h k, pstep idle h (Look k) (ELook (h_flags h)) h None (k (h_flags h))
| P_done : forall h k, pstep idle h (Done k) (ESaw (ctx_done h)) h None (k (ctx_done h))
| P_await : forall h k, ctx_done h = true -> pstep idle h (Await k) EWoken h None k
| P_go : forall h b k, h_sem h = None -> pstep idle h (Go b k) EGo h (Some b) k
| P_go_token : forall h b k cap n, h_sem h = Some (cap, n) -> n < cap ->
    pstep idle h (Go b k) EGo (set_sem (Some (cap, S n)) h) (Some b) k
| P_try : forall h b k, h_sem h = None -> pstep idle h (TryGo b k) EGo h (Some b) (k true)
| P_try_token : forall h b k cap n, h_sem h = Some (cap, n) -> n < cap ->
    pstep idle h (TryGo b k) EGo (set_sem (Some (cap, S n)) h) (Some b) (k true)
| P_try_full : forall h b k cap n, h_sem h = Some (cap, n) -> cap <= n -> pstep idle h (TryGo b k) ERefused h None (k false)
| P_unlimit : forall h z k, (z < 0)%Z -> pstep idle h (Limit z k) (ELimit z) (set_sem None h) None k
| P_limit : forall h z k, (0 <= z)%Z -> (forall cap n, h_sem h = Some (cap, n) -> n = 0) ->
    pstep idle h (Limit z k) (ELimit z) (set_sem (Some (Z.to_nat z, 0)) h) None k
| P_limit_panic : forall h z k cap n, (0 <= z)%Z -> h_sem h = Some (cap, S n) ->
    pstep idle h (Limit z k) EPanic (crash h) None k
| P_wait : forall h k, idle = true -> pstep idle h (Wait k) (EWaited (h_err h)) (set_group (h_err h) h) None (k (h_err h)).

(** ** The system *)
Record sys := Sys { y_sh : shared; y_main : prog; y_gos : list gor; y_trace : list (option nat * event) (* latest first *) }.
Definition init (s : gset) (ses : option prog) (path : bytes) : sys := Sys sh0 (request s ses path) [] [].
Definition add (o : option prog) (l : list gor) : list gor := match o with Some p => l ++ [Run p] | None => l end.
(** errgroup: errOnce *)
Definition record_err (e : option err) (h : shared) : shared :=
  match e with
  | Some _ => match h_err h with None => set_group e h | Some _ => h end
  | None => h
  end.
Inductive step : sys -> sys -> Prop :=
| S_main : forall h p gs tr e h' o p', h_crashed h = false ->
    pstep (forallb (fun g => negb (active g)) gs) h p e h' o p' ->
    step (Sys h p gs tr) (Sys h' p' (add o gs) ((None, e) :: tr))
| S_go : forall h p g1 q g2 tr e h' o q', h_crashed h = false ->
    pstep false h q e h' o q' ->
    step (Sys h p (g1 ++ Run q :: g2) tr) (Sys h' p (add o (g1 ++ Run q' :: g2)) ((Some (length g1), e) :: tr))
| S_returned : forall h p g1 g2 tr e, h_crashed h = false ->
    step (Sys h p (g1 ++ Run (Ret (HRet e)) :: g2) tr)
         (Sys (record_err e h) p (g1 ++ Leaving :: g2) ((Some (length g1), EReturned e) :: tr))
| S_panic : forall h p g1 g2 tr, h_crashed h = false ->
    step (Sys h p (g1 ++ Run (Ret HPanic) :: g2) tr)
         (Sys (crash h) p (g1 ++ Run (Ret HPanic) :: g2) ((Some (length g1), EPanic) :: tr))
| S_gone : forall h p g1 g2 tr, h_crashed h = false -> h_sem h = None ->
    step (Sys h p (g1 ++ Leaving :: g2) tr) (Sys h p (g1 ++ Ended :: g2) ((Some (length g1), EGone) :: tr))
| S_gone_token : forall h p g1 g2 tr cap n, h_crashed h = false -> h_sem h = Some (cap, S n) ->
    step (Sys h p (g1 ++ Leaving :: g2) tr)
         (Sys (set_sem (Some (cap, n)) h) p (g1 ++ Ended :: g2) ((Some (length g1), EGone) :: tr))
| S_shutdown : forall h p gs tr, h_crashed h = false -> h_server h = false ->
    step (Sys h p gs tr) (Sys (set_server h) p gs ((None, EShutdown) :: tr)).
Inductive reach (y0 : sys) : sys -> Prop :=
| reach_start : reach y0 y0
| reach_step : forall y y', reach y0 y -> step y y' -> reach y0 y'.
