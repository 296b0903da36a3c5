(** Model of the request pipeline: HandlerSet.Run / RunLast
    (/repo/top_handler.go:24-81), the control part of Context (/repo/ctx.go) and
    Server.runHTTP (/repo/server_run.go:123-167). *)
From Verif Require Import Base GoErrors.

(** ctx.go:39-64 Context, the fields that steer the pipeline.  [c_level] is the
    level of the context's logger, [c_tasks] the results of the functions handed
    to EGGo so far, [c_cancelled] the state of Ctx() as far as it is decided by
    the handlers' own calls (the cancellation caused by a failing goroutine comes
    at an arbitrary moment and is not represented in this flag). *)
Record ctx := Ctx {
  c_stopped : bool;
  c_aborted : bool;
  c_skip : bool;
  c_cancelled : bool;
  c_level : Z;
  c_log : list bytes;                 (* handleDebugPipeline *)
  c_tasks : list (option err)
}.

(** ctx.go:66-85 NewContext: the default logger level is Debug (config.go:35) *)
Definition new_ctx : ctx := Ctx false false false false 5 [] [].

(** What a handler may do to the context while it runs. *)
Inductive action :=
| AStop                               (* ctx.go:270-275 Stop *)
| AAbort                              (* ctx.go:286-293 Abort *)
| ASkipMain                           (* ctx.go:278-283 SkipMain *)
| AGo (result : option err)           (* ctx.go:381-383 EGGo *)
| ASetLevel (l : Z).                  (* ctx.go:139-143 SetLoggerLevel *)

Definition apply1 (c : ctx) (a : action) : ctx :=
  match a with
  | AStop => Ctx true (c_aborted c) (c_skip c) (c_cancelled c) (c_level c) (c_log c) (c_tasks c)
  | AAbort => Ctx (c_stopped c) true (c_skip c) true (c_level c) (c_log c) (c_tasks c)
  | ASkipMain => Ctx (c_stopped c) (c_aborted c) true (c_cancelled c) (c_level c) (c_log c) (c_tasks c)
  | AGo r => Ctx (c_stopped c) (c_aborted c) (c_skip c) (c_cancelled c) (c_level c) (c_log c)
                 (c_tasks c ++ [r])
  | ASetLevel l => Ctx (c_stopped c) (c_aborted c) (c_skip c) (c_cancelled c) l (c_log c) (c_tasks c)
  end.
Definition apply (c : ctx) (acts : list action) : ctx := fold_left apply1 acts c.

(** ctx.go:299-301 Stopped *)
Definition stopped (c : ctx) : bool := c_aborted c || c_stopped c.

(** ctx.go:407-413 AddDebugHandleName; logger.go:98-100 IsDebug *)
Definition add_debug (c : ctx) (name : bytes) : ctx :=
  if (5 <=? c_level c)%Z
  then Ctx (c_stopped c) (c_aborted c) (c_skip c) (c_cancelled c) (c_level c)
           (c_log c ++ [name]) (c_tasks c)
  else c.

(** How a call of user code ends. *)
Inductive outcome := HRet (e : option err) | HPanic.
(** Behaviour of one call: the context operations it performs, then its end. *)
Definition beh := (list action * outcome)%type.

(** handler.go:3-19: the three interfaces *)
Record handler := Handler { h_name : bytes; h_run : ctx -> beh }.
Record main_handler := Main { m_name : bytes; m_init : ctx -> beh; m_run : ctx -> beh }.
Record last_handler := Last { l_name : bytes; l_run : ctx -> option err -> beh }.

(** top_handler.go:5-14 HandlerSet *)
Record hset := HSet {
  hs_before : list handler;
  hs_after : list handler;
  hs_last : option last_handler;
  hs_main : option main_handler
}.

(** Who was called, with which context, what it did and how it ended. *)
Inductive who :=
| WInit | WBefore (i : nat) | WMain | WAfter (i : nat)
| WSesInit | WWait | WLast (e : option err).
Record call := Call { k_who : who; k_name : bytes; k_seen : ctx; k_acts : list action; k_out : outcome }.

(** Result of Run. *)
Inductive rout := RRet (e : option err) | RPanic.
(** Control state between two handlers. *)
Inductive ctl := Continue | Finish (r : rout).

Definition run1 (w : who) (name : bytes) (b : ctx -> beh) (c : ctx) : call * ctx :=
  let c1 := add_debug c name in
  let '(acts, out) := b c1 in
  (Call w name c1 acts out, apply c1 acts).

Definition after_call (checkStop : bool) (k : call) (c : ctx) : ctl :=
  match k_out k with
  | HPanic => Finish RPanic
  | HRet (Some e) => Finish (RRet (Some e))
  | HRet None => if checkStop && stopped c then Finish (RRet None) else Continue
  end.

(** top_handler.go:34-44 and 57-67: the loops over set.before and set.after *)
Fixpoint run_list (mkw : nat -> who) (i : nat) (hs : list handler) (c : ctx)
  : list call * ctx * ctl :=
  match hs with
  | [] => ([], c, Continue)
  | h :: hs' =>
      let '(k, c1) := run1 (mkw i) (h_name h) (h_run h) c in
      match after_call true k c1 with
      | Finish r => ([k], c1, Finish r)
      | Continue => let '(ks, c2, r) := run_list mkw (S i) hs' c1 in (k :: ks, c2, r)
      end
  end.

(** top_handler.go:24-70 Run; [hs_main] = None is the nil interface, whose
    method call panics (line 29) *)
Definition run_set (s : hset) (c : ctx) : list call * ctx * rout :=
  match hs_main s with
  | None => ([], c, RPanic)
  | Some m =>
      let '(k0, c0) := run1 WInit (m_name m) (m_init m) c in
      match after_call false k0 c0 with                          (* 30-32: Stopped is not tested *)
      | Finish r => ([k0], c0, r)
      | Continue =>
          match run_list WBefore 0 (hs_before s) c0 with
          | (kb, c1, Finish r) => (k0 :: kb, c1, r)
          | (kb, c1, Continue) =>
              let '(km, c2, rm) :=
                if c_skip c1 then ([], c1, Continue)             (* 46 *)
                else let '(k, c2) := run1 WMain (m_name m) (m_run m) c1 in
                     ([k], c2, after_call true k c2) in
              match rm with
              | Finish r => (k0 :: kb ++ km, c2, r)
              | Continue =>
                  match run_list WAfter 0 (hs_after s) c2 with
                  | (ka, c3, Finish r) => (k0 :: kb ++ km ++ ka, c3, r)
                  | (ka, c3, Continue) => (k0 :: kb ++ km ++ ka, c3, RRet None)
                  end
              end
          end
      end
  end.

(** golang.org/x/sync/errgroup (environment): Wait returns the error of the
    goroutine that failed first; [finished] lists the results in the order in
    which the goroutines ended. *)
Fixpoint first_error (finished : list (option err)) : option err :=
  match finished with
  | [] => None
  | Some e :: _ => Some e
  | None :: l => first_error l
  end.

(** ctx.go:377-379 EGWait: Wait also cancels the group's context, which is Ctx()
    (ctx.go:68, 72) *)
Definition eg_wait (sched : list (option err) -> list (option err)) (c : ctx)
  : option err * ctx :=
  (first_error (sched (c_tasks c)),
   Ctx (c_stopped c) (c_aborted c) (c_skip c) true (c_level c) (c_log c) (c_tasks c)).

(** top_handler.go:72-81 RunLast *)
Definition run_last (s : hset) (c : ctx) (e : option err) : list call * ctx * rout :=
  match hs_last s with
  | None => ([], c, RRet e)
  | Some l =>
      let '(acts, out) := l_run l c e in
      ([Call (WLast e) (l_name l) c acts out], apply c acts,
       match out with HRet e' => RRet e' | HPanic => RPanic end)
  end.

(** server_run.go:158-162: combining the pipeline's error and the goroutines' *)
Definition combine_err (e eg : option err) : option err :=
  match e with
  | None => eg
  | Some _ => match eg with Some x => wrap e (err_text x) | None => e end
  end.

(** Observable result of a request. *)
Record http := Http {
  x_calls : list call;
  x_status : option N;          (* status set by the router itself *)
  x_result : rout;              (* what runHTTP returns, or a panic *)
  x_ctx : ctx
}.

(** errors.New(...): a fresh error *)
Definition new_err (text : bytes) : option err := Some (EUser 0 text).

(** server_run.go:123-167 runHTTP.  [found] is the result of Server.Find for the
    request, [ses] the SesInit function, [lvl] the server's log level, [sched] the
    completion order of the goroutines.  NewContext never fails (ctx.go:84), so
    lines 137-140 are dead.  The context's logger is replaced after SesInit
    (line 151): its level becomes [lvl]. *)
Definition run_http (found : option hset) (ses : option (ctx -> beh)) (path : bytes) (lvl : Z)
           (sched : list (option err) -> list (option err)) : http :=
  match found with
  | None => Http [] (Some 404%N) (RRet (new_err (B"path '" ++ path ++ B"' not found"))) new_ctx
  | Some s =>
      let '(ki, c0, go) :=
        match ses with
        | None => ([], new_ctx, Continue)
        | Some f =>
            let '(acts, out) := f new_ctx in
            let c := apply new_ctx acts in
            ([Call WSesInit [] new_ctx acts out], c,
             match out with
             | HPanic => Finish RPanic
             | HRet (Some e) =>
                 Finish (RRet (new_err (B"path '" ++ path ++ B"': " ++ err_text e)))
             | HRet None => Continue
             end)
        end in
      match go with
      | Finish r => Http ki None r c0
      | Continue =>
          let c1 := Ctx (c_stopped c0) (c_aborted c0) (c_skip c0) (c_cancelled c0) lvl
                        (c_log c0) (c_tasks c0) in
          match run_set s c1 with
          | (ks, c2, RPanic) => Http (ki ++ ks) None RPanic c2
          | (ks, c2, RRet e) =>
              if c_aborted c2 then Http (ki ++ ks) None (RRet e) c2        (* 154-156 *)
              else
                let '(eg, c3) := eg_wait sched c2 in
                let kw := Call WWait [] c2 [] (HRet eg) in
                let '(kl, c4, r) := run_last s c3 (combine_err e eg) in
                Http (ki ++ ks ++ [kw] ++ kl) None r c4
          end
      end
  end.
