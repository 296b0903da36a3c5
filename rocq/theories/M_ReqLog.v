(** Model of what the server and a request's Context do with loggers: /repo/server.go:97-121 (SetLoggerWriter,
    SetLogLevel, Debugf), /repo/server_run.go:127, 148-149 (the loggers of a request), /repo/ctx.go:66-100,
    129-147, 270-309 (NewContext, Clone, SetLogger, SetLoggerLevel, LoggerLevel, Stop, SkipMain, Abort, Debugf),
    /repo/static.go:36, 49, static_embed.go:36-37, 56, static_embed_fix.go:30-31, over the loggers of M_Logger.
    One call at a time. *)
From Verif Require Import Base GoErrors M_Logger.
Local Open Scope Z_scope.

Section ReqLog.
  Context {V : Type}.
  Variable order : forall A, list (bytes * A) -> list (bytes * A).
  Variable marshal : fields V -> option bytes.
  Variable vtrue : V.                        (* the value true *)

  (** all loggers and configurations, number 0 of the configurations being server.logConfig, and
      the logger of every Context (None: nil) *)
  Record world := World { w_log : state V; w_ctxs : list (option nat) }.
  (** server.go:44-52 New: logConfig is a new configuration *)
  Definition new_server : world := World (new_handle init new_config) [].
  Definition server_config (w : world) : config := get_config (w_log w) (nth 0 (st_handles (w_log w)) 0%nat).
  (** server.go:111-113 LogLevel, 97-99 LoggerWriter *)
  Definition log_level (w : world) : Z := cf_level (server_config w).
  Definition logger_writer (w : world) : option nat := cf_writer (server_config w).

  (** logger calls, one after the other *)
  Definition calls (w : world) (os : list (op V)) : res world :=
    match run order marshal (w_log w) os with Ok st => Ok (World st (w_ctxs w)) | Panic => Panic end.
  (** the number the next logger, and the next configuration variable, gets *)
  Definition next_logger (w : world) : nat := length (st_loggers (w_log w)).
  Definition next_config (w : world) : nat := length (st_handles (w_log w)).
  (** a method of ctx.logger: a nil pointer panics *)
  Definition on_ctx (w : world) (c : nat) (f : nat -> res world) : res world :=
    match nth_error (w_ctxs w) c with Some (Some l) => f l | _ => Panic end.

  Inductive act :=
  | SetLogLevel (lvl : Z) | SetLoggerWriter (wr : option nat)
  | ServerDebugf (now msg : bytes)             (* [msg]: what Sprintf gives *)
  | NewContext (now : bytes)
  | HandlersStart (c : nat) (now : bytes)      (* runHTTP between SesInit and the handlers *)
  | CtxClone (c : nat)
  | CtxSetLogger (c : nat) (l : option nat) | CtxSetLoggerLevel (c : nat) (lvl : Z)
  | CtxStop (c : nat) | CtxSkipMain (c : nat) | CtxAbort (c : nat)
  | CtxDebugf (c : nat) (now msg : bytes)
  | StaticRun (c : nat) (old new : bytes)      (* a static handler, before it serves the file *)
  | User (o : op V).                           (* anything user code does with loggers it has *)

  (** server.go:115-121 *)
  Definition server_debugf (w : world) (now msg : bytes) : res world :=
    if 5 <=? log_level w then calls w [New now; SetConfig (next_logger w) 0; debugf (next_logger w) msg] else Ok w.
  (** ctx.go:303-309; each Config() is a new configuration variable *)
  Definition ctx_debugf (w : world) (l : nat) (now msg : bytes) : res world :=
    match calls w [LgConfig l] with
    | Panic => Panic
    | Ok w1 =>
        if 5 <=? cf_level (get_config (w_log w1) (nth (next_config w) (st_handles (w_log w1)) 0%nat)) then
          calls w1 [New now; LgConfig l; SetConfig (next_logger w) (next_config w1); debugf (next_logger w) msg]
        else Ok w1
    end.
  (** server_run.go:148-149 *)
  Definition handlers_start (w : world) (c : nat) (now : bytes) : res world :=
    match calls w [New now; SetConfig (next_logger w) 0] with
    | Panic => Panic
    | Ok w1 => calls (World (w_log w1) (upd_nth c (fun _ => Some (next_logger w)) (w_ctxs w1)))
                     [SetLevel (next_logger w) (log_level w1)]
    end.
  Definition step (w : world) (a : act) : res world :=
    match a with
    | SetLogLevel lvl => calls w [CfgLevel 0 lvl]                                          (* server.go:106-109 *)
    | SetLoggerWriter wr => calls w [CfgWriter 0 wr]                                       (* server.go:101-104 *)
    | ServerDebugf now msg => server_debugf w now msg
    | NewContext now =>                                                                    (* ctx.go:66-85 *)
        match calls w [New now] with
        | Ok w1 => Ok (World (w_log w1) (w_ctxs w1 ++ [Some (next_logger w)]))
        | Panic => Panic
        end
    | HandlersStart c now => if (c <? length (w_ctxs w))%nat then handlers_start w c now else Panic
    | CtxClone c =>                                                                        (* ctx.go:87-100: no logger *)
        if (c <? length (w_ctxs w))%nat then Ok (World (w_log w) (w_ctxs w ++ [None])) else Panic
    | CtxSetLogger c l =>                                                                  (* ctx.go:129-133 *)
        if (c <? length (w_ctxs w))%nat then Ok (World (w_log w) (upd_nth c (fun _ => l) (w_ctxs w))) else Panic
    | CtxSetLoggerLevel c lvl => on_ctx w c (fun l => calls w [SetLevel l lvl])            (* ctx.go:139-143 *)
    | CtxStop c => on_ctx w c (fun l => calls w [AddDebug l (B"is_stopped") (FAny vtrue)])           (* ctx.go:270-275 *)
    | CtxSkipMain c => on_ctx w c (fun l => calls w [AddDebug l (B"is_skipped_main") (FAny vtrue)])  (* ctx.go:278-283 *)
    | CtxAbort c => on_ctx w c (fun l => calls w [AddDebug l (B"is_aborted") (FAny vtrue)])          (* ctx.go:286-293 *)
    | CtxDebugf c now msg => on_ctx w c (fun l => ctx_debugf w l now msg)
    | StaticRun c old new =>                                                               (* static.go:36, static_embed.go:36-37, static_embed_fix.go:30-31 *)
        on_ctx w c (fun l => calls w [AddDebug l (B"url_path_income") (FStr old); AddDebug l (B"url_path_internal") (FStr new)])
    | User o => calls w [o]
    end.
  Fixpoint acts_from (w : world) (l : list act) : res world :=
    match l with
    | [] => Ok w
    | a :: l' => match step w a with Ok w' => acts_from w' l' | Panic => Panic end
    end.
End ReqLog.
Arguments world V : clear implicits.
Arguments act V : clear implicits.
(** static.go:49, static_embed.go:56: the message of the record a mount writes *)
Definition mount_message (file url : bytes) : bytes :=
  B"static_file sets prefix: from '" ++ url ++ B"' to '" ++ file ++ B"'".
