(** The accesses of the methods of Logger, Config, Context, BaseAuth and Server to shared
    state and the mutexes they hold: /repo/logger/logger.go, out.go, fields.go,
    config/config.go, ctx.go, baseauth.go, server.go, server_run.go.
    One Logger [l] (with its own Config, which is never handed out: Config() clones), one
    Config [cf] shared by the program (the server's logConfig), one Context, one Server with
    its BaseAuth.  Values made by a call and not yet stored are not listed; neither are the
    route tables (M_Race) and handler sets. *)
From Verif Require Import Base.

(** sync.RWMutex values; these types only use Lock and Unlock *)
Inductive lock :=
| KLogger        (* l.RWMutex, logger.go:15 *)
| KConfig        (* l.config.RWMutex, config.go:22 *)
| KShared.       (* cf.RWMutex *)
Inductive loc :=
(* logger.go:14-20: l.config, l.err, l.Fields, and the contents of that map *)
| GConfig | GErr | GFields | GMap
(* config.go:21-27: level, writer, contents of FieldsKeys, of l.config and of cf *)
| CLevel | CWriter | CKeys | SLevel | SWriter | SKeys
(* server.go:19-42 *)
| VAuth | VInit | VCtx | VSrv | VName | VListener | VCert | VKey | VTimeout
(* baseauth.go:24-33 *)
| AUse | AMessage | ACharset | AHeader | ARoles | ALogFlag | ALogFunc | ACheck
(* ctx.go:39-64; the parameter object; the parsed query, form and cookies; the response *)
| XData | XStopped | XAborted | XSkip | XSame | XLogger | XPipe | XSem
| XUrlIds | XQuery | XForm | XCookies | XBody | XHeader.
Inductive instr := Lk (k : lock) | Ul (k : lock) | Rd (l : loc) | Wr (l : loc).
Definition trace := list instr.
Definition guarded (k : lock) (t : trace) : trace := Lk k :: t ++ [Ul k].

(** ** Methods of a Config: config.go:46-125; the traces a call can have *)
Inductive cmethod := CfClone | CfCurrentKey | CfLevel | CfWriter | CfSetWriter | CfStdKeys | CfSetLevel.
Definition config_traces (own : bool) (m : cmethod) : list trace :=
  let '(k, lv, wr, ks) := if own then (KConfig, CLevel, CWriter, CKeys) else (KShared, SLevel, SWriter, SKeys) in
  match m with
  | CfClone => [guarded k [Rd wr; Rd lv; Rd ks]]                       (* 46-61 *)
  | CfCurrentKey => [[Rd ks]]                                          (* 63-69 *)
  | CfLevel => [[Rd lv]]                                               (* 71-73 *)
  | CfWriter => [[Rd wr]]                                              (* 75-77 *)
  | CfSetWriter => [guarded k [Wr wr]]                                 (* 79-85 *)
  | CfStdKeys => [[]; guarded k [Rd ks]; guarded k [Rd ks; Wr ks]]     (* 87-102: empty, unknown, known *)
  | CfSetLevel => [guarded k [Wr lv]]                                  (* 119-125 *)
  end.

(** every combination of a trace of each *)
Fixpoint seqs (l : list (list trace)) : list trace :=
  match l with
  | [] => [[]]
  | ts :: l' => flat_map (fun t => map (app t) (seqs l')) ts
  end.
Definition on_config (m : cmethod) : list trace := map (cons (Rd GConfig)) (config_traces true m).
Definition acts (t : trace) : list trace := [t].

(** ** Methods of a Logger *)
Inductive lmethod :=
| LSetConfig | LConfig | LClone | LAdd | LAddDebug | LMerge | LWriter | LIsDebug | LLevel | LSetLevel
| LStdKeys       (* and LevelKey, ErrorMessageKey, MessageKey *)
| LError | LLog
| LLogf.         (* and Tracef .. Fatalf *)
Definition log_quiet : list trace := seqs [on_config CfLevel].                              (* out.go:12-14 *)
Definition log_loud : list trace :=                                                         (* out.go:12-32 *)
  seqs [on_config CfLevel; on_config CfCurrentKey; on_config CfCurrentKey; acts [Lk KLogger];
        acts [Rd GFields]; on_config CfLevel; acts [Wr GMap; Rd GErr; Rd GFields; Wr GMap];
        on_config CfWriter; acts [Rd GFields; Rd GMap]; acts [Ul KLogger]].
Definition logger_traces (m : lmethod) : list trace :=
  match m with
  | LSetConfig => seqs [config_traces false CfClone; acts (guarded KLogger [Wr GConfig])]   (* logger.go:33-41 *)
  | LConfig => map (guarded KLogger) (on_config CfClone)                                    (* 43-48 *)
  | LClone => seqs [on_config CfClone; acts (guarded KLogger [Rd GFields; Rd GMap])]        (* 50-64 *)
  | LAdd => acts (guarded KLogger [Rd GFields; Wr GMap])                                    (* 66-72 *)
  | LAddDebug => map (guarded KLogger)                                                      (* 74-83 *)
                   (on_config CfLevel ++ seqs [on_config CfLevel; acts [Rd GFields; Wr GMap]])
  | LMerge => [guarded KLogger [Rd GFields; Wr GFields];                                    (* 85-91, fields.go:28-34 *)
               guarded KLogger [Rd GFields; Wr GMap; Wr GFields]]
  | LWriter => on_config CfSetWriter                                                        (* 93-96 *)
  | LIsDebug => on_config CfLevel                                                           (* 98-100 *)
  | LLevel => on_config CfLevel                                                             (* 102-104 *)
  | LSetLevel => on_config CfSetLevel                                                       (* 106-109 *)
  | LStdKeys => on_config CfStdKeys ++                                                      (* 111-126 *)
                seqs [acts (Rd GConfig :: guarded KConfig [Rd CKeys; Wr CKeys]);
                      [guarded KLogger [Rd GFields; Rd GMap]; guarded KLogger [Rd GFields; Rd GMap; Wr GMap]]]
  | LError => [[]; guarded KLogger [Rd GErr; Wr GErr]]                                      (* 140-155 *)
  | LLog => log_quiet ++ log_loud
  | LLogf => log_quiet ++                                                                    (* out.go:34-41, fields.go:23-26 *)
             seqs [log_quiet; acts [Rd GFields; Wr GMap; Wr GFields]; log_quiet ++ log_loud]
  end.

(** ** Methods of a Context (ctx.go), used while its logger is [l].
    Environment (fasthttp): QueryArgs, PostArgs and the cookies of a request are parsed into
    the request at the first use; AppendBody and Header.SetCookie change the response;
    errgroup.Go and TryGo read the limit that SetLimit replaces and synchronise the rest;
    context.CancelFunc is safe. *)
Inductive xmethod :=
| XClone | XCtx | XWrite | XSetLogger | XGetLogger | XSetLoggerLevel | XLoggerLevel
| XUrlAdd        (* UrlIds().Add *)
| XCookieGet
| XPeekParam     (* and the other Peek methods *)
| XSqueezeParams | XSet | XGet | XSetSameSite | XStop | XSkipMain | XAbort | XIsAborted | XIsStopped | XDebugf
| XSetCookie | XEGGo | XEGSetLimit | XAddDebugHandleName | XCalledHandles
| XLogf          (* Logger().Infof and the like *)
| XPipeline.     (* HandlerSet.Run around a handler *)
Definition on_logger (m : lmethod) : list trace := map (cons (Rd XLogger)) (logger_traces m).
Definition add_name : list trace :=                                         (* 407-413 *)
  on_logger LIsDebug ++ seqs [on_logger LIsDebug; acts [Rd XPipe; Wr XPipe]].
Definition context_traces (m : xmethod) : list trace :=
  match m with
  | XClone => [[Rd XData; Rd XSame]]                                        (* ctx.go:87-100 *)
  | XCtx => [[]]                                                            (* 113-115; the field never changes *)
  | XWrite => [[Rd XBody; Wr XBody]]                                        (* 118-127 *)
  | XSetLogger => [[Wr XLogger]]                                            (* 129-133 *)
  | XGetLogger => [[Rd XLogger]]                                            (* 135-137 *)
  | XSetLoggerLevel => on_logger LSetLevel                                  (* 139-143 *)
  | XLoggerLevel => on_logger LLevel                                        (* 145-147 *)
  | XUrlAdd => [[Rd XUrlIds; Wr XUrlIds]]                                   (* 162-164 *)
  | XCookieGet => [[Rd XCookies]; [Rd XCookies; Wr XCookies]]               (* 168-176 *)
  | XPeekParam => [[Rd XUrlIds]; [Rd XUrlIds; Rd XQuery; Wr XQuery];        (* 178-223: each part parsed at this *)
                   [Rd XUrlIds; Rd XQuery];                                 (* call or before, looked at or not *)
                   [Rd XUrlIds; Rd XQuery; Wr XQuery; Rd XForm; Wr XForm];
                   [Rd XUrlIds; Rd XQuery; Rd XForm; Wr XForm];
                   [Rd XUrlIds; Rd XQuery; Wr XQuery; Rd XForm];
                   [Rd XUrlIds; Rd XQuery; Rd XForm]]
  | XSqueezeParams => [[Rd XForm]; [Rd XForm; Wr XForm]]                    (* 225-246 *)
  | XSet => [[Wr XData]]                                                    (* 252-256 *)
  | XGet => [[Rd XData]]                                                    (* 258-260 *)
  | XSetSameSite => [[Wr XSame]]                                            (* 263-267 *)
  | XStop => seqs [acts [Wr XStopped]; on_logger LAddDebug]                 (* 270-275 *)
  | XSkipMain => seqs [acts [Wr XSkip]; on_logger LAddDebug]                (* 278-283 *)
  | XAbort => seqs [acts [Wr XAborted]; on_logger LAddDebug]                (* 286-293 *)
  | XIsAborted => [[Rd XAborted]]                                           (* 295-297 *)
  | XIsStopped => [[Rd XAborted]; [Rd XAborted; Rd XStopped]]               (* 299-301 *)
  | XDebugf => on_logger LConfig ++ seqs [on_logger LConfig; on_logger LConfig]   (* 303-309: logs with a new logger *)
  | XSetCookie => [[Rd XSame; Rd XHeader; Wr XHeader]]                      (* 349-375 *)
  | XEGGo => [[Rd XSem]]                                                    (* 381-387 *)
  | XEGSetLimit => [[Rd XSem; Wr XSem]]                                     (* 389-391 *)
  | XAddDebugHandleName => add_name
  | XCalledHandles => on_logger LIsDebug ++ seqs [on_logger LIsDebug; acts [Rd XPipe]]   (* 416-422 *)
  | XLogf => on_logger LLogf                                                (* 135-137, out.go:34-73 *)
  | XPipeline =>                                                            (* top_handler.go:29, 36-43, 46-54, 59-66 *)
      add_name ++ [[Rd XAborted]; [Rd XAborted; Rd XStopped]; [Rd XSkip]]
  end.

(** ** A running server *)
Inductive smethod :=
| SServer | SSetServer | SSetBaseAuth | SSetListener | SServerName | SSetServerName | SSetServerTLS
| SShutdownTimeOut | SSetShutdownTimeOut | SLoggerWriter | SSetLoggerWriter | SSetLogLevel | SLogLevel
| SDebugf | SSesInit | SShutdown
(* methods of the server's BaseAuth *)
| SAuthSetMessage | SAuthSetCheckAccess | SAuthSetLogFunc | SAuthMessage | SAuthSetUse | SAuthUse | SAuthSetRoles | SAuthRoles
(* what Run has started *)
| SRequest | SServe | SWatch.
(** baseauth.go:87-107 Check, [use] being set: empty user or not; logged or not; refused or not *)
Definition check_traces : list trace :=
  seqs [acts [Rd VAuth; Rd AUse]; [[]; [Rd ARoles]]; [[Rd ALogFlag]; [Rd ALogFlag; Rd ALogFunc]]; [[]; [Rd AHeader]]].
(** server_run.go:109-121 ServeHTTP up to runHTTP *)
Definition auth_traces : list trace :=
  [[Rd VAuth; Rd AUse]; [Rd VAuth; Rd AUse; Rd VAuth; Rd ACheck]] ++
  map (app [Rd VAuth; Rd AUse; Rd VAuth; Rd ACheck]) check_traces.
(** server_run.go:123-151 runHTTP up to the handlers: not found or the initialiser; the
    private logger is set up from the shared configuration *)
Definition init_traces : list trace := seqs [acts [Rd VCtx; Rd VInit]; [[]; [Rd VInit]]].
Definition request_traces : list trace :=
  auth_traces ++ seqs [auth_traces; init_traces] ++
  seqs [auth_traces; init_traces; config_traces false CfClone; config_traces false CfLevel].
Definition server_traces (s : smethod) : list trace :=
  match s with
  | SServer => [[Rd VSrv]]                             (* server.go:54-56 *)
  | SSetServer => [[Wr VSrv]]                          (* 58-61 *)
  | SSetBaseAuth => [[Wr VAuth]]                       (* 63-66 *)
  | SSetListener => [[Wr VListener]]                   (* 68-71 *)
  | SServerName => [[Rd VName]]                        (* 73-75 *)
  | SSetServerName => [[Wr VName]]                     (* 77-80 *)
  | SSetServerTLS => [[Wr VCert; Wr VKey]]             (* 82-86 *)
  | SShutdownTimeOut => [[Rd VTimeout]]                (* 88-90 *)
  | SSetShutdownTimeOut => [[Wr VTimeout]]             (* 92-95 *)
  | SLoggerWriter => config_traces false CfWriter      (* 97-99 *)
  | SSetLoggerWriter => config_traces false CfSetWriter   (* 101-104 *)
  | SSetLogLevel => config_traces false CfSetLevel     (* 106-109 *)
  | SLogLevel => config_traces false CfLevel           (* 111-113 *)
  | SDebugf => config_traces false CfLevel ++          (* 115-121 *)
               seqs [config_traces false CfLevel; config_traces false CfClone]
  | SSesInit => [[Wr VInit]]                           (* 237-240 *)
  | SShutdown => [[]; [Rd VSrv]]                       (* server_run.go:100-107; the counter is atomic *)
  | SAuthSetMessage => [[Wr AMessage; Wr ACharset; Rd AMessage; Rd ACharset; Wr AHeader]]   (* baseauth.go:47-52 *)
  | SAuthSetCheckAccess => [[Wr ACheck]]               (* 54-57 *)
  | SAuthSetLogFunc => [[Wr ALogFlag; Wr ALogFunc]]    (* 59-63 *)
  | SAuthMessage => [[Rd AMessage]]                    (* 65-67 *)
  | SAuthSetUse => [[Wr AUse]]                         (* 69-72 *)
  | SAuthUse => [[Rd AUse]]                            (* 74-76 *)
  | SAuthSetRoles => [[Wr ARoles]]                     (* 78-81; the pointer *)
  | SAuthRoles => [[Rd ARoles]]                        (* 83-85 *)
  | SRequest => request_traces
  | SServe =>                                          (* server_run.go:70-88 *)
      [[Rd VCert; Rd VSrv; Rd VListener]; [Rd VCert; Rd VKey; Rd VSrv; Rd VListener];
       [Rd VCert; Rd VKey; Rd VCert; Rd VKey]; [Rd VCert; Rd VKey; Rd VCert; Rd VKey; Rd VCert; Rd VKey];
       [Rd VCert; Rd VKey; Rd VCert; Rd VKey; Rd VListener; Wr VListener; Rd VSrv; Rd VListener]]
  | SWatch =>                                          (* server_run.go:47-68 *)
      [[]; [Rd VTimeout; Rd VTimeout; Rd VSrv]; [Rd VTimeout]; [Rd VTimeout; Rd VSrv]; [Rd VSrv]]
  end.

(** ** Threads (environment: sync.RWMutex used with Lock and Unlock only) *)
Record thread := Th { t_held : list lock; t_prog : trace }.
Definition lock_dec (a b : lock) : {a = b} + {a <> b}.
Proof. decide equality. Defined.
Fixpoint release (k : lock) (l : list lock) : list lock :=
  match l with [] => [] | x :: l' => if lock_dec k x then l' else x :: release k l' end.
Inductive tstep : list thread -> list thread -> Prop :=
| T_lock : forall l1 l2 held k prog,
    (forall th, In th (l1 ++ Th held (Lk k :: prog) :: l2) -> ~ In k (t_held th)) ->
    tstep (l1 ++ Th held (Lk k :: prog) :: l2) (l1 ++ Th (k :: held) prog :: l2)
| T_unlock : forall l1 l2 held k prog,
    tstep (l1 ++ Th held (Ul k :: prog) :: l2) (l1 ++ Th (release k held) prog :: l2)
| T_read : forall l1 l2 held l prog,
    tstep (l1 ++ Th held (Rd l :: prog) :: l2) (l1 ++ Th held prog :: l2)
| T_write : forall l1 l2 held l prog,
    tstep (l1 ++ Th held (Wr l :: prog) :: l2) (l1 ++ Th held prog :: l2).
