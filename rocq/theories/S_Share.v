(** Specification vocabulary for C101-C103: data races, and the tables of the methods that
    must not be called at the same time. *)
From Verif Require Import Base M_Share.

(** the goroutine's next instruction reads ([w = false]) or writes [l] *)
Definition touches (p : trace) (l : loc) (w : bool) : Prop :=
  match p with Rd l' :: _ => l' = l /\ w = false | Wr l' :: _ => l' = l /\ w = true | _ => False end.
(** two different goroutines are about to access the same location, one of them writing *)
Definition race (ths : list thread) : Prop :=
  exists i j a b l w w', i <> j /\ nth_error ths i = Some a /\ nth_error ths j = Some b /\
    touches (t_prog a) l w /\ touches (t_prog b) l w' /\ (w = true \/ w' = true).
Inductive runs : list thread -> list thread -> Prop :=
| runs_none : forall x, runs x x
| runs_more : forall x y z, runs x y -> tstep y z -> runs x z.
(** the given goroutines, started together, never race *)
Definition race_free (progs : list trace) : Prop :=
  forall ths, runs (map (Th []) progs) ths -> ~ race ths.

(** a goroutine that calls the listed methods one after the other *)
Inductive calls {M : Type} (traces : M -> list trace) : list M -> trace -> Prop :=
| calls_none : calls traces [] []
| calls_more : forall m t ms p, In t (traces m) -> calls traces ms p -> calls traces (m :: ms) (t ++ p).

(** ** Calls that must not overlap.  A table lists unordered pairs; every other pair may. *)
Definition listed {M : Type} (eqb : M -> M -> bool) (table : list (M * list M)) (m n : M) : bool :=
  existsb (fun e => (eqb (fst e) m && existsb (eqb n) (snd e)) || (eqb (fst e) n && existsb (eqb m) (snd e))) table.

(** one Logger *)
Definition lmethod_eqb (a b : lmethod) : bool.
Proof. refine (if _ : {a = b} + {a <> b} then true else false); decide equality. Defined.
Definition logger_clash : lmethod -> lmethod -> bool := listed lmethod_eqb
  [ (LSetConfig, [LClone; LWriter; LIsDebug; LLevel; LSetLevel; LStdKeys; LLog; LLogf]);
    (LSetLevel, [LIsDebug; LLevel; LAddDebug; LLog; LLogf]);
    (LLogf, [LLogf; LLog; LAdd; LAddDebug; LMerge; LClone; LStdKeys; LWriter]);
    (LLog, [LWriter; LStdKeys]) ].

(** one Config *)
Definition cmethod_eqb (a b : cmethod) : bool.
Proof. refine (if _ : {a = b} + {a <> b} then true else false); decide equality. Defined.
Definition config_clash : cmethod -> cmethod -> bool := listed cmethod_eqb
  [ (CfCurrentKey, [CfStdKeys]); (CfLevel, [CfSetLevel]); (CfWriter, [CfSetWriter]) ].

(** one running Server with its BaseAuth; SRequest: a request being served, SServe and
    SWatch: the goroutines of Run *)
Definition smethod_eqb (a b : smethod) : bool.
Proof. refine (if _ : {a = b} + {a <> b} then true else false); decide equality. Defined.
Definition server_clash : smethod -> smethod -> bool := listed smethod_eqb
  [ (SRequest, [SSetBaseAuth; SSetLogLevel; SSesInit;
                SAuthSetMessage; SAuthSetCheckAccess; SAuthSetLogFunc; SAuthSetUse; SAuthSetRoles]);
    (SServe, [SServe; SSetServer; SSetListener; SSetServerTLS]);
    (SWatch, [SSetServer; SSetShutdownTimeOut]);
    (SSetServer, [SSetServer; SServer; SShutdown]);
    (SSetServerName, [SSetServerName; SServerName]);
    (SSetShutdownTimeOut, [SSetShutdownTimeOut; SShutdownTimeOut]);
    (SSetListener, [SSetListener]); (SSetServerTLS, [SSetServerTLS]);
    (SSetBaseAuth, [SSetBaseAuth]); (SSesInit, [SSesInit]);
    (SSetLogLevel, [SLogLevel; SDebugf]); (SSetLoggerWriter, [SLoggerWriter]);
    (SAuthSetMessage, [SAuthSetMessage; SAuthMessage]); (SAuthSetUse, [SAuthSetUse; SAuthUse]);
    (SAuthSetRoles, [SAuthSetRoles; SAuthRoles]);
    (SAuthSetCheckAccess, [SAuthSetCheckAccess]); (SAuthSetLogFunc, [SAuthSetLogFunc]) ].
(** the methods that change a setting *)
Definition setters : list smethod :=
  [ SSetServer; SSetBaseAuth; SSetListener; SSetServerName; SSetServerTLS; SSetShutdownTimeOut; SSetLoggerWriter;
    SSetLogLevel; SSesInit; SAuthSetMessage; SAuthSetCheckAccess; SAuthSetLogFunc; SAuthSetUse; SAuthSetRoles ].

(** one Context; XPipeline: the rest of the pipeline *)
Definition xmethod_eqb (a b : xmethod) : bool.
Proof. refine (if _ : {a = b} + {a <> b} then true else false); decide equality. Defined.
Definition context_clash : xmethod -> xmethod -> bool := listed xmethod_eqb
  [ (XSet, [XSet; XGet; XClone]);
    (XWrite, [XWrite]);
    (XPeekParam, [XPeekParam; XSqueezeParams; XUrlAdd]);
    (XSqueezeParams, [XSqueezeParams]); (XUrlAdd, [XUrlAdd]);
    (XCookieGet, [XCookieGet]);
    (XSetCookie, [XSetCookie; XSetSameSite]); (XSetSameSite, [XSetSameSite; XClone]);
    (XStop, [XStop; XIsStopped; XPipeline; XLogf]);
    (XSkipMain, [XSkipMain; XPipeline; XLogf]);
    (XAbort, [XAbort; XIsAborted; XIsStopped; XPipeline; XLogf]);
    (XSetLogger, [XSetLogger; XGetLogger; XSetLoggerLevel; XLoggerLevel; XStop; XSkipMain; XAbort; XDebugf;
                  XAddDebugHandleName; XCalledHandles; XLogf; XPipeline]);
    (XSetLoggerLevel, [XLoggerLevel; XStop; XSkipMain; XAbort; XAddDebugHandleName; XCalledHandles; XLogf; XPipeline]);
    (XLogf, [XLogf]);
    (XAddDebugHandleName, [XAddDebugHandleName; XCalledHandles; XPipeline]);
    (XCalledHandles, [XPipeline]); (XPipeline, [XPipeline]);
    (XEGSetLimit, [XEGSetLimit; XEGGo]) ].
