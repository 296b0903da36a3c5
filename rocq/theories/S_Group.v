(** Vocabulary for requests with goroutines (C105-C110): user programs, and what can be read
    off the trace of a request.  Traces are kept latest event first. *)
From Verif Require Import Base GoErrors M_Pipeline M_Group.

(** ** Programs users can write: anything but the marks of the request itself *)
Fixpoint user (p : prog) : Prop :=
  match p with
  | Ret _ => True
  | Mark _ _ => False
  | Act _ k | Await k | Limit _ k => user k
  | Look k => forall x, user (k x)
  | Done k => forall x, user (k x)
  | Go b k => user b /\ user k
  | TryGo b k => user b /\ forall x, user (k x)
  | Wait k => forall x, user (k x)
  end.
Record user_request (s : gset) (ses : option prog) : Prop := {
  u_before : Forall user (gs_before s);
  u_after : Forall user (gs_after s);
  u_last : forall l, gs_last s = Some l -> forall e, user (l e);
  u_main : forall i m, gs_main s = Some (i, m) -> user i /\ user m;
  u_ses : forall p, ses = Some p -> user p
}.
(** a state the request can get to *)
Definition reaches (s : gset) (ses : option prog) (path : bytes) (y : sys) : Prop := reach (init s ses path) y.
(** [tr] is what happened up to some moment of the request *)
Definition history (s : gset) (ses : option prog) (path : bytes) (tr : list (option nat * event)) : Prop :=
  exists y, reaches s ses path y /\ y_trace y = tr.

Notation log := (list (option nat * event)).
(** ** Reading a trace *)
Definition happened (e : event) (tr : log) : Prop := exists w, In (w, e) tr.
Definition is_go (x : option nat * event) : bool := match snd x with EGo => true | _ => false end.
Definition is_gone (x : option nat * event) : bool := match snd x with EGone => true | _ => false end.
(** goroutines are numbered in the order they are started *)
Definition started (tr : log) : nat := length (filter is_go tr).
Definition ended (tr : log) : nat := length (filter is_gone tr).
Definition all_gone (tr : log) : Prop := forall i, i < started tr -> In (Some i, EGone) tr.
(** the error of the goroutine that failed first *)
Fixpoint first_failure (tr : log) : option err :=
  match tr with
  | [] => None
  | (_, e) :: r =>
      match first_failure r, e with
      | Some x, _ => Some x
      | None, EReturned x => x
      | None, _ => None
      end
  end.
(** what ends Ctx() *)
Definition ends_context (e : event) : Prop :=
  match e with
  | EAct DoAbort | EMark (MReturn _) | EReturned (Some _) | EWaited _ | EShutdown => True
  | _ => False
  end.
(** the outcome of the handler of the pipeline that ended last *)
Fixpoint last_end (tr : log) : option (who * outcome) :=
  match tr with
  | [] => None
  | (_, EMark (MEnd w o)) :: _ => Some (w, o)
  | _ :: r => last_end r
  end.
(** the handlers called, in order *)
Fixpoint called (tr : log) : list who :=
  match tr with
  | [] => []
  | (_, EMark (MStart w)) :: r => called r ++ [w]
  | _ :: r => called r
  end.
(** a handler of the pipeline proper *)
Definition in_pipeline (w : who) : Prop :=
  match w with WInit | WBefore _ | WMain | WAfter _ => True | _ => False end.
Definition plan (s : gset) (with_main : bool) : list who :=
  [WInit] ++ map WBefore (seq 0 (length (gs_before s))) ++ (if with_main then [WMain] else [])
  ++ map WAfter (seq 0 (length (gs_after s))).
(** two errors into one: the pipeline's wrapped with the text of the goroutine's *)
Definition both (pipeline group result : option err) : Prop :=
  (pipeline = None -> result = group) /\
  (group = None -> result = pipeline) /\
  (forall a b, pipeline = Some a -> group = Some b -> result = Some (EWrap a (err_text b))).

(** the last handler has been called *)
Definition is_last_start (x : option nat * event) : bool :=
  match snd x with EMark (MStart (WLast _)) => true | _ => false end.
(** how many goroutines were started since *)
Fixpoint late (tr : log) : nat :=
  match tr with
  | [] => 0
  | x :: r => (if is_go x && existsb is_last_start r then 1 else 0) + late r
  end.
(** the initialiser refused the request *)
Definition init_failed (tr : log) : Prop := exists e, happened (EMark (MEnd WSesInit (HRet (Some e)))) tr.
(** the error of the handlers: the last that ended returned it *)
Definition handlers_error (tr : log) : option err :=
  match last_end tr with Some (_, HRet e) => e | _ => None end.
(** the limit in force: of the latest EGSetLimit *)
Fixpoint limit (tr : log) : option nat :=
  match tr with
  | [] => None
  | (_, ELimit z) :: _ => if (z <? 0)%Z then None else Some (Z.to_nat z)
  | _ :: r => limit r
  end.
(** limits are only set while no goroutine is active *)
Definition limits_idle (tr : log) : Prop :=
  forall post w z pre, tr = post ++ (w, ELimit z) :: pre -> ended pre = started pre.
(** what had happened when the handler that ended last ended *)
Fixpoint before_end (tr : log) : log :=
  match tr with
  | [] => []
  | (_, EMark (MEnd _ _)) :: r => r
  | _ :: r => before_end r
  end.
(** something that ends the pipeline early: Stop, Abort, or a handler that did not return nil *)
Definition halted (tr : log) : Prop :=
  happened (EAct DoStop) tr \/ happened (EAct DoAbort) tr \/
  exists w o, o <> HRet None /\ (forall e, w <> WLast e) /\ happened (EMark (MEnd w o)) tr.
(** the initialiser's part of the calls *)
Definition with_init (ses : option prog) : list who := match ses with Some _ => [WSesInit] | None => [] end.
(** a function given to EGGo that only computes, looks at or acts on the request, waits for
    Ctx() or tries to start such functions *)
Fixpoint simple (p : prog) : Prop :=
  match p with
  | Ret _ => True
  | Act _ k | Await k => simple k
  | Look k => forall x, simple (k x)
  | Done k => forall x, simple (k x)
  | TryGo b k => simple b /\ forall x, simple (k x)
  | Mark _ _ | Go _ _ | Limit _ _ | Wait _ => False
  end.
(** only such functions are started *)
Fixpoint starts_simple (p : prog) : Prop :=
  match p with
  | Ret _ => True
  | Mark _ k | Act _ k | Await k | Limit _ k => starts_simple k
  | Look k => forall x, starts_simple (k x)
  | Done k => forall x, starts_simple (k x)
  | Go b k => simple b /\ starts_simple k
  | TryGo b k => simple b /\ forall x, starts_simple (k x)
  | Wait k => forall x, starts_simple (k x)
  end.
Record simple_request (s : gset) (ses : option prog) : Prop := {
  m_before : Forall starts_simple (gs_before s);
  m_after : Forall starts_simple (gs_after s);
  m_last : forall l, gs_last s = Some l -> forall e, starts_simple (l e);
  m_main : forall i m, gs_main s = Some (i, m) -> starts_simple i /\ starts_simple m;
  m_ses : forall p, ses = Some p -> starts_simple p
}.
(** the request has returned (or the process has died) *)
Definition returned (y : sys) : Prop := exists r, happened (EMark (MReturn r)) (y_trace y).
(** a handler or goroutine waits for Ctx(), which is not done *)
Definition waits_for_context (y : sys) : Prop :=
  ctx_done (y_sh y) = false /\
  ((exists k, y_main y = Await k) \/ exists k, In (Run (Await k)) (y_gos y)).
(** something other than the shutdown of the server can happen *)
Definition can_go_on (y : sys) : Prop := exists y' w e, step y y' /\ y_trace y' = (w, e) :: y_trace y /\ e <> EShutdown.
