(** Specification of whole histories of a server (C147): which calls panic, and what every request
    does, from the plain values of S_Server. *)
From Verif Require Import Base GoStrings GoErrors M_Tree M_RegTree S_Route S_Choice M_Server S_Server.
From Verif Require M_Router M_Pipeline M_Auth.
From Coq Require Import Permutation.

(** the methods a route with a regular expression can be registered for *)
Definition expr_methods : list bytes :=
  [B"GET"; B"HEAD"; B"POST"; B"PUT"; B"PATCH"; B"DELETE"; B"CONNECT"; B"OPTIONS"; B"TRACE"; B"GETPOST"; B"GETHEAD"].

Section Spec.
  Import M_Router.
  Definition key_ok (k : key) : Prop := match k with KPath _ _ => True | KReg m _ => In m expr_methods end.
  (** A call is in order: the router or handler set exists (is not nil), there is an authentication
      object, and an expression is registered for one of the methods. *)
  Definition op_ok (p : plan) (o : op) : Prop :=
    match o with
    | NewRouter | NewSet => True
    | RFirst r _ | RBefore r _ | RAfter r _ | RLastAfter r _ | RLast r _ | RClone r => r < length (p_groups p)
    | RUse r k _ => r < length (p_groups p) /\ key_ok k
    | SBefore s _ | SAfter s _ | SLast s _ | SUse s _ | SClone s => s < length (p_kits p)
    | SAdd k _ (Some s) => s < length (p_kits p) /\ key_ok k
    | SAdd _ _ None => False
    | _ => True           (* the caller's own slices: not in tidy histories *)
    end.
  Definition in_order (p : plan) (c : scall) : Prop :=
    match c with
    | COp o => op_ok p o
    | CRouterVerb r _ _ _ => r < length (p_groups p)
    | CServerVerb _ _ _ (x :: _) => x < length (p_kits p)
    | CServerVerb _ _ _ [] => False
    | CAuth _ => p_auth p <> None
    | CSetAuth _ | CSesInit _ | CSetLevel _ | CRequest _ _ => True
    end.
  Definition is_request (c : scall) : bool := match c with CRequest _ _ => true | _ => false end.

  Variables (uni : bytes -> bytes) (matches : rgx -> bytes -> bool) (cd : code).
  (** what the calls of a history do, one after the other; None: the last of them panicked *)
  Inductive goes : plan -> list scall -> list (list M_Auth.event) -> option plan -> Prop :=
  | G_end p : goes p [] [] (Some p)
  | G_call p c cs evs r : is_request c = false -> in_order p c -> goes (plan_call p c) cs evs r -> goes p (c :: cs) ([] :: evs) r
  | G_bad p c cs : is_request c = false -> ~ in_order p c -> goes p (c :: cs) [[]] None
  | G_request p rq lk cs choice ev evs r : picks matches p (M_Auth.rq_method rq) (M_Auth.rq_path rq) choice ->
      M_Auth.serve_http uni (as_planned cd p choice lk) rq = (ev, Ok tt) -> goes p cs evs r -> goes p (CRequest rq lk :: cs) (ev :: evs) r
  | G_fatal p rq lk cs choice ev : picks matches p (M_Auth.rq_method rq) (M_Auth.rq_path rq) choice ->
      M_Auth.serve_http uni (as_planned cd p choice lk) rq = (ev, Panic) -> goes p (CRequest rq lk :: cs) [ev] None.

  (** ** Histories that do not panic *)
  (** user code that returns *)
  Definition returns {A} (b : A -> M_Pipeline.beh) : Prop := forall x, snd (b x) <> M_Pipeline.HPanic.
  Definition code_returns : Prop :=
    (forall k a, returns (M_Pipeline.h_run (c_handler cd k a))) /\
    (forall k a, returns (M_Pipeline.m_init (c_main cd k a)) /\ returns (M_Pipeline.m_run (c_main cd k a))) /\
    (forall k a c, returns (M_Pipeline.l_run (c_last cd k a) c)).
  (** a plan requests can be served with *)
  Definition sane (p : plan) : Prop :=
    (forall x, In x (p_routes p) -> kt_main (o_kit x) <> None) /\
    (forall f, p_ses p = Some f -> returns f) /\
    exists h, p_auth p = Some h /\
      (M_Auth.a_use h = true -> exists f, M_Auth.a_access h = Some f /\ (forall rq, f rq <> Panic) /\ (M_Auth.a_use_log h && M_Auth.a_log_nil h) = false).
  Fixpoint fits (p : plan) (cs : list scall) : Prop :=
    match cs with
    | [] => True
    | c :: cs' => in_order p c /\ (is_request c = true -> sane p) /\ fits (plan_call p c) cs'
    end.
  Definition lucks_ok (cs : list scall) : Prop := forall rq lk, In (CRequest rq lk) cs -> forall rm, Permutation (l_order lk rm) rm.
End Spec.
