(** Model of a whole server: the calls that build it (Router, HandlerSet, Server), its route
    tables and the requests it serves, one call after the other.  It puts together M_Router (what
    a route runs, on the level of Go slices), M_Tree and M_RegTree (the tables), M_Auth and
    M_Pipeline (serving).  Not modelled: calls at the same time (M_Serve, M_Race, M_Locks), several
    servers, goroutines of handlers beyond their results; what handlers do to the registration. *)
From Verif Require Import Base GoStrings GoErrors GoSlices M_Tree M_RegTree.
From Verif Require M_Router M_Pipeline M_Auth.

(** gorouter.go:99-157 and server.go:177-235: the methods named after HTTP methods *)
Inductive verb := VGetPost | VPost | VGet | VHead | VPut | VPatch | VDelete | VConnect | VOptions | VTrace.
Definition verb_method (v : verb) : bytes :=
  match v with
  | VGetPost => MethodGetPost | VPost => MethodPost | VGet => MethodGet | VHead => MethodHead | VPut => MethodPut
  | VPatch => MethodPatch | VDelete => MethodDelete | VConnect => MethodConnect | VOptions => MethodOptions | VTrace => MethodTrace
  end.

(** Everything user code brings along: handlers by identity, given the URL parameters of the
    request (a nil handler is one that panics). *)
Record code := Code {
  c_handler : hid -> args -> M_Pipeline.handler;
  c_main : nat -> args -> M_Pipeline.main_handler;
  c_last : nat -> args -> M_Pipeline.last_handler
}.
(** What is not determined by the program for one request: the order in which Go goes through a map and the
    order in which the goroutines of the request end. *)
Record luck := Luck { l_order : rmap nat -> rmap nat; l_sched : list (option err) -> list (option err) }.

Inductive scall :=
| COp (o : M_Router.op)                                                     (* building; includes Use, UseReg, Add, AddReg *)
| CRouterVerb (r : nat) (v : verb) (route : bytes) (m : option nat)          (* gorouter.go:99-157 router.Get(...) ... *)
| CServerVerb (v : verb) (route : bytes) (m : option nat) (sets : list nat)  (* server.go:177-235 server.Get(...) ... *)
| CAuth (o : M_Auth.auth_op)                                                 (* on the server's BaseAuth *)
| CSetAuth (a : option M_Auth.base_auth)                                     (* server.go:63-66 *)
| CSesInit (f : option (M_Pipeline.ctx -> M_Pipeline.beh))                   (* server.go:237-240 *)
| CSetLevel (l : Z)                                                          (* server.go:106-109 *)
| CRequest (rq : M_Auth.request) (lk : luck).                                (* server_run.go:109-121 *)

(** server.go:19-42 Server, as far as requests depend on it.  A registered handler set is identified
    by its position in [M_Router.st_routes]. *)
Record server := Server {
  s_state : M_Router.state;
  s_tree : node nat;
  s_regs : rtree nat;
  s_auth : option M_Auth.base_auth;
  s_ses : option (M_Pipeline.ctx -> M_Pipeline.beh);
  s_level : Z
}.
(** server.go:44-52 New; the level of a new config is Debug (config.go:35) *)
Definition new_server : server := Server M_Router.init new_tree new_reg_tree (Some M_Auth.new_auth) None 5.

Section Run.
  Variable grow : nat -> nat -> nat.
  Variable uni : bytes -> bytes.
  Variable matches : rgx -> bytes -> bool.
  Variable cd : code.

  (** gorouter.go:84, 94; server.go:158, 164: the new set goes into a table *)
  Definition enter (old : server) (st : M_Router.state) : res server :=
    let i := length (M_Router.st_routes (s_state old)) in
    match nth_error (M_Router.st_routes st) i with
    | None => Ok (Server st (s_tree old) (s_regs old) (s_auth old) (s_ses old) (s_level old))
    | Some g =>
        match M_Router.g_key g with
        | M_Router.KPath m route => Ok (Server st (tree_add (s_tree old) m route (Some i)) (s_regs old) (s_auth old) (s_ses old) (s_level old))
        | M_Router.KReg m e =>
            match reg_add (s_regs old) m e i with
            | Ok rt => Ok (Server st (s_tree old) rt (s_auth old) (s_ses old) (s_level old))
            | Panic => Panic
            end
        end
    end.
  Definition do_op (s : server) (o : M_Router.op) : res server :=
    match M_Router.step grow (s_state s) o with Ok st => enter s st | Panic => Panic end.

  (** the set a request on the [i]-th registration runs, read at the time of the request *)
  Definition resolve (s : server) (i : nat) (a : args) : option M_Pipeline.hset :=
    match nth_error (M_Router.st_routes (s_state s)) i with
    | None => None
    | Some g =>
        let x := M_Router.g_set g in let h := M_Router.st_heap (s_state s) in
        Some (M_Pipeline.HSet (map (fun k => c_handler cd k a) (read h (M_Router.s_before x)))
                              (map (fun k => c_handler cd k a) (read h (M_Router.s_after x)))
                              (option_map (fun k => c_last cd k a) (M_Router.s_last x))
                              (option_map (fun k => c_main cd k a) (M_Router.s_main x)))
    end.
  (** server.go:131-141 Find on a fresh parameter object (server_run.go:124) *)
  Definition lookup (s : server) (lk : luck) (method path : bytes) : option M_Pipeline.hset :=
    match server_find matches (l_order lk) (s_tree s) (s_regs s) method path [] with
    | (TFound i, a) => resolve s i a
    | _ => None
    end.
  (** server_run.go:109-167 *)
  Definition request (s : server) (rq : M_Auth.request) (lk : luck) : list M_Auth.event * res unit :=
    M_Auth.serve_http uni (M_Auth.Server (s_auth s) (lookup s lk) (s_ses s) (s_level s) (l_sched lk)) rq.

  Definition do_call (s : server) (c : scall) : list M_Auth.event * res server :=
    match c with
    | COp o => ([], do_op s o)
    | CRouterVerb r v route m => ([], do_op s (M_Router.RUse r (M_Router.KPath (verb_method v) route) m))
    | CServerVerb v route m sets =>
        ([], do_op s (M_Router.SAdd (M_Router.KPath (verb_method v) route) m (match sets with x :: _ => Some x | [] => None end)))
    | CAuth o => ([], match s_auth s with
                      | Some h => Ok (Server (s_state s) (s_tree s) (s_regs s) (Some (M_Auth.auth_step h o)) (s_ses s) (s_level s))
                      | None => Panic
                      end)
    | CSetAuth a => ([], Ok (Server (s_state s) (s_tree s) (s_regs s) a (s_ses s) (s_level s)))
    | CSesInit f => ([], Ok (Server (s_state s) (s_tree s) (s_regs s) (s_auth s) f (s_level s)))
    | CSetLevel l => ([], Ok (Server (s_state s) (s_tree s) (s_regs s) (s_auth s) (s_ses s) l))
    | CRequest rq lk => match request s rq lk with (ev, Ok _) => (ev, Ok s) | (ev, Panic) => (ev, Panic) end
    end.
  (** A history of calls: what every request did, and the server at the end. *)
  Fixpoint history (s : server) (cs : list scall) : list (list M_Auth.event) * res server :=
    match cs with
    | [] => ([], Ok s)
    | c :: cs' =>
        match do_call s c with
        | (ev, Ok s') => let '(evs, r) := history s' cs' in (ev :: evs, r)
        | (ev, Panic) => ([ev], Panic)
        end
    end.
End Run.
