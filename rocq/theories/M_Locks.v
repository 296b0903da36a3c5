(** Model of the locks the package takes: /repo/gorouter.go (Router), /repo/top_handler.go
    (HandlerSet), /repo/tree.go (Tree), /repo/logger/logger.go, /repo/logger/out.go,
    /repo/logger/config/config.go, and the order in which /repo/server_run.go:109-167 takes
    them around user code.  Environment: sync.RWMutex.
    Simplifications: the locks of objects no other goroutine can have yet (the set built by
    Router.Use, the clone made by Server.Add, a logger just made) are left out; a program is the
    sequence of calls it makes, so branching is covered by quantifying over all programs;
    goroutines of a request and EGWait are in M_Group; user code does not call the embedded
    Lock and RLock itself. *)
From Verif Require Import Base.

(** ** sync.RWMutex *)
Inductive lock :=
| LRouter (r : nat) | LNode (n : nat) (* 0: the root *) | LSet (s : nat) | LLogger (l : nat) | LConfig (c : nat) (* 0: the server's *).
(** Lock: take the writers' mutex, shut new readers out, wait for the old ones; Unlock: let
    readers in, give the mutex back *)
Inductive op := Want (m : lock) | Close (m : lock) | Enter (m : lock) | Open (m : lock) | Free (m : lock)
| REnter (m : lock) | RLeave (m : lock)
| Halt.                                                 (* never comes back *)
Record rw := RW { w_taken : bool; closed : bool; readers : nat }.
Definition act (o : op) (v : rw) : option rw :=
  match o with
  | Want _ => if w_taken v then None else Some (RW true (closed v) (readers v))
  | Close _ => Some (RW (w_taken v) true (readers v))
  | Enter _ => match readers v with 0 => Some v | S _ => None end
  | Open _ => Some (RW (w_taken v) false (readers v))
  | Free _ => Some (RW false (closed v) (readers v))
  | REnter _ => if closed v then None else Some (RW (w_taken v) (closed v) (S (readers v)))
  | RLeave _ => Some (RW (w_taken v) (closed v) (pred (readers v)))
  | Halt => None
  end.
Definition lock_of (o : op) : lock :=
  match o with
  | Want m | Close m | Enter m | Open m | Free m | REnter m | RLeave m => m
  | Halt => LNode 0
  end.

(** ** Code that takes locks: nested sections, all released by defer *)
Inductive sec := SWrite (m : lock) (body : list sec) | SRead (m : lock) (body : list sec) | SHalt.
Fixpoint flat (x : sec) : list op :=
  match x with
  | SWrite m b => [Want m; Close m; Enter m] ++ flat_map flat b ++ [Open m; Free m]
  | SRead m b => [REnter m] ++ flat_map flat b ++ [RLeave m]
  | SHalt => [Halt]
  end.

(** ** Calls; lists of calls are user code run inside the call *)
Inductive call :=
| CRouter (r : nat)                  (* gorouter.go:27-77, 89-97 Last, First, Before, After, LastAfter, UseReg *)
| CUse (r : nat)                     (* gorouter.go:79-87 Use, Get, Post, .. *)
| CSet (s : nat)                     (* top_handler.go:83-126 Last, Before, After, Use, Clone; server.go:163-167 AddReg *)
| CAdd (s : nat)                     (* server.go:157-161 Add, Get, Post, .. *)
| CTreeAdd                           (* tree.go:178-190 Tree.Add *)
| CFind (n : option nat)             (* tree.go:86-166 Find: at most one node is locked *)
| CLogger (l : nat)                  (* logger.go:66-91, 140-155 Add, AddDebug, Merge, Error; ctx.go:270-293 *)
| CConfig (c : nat)                  (* config.go:46-125 Clone and setters; logger.go:93-109 Writer, SetLevel *)
| CStdKeys (l c : nat)               (* logger.go:111-138 *)
| CGetConfig (l c : nat)             (* logger.go:43-48 Config *)
| CSetConfig (l c : nat)             (* logger.go:33-41 *)
| CLogClone (l c : nat)              (* logger.go:50-64 *)
| CLog (l : nat) (user : list call)  (* out.go:11-41 Log, Logf: the Writer and MarshalJSON of the fields *)
| CDebugf (l c : nat) (user : list call)    (* ctx.go:303-309 Context.Debugf *)
| CServerDebugf (user : list call)          (* server.go:115-121 *)
| CServe (n : option nat) (s : nat) (auth ses run : list call) (aborted : bool) (last : list call)
                                     (* server_run.go:109-167 ServeHTTP of a request routed to set [s] *)
| CBlock.                            (* user code that never returns *)

Definition find_secs (n : option nat) : list sec :=
  match n with Some n => [SRead (LNode n) []] | None => [] end.
Fixpoint secs (c : call) : list sec :=
  match c with
  | CRouter r => [SWrite (LRouter r) []]
  | CUse r => [SWrite (LRouter r) [SWrite (LNode 0) []]]
  | CSet s => [SWrite (LSet s) []]
  | CAdd s => [SWrite (LSet s) []; SWrite (LNode 0) []]
  | CTreeAdd => [SWrite (LNode 0) []]
  | CFind n => find_secs n
  | CLogger l => [SWrite (LLogger l) []]
  | CConfig c => [SWrite (LConfig c) []]
  | CStdKeys l c => [SWrite (LConfig c) []; SWrite (LLogger l) []]
  | CGetConfig l c => [SWrite (LLogger l) [SWrite (LConfig c) []]]
  | CSetConfig l c => [SWrite (LConfig c) []; SWrite (LLogger l) []]
  | CLogClone l c => [SWrite (LConfig c) []; SWrite (LLogger l) []]
  | CLog l user => [SWrite (LLogger l) (flat_map secs user)]
  | CDebugf l c user =>
      SWrite (LLogger l) [SWrite (LConfig c) []] :: SWrite (LLogger l) [SWrite (LConfig c) []] :: flat_map secs user
  | CServerDebugf user => SWrite (LConfig 0) [] :: flat_map secs user
  | CServe n s auth ses run aborted last =>
      flat_map secs auth                                  (* 109-119 *)
      ++ find_secs n                                      (* 128 *)
      ++ flat_map secs ses                                (* 143-148 *)
      ++ [SWrite (LConfig 0) []]                          (* 150 *)
      ++ [SRead (LSet s) (flat_map secs run)]             (* 153, top_handler.go:24-70 *)
      ++ (if aborted then [] else [SRead (LSet s) (flat_map secs last)])    (* 164, top_handler.go:72-81 *)
  | CBlock => [SHalt]
  end.
Definition program (cs : list call) : list op := flat_map flat (flat_map secs cs).

(** ** Goroutines *)
Record sys := Sys { y_locks : lock -> rw; y_threads : list (list op) }.
Definition lock_dec (a b : lock) : {a = b} + {a <> b}.
Proof. decide equality; apply Nat.eq_dec. Defined.
Definition set_lock (m : lock) (v : rw) (f : lock -> rw) : lock -> rw := fun x => if lock_dec x m then v else f x.
Inductive step : sys -> sys -> Prop :=
| S_op : forall f l1 o k l2 v, act o (f (lock_of o)) = Some v ->
    step (Sys f (l1 ++ (o :: k) :: l2)) (Sys (set_lock (lock_of o) v f) (l1 ++ k :: l2)).
Definition start (ts : list (list call)) : sys := Sys (fun _ => RW false false 0) (map program ts).
