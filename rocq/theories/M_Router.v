(** Model of the registration API on the level of Go slices: Router
    (/repo/gorouter.go), the building part of HandlerSet (/repo/top_handler.go)
    and Server.Add/AddReg (/repo/server.go:157-167).  What is not modelled: the
    locks (each operation is atomic) and the route tables themselves (M_Tree,
    M_RegTree): [routes] lists the registrations in order. *)
From Verif Require Import Base GoSlices.

(** gorouter.go:8-15 Router *)
Record router := Router { r_before : slice; r_after : slice; r_last : option nat }.
(** top_handler.go:5-14 HandlerSet *)
Record hset := HSet { s_before : slice; s_after : slice; s_last : option nat; s_main : option nat }.
(** where a route is registered: tree.Add or regTree.Add *)
Inductive key := KPath (method route : bytes) | KReg (method : bytes) (expr : nat).
(** a registration; [g_own]: made by a Router (from a set of its own) *)
Record reg := Reg { g_key : key; g_set : hset; g_own : bool }.

(** Everything a program using the library can hold on to: routers and handler
    sets (pointers = positions), slices of its own, and the registered routes. *)
Record state := State {
  st_heap : heap;
  st_routers : list router;
  st_sets : list hset;
  st_vars : list slice;
  st_routes : list reg
}.
Definition init : state := State [] [] [] [] [].

(** Variadic argument: explicit handlers (or a slice made for this call, with
    spare capacity), or a slice the caller keeps. *)
Inductive arg := Fresh (xs : list hid) (extra : nat) | Var (v : nat).

Inductive op :=
| NewRouter
| RFirst (r : nat) (h : hid) | RBefore (r : nat) (a : arg) | RAfter (r : nat) (a : arg)
| RLastAfter (r : nat) (h : hid) | RLast (r : nat) (l : option nat)
| RClone (r : nat) | RUse (r : nat) (k : key) (m : option nat)
| RGetBefore (r : nat) | RGetAfter (r : nat)
| NewSet
| SBefore (s : nat) (a : arg) | SAfter (s : nat) (a : arg)
| SLast (s : nat) (l : option nat) | SUse (s : nat) (m : option nat)
| SClone (s : nat) | SAdd (k : key) (m : option nat) (s : option nat)
(* the caller's own slices *)
| CMake (xs : list hid) (extra : nat) | CWrite (v i : nat) (h : hid)
| CAppend (v : nat) (h : hid) | CSlice (v i j : nat).

Section Steps.
  Variable grow : nat -> nat -> nat.

  Definition eval_arg (st : state) (a : arg) : res (heap * slice) :=
    match a with
    | Fresh xs extra => Ok (alloc (st_heap st) xs extra)
    | Var v => match nth_error (st_vars st) v with
               | Some s => Ok (st_heap st, s)
               | None => Panic
               end
    end.

  Definition set_router (st : state) (h : heap) (r : nat) (x : router) : state :=
    State h (upd_nth r (fun _ => x) (st_routers st)) (st_sets st) (st_vars st) (st_routes st).
  Definition set_set (st : state) (h : heap) (s : nat) (x : hset) : state :=
    State h (st_routers st) (upd_nth s (fun _ => x) (st_sets st)) (st_vars st) (st_routes st).
  Definition add_var (st : state) (h : heap) (s : slice) : state :=
    State h (st_routers st) (st_sets st) (st_vars st ++ [s]) (st_routes st).

  (** top_handler.go:16-22 Set *)
  Definition new_set (h : heap) : heap * hset :=
    let '(h1, b) := alloc h [] 0 in
    let '(h2, a) := alloc h1 [] 0 in (h2, HSet b a None None).

  (** top_handler.go:91-97 Before; 99-105 After *)
  Definition set_before (h : heap) (x : hset) (xs : list hid) : heap * hset :=
    let '(h1, b) := append grow h (s_before x) xs in (h1, HSet b (s_after x) (s_last x) (s_main x)).
  Definition set_after (h : heap) (x : hset) (xs : list hid) : heap * hset :=
    let '(h1, a) := append grow h (s_after x) xs in (h1, HSet (s_before x) a (s_last x) (s_main x)).
  (** top_handler.go:83-89 Last; 107-113 Use *)
  Definition set_last (x : hset) (l : option nat) : hset := HSet (s_before x) (s_after x) l (s_main x).
  Definition set_use (x : hset) (m : option nat) : hset := HSet (s_before x) (s_after x) (s_last x) m.
  (** top_handler.go:115-126 Clone: before[:] and after[:] share the arrays *)
  Definition set_clone (x : hset) : hset := HSet (s_before x) (s_after x) (s_last x) (s_main x).

  (** One call of the API.  A missing position stands for a nil pointer, whose
      use panics. *)
  Definition step (st : state) (o : op) : res state :=
    let h := st_heap st in
    let with_router r (f : router -> res state) :=
      match nth_error (st_routers st) r with Some x => f x | None => Panic end in
    let with_set s (f : hset -> res state) :=
      match nth_error (st_sets st) s with Some x => f x | None => Panic end in
    let with_var v (f : slice -> res state) :=
      match nth_error (st_vars st) v with Some x => f x | None => Panic end in
    let with_arg a (f : heap -> slice -> res state) :=
      match eval_arg st a with Ok (h1, s) => f h1 s | Panic => Panic end in
    match o with
    | NewRouter =>                                               (* gorouter.go:17-25 *)
        let '(h1, b) := alloc h [] 0 in
        let '(h2, a) := alloc h1 [] 0 in
        Ok (State h2 (st_routers st ++ [Router b a None]) (st_sets st) (st_vars st) (st_routes st))
    | RFirst r e => with_router r (fun x =>                      (* 43-50 *)
        let '(h1, lit) := alloc h [e] 0 in
        let '(h2, b) := append grow h1 lit (read h1 (r_before x)) in
        Ok (set_router st h2 r (Router b (r_after x) (r_last x))))
    | RBefore r a => with_router r (fun x => with_arg a (fun h1 s =>   (* 52-59 *)
        Ok (set_router st h1 r (Router s (r_after x) (r_last x)))))
    | RAfter r a => with_router r (fun x => with_arg a (fun h1 s =>    (* 61-68 *)
        Ok (set_router st h1 r (Router (r_before x) s (r_last x)))))
    | RLastAfter r e => with_router r (fun x =>                  (* 70-77 *)
        let '(h1, a) := append grow h (r_after x) [e] in
        Ok (set_router st h1 r (Router (r_before x) a (r_last x))))
    | RLast r l => with_router r (fun x =>                       (* 27-33 *)
        Ok (set_router st h r (Router (r_before x) (r_after x) l)))
    | RClone r => with_router r (fun x =>                        (* 161-170 *)
        Ok (State h (st_routers st ++ [Router (r_before x) (r_after x) (r_last x)])
                  (st_sets st) (st_vars st) (st_routes st)))
    | RUse r k m => with_router r (fun x =>                      (* 79-87 Use, 89-97 UseReg *)
        let '(h1, s0) := new_set h in
        let '(h2, s1) := set_after h1 s0 (read h1 (r_after x)) in
        let '(h3, s2) := set_before h2 s1 (read h2 (r_before x)) in
        let s3 := set_use (set_last s2 (r_last x)) m in
        Ok (State h3 (st_routers st) (st_sets st) (st_vars st) (st_routes st ++ [Reg k s3 true])))
    | RGetBefore r => with_router r (fun x => Ok (add_var st h (r_before x)))   (* 35-37 *)
    | RGetAfter r => with_router r (fun x => Ok (add_var st h (r_after x)))     (* 39-41 *)
    | NewSet =>
        let '(h1, s) := new_set h in
        Ok (State h1 (st_routers st) (st_sets st ++ [s]) (st_vars st) (st_routes st))
    | SBefore i a => with_set i (fun x => with_arg a (fun h1 s =>
        let '(h2, x') := set_before h1 x (read h1 s) in Ok (set_set st h2 i x')))
    | SAfter i a => with_set i (fun x => with_arg a (fun h1 s =>
        let '(h2, x') := set_after h1 x (read h1 s) in Ok (set_set st h2 i x')))
    | SLast i l => with_set i (fun x => Ok (set_set st h i (set_last x l)))
    | SUse i m => with_set i (fun x => Ok (set_set st h i (set_use x m)))
    | SClone i => with_set i (fun x =>
        Ok (State h (st_routers st) (st_sets st ++ [set_clone x]) (st_vars st) (st_routes st)))
    | SAdd k m None => Panic      (* server.go:157-167: set.Clone() locks a nil *HandlerSet *)
    | SAdd k m (Some i) => with_set i (fun x =>                  (* server.go:157-167 *)
        Ok (State h (st_routers st) (st_sets st) (st_vars st)
                  (st_routes st ++ [Reg k (set_use (set_clone x) m) false])))
    | CMake xs extra =>
        let '(h1, s) := alloc h xs extra in Ok (add_var st h1 s)
    | CWrite v i e => with_var v (fun s =>
        if i <? sl_len s
        then Ok (State (write h (sl_arr s) (sl_off s + i) [e]) (st_routers st) (st_sets st)
                       (st_vars st) (st_routes st))
        else Panic)
    | CAppend v e => with_var v (fun s =>
        let '(h1, s1) := append grow h s [e] in Ok (add_var st h1 s1))
    | CSlice v i j => with_var v (fun s =>
        if (i <=? j) && (j <=? sl_cap s)
        then Ok (add_var st h (Slice (sl_arr s) (sl_off s + i) (j - i) (sl_cap s - i)))
        else Panic)
    end.

  Fixpoint run (st : state) (os : list op) : res state :=
    match os with
    | [] => Ok st
    | o :: os' => match step st o with Ok st' => run st' os' | Panic => Panic end
    end.

  (** server.go:169-175 nonEmptySet and the methods at 177-235: Get, Post, ... *)
  Definition server_method (st : state) (k : key) (m : option nat) (sets : list nat) : res state :=
    step st (SAdd k m (match sets with s :: _ => Some s | [] => None end)).
End Steps.
