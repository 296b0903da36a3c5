(** Model of the parameter objects (fasthttp.Args) behind lookups: Tree.Find and cloneArgs
    (/repo/tree.go:86-176), RegTree.Find (/repo/reg_tree.go:42-56), Server.Find
    (/repo/server.go:131-141) and the part of runHTTP that takes and gives back the object of the
    request (/repo/server_run.go:123-167), as programs over a shared heap of objects and a shared
    pool, for any number of goroutines interleaved operation by operation.
    Environment (fasthttp): &Args{} is a new empty object; AcquireArgs is sync.Pool.Get, which
    returns one of the objects in the pool, as it was left, or a new one; ReleaseArgs is Reset
    followed by sync.Pool.Put; VisitAll reads the length and then the pairs in order.
    Simplifications: the routes do not change during the lookups (changes: M_Race, M_Serve); what
    a handler does with its parameters is a program over this one object, with a result, and it
    does not keep the object (that: M_Serve). *)
From Verif Require Import Base GoStrings M_Tree M_RegTree.

(** one goroutine: operations on objects, each atomic *)
Inductive prog (R : Type) : Type :=
| Ret (r : R)
| New (k : nat -> prog R)                                (* &fasthttp.Args{} *)
| Get (k : nat -> prog R)                                (* sync.Pool.Get *)
| Put (id : nat) (k : prog R)                            (* sync.Pool.Put *)
| Reset (id : nat) (k : prog R)
| Add (id : nat) (key value : bytes) (k : prog R)        (* Add, AddBytesKV *)
| Len (id : nat) (k : nat -> prog R)
| At (id i : nat) (k : bytes * bytes -> prog R).
Arguments Ret {R} r.
Arguments New {R} k.
Arguments Get {R} k.
Arguments Put {R} id k.
Arguments Reset {R} id k.
Arguments Add {R} id key value k.
Arguments Len {R} id k.
Arguments At {R} id i k.

(** environment: fasthttp.ReleaseArgs *)
Definition release {R} (id : nat) (k : prog R) : prog R := Reset id (Put id k).
(** tree.go:112-116: the deferred function *)
Fixpoint release_all {R} (all : list nat) (k : prog R) : prog R :=
  match all with [] => k | id :: all' => release id (release_all all' k) end.
(** tree.go:142-144, 170-172: src.VisitAll(func(key, value) { dst.AddBytesKV(key, value) }) *)
Fixpoint copy_from {R} (src dst i n : nat) (k : prog R) : prog R :=
  match n with
  | O => k
  | S n' => At src i (fun kv => Add dst (fst kv) (snd kv) (copy_from src dst (S i) n' k))
  end.
Definition copy_all {R} (src dst : nat) (k : prog R) : prog R := Len src (fun n => copy_from src dst 0 n k).
(** user code: VisitAll, collecting the pairs *)
Fixpoint read_from {R} (id i n : nat) (acc : args) (k : args -> prog R) : prog R :=
  match n with
  | O => k acc
  | S n' => At id i (fun kv => read_from id (S i) n' (acc ++ [kv]) k)
  end.
Definition read_all {R} (id : nat) (k : args -> prog R) : prog R := Len id (fun n => read_from id 0 n [] k).

(** user code: Add for each of some pairs *)
Fixpoint add_all {R} (id : nat) (l : args) (k : prog R) : prog R :=
  match l with [] => k | kv :: l' => Add id (fst kv) (snd kv) (add_all id l' k) end.

Section Lookup.
  Context {HS R : Type}.

  (** tree.go:80-84 nextNode *)
  Record went := WEnt { w_node : node HS; w_path : list bytes; w_args : nat }.

  (** tree.go:155-164 with cloneArgs (168-176): the children to go through next.  [a] is urlArgs,
      [queue] is nodes[nodeId:], [all] is allArgs *)
  Fixpoint push (seg : bytes) (rest : list bytes) (a : nat) (cs : list (node HS)) (queue : list went) (all : list nat)
           (k : list went -> list nat -> prog R) : prog R :=
    match cs with
    | [] => k queue all
    | c :: cs' =>
        if child_matches seg c
        then Get (fun id => copy_all a id (push seg rest a cs' (queue ++ [WEnt c rest id]) (all ++ [id]) k))
        else push seg rest a cs' queue all k
    end.

  (** tree.go:118-165: the loop; [k] is what follows the return *)
  Fixpoint loop (fuel : nat) (method : bytes) (inOut : nat) (queue : list went) (all : list nat)
           (k : tres HS -> prog R) : prog R :=
    match fuel with
    | O => release_all all (k TFuel)
    | S fuel' =>
        match queue with
        | [] => release_all all (k TNotFound)                                          (* 120-122 *)
        | e :: queue' =>
            match w_path e with
            | [] => release_all all (k TPanic)                                         (* paths[0] *)
            | p0 :: rest =>
                let n := w_node e in
                let a := w_args e in
                let go :=
                  match rest with
                  | [] =>                                                              (* 135-153 *)
                      match lookup_set method (n_handlers n) with
                      | Some s => copy_all a inOut (release_all all (k (TFound s)))
                      | None => release_all all (k TNotFound)
                      end
                  | p1 :: _ =>                                                         (* 155-164 *)
                      push p1 rest a (n_children n) queue' all (fun q' all' => loop fuel' method inOut q' all' k)
                  end in
                if negb (is_empty (n_urlid n)) then Add a (n_urlid n) p0 go            (* 129-130 *)
                else if negb (beq (n_path n) p0) then release_all all (k TNotFound)    (* 131-133 *)
                else go
            end
        end
    end.

  (** tree.go:86-166 Tree.Find *)
  Definition tree_find_prog (top : node HS) (method path : bytes) (inOut : nat) (k : tres HS -> prog R) : prog R :=
    Reset inOut                                                                         (* 87 *)
      match split_path path with
      | [_] =>                                                                          (* 90-103 *)
          match lookup_set method (n_handlers top) with
          | Some s => k (TFound s)
          | None => k TNotFound
          end
      | pathsIn =>
          New (fun a0 => loop (S (node_size top)) method inOut [WEnt top pathsIn a0] [a0] k)   (* 105-117 *)
      end.

  (** reg_tree.go:42-56 RegTree.Find; [order]: the iteration order of the map *)
  Definition reg_find_prog (matches : rgx -> bytes -> bool) (order : rmap HS -> rmap HS) (rt : rtree HS)
             (method path : bytes) (inOut : nat) (k : tres HS -> prog R) : prog R :=
    Reset inOut
      match aget method rt with
      | Some m =>
          match find (fun kv => matches (fst kv) path) (order m) with
          | Some (_, s) => k (TFound s)
          | None => k TNotFound
          end
      | None => k TNotFound
      end.

  (** server.go:131-141 Server.Find *)
  Definition server_find_prog (matches : rgx -> bytes -> bool) (order : rmap HS -> rmap HS) (top : node HS) (rt : rtree HS)
             (method path : bytes) (inOut : nat) (k : tres HS -> prog R) : prog R :=
    tree_find_prog top method path inOut (fun r =>
      match r with
      | TFound s => k (TFound s)
      | TNotFound => reg_find_prog matches order rt method path inOut k
      | r => k r                                                                        (* panics *)
      end).
End Lookup.
Arguments went HS : clear implicits.

(** what a handler does with Context.UrlIds() (ctx.go:162-164), and its result *)
Inductive hprog (X : Type) : Type :=
| HDone (x : X)
| HRead (k : args -> hprog X)
| HAdd (key value : bytes) (k : hprog X)
| HReset (k : hprog X).
Arguments HDone {X} x.
Arguments HRead {X} k.
Arguments HAdd {X} key value k.
Arguments HReset {X} k.

Section Server.
  Context {HS X : Type}.
  Fixpoint handle {R} (id : nat) (h : hprog X) (k : X -> prog R) : prog R :=
    match h with
    | HDone x => k x
    | HRead f => read_all id (fun a => handle id (f a) k)
    | HAdd key value h' => Add id key value (handle id h' k)
    | HReset h' => Reset id (handle id h' k)
    end.

  (** the outcome of a goroutine; [AFound]: what a call of Server.Find returned and the
      parameters it delivered; [AServed]: what the handlers made of the request *)
  Inductive answer :=
  | AFound (r : tres HS) (a : args)
  | AServed (s : HS) (x : X)
  | ANotFound
  | APanic.

  Variable matches : rgx -> bytes -> bool.
  Variable top : node HS.
  Variable rt : rtree HS.
  Variable handler : HS -> hprog X.                       (* what Run and RunLast do with the parameters *)

  (** a goroutine: one that serves a request, or one that calls Server.Find with an object of its
      own, in which it has put [k_had] before, and looks at it afterwards *)
  Record lookup := Lookup { k_serve : bool; k_order : rmap HS -> rmap HS; k_method : bytes; k_path : bytes; k_had : args }.

  (** server_run.go:123-167 runHTTP: the parameter object of a request *)
  Definition serve (c : lookup) : prog answer :=
    Get (fun id =>                                                                      (* 124 *)
      server_find_prog matches (k_order c) top rt (k_method c) (k_path c) id (fun r =>   (* 128 *)
        match r with
        | TFound s => handle id (handler s) (fun x => release id (Ret (AServed s x)))   (* 135-166 *)
        | TNotFound => release id (Ret ANotFound)                                       (* 129-133 *)
        | _ => release id (Ret APanic)
        end)).
  (** user code: args := &fasthttp.Args{}; args.Add(..); ..; res := server.Find(method, path, args) *)
  Definition call_find (c : lookup) : prog answer :=
    New (fun id => add_all id (k_had c)
      (server_find_prog matches (k_order c) top rt (k_method c) (k_path c) id (fun r =>
        read_all id (fun a => Ret (AFound r a))))).
  Definition code (c : lookup) : prog answer := if k_serve c then serve c else call_find c.
End Server.
Arguments answer HS X : clear implicits.
Arguments lookup HS : clear implicits.

(** ** All goroutines together *)
Section Run.
  Context {R : Type}.

  (** one operation: program, heap and pool before and after *)
  Inductive pstep : prog R -> list args -> list nat -> prog R -> list args -> list nat -> Prop :=
  | P_new : forall k h pl, pstep (New k) h pl (k (length h)) (h ++ [[]]) pl
  | P_fresh : forall k h pl, pstep (Get k) h pl (k (length h)) (h ++ [[]]) pl
  | P_reuse : forall k h p1 id p2, pstep (Get k) h (p1 ++ id :: p2) (k id) h (p1 ++ p2)
  | P_put : forall id k h pl, pstep (Put id k) h pl k h (id :: pl)
  | P_reset : forall id k h pl, pstep (Reset id k) h pl k (upd_nth id (fun _ => []) h) pl
  | P_add : forall id key value k h pl, pstep (Add id key value k) h pl k (upd_nth id (fun a => args_add a key value) h) pl
  | P_len : forall id k h pl, pstep (Len id k) h pl (k (length (nth id h []))) h pl
  | P_at : forall id i k h pl, pstep (At id i k) h pl (k (nth i (nth id h []) ([], []))) h pl.

  Record sys := Sys {
    y_heap : list args;           (* all objects, by number *)
    y_pool : list nat;            (* those in the pool *)
    y_gone : list nat;            (* those dropped from the pool by the garbage collector *)
    y_progs : list (prog R)       (* the goroutines *)
  }.
  Definition start (ps : list (prog R)) : sys := Sys [] [] [] ps.
  Inductive step : sys -> sys -> Prop :=
  | S_prog : forall h pl g l1 p l2 p' h' pl', pstep p h pl p' h' pl' ->
      step (Sys h pl g (l1 ++ p :: l2)) (Sys h' pl' g (l1 ++ p' :: l2))
  | S_gc : forall h p1 id p2 g ps, step (Sys h (p1 ++ id :: p2) g ps) (Sys h (p1 ++ p2) (id :: g) ps).
  Inductive many : sys -> sys -> Prop :=
  | M_none : forall y, many y y
  | M_more : forall x y z, many x y -> step y z -> many x z.
End Run.
Arguments sys R : clear implicits.
