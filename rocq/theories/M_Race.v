(** The accesses of registration and lookup to the shared router state, and the locks they
    are made under: /repo/tree.go:86-166 (Find), 178-241 (Add), /repo/reg_tree.go:29-56.
    A node is named by its position (the indices of the children on the way from the top).
    Path and UrlId are not listed: they are written before a node is published and never
    again.  Node.Handlers, its pointer and its map, is one location. *)
From Verif Require Import Base GoStrings M_Tree M_RegTree.

Definition pos := list nat.
Inductive field := FChildren | FHandlers.
Inductive loc :=
| LNode (p : pos) (f : field)
| LReg (method : bytes).       (* reg_tree.go:10: the inner map of that method *)
Inductive mode := MRead | MWrite.
Inductive instr :=
| Lock (m : mode) (p : pos)    (* node.RLock / node.Lock *)
| Unlock (m : mode) (p : pos)
| Acc (write : bool) (l : loc).

Section Traces.
  Context {HS : Type}.

  (** tree.go:185, 214: x.Handlers = addMethod(method, x.Handlers, set) *)
  Definition touch_handlers (p : pos) : list instr := [Acc false (LNode p FHandlers); Acc true (LNode p FHandlers)].
  (** tree.go:206, 230: x.Children = append(x.Children, n) *)
  Definition touch_children (p : pos) : list instr := [Acc false (LNode p FChildren); Acc true (LNode p FChildren)].

  (** tree.go:222-234: the chain below the node at [p]; its first node becomes child [k] *)
  Fixpoint chain_trace (p : pos) (k : nat) (rest : list bytes) : list instr :=
    touch_children p ++
    match rest with
    | [] => touch_handlers (p ++ [k])
    | _ :: rest' => chain_trace (p ++ [k]) 0 rest'
    end.

  (** tree.go:199-241 _add *)
  Fixpoint add_rec_trace (n : node HS) (at_ : pos) (p : bytes) (rest : list bytes) {struct rest} : list instr :=
    let next := next_nodes p (n_urlid n) (n_children n) in
    Acc false (LNode at_ FChildren) ::                                 (* 200 *)
    match rest with
    | [] =>
        match next with
        | [] => touch_children at_                                      (* 205-211 *)
        | _ => flat_map (fun i => touch_handlers (at_ ++ [i])) next     (* 213-215 *)
        end
    | q :: rest' =>
        match next with
        | [] => chain_trace at_ (length (n_children n)) rest            (* 221-235 *)
        | _ => flat_map (fun i => match nth_error (n_children n) i with
                                  | Some c => add_rec_trace c (at_ ++ [i]) q rest'
                                  | None => [] end) next                (* 238-240 *)
        end
    end.

  (** tree.go:178-190 Tree.Add *)
  Definition add_trace (top : node HS) (path : bytes) : list instr :=
    [Lock MWrite []] ++
    match split_path path with
    | _ :: p :: rest => add_rec_trace top [] p rest
    | _ => touch_handlers []
    end ++ [Unlock MWrite []].

  (** the children pushed by tree.go:155-164, with their indices *)
  Fixpoint indexed {A} (i : nat) (l : list A) : list (nat * A) :=
    match l with [] => [] | x :: l' => (i, x) :: indexed (S i) l' end.

  (** tree.go:118-165: the loop *)
  Fixpoint find_loop_trace (fuel : nat) (queue : list (pos * node HS * list bytes)) : list instr :=
    match fuel with
    | O => []
    | S fuel' =>
        match queue with
        | [] => []
        | (at_, n, paths) :: queue' =>
            match paths with
            | [] => []
            | p0 :: rest =>
                if is_empty (n_urlid n) && negb (beq (n_path n) p0) then []
                else match rest with
                     | [] => [Lock MRead at_; Acc false (LNode at_ FHandlers); Unlock MRead at_]   (* 136-138 *)
                     | p1 :: _ =>
                         Acc false (LNode at_ FChildren) ::                                        (* 155-156 *)
                         find_loop_trace fuel'
                           (queue' ++ map (fun ic => (at_ ++ [fst ic], snd ic, rest))
                                          (filter (fun ic => child_matches p1 (snd ic)) (indexed 0 (n_children n))))
                     end
            end
        end
    end.
  (** tree.go:86-166 Tree.Find *)
  Definition find_trace (top : node HS) (path : bytes) : list instr :=
    match split_path path with
    | [_] => [Lock MRead []; Acc false (LNode [] FHandlers); Unlock MRead []]   (* 91-103 *)
    | pathsIn => find_loop_trace (S (node_size top)) [([], top, pathsIn)]
    end.

  (** reg_tree.go:29-40 RegTree.Add (for a method it knows) *)
  Definition reg_add_trace (method : bytes) : list instr :=
    if beq method MethodGetPost then [Acc true (LReg MethodGet); Acc true (LReg MethodPost)]
    else if beq method MethodGetHead then [Acc true (LReg MethodGet); Acc true (LReg MethodHead)]
    else [Acc true (LReg method)].
  (** reg_tree.go:42-56 RegTree.Find *)
  Definition reg_find_trace (method : bytes) : list instr := [Acc false (LReg method)].
End Traces.

(** ** Threads and locks (environment: sync.RWMutex) *)
Record thread := Th { t_held : list (mode * pos); t_prog : list instr }.
Definition excludes (m m' : mode) : bool := match m, m' with MRead, MRead => false | _, _ => true end.
Definition same_lock (x y : mode * pos) : bool :=
  (match fst x, fst y with MRead, MRead | MWrite, MWrite => true | _, _ => false end) && (if list_eq_dec Nat.eq_dec (snd x) (snd y) then true else false).
Fixpoint release (x : mode * pos) (l : list (mode * pos)) : list (mode * pos) :=
  match l with [] => [] | y :: l' => if same_lock x y then l' else y :: release x l' end.
Inductive tstep : list thread -> list thread -> Prop :=
| T_lock : forall l1 l2 held m p prog,
    (forall th m', In th (l1 ++ Th held (Lock m p :: prog) :: l2) -> In (m', p) (t_held th) -> excludes m m' = false) ->
    tstep (l1 ++ Th held (Lock m p :: prog) :: l2) (l1 ++ Th ((m, p) :: held) prog :: l2)
| T_unlock : forall l1 l2 held m p prog,
    tstep (l1 ++ Th held (Unlock m p :: prog) :: l2) (l1 ++ Th (release (m, p) held) prog :: l2)
| T_acc : forall l1 l2 held w l prog,
    tstep (l1 ++ Th held (Acc w l :: prog) :: l2) (l1 ++ Th held prog :: l2).
