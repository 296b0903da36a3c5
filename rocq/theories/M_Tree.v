(** Model of /repo/tree.go and /repo/methods.go: the path routing tree. *)
From Verif Require Import Base GoStrings.

(** methods.go:11-23 (fasthttp.MethodX are the usual upper-case names;
    MethodGetPost and MethodGetHead are the concatenations) *)
Definition MethodGet := B"GET".
Definition MethodHead := B"HEAD".
Definition MethodPost := B"POST".
Definition MethodPut := B"PUT".
Definition MethodPatch := B"PATCH".
Definition MethodDelete := B"DELETE".
Definition MethodConnect := B"CONNECT".
Definition MethodOptions := B"OPTIONS".
Definition MethodTrace := B"TRACE".
Definition MethodGetPost := B"GETPOST".
Definition MethodGetHead := B"GETHEAD".

(** fasthttp.Args (environment): an ordered list of key/value pairs.
    Add / AddBytesKV append, Reset empties, VisitAll goes through in order. *)
Definition args := list (bytes * bytes).
Definition args_add (a : args) (k v : bytes) : args := a ++ [(k, v)].

(** tree.go:53-63 splitPath *)
Definition split_path (path : bytes) : list bytes :=
  let p := trim_space ("/"%char :: trim "/"%char (trim_space path)) in
  if beq p (B"/") || is_empty p then [B"/"]
  else match split "/"%char p with
       | _ :: out => B"/" :: out            (* out[0] = "/" *)
       | [] => []                           (* strings.Split never returns an empty slice here *)
       end.

(** tree.go:192-197 getUrlID: (path, urlId) *)
Definition get_url_id (p : bytes) : bytes * bytes :=
  if has_prefix p (B":") then ([], trim_left ":"%char p) else (p, []).

Section Tree.
  (** *HandlerSet values are opaque to the tree; nil is [None]. *)
  Context {HS : Type}.

  (** map[Method]*HandlerSet *)
  Definition hmap := list (bytes * option HS).

  (** tree.go:14-22 Node.  The embedded RWMutex is modelled in M_Race.v. Nodes
      are created with a single parent and never shared (tree.go:206-211,
      223-231), so the pointer graph is a tree and in-place mutation is
      functional update. *)
  Inductive node := Node {
    n_children : list node;
    n_path : bytes;
    n_urlid : bytes;
    n_handlers : hmap
  }.

  (** tree.go:24-32 newTree (the Tree is its Top node) *)
  Definition new_tree : node := Node [] (B"/") [] [].

  (** tree.go:34-46 nextNodes: positions of the selected children *)
  Fixpoint find_child (path : bytes) (children : list node) (i : nat) : list nat :=
    match children with
    | [] => []
    | c :: cs => if beq (n_path c) path then [i] else find_child path cs (S i)
    end.
  Definition next_nodes (path urlId : bytes) (children : list node) : list nat :=
    if negb (is_empty urlId) then seq 0 (length children)
    else find_child path children 0.

  (** tree.go:65-78 addMethod *)
  Definition add_method (method : bytes) (handlers : hmap) (set : option HS) : hmap :=
    if beq method MethodGetPost then aput MethodGet set (aput MethodPost set handlers)
    else if beq method MethodGetHead then aput MethodHead set (aput MethodGet set handlers)
    else aput method set handlers.

  (** tree.go:222-234 (and 205-211 for a single segment): the chain of fresh
      nodes for the segments [p :: rest] *)
  Fixpoint chain (method : bytes) (p : bytes) (rest : list bytes) (set : option HS) : node :=
    let '(path, urlId) := get_url_id p in
    match rest with
    | [] => Node [] path urlId (add_method method [] set)
    | q :: rest' => Node [chain method q rest' set] path urlId []
    end.

  Definition set_children (n : node) (cs : list node) : node :=
    Node cs (n_path n) (n_urlid n) (n_handlers n).
  Definition set_handlers (n : node) (h : hmap) : node :=
    Node (n_children n) (n_path n) (n_urlid n) h.

  (** tree.go:199-241 _add; the argument slice [paths] is non-empty and given as
      its first element and the rest *)
  Fixpoint add_rec (n : node) (method : bytes) (p : bytes) (rest : list bytes)
           (set : option HS) {struct rest} : node :=
    let next := next_nodes p (n_urlid n) (n_children n) in
    match rest with
    | [] =>
        match next with
        | [] => set_children n (n_children n ++ [chain method p [] set])
        | _ => set_children n
                 (fold_left (fun cs i =>
                    upd_nth i (fun c => set_handlers c (add_method method (n_handlers c) set)) cs)
                    next (n_children n))
        end
    | q :: rest' =>
        match next with
        | [] => set_children n (n_children n ++ [chain method p rest set])
        | _ => set_children n
                 (fold_left (fun cs i =>
                    upd_nth i (fun c => add_rec c method q rest' set) cs)
                    next (n_children n))
        end
    end.

  (** tree.go:178-190 Tree.Add *)
  Definition tree_add (top : node) (method path : bytes) (set : option HS) : node :=
    match split_path path with
    | _ :: p :: rest => add_rec top method p rest set
    | _ => set_handlers top (add_method method (n_handlers top) set)
    end.

  (** tree.go:80-84 nextNode: a work-queue entry *)
  Record qent := QEnt { q_node : node; q_path : list bytes; q_args : args }.

  (** Outcome of the search; FPanic = index out of range on an empty path slice,
      FFuel = model fuel exhausted (both proved impossible). *)
  Inductive fout :=
  | FFound (s : HS) (a : args)
  | FNone
  | FPanic
  | FFuel.

  (** tree.go:137-140: handlers, find := node.Handlers[method]; find && handlers != nil *)
  Definition lookup_set (method : bytes) (h : hmap) : option HS :=
    match aget method h with Some (Some s) => Some s | _ => None end.

  (** tree.go:156: which children are pushed for the next segment *)
  Definition child_matches (seg : bytes) (c : node) : bool :=
    beq (n_path c) seg || negb (is_empty (n_urlid c)).

  (** tree.go:118-165: the loop; [queue] is nodes[nodeId:] *)
  Fixpoint find_loop (fuel : nat) (method : bytes) (queue : list qent) : fout :=
    match fuel with
    | O => FFuel
    | S fuel' =>
        match queue with
        | [] => FNone                                             (* 120-122 *)
        | e :: queue' =>
            match q_path e with
            | [] => FPanic                                        (* paths[0] *)
            | p0 :: rest =>
                let n := q_node e in
                if is_empty (n_urlid n) && negb (beq (n_path n) p0)
                then FNone                                        (* 131-133 *)
                else
                  let a := if is_empty (n_urlid n) then q_args e
                           else args_add (q_args e) (n_urlid n) p0 in   (* 129-130 *)
                  match rest with
                  | [] =>                                         (* 135-153 *)
                      match lookup_set method (n_handlers n) with
                      | Some s => FFound s a
                      | None => FNone
                      end
                  | p1 :: _ =>                                    (* 155-164 *)
                      find_loop fuel' method
                        (queue' ++
                         map (fun c => QEnt c rest a)
                             (filter (child_matches p1) (n_children n)))
                  end
            end
        end
    end.

  (** number of nodes, used only as the fuel of the loop *)
  Fixpoint node_size (n : node) : nat :=
    S (fold_right (fun c k => node_size c + k) 0 (n_children n)).

  (** tree.go:48-51 TreeResult: Find=true with its HandlerSet, or the zero value;
      the other two constructors are the abnormal outcomes of the loop. *)
  Inductive tres :=
  | TFound (s : HS)
  | TNotFound
  | TPanic
  | TFuel.

  (** tree.go:86-166 Tree.Find: result and final content of inOutArgs *)
  Definition tree_find (top : node) (method path : bytes) (inOut : args) : tres * args :=
    let inOut0 : args := [] in                                    (* inOutArgs.Reset() *)
    match split_path path with
    | [_] =>                                                      (* 90-103 *)
        match lookup_set method (n_handlers top) with
        | Some s => (TFound s, inOut0)
        | None => (TNotFound, inOut0)
        end
    | pathsIn =>
        match find_loop (S (node_size top)) method [QEnt top pathsIn []] with
        | FFound s a => (TFound s, inOut0 ++ a)                   (* 142-149 *)
        | FNone => (TNotFound, inOut0)
        | FPanic => (TPanic, inOut0)
        | FFuel => (TFuel, inOut0)
        end
    end.
End Tree.
Arguments node HS : clear implicits.
Arguments hmap HS : clear implicits.
Arguments fout HS : clear implicits.
Arguments qent HS : clear implicits.
Arguments tres HS : clear implicits.
