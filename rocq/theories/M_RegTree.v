(** Model of /repo/reg_tree.go and of Server.Find (/repo/server.go:131-141). *)
From Verif Require Import Base GoStrings M_Tree.

Section RegTree.
  Context {HS : Type}.

  (** A *regexp.Regexp is identified by its address (map key is the pointer). *)
  Definition rgx := nat.
  (** map[*regexp.Regexp]*HandlerSet *)
  Definition rmap := list (rgx * HS).
  (** reg_tree.go:9-11 RegTree: map[Method]map[*regexp.Regexp]*HandlerSet *)
  Definition rtree := list (bytes * rmap).

  (** reg_tree.go:13-27 newRegTree *)
  Definition new_reg_tree : rtree :=
    [(MethodGet, []); (MethodHead, []); (MethodPost, []); (MethodPut, []); (MethodPatch, []);
     (MethodDelete, []); (MethodConnect, []); (MethodOptions, []); (MethodTrace, [])].

  Definition rput (re : rgx) (s : HS) (m : rmap) : rmap :=
    (re, s) :: filter (fun kv => negb (Nat.eqb re (fst kv))) m.

  (** rt.Handlers[method][path] = set: the inner map is nil for an unknown
      method, and assignment to an entry of a nil map panics *)
  Definition reg_put (rt : rtree) (method : bytes) (re : rgx) (set : HS) : res rtree :=
    match aget method rt with
    | Some m => Ok (aput method (rput re set m) rt)
    | None => Panic
    end.

  Definition rbind {A C} (x : res A) (f : A -> res C) : res C :=
    match x with Ok a => f a | Panic => Panic end.

  (** reg_tree.go:29-40 RegTree.Add *)
  Definition reg_add (rt : rtree) (method : bytes) (re : rgx) (set : HS) : res rtree :=
    if beq method MethodGetPost then
      rbind (reg_put rt MethodGet re set) (fun rt' => reg_put rt' MethodPost re set)
    else if beq method MethodGetHead then
      rbind (reg_put rt MethodGet re set) (fun rt' => reg_put rt' MethodHead re set)
    else reg_put rt method re set.

  (** Environment: regexp.MatchString. *)
  Variable matches : rgx -> bytes -> bool.

  (** reg_tree.go:42-56 RegTree.Find.  [order] is the (arbitrary, possibly
      different for every call) iteration order of the Go map.  The second
      component is the final content of args (Reset at line 43). *)
  Definition reg_find (order : rmap -> rmap) (rt : rtree) (method path : bytes)
    : tres HS * args :=
    match aget method rt with
    | Some m =>
        match find (fun kv => matches (fst kv) path) (order m) with
        | Some (_, s) => (TFound s, [])
        | None => (TNotFound, [])
        end
    | None => (TNotFound, [])
    end.

  (** server.go:131-141 Server.Find *)
  Definition server_find (order : rmap -> rmap) (top : node HS) (rt : rtree)
             (method path : bytes) (inOut : args) : tres HS * args :=
    match tree_find top method path inOut with
    | (TFound s, a) => (TFound s, a)
    | (TNotFound, a) =>
        match reg_find order rt method path with
        | (TFound s, a') => (TFound s, a')
        | (r, a') => (r, a')
        end
    | (r, a) => (r, a)                                    (* panic / fuel: propagated *)
    end.
End RegTree.
Arguments rmap HS : clear implicits.
Arguments rtree HS : clear implicits.
