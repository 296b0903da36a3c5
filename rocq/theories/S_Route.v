(** Specification of path routing, independent of the routing tree: routes are
    patterns, a table is the plain list of registrations in order. *)
From Verif Require Import Base GoStrings M_Tree.

(** A route segment is a literal or a parameter. *)
Inductive seg := Lit (s : bytes) | Par (name : bytes).

(** Segments of a path or route string (without the root element). *)
Definition segments (path : bytes) : list bytes := tl (split_path path).

(** ":name" (any positive number of colons) is a parameter, everything else is literal. *)
Definition seg_of (p : bytes) : seg :=
  match p with
  | ":"%char :: _ => Par (drop_while (Ascii.eqb ":"%char) p)
  | _ => Lit p
  end.
Definition pattern_of (route : bytes) : list seg := map seg_of (segments route).

(** Well-formed segment: a non-empty literal or a parameter with a non-empty name. *)
Definition wf_segb (p : bytes) : bool :=
  match seg_of p with Lit s => negb (is_empty s) | Par n => negb (is_empty n) end.
Definition wf_routeb (route : bytes) : bool := forallb wf_segb (segments route).
Definition is_lit (g : seg) : bool := match g with Lit _ => true | Par _ => false end.
Definition literal_routeb (route : bytes) : bool :=
  wf_routeb route && forallb is_lit (pattern_of route).

(** Same segments, in order. *)
Definition same_segs (x y : list bytes) : bool :=
  if list_eq_dec (list_eq_dec ascii_dec) x y then true else false.

(** A pattern segment fits a path segment. *)
Definition seg_fits (g : seg) (x : bytes) : bool :=
  match g with Lit s => beq s x | Par _ => true end.
(** The pattern fits the path, segment by segment, same length. *)
Definition fits (pat : list seg) (path : list bytes) : Prop :=
  Forall2 (fun g x => seg_fits g x = true) pat path.
(** A prefix of the pattern fits the entire path. *)
Definition prefix_fits (pat : list seg) (path : list bytes) : Prop :=
  exists p1 p2, pat = p1 ++ p2 /\ fits p1 path.

(** Parameter bindings, left to right. *)
Fixpoint bindings (pat : list seg) (path : list bytes) : args :=
  match pat, path with
  | Lit _ :: pat', _ :: path' => bindings pat' path'
  | Par n :: pat', x :: path' => (n, x) :: bindings pat' path'
  | _, _ => []
  end.

(** A registration with method [rm] answers requests with method [m]. *)
Definition covers (rm m : bytes) : bool :=
  if beq rm MethodGetPost then beq m MethodGet || beq m MethodPost
  else if beq rm MethodGetHead then beq m MethodGet || beq m MethodHead
  else beq rm m.

Section Table.
  Context {HS : Type}.

  (** One registration: Add(method, route, set) with a non-nil set. *)
  Record reg := Reg { r_method : bytes; r_route : bytes; r_set : HS }.

  (** The router state after a history of registrations. *)
  Definition add_all (t : node HS) (regs : list reg) : node HS :=
    fold_left (fun t r => tree_add t (r_method r) (r_route r) (Some (r_set r))) regs t.
  Definition routed (regs : list reg) : node HS := add_all new_tree regs.

  (** The most recent registration satisfying a test. *)
  Definition latest (f : reg -> bool) (regs : list reg) : option reg := find f (rev regs).

  (** ** Reference search on the plain table (property C05). *)
  Definition entry := (list seg * (bytes * HS))%type.
  Definition entry_of (r : reg) : entry := (pattern_of (r_route r), (r_method r, r_set r)).

  (** Alternatives by first segment, in order of first appearance: one shared
      alternative per literal, a private one per parametric registration. *)
  Definition same_lit (g h : seg) : bool :=
    match g, h with Lit a, Lit b => beq a b | _, _ => false end.
  Fixpoint ins_alt (h : seg) (e : entry) (gs : list (seg * list entry))
    : list (seg * list entry) :=
    match gs with
    | [] => [(h, [e])]
    | (g, tb) :: gs' =>
        if same_lit h g then (g, tb ++ [e]) :: gs' else (g, tb) :: ins_alt h e gs'
    end.
  Definition step_alt (gs : list (seg * list entry)) (e : entry) :=
    match e with
    | (h :: t, v) => ins_alt h (t, v) gs
    | ([], _) => gs
    end.
  Definition alternatives (tbl : list entry) : list (seg * list entry) :=
    fold_left step_alt tbl [].

  Definition bind (g : seg) (x : bytes) : args :=
    match g with Lit _ => [] | Par n => [(n, x)] end.

  (** All end points reached by [path], in search order, each with the
      registrations ending there and the bindings collected on the way. *)
  Fixpoint endpoints (path : list bytes) (tbl : list entry) (b : args)
    : list (list (bytes * HS) * args) :=
    match path with
    | [] => [(flat_map (fun e => match fst e with [] => [snd e] | _ => [] end) tbl, b)]
    | x :: rest =>
        flat_map (fun ga => if seg_fits (fst ga) x
                            then endpoints rest (snd ga) (b ++ bind (fst ga) x)
                            else [])
                 (alternatives tbl)
    end.

  (** The latest registration at an end point that answers [m]. *)
  Definition answer (m : bytes) (hs : list (bytes * HS)) : option HS :=
    match find (fun e => covers (fst e) m) (rev hs) with
    | Some (_, s) => Some s
    | None => None
    end.

  (** The first end point decides alone. *)
  Definition ref_find (tbl : list entry) (m : bytes) (path : list bytes) : tres HS * args :=
    match endpoints path tbl [] with
    | (hs, b) :: _ => match answer m hs with Some s => (TFound s, b) | None => (TNotFound, []) end
    | [] => (TNotFound, [])
    end.
End Table.
Arguments reg HS : clear implicits.
Arguments entry HS : clear implicits.
