(** Specification for lookups that share parameter objects. *)
From Verif Require Import Base M_Tree M_RegTree M_Pool.

(** What a handler gives when it alone uses parameters that start as [a]. *)
Fixpoint use {X} (h : hprog X) (a : args) : X :=
  match h with
  | HDone x => x
  | HRead f => use (f a) a
  | HAdd key value h' => use h' (a ++ [(key, value)])
  | HReset h' => use h' []
  end.

(** The outcome of a lookup or of a request when nothing else runs (the lookup of M_Tree and
    M_RegTree, which knows no objects). *)
Definition alone {HS X} (matches : rgx -> bytes -> bool) (top : node HS) (rt : rtree HS) (handler : HS -> hprog X)
           (c : lookup HS) : answer HS X :=
  let '(r, a) := server_find matches (k_order c) top rt (k_method c) (k_path c) [] in
  if k_serve c
  then match r with TFound s => AServed s (use (handler s) a) | TNotFound => ANotFound | _ => APanic end
  else AFound r a.

(** The next operation of a goroutine is on this object. *)
Inductive touches {R} : prog R -> nat -> Prop :=
| T_put : forall id k, touches (Put id k) id
| T_reset : forall id k, touches (Reset id k) id
| T_add : forall id key value k, touches (Add id key value k) id
| T_len : forall id k, touches (Len id k) id
| T_at : forall id i k, touches (At id i k) id.

(** Whoever works on an object is alone with it: it exists, nobody else works on it, it is not in the
    pool and not given up. *)
Definition exclusive {R} (y : sys R) : Prop :=
  forall l1 p l2 id, y_progs y = l1 ++ p :: l2 -> touches p id ->
    id < length (y_heap y) /\ ~ In id (y_pool y) /\ ~ In id (y_gone y) /\ (forall q, In q (l1 ++ l2) -> ~ touches q id).

Definition finished {R} (y : sys R) : Prop := forall p, In p (y_progs y) -> exists r, p = Ret r.

(** ** How many objects are made *)
(** One goroutine running alone, with a pool that gives out an object whenever it has one. *)
Inductive runs {R} : prog R -> list args -> list nat -> prog R -> list args -> list nat -> Prop :=
| R_none : forall p h pl, runs p h pl p h pl
| R_more : forall p h pl p1 h1 pl1 p2 h2 pl2, runs p h pl p1 h1 pl1 -> pstep p1 h1 pl1 p2 h2 pl2 ->
    ((exists k, p1 = Get k) -> pl1 <> [] -> h2 = h1) -> runs p h pl p2 h2 pl2.
(** Goroutines one after the other, each to its end: objects and pool before and after. *)
Inductive in_turn {R} : list (prog R) -> list args -> list nat -> list args -> list nat -> Prop :=
| I_none : forall h pl, in_turn [] h pl h pl
| I_more : forall p ps h pl r h1 pl1 h2 pl2, runs p h pl (Ret r) h1 pl1 -> in_turn ps h1 pl1 h2 pl2 -> in_turn (p :: ps) h pl h2 pl2.

(** The path of a lookup has segments ("/" has none). *)
Definition deep {HS} (c : lookup HS) : bool := 1 <? length (split_path (k_path c)).
(** A pool as earlier requests leave it: it holds no object twice, and only empty ones. *)
Definition sound_pool (h : list args) (pl : list nat) : Prop := NoDup pl /\ forall id, In id pl -> nth_error h id = Some [].
