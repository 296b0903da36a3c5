(** Specification of which of several overlapping routes answers (C128). *)
From Verif Require Import Base GoStrings M_Tree S_Route.

(** [pat i P]: the i-th registration has pattern P. *)
Section Choice.
  Variable pat : nat -> list seg -> Prop.
  (** Two registrations begin with the same [k] literal segments (a registration is always
      together with itself; routes that only have parameters of the same name in common are not). *)
  Definition together (k i j : nat) : Prop :=
    i = j \/ exists p P Q, length p = k /\ pat i (map Lit p ++ P) /\ pat j (map Lit p ++ Q).
  (** [t] is the registration that opened the branch registration [i] is on for its first [k] segments. *)
  Definition opened (k i t : nat) : Prop := together k t i /\ forall u, together k u i -> t <= u.
  (** They are together for [k] segments and the branch [i] takes then was opened first. *)
  Definition before (i j : nat) : Prop :=
    exists k t u, together k i j /\ opened (S k) i t /\ opened (S k) j u /\ t < u.
  (** A prefix of the route (perhaps all of it) fits the whole path. *)
  Definition reaches (path : list bytes) (i : nat) : Prop := exists P, pat i P /\ prefix_fits P path.
  (** Ahead of, or for the whole path together with, everyone else. *)
  Definition goes_first (path : list bytes) (i : nat) : Prop :=
    reaches path i /\ forall j, reaches path j -> together (length path) i j \/ before i j.
End Choice.
Definition pattern_at {HS} (regs : list (reg HS)) (i : nat) (P : list seg) : Prop :=
  exists r, nth_error regs i = Some r /\ P = pattern_of (r_route r).

(** Registration [i] answers method [m] on [path]: its whole route fits, it goes first, and no later registration of the very same
    literal route answers [m]. *)
Definition answers {HS} (regs : list (reg HS)) (m : bytes) (path : list bytes) (i : nat) : Prop :=
  exists r, nth_error regs i = Some r /\ covers (r_method r) m = true /\ fits (pattern_of (r_route r)) path /\ goes_first (pattern_at regs) path i /\
    forall j r', nth_error regs j = Some r' -> together (pattern_at regs) (length path) i j -> length (pattern_of (r_route r')) = length path ->
      covers (r_method r') m = true -> j <= i.

(** A route added at the end takes over: it is the same literal route and answers the method, or it runs ahead on a branch that was opened
    before the one of registration [i]. *)
Definition takes_over {HS} (regs : list (reg HS)) (r : reg HS) (m : bytes) (path : list bytes) (i : nat) : Prop :=
  let all := pattern_at (regs ++ [r]) in let new := length regs in
  prefix_fits (pattern_of (r_route r)) path /\
  ((together all (length path) new i /\ length (pattern_of (r_route r)) = length path /\ covers (r_method r) m = true) \/
   (~ together all (length path) new i /\ before all new i)).

(** Every path that fits [P] is reached by [P']. *)
Definition as_general (P' P : list seg) : Prop :=
  exists P1 Q, P' = P1 ++ Q /\ Forall2 (fun g' g => match g' with Par _ => True | Lit _ => g = g' end) P1 P.
