(** Specification vocabulary for C75. *)
From Verif Require Import Base M_Tree M_Race.

(** two different threads are about to access the same location, one of them writing *)
Definition race (ths : list thread) : Prop :=
  exists i j h h' w w' l r r', i <> j /\
    nth_error ths i = Some (Th h (Acc w l :: r)) /\ nth_error ths j = Some (Th h' (Acc w' l :: r')) /\
    (w = true \/ w' = true).
Inductive runs : list thread -> list thread -> Prop :=
| runs_none : forall x, runs x x
| runs_more : forall x y z, runs x y -> tstep y z -> runs x z.
(** the given calls, started together, never race *)
Definition race_free (calls : list (list instr)) : Prop :=
  forall ths, runs (map (Th []) calls) ths -> ~ race ths.

(** the node at a position *)
Fixpoint node_at {HS} (p : list nat) (n : node HS) : option (node HS) :=
  match p with
  | [] => Some n
  | i :: p' => match nth_error (n_children n) i with Some c => node_at p' c | None => None end
  end.
