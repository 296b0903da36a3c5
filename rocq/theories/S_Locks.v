(** Goroutines that call the package (C119-C121). *)
From Verif Require Import Base M_Locks.

Inductive run : sys -> sys -> nat -> Prop :=
| run_none : forall y, run y y 0
| run_more : forall x y z n, run x y n -> step y z -> run x z (S n).
(** goroutine number [i] has made all its calls; is in user code that never returns *)
Definition returned (y : sys) (i : nat) : Prop := nth_error (y_threads y) i = Some [].
Definition asleep (y : sys) (i : nat) : Prop := exists k, nth_error (y_threads y) i = Some (Halt :: k).
(** nobody can go on *)
Definition stuck (y : sys) : Prop := forall y', ~ step y y'.

(** ** What a call does, including the calls user code makes inside it *)
Inductive obj := OSet (s : nat) | OLogger (l : nat).
(** [part c x]: the call [c], made by user code, makes the call [x] (itself, or further inside) *)
Inductive part : call -> call -> Prop :=
| part_refl : forall c, part c c
| part_log : forall l user c x, In c user -> part c x -> part (CLog l user) x
| part_debugf : forall l cf user c x, In c user -> part c x -> part (CDebugf l cf user) x
| part_sdebugf : forall user c x, In c user -> part c x -> part (CServerDebugf user) x
| part_serve : forall n s auth ses run ab last c x, In c (auth ++ ses ++ run ++ last) -> part c x ->
    part (CServe n s auth ses run ab last) x.
Definition makes (ts : list (list call)) (x : call) : Prop := exists t c, In t ts /\ In c t /\ part c x.

(** the handler set a call modifies (or clones), the one it runs *)
Definition modifies (x : call) (s : nat) : Prop := x = CSet s \/ x = CAdd s.
Definition handles (x : call) (s : nat) : Prop := exists n auth ses run ab last, x = CServe n s auth ses run ab last.
Definition logger_of (x : call) (l : nat) : Prop :=
  match x with
  | CLogger l' | CStdKeys l' _ | CGetConfig l' _ | CSetConfig l' _ | CLogClone l' _ | CLog l' _ | CDebugf l' _ _ => l' = l
  | _ => False
  end.
Definition uses (x : call) (o : obj) : Prop :=
  match o with OSet s => modifies x s \/ handles x s | OLogger l => logger_of x l end.
(** user code called while the object is in use: the handlers of a request, a logger's Writer *)
Definition code_inside (x : call) (o : obj) (c : call) : Prop :=
  match x, o with
  | CServe _ s _ _ run _ last, OSet s' => s = s' /\ (In c run \/ In c last)
  | CLog l user, OLogger l' => l = l' /\ In c user
  | _, _ => False
  end.
(** [b] is used by code that runs inside [a] *)
Definition nested (ts : list (list call)) (a b : obj) : Prop :=
  exists x c y, makes ts x /\ code_inside x a c /\ part c y /\ uses y b.
Definition modified (ts : list (list call)) (s : nat) : Prop := exists x, makes ts x /\ modifies x s.
Definition in_use (ts : list (list call)) (s : nat) : Prop := exists x, makes ts x /\ handles x s.
(** no user code hangs; in Writers only *)
Definition no_block (ts : list (list call)) : Prop := ~ makes ts CBlock.
Definition writers_return (ts : list (list call)) : Prop :=
  forall x l c, makes ts x -> code_inside x (OLogger l) c -> ~ part c CBlock.
(** sets whose lock can keep somebody waiting, and all loggers *)
Definition contended (ts : list (list call)) (o : obj) : Prop :=
  match o with OSet s => modified ts s | OLogger _ => True end.
(** the objects can be numbered such that code inside one uses only lower ones *)
Definition ordered (ts : list (list call)) (num : obj -> nat) : Prop :=
  forall a b, nested ts a b -> contended ts a -> contended ts b -> num b < num a.
