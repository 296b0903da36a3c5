(** Specification vocabulary for the server's life (C71-C74). *)
From Verif Require Import Base GoErrors M_Run.

(** zero or more steps *)
Inductive many {A} (R : A -> A -> Prop) : A -> A -> Prop :=
| many_refl : forall x, many R x x
| many_step : forall x y z, many R x y -> R y z -> many R x z.
Section Spec.
  Variables with_timeout tls : bool.
  Definition reachable (s : rs) : Prop := many (step with_timeout tls) start s.
  (** nothing happens any more unless something happens to the program *)
  Definition stuck (s : rs) : Prop := forall t, ~ istep with_timeout s t.
  (** whatever the program does, without anything happening to it, [P] holds after finitely
      many steps *)
  Inductive inevitably (P : rs -> Prop) : rs -> Prop :=
  | now : forall s, P s -> inevitably P s
  | later : forall s, (exists t, istep with_timeout s t) ->
      (forall t, istep with_timeout s t -> inevitably P t) -> inevitably P s.
  (** the watcher has, or can take, a reason to shut down *)
  Definition cancelled (s : rs) : Prop := k_parent (r_core s) = true.
  Definition awake (s : rs) : Prop :=
    r_watch s <> WSelect \/ group_done s = true \/ r_signal s <> None.
  (** the listener is known to the underlying server, and no shutdown came before that *)
  Definition listening_done (s : rs) : Prop := k_ln (r_core s) <> LNone /\ k_lost (r_core s) = false.
  Definition served (s : rs) : Prop := exists r, r_serve s = SDone r.
  Definition watched (s : rs) : Prop := exists r, r_watch s = WDone r.
  Definition returned (s : rs) : Prop := r_result s <> None.
  (** the [i]-th call of Shutdown got to the underlying server; it returned without that *)
  Definition reached (s : rs) (i : nat) : Prop :=
    exists x, nth_error (r_callers s) i = Some x /\ ((exists sh, x = CShut sh) \/ exists r, x = CRet true r).
  Definition refused (s : rs) (i : nat) : Prop := exists r, nth_error (r_callers s) i = Some (CRet false r).
  (** Run's own call of Shutdown, made when its context is cancelled, got there *)
  Definition run_reached (s : rs) : Prop := In (OWatch, true) (r_adds s).
End Spec.
