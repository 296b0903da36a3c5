(** A Server over its whole life (C122-C124). *)
From Verif Require Import Base GoErrors GoInt M_Run S_Run M_Life.
Local Open Scope Z_scope.

Definition alive (l : life) : Prop := many lstep new_server l.
Definition running (l : life) : Prop := r_result (l_rs l) = None.
(** Run is called *)
Definition starts (l l' : life) : Prop := lstep l l' /\ ~ running l /\ running l'.
(** steps during one Run; without signals; where Serve ends only because its listener was shut
    down (it does not fail, the certificate can be loaded) *)
Definition goes (l l' : life) : Prop := lstep l l' /\ running l.
Definition no_signal (l l' : life) : Prop := r_signal (l_rs l') = None.
Definition serve_ok (l l' : life) : Prop := served (l_rs l') -> served (l_rs l) \/ k_ln (r_core (l_rs l)) = LClosed.
Definition goes_without_signal (l l' : life) : Prop := goes l l' /\ no_signal l l'.
Definition goes_quietly (l l' : life) : Prop := goes l l' /\ no_signal l l' /\ serve_ok l l'.
(** steps while no Run is under way: setters, calls of Shutdown *)
Definition rests (l l' : life) : Prop := lstep l l' /\ ~ running l /\ ~ running l'.
(** calls of Shutdown so far, including those Run makes itself (and those that panicked) *)
Definition shutdowns (l : life) : nat := length (r_adds (l_rs l)).
Definition few_shutdowns (l : life) : Prop := Z.of_nat (shutdowns l) < two64.
(** a request can be accepted: the server serves a listener nobody has closed *)
Definition closed_listener (l : life) : Prop := exists x, l_ln l = Some x /\ ln_closed x = true.
Definition connected (l : life) : Prop := k_conns (r_core (l_rs l)) = true.
(** TLS layers around the connections the underlying server accepts *)
Definition layers (l : life) : nat := match l_ln l with Some x => ln_layers x | None => 0 end.
Definition serving (l : life) : Prop := r_serve (l_rs l) = SServing.
(** a call of Shutdown did something to the underlying server *)
Definition got_there (l : life) (i : nat) : Prop := reached (l_rs l) i.
