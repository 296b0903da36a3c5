(** Specification vocabulary for the request pipeline (C18-C28). *)
From Verif Require Import Base GoErrors M_Pipeline.

(** The complete pipeline in order, with or without the main handler. *)
Definition pipeline (s : hset) (with_main : bool) : list who :=
  [WInit] ++ map WBefore (seq 0 (length (hs_before s)))
  ++ (if with_main then [WMain] else [])
  ++ map WAfter (seq 0 (length (hs_after s))).

(** Who was called, in order. *)
Definition whos (ks : list call) : list who := map k_who ks.

(** What a call asked for. *)
Definition asks (a : action) (k : call) : Prop := In a (k_acts k).
Definition asks_stop (k : call) : Prop := asks AStop k \/ asks AAbort k.
Definition returns_nil (k : call) : Prop := k_out k = HRet None.

(** Init or a before handler. *)
Definition early (w : who) : Prop := w = WInit \/ exists i, w = WBefore i.

(** The call [k] is a call of the handler its label names: it carries that
    handler's name and did what that handler does in the context it was given. *)
Definition does (k : call) (name : bytes) (b : ctx -> beh) : Prop :=
  k_name k = name /\ b (k_seen k) = (k_acts k, k_out k).
Definition genuine (s : hset) (k : call) : Prop :=
  match k_who k with
  | WInit => exists m, hs_main s = Some m /\ does k (m_name m) (m_init m)
  | WBefore i => exists h, nth_error (hs_before s) i = Some h /\ does k (h_name h) (h_run h)
  | WMain => exists m, hs_main s = Some m /\ does k (m_name m) (m_run m)
  | WAfter i => exists h, nth_error (hs_after s) i = Some h /\ does k (h_name h) (h_run h)
  | _ => False
  end.

(** Context left behind by a call. *)
Definition left_by (k : call) : ctx := apply (k_seen k) (k_acts k).

(** Results of the functions handed to EGGo by a list of calls, in order. *)
Definition started (k : call) : list (option err) :=
  flat_map (fun a => match a with AGo r => [r] | _ => [] end) (k_acts k).
Definition all_started (ks : list call) : list (option err) := flat_map started ks.

(** [sched] is a legal completion order. *)
Definition legal_order (sched : list (option err) -> list (option err)) : Prop :=
  forall l, Permutation (sched l) l.
