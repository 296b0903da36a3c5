(** Model of a BaseAuth together with the Go maps it shares with the caller: SetRoles keeps the
    caller's map and Roles returns the one in use (/repo/baseauth.go:78-85), so that both see
    later changes.  Maps are identified by number in the order they are made; map 0 is the one
    NewBaseAuth makes (baseauth.go:39).  Simplification: the operations happen one after the
    other (a Go map changed while a request reads it is a data race). *)
From Verif Require Import Base GoStrings M_Auth.

Inductive mop :=
| MMake (entries : list (bytes * bytes))               (* the caller makes a map *)
| MPut (id : option nat) (k v : bytes)                 (* m[k] = v; None is a nil map *)
| MDel (id : option nat) (k : bytes)                   (* delete(m, k) *)
| MSetRoles (id : option nat)                          (* baseauth.go:78-81 SetRoles *)
| MSetMessage (message charset : bytes) | MSetAccess (f : option (request -> res bool))
| MSetLog (is_nil : bool) | MSetUse (u : bool).        (* baseauth.go:47-72 *)

Record mstate := MState { m_maps : list (list (bytes * bytes)); m_roles : option nat; m_auth : base_auth }.
(** baseauth.go:35-45 NewBaseAuth *)
Definition m_new : mstate := MState [[]] (Some 0) new_auth.
(** reading a nil map finds nothing *)
Definition contents (maps : list (list (bytes * bytes))) (id : option nat) : list (bytes * bytes) :=
  match id with Some i => nth i maps [] | None => [] end.
Definition exists_map (maps : list (list (bytes * bytes))) (id : nat) : bool := id <? length maps.
(** writing to a nil map panics, deleting from it does not; a map must have been made *)
Definition m_step (st : mstate) (o : mop) : res mstate :=
  let setting a := Ok (MState (m_maps st) (m_roles st) (auth_step (m_auth st) a)) in
  match o with
  | MMake e => Ok (MState (m_maps st ++ [e]) (m_roles st) (m_auth st))
  | MPut None _ _ => Panic
  | MPut (Some i) k v =>
      if exists_map (m_maps st) i then Ok (MState (upd_nth i (aput k v) (m_maps st)) (m_roles st) (m_auth st)) else Panic
  | MDel None _ => Ok st
  | MDel (Some i) k =>
      if exists_map (m_maps st) i then Ok (MState (upd_nth i (adel k) (m_maps st)) (m_roles st) (m_auth st)) else Panic
  | MSetRoles None => Ok (MState (m_maps st) None (m_auth st))
  | MSetRoles (Some i) => if exists_map (m_maps st) i then Ok (MState (m_maps st) (Some i) (m_auth st)) else Panic
  | MSetMessage m c => setting (SetMessage m c)
  | MSetAccess f => setting (SetCheckAccessFunc f)
  | MSetLog n => setting (SetLogFunc n)
  | MSetUse u => setting (SetUse u)
  end.
Fixpoint m_run (st : mstate) (os : list mop) : res mstate :=
  match os with
  | [] => Ok st
  | o :: os' => match m_step st o with Ok st' => m_run st' os' | Panic => Panic end
  end.
(** the authentication object a request meets (baseauth.go:87-107 reads h.roles at that time) *)
Definition as_auth (st : mstate) : base_auth := auth_step (m_auth st) (SetRoles (contents (m_maps st) (m_roles st))).
(** baseauth.go:83-85 Roles, 74-76 Use, 65-67 Message *)
Definition roles_of (st : mstate) : option nat := m_roles st.
Definition use_of (st : mstate) : bool := a_use (m_auth st).
Definition message_of (st : mstate) : bytes := a_message (m_auth st).
