(** Vocabulary for C148: the settings last made, and what a map shared with the caller holds. *)
From Verif Require Import Base GoStrings M_Auth S_Auth M_AuthMaps.

(** [v] is what the last operation selected by [sel] says, or [d] if there is none *)
Definition last_set {O A} (sel : O -> option A) (d : A) (os : list O) (v : A) : Prop :=
  (exists os1 o os2, os = os1 ++ o :: os2 /\ sel o = Some v /\ forall o', In o' os2 -> sel o' = None) \/
  (v = d /\ forall o, In o os -> sel o = None).
Definition sets_use (o : mop) := match o with MSetUse u => Some u | _ => None end.
Definition sets_message (o : mop) := match o with MSetMessage m c => Some (m, c) | _ => None end.
Definition sets_log (o : mop) := match o with MSetLog n => Some (Some n) | _ => None end.
Definition sets_access (o : mop) := match o with MSetAccess f => Some f | _ => None end.
Definition sets_roles (o : mop) := match o with MSetRoles id => Some id | _ => None end.
(** what an operation does to the entry of [k] in map [id] *)
Definition writes (id : nat) (k : bytes) (o : mop) : option (option bytes) :=
  match o with
  | MPut (Some i) k' v => if Nat.eqb i id && beq k' k then Some (Some v) else None
  | MDel (Some i) k' => if Nat.eqb i id && beq k' k then Some None else None
  | _ => None
  end.
Definition makes (os : list mop) : nat := length (filter (fun o => match o with MMake _ => true | _ => false end) os).
(** the entry of [k] in the map: in a nil map there is none *)
Definition entry (os : list mop) (id : option nat) (k : bytes) (v : option bytes) : Prop :=
  match id with
  | None => v = None
  | Some 0 => last_set (writes 0 k) None os v
  | Some i => exists os1 e os2, os = os1 ++ MMake e :: os2 /\ S (makes os1) = i /\ last_set (writes i k) (aget k e) os2 v
  end.
(** the user and password a request shows: those its header carries, the user in lower case, the password up to a colon; or nothing *)
Definition shown (uni : bytes -> bytes) (auth user pw : bytes) : Prop :=
  (exists u p, carries auth u p /\ user = to_lower uni u /\ pw = upto_colon p) \/
  ((forall u p, ~ carries auth u p) /\ user = [] /\ pw = []).
Definition logged (log : option bool) (user pw : bytes) (ok : bool) : list event :=
  match log with Some _ => [EvLog user pw ok] | None => [] end.
(** the map an operation names: one can only name maps already made *)
Definition names (o : mop) : option nat :=
  match o with MPut id _ _ => id | MDel id _ => id | MSetRoles id => id | _ => None end.
