(** What a client makes of a Set-Cookie header: RFC 6265, section 5.2 (C113, C114). *)
From Verif Require Import Base GoStrings GoInt S_Static.

Definition is_wsp (c : ascii) : bool := Ascii.eqb c " " || Ascii.eqb c (ch 9).
Fixpoint skip_wsp (s : bytes) : bytes :=
  match s with c :: s' => if is_wsp c then skip_wsp s' else s | [] => [] end.
Definition strip (s : bytes) : bytes := rev (skip_wsp (rev (skip_wsp s))).
(** name and value around the first '=' *)
Definition name_value (s : bytes) : option (bytes * bytes) :=
  match cut "=" s with Some (n, v) => Some (strip n, strip v) | None => None end.
(** an attribute: its name in lower case; the value may be missing *)
Definition attribute (s : bytes) : bytes * bytes :=
  match cut "=" s with
  | Some (n, v) => (map lower_ascii (strip n), strip v)
  | None => (map lower_ascii (strip s), [])
  end.
Record received := Received { rc_name : bytes; rc_value : bytes; rc_attrs : list (bytes * bytes) }.
Definition client_reads (header : bytes) : option received :=
  match split ";" header with
  | nv :: attrs => match name_value nv with
                   | Some (n, v) => if is_empty n then None else Some (Received n v (map attribute attrs))
                   | None => None
                   end
  | [] => None
  end.
(** the last attribute of a name counts *)
Definition attr (r : received) (name : bytes) : option bytes :=
  match find (fun kv => beq (fst kv) name) (rev (rc_attrs r)) with Some (_, v) => Some v | None => None end.
(** how long the cookie lives, in seconds: None, until the client is closed; zero or less, it
    is deleted *)
Definition lifetime (r : received) : option Z :=
  match attr r (B"max-age") with
  | None => None
  | Some ("-"%char :: v) => match digits_val 0 v with Some n => Some (- n)%Z | None => None end
  | Some v => match v with [] => None | _ => digits_val 0 v end
  end.
(** a name the client can tell from the rest of the header; texts that cannot end the attribute *)
Definition plain (s : bytes) : Prop := ~ In ";"%char s /\ strip s = s.
Definition cookie_name (s : bytes) : Prop := s <> [] /\ ~ In "="%char s /\ plain s.
(** an absolute path without empty, "." or ".." elements before the last and without percent
    escapes: what normalising and decoding leave alone *)
Definition ordinary_path (p : bytes) : Prop := exists es last,
  p = "/"%char :: concat (map (fun e => e ++ B"/") es) ++ last /\ Forall good es /\
  ~ In "/"%char last /\ last <> B".." /\ no_escape p.

(** ** Several calls on one Context (C114) *)
From Verif Require Import M_SetCookie.
(** the SameSite mode after some calls *)
Fixpoint in_force (os : list cookie_op) (m : nat) : nat :=
  match os with
  | [] => m
  | OpSameSite m' :: os' => in_force os' m'
  | _ :: os' => in_force os' m
  end.
Definition sets (k : bytes) (o : cookie_op) : Prop :=
  match o with OpCookie n _ _ _ _ _ _ => n = k | OpSameSite _ => False end.
(** [ks]: the names used, each once, in the order of their first uses *)
Fixpoint first_uses (seen : list bytes) (os : list cookie_op) : list bytes :=
  match os with
  | [] => []
  | OpCookie n _ _ _ _ _ _ :: os' =>
      if existsb (fun k => beq k n) seen then first_uses seen os' else n :: first_uses (n :: seen) os'
  | OpSameSite _ :: os' => first_uses seen os'
  end.
