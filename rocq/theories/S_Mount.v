(** Specification vocabulary for static mounts (C99, C100). *)
From Verif Require Import Base GoStrings M_Tree S_Route M_Mount.

(** the path is the mount point, a slash, and anything *)
Definition below (url path : bytes) : Prop := exists rest, path = url ++ "/"%char :: rest.

(** ASCII characters without a meaning in a regular expression *)
Definition ordinary (c : ascii) : Prop := ~ In c (B"\.+*?()|[]{}^$") /\ (bv c < 128)%N.
Definition plain_url (url : bytes) : Prop := Forall ordinary url.
(** ... or dots *)
Definition dotted_url (url : bytes) : Prop := Forall (fun c => ordinary c \/ c = "."%char) url.

Section Claims.
  Context {U : Type}.
  Variable other : bytes -> option matcher.

  (** the registration is made for requests like this one *)
  Definition claims (o : op U) (m path : bytes) : Prop :=
    match o with
    | OAdd rm route _ _ => covers rm m = true /\ fits (pattern_of route) (segments path)
    | OFixStaticFileFS _ url _ _ => covers MethodGetPost m = true /\ fits (pattern_of url) (segments path)
    | OAddReg rm f _ _ => covers rm m = true /\ f path = true
    | OStaticFile _ url _ | OStaticFileFS _ url _ _ =>
        In m [B"GET"; B"HEAD"] /\ exists f, compile other (B"^" ++ url ++ B"/.*") = Some f /\ f path = true
    end.
  (** path routes have proper segments *)
  Definition proper (o : op U) : Prop :=
    match o with
    | OAdd _ route _ _ => wf_routeb route = true
    | OFixStaticFileFS _ url _ _ => wf_routeb url = true
    | _ => True
    end.
  (** the first handler set that was passed (nil: none), or a new one when none was passed *)
  Definition chosen (fresh_set : bytes -> U) (sets : list (option U)) (url : bytes) : option U :=
    match sets with
    | Some u :: _ => Some u
    | None :: _ => None
    | [] => Some (fresh_set (B"static for '" ++ url ++ B"'"))
    end.
  (** the handler set that answers for a registration *)
  Definition set_of (dir_fs : bytes -> M_Static.iofs) (fresh_set : bytes -> U) (o : op U) : option (U * handler) :=
    match o with
    | OAdd _ _ n set | OAddReg _ _ n set => option_map (fun u => (u, HUser n)) set
    | OStaticFile file url sets => option_map (fun u => (u, HFile (dir_fs file) (trim_prefix url (B"/")))) (chosen fresh_set sets url)
    | OStaticFileFS file url fsys sets => option_map (fun u => (u, HEmbed fsys (trim_prefix file (B"/")) (trim_prefix url (B"/")))) (chosen fresh_set sets url)
    | OFixStaticFileFS file url fsys sets => option_map (fun u => (u, HFix fsys file)) (chosen fresh_set sets url)
    end.
  (** a mount of a directory *)
  Definition mounts (o : op U) (url : bytes) : Prop :=
    match o with OStaticFile _ u _ | OStaticFileFS _ u _ _ => u = url | _ => False end.
End Claims.
