(** Histories of method calls on the contexts of one request (C117, C118). *)
From Verif Require Import Base M_Clone.

(** calls address contexts that exist: number 0 is the request's, clones are numbered as they
    are made *)
Definition is_clone (c : call) : bool := match c with CClone => true | _ => false end.
Fixpoint proper (n : nat) (h : list (nat * call)) : Prop :=
  match h with
  | [] => True
  | (i, c) :: h' => i < n /\ proper (if is_clone c then S n else n) h'
  end.
Definition contexts (h : list (nat * call)) : nat := 1 + length (filter (fun ic => is_clone (snd ic)) h).
(** the calls on context number [i], in order *)
Definition calls_on (i : nat) (h : list (nat * call)) : list call := map snd (filter (fun ic => fst ic =? i) h).
(** the logger a context has: the one last set; at first a request's context has its own
    (number 0) and a clone none *)
Definition logger_now (i : nat) (h : list (nat * call)) : option nat :=
  fold_left (fun l c => match c with CSetLogger l' => l' | _ => l end) (calls_on i h) (if i =? 0 then Some 0 else None).

(** methods that use the logger, and methods that use the request's goroutine group or cancel function *)
Definition uses_logger (c : call) : Prop :=
  match c with
  | CSetLoggerLevel _ | CLoggerLevel | CStop | CSkipMain | CAbort | CDebugf | CAddDebugHandleName _ | CCalledHandles => True
  | _ => False
  end.
Definition uses_group (c : call) : Prop :=
  match c with CAbort | CEGWait | CEGGo | CEGTryGo | CEGSetLimit _ => True | _ => False end.

(** the SameSite modes of the contexts: a clone starts with the mode of its original *)
Definition mode_step (ms : list nat) (ic : nat * call) : list nat :=
  match snd ic with
  | CSetSameSite m => firstn (fst ic) ms ++ m :: skipn (S (fst ic)) ms
  | CClone => ms ++ [nth (fst ic) ms 0]
  | _ => ms
  end.
Definition modes (h : list (nat * call)) : list nat := fold_left mode_step h [0].
(** what the calls write, and the cookies they set with the mode in force for the caller *)
Definition written (h : list (nat * call)) : bytes :=
  concat (map (fun ic => match snd ic with CWrite p => p | _ => [] end) h).
