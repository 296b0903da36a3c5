(** Vocabulary for C145: what a program does when it is told certain things, written without the
    steps of the model.  Lists of events here are in the order they happen. *)
From Verif Require Import Base GoErrors M_Pipeline M_Group S_Group.

(** [p] can do [es], being told what the events say, and go on as [q] *)
Inductive follows : prog -> list event -> prog -> Prop :=
| F_nil p : follows p [] p
| F_mark m k es q : follows k es q -> follows (Mark m k) (EMark m :: es) q
| F_act a k es q : follows k es q -> follows (Act a k) (EAct a :: es) q
| F_look k f es q : follows (k f) es q -> follows (Look k) (ELook f :: es) q
| F_done k b es q : follows (k b) es q -> follows (Done k) (ESaw b :: es) q
| F_await k es q : follows k es q -> follows (Await k) (EWoken :: es) q
| F_go b k es q : follows k es q -> follows (Go b k) (EGo :: es) q
| F_try b k es q : follows (k true) es q -> follows (TryGo b k) (EGo :: es) q
| F_refused b k es q : follows (k false) es q -> follows (TryGo b k) (ERefused :: es) q
| F_limit z k es q : follows k es q -> follows (Limit z k) (ELimit z :: es) q
| F_limit_panic z k : follows (Limit z k) [EPanic] k
| F_wait k r es q : follows (k r) es q -> follows (Wait k) (EWaited r :: es) q.
(** the whole life of a function given to EGGo or EGTryGo: running, returned, and then away;
    or it panicked *)
Inductive lives (b : prog) : list event -> Prop :=
| L_running es q : follows b es q -> lives b es
| L_returned es e : follows b es (Ret (HRet e)) -> lives b (es ++ [EReturned e])
| L_gone es e : follows b es (Ret (HRet e)) -> lives b (es ++ [EReturned e; EGone])
| L_panicked es : follows b es (Ret HPanic) -> lives b (es ++ [EPanic]).

Definition same_owner (a b : option nat) : bool :=
  match a, b with None, None => true | Some i, Some j => i =? j | _, _ => false end.
(** what [w] did, in order (a shutdown is no one's) *)
Definition did (w : option nat) (tr : log) : list event :=
  map snd (filter (fun x => same_owner (fst x) w && match snd x with EShutdown => false | _ => true end) (rev tr)).
(** what is run: the request itself; goroutine i runs the function that was given to the i-th
    EGGo or EGTryGo that started one *)
Definition given (p : prog) : option prog := match p with Go b _ | TryGo b _ => Some b | _ => None end.
Inductive runs (main : prog) (tr : log) : option nat -> prog -> Prop :=
| runs_main : runs main tr None main
| runs_go post w pre p p1 b : tr = post ++ (w, EGo) :: pre -> runs main pre w p -> follows p (did w pre) p1 -> given p1 = Some b ->
    runs main tr (Some (started pre)) b.
