(** Loggers shared by contexts, and the names of called handlers (C143). *)
From Verif Require Import Base M_Clone S_Clone.

(** logger 0 is the request's, others are numbered as they are made *)
Definition loggers (h : list (nat * call)) : nat :=
  1 + length (filter (fun ic => match snd ic with CNewLogger _ => true | _ => false end) h).
(** every logger set exists *)
Definition known_loggers (h : list (nat * call)) : Prop := forall h1 i l h2, h = h1 ++ (i, CSetLogger (Some l)) :: h2 -> l < loggers h1.

Definition opt_is (o : option nat) (l : nat) : bool := match o with Some l' => l' =? l | None => false end.
(** the level of logger [l]: the one it was made with, or the one last set through whatever
    context had it at that time; the request's logger starts at 5, debug *)
Fixpoint level_from (past h : list (nat * call)) (l : nat) (z : Z) : Z :=
  match h with
  | [] => z
  | (i, c) :: h' =>
      level_from (past ++ [(i, c)]) h' l
        match c with
        | CSetLoggerLevel v => if opt_is (logger_now i past) l then v else z
        | CNewLogger v => if l =? loggers past then v else z
        | _ => z
        end
  end.
Definition level_now (h : list (nat * call)) (l : nat) : Z := level_from [] h l 5.
(** context [i] has a logger that logs at debug level *)
Definition debugging (h : list (nat * call)) (i : nat) : bool :=
  match logger_now i h with Some l => (5 <=? level_now h l)%Z | None => false end.
(** the names added to context [i] while it was debugging *)
Fixpoint names_from (past h : list (nat * call)) (i : nat) : list bytes :=
  match h with
  | [] => []
  | (j, c) :: h' =>
      match c with
      | CAddDebugHandleName n => if (j =? i) && debugging past i then [n] else []
      | _ => []
      end ++ names_from (past ++ [(j, c)]) h' i
  end.
Definition names_now (h : list (nat * call)) (i : nat) : list bytes := names_from [] h i.
