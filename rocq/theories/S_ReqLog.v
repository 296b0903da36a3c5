(** Specification of what a server logs and which loggers requests get (C154, C155), as plain values (S_LogValues).
    The server's configuration is number 0 of the configurations. *)
From Verif Require Import Base GoErrors M_Logger S_Logger S_LogValues M_ReqLog.
Local Open Scope Z_scope.

Section ReqLogSpec.
  Context {V : Type}.
  Variable vtrue : V.

  (** what Debugf writes: time, message, level and an empty error, the last two under the names the configuration has
      for them; nothing else *)
  Definition debug_record (c : cfgv) (now msg : bytes) : record_ (V := V) :=
    fun k => if beq k (c_name c (B"error.message")) then Some (FStr [])
             else if beq k (c_name c (B"@level")) then Some (FStr (level_name (c_level c)))
             else if beq k (B"message") then Some (FStr msg)
             else if beq k (B"@timestamp") then Some (FStr now)
             else None.
  (** what a new logger holds *)
  Definition only_time (now : bytes) : record_ (V := V) := fun k => if beq k (B"@timestamp") then Some (FStr now) else None.

  (** Debugf with configuration [c]: nothing below level debug; else one record to the writer (and a logger of its own
      is left behind); without a writer it panics *)
  Definition spec_debugf (s : vals V) (c : cfgv) (now msg : bytes) : option (vals V) :=
    if c_level c <? 5 then Some s
    else match c_writer c with
         | None => None
         | Some w => Some (Vals (configs s) (loggers s ++ [LgrV c [] (debug_record c now msg)])
                                (output s ++ [(w, debug_record c now msg)]))
         end.
  (** a note kept in the logger at level debug and above *)
  Definition note (k : bytes) (x : fval V) (l : lgrv V) : lgrv V := if c_level (l_config l) <? 5 then l else put k x l.

  (** a state: the values, and the number of the logger of every Context *)
  Definition rstate := (vals V * list (option nat))%type.
  Definition spec_start : rstate := (Vals [fresh_config] [] [], []).
  Definition server_of (s : vals V) : cfgv := nth 0 (configs s) fresh_config.
  Definition ctx_logger (r : rstate) (c : nat) : option (nat * lgrv V) :=
    match nth_error (snd r) c with
    | Some (Some i) => option_map (fun l => (i, l)) (nth_error (loggers (fst r)) i)
    | _ => None
    end.
  Definition change (r : rstate) (c : nat) (f : lgrv V -> lgrv V) : option rstate :=
    match ctx_logger r c with
    | Some (i, l) => Some (Vals (configs (fst r)) (upd_nth i (fun _ => f l) (loggers (fst r))) (output (fst r)), snd r)
    | None => None
    end.
  Definition spec_step (r : rstate) (a : act V) : option rstate :=
    let s := fst r in let cs := snd r in
    match a with
    | SetLogLevel n => Some (Vals (upd_nth 0 (with_level n) (configs s)) (loggers s) (output s), cs)
    | SetLoggerWriter w => Some (Vals (upd_nth 0 (with_writer w) (configs s)) (loggers s) (output s), cs)
    | ServerDebugf now msg => option_map (fun s => (s, cs)) (spec_debugf s (server_of s) now msg)
    | NewContext now => Some (Vals (configs s) (loggers s ++ [LgrV fresh_config [] (only_time now)]) (output s),
                              cs ++ [Some (length (loggers s))])
    | HandlersStart c now =>       (* a new logger with the server's configuration takes the place of whatever was there *)
        if (c <? length cs)%nat
        then Some (Vals (configs s) (loggers s ++ [LgrV (server_of s) [] (only_time now)]) (output s),
                   upd_nth c (fun _ => Some (length (loggers s))) cs)
        else None
    | CtxClone c => if (c <? length cs)%nat then Some (s, cs ++ [None]) else None
    | CtxSetLogger c l => if (c <? length cs)%nat then Some (s, upd_nth c (fun _ => l) cs) else None
    | CtxSetLoggerLevel c n => change r c (on_config (with_level n))
    | CtxStop c => change r c (note (B"is_stopped") (FAny vtrue))
    | CtxSkipMain c => change r c (note (B"is_skipped_main") (FAny vtrue))
    | CtxAbort c => change r c (note (B"is_aborted") (FAny vtrue))
    | CtxDebugf c now msg =>       (* with a copy (two, if it writes) of the logger's configuration, nothing else of it *)
        match ctx_logger r c with
        | Some (_, l) =>
            let k := l_config l in
            let s := Vals (configs s ++ (if c_level k <? 5 then [k] else [k; k])) (loggers s) (output s) in
            option_map (fun s => (s, cs)) (spec_debugf s k now msg)
        | None => None
        end
    | StaticRun c old new =>
        change r c (fun l => note (B"url_path_internal") (FStr new) (note (B"url_path_income") (FStr old) l))
    | User o => option_map (fun s => (s, cs)) (vstep s o)
    end.
  Fixpoint spec_run (r : rstate) (l : list (act V)) : option rstate :=
    match l with [] => Some r | a :: l' => match spec_step r a with Some r' => spec_run r' l' | None => None end end.

  (** user code cannot get hold of the server's configuration *)
  Definition user_code (l : list (act V)) : Prop := forall o, In (User o) l -> changes_config o <> Some 0%nat.
  (** the settings last made *)
  Fixpoint last_level (l : list (act V)) (d : Z) : Z :=
    match l with [] => d | SetLogLevel n :: l' => last_level l' n | _ :: l' => last_level l' d end.
  Fixpoint last_writer (l : list (act V)) (d : option nat) : option nat :=
    match l with [] => d | SetLoggerWriter w :: l' => last_writer l' w | _ :: l' => last_writer l' d end.
End ReqLogSpec.
