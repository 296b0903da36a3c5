(** Specification of loggers and configurations as plain values (C138): no pointers, no
    shared maps, no iteration order.  A configuration is a level, a writer and a name for each
    standard key; a logger is a configuration, the texts of its errors (latest first) and its
    fields.  Variables are numbered in the order in which they were made. *)
From Verif Require Import Base GoErrors M_Logger S_Logger.
Local Open Scope Z_scope.

Record cfgv := CfgV { c_level : Z; c_writer : option nat; c_name : bytes -> bytes }.
Definition set {A} (f : bytes -> A) (k : bytes) (x : A) : bytes -> A := fun k' => if beq k' k then x else f k'.
Definition standard_keys : list bytes := [B"message"; B"error.message"; B"@timestamp"; B"@level"].
Definition standard (k : bytes) : bool := existsb (beq k) standard_keys.
(** a new configuration: level debug, standard output, the standard names *)
Definition fresh_config : cfgv := CfgV 5 (Some 0%nat) (fun k => k).
(** another name for a standard key; other keys and empty names are ignored *)
Definition name_key (k name : bytes) (c : cfgv) : cfgv :=
  if standard k && negb (is_empty name) then CfgV (c_level c) (c_writer c) (set (c_name c) k name) else c.
Definition with_level (n : Z) (c : cfgv) : cfgv := CfgV n (c_writer c) (c_name c).
Definition with_writer (w : option nat) (c : cfgv) : cfgv := CfgV (c_level c) w (c_name c).
Definition level_name (n : Z) : bytes :=
  match find (fun p => fst p =? n) level_names with Some p => snd p | None => B"unknown" end.

Section Values.
  Context {V : Type}.
  Definition record_ := bytes -> option (fval V).
  Record lgrv := LgrV { l_config : cfgv; l_errors : list bytes; l_fields : record_ }.
  Record vals := Vals { configs : list cfgv; loggers : list lgrv; output : list (nat * record_) }.
  Definition nothing : vals := Vals [] [] [].

  Definition on_config (f : cfgv -> cfgv) (l : lgrv) : lgrv := LgrV (f (l_config l)) (l_errors l) (l_fields l).
  Definition put (k : bytes) (x : fval V) (l : lgrv) : lgrv := LgrV (l_config l) (l_errors l) (set (l_fields l) k (Some x)).
  (** renaming through the logger: a field recorded under the old name moves to the new one,
      unless the old name is the standard key itself; moved to its own name it is lost *)
  Definition move (k name : bytes) (l : lgrv) : lgrv :=
    if standard k && negb (is_empty name) then
      let old := c_name (l_config l) k in
      LgrV (name_key k name (l_config l)) (l_errors l)
        (match l_fields l old with
         | Some x => if beq old k then l_fields l else set (set (l_fields l) name (Some x)) old None
         | None => l_fields l end)
    else l.
  Definition add_error (e : option err) (l : lgrv) : lgrv :=
    match e with Some e => LgrV (l_config l) (err_text e :: l_errors l) (l_fields l) | None => l end.
  (** the fields of a record: the logger's, then level and error under their names *)
  Definition complete (l : lgrv) : lgrv :=
    put (c_name (l_config l) (B"error.message")) (FStr (joined (B": ") (l_errors l)))
      (put (c_name (l_config l) (B"@level")) (FStr (level_name (c_level (l_config l)))) l).
  Definition log (lvl : Z) (msg : option bytes) (i : nat) (s : vals) (l : lgrv) : option vals :=
    if c_level (l_config l) <? lvl then Some s
    else match c_writer (l_config l) with
         | None => None
         | Some w => let l' := complete (match msg with Some m => put (B"message") (FStr m) l | None => l end) in
                     Some (Vals (configs s) (upd_nth i (fun _ => l') (loggers s)) (output s ++ [(w, l_fields l')]))
         end.

  Definition with_cfg (s : vals) (h : nat) (f : cfgv -> vals) : option vals := option_map f (nth_error (configs s) h).
  Definition with_lgr (s : vals) (i : nat) (f : lgrv -> option vals) : option vals :=
    match nth_error (loggers s) i with Some l => f l | None => None end.
  Definition set_cfg (s : vals) (h : nat) (f : cfgv -> cfgv) : option vals :=
    with_cfg s h (fun c => Vals (upd_nth h (fun _ => f c) (configs s)) (loggers s) (output s)).
  Definition new_cfg (s : vals) (c : cfgv) : vals := Vals (configs s ++ [c]) (loggers s) (output s).
  Definition set_lgr (s : vals) (i : nat) (f : lgrv -> lgrv) : option vals :=
    with_lgr s i (fun l => Some (Vals (configs s) (upd_nth i (fun _ => f l) (loggers s)) (output s))).
  Definition new_lgr (s : vals) (l : lgrv) : vals := Vals (configs s) (loggers s ++ [l]) (output s).

  Definition vstep (s : vals) (o : op V) : option vals :=
    match o with
    | NewConfig => Some (new_cfg s fresh_config)
    | CfgClone h => with_cfg s h (new_cfg s)
    | CfgLevel h n => set_cfg s h (with_level n)
    | CfgWriter h w => set_cfg s h (with_writer w)
    | CfgStdKeys h k name => set_cfg s h (name_key k name)
    | CfgLevelKey h name => set_cfg s h (name_key (B"@level") name)
    | CfgErrorMessageKey h name | CfgMessageKey h name => set_cfg s h (name_key (B"error.message") name)
    | New now => Some (new_lgr s (LgrV fresh_config [] (set (fun _ => None) (B"@timestamp") (Some (FStr now)))))
    | SetConfig i h => with_lgr s i (fun _ => match nth_error (configs s) h with
                                              | Some c => set_lgr s i (on_config (fun _ => c))
                                              | None => None end)
    | LgConfig i => with_lgr s i (fun l => Some (new_cfg s (l_config l)))
    | LgClone i => with_lgr s i (fun l => Some (new_lgr s (LgrV (l_config l) [] (l_fields l))))
    | Add i k x => set_lgr s i (put k x)
    | AddDebug i k x => set_lgr s i (fun l => if 5 <=? c_level (l_config l) then put k x l else l)
    | Merge i m => set_lgr s i (fun l => fold_left (fun l kx => put (fst kx) (snd kx) l) m l)
    | Writer i w => set_lgr s i (on_config (with_writer w))
    | SetLevel i n => set_lgr s i (on_config (with_level n))
    | StdKeys i k name => set_lgr s i (move k name)
    | LevelKey i name => set_lgr s i (move (B"@level") name)
    | ErrorMessageKey i name | MessageKey i name => set_lgr s i (move (B"error.message") name)
    | Error i e => set_lgr s i (add_error e)
    | Log i lvl => with_lgr s i (log lvl None i s)
    | Logf i lvl msg => with_lgr s i (log lvl (Some msg) i s)
    end.
  Fixpoint vrun (s : vals) (os : list (op V)) : option vals :=
    match os with [] => Some s | o :: os' => match vstep s o with Some s' => vrun s' os' | None => None end end.

  (** what a record looks like outside: its JSON text and a line feed, or, if it has none, a
      line on standard error and an empty Write *)
  Definition printed (marshal : fields V -> option bytes) (r : nat * fields V) : list event :=
    match marshal (snd r) with
    | Some text => [EWrite (fst r) (text ++ [ch 10])]
    | None => [EStderr; EWrite (fst r) []]
    end.
  (** [r] is the record [f] as a map with every key once *)
  Definition holds (r : nat * fields V) (f : nat * record_) : Prop :=
    fst r = fst f /\ NoDup (map fst (snd r)) /\ forall k, aget k (snd r) = snd f k.
End Values.
Arguments lgrv V : clear implicits.
Arguments vals V : clear implicits.
