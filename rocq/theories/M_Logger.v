(** Model of package logger: /repo/logger/level/level.go, /repo/logger/config/config.go,
    /repo/logger/logger.go, /repo/logger/fields.go, /repo/logger/out.go.
    Sequential: locks are left out here (concurrency: M_Race).  Not modelled: direct
    assignments to the exported map fields, zero values of the structs, nil receivers. *)
From Verif Require Import Base GoStrings GoErrors.
Local Open Scope Z_scope.

(** ** Levels *)
(** level/level.go:44-52 AllLevelsString *)
Definition all_levels_string : list bytes :=
  [B"panic"; B"fatal"; B"error"; B"warning"; B"info"; B"debug"; B"trace"].
Definition max_level_number : Z := 6.
(** level/level.go:85-91 Byte; inner None: the error; Panic: index out of range *)
Definition level_byte (lvl : Z) : res (option bytes) :=
  if (lvl <=? max_level_number) && (-1 <? lvl) then
    match nth_error all_levels_string (Z.to_nat lvl) with Some b => Ok (Some b) | None => Panic end
  else Ok None.
(** level/level.go:55-61 String *)
Definition level_string (lvl : Z) : res bytes :=
  match level_byte lvl with
  | Panic => Panic
  | Ok (Some b) => Ok b
  | Ok None => Ok (B"unknown")
  end.
(** level/level.go:64-83 Parse: None with an error (and the level -1) *)
Definition parse_level (uni : bytes -> bytes) (s : bytes) : option Z :=
  let l := to_lower uni s in
  if beq l (B"panic") then Some 0
  else if beq l (B"fatal") then Some 1
  else if beq l (B"error") then Some 2
  else if beq l (B"warn") || beq l (B"warning") then Some 3
  else if beq l (B"info") then Some 4
  else if beq l (B"debug") then Some 5
  else if beq l (B"trace") then Some 6
  else None.

(** ** Configurations *)
(** config/config.go:15-18 *)
Definition message_field : bytes := B"message".
Definition error_message_field : bytes := B"error.message".
Definition timestamp_field : bytes := B"@timestamp".
Definition level_field : bytes := B"@level".
(** config/config.go:21-27 Config; a writer is an identity, None the nil io.Writer *)
Record config := Config { cf_level : Z; cf_writer : option nat; cf_keys : list (bytes * bytes) }.
(** config/config.go:29-44 NewConfig; writer 0 is os.Stdout *)
Definition new_config : config :=
  Config 5 (Some 0%nat) [(message_field, message_field); (error_message_field, error_message_field);
                    (timestamp_field, timestamp_field); (level_field, level_field)].

Section Logger.
  (** values of type any: a string or anything else *)
  Context {V : Type}.
  Inductive fval := FStr (s : bytes) | FAny (v : V).
  Definition fields := list (bytes * fval).
  (** Environment: iteration order of map range loops; jsoniter's Marshal of a map (None:
      an error). *)
  Variable order : forall A, list (bytes * A) -> list (bytes * A).
  Variable marshal : fields -> option bytes.

  (** a map copied key by key: config/config.go:56-58, logger.go:59-61 *)
  Definition copy_map {A} (m : list (bytes * A)) : list (bytes * A) :=
    fold_left (fun d kv => match aget (fst kv) m with Some v => aput (fst kv) v d | None => d end) (order A m) [].
  (** config/config.go:46-61 Clone *)
  Definition config_clone (cf : config) : config := Config (cf_level cf) (cf_writer cf) (copy_map (cf_keys cf)).
  (** config/config.go:63-69 CurrentKey *)
  Definition current_key (cf : config) (key : bytes) : bytes :=
    match aget key (cf_keys cf) with Some old => old | None => key end.
  (** config/config.go:87-102 StdKeys: the new configuration and the result *)
  Definition config_std_keys (cf : config) (key value : bytes) : config * bytes :=
    if is_empty key || is_empty value then (cf, [])
    else match aget key (cf_keys cf) with
         | None => (cf, [])
         | Some old => (Config (cf_level cf) (cf_writer cf) (aput key value (cf_keys cf)), old)
         end.

  (** ** The program's objects: configurations and field maps live on heaps *)
  (** logger.go:14-20 Logger *)
  Record lgr := Lgr { lg_config : nat; lg_err : option err; lg_fields : nat }.
  (** what leaves the program: Write calls on writers, lines on standard error *)
  Inductive event := EWrite (writer : nat) (data : bytes) | EStderr.
  Record state := State {
    st_configs : list config;
    st_maps : list fields;
    st_handles : list nat;          (* the program's *config.Config variables *)
    st_loggers : list lgr;          (* the program's *logger.Logger variables *)
    st_out : list event             (* latest first *)
  }.
  Definition init : state := State [] [] [] [] [].

  (** fields.go:13-21 Json *)
  Definition json (f : fields) : bytes * list event :=
    match marshal f with
    | Some out => (out ++ [ch 10], [])
    | None => ([], [EStderr])
    end.

  Inductive op :=
  | NewConfig                                                   (* config.NewConfig() *)
  | CfgClone (h : nat)                                          (* cf.Clone() *)
  | CfgLevel (h : nat) (lvl : Z)                                (* cf.SetLevel *)
  | CfgWriter (h : nat) (w : option nat)                        (* cf.SetWriter *)
  | CfgStdKeys (h : nat) (key value : bytes)                    (* cf.StdKeys *)
  | CfgLevelKey (h : nat) (key : bytes)
  | CfgErrorMessageKey (h : nat) (key : bytes)
  | CfgMessageKey (h : nat) (key : bytes)
  | New (now : bytes)                                           (* logger.New(), at time [now] *)
  | SetConfig (l h : nat)
  | LgConfig (l : nat)                                          (* l.Config() *)
  | LgClone (l : nat)
  | Add (l : nat) (key : bytes) (v : fval)
  | AddDebug (l : nat) (key : bytes) (v : fval)
  | Merge (l : nat) (m : fields)                                (* [m]: in iteration order *)
  | Writer (l : nat) (w : option nat)
  | SetLevel (l : nat) (lvl : Z)
  | StdKeys (l : nat) (key value : bytes)
  | LevelKey (l : nat) (key : bytes)
  | ErrorMessageKey (l : nat) (key : bytes)
  | MessageKey (l : nat) (key : bytes)
  | Error (l : nat) (e : option err)
  | Log (l : nat) (lvl : Z)
  | Logf (l : nat) (lvl : Z) (msg : bytes).                     (* [msg]: what Sprintf gives *)

  Definition with_config (st : state) (c : nat) (f : config -> config) : state :=
    State (upd_nth c f (st_configs st)) (st_maps st) (st_handles st) (st_loggers st) (st_out st).
  Definition with_map (st : state) (m : nat) (f : fields -> fields) : state :=
    State (st_configs st) (upd_nth m f (st_maps st)) (st_handles st) (st_loggers st) (st_out st).
  Definition with_logger (st : state) (l : nat) (f : lgr -> lgr) : state :=
    State (st_configs st) (st_maps st) (st_handles st) (upd_nth l f (st_loggers st)) (st_out st).
  Definition get_config (st : state) (c : nat) : config := nth c (st_configs st) new_config.
  Definition get_map (st : state) (m : nat) : fields := nth m (st_maps st) [].
  (** a new configuration, in a new variable of the program *)
  Definition new_handle (st : state) (cf : config) : state :=
    State (st_configs st ++ [cf]) (st_maps st) (st_handles st ++ [length (st_configs st)]) (st_loggers st) (st_out st).
  Definition emit (st : state) (es : list event) : state :=
    State (st_configs st) (st_maps st) (st_handles st) (st_loggers st) (es ++ st_out st).

  Definition cfg_set_level (lvl : Z) (cf : config) : config := Config lvl (cf_writer cf) (cf_keys cf).    (* config/config.go:119-125 *)
  Definition cfg_set_writer (w : option nat) (cf : config) : config := Config (cf_level cf) w (cf_keys cf).  (* config/config.go:79-85 *)

  (** logger.go:111-126 StdKeys *)
  Definition do_std_keys (st : state) (lg : lgr) (key value : bytes) : state :=
    let '(cf, old_field) := config_std_keys (get_config st (lg_config lg)) key value in
    let st := with_config st (lg_config lg) (fun _ => cf) in
    if is_empty old_field then st
    else match aget old_field (get_map st (lg_fields lg)) with
         | Some v => if negb (beq old_field key)
                     then with_map st (lg_fields lg) (fun m => adel old_field (aput value v m))
                     else st
         | None => st
         end.

  (** out.go:11-32 Log; Panic: Write on a nil writer (String cannot panic: C65) *)
  Definition do_log (st : state) (lg : lgr) (lvl : Z) : res state :=
    let cf := get_config st (lg_config lg) in
    if cf_level cf <? lvl then Ok st
    else
      let log_field := current_key cf level_field in
      let error_field := current_key cf error_message_field in
      match level_string (cf_level cf) with
      | Panic => Panic
      | Ok name =>
          let text := match lg_err lg with Some e => err_text e | None => [] end in
          let st := with_map st (lg_fields lg) (fun m => aput error_field (FStr text) (aput log_field (FStr name) m)) in
          match cf_writer cf with
          | None => Panic
          | Some w =>
              let '(data, es) := json (get_map st (lg_fields lg)) in
              (* simplification: a failing Write only adds a line on standard error *)
              Ok (emit st (EWrite w data :: es))
          end
      end.
  (** out.go:34-41 Logf, fields.go:23-26 message *)
  Definition do_logf (st : state) (lg : lgr) (lvl : Z) (msg : bytes) : res state :=
    if cf_level (get_config st (lg_config lg)) <? lvl then Ok st
    else do_log (with_map st (lg_fields lg) (aput message_field (FStr msg))) lg lvl.

  Definition on_handle (st : state) (h : nat) (f : nat -> state) : res state :=
    match nth_error (st_handles st) h with Some c => Ok (f c) | None => Panic end.
  Definition on_logger (st : state) (l : nat) (f : lgr -> res state) : res state :=
    match nth_error (st_loggers st) l with Some lg => f lg | None => Panic end.

  Definition step (st : state) (o : op) : res state :=
    match o with
    | NewConfig => Ok (new_handle st new_config)
    | CfgClone h => on_handle st h (fun c => new_handle st (config_clone (get_config st c)))
    | CfgLevel h lvl => on_handle st h (fun c => with_config st c (cfg_set_level lvl))
    | CfgWriter h w => on_handle st h (fun c => with_config st c (cfg_set_writer w))
    | CfgStdKeys h k v => on_handle st h (fun c => with_config st c (fun cf => fst (config_std_keys cf k v)))
    (* config/config.go:104-117 *)
    | CfgLevelKey h k => on_handle st h (fun c => with_config st c (fun cf => fst (config_std_keys cf level_field k)))
    | CfgErrorMessageKey h k => on_handle st h (fun c => with_config st c (fun cf => fst (config_std_keys cf error_message_field k)))
    | CfgMessageKey h k => on_handle st h (fun c => with_config st c (fun cf => fst (config_std_keys cf error_message_field k)))
    (* logger.go:22-31 *)
    | New now => Ok (State (st_configs st ++ [new_config]) (st_maps st ++ [[(timestamp_field, FStr now)]]) (st_handles st)
                           (st_loggers st ++ [Lgr (length (st_configs st)) None (length (st_maps st))]) (st_out st))
    (* logger.go:33-41: the first clone is garbage after the second *)
    | SetConfig l h => on_logger st l (fun lg => on_handle st h (fun c =>
        let n := config_clone (get_config st c) in
        with_logger (State (st_configs st ++ [config_clone n]) (st_maps st) (st_handles st) (st_loggers st) (st_out st))
          l (fun lg => Lgr (length (st_configs st)) (lg_err lg) (lg_fields lg))))
    (* logger.go:43-48 *)
    | LgConfig l => on_logger st l (fun lg => Ok (new_handle st (config_clone (get_config st (lg_config lg)))))
    (* logger.go:50-64; err is not copied *)
    | LgClone l => on_logger st l (fun lg =>
        Ok (State (st_configs st ++ [config_clone (get_config st (lg_config lg))])
                  (st_maps st ++ [copy_map (get_map st (lg_fields lg))]) (st_handles st)
                  (st_loggers st ++ [Lgr (length (st_configs st)) None (length (st_maps st))]) (st_out st)))
    (* logger.go:66-72 *)
    | Add l k v => on_logger st l (fun lg => Ok (with_map st (lg_fields lg) (aput k v)))
    (* logger.go:74-83 *)
    | AddDebug l k v => on_logger st l (fun lg =>
        if 5 <=? cf_level (get_config st (lg_config lg)) then Ok (with_map st (lg_fields lg) (aput k v)) else Ok st)
    (* logger.go:85-91, fields.go:28-34 *)
    | Merge l m => on_logger st l (fun lg =>
        Ok (with_map st (lg_fields lg) (fun f => fold_left (fun f kv => aput (fst kv) (snd kv) f) m f)))
    (* logger.go:93-109 *)
    | Writer l w => on_logger st l (fun lg => Ok (with_config st (lg_config lg) (cfg_set_writer w)))
    | SetLevel l lvl => on_logger st l (fun lg => Ok (with_config st (lg_config lg) (cfg_set_level lvl)))
    | StdKeys l k v => on_logger st l (fun lg => Ok (do_std_keys st lg k v))
    (* logger.go:128-138 *)
    | LevelKey l k => on_logger st l (fun lg => Ok (do_std_keys st lg level_field k))
    | ErrorMessageKey l k => on_logger st l (fun lg => Ok (do_std_keys st lg error_message_field k))
    | MessageKey l k => on_logger st l (fun lg => Ok (do_std_keys st lg error_message_field k))
    (* logger.go:140-155 *)
    | Error l e => on_logger st l (fun lg =>
        match e with
        | None => Ok st
        | Some e => Ok (with_logger st l (fun lg =>
            Lgr (lg_config lg) (match lg_err lg with None => Some e | Some e0 => wrap (Some e0) (err_text e) end) (lg_fields lg)))
        end)
    | Log l lvl => on_logger st l (fun lg => do_log st lg lvl)
    | Logf l lvl msg => on_logger st l (fun lg => do_logf st lg lvl msg)
    end.
  Fixpoint run (st : state) (os : list op) : res state :=
    match os with
    | [] => Ok st
    | o :: os' => match step st o with Ok st' => run st' os' | Panic => Panic end
    end.
  (** out.go:43-73: Tracef .. Fatalf *)
  Definition tracef l := Logf l 6.
  Definition printf l := Logf l 4.
  Definition infof l := Logf l 4.
  Definition debugf l := Logf l 5.
  Definition warnf l := Logf l 3.
  Definition panicf l := Logf l 0.
  Definition errorf l := Logf l 2.
  Definition fatalf l := Logf l 1.
End Logger.
Arguments fval V : clear implicits.
Arguments fields V : clear implicits.
Arguments state V : clear implicits.
Arguments op V : clear implicits.
