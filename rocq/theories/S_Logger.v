(** Specification vocabulary for loggers (C65-C70, C85-C87). *)
From Verif Require Import Base GoStrings GoErrors M_Logger.
Local Open Scope Z_scope.

(** level names *)
Definition level_names : list (Z * bytes) :=
  [(0, B"panic"); (1, B"fatal"); (2, B"error"); (3, B"warning"); (4, B"info"); (5, B"debug"); (6, B"trace")].
Definition is_level_name (l : Z) (s : bytes) : Prop := In (l, s) level_names.
(** what Parse accepts besides, and equality but for ASCII letter case *)
Definition accepted_names : list (Z * bytes) := (3, B"warn") :: level_names.
Definition same_letters (a b : bytes) : Prop := Forall2 (fun x y => lower_ascii x = lower_ascii y) a b.

Section Views.
  Context {V : Type}.
  (** what a configuration, and a logger, holds *)
  Definition config_of (st : state V) (h : nat) : option config :=
    option_map (get_config st) (nth_error (st_handles st) h).
  Record view := View { v_config : config; v_err : option err; v_fields : fields V }.
  Definition logger_of (st : state V) (l : nat) : option view :=
    option_map (fun lg => View (get_config st (lg_config lg)) (lg_err lg) (get_map st (lg_fields lg)))
               (nth_error (st_loggers st) l).
  (** the one configuration variable, and the one logger variable, an operation is applied to *)
  Definition changes_config (o : op V) : option nat :=
    match o with
    | CfgLevel h _ | CfgWriter h _ | CfgStdKeys h _ _ | CfgLevelKey h _ | CfgErrorMessageKey h _
    | CfgMessageKey h _ => Some h
    | _ => None
    end.
  Definition changes_logger (o : op V) : option nat :=
    match o with
    | SetConfig l _ | Add l _ _ | AddDebug l _ _ | Merge l _ | Writer l _ | SetLevel l _
    | StdKeys l _ _ | LevelKey l _ | ErrorMessageKey l _ | MessageKey l _ | Error l _
    | Log l _ | Logf l _ _ => Some l
    | _ => None
    end.
  (** same contents *)
  Definition same_map {A} (m m' : list (bytes * A)) : Prop := forall k, aget k m = aget k m'.
  Definition same_config (a b : config) : Prop :=
    cf_level a = cf_level b /\ cf_writer a = cf_writer b /\ same_map (cf_keys a) (cf_keys b).
  (** the name in use for a standard key *)
  Definition name_for (cf : config) (k n : bytes) : Prop :=
    aget k (cf_keys cf) = Some n \/ (aget k (cf_keys cf) = None /\ n = k).
  (** error text: latest first *)
  Fixpoint texts (es : list (option err)) : list bytes :=
    match es with [] => [] | Some e :: r => err_text e :: texts r | None :: r => texts r end.
  Fixpoint joined (s : bytes) (l : list bytes) : bytes :=
    match l with [] => [] | [x] => x | x :: r => x ++ s ++ joined s r end.
End Views.
Arguments view V : clear implicits.
