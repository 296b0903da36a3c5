(** Model of the time stamps of loggers (logger/logger.go:22-31, logger/config/config.go:13). *)
From Verif Require Import Base GoTime M_Logger.
Local Open Scope Z_scope.

(** config/config.go:13 DefaultTimestampFormat *)
Definition default_timestamp_format : bytes := B"2006-01-02T15:04:05.999Z".
(** logger.go:25 time.Now().Format(config.DefaultTimestampFormat): [t] is the time (nanoseconds since the epoch), [off] how many
    seconds time.Local is ahead of UTC at that time *)
Definition timestamp (off t : Z) : bytes := match go_format default_timestamp_format off t with Some s => s | None => [] end.
(** logger.go:22-31 New, called at time [t] *)
Definition new_at {V : Type} (off t : Z) : op V := New (timestamp off t).
