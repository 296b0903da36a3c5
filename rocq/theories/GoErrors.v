(** Environment model: Go error values and github.com/pkg/errors.Wrap. *)
From Verif Require Import Base.

(** A user error (identity and text) or a wrapped error. *)
Inductive err :=
| EUser (id : nat) (text : bytes)
| EWrap (cause : err) (msg : bytes).

(** err.Error(): Wrap(e, msg).Error() = msg + ": " + e.Error() *)
Fixpoint err_text (e : err) : bytes :=
  match e with
  | EUser _ t => t
  | EWrap c m => m ++ B": " ++ err_text c
  end.

(** errors.Wrap: nil stays nil *)
Definition wrap (e : option err) (msg : bytes) : option err :=
  match e with Some e => Some (EWrap e msg) | None => None end.
