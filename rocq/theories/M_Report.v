(** Model of what requests leave in the process's standard log: /repo/server_run.go:93-97 printError, called at
    lines 112 and 120.  [stamp] is the date and time log.Printf puts in front (environment); Printf adds no line end
    because the text has one.  Check (line 111) returns no error: it writes no bytes (M_Auth). *)
From Verif Require Import Base GoStrings GoErrors M_Pipeline M_Auth.

Definition newline : bytes := [ch 10].
(** server_run.go:93-97 *)
Definition print_error (stamp addr : bytes) (e : option err) : bytes :=
  match e with
  | None => []
  | Some e => stamp ++ B"[" ++ addr ++ B"] " ++ err_text e ++ newline
  end.
(** server_run.go:119-120: the error runHTTP returns; a panic leaves before printError *)
Definition report1 (stamp addr : bytes) (e : event) : bytes :=
  match e with
  | EvPipeline h => match x_result h with RRet e => print_error stamp addr e | RPanic => [] end
  | _ => []
  end.
(** what one request adds to the log *)
Definition reports (uni : bytes -> bytes) (stamp addr : bytes) (s : server) (rq : request) : bytes :=
  flat_map (report1 stamp addr) (fst (serve_http uni s rq)).
