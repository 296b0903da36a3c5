(** The WWW-Authenticate header of a refused request as it is sent (/repo/baseauth.go:98-103,
    M_Auth.check), over an environment model of fasthttp v1.58's ResponseHeader.Set: CR and LF
    of a value become blanks (header.go, removeNewLines). *)
From Verif Require Import Base GoStrings M_Auth.

(** Environment *)
Definition header_value (v : bytes) : bytes :=
  map (fun c => if (bv c =? 13)%N || (bv c =? 10)%N then " "%char else c) v.
(** baseauth.go:101: the values of the WWW-Authenticate headers among the events of a request *)
Definition challenges (ev : list event) : list bytes :=
  flat_map (fun e => match e with
                     | EvHeader n v => if beq n (B"WWW-Authenticate") then [header_value v] else []
                     | _ => []
                     end) ev.
