(** Model of the methods of Context (/repo/ctx.go) on a request's Context and on its clones:
    which fields a method uses, which of them are nil, what it changes.  The values that other
    models treat in detail are abstract here: data values are numbers, a cookie is its name and
    the SameSite mode it is sent with, a logger is its level; goroutines are not run (M_Group). *)
From Verif Require Import Base.

(** ctx.go:40-64 the fields that methods can tell apart.  [c_logger]: None is nil, Some i is
    logger number i; [c_request]: requestCtx, cancel and eg are there (they are set together) *)
Record cctx := Cctx {
  c_data : list (bytes * nat); c_same_site : nat;
  c_stopped : bool; c_aborted : bool; c_skipped : bool;
  c_logger : option nat; c_request : bool; c_uniq : N; c_called : list bytes
}.
(** the contexts of one request, the levels of the loggers, the response they share (fastCtx),
    and whether the request's context was cancelled *)
Record world := World {
  w_ctxs : list cctx; w_levels : list Z; w_body : bytes; w_cookies : list (bytes * nat); w_cancelled : bool
}.
(** logger/level/level.go:28 *)
Definition debug_level : Z := 5.
(** ctx.go:66-85 NewContext: logger 0 is its own (config.go:35: level debug) *)
Definition new_world (uniq : N) : world :=
  World [Cctx [] 0 false false false (Some 0) true uniq []] [debug_level] [] [] false.

Inductive call :=
| CSet (k : bytes) (v : nat) | CGet (k : bytes)
| CSetSameSite (m : nat) | CSetCookie (name : bytes) | CWrite (p : bytes)
| CNewLogger (lvl : Z)                               (* the program makes a logger; its number is the next *)
| CSetLogger (l : option nat) | CLogger
| CSetLoggerLevel (lvl : Z) | CLoggerLevel
| CStop | CSkipMain | CAbort | CAborted | CStopped
| CDebugf | CEGWait | CEGGo | CEGTryGo | CEGSetLimit (n : Z)
| CAddDebugHandleName (n : bytes) | CCalledHandles | CUniqId | CCtx | CClone.
Inductive answer :=
| ANone | ABool (b : bool) | AValue (v : option nat) | ALevel (z : Z) | ALogger (l : option nat)
| ANames (l : list bytes) | AId (n : N) | ACtx (is_nil : bool) | AClone (i : nat).

Definition upd_ctx (w : world) (i : nat) (f : cctx -> cctx) : world :=
  World (upd_nth i f (w_ctxs w)) (w_levels w) (w_body w) (w_cookies w) (w_cancelled w).
Definition level_of (w : world) (l : nat) : Z := nth l (w_levels w) debug_level.

(** one call of a method of context number [i]: the world after it (also when it panics) and the
    answer.  Fields are written in the order of the code, so that what is done before a panic
    stays done. *)
Definition call_step (w : world) (i : nat) (c : call) : world * res answer :=
  match nth_error (w_ctxs w) i with
  | None => (w, Panic)
  | Some x =>
      let put f := upd_ctx w i f in
      match c with
      | CSet k v => (put (fun x => Cctx (aput k v (c_data x)) (c_same_site x) (c_stopped x) (c_aborted x) (c_skipped x)
                                        (c_logger x) (c_request x) (c_uniq x) (c_called x)), Ok ANone)   (* 252-256 *)
      | CGet k => (w, Ok (AValue (aget k (c_data x))))                                                   (* 258-260 *)
      | CSetSameSite m => (put (fun x => Cctx (c_data x) m (c_stopped x) (c_aborted x) (c_skipped x)
                                        (c_logger x) (c_request x) (c_uniq x) (c_called x)), Ok ANone)   (* 263-267 *)
      | CSetCookie n => (World (w_ctxs w) (w_levels w) (w_body w) (w_cookies w ++ [(n, c_same_site x)]) (w_cancelled w),
                         Ok ANone)                                                                       (* 349-375 *)
      | CWrite p => (World (w_ctxs w) (w_levels w) (w_body w ++ p) (w_cookies w) (w_cancelled w), Ok ANone)  (* 118-127 *)
      | CNewLogger lvl => (World (w_ctxs w) (w_levels w ++ [lvl]) (w_body w) (w_cookies w) (w_cancelled w), Ok ANone)
      | CSetLogger l => (put (fun x => Cctx (c_data x) (c_same_site x) (c_stopped x) (c_aborted x) (c_skipped x)
                                        l (c_request x) (c_uniq x) (c_called x)), Ok ANone)              (* 129-133 *)
      | CLogger => (w, Ok (ALogger (c_logger x)))                                                        (* 135-137 *)
      | CSetLoggerLevel z =>                                                                             (* 139-143 *)
          match c_logger x with
          | None => (w, Panic)
          | Some l => (World (w_ctxs w) (firstn l (w_levels w) ++ z :: skipn (S l) (w_levels w)) (w_body w) (w_cookies w) (w_cancelled w),
                       Ok ANone)
          end
      | CLoggerLevel => (w, match c_logger x with None => Panic | Some l => Ok (ALevel (level_of w l)) end)  (* 145-147 *)
      | CStop => (put (fun x => Cctx (c_data x) (c_same_site x) true (c_aborted x) (c_skipped x)         (* 270-275 *)
                                  (c_logger x) (c_request x) (c_uniq x) (c_called x)),
                  match c_logger x with None => Panic | Some _ => Ok ANone end)
      | CSkipMain => (put (fun x => Cctx (c_data x) (c_same_site x) (c_stopped x) (c_aborted x) true     (* 278-283 *)
                                  (c_logger x) (c_request x) (c_uniq x) (c_called x)),
                  match c_logger x with None => Panic | Some _ => Ok ANone end)
      | CAbort =>                                                                                        (* 286-293 *)
          let w' := put (fun x => Cctx (c_data x) (c_same_site x) (c_stopped x) true (c_skipped x)
                                  (c_logger x) (c_request x) (c_uniq x) (c_called x)) in
          if negb (c_request x) then (w', Panic)
          else (World (w_ctxs w') (w_levels w') (w_body w') (w_cookies w') true,
                match c_logger x with None => Panic | Some _ => Ok ANone end)
      | CAborted => (w, Ok (ABool (c_aborted x)))                                                        (* 295-297 *)
      | CStopped => (w, Ok (ABool (c_aborted x || c_stopped x)))                                         (* 299-301 *)
      | CDebugf => (w, match c_logger x with None => Panic | Some _ => Ok ANone end)                     (* 303-309 *)
      | CEGWait | CEGGo | CEGTryGo | CEGSetLimit _ => (w, if c_request x then Ok ANone else Panic)       (* 377-391 *)
      | CAddDebugHandleName n =>                                                                         (* 407-413 *)
          match c_logger x with
          | None => (w, Panic)
          | Some l =>
              (if (debug_level <=? level_of w l)%Z
               then put (fun x => Cctx (c_data x) (c_same_site x) (c_stopped x) (c_aborted x) (c_skipped x)
                                       (c_logger x) (c_request x) (c_uniq x) (c_called x ++ [n]))
               else w, Ok ANone)
          end
      | CCalledHandles =>                                                                                (* 416-422 *)
          (w, match c_logger x with
              | None => Panic
              | Some l => Ok (ANames (if (debug_level <=? level_of w l)%Z then c_called x
                                      else [B"available in debug mode only"]))
              end)
      | CUniqId => (w, Ok (AId (c_uniq x)))                                                              (* 248-250 *)
      | CCtx => (w, Ok (ACtx (negb (c_request x))))                                                      (* 113-115 *)
      | CClone =>                                                                                        (* 87-100 *)
          (World (w_ctxs w ++ [Cctx (fold_left (fun d kv => aput (fst kv) (snd kv) d) (c_data x) []) (c_same_site x)
                                    false false false None false 0%N []])
                 (w_levels w) (w_body w) (w_cookies w) (w_cancelled w), Ok (AClone (length (w_ctxs w))))
      end
  end.
(** calls one after another, panics recovered *)
Definition call_run (w : world) (h : list (nat * call)) : world :=
  fold_left (fun w ic => fst (call_step w (fst ic) (snd ic))) h w.
