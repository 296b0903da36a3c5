(** Vocabulary for C146: what user code of a served request does when it is told certain things,
    written without the steps of the model.  Lists of events are in the order they happen. *)
From Verif Require Import Base GoErrors M_Ctx M_Pipeline M_Serve.

Section Spec.
  Context {V : Type}.
  Variable ses : option (prog V).       (* SesInit *)
  Variable lvl : Z.                     (* the server's log level *)
  Notation log := (list (event V)).

  (** the level of the request's logger and the names CalledHandles lists: a request starts at
      debug level for SesInit and at the server's level for the others; the parts of the pipeline
      are listed if the level is debug (5) or above when they start *)
  Definition names1 (st : Z * list bytes) (e : event V) : Z * list bytes :=
    match e with
    | VAct (ASetLevel l) => (l, snd st)
    | VEnd WSesInit _ => (lvl, snd st)
    | VStart (WInit | WBefore _ | WMain | WAfter _) n => (fst st, if (5 <=? fst st)%Z then snd st ++ [n] else snd st)
    | _ => st
    end.
  Definition names (tr : log) : Z * list bytes :=
    fold_left names1 tr (match ses with Some _ => 5%Z | None => lvl end, []).
  Definition results (tr : log) : list (option err) :=
    flat_map (fun e => match e with VAct (AGo r) => [r] | _ => [] end) tr.
  (** what the Context answers after [tr] *)
  Record shows (tr : log) (c : ctx) : Prop := {
    sh_stop : c_stopped c = true <-> In (VAct AStop) tr;
    sh_abort : c_aborted c = true <-> In (VAct AAbort) tr;
    sh_skip : c_skip c = true <-> In (VAct ASkipMain) tr;
    sh_cancel : c_cancelled c = true <-> In (VAct AAbort) tr \/ exists eg, In (VWait eg) tr;
    sh_level : c_level c = fst (names tr);
    sh_names : c_log c = snd (names tr);
    sh_tasks : c_tasks c = results tr
  }.

  (** after [pre], [p] can do [es], being told what the events say, and go on as [q] *)
  Inductive obeys : log -> prog V -> log -> prog V -> Prop :=
  | B_nil pre p : obeys pre p [] p
  | B_look pre k c es q : shows pre c -> obeys pre (k c) es q -> obeys pre (Look k) es q
  | B_act pre a k es q : obeys (pre ++ [VAct a]) k es q -> obeys pre (Act a k) (VAct a :: es) q
  | B_write pre b k es q : obeys (pre ++ [VWrite b]) k es q -> obeys pre (Write b k) (VWrite b :: es) q
  | B_status pre n k es q : obeys (pre ++ [VStatus n]) k es q -> obeys pre (Status n k) (VStatus n :: es) q
  | B_set pre x v k es q : obeys (pre ++ [VSet x v]) k es q -> obeys pre (SetData x v k) (VSet x v :: es) q
  | B_get pre x r k es q : obeys (pre ++ [VGet x r]) (k r) es q -> obeys pre (GetData x k) (VGet x r :: es) q
  | B_param pre x r k es q : obeys (pre ++ [VParam x r]) (k r) es q -> obeys pre (Param x k) (VParam x r :: es) q
  | B_params pre x r k es q : obeys (pre ++ [VParams x r]) (k r) es q -> obeys pre (Params x k) (VParams x r :: es) q
  | B_url pre x v k es q : obeys (pre ++ [VUrlAdd x v]) k es q -> obeys pre (UrlAdd x v k) (VUrlAdd x v :: es) q.

  (** the code of a part of the handling, and its name *)
  Definition code (s : iset V) (w : who) (n : bytes) (p : prog V) : Prop :=
    match w with
    | WSesInit => ses = Some p /\ n = []
    | WInit => exists m, is_main s = Some m /\ n = im_name m /\ p = im_init m
    | WMain => exists m, is_main s = Some m /\ n = im_name m /\ p = im_run m
    | WBefore i => exists h, nth_error (is_before s) i = Some h /\ n = ih_name h /\ p = ih_run h
    | WAfter i => exists h, nth_error (is_after s) i = Some h /\ n = ih_name h /\ p = ih_run h
    | WLast e => exists h, is_last s = Some h /\ n = il_name h /\ p = il_run h e
    | WWait => False
    end.
  (** the trace of an answered request: parts one after another, each doing what its code says
      until it returns; and waiting for the goroutines *)
  Inductive story (s : iset V) : log -> Prop :=
  | St_start : story s []
  | St_part pre w n p es r : story s pre -> code s w n p -> obeys (pre ++ [VStart w n]) p es (Done (HRet r)) ->
      story s (pre ++ VStart w n :: es ++ [VEnd w (HRet r)])
  | St_wait pre eg : story s pre -> story s (pre ++ [VWait eg]).
End Spec.
