(** Specification vocabulary for sites (C158-C160). *)
From Verif Require Import Base GoErrors M_Cond M_Content M_Static M_Mount M_Site.
From Verif Require M_Pipeline.

(** each call is given the RequestCtx the one before it left *)
Fixpoint chain (w : wire) (ks : list stage) (w' : wire) : Prop :=
  match ks with
  | [] => w = w'
  | k :: ks' => g_in k = w /\ chain (g_out k) ks' w'
  end.
Definition who (k : stage) : M_Pipeline.who := M_Pipeline.k_who (g_call k).

(** the call did what this code does *)
Definition did (k : stage) (name : bytes) (b : code) : Prop :=
  M_Pipeline.k_name (g_call k) = name /\
  b (M_Pipeline.k_seen (g_call k)) (g_in k) = (g_out k, g_files k, (M_Pipeline.k_acts (g_call k), M_Pipeline.k_out (g_call k))).
(** the call is one of the handler its label names *)
Definition genuine (s : sset) (ses : option user_code) (k : stage) : Prop :=
  match who k with
  | M_Pipeline.WInit => exists n i r, ss_main s = Some (n, i, r) /\ did k n i
  | M_Pipeline.WBefore j => exists n b, nth_error (ss_before s) j = Some (n, b) /\ did k n b
  | M_Pipeline.WMain => exists n i r, ss_main s = Some (n, i, r) /\ did k n r
  | M_Pipeline.WAfter j => exists n b, nth_error (ss_after s) j = Some (n, b) /\ did k n b
  | M_Pipeline.WSesInit => exists f, ses = Some f /\ did k [] (plain f)
  | M_Pipeline.WWait => g_out k = g_in k /\ g_files k = []
  | M_Pipeline.WLast e => exists n b, ss_last s = Some (n, b) /\ did k n (b e)
  end.

(** a set of M_Pipeline with the same handlers by name *)
Definition shape (h : M_Pipeline.hset) (s : sset) : Prop :=
  map M_Pipeline.h_name (M_Pipeline.hs_before h) = map fst (ss_before s) /\
  map M_Pipeline.h_name (M_Pipeline.hs_after h) = map fst (ss_after s) /\
  option_map M_Pipeline.l_name (M_Pipeline.hs_last h) = option_map fst (ss_last s) /\
  option_map M_Pipeline.m_name (M_Pipeline.hs_main h) = option_map (fun x => fst (fst x)) (ss_main s).

(** the call of a static main handler had the outcome [o]: response, error and opened files, or a panic *)
Definition main_did (k : stage) (o : option (sresp * ferr * list M_Static.call)) : Prop :=
  M_Pipeline.k_acts (g_call k) = [] /\ w_req (g_out k) = w_req (g_in k) /\
  match o with
  | Some (r, e, files) => w_resp (g_out k) = r /\ g_files k = files /\
      exists x, M_Pipeline.k_out (g_call k) = M_Pipeline.HRet x /\ (x = None <-> e = FNil)
  | None => M_Pipeline.k_out (g_call k) = M_Pipeline.HPanic /\ g_files k = []
  end.
(** A request for [w] that is answered by a static handler with outcomes in [P], in the middle of the handlers of its
    set: only that handler opens files, and if the handlers before it have left the request as it was, it
    answers it, on top of the response they have left, and opens what it has to. *)
Definition around_static (w : wire) (P : sresp -> option (sresp * ferr * list M_Static.call) -> Prop) (pg : page) : Prop :=
  chain w (pg_stages pg) (pg_wire pg) /\
  (forall k, In k (pg_stages pg) -> who k <> M_Pipeline.WMain -> g_files k = []) /\
  (forall k, In k (pg_stages pg) -> who k = M_Pipeline.WMain -> w_req (g_in k) = w_req w -> w_path (g_in k) = w_path w ->
     exists o, P (w_resp (g_in k)) o /\ main_did k o).

(** the calls before the main handler: SesInit, Init and the before handlers *)
Definition beforehand (x : M_Pipeline.who) : Prop := x = M_Pipeline.WSesInit \/ x = M_Pipeline.WInit \/ exists i, x = M_Pipeline.WBefore i.
(** a call that lets the main handler run *)
Definition lets_on (k : M_Pipeline.call) : Prop :=
  M_Pipeline.k_out k = M_Pipeline.HRet None /\
  ~ In M_Pipeline.AStop (M_Pipeline.k_acts k) /\ ~ In M_Pipeline.AAbort (M_Pipeline.k_acts k) /\ ~ In M_Pipeline.ASkipMain (M_Pipeline.k_acts k).
(** a call that keeps it from running: a failure, SkipMain, or Stop or Abort in a before handler *)
Definition bars (k : M_Pipeline.call) : Prop :=
  M_Pipeline.k_out k <> M_Pipeline.HRet None \/ In M_Pipeline.ASkipMain (M_Pipeline.k_acts k) \/
  ((exists i, M_Pipeline.k_who k = M_Pipeline.WBefore i) /\
   (In M_Pipeline.AStop (M_Pipeline.k_acts k) \/ In M_Pipeline.AAbort (M_Pipeline.k_acts k))).
