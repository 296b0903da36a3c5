(** Specification vocabulary for C92-C96: concurrent requests. *)
From Verif Require Import Base GoErrors M_Tree M_RegTree M_Ctx M_Pipeline M_Auth S_Route M_Serve.
From Coq Require Import Permutation.

Section Spec.
  Context {V : Type}.
  Variables (matches : rgx -> bytes -> bool) (uni : bytes -> bytes) (auth : option base_auth)
            (ses : option (prog V)) (lvl : Z).
  (** the server runs, with these routes at first and these requests *)
  Definition served (t : table V) (qs : list req) (y : sys V) : Prop :=
    ymany matches uni auth ses lvl (start t qs) y.
  (** the answer to request number [i] *)
  Definition answered (y : sys V) (i : nat) (q : req) (a : answer V) : Prop :=
    exists kept, nth_error (y_threads y) i = Some (q, TDone kept a).
  (** request number [i] has not been looked at yet *)
  Definition arrives (y : sys V) (i : nat) (q : req) : Prop := nth_error (y_threads y) i = Some (q, TArrived).
  (** the routes at some time from [y1] to [y2] *)
  Definition in_force (y1 y2 : sys V) (t : table V) : Prop :=
    exists new cur old, y_tables y1 = cur :: old /\ y_tables y2 = new ++ y_tables y1 /\ In t (new ++ [cur]).
  (** a server with these routes that gets this request only can answer it so *)
  Definition alone (t : table V) (q : req) (a : answer V) : Prop :=
    exists y, served t [q] y /\ y_tables y = [t] /\ answered y 0 q a.

  (** the URL parameters seen through the Context of the answered request [i], if that is still referred to *)
  Definition remembers (y : sys V) (i : nat) (q : req) (a : answer V) (u : fargs) : Prop :=
    exists id, nth_error (y_threads y) i = Some (q, TDone (Some id) a) /\ u = nth id (y_heap y) [].
  (** request [i] is being handled, with these URL parameters *)
  Definition handling (y : sys V) (i : nat) (q : req) (u : fargs) : Prop :=
    exists th id, nth_error (y_threads y) i = Some (q, th) /\ u = nth id (y_heap y) [] /\
      match th with TRouting id' | TRunning id' _ _ _ _ _ | TWaiting id' _ _ _ => id' = id | _ => False end.

  (** what routing binds for this request: the parameters of a route that fits, or nothing (a regular expression) *)
  Definition routed_with (t : table V) (q : req) (u : fargs) : Prop :=
    u = [] \/
    exists regs r, tb_tree t = routed regs /\ In r regs /\ covers (r_method r) (rq_method (rq_head q)) = true /\
      fits (pattern_of (r_route r)) (segments (rq_path (rq_head q))) /\
      u = bindings (pattern_of (r_route r)) (segments (rq_path (rq_head q))).
  (** the routes were made with Add, from well-formed route strings *)
  Definition registered (t : table V) : Prop :=
    exists regs, forallb (fun r => wf_routeb (r_route r)) regs = true /\ tb_tree t = routed regs.

  (** these routes can lead the request to [r], with the parameters [u] *)
  Definition routes_to (t : table V) (q : req) (r : tres (iset V)) (u : fargs) : Prop :=
    exists order, (forall m, Permutation (order m) m) /\
      server_find matches order (tb_tree t) (tb_reg t) (rq_method (rq_head q)) (rq_path (rq_head q)) [] = (r, u).

  (** whatever happens to everything else between its steps, a request in this state can always go on,
      and after finitely many steps of its own it is answered or has panicked *)
  Inductive comes_to_an_end (q : req) : thread V -> Prop :=
  | C_done : forall kept a, comes_to_an_end q (TDone kept a)
  | C_panic : comes_to_an_end q TPanic
  | C_step : forall th,
      (forall t h pl, exists th' h' pl', treq matches uni auth ses lvl t q th h pl th' h' pl') ->
      (forall t h pl th' h' pl', treq matches uni auth ses lvl t q th h pl th' h' pl' -> comes_to_an_end q th') ->
      comes_to_an_end q th.

  (** ** Reading a trace *)
  Definition written (tr : list (event V)) : bytes := flat_map (fun e => match e with VWrite b => b | _ => [] end) tr.
  Definition last_status (tr : list (event V)) : N :=
    fold_left (fun n e => match e with VStatus m => m | _ => n end) tr 200%N.
  Definition last_set (tr : list (event V)) (key : bytes) : option V :=
    fold_left (fun r e => match e with VSet k v => if beq k key then Some v else r | _ => r end) tr None.
  Definition added (tr : list (event V)) : list (bytes * bytes) :=
    flat_map (fun e => match e with VUrlAdd k v => [(k, v)] | _ => [] end) tr.
  (** the calls of user code in a trace: who, name, what it asked for, how it ended; WWait stands
      for waiting for the goroutines *)
  Definition item := (who * bytes * list action * outcome)%type.
  Definition scan1 (st : list item * option (who * bytes * list action)) (e : event V) :=
    match e, st with
    | VStart w n, (d, _) => (d, Some (w, n, []))
    | VAct a, (d, Some (w, n, acts)) => (d, Some (w, n, acts ++ [a]))
    | VEnd _ o, (d, Some (w, n, acts)) => (d ++ [(w, n, acts, o)], None)
    | VWait eg, (d, c) => (d ++ [(WWait, [], [], HRet eg)], c)
    | _, st => st
    end.
  Definition calls (tr : list (event V)) : list item := fst (fold_left scan1 tr ([], None)).
  Definition shown (k : call) : item := (k_who k, k_name k, k_acts k, k_out k).
  (** the same handlers, as far as names go *)
  Definition same_shape (s : iset V) (hs : hset) : Prop :=
    map ih_name (is_before s) = map h_name (hs_before hs) /\ map ih_name (is_after s) = map h_name (hs_after hs) /\
    option_map il_name (is_last s) = option_map l_name (hs_last hs) /\
    option_map im_name (is_main s) = option_map m_name (hs_main hs).
End Spec.
