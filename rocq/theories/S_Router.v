(** Specification vocabulary for registration (C17, C29-C32). *)
From Verif Require Import Base GoSlices M_Router.

(** What a request on a registered route runs. *)
Record pipe := Pipe { p_before : list hid; p_main : option nat; p_after : list hid; p_last : option nat }.
Definition set_pipe (st : state) (x : hset) : pipe :=
  Pipe (read (st_heap st) (s_before x)) (s_main x) (read (st_heap st) (s_after x)) (s_last x).
(** The [i]-th registration made so far: where, and what it runs. *)
Definition route_pipe (st : state) (i : nat) : option (key * pipe) :=
  option_map (fun g => (g_key g, set_pipe st (g_set g))) (nth_error (st_routes st) i).

(** GetBefore / GetAfter of the [r]-th router; the lists of the [s]-th handler set. *)
Definition router_before (st : state) (r : nat) : option (list hid) :=
  option_map (fun x => read (st_heap st) (r_before x)) (nth_error (st_routers st) r).
Definition router_after (st : state) (r : nat) : option (list hid) :=
  option_map (fun x => read (st_heap st) (r_after x)) (nth_error (st_routers st) r).
Definition router_last (st : state) (r : nat) : option (option nat) :=
  option_map r_last (nth_error (st_routers st) r).
Definition set_lists (st : state) (s : nat) : option (list hid * list hid) :=
  option_map (fun x => (read (st_heap st) (s_before x), read (st_heap st) (s_after x)))
             (nth_error (st_sets st) s).

(** ** Plain list semantics (C32) *)
(** Histories without Clone and without slices shared with the caller. *)
Definition plain_arg (a : arg) : bool := match a with Fresh _ _ => true | Var _ => false end.
Definition plain (o : op) : bool :=
  match o with
  | RBefore _ a | RAfter _ a | SBefore _ a | SAfter _ a => plain_arg a
  | RClone _ | SClone _ | RGetBefore _ | RGetAfter _ => false
  | CMake _ _ | CWrite _ _ _ | CAppend _ _ | CSlice _ _ _ => false
  | _ => true
  end.
Definition arg_list (a : arg) : list hid := match a with Fresh xs _ => xs | Var _ => [] end.

(** Before list and after list of router [r] after a history, by the documented
    meaning of the calls: Before/After replace, First prepends, LastAfter appends. *)
Definition router_spec1 (r : nat) (l : list hid * list hid) (o : op) : list hid * list hid :=
  match o with
  | RFirst r' h => if r' =? r then (h :: fst l, snd l) else l
  | RBefore r' a => if r' =? r then (arg_list a, snd l) else l
  | RAfter r' a => if r' =? r then (fst l, arg_list a) else l
  | RLastAfter r' h => if r' =? r then (fst l, snd l ++ [h]) else l
  | _ => l
  end.
Definition router_spec (r : nat) (os : list op) : list hid * list hid :=
  fold_left (router_spec1 r) os ([], []).
(** ... and of handler set [s]: Before and After append. *)
Definition set_spec1 (s : nat) (l : list hid * list hid) (o : op) : list hid * list hid :=
  match o with
  | SBefore s' a => if s' =? s then (fst l ++ arg_list a, snd l) else l
  | SAfter s' a => if s' =? s then (fst l, snd l ++ arg_list a) else l
  | _ => l
  end.
Definition set_spec (s : nat) (os : list op) : list hid * list hid :=
  fold_left (set_spec1 s) os ([], []).

(** ** Clones (C31) *)
(** Histories in which the caller keeps no slice of its own. *)
Definition tidy (o : op) : bool :=
  match o with RClone _ | SClone _ => true | _ => plain o end.
(** Operations applied to router [r], or to handler set [s], and to nothing else. *)
Definition on_router (r : nat) (o : op) : bool :=
  match o with
  | RFirst r' _ | RLastAfter r' _ | RLast r' _ | RUse r' _ _ => r' =? r
  | RBefore r' a | RAfter r' a => (r' =? r) && plain_arg a
  | _ => false
  end.
Definition on_set (s : nat) (o : op) : bool :=
  match o with
  | SBefore s' a | SAfter s' a => (s' =? s) && plain_arg a
  | SLast s' _ | SUse s' _ | SAdd _ _ (Some s') => s' =? s
  | _ => false
  end.

(** ** Last and main handlers, for every history (C32): Last and Use replace, Clone copies,
    everything else leaves them alone. *)
Definition lasts_spec1 (l : list (option nat)) (o : op) : list (option nat) :=
  match o with
  | NewRouter => l ++ [None]
  | RLast r h => upd_nth r (fun _ => h) l
  | RClone r => l ++ [nth r l None]
  | _ => l
  end.
Definition lasts_spec (os : list op) : list (option nat) := fold_left lasts_spec1 os [].
Definition ends_spec1 (l : list (option nat * option nat)) (o : op) : list (option nat * option nat) :=
  match o with
  | NewSet => l ++ [(None, None)]
  | SLast s h => upd_nth s (fun lm => (h, snd lm)) l
  | SUse s h => upd_nth s (fun lm => (fst lm, h)) l
  | SClone s => l ++ [nth s l (None, None)]
  | _ => l
  end.
(** last and main handler of every handler set *)
Definition ends_spec (os : list op) : list (option nat * option nat) := fold_left ends_spec1 os [].
