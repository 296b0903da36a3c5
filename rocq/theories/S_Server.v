(** Specification of a whole server (C131-C133): plain values instead of slices, a list of routes instead of tables. *)
From Verif Require Import Base GoStrings GoSlices M_Tree S_Route S_Choice M_Server.
From Verif Require M_Router S_Router M_Pipeline M_Auth.

(** What routers and handler sets are made of, and what a route runs: the lists as they were when it was registered. *)
Record group := Grp { gr_before : list hid; gr_after : list hid; gr_last : option nat }.
Record kit := Kit { kt_before : list hid; kt_after : list hid; kt_last : option nat; kt_main : option nat }.
Record route := Route { o_key : M_Router.key; o_kit : kit }.
Record plan := Plan {
  p_groups : list group;
  p_kits : list kit;
  p_routes : list route;
  p_auth : option M_Auth.base_auth;
  p_ses : option (M_Pipeline.ctx -> M_Pipeline.beh);
  p_level : Z
}.
Definition nothing : plan := Plan [] [] [] (Some M_Auth.new_auth) None 5.

Definition no_group := Grp [] [] None.
Definition no_kit := Kit [] [] None None.
Section Plans.
  Import M_Router.
  (** One call, by its documented meaning: Before and After of a router replace, First puts in front, LastAfter appends; Before and After of a
      set append; Clone copies; a registration keeps what the router or set has at that moment. *)
  Definition plan_op (p : plan) (o : op) : plan :=
    let grps f := Plan (f (p_groups p)) (p_kits p) (p_routes p) (p_auth p) (p_ses p) (p_level p) in
    let kits f := Plan (p_groups p) (f (p_kits p)) (p_routes p) (p_auth p) (p_ses p) (p_level p) in
    let adds x := Plan (p_groups p) (p_kits p) (p_routes p ++ [x]) (p_auth p) (p_ses p) (p_level p) in
    match o with
    | NewRouter => grps (fun l => l ++ [no_group])
    | RFirst r h => grps (upd_nth r (fun x => Grp (h :: gr_before x) (gr_after x) (gr_last x)))
    | RBefore r a => grps (upd_nth r (fun x => Grp (S_Router.arg_list a) (gr_after x) (gr_last x)))
    | RAfter r a => grps (upd_nth r (fun x => Grp (gr_before x) (S_Router.arg_list a) (gr_last x)))
    | RLastAfter r h => grps (upd_nth r (fun x => Grp (gr_before x) (gr_after x ++ [h]) (gr_last x)))
    | RLast r l => grps (upd_nth r (fun x => Grp (gr_before x) (gr_after x) l))
    | RClone r => grps (fun l => l ++ [nth r l no_group])
    | RUse r k m => let x := nth r (p_groups p) no_group in adds (Route k (Kit (gr_before x) (gr_after x) (gr_last x) m))
    | NewSet => kits (fun l => l ++ [no_kit])
    | SBefore s a => kits (upd_nth s (fun x => Kit (kt_before x ++ S_Router.arg_list a) (kt_after x) (kt_last x) (kt_main x)))
    | SAfter s a => kits (upd_nth s (fun x => Kit (kt_before x) (kt_after x ++ S_Router.arg_list a) (kt_last x) (kt_main x)))
    | SLast s l => kits (upd_nth s (fun x => Kit (kt_before x) (kt_after x) l (kt_main x)))
    | SUse s m => kits (upd_nth s (fun x => Kit (kt_before x) (kt_after x) (kt_last x) m))
    | SClone s => kits (fun l => l ++ [nth s l no_kit])
    | SAdd k m (Some s) => let x := nth s (p_kits p) no_kit in adds (Route k (Kit (kt_before x) (kt_after x) (kt_last x) m))
    | _ => p
    end.
  (** the HTTP method each registration method is named after *)
  Definition verb_name (v : verb) : bytes :=
    match v with
    | VGetPost => B"GETPOST" | VPost => B"POST" | VGet => B"GET" | VHead => B"HEAD" | VPut => B"PUT"
    | VPatch => B"PATCH" | VDelete => B"DELETE" | VConnect => B"CONNECT" | VOptions => B"OPTIONS" | VTrace => B"TRACE"
    end.
  (** the building call a call of the server amounts to *)
  Definition op_of (c : scall) : option op :=
    match c with
    | COp o => Some o
    | CRouterVerb r v rt m => Some (RUse r (KPath (verb_name v) rt) m)
    | CServerVerb v rt m (x :: _) => Some (SAdd (KPath (verb_name v) rt) m (Some x))
    | _ => None
    end.
  Definition ops (cs : list scall) : list op := flat_map (fun c => match op_of c with Some o => [o] | None => [] end) cs.
  Definition plan_call (p : plan) (c : scall) : plan :=
    let with_auth a := Plan (p_groups p) (p_kits p) (p_routes p) a (p_ses p) (p_level p) in
    match c with
    | CAuth o => with_auth (option_map (fun h => M_Auth.auth_step h o) (p_auth p))
    | CSetAuth a => with_auth a
    | CSesInit f => Plan (p_groups p) (p_kits p) (p_routes p) (p_auth p) f (p_level p)
    | CSetLevel l => Plan (p_groups p) (p_kits p) (p_routes p) (p_auth p) (p_ses p) l
    | _ => match op_of c with Some o => plan_op p o | None => p end
    end.
  Definition planned (cs : list scall) : plan := fold_left plan_call cs nothing.

  (** The routes registered with a path, each with its position among all routes. *)
  Fixpoint paths_from (i : nat) (rs : list route) : list (S_Route.reg nat) :=
    match rs with
    | [] => []
    | x :: rs' => match o_key x with
                  | KPath m rt => S_Route.Reg m rt i :: paths_from (S i) rs'
                  | KReg _ _ => paths_from (S i) rs'
                  end
    end.
  Definition path_regs (p : plan) : list (S_Route.reg nat) := paths_from 0 (p_routes p).
  Definition well_formed (p : plan) : Prop := forall m rt k, In (Route (KPath m rt) k) (p_routes p) -> wf_routeb rt = true.

  (** Which route a request goes to, with which URL parameters. *)
  Inductive picks (matches : nat -> bytes -> bool) (p : plan) (m path : bytes) : option (route * args) -> Prop :=
  | PickPath i g x : nth_error (path_regs p) i = Some g -> answers (path_regs p) m (segments path) i -> nth_error (p_routes p) (r_set g) = Some x ->
      picks matches p m path (Some (x, bindings (pattern_of (r_route g)) (segments path)))
  | PickReg k x mt e : (forall i, ~ answers (path_regs p) m (segments path) i) ->
      nth_error (p_routes p) k = Some x -> o_key x = KReg mt e -> covers mt m = true -> matches e path = true ->
      (forall k' x' mt', nth_error (p_routes p) k' = Some x' -> o_key x' = KReg mt' e -> covers mt' m = true -> k' <= k) ->
      picks matches p m path (Some (x, []))
  | PickNone : (forall i, ~ answers (path_regs p) m (segments path) i) ->
      (forall x mt e, In x (p_routes p) -> o_key x = KReg mt e -> covers mt m = true -> matches e path = false) ->
      picks matches p m path None.

  (** The handlers of a route, for a request with these parameters. *)
  Definition set_of (cd : code) (xa : route * args) : M_Pipeline.hset :=
    let k := o_kit (fst xa) in let a := snd xa in
    M_Pipeline.HSet (map (fun h => c_handler cd h a) (kt_before k)) (map (fun h => c_handler cd h a) (kt_after k))
                    (option_map (fun h => c_last cd h a) (kt_last k)) (option_map (fun h => c_main cd h a) (kt_main k)).
  (** the server such a request meets *)
  Definition as_planned (cd : code) (p : plan) (choice : option (route * args)) (lk : luck) : M_Auth.server :=
    M_Auth.Server (p_auth p) (fun _ _ => option_map (set_of cd) choice) (p_ses p) (p_level p) (l_sched lk).

  (** Calls that neither register a route nor change how requests are served in general. *)
  Definition bystander (c : scall) : bool :=
    match c with
    | COp (RUse _ _ _) | COp (SAdd _ _ _) | CRouterVerb _ _ _ _ | CServerVerb _ _ _ _ => false
    | COp _ | CRequest _ _ => true
    | CAuth _ | CSetAuth _ | CSesInit _ | CSetLevel _ => false
    end.
End Plans.
