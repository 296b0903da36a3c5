(** C17, C29-C32: registering routes through Router and HandlerSet. *)
From Verif Require Import Base GoSlices M_Router S_Router P_Slices P_Router P_Router2 P_Router3 P_Router4.

(** computes the state reached by a concrete history *)
Ltac runs := cbn zeta; lazymatch goal with
  | |- run ?g ?s ?o = Ok ?st =>
      let v := eval vm_compute in (run g s o) in
      lazymatch v with Ok ?x => unify st x; vm_compute; reflexivity end
  end.
Definition state_of (r : res state) : state := match r with Ok s => s | Panic => init end.
Ltac example := first [runs | vm_compute; reflexivity].

(** * C17 The handler-set argument of Server.Get/Post/... is optional *)
Definition C17_claim : Prop :=
  forall grow st k m, exists st', server_method grow st k m [] = Ok st'.
(** False: without a set the call always panics. *)
Theorem C17_no_set_panics : forall grow st k m, server_method grow st k m [] = Panic.
Proof. reflexivity. Qed.
Theorem C17_optional_set_refuted : ~ C17_claim.
Proof.
  intros H. destruct (H (fun _ _ => 0) init (KPath (B"GET") (B"/")) (Some 1)) as [st' E].
  rewrite C17_no_set_panics in E. discriminate.
Qed.
(** What does hold: with a set (further sets are ignored) the route is registered,
    as the next one, with the set's lists and last handler and the given main
    handler, and nothing else changes.  Missing: the call without a set. *)
Theorem C17_with_set_partial : forall grow st k m s others b a x,
  set_lists st s = Some (b, a) -> nth_error (st_sets st) s = Some x ->
  exists st', server_method grow st k m (s :: others) = Ok st' /\
    length (st_routes st') = S (length (st_routes st)) /\
    route_pipe st' (length (st_routes st)) = Some (k, Pipe b m a (s_last x)) /\
    (forall i, i < length (st_routes st) -> route_pipe st' i = route_pipe st i) /\
    (forall s', set_lists st' s' = set_lists st s').
Proof.
  intros grow st k m s others b a x Hl Hx. unfold set_lists in Hl. rewrite Hx in Hl. simpl in Hl.
  injection Hl as <- <-. unfold server_method. cbn [step]. rewrite Hx. eexists. split; [reflexivity|].
  simpl. split; [rewrite app_length; simpl; lia|]. unfold route_pipe. simpl. split.
  - rewrite nth_error_app2 by lia. rewrite Nat.sub_diag. reflexivity.
  - split; [|reflexivity]. intros i Hi. rewrite nth_error_app1 by lia. reflexivity.
Qed.
Example C17_example : exists st, run go_grow init [NewSet; SBefore 0 (Fresh [5] 0)] = Ok st /\
  set_lists st 0 = Some ([5], []) /\ exists x, nth_error (st_sets st) 0 = Some x.
Proof. eexists. split; [runs|]. split; [example|]. eexists. example. Qed.
Print Assumptions C17_with_set_partial.

(** * C29 A route registered through a Router is a snapshot *)
(** For every growth policy, every history [ops1] that leads to the registration and
    every later history [ops2] (all operations of routers, handler sets and caller
    slices): the registration made by [RUse] runs the router's lists of that moment. *)
Theorem C29_router_route_snapshot : forall grow ops1 ops2 st0 st2 r k m b a l,
  run grow init ops1 = Ok st0 ->
  router_before st0 r = Some b -> router_after st0 r = Some a -> router_last st0 r = Some l ->
  run grow st0 (RUse r k m :: ops2) = Ok st2 ->
  route_pipe st2 (length (st_routes st0)) = Some (k, Pipe b m a l).
Proof.
  intros grow ops1 ops2 st0 st2 r k m b a l H0 Hb Ha Hl H2.
  pose proof (inv_run grow ops1 init st0 inv_init H0) as I.
  cbn [run] in H2. destruct (step grow st0 (RUse r k m)) as [st1|] eqn:E; [|discriminate].
  destruct (ruse_spec grow st0 r k m st1 I E) as (b' & a' & l' & Eb & Ea & El & g & Er & Eo & Ek & Ep).
  rewrite Hb in Eb. rewrite Ha in Ea. rewrite Hl in El. injection Eb as <-. injection Ea as <-. injection El as <-.
  assert (Hi : nth_error (st_routes st1) (length (st_routes st0)) = Some g).
  { rewrite Er, nth_error_app2, Nat.sub_diag by lia. reflexivity. }
  destruct (own_route_stable grow ops2 st1 st2 _ g (proj1 (inv_step grow st0 _ st1 I E)) H2 Hi Eo) as [R1 R2].
  unfold route_pipe. rewrite R1. simpl. rewrite R2, Ep, Ek. reflexivity.
Qed.
(** and the registration itself succeeds for every router that exists *)
Theorem C29_router_route_registers : forall grow st r k m x,
  nth_error (st_routers st) r = Some x -> exists st', run grow st [RUse r k m] = Ok st' /\
  length (st_routes st') = S (length (st_routes st)).
Proof.
  intros grow st r k m x Hx. cbn [run step]. rewrite Hx.
  destruct (new_set (st_heap st)) as [h1 s0]. unfold set_after, set_before.
  destruct (append grow h1 (s_after s0) _) as [h2 a]. cbn [s_before s_after s_last s_main].
  destruct (append grow h2 (s_before s0) _) as [h3 b]. eexists. split; [reflexivity|].
  simpl. rewrite app_length. simpl. lia.
Qed.
(** Non-trivial case: the caller passes its slice, registers, then overwrites it,
    and changes and clones the router. *)
Example C29_example :
  let k := KPath (B"GET") (B"/a") in
  let ops1 := [NewRouter; CMake [1; 2] 3; RBefore 0 (Var 0); RAfter 0 (Fresh [8] 0); RLast 0 (Some 9)] in
  let ops2 := [CWrite 0 0 77; RClone 0; RLastAfter 0 78; RFirst 1 79; RBefore 0 (Fresh [80] 0)] in
  exists st0 st2, run go_grow init ops1 = Ok st0 /\
    router_before st0 0 = Some [1; 2] /\ router_after st0 0 = Some [8] /\ router_last st0 0 = Some (Some 9) /\
    run go_grow st0 (RUse 0 k (Some 5) :: ops2) = Ok st2 /\ router_before st2 0 = Some [80].
Proof. do 2 eexists. repeat (split; [example|]). example. Qed.
Print Assumptions C29_router_route_snapshot.

(** * C30 A route registered with a handler set is a snapshot *)
Definition C30_claim : Prop := forall grow ops1 ops2 st0 st2 s k m b a x,
  run grow init ops1 = Ok st0 ->
  set_lists st0 s = Some (b, a) -> nth_error (st_sets st0) s = Some x ->
  run grow st0 (SAdd k m (Some s) :: ops2) = Ok st2 ->
  route_pipe st2 (length (st_routes st0)) = Some (k, Pipe b m a (s_last x)).
(** False with the growth policy of the Go runtime: three Befores leave a spare
    cell; a clone of the set made earlier writes over the route's fourth handler. *)
Theorem C30_set_route_snapshot_refuted : ~ C30_claim.
Proof.
  intros H.
  pose (ops1 := [NewSet; SBefore 0 (Fresh [1] 0); SBefore 0 (Fresh [2] 0); SBefore 0 (Fresh [3] 0);
                 SClone 0; SBefore 0 (Fresh [4] 0)]).
  destruct (run go_grow init ops1) as [st0|] eqn:E0; [|discriminate].
  specialize (H go_grow ops1 [SBefore 1 (Fresh [66] 0)] st0).
  unfold ops1 in E0. vm_compute in E0. injection E0 as <-.
  specialize (H _ 0 (KPath [] []) (Some 9) [1; 2; 3; 4] [] _ eq_refl eq_refl eq_refl eq_refl).
  vm_compute in H. discriminate.
Qed.
(** What does hold: in histories where no HandlerSet is cloned by the program (Router
    clones and every use of caller slices are allowed) the route is a snapshot.
    Missing: programs that call HandlerSet.Clone themselves. *)
Theorem C30_set_route_snapshot_partial : forall grow ops1 ops2 st0 st2 s k m b a x,
  Forall (fun o => forall s', o <> SClone s') (ops1 ++ ops2) ->
  run grow init ops1 = Ok st0 ->
  set_lists st0 s = Some (b, a) -> nth_error (st_sets st0) s = Some x ->
  run grow st0 (SAdd k m (Some s) :: ops2) = Ok st2 ->
  route_pipe st2 (length (st_routes st0)) = Some (k, Pipe b m a (s_last x)).
Proof.
  intros grow ops1 ops2 st0 st2 s k m b a x HF H0 Hl Hx H2. apply Forall_app in HF as [F1 F2].
  destruct (run_inv30 grow ops1 init st0 inv30_init F1 H0) as [I _].
  cbn [run] in H2. destruct (step grow st0 (SAdd k m (Some s))) as [st1|] eqn:E; [|discriminate].
  destruct (run_inv30 grow [SAdd k m (Some s)] st0 st1 I) as [I1 _].
  { constructor; [discriminate|constructor]. }
  { cbn [run]. rewrite E. reflexivity. }
  destruct (run_inv30 grow ops2 st1 st2 I1 F2 H2) as (_ & [rs Er] & Rd).
  unfold set_lists in Hl. rewrite Hx in Hl. cbn in Hl. injection Hl as <- <-.
  cbn [step] in E. rewrite Hx in E. injection E as <-.
  unfold route_pipe. rewrite Er. cbn [st_routes]. rewrite nth_error_app1 by (rewrite app_length; simpl; lia).
  rewrite nth_error_app2, Nat.sub_diag by lia. simpl. unfold set_pipe. simpl.
  rewrite !Rd; [reflexivity| |];
    unfold regs; apply in_flat_map; eexists; (split; [apply in_app_iff; right; left; reflexivity|simpl; auto]).
Qed.
Example C30_example :
  let ops1 := [NewSet; SBefore 0 (Fresh [1] 0); SBefore 0 (Fresh [2] 0); SBefore 0 (Fresh [3] 0)] in
  let ops2 := [SBefore 0 (Fresh [4] 0); SAdd (KPath [] []) (Some 7) (Some 0); SBefore 0 (Fresh [5] 0); NewRouter; RClone 0] in
  Forall (fun o => forall s', o <> SClone s') (ops1 ++ ops2) /\
  exists st0 st2, run go_grow init ops1 = Ok st0 /\ set_lists st0 0 = Some ([1; 2; 3], []) /\
   run go_grow st0 (SAdd (KPath [] []) (Some 9) (Some 0) :: ops2) = Ok st2 /\ set_lists st2 0 = Some ([1; 2; 3; 4; 5], []).
Proof.
  cbn zeta. split.
  - repeat constructor; discriminate.
  - do 2 eexists. repeat (split; [example|]). example.
Qed.
Print Assumptions C30_set_route_snapshot_partial.

(** * C31 Clones are independent *)
(** Router: after [RClone r] (the clone is number [length (st_routers st0)]), any
    operations on the two routers; the original's lists evolve as they would without
    the operations on the clone, i.e. for histories with the original untouched they
    do not change, and conversely.  The claim, for interleaved operations: *)
Definition C31_claim : Prop := forall grow ops1 ops2 ops3 st0 st1 st2 r,
  run grow init ops1 = Ok st0 ->
  Forall (fun o => tidy o = true) ops1 ->
  run grow st0 (RClone r :: ops2) = Ok st1 ->
  Forall (fun o => on_router r o = true \/ on_router (length (st_routers st0)) o = true) ops2 ->
  Forall (fun o => on_router r o = true) ops3 ->
  run grow st1 ops3 = Ok st2 ->
  router_before st2 (length (st_routers st0)) = router_before st1 (length (st_routers st0)) /\
  router_after st2 (length (st_routers st0)) = router_after st1 (length (st_routers st0)).
(** False with the growth policy of the Go runtime: LastAfter on the original
    overwrites the element LastAfter on the clone has just added. *)
Theorem C31_clone_independent_refuted : ~ C31_claim.
Proof.
  intros H.
  set (ops1 := [NewRouter; RLastAfter 0 1; RLastAfter 0 2; RLastAfter 0 3]) in *.
  set (s0 := state_of (run go_grow init ops1)).
  set (s1 := state_of (run go_grow s0 [RClone 0; RLastAfter 1 4])).
  set (s2 := state_of (run go_grow s1 [RLastAfter 0 5])).
  destruct (H go_grow ops1 [RLastAfter 1 4] [RLastAfter 0 5] s0 s1 s2 0) as [_ X].
  - vm_compute. reflexivity.
  - repeat constructor.
  - vm_compute. reflexivity.
  - constructor; [right; reflexivity|constructor].
  - constructor; [reflexivity|constructor].
  - vm_compute. reflexivity.
  - vm_compute in X. discriminate.
Qed.
(** The same defect for handler sets. *)
Definition C31_set_claim : Prop := forall grow ops1 ops2 ops3 st0 st1 st2 s,
  run grow init ops1 = Ok st0 ->
  Forall (fun o => tidy o = true) ops1 ->
  run grow st0 (SClone s :: ops2) = Ok st1 ->
  Forall (fun o => on_set s o = true \/ on_set (length (st_sets st0)) o = true) ops2 ->
  Forall (fun o => on_set s o = true) ops3 ->
  run grow st1 ops3 = Ok st2 ->
  set_lists st2 (length (st_sets st0)) = set_lists st1 (length (st_sets st0)).
Theorem C31_set_clone_independent_refuted : ~ C31_set_claim.
Proof.
  intros H.
  set (ops1 := [NewSet; SAfter 0 (Fresh [1] 0); SAfter 0 (Fresh [2] 0); SAfter 0 (Fresh [3] 0)]) in *.
  set (s0 := state_of (run go_grow init ops1)).
  set (s1 := state_of (run go_grow s0 [SClone 0; SAfter 1 (Fresh [4] 0)])).
  set (s2 := state_of (run go_grow s1 [SAfter 0 (Fresh [5] 0)])).
  assert (X := H go_grow ops1 [SAfter 1 (Fresh [4] 0)] [SAfter 0 (Fresh [5] 0)] s0 s1 s2 0).
  enough (set_lists s2 (length (st_sets s0)) = set_lists s1 (length (st_sets s0))) as Y
    by (vm_compute in Y; discriminate).
  apply X.
  - vm_compute. reflexivity.
  - repeat constructor.
  - vm_compute. reflexivity.
  - constructor; [right; reflexivity|constructor].
  - constructor; [reflexivity|constructor].
  - vm_compute. reflexivity.
Qed.

(** What does hold, for every growth policy, in programs that keep no slices of
    their own: as long as only one of the two is operated on after the clone, the
    other keeps its lists.  Missing: operations on both. *)
Theorem C31_router_clone_partial : forall grow ops1 ops2 st0 st1 r x y,
  run grow init ops1 = Ok st0 ->
  Forall (fun o => tidy o = true) ops1 ->
  run grow st0 (RClone r :: ops2) = Ok st1 ->
  (* x is operated on, y is not; they are the original and the clone in either order *)
  (x = r /\ y = length (st_routers st0)) \/ (x = length (st_routers st0) /\ y = r) ->
  Forall (fun o => on_router x o = true) ops2 ->
  router_before st1 y = router_before st0 r /\ router_after st1 y = router_after st0 r.
Proof.
  intros grow ops1 ops2 st0 st1 r x y H0 HT H1 Hxy HF.
  pose proof (tidy_run grow ops1 init st0 tinv_init HT H0) as T0.
  cbn [run] in H1. destruct (step grow st0 (RClone r)) as [sc|] eqn:Ec; [|discriminate].
  pose proof (tidy_step grow st0 (RClone r) sc T0 eq_refl Ec) as Tc.
  cbn [step] in Ec. destruct (nth_error (st_routers st0) r) as [z|] eqn:Ez; [|discriminate].
  assert (L : r < length (st_routers st0)) by (apply nth_error_Some; congruence).
  injection Ec as Ec.
  assert (Nr : nth_error (st_routers sc) r = Some z) by (subst sc; simpl; rewrite nth_error_app1 by lia; exact Ez).
  assert (Nc : nth_error (st_routers sc) (length (st_routers st0)) = Some z).
  { subst sc. simpl. rewrite nth_error_app2, Nat.sub_diag by lia. destruct z; reflexivity. }
  assert (NN : nth_error (st_routers sc) x = Some z /\ nth_error (st_routers sc) y = Some z /\ x <> y).
  { destruct Hxy as [[-> ->]|[-> ->]]; repeat split; auto; lia. }
  destruct NN as (Nx & Ny & Nxy).
  destruct (router_isolated grow ops2 sc st1 x y z z Tc Nxy Nx Ny) as [R1 R2]; [right; lia|exact HF|exact H1|].
  unfold router_before, router_after. rewrite R1, Ez. simpl. unfold lists_of in R2. subst sc.
  simpl in R2. injection R2 as -> ->. auto.
Qed.
Theorem C31_set_clone_partial : forall grow ops1 ops2 st0 st1 s x y,
  run grow init ops1 = Ok st0 ->
  Forall (fun o => tidy o = true) ops1 ->
  run grow st0 (SClone s :: ops2) = Ok st1 ->
  (x = s /\ y = length (st_sets st0)) \/ (x = length (st_sets st0) /\ y = s) ->
  Forall (fun o => on_set x o = true) ops2 ->
  set_lists st1 y = set_lists st0 s.
Proof.
  intros grow ops1 ops2 st0 st1 r x y H0 HT H1 Hxy HF.
  pose proof (tidy_run grow ops1 init st0 tinv_init HT H0) as T0.
  cbn [run] in H1. destruct (step grow st0 (SClone r)) as [sc|] eqn:Ec; [|discriminate].
  pose proof (tidy_step grow st0 (SClone r) sc T0 eq_refl Ec) as Tc.
  cbn [step] in Ec. destruct (nth_error (st_sets st0) r) as [z|] eqn:Ez; [|discriminate].
  assert (L : r < length (st_sets st0)) by (apply nth_error_Some; congruence).
  injection Ec as Ec.
  assert (Nr : nth_error (st_sets sc) r = Some z) by (subst sc; simpl; rewrite nth_error_app1 by lia; exact Ez).
  assert (Nc : nth_error (st_sets sc) (length (st_sets st0)) = Some z).
  { subst sc. simpl. rewrite nth_error_app2, Nat.sub_diag by lia. destruct z; reflexivity. }
  assert (NN : nth_error (st_sets sc) x = Some z /\ nth_error (st_sets sc) y = Some z /\ x <> y).
  { destruct Hxy as [[-> ->]|[-> ->]]; repeat split; auto; lia. }
  destruct NN as (Nx & Ny & Nxy).
  destruct (set_isolated grow ops2 sc st1 x y z z Tc Nxy Nx Ny) as [R1 R2];
    [right; lia|right; lia|exact HF|exact H1|].
  unfold set_lists. rewrite R1, Ez. simpl. unfold slists in R2. subst sc. simpl in R2. rewrite R2. reflexivity.
Qed.
(** The before lists of routers do hold their ground whatever is done to either side: in a
    program that keeps no slices of its own, the before list of a router (original or
    clone) is only changed by First and Before on that very router.  Missing: the after
    lists, and both lists of handler sets. *)
Theorem C31_router_before_partial : forall grow ops1 ops2 st0 st1 r,
  run grow init ops1 = Ok st0 -> Forall (fun o => tidy o = true) ops1 ->
  run grow st0 ops2 = Ok st1 -> Forall (fun o => tidy o = true) ops2 ->
  r < length (st_routers st0) ->
  (forall h, ~ In (RFirst r h) ops2) -> (forall a, ~ In (RBefore r a) ops2) ->
  router_before st1 r = router_before st0 r.
Proof.
  intros grow ops1 ops2 st0 st1 r H0 T1 H1 T2 L N1 N2.
  apply (before_run grow ops2 st0 st1 r (binv_run grow ops1 init st0 binv_init T1 H0) T2 H1 L).
  apply Forall_forall. intros o Ho. destruct o; try reflexivity; cbn [sets_before]; apply Nat.eqb_neq; intros ->.
  - exact (N1 _ Ho).
  - exact (N2 _ Ho).
Qed.
Example C31_before_example :
  let ops1 := [NewRouter; RBefore 0 (Fresh [1; 2] 5); RClone 0] in
  let ops2 := [RFirst 1 9; RLastAfter 1 4; RLastAfter 0 5; RBefore 1 (Fresh [7] 3); RClone 1; RFirst 2 8] in
  exists st0 st1, run go_grow init ops1 = Ok st0 /\ run go_grow st0 ops2 = Ok st1 /\
    router_before st0 0 = Some [1; 2] /\ router_before st1 0 = Some [1; 2] /\ router_before st1 2 = Some [8; 7].
Proof. do 2 eexists. split; [runs|]. split; [runs|]. split; [example|]. split; example. Qed.
Print Assumptions C31_router_before_partial.
Example C31_example :
  let ops1 := [NewRouter; RLastAfter 0 1; RLastAfter 0 2; RLastAfter 0 3] in
  exists st0 st1, run go_grow init ops1 = Ok st0 /\ Forall (fun o => tidy o = true) ops1 /\
    run go_grow st0 (RClone 0 :: [RLastAfter 1 4; RFirst 1 6; RLastAfter 1 7]) = Ok st1 /\
    Forall (fun o => on_router 1 o = true) [RLastAfter 1 4; RFirst 1 6; RLastAfter 1 7] /\
    router_after st1 1 = Some [1; 2; 3; 4; 7] /\ router_after st1 0 = Some [1; 2; 3].
Proof.
  do 2 eexists. split; [runs|]. split; [repeat constructor|]. split; [runs|].
  split; [repeat constructor|]. split; example.
Qed.
Print Assumptions C31_router_clone_partial.
Print Assumptions C31_set_clone_partial.

(** * C32 Router list operations follow list semantics *)
Theorem C32_router_lists : forall grow ops st r,
  Forall (fun o => plain o = true) ops -> run grow init ops = Ok st -> r < length (st_routers st) ->
  router_before st r = Some (fst (router_spec r ops)) /\
  router_after st r = Some (snd (router_spec r ops)).
Proof.
  intros grow ops st r HF H Hr. destruct (run_inv32 grow ops st HF H) as [_ R].
  destruct (nth_error (st_routers st) r) as [x|] eqn:E; [|apply nth_error_None in E; lia].
  unfold router_before, router_after. rewrite E. simpl.
  specialize (R r x E). unfold lists_of in R. rewrite <- R. auto.
Qed.
Theorem C32_set_lists : forall grow ops st s,
  Forall (fun o => plain o = true) ops -> run grow init ops = Ok st -> s < length (st_sets st) ->
  set_lists st s = Some (set_spec s ops).
Proof.
  intros grow ops st s HF H Hs. pose proof (run_sets32 grow ops st HF H) as R.
  destruct (nth_error (st_sets st) s) as [x|] eqn:E; [|apply nth_error_None in E; lia].
  unfold set_lists. rewrite E. simpl. specialize (R s x E). unfold slists in R. rewrite <- R. reflexivity.
Qed.
Example C32_example :
  let ops := [NewRouter; NewRouter; RBefore 0 (Fresh [1; 2] 5); RFirst 0 3; RFirst 0 4; RAfter 0 (Fresh [5] 2);
              RLastAfter 0 6; RLastAfter 0 7; RFirst 1 8; NewSet; SBefore 0 (Fresh [1; 2] 1); SBefore 0 (Fresh [3] 0)] in
  Forall (fun o => plain o = true) ops /\
  (exists st, run go_grow init ops = Ok st /\ 0 < length (st_routers st) /\ 0 < length (st_sets st)) /\
  router_spec 0 ops = ([4; 3; 1; 2], [5; 6; 7]) /\ router_spec 1 ops = ([8], []) /\ set_spec 0 ops = ([1; 2; 3], []).
Proof.
  cbn zeta. split; [repeat constructor|]. split; [|repeat split].
  eexists. split; [runs|]. simpl. lia.
Qed.
Print Assumptions C32_router_lists.
Print Assumptions C32_set_lists.

(** Last handlers of routers, last and main handlers of handler sets: for every history,
    clones and callers' slices included. *)
Theorem C32_last_and_main : forall grow ops st,
  run grow init ops = Ok st ->
  map r_last (st_routers st) = lasts_spec ops /\
  map (fun x => (s_last x, s_main x)) (st_sets st) = ends_spec ops.
Proof.
  intros grow ops. induction ops as [|o ops IH] using rev_ind; intros st H.
  - injection H as <-. auto.
  - rewrite run_snoc in H. destruct (run grow init ops) as [st1|] eqn:E; [|discriminate].
    destruct (IH st1 eq_refl) as [I1 I2]. destruct (ends_step grow st1 o st H) as [E1 E2].
    unfold lasts_spec, ends_spec in *. rewrite !fold_left_app. cbn [fold_left]. rewrite E1, E2, I1, I2. auto.
Qed.
Example C32_last_example :
  let ops := [NewRouter; RLast 0 (Some 3); RClone 0; RLast 1 (Some 4); NewSet; SUse 0 (Some 1); SLast 0 (Some 2);
              SClone 0; SUse 1 None] in
  (exists st, run go_grow init ops = Ok st) /\
  lasts_spec ops = [Some 3; Some 4] /\ ends_spec ops = [(Some 2, Some 1); (Some 2, None)].
Proof. cbn zeta. split; [eexists; runs|split; reflexivity]. Qed.
Print Assumptions C32_last_and_main.
