(** C127: clones are copies exactly as long as no list is extended behind another one's back. *)
From Verif Require Import Base GoSlices P_Slices M_Router S_Router S_Copies P_Copies.

(** * C127 Routers, handler sets, their clones and the routes registered from them behave as values copied at the call *)
(** In a program that keeps no slices of its own and in which every append is safe when it is made
    (it goes to new storage for certain, or no list in the same storage is longer), every list
    of every router, set and route is what it would be if Clone and registration copied. *)
Theorem C127_copies : forall grow ops st, forallb tidy ops = true -> disciplined (Bufs [] [] [] 0) ops ->
  run grow init ops = Ok st -> forall p, shows st p = value (copies ops) p.
Proof.
  intros grow ops st Ty D R. destruct (run_shows grow (weight ops) ops st Ty D (le_n _) R) as [I _]. exact (shows_inv _ _ _ _ _ I).
Qed.

(** The discipline is exact: after a disciplined history, an append of handlers that are in no list
    yet is safe if and only if, whatever room the runtime leaves, all lists stay copies. *)
Theorem C127_safe_iff : forall ops o grow0 st0, forallb tidy (ops ++ [o]) = true -> disciplined (Bufs [] [] [] 0) ops ->
  run grow0 init (ops ++ [o]) = Ok st0 ->
  (forall p xs, appends o = Some (p, xs) -> forall q l, value (copies ops) q = Some l -> forall h, In h xs -> ~ In h l) ->
  (safe (storages ops) o <-> forall grow st, run grow init (ops ++ [o]) = Ok st -> forall p, shows st p = value (copies (ops ++ [o])) p).
Proof.
  intros ops o grow0 st0 Ty D R0 New. split.
  - intros Sf grow st R. apply (C127_copies grow (ops ++ [o])); auto. apply disciplined_snoc; assumption.
  - intros All. unfold safe. destruct (appends o) as [[p xs]|] eqn:Ap; [|exact I]. intros kx Ek.
    destruct xs as [|z xs]; [left; reflexivity|]. right. destruct (moves kx (length (z :: xs))) eqn:Mv; [left; reflexivity|]. right.
    intros q ky Eq Id. destruct (Nat.le_gt_cases (b_len ky) (b_len kx)) as [Le|Lt]; [exact Le|]. exfalso.
    set (N := weight (ops ++ [o])). set (grow := fun _ _ : nat => N).
    destruct (run_alike grow0 grow (ops ++ [o]) init init st0 Ty (conj eq_refl eq_refl) R0) as (st & R & _).
    pose proof (All grow st R q) as Sh.
    rewrite run_app in R. destruct (run grow init ops) as [st1|] eqn:R1; [|discriminate]. cbn [run] in R. destruct (step grow st1 o) as [st2|] eqn:St; [|discriminate]. inversion R; subst st2.
    rewrite forallb_app in Ty. apply andb_prop in Ty. destruct Ty as [Ty1 Ty2]. cbn in Ty2. rewrite andb_true_r in Ty2.
    assert (Wn : N = weight ops + w_op o).
    { unfold N, weight. rewrite map_app, list_sum_app. cbn. lia. }
    destruct (run_shows grow N ops st1 Ty1 D ltac:(lia) R1) as [Iv Ln].
    assert (Wx : length (z :: xs) = w_op o) by (destruct o; cbn in Ap; inversion Ap; reflexivity).
    refine (clash grow N st1 _ _ o p (z :: xs) q kx ky st Iv _ Ty2 Ap Ek Eq Id Lt _ Mv _ _ St _).
    + intros c n. unfold grow. lia.
    + discriminate.
    + specialize (Ln p kx Ek). lia.
    + intros l V h Hh. exact (New p _ eq_refl q l V h Hh).
    + unfold copies in Sh. rewrite fold_left_app in Sh. exact Sh.
Qed.

(** A disciplined history with clones of sets and of routers that are configured alternately. *)
Example C127_example :
  let k := KPath (B"GET") (B"/x") in
  let ops := [NewSet; SClone 0; SBefore 0 (Fresh [1] 0); SBefore 1 (Fresh [2] 0); SBefore 0 (Fresh [3; 4] 0); SAdd k None (Some 0); SBefore 1 (Fresh [5] 0);
              SBefore 0 (Fresh [6] 0); SAdd k None (Some 0); NewRouter; RClone 0; RLastAfter 0 7; RLastAfter 1 8; RBefore 0 (Fresh [9] 0); RClone 0; RFirst 2 10; RUse 2 k None; RLastAfter 2 11] in
  forallb tidy ops = true /\ disciplined (Bufs [] [] [] 0) ops /\
  exists st, run go_grow init ops = Ok st /\
    map (shows st) [PSet 0 false; PSet 1 false; PRoute 0 false; PRoute 1 false; PRouter 0 true; PRouter 1 true; PRouter 0 false; PRouter 2 false; PRouter 2 true; PRoute 2 false; PRoute 2 true; PRoute 3 true] =
    [Some [1; 3; 4; 6]; Some [2; 5]; Some [1; 3; 4]; Some [1; 3; 4; 6]; Some [7]; Some [8]; Some [9]; Some [10; 9]; Some [7; 11]; Some [10; 9]; Some [7]; None].
Proof.
  cbv zeta. split; [vm_compute; reflexivity|]. split; [apply disciplinedb_ok; vm_compute; reflexivity|]. eexists. split; vm_compute; reflexivity.
Qed.
(** The counterexample of C31: the last call is not safe, and it does spoil the clone. *)
Example C127_unsafe_example :
  let ops := [NewRouter; RLastAfter 0 1; RLastAfter 0 2; RLastAfter 0 3; RClone 0; RLastAfter 1 4] in
  forallb tidy (ops ++ [RLastAfter 0 5]) = true /\ disciplined (Bufs [] [] [] 0) ops /\ ~ safe (storages ops) (RLastAfter 0 5) /\
  exists st, run go_grow init (ops ++ [RLastAfter 0 5]) = Ok st /\ shows st (PRouter 1 true) = Some [1; 2; 3; 5] /\
    value (copies (ops ++ [RLastAfter 0 5])) (PRouter 1 true) = Some [1; 2; 3; 4].
Proof.
  cbv zeta. split; [reflexivity|]. split; [apply disciplinedb_ok; vm_compute; reflexivity|]. split.
  - intros Sf. specialize (Sf _ eq_refl). destruct Sf as [Z|[Z|Z]]; [discriminate|vm_compute in Z; discriminate|].
    specialize (Z (PRouter 1 true) _ eq_refl eq_refl). vm_compute in Z. lia.
  - eexists. split; [vm_compute; reflexivity|]. split; vm_compute; reflexivity.
Qed.
Print Assumptions C127_copies.
Print Assumptions C127_safe_iff.
