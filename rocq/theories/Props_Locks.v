(** C119-C121: the package's locks around user code. *)
From Verif Require Import Base M_Locks S_Locks P_Locks.

(** ** Every run ends *)
Theorem C119_no_endless_run : forall ts, exists bound, forall y n, run (start ts) y n -> n <= bound.
Proof. intros ts. exists (size (start ts)). intros y n R. apply run_size in R. lia. Qed.

Lemma step_dec f ts : (exists y', step (Sys f ts) y') \/ stuck (Sys f ts).
Proof.
  destruct (existsb (fun os => match os with o :: _ => match act o (f (lock_of o)) with Some _ => true | None => false end | [] => false end) ts) eqn:E.
  - left. apply existsb_exists in E as (os & I & E). destruct os as [|o k]; [discriminate|].
    destruct (act o (f (lock_of o))) as [v|] eqn:A; [|discriminate]. apply in_split in I as (l1 & l2 & ->).
    eexists. exact (S_op f l1 o k l2 v A).
  - right. intros y' St. inversion St as [f0 l1 o k l2 v A E1 E2]; subst.
    assert (X : existsb (fun os => match os with o :: _ => match act o (f (lock_of o)) with Some _ => true | None => false end | [] => false end) (l1 ++ (o :: k) :: l2) = true).
    { apply existsb_exists. exists (o :: k). split; [apply in_or_app; right; left; reflexivity|]. rewrite A. reflexivity. }
    congruence.
Qed.
Lemma run_trans x y n : run x y n -> forall z m, run y z m -> run x z (m + n).
Proof. intros R z m R'. induction R' as [y|y z z' m R' IH St]; [exact R|]. cbn. exact (run_more x z z' _ (IH R) St). Qed.
Lemma run_out : forall sz y, size y <= sz -> exists z m, run y z m /\ stuck z.
Proof.
  induction sz as [|sz IH]; intros y L; destruct y as [f ts]; destruct (step_dec f ts) as [[y' St]|St].
  - pose proof (step_size _ _ St). lia.
  - exists (Sys f ts), 0. split; [constructor|exact St].
  - pose proof (step_size _ _ St). destruct (IH y') as (z & m & R & Z); [lia|].
    exists z, (m + 1). split; [|exact Z]. apply (run_trans _ y' 1); [|exact R]. exact (run_more _ _ _ 0 (run_none _) St).
  - exists (Sys f ts), 0. split; [constructor|exact St].
Qed.

(** ** The general rule *)
Definition blocks_in_order (ts : list (list call)) : Prop :=
  forall x o c, makes ts x -> code_inside x o c -> contended ts o -> ~ part c CBlock.
Lemma ends ts num : ordered ts num -> blocks_in_order ts -> forall y n, run (start ts) y n -> stuck y ->
  forall i t, nth_error ts i = Some t -> returned y i \/ (asleep y i /\ exists c, In c t /\ part c CBlock).
Proof.
  intros Or Bl y n R St i t Ei.
  pose proof (stuck_means _ _ _ y (inv_run _ _ _ _ _ _ n (start_inv ts num Or Bl) R) St) as F.
  assert (L : i < length (y_threads y)).
  { rewrite (run_length _ _ _ R). cbn [start y_threads]. rewrite map_length. apply nth_error_Some. congruence. }
  apply nth_error_Some in L. unfold returned, asleep. destruct (nth_error (y_threads y) i) as [os|] eqn:E; [|congruence].
  destruct (proj1 (Forall_forall _ _) F os (nth_error_In _ _ E)) as [->|[k ->]]; [left; reflexivity|right].
  split; [exists k; reflexivity|].
  pose proof (run_suffix _ _ _ R) as Fs. cbn [start y_threads] in Fs.
  assert (G : exists d, program t = d ++ Halt :: k).
  { clear - Fs Ei E. revert i E Ei. generalize dependent (y_threads y). induction ts as [|t0 ts IH]; intros ys Fs i E Ei; [destruct i; discriminate|].
    cbn [map] in Fs. inversion Fs as [|p q ps qs Hpq Hr]; subst. destruct i as [|i]; cbn [nth_error] in *.
    - injection E as ->. injection Ei as ->. exact Hpq.
    - exact (IH qs Hr i E Ei). }
  destruct G as [d G]. assert (IH : In Halt (program t)) by (rewrite G; apply in_or_app; right; left; reflexivity).
  unfold program in IH. apply in_flat_map in IH as (x & Ix & Hx). apply in_flat_map in Ix as (c & Ic & Ix).
  exists c. split; [exact Ic|]. apply call_halt. apply in_flat_map. exists x. split; assumption.
Qed.

(** If the handler sets and loggers can be numbered such that handlers and Writers only use
    lower ones (sets nobody modifies do not count), no run ends before every goroutine has
    returned. *)
Theorem C119_numbered : forall ts num, ordered ts num -> no_block ts ->
  forall y n, run (start ts) y n -> stuck y -> forall i, i < length ts -> returned y i.
Proof.
  intros ts num Or Nb y n R St i L. apply nth_error_Some in L. destruct (nth_error ts i) as [t|] eqn:Ei; [|congruence].
  assert (NB : forall t c, In t ts -> In c t -> ~ part c CBlock).
  { intros t' c It Ic P. apply Nb. exists t', c. split; [exact It|]. split; assumption. }
  destruct (ends ts num Or) with (y := y) (n := n) (i := i) (t := t) as [Rt|[_ (c & Ic & P)]]; try assumption.
  - intros x o c (t' & c0 & It & Ic & Px) CI _ P. apply (NB t' c0 It Ic).
    clear - Px CI P. induction Px as [x|l u c1 x I Px IH|l cf u c1 x I Px IH|u c1 x I Px IH|n s a b r ab la c1 x I Px IH].
    + destruct x, o; cbn [code_inside] in CI; try contradiction; destruct CI as [_ CI].
      * exact (part_log _ _ c CBlock CI P).
      * apply (part_serve _ _ _ _ _ _ _ c CBlock); [|exact P]. rewrite !in_app_iff. tauto.
    + exact (part_log l u c1 CBlock I (IH CI)).
    + exact (part_debugf l cf u c1 CBlock I (IH CI)).
    + exact (part_sdebugf u c1 CBlock I (IH CI)).
    + exact (part_serve n s a b r ab la c1 CBlock I (IH CI)).
  - exfalso. exact (NB t c (nth_error_In _ _ Ei) Ic P).
Qed.
(** ** C119: requests, registrations and logging *)
(** Writers (and MarshalJSON methods) do not log through a Logger that others can reach *)
Definition writers_do_not_log (ts : list (list call)) : Prop :=
  forall x l c y l', makes ts x -> code_inside x (OLogger l) c -> part c y -> ~ uses y (OLogger l').
Lemma nested_outer ts a b : nested ts a b -> match a with OSet s => in_use ts s | OLogger _ => True end.
Proof.
  intros (x & c & y & Mx & CI & _). destruct a as [s|l]; [|exact I]. exists x. split; [exact Mx|].
  destruct x; cbn [code_inside] in CI; try contradiction. destruct CI as [-> _]. unfold handles. eauto 10.
Qed.
Lemma order_119 ts : (forall s, modified ts s -> ~ in_use ts s) -> writers_do_not_log ts ->
  ordered ts (fun o => match o with OSet _ => 0 | OLogger _ => 1 end).
Proof.
  intros Hm Hw a b N Ca Cb. destruct a as [s|l].
  - exfalso. exact (Hm s Ca (nested_outer ts _ b N)).
  - destruct b as [s|l']; [lia|]. exfalso. destruct N as (x & c & y & Mx & CI & Py & U). exact (Hw x l c y l' Mx CI Py U).
Qed.
Theorem C119_no_deadlock : forall ts, (forall s, modified ts s -> ~ in_use ts s) -> writers_do_not_log ts -> no_block ts ->
  forall y n, run (start ts) y n -> stuck y -> forall i, i < length ts -> returned y i.
Proof. intros ts Hm Hw. exact (C119_numbered ts _ (order_119 ts Hm Hw)). Qed.
(** ... so from every state on the way all can still return. *)
Theorem C119_all_can_return : forall ts, (forall s, modified ts s -> ~ in_use ts s) -> writers_do_not_log ts -> no_block ts ->
  forall y n, run (start ts) y n -> exists z m, run y z m /\ forall i, i < length ts -> returned z i.
Proof.
  intros ts Hm Hw Nb y n R. destruct (run_out (size y) y (le_n _)) as (z & m & R' & St). exists z, m. split; [exact R'|].
  exact (C119_no_deadlock ts Hm Hw Nb z (m + n) (run_trans _ _ _ R _ _ R') St).
Qed.
(** ** C121: a handler that never returns *)
Theorem C121_slow_handlers : forall ts, (forall s, modified ts s -> ~ in_use ts s) -> writers_do_not_log ts -> writers_return ts ->
  forall y n, run (start ts) y n -> stuck y -> forall i t, nth_error ts i = Some t ->
  (forall c, In c t -> ~ part c CBlock) -> returned y i.
Proof.
  intros ts Hm Hw Wr y n R St i t Ei Nb. destruct (ends ts _ (order_119 ts Hm Hw)) with (y := y) (n := n) (i := i) (t := t) as [Rt|[_ (c & Ic & P)]]; try assumption.
  - intros x o c Mx CI Co. destruct o as [s|l].
    + exfalso. apply (Hm s Co). exists x. split; [exact Mx|]. destruct x; cbn [code_inside] in CI; try contradiction.
      destruct CI as [-> _]. unfold handles. eauto 10.
    + exact (Wr x l c Mx CI).
  - exfalso. exact (Nb c Ic P).
Qed.
(** the goroutines that hang do so in their own user code *)
Theorem C121_only_there : forall ts, (forall s, modified ts s -> ~ in_use ts s) -> writers_do_not_log ts -> writers_return ts ->
  forall y n, run (start ts) y n -> stuck y -> forall i, i < length ts -> returned y i \/ asleep y i.
Proof.
  intros ts Hm Hw Wr y n R St i L. apply nth_error_Some in L. destruct (nth_error ts i) as [t|] eqn:Ei; [|congruence].
  destruct (ends ts _ (order_119 ts Hm Hw)) with (y := y) (n := n) (i := i) (t := t) as [Rt|[Sl _]]; try assumption; [|left; exact Rt|right; exact Sl].
  intros x o c Mx CI Co. destruct o as [s|l].
  - exfalso. apply (Hm s Co). exists x. split; [exact Mx|]. destruct x; cbn [code_inside] in CI; try contradiction.
    destruct CI as [-> _]. unfold handles. eauto 10.
  - exact (Wr x l c Mx CI).
Qed.

(** ** C120: modifying a set that is in use *)
Definition C120_claim : Prop := forall ts, writers_do_not_log ts -> no_block ts ->
  forall y n, run (start ts) y n -> stuck y -> forall i, i < length ts -> returned y i.
(** A handler that modifies (or clones, or registers a route with) the set it runs in never
    returns, whatever else happens. *)
Lemma program_split t1 c t2 : program (t1 ++ c :: t2) = program t1 ++ flat_map flat (secs c) ++ program t2.
Proof. unfold program. rewrite !flat_map_app. cbn [flat_map]. rewrite flat_map_app. reflexivity. Qed.
Lemma stk_program t h : fold_left stk1 (program t) h = h.
Proof. apply stk_secs. Qed.
Lemma hangs ts i t d o k : nth_error ts i = Some t -> program t = d ++ o :: k -> own o (stk d) ->
  forall y n, run (start ts) y n -> ~ returned y i.
Proof.
  intros Ei Ep Ow y n R Rt. destruct (waits_for_itself ts i t d o k y n Ei Ep Ow R) as [d' E].
  unfold returned in Rt. rewrite E in Rt. injection Rt as Rt. exact (app_cons_not_nil d' k o (eq_sym Rt)).
Qed.
Lemma inside_read pre s u c v post : (c = CSet s \/ c = CAdd s) ->
  exists d k, pre ++ flat (SRead (LSet s) (flat_map secs (u ++ c :: v))) ++ post = d ++ Enter (LSet s) :: k /\
    (fold_left stk1 pre [] = [] -> own (Enter (LSet s)) (stk d)).
Proof.
  intros Hc. exists (pre ++ REnter (LSet s) :: program u ++ [Want (LSet s); Close (LSet s)]).
  assert (E : exists k0, flat_map flat (secs c) = Want (LSet s) :: Close (LSet s) :: Enter (LSet s) :: k0)
    by (destruct Hc as [-> | ->]; eexists; reflexivity).
  destruct E as [k0 E]. exists (k0 ++ program v ++ [RLeave (LSet s)] ++ post). split.
  - cbn [flat]. fold (program (u ++ c :: v)). rewrite program_split, E. rewrite <- !app_assoc. cbn [app].
    rewrite <- !app_assoc. cbn [app]. reflexivity.
  - intros Hp. left. exists (LSet s). split; [reflexivity|]. unfold stk. rewrite fold_left_app, Hp. cbn [fold_left stk1].
    rewrite fold_left_app, stk_program. cbn [fold_left stk1 tl]. right. left. reflexivity.
Qed.
Theorem C120_own_set_hangs : forall ts i t n0 s auth ses run_ ab last c,
  nth_error ts i = Some t -> In (CServe n0 s auth ses run_ ab last) t ->
  In c run_ \/ (ab = false /\ In c last) -> modifies c s ->
  forall y n, run (start ts) y n -> ~ returned y i.
Proof.
  intros ts i t n0 s auth ses run_ ab last c Ei It Ic Mc.
  apply in_split in It as (t1 & t2 & ->).
  set (pre := flat_map flat (flat_map secs auth ++ find_secs n0 ++ flat_map secs ses ++ [SWrite (LConfig 0) []])).
  assert (Hpre : fold_left stk1 (program t1 ++ pre) [] = []).
  { rewrite fold_left_app, stk_program. unfold pre. apply stk_secs. }
  assert (Ep : program (t1 ++ CServe n0 s auth ses run_ ab last :: t2) =
    (program t1 ++ pre) ++ flat (SRead (LSet s) (flat_map secs run_)) ++
    (flat_map flat (if ab then [] else [SRead (LSet s) (flat_map secs last)])) ++ program t2).
  { rewrite program_split. cbn [secs]. unfold pre. rewrite !flat_map_app. rewrite <- !app_assoc. do 5 f_equal.
    cbn [flat_map]. rewrite app_nil_r. reflexivity. }
  destruct Ic as [Ic|[-> Ic]].
  - apply in_split in Ic as (u & v & ->).
    destruct (inside_read (program t1 ++ pre) s u c v (flat_map flat (if ab then [] else [SRead (LSet s) (flat_map secs last)]) ++ program t2) Mc) as (d & k & E & Ow).
    apply (hangs ts i _ d (Enter (LSet s)) k Ei); [rewrite Ep; exact E|exact (Ow Hpre)].
  - apply in_split in Ic as (u & v & ->).
    destruct (inside_read ((program t1 ++ pre) ++ flat (SRead (LSet s) (flat_map secs run_))) s u c v (program t2) Mc) as (d & k & E & Ow).
    apply (hangs ts i _ d (Enter (LSet s)) k Ei).
    + rewrite Ep, <- E. cbn [flat_map]. rewrite app_nil_r, <- !app_assoc. reflexivity.
    + apply Ow. rewrite fold_left_app, Hpre. apply stk_sec.
Qed.
(** Likewise a Writer that logs through the Logger it writes for. *)
Theorem C119_own_logger_hangs : forall ts i t l user c,
  nth_error ts i = Some t -> In (CLog l user) t -> In c user -> logger_of c l ->
  forall y n, run (start ts) y n -> ~ returned y i.
Proof.
  intros ts i t l user c Ei It Ic Lc. apply in_split in It as (t1 & t2 & ->). apply in_split in Ic as (u & v & ->).
  assert (E : exists k0 k1, flat_map flat (secs c) = k0 ++ Want (LLogger l) :: k1 /\ forall h, fold_left stk1 k0 h = h).
  { destruct c; cbn [logger_of] in Lc; try contradiction; subst l0;
      try (exists []; eexists; split; [reflexivity|reflexivity]);
      (eexists (flat (SWrite (LConfig _) [])), _; split; [reflexivity|apply stk_sec]). }
  destruct E as (k0 & k1 & E & Hk).
  apply (hangs ts i _ (program t1 ++ [Want (LLogger l); Close (LLogger l); Enter (LLogger l)] ++ program u ++ k0) (Want (LLogger l))
           (k1 ++ program v ++ [Open (LLogger l); Free (LLogger l)] ++ program t2) Ei).
  - rewrite program_split. cbn [secs flat_map flat]. fold (program (u ++ c :: v)). rewrite app_nil_r, program_split, E.
    repeat rewrite <- app_assoc. cbn [app]. repeat rewrite <- app_assoc. reflexivity.
  - right. exists (LLogger l), MEntered. split; [reflexivity|]. split; [|reflexivity]. unfold stk.
    rewrite !fold_left_app, stk_program. cbn [fold_left stk1 tl]. rewrite stk_program, Hk. left. reflexivity.
Qed.
Lemma no_part_leaf s x : part (CSet s) x -> x = CSet s.
Proof. intros P. inversion P. reflexivity. Qed.
Theorem C120_modify_in_use_refuted : ~ C120_claim.
Proof.
  intros H. pose (ts := [[CServe (Some 0) 1 [] [] [CSet 1] false []]]).
  assert (Pm : forall x, makes ts x -> x = CServe (Some 0) 1 [] [] [CSet 1] false [] \/ x = CSet 1).
  { intros x (t & c & [<-|[]] & [<-|[]] & P). inversion P as [|?|?|?|n s a b r ab la c x' I P']; subst; [left; reflexivity|].
    cbn [app In] in I. destruct I as [<-|[]]. right. apply no_part_leaf, P'. }
  destruct (run_out _ (start ts) (le_n _)) as (z & m & R & St).
  refine (C120_own_set_hangs ts 0 _ (Some 0) 1 [] [] [CSet 1] false [] (CSet 1) eq_refl (or_introl eq_refl) (or_introl (or_introl eq_refl)) (or_introl eq_refl) z m R _).
  apply (H ts) with (n := m); [| |exact R|exact St|cbn; lia].
  - intros x l c y l' Mx CI. destruct (Pm x Mx) as [-> | ->]; destruct CI.
  - intros Mb. destruct (Pm _ Mb); discriminate.
Qed.
(** Sets in use may be modified by code that no handler runs: handlers that neither modify sets
    nor serve other requests themselves, Writers that use neither sets nor loggers.  Missing:
    handlers that do. *)
Theorem C120_modify_from_outside_partial : forall ts,
  (forall x s c y s', makes ts x -> code_inside x (OSet s) c -> part c y -> ~ uses y (OSet s')) ->
  (forall x l c y o, makes ts x -> code_inside x (OLogger l) c -> part c y -> ~ uses y o) ->
  no_block ts ->
  forall y n, run (start ts) y n -> stuck y -> forall i, i < length ts -> returned y i.
Proof.
  intros ts Hs Hl. apply (C119_numbered ts (fun o => match o with OSet _ => 1 | OLogger _ => 0 end)).
  intros a b (x & c & y & Mx & CI & Py & U) _ _. destruct a as [s|l].
  - destruct b as [s'|l']; [|lia]. exfalso. exact (Hs x s c y s' Mx CI Py U).
  - exfalso. exact (Hl x l c y b Mx CI Py U).
Qed.

(** ** Concrete cases *)
Fixpoint parts (c : call) : list call :=
  c :: match c with
       | CLog _ u | CDebugf _ _ u | CServerDebugf u => flat_map parts u
       | CServe _ _ a b r _ l => flat_map parts a ++ flat_map parts b ++ flat_map parts r ++ flat_map parts l
       | _ => []
       end.
Lemma parts_ok c x : part c x -> In x (parts c).
Proof.
  intros P. induction P as [c|l u c x I P IH|l cf u c x I P IH|u c x I P IH|n s a b r ab la c x I P IH].
  - destruct c; left; reflexivity.
  - right. apply in_flat_map. exists c. split; assumption.
  - right. apply in_flat_map. exists c. split; assumption.
  - right. apply in_flat_map. exists c. split; assumption.
  - right. rewrite <- !flat_map_app. apply in_flat_map. exists c. split; assumption.
Qed.
Lemma makes_ok ts x : makes ts x -> In x (flat_map (flat_map parts) ts).
Proof.
  intros (t & c & It & Ic & P). apply in_flat_map. exists t. split; [exact It|]. apply in_flat_map. exists c.
  split; [exact Ic|exact (parts_ok c x P)].
Qed.
(** two requests to set 7 whose handlers log with the requests' loggers 5 and 6 (logger 5 to a
    Writer that looks up routes) and register routes with set 2; registrations through router 1
    from another goroutine, which also modifies set 2 *)
Definition busy : list (list call) :=
  [[CServe (Some 3) 7 [CFind None] [CLogger 5] [CLog 5 [CFind None]; CDebugf 5 1 []; CAdd 2] false [CLogger 5]];
   [CServe (Some 3) 7 [] [] [CAdd 2; CLog 6 []] true []; CServe (Some 0) 8 [] [] [] false []];
   [CRouter 1; CUse 1; CSet 2; CAdd 2; CTreeAdd]].
(** the same with a handler that never returns *)
Definition slow : list (list call) := [CServe (Some 3) 7 [] [] [CLog 9 []; CBlock] false []] :: busy.
Ltac all_makes H := apply makes_ok in H; vm_compute in H; repeat (destruct H as [H|H]); try contradiction H; subst.
Lemma slow_sets s : modified slow s -> ~ in_use slow s.
Proof.
  intros (x & Mx & Hx) (y & My & n & a & b & r & ab & la & ->). all_makes Mx; destruct Hx as [Hx|Hx]; try discriminate Hx;
  injection Hx as <-; all_makes My; discriminate My.
Qed.
Lemma slow_writers : writers_do_not_log slow.
Proof.
  intros x l c y l' Mx CI Py U. all_makes Mx; cbn [code_inside In] in CI; try contradiction CI; destruct CI as [_ CI]; 
  repeat (destruct CI as [CI|CI]; [subst c|]); try contradiction CI;
  apply parts_ok in Py; vm_compute in Py; destruct Py as [<-|[]]; exact U.
Qed.
Lemma busy_slow x : makes busy x -> makes slow x.
Proof. intros (t & c & It & Ic & P). exists t, c. split; [right; exact It|]. split; assumption. Qed.
Example C119_busy_meets : (forall s, modified busy s -> ~ in_use busy s) /\ writers_do_not_log busy /\ no_block busy /\
  modified busy 2 /\ in_use busy 7.
Proof.
  split; [|split; [|split; [|split]]].
  - intros s (x & Mx & Hx) (y & My & Hy). apply (slow_sets s); [exists x|exists y]; split; try assumption; apply busy_slow; assumption.
  - intros x l c y l' Mx. exact (slow_writers x l c y l' (busy_slow x Mx)).
  - intros M. apply makes_ok in M. vm_compute in M. repeat (destruct M as [M|M]; [discriminate M|]). exact M.
  - exists (CSet 2). split; [|left; reflexivity]. exists (nth 2 busy []), (CSet 2). split; [right; right; left; reflexivity|].
    split; [right; right; left; reflexivity|constructor].
  - exists (nth 0 (nth 0 busy []) CBlock). split; [|unfold handles; do 6 eexists; reflexivity].
    exists (nth 0 busy []), (nth 0 (nth 0 busy []) CBlock). split; [left; reflexivity|]. split; [left; reflexivity|constructor].
Qed.
Example C121_slow_meets : (forall s, modified slow s -> ~ in_use slow s) /\ writers_do_not_log slow /\ writers_return slow /\
  makes slow CBlock /\ forall i t, nth_error slow i = Some t -> (i > 0 <-> forall c, In c t -> ~ part c CBlock).
Proof.
  split; [exact slow_sets|]. split; [exact slow_writers|]. split; [|split].
  - intros x l c Mx CI P. all_makes Mx; cbn [code_inside In] in CI; try contradiction CI; destruct CI as [_ CI];
    repeat (destruct CI as [CI|CI]; [subst c|]); try contradiction CI; apply parts_ok in P; vm_compute in P; destruct P as [P|[]]; discriminate P.
  - exists (hd [] slow), (hd CBlock (hd [] slow)). split; [left; reflexivity|]. split; [left; reflexivity|].
    cbn [hd slow]. apply (part_serve _ _ _ _ _ _ _ CBlock); [right; left; reflexivity|constructor].
  - intros i t E. split.
    + intros L c Ic P. destruct i as [|i]; [lia|]. apply parts_ok in P.
      assert (X : forallb (fun x => match x with CBlock => false | _ => true end) (flat_map (flat_map parts) busy) = true) by (vm_compute; reflexivity).
      pose proof (proj1 (forallb_forall _ _) X CBlock) as Y. cbn beta iota in Y. discriminate Y.
      apply in_flat_map. exists t. split; [exact (nth_error_In busy i E)|]. apply in_flat_map. exists c. split; assumption.
    + intros Nb. destruct i as [|i]; [|lia]. exfalso. injection E as <-. apply (Nb (hd CBlock (hd [] slow))); [left; reflexivity|].
      cbn [hd slow]. apply (part_serve _ _ _ _ _ _ _ CBlock); [right; left; reflexivity|constructor].
Qed.

(** ** Schedules *)
Fixpoint exec (sch : list nat) (y : sys) : option sys :=
  match sch with
  | [] => Some y
  | i :: sch =>
      match nth_error (y_threads y) i with
      | Some (o :: k) =>
          match act o (y_locks y (lock_of o)) with
          | Some v => exec sch (Sys (set_lock (lock_of o) v (y_locks y)) (firstn i (y_threads y) ++ k :: skipn (S i) (y_threads y)))
          | None => None
          end
      | _ => None
      end
  end.
Lemma exec_run sch : forall y z, exec sch y = Some z -> exists n, run y z n.
Proof.
  induction sch as [|i sch IH]; intros y z E; cbn [exec] in E.
  - injection E as ->. exists 0. constructor.
  - destruct y as [f ts]. cbn [y_threads y_locks] in E. destruct (nth_error ts i) as [[|o k]|] eqn:Ei; try discriminate E.
    destruct (act o (f (lock_of o))) as [v|] eqn:A; [|discriminate E]. destruct (IH _ _ E) as [n R].
    exists (n + 1). apply (run_trans _ (Sys (set_lock (lock_of o) v f) (firstn i ts ++ k :: skipn (S i) ts)) 1); [|exact R].
    refine (run_more _ _ _ 0 (run_none _) _).
    assert (Es : ts = firstn i ts ++ (o :: k) :: skipn (S i) ts).
    { clear - Ei. revert i Ei. induction ts as [|t ts IH]; intros [|i] Ei; try discriminate Ei; cbn [nth_error] in Ei.
      - injection Ei as ->. reflexivity.
      - cbn [firstn app skipn]. f_equal. exact (IH i Ei). }
    pattern ts at 1. rewrite Es. exact (S_op f _ o k _ v A).
Qed.
Definition can (y : sys) (os : list op) : bool :=
  match os with o :: _ => match act o (y_locks y (lock_of o)) with Some _ => true | None => false end | [] => false end.
Lemma can_stuck y : forallb (fun os => negb (can y os)) (y_threads y) = true -> stuck y.
Proof.
  intros H y' St. inversion St as [f0 l1 o k l2 v A E1 E2]; subst. cbn [y_threads] in H.
  pose proof (proj1 (forallb_forall _ _) H (o :: k) (in_or_app l1 ((o :: k) :: l2) _ (or_intror (or_introl eq_refl)))) as X.
  cbn [can y_locks] in X. rewrite A in X. discriminate X.
Qed.
Definition ends_with (ts : list (list call)) (left : list bool) : Prop :=
  exists y n, run (start ts) y n /\ stuck y /\ map (fun os => match os with [] => false | _ => true end) (y_threads y) = left.
Lemma exec_ends ts sch left :
  match exec sch (start ts) with
  | Some y => forallb (fun os => negb (can y os)) (y_threads y) = true /\
      map (fun os => match os with [] => false | _ => true end) (y_threads y) = left
  | None => False
  end -> ends_with ts left.
Proof.
  destruct (exec sch (start ts)) as [y|] eqn:E; [|intros []]. intros [H1 H2]. destruct (exec_run _ _ _ E) as [n R].
  exists y, n. split; [exact R|]. split; [exact (can_stuck y H1)|exact H2].
Qed.
(** A request whose handler never returns, a call that modifies its set, then a request to the
    same set whose handlers do nothing: the third goroutine hangs too.  So the hypothesis of C121
    that sets in use are not modified is needed. *)
Example C121_needs_unmodified :
  ends_with [[CServe None 7 [] [] [CBlock] false []]; [CSet 7]; [CServe None 7 [] [] [] false []]]
     [true; true; true].
Proof. apply (exec_ends _ (repeat 0 6 ++ [1;1] ++ repeat 2 5)). vm_compute. split; reflexivity. Qed.
(** A handler that serves a request to its own set and a call from outside that modifies it:
    they can wait for each other, although no handler modifies anything. *)
Example C120_nested_request_hangs :
  ends_with [[CServe None 7 [] [] [CServe None 7 [] [] [] false []] false []]; [CSet 7]]
     [true; true].
Proof. apply (exec_ends _ (repeat 0 6 ++ [1;1] ++ repeat 0 5)). vm_compute. split; reflexivity. Qed.
(** Handlers of two sets that each modify the other one. *)
Example C120_cross_modification_hangs :
  ends_with [[CServe None 7 [] [] [CSet 8] false []]; [CServe None 8 [] [] [CSet 7] false []]]
     [true; true].
Proof. apply (exec_ends _ (repeat 0 6 ++ repeat 1 6 ++ [0;0;1;1])). vm_compute. split; reflexivity. Qed.
(** Two loggers whose Writers log through each other. *)
Example C119_cross_writers_hang :
  ends_with [[CLog 1 [CLog 2 []]]; [CLog 2 [CLog 1 []]]]  [true; true].
Proof. apply (exec_ends _ (repeat 0 3 ++ repeat 1 3)). vm_compute. split; reflexivity. Qed.

Print Assumptions C119_no_endless_run.
Print Assumptions C119_numbered.
Print Assumptions C119_no_deadlock.
Print Assumptions C119_all_can_return.
Print Assumptions C119_own_logger_hangs.
Print Assumptions C120_own_set_hangs.
Print Assumptions C120_modify_in_use_refuted.
Print Assumptions C120_modify_from_outside_partial.
Print Assumptions C121_slow_handlers.
Print Assumptions C121_only_there.
