(** C122-C124: a Server over its whole life. *)
From Verif Require Import Base GoErrors GoInt P_Slices M_Run S_Run Props_Run M_Life S_Life P_Life.
Local Open Scope Z_scope.

(** ** C122 *)
(** Cancelling its context ends every Run whose listener the underlying server knows (C72), the
    second Run of a server like the first. *)
Definition stoppable (l0 : life) : Prop := forall l1 l2, starts l0 l1 -> many goes l1 l2 ->
  cancelled (l_rs l2) -> listening_done (l_rs l2) -> inevitably (l_timeout l2) returned (l_rs l2).
Definition C122_claim : Prop := forall l0, alive l0 -> stoppable l0.

(** Once Shutdown has been called, by the program or by a Run, a later Run without a shutdown
    time out ends only by a signal or when Serve fails, whatever is cancelled and however often
    Shutdown is called. *)
Lemma used_never_ends l0 l1 l2 : alive l0 -> (0 < shutdowns l0)%nat -> starts l0 l1 -> l_timeout l1 = false ->
  many goes_quietly l1 l2 -> few_shutdowns l2 -> deaf (l_rs l2).
Proof.
  intros A P St T M F. pose proof (start_deaf l0 l1 St) as D. pose proof (alive_counted l0 A) as C. pose proof (counted_step _ _ (proj1 St) C) as C1.
  pose proof (shutdowns_step _ _ (proj1 St)) as Ls.
  assert (Sv : l_srv l1 = true) by (apply starts_inv in St as [_ ->]; reflexivity).
  apply (deaf_many l1 l2); auto. lia.
Qed.
Theorem C122_used_server_never_stops : forall l0 l1 l2, alive l0 -> (0 < shutdowns l0)%nat ->
  starts l0 l1 -> l_timeout l1 = false -> many goes_quietly l1 l2 -> few_shutdowns l2 ->
  running l2 /\ k_ln (r_core (l_rs l2)) <> LClosed.
Proof. intros l0 l1 l2 A P St T M F. destruct (used_never_ends l0 l1 l2 A P St T M F) as (R & _ & _ & _ & L & _). auto. Qed.
(** A Run without a time out that returned without a signal has called Shutdown, so every later
    one is of this kind, whatever the program sets in between. *)
Lemma asked_many l1 l2 : l_srv l1 = true -> l_timeout l1 = false -> many goes_without_signal l1 l2 -> asked (l_rs l1) -> asked (l_rs l2).
Proof.
  intros Sv T M D. induction M as [l|x y z M IH G]; [exact D|]. destruct G as [G Ns].
  assert (Mg : many goes x y) by (eapply many_impl; [|exact M]; intros a b [H _]; exact H).
  destruct (goes_rs x y Mg Sv) as (_ & Ty & _ & Svy).
  destruct (goes_inv y z G) as (t & [(St & _ & E)|E]); [|congruence]. subst z. rewrite Ty, T in St. cbn [l_rs].
  apply (asked_step (with_tls y) (l_rs y)); auto.
Qed.
Theorem C122_second_run_never_stops : forall l0 l1 l2 l3 l4 l5, alive l0 ->
  starts l0 l1 -> l_timeout l1 = false -> many goes_without_signal l1 l2 -> ~ running l2 ->
  many rests l2 l3 ->
  starts l3 l4 -> l_timeout l4 = false -> many goes_quietly l4 l5 -> few_shutdowns l5 -> running l5.
Proof.
  intros l0 l1 l2 l3 l4 l5 A0 S1 T1 M12 R2 M23 S4 T4 M45 F.
  assert (A2 : alive l2).
  { eapply many_trans; [eapply many_step; [exact A0|exact (proj1 S1)]|]. eapply many_impl; [|exact M12]. intros a b [[H _] _]. exact H. }
  assert (M23' : many lstep l2 l3) by (eapply many_impl; [|exact M23]; intros a b [H _]; exact H).
  assert (A3 : alive l3) by exact (many_trans _ _ _ _ A2 M23').
  assert (Sv : l_srv l1 = true) by (apply starts_inv in S1 as [_ ->]; reflexivity).
  assert (As : asked (l_rs l2)).
  { apply (asked_many l1 l2 Sv T1 M12). apply starts_inv in S1 as [_ ->]. split; [reflexivity|right]. split; [left|]; reflexivity. }
  assert (P2 : (0 < shutdowns l2)%nat).
  { destruct As as [_ [X|[_ X]]]; [|contradiction]. unfold shutdowns. destruct (r_adds (l_rs l2)); [congruence|cbn; lia]. }
  pose proof (shutdowns_many l2 l3 M23') as P3.
  apply (C122_used_server_never_stops l3 l4 l5); auto. lia.
Qed.
(** No call of Shutdown made during such a Run gets to the underlying server. *)
Lemma reach_step wt tls s t i : step wt tls s t -> bump (r_counter s) <> 1 -> reached t i -> reached s i.
Proof.
  intros St Nb (x & X & K). unfold reached.
  destruct St as [St|St]; destruct St; simp; try (exists x; auto; fail).
  - destruct (bump n =? 1); simp; exists x; auto.
  - destruct (Z.eqb_spec (bump n) 1) as [E|E]; [contradiction|]. simp. rewrite nth_error_upd_nth in X. destruct (Nat.eqb_spec i i0) as [->|_]; [|exists x; auto].
    rewrite H in X. injection X as <-. exfalso. destruct K as [[sh K]|[r K]]; discriminate K.
  - rewrite nth_error_upd_nth in X. destruct (Nat.eqb_spec i i0) as [->|_]; [|exists x; auto]. exists (CShut s). eauto.
  - rewrite nth_error_upd_nth in X. destruct (Nat.eqb_spec i i0) as [->|_]; [|exists x; auto]. exists (CShut s). eauto.
  - destruct (Nat.lt_ge_cases i (length cs)) as [L|L].
    + rewrite nth_error_app1 in X by exact L. exists x. auto.
    + rewrite nth_error_app2 in X by exact L. exfalso. destruct (i - length cs)%nat as [|[|k]]; cbn in X; try discriminate X.
      injection X as <-. destruct K as [[sh K]|[r K]]; discriminate K.
Qed.
Theorem C122_no_shutdown_gets_there : forall l0 l1 l2 i, alive l0 -> (0 < shutdowns l0)%nat ->
  starts l0 l1 -> many goes l1 l2 -> few_shutdowns l2 -> got_there l2 i -> got_there l0 i.
Proof.
  intros l0 l1 l2 i A P St M F G.
  pose proof (counted_step _ _ (proj1 St) (alive_counted l0 A)) as C1. pose proof (shutdowns_step _ _ (proj1 St)) as Ls.
  assert (Sv : l_srv l1 = true) by (apply starts_inv in St as [_ ->]; reflexivity).
  assert (G1 : got_there l1 i).
  { clear A St. revert C1 Ls Sv F G. induction M as [l|x y z M IH H]; intros C1 Ls Sv F G; [exact G|].
    assert (Ml : many lstep x y) by (eapply many_impl; [|exact M]; intros a b [X _]; exact X).
    assert (Fy : few_shutdowns y). { unfold few_shutdowns in *. pose proof (shutdowns_step y z (proj1 H)). lia. }
    apply (IH C1 Ls Sv Fy). destruct (goes_rs x y M Sv) as (_ & _ & _ & Svy).
    destruct (goes_inv y z H) as (t & [(Stp & _ & E)|E]); [|congruence]. subst z. unfold got_there in *. cbn [l_rs] in G.
    eapply reach_step; [exact Stp| |exact G]. apply (bump_used y); [exact (many_inv lstep counted counted_step _ _ Ml C1)| |exact Fy].
    pose proof (shutdowns_many x y Ml). lia. }
  apply starts_inv in St as [_ ->]. exact G1.
Qed.
(** A Run whose listener is closed - the one before was shut down and no new listener set -
    accepts no connection. *)
Theorem C122_closed_listener_serves_nothing : forall l0 l1 l2, starts l0 l1 -> closed_listener l0 -> many goes l1 l2 ->
  closed_listener l2 /\ (connected l2 -> connected l0).
Proof.
  intros l0 l1 l2 St (x & E & Cx) M.
  assert (Sv : l_srv l1 = true) by (apply starts_inv in St as [_ ->]; reflexivity).
  assert (H1 : closed_listener l1 /\ (connected l1 -> connected l0)).
  { apply starts_inv in St as [_ ->]. split; [exists x; cbn; rewrite E; auto|]. intros X. exact X. }
  clear St E Cx x. induction M as [l|y z w M IH G]; [exact H1|].
  destruct (IH Sv H1) as [(x & E & Cx) Cn]. destruct (goes_rs y z M Sv) as (_ & _ & _ & Svz).
  destruct (goes_inv z w G) as (t & [(Stp & Co & Ew)|Ew]); [|congruence]. subst w. split.
  - unfold closed_listener. cbn [l_ln]. unfold ln_step. rewrite E. eexists. split; [reflexivity|].
    destruct (k_ln (r_core (l_rs z))), (k_ln (r_core t)), (r_serve (l_rs z)), (r_serve t); try destruct (with_tls z); cbn [ln_closed]; auto.
  - intros X. apply Cn. destruct (Co X) as [Y|(x' & E' & C')]; [exact Y|congruence].
Qed.
(** ... and a Run that was shut down leaves its listener closed. *)
Definition noted (l : life) : Prop := k_ln (r_core (l_rs l)) = LClosed -> closed_listener l.
Theorem C122_shut_down_leaves_it_closed : forall l0 l1 l2, starts l0 l1 -> many goes l1 l2 -> ~ running l2 ->
  k_ln (r_core (l_rs l2)) = LClosed -> closed_listener l2.
Proof.
  intros l0 l1 l2 St M _.
  assert (Sv : l_srv l1 = true) by (apply starts_inv in St as [_ ->]; reflexivity).
  assert (H1 : noted l1 /\ l_ln l1 <> None).
  { apply starts_inv in St as [_ ->]. split; [|discriminate]. unfold noted, start_run. cbn [l_rs]. simp.
    destruct (k_ln (r_core (l_rs l0))); intros X; discriminate X. }
  clear St. assert (H2 : noted l2 /\ l_ln l2 <> None); [|exact (proj1 H2)].
  induction M as [l|y z w M IH G]; [exact H1|].
  destruct (IH Sv H1) as [N Nn]. destruct (goes_rs y z M Sv) as (_ & _ & _ & Svz).
  destruct (goes_inv z w G) as (t & [(Stp & Co & Ew)|Ew]); [|congruence]. subst w. unfold noted in *. cbn [l_rs l_ln].
  destruct (l_ln z) as [x|] eqn:E; [|congruence]. split; [|discriminate].
  assert (K : k_ln (r_core t) = LClosed -> k_ln (r_core (l_rs z)) = LOpen \/ k_ln (r_core (l_rs z)) = LClosed).
  { clear - Stp. destruct (l_rs z) as [c sg f w sv n a cs res]. destruct Stp as [H|H]; inversion H; subst; simp; auto;
      try (destruct (bump n =? 1); simp; auto; fail); try (match goal with X : shut_step _ _ _ _ _ _ |- _ => inversion X; subst; simp; auto end); discriminate. }
  intros X. unfold closed_listener, ln_step. cbn [l_ln]. eexists. split; [reflexivity|]. rewrite X.
  destruct (K X) as [Y|Y]; rewrite Y.
  - destruct (r_serve (l_rs z)), (r_serve t); try destruct (with_tls z); reflexivity.
  - destruct (N Y) as (x' & E' & C'). rewrite E in E'. injection E' as <-.
    destruct (r_serve (l_rs z)), (r_serve t); try destruct (with_tls z); cbn [ln_closed]; auto.
Qed.
(** A Run of a used server ends when its context is cancelled if a shutdown time out is set or
    nobody has called Shutdown before it started, and by a signal alone in any case.  Missing:
    the rest, where C122_used_server_never_stops applies. *)
Theorem C122_stops_again_partial : forall l0 l1 l2, alive l0 -> starts l0 l1 -> k_ln (r_core (l_rs l0)) <> LOpen -> many goes l1 l2 ->
  listening_done (l_rs l2) \/ served (l_rs l2) ->
  (cancelled (l_rs l2) /\ (l_timeout l0 = true \/ shutdowns l0 = 0%nat)) \/ (r_signal (l_rs l2) <> None /\ ~ cancelled (l_rs l2)) ->
  inevitably (l_timeout l2) returned (l_rs l2).
Proof.
  intros l0 l1 l2 A St L M Ld H. pose proof (start_inv2 l0 l1 A St L) as I.
  assert (Sv : l_srv l1 = true) by (apply starts_inv in St as [_ ->]; reflexivity).
  assert (T : l_timeout l1 = l_timeout l0) by (apply starts_inv in St as [_ ->]; reflexivity).
  destruct (goes_rs l1 l2 M Sv) as (Mr & T2 & _ & _). rewrite T in Mr, T2. rewrite T2.
  assert (I2 : inv2 (l_timeout l0) (unused l0) (l_rs l2)).
  { apply (many_inv (step (l_timeout l0) (with_tls l1)) (inv2 (l_timeout l0) (unused l0))) with (x := l_rs l1); [|exact Mr|exact I].
    intros x y X. exact (inv2_step _ _ _ x y X). }
  apply (returns2 (l_timeout l0) (with_tls l1) (unused l0)); [exact I2| |exact Ld|].
  - unfold awake. destruct H as [[H _]|[H _]]; [|auto]. right. left. unfold group_done. unfold cancelled in H. rewrite H. reflexivity.
  - destruct H as [[_ [H|H]]|[_ H]]; [auto| |].
    + right. left. unfold unused, shutdowns in *. destruct (r_adds (l_rs l0)); [reflexivity|discriminate H].
    + right. right. unfold cancelled in H. destruct (k_parent (r_core (l_rs l2))); congruence.
Qed.

(** ** C123 *)
(** Calling Shutdown on a server that has not been run yet neither panics nor prevents stopping
    it later. *)
Definition C123_claim : Prop := forall l0, many rests new_server l0 -> l_panics l0 = [] /\ stoppable l0.
(** It panics exactly if it is the first call and there is no underlying server; a panic is
    counted as the first call. *)
Theorem C123_panics_exactly : forall l l', alive l -> few_shutdowns l -> lstep l l' ->
  (l_panics l' <> l_panics l -> l_srv l = false /\ shutdowns l = 0%nat /\ shutdowns l' = 1%nat) /\
  (l_srv l = false -> shutdowns l = 0%nat -> shutdowns l' = 1%nat -> exists i, l_panics l' = i :: l_panics l).
Proof.
  intros l l' A F St. pose proof (alive_counted l A) as C.
  assert (Z0 : bump (r_counter (l_rs l)) = 1 -> shutdowns l = 0%nat).
  { intros E. destruct (shutdowns l) as [|n] eqn:S0; [reflexivity|]. exfalso. apply (bump_used l C); auto. lia. }
  destruct St; cbn [l_panics]; try (split; [congruence|]; unfold shutdowns; cbn [l_rs start_run r_adds]; intros; congruence).
  - split; [congruence|]. intros E1 E2 E3. exfalso. unfold shutdowns in *. cbn [l_rs] in E3.
    destruct (adds_step _ _ _ _ H) as [[_ Ea]|(o & Ec & Ea)]; [rewrite Ea in E3; congruence|].
    unfold counted, shutdowns in C. rewrite E2 in C. rewrite C in *. cbn in Ec. rewrite H0 in E1; [discriminate|rewrite Ec; discriminate|exact Ec].
  - split.
    + intros _. split; [assumption|]. specialize (Z0 H1). split; [exact Z0|]. unfold shutdowns in *. cbn [l_rs r_adds length]. lia.
    + intros _ _ _. eauto.
Qed.
(** Without such a call every server can be stopped.  Missing: with one (see
    C122_used_server_never_stops and C122_stops_again_partial). *)
Lemma rests_ln l l' : many rests l l' -> (shutdowns l' = 0%nat) -> k_ln (r_core (l_rs l)) = LNone /\ k_mu (r_core (l_rs l)) = None /\
   (forall x, In x (r_callers (l_rs l)) -> x = CAdd) /\ r_watch (l_rs l) = WDone None /\ r_serve (l_rs l) = SDone None ->
  k_ln (r_core (l_rs l')) = LNone /\ k_mu (r_core (l_rs l')) = None /\
   (forall x, In x (r_callers (l_rs l')) -> x = CAdd) /\ r_watch (l_rs l') = WDone None /\ r_serve (l_rs l') = SDone None.
Proof.
  intros M Z I. induction M as [l|x y z M IH [St [R1 R2]]]; [exact I|].
  assert (Zy : shutdowns y = 0%nat) by (pose proof (shutdowns_step y z St); lia).
  specialize (IH Zy I). destruct IH as (H1 & H2 & H3 & H4 & H5). unfold shutdowns in Z, Zy.
  destruct St as [l t St' S1 S2|l i|l Hi|l b Hi|l x' Hi|l b Hi|l c k Hi]; cbn [l_rs] in *; auto; try discriminate Z.
  - destruct (l_rs l) as [c sg f w sv n a cs res] eqn:El. simp. subst w sv.
    destruct St' as [St'|St']; inversion St'; subst; simp; auto.
    + exfalso. cbn [r_adds] in Z. destruct (bump n =? 1); discriminate Z.
    + exfalso. match goal with X : nth_error cs _ = Some _ |- _ => apply nth_error_In, H3 in X; discriminate X end.
    + exfalso. match goal with X : nth_error cs _ = Some _ |- _ => apply nth_error_In, H3 in X; discriminate X end.
    + split; [exact H1|]. split; [exact H2|]. split; [|auto]. intros q Q. apply in_app_or in Q as [Q|[<-|[]]]; auto.
  - exfalso. exact (R2 eq_refl).
Qed.
Theorem C123_not_called_partial : forall l0, many rests new_server l0 -> shutdowns l0 = 0%nat -> l_panics l0 = [] /\ stoppable l0.
Proof.
  intros l0 M Z.
  assert (Ml : many lstep new_server l0) by (eapply many_impl; [|exact M]; intros a b [H _]; exact H).
  split.
  - clear Ml. assert (E0 : l_panics new_server = []) by reflexivity. induction M as [l|x y z M IH [St _]]; [exact E0|].
    assert (Zy : shutdowns y = 0%nat) by (pose proof (shutdowns_step y z St); lia). specialize (IH Zy E0).
    destruct St; cbn [l_panics]; auto. discriminate Z.
  - intros l1 l2 S1 M2 Ca Ld.
    apply (C122_stops_again_partial l0 l1 l2 Ml S1); auto.
    destruct (rests_ln new_server l0 M Z) as (H & _); [|congruence].
    cbn. split; [reflexivity|]. split; [reflexivity|]. split; [intros x []|auto].
Qed.

(** ** C124 *)
(** A server that was given certificate or key serves nothing without TLS. *)
Definition C124_claim : Prop := forall l0 l1 l2, alive l0 -> starts l0 l1 -> many goes l1 l2 -> serving l2 ->
  l_cert l2 <> [] \/ l_key l2 <> [] -> (0 < layers l2)%nat.
(** It does when both names are given, one layer around the listener it has. *)
Definition at_start (l0 : life) : nat := match l_ln l0 with Some x => ln_layers x | None => 0 end.
Theorem C124_layers : forall l0 l1 l2, starts l0 l1 -> many goes l1 l2 -> serving l2 ->
  (l_cert l2 <> [] /\ l_key l2 <> [] -> layers l2 = S (at_start l0)) /\
  (l_cert l2 = [] \/ l_key l2 = [] -> layers l2 = at_start l0).
Proof.
  intros l0 l1 l2 St M Sg.
  assert (Sv : l_srv l1 = true) by (apply starts_inv in St as [_ ->]; reflexivity).
  assert (H1 : l_ln l1 <> None /\ layers l1 = at_start l0 /\ r_serve (l_rs l1) = SLoad).
  { apply starts_inv in St as [_ ->]. split; [discriminate|]. split; [|reflexivity]. unfold layers, at_start. cbn. destruct (l_ln l0); reflexivity. }
  clear St. destruct (goes_rs l1 l2 M Sv) as (_ & _ & Wt & _).
  assert (H2 : l_ln l2 <> None /\ match r_serve (l_rs l2) with
     | SLoad => layers l2 = at_start l0
     | SReady | SServing => layers l2 = ((if with_tls l1 then 1 else 0) + at_start l0)%nat
     | SDone _ => True end).
  { clear Sg Wt. induction M as [l|y z w M IH G].
    - destruct H1 as (X & Y & Z). rewrite Z. auto.
    - destruct (IH Sv H1) as [N I]. destruct (goes_rs y z M Sv) as (_ & _ & Wz & Svz).
      destruct (goes_inv z w G) as (t & [(Stp & Co & Ew)|Ew]); [|congruence]. subst w. unfold layers in *. cbn [l_ln l_rs].
      unfold ln_step. destruct (l_ln z) as [x|]; [|congruence]. split; [discriminate|]. rewrite Wz in *.
      assert (K : match r_serve (l_rs z), r_serve t with
                  | SLoad, SLoad | SLoad, SReady | SReady, SReady | SReady, SServing | SServing, SServing | _, SDone _ => True
                  | _, _ => False end).
      { clear - Stp. destruct (l_rs z) as [c sg f w sv n a cs res]. destruct Stp as [H|H]; inversion H; subst; simp; try exact I;
          try (destruct sv; exact I); try (destruct (bump n =? 1); simp; destruct sv; exact I). }
      destruct (r_serve (l_rs z)), (r_serve t); try contradiction K; try exact Logic.I;
        destruct (k_ln (r_core (l_rs z))), (k_ln (r_core t)); cbn [ln_layers] in *; try exact I; destruct (with_tls y); cbn [ln_layers]; lia. }
  destruct H2 as [_ H2]. unfold serving in Sg. rewrite Sg in H2. rewrite <- Wt in H2. unfold with_tls in H2. split.
  - intros [X Y]. destruct (l_cert l2), (l_key l2); try congruence. cbn in H2. lia.
  - intros [X|X]; rewrite X in H2; cbn [is_empty negb andb] in H2; rewrite ?andb_false_r in H2; cbn in H2; lia.
Qed.
Theorem C124_both_names_partial : forall l0 l1 l2, starts l0 l1 -> many goes l1 l2 -> serving l2 ->
  l_cert l2 <> [] -> l_key l2 <> [] -> (0 < layers l2)%nat.
Proof. intros l0 l1 l2 St M Sg X Y. destruct (C124_layers l0 l1 l2 St M Sg) as [H _]. rewrite H by auto. lia. Qed.

(** ** Concrete lives *)
Fixpoint path {A} (R : A -> A -> Prop) (x : A) (l : list A) : Prop :=
  match l with [] => True | y :: l => R x y /\ path R y l end.
Lemma path_many {A} (R : A -> A -> Prop) l : forall x, path R x l -> many R x (last l x).
Proof.
  induction l as [|y l IH]; intros x H; [constructor|]. destruct H as [H P]. specialize (IH y P).
  replace (last (y :: l) x) with (last l y).
  - eapply many_trans; [|exact IH]. eapply many_step; [constructor|exact H].
  - clear. destruct l as [|z l]; [reflexivity|]. cbn [last]. clear. revert z. induction l as [|w l IH]; intros z; [reflexivity|]. exact (IH w).
Qed.
(** a server without TLS and time out, its listener open or closed *)
Definition L (x : bool) (s : rs) : life := Life true (Some (Ln x 0)) false [] [] s [].
Definition C (x : lnst) (parent : bool) : core := Core x None false false parent.
(** a Run that serves, is cancelled and shuts down; the counter is [n] before *)
Definition s_loading n a := RS (C LNone false) None None WSelect SLoad n a [] None.
Definition s_ready n a := RS (C LNone false) None None WSelect SReady n a [] None.
Definition s_serving n a := RS (C LOpen false) None None WSelect SServing n a [] None.
Definition s_cancelled n a := RS (C LOpen true) None None WSelect SServing n a [] None.
Definition s_shutdown n a := RS (C LOpen true) None None WAdd SServing n a [] None.
Definition shut1 := WShut KBackground (B"context canceled").
Definition first_run : list life := [L false (s_ready 0 []); L false (s_serving 0 []); L false (s_cancelled 0 []); L false (s_shutdown 0 []);
  L false (RS (C LOpen true) None None (shut1 ShLock) SServing 1 [(OWatch, true)] [] None);
  L true (RS (Core LClosed (Some OWatch) false false true) None None (shut1 (ShWait None)) SServing 1 [(OWatch, true)] [] None);
  L true (RS (C LClosed true) None None (WDone None) SServing 1 [(OWatch, true)] [] None);
  L true (RS (C LClosed true) None None (WDone None) (SDone None) 1 [(OWatch, true)] [] None);
  L true (RS (C LClosed true) None None (WDone None) (SDone None) 1 [(OWatch, true)] [] (Some None))].
Definition after_first : rs := RS (C LClosed true) None None (WDone None) (SDone None) 1 [(OWatch, true)] [] (Some None).
Lemma L_lstep x y s t : step false false s t -> k_conns (r_core t) = false -> ln_step false s t (Some (Ln x 0)) = Some (Ln y 0) ->
  lstep (L x s) (L y t).
Proof.
  intros St K E. unfold L at 2. rewrite <- E. apply (L_step (L x s) t); cbn [l_srv L l_rs l_timeout]; auto. intros X. congruence.
Qed.
Definition goes0 (a b : life) : Prop := goes a b /\ no_signal a b.
Ltac one := first [left; apply I_load|left; apply I_register; reflexivity|right; apply E_cancel|left; apply (I_cancelled false); reflexivity
  |left; apply (I_watch_add false)|left; apply I_watch_shut; apply SH_close; reflexivity
  |left; apply (I_watch_end false (Core LClosed (Some OWatch) false false true) None None KBackground (B"context canceled") (ShWait None) SServing 1 [(OWatch, true)] [] None _ None); apply SH_idle; reflexivity|left; apply I_closed; reflexivity|left; apply I_return].
Lemma first_path : path goes_without_signal (L false (s_loading 0 [])) first_run.
Proof.
  unfold first_run. cbn [path]. unfold goes_without_signal, goes, no_signal, running. unfold C, s_loading, s_ready, s_serving, s_cancelled, s_shutdown, shut1.
  repeat (split; [split; [split; [apply L_lstep; [one|reflexivity|reflexivity]|reflexivity]|reflexivity]|]). exact I.
Qed.
(** new, Run: the listener is opened *)
Lemma new_starts : starts new_server (L false (s_loading 0 [])).
Proof.
  split; [|split; [discriminate|reflexivity]]. apply (L_run new_server). split; [discriminate|]. intros x [].
Qed.
(** the second Run, after SetListener with an open listener *)
Lemma listener_set : rests (L true after_first) (L false after_first).
Proof.
  split; [|split; discriminate]. apply (L_set_listener (L true after_first) (Some (Ln false 0))). split; [discriminate|intros x []].
Qed.
Lemma second_starts x : starts (L x after_first) (L x (s_loading 1 [(OWatch, true)])).
Proof.
  split; [|split; [discriminate|reflexivity]]. apply (L_run (L x after_first)). split; [discriminate|]. intros y [].
Qed.
Definition second_run : list life := let a := [(OWatch, true)] in
  [L false (s_ready 1 a); L false (s_serving 1 a); L false (s_cancelled 1 a); L false (s_shutdown 1 a);
   L false (RS (C LOpen true) None None (WDone None) SServing 2 [(OWatch, false); (OWatch, true)] [] None)].
Lemma second_path : path goes_quietly (L false (s_loading 1 [(OWatch, true)])) second_run.
Proof.
  unfold second_run. cbv zeta. cbn [path]. unfold goes_quietly, goes, no_signal, running, serve_ok, served. unfold C, s_loading, s_ready, s_serving, s_cancelled, s_shutdown, shut1.
  repeat (split; [split; [split; [apply L_lstep; [one|reflexivity|reflexivity]|reflexivity]|split; [reflexivity|intros [r X]; discriminate X]]|]). exact I.
Qed.
Lemma first_alive : alive (L true after_first).
Proof.
  eapply many_trans; [eapply many_step; [constructor|exact (proj1 new_starts)]|].
  apply (many_impl goes_without_signal); [intros a b [[H _] _]; exact H|]. exact (path_many _ _ _ first_path).
Qed.
(** The hypotheses of the theorems are met: two whole Runs. *)
Example C122_second_run_meets : exists l1 l2 l3 l4 l5, alive new_server /\ starts new_server l1 /\ l_timeout l1 = false /\
  many goes_without_signal l1 l2 /\ ~ running l2 /\ many rests l2 l3 /\ starts l3 l4 /\ l_timeout l4 = false /\
  many goes_quietly l4 l5 /\ few_shutdowns l5 /\ cancelled (l_rs l5) /\ listening_done (l_rs l5).
Proof.
  exists (L false (s_loading 0 [])), (L true after_first), (L false after_first), (L false (s_loading 1 [(OWatch, true)])), (last second_run new_server).
  split; [constructor|]. split; [exact new_starts|]. split; [reflexivity|]. split; [exact (path_many _ _ _ first_path)|]. split; [discriminate|].
  split; [eapply many_step; [constructor|exact listener_set]|]. split; [apply second_starts|]. split; [reflexivity|].
  split; [exact (path_many _ _ _ second_path)|]. split; [reflexivity|]. split; [reflexivity|]. split; [discriminate|reflexivity].
Qed.
Lemma second_stuck : stuck false (l_rs (last second_run new_server)).
Proof.
  intros t H. cbn in H. inversion H; subst; try discriminate;
    match goal with X : nth_error [] ?i = Some _ |- _ => destruct i; discriminate X end.
Qed.
Theorem C122_refuted : ~ C122_claim.
Proof.
  intros H. apply (stuck_not false returned _ second_stuck); [intros X; apply X; reflexivity|].
  assert (A : alive (L false after_first)) by (eapply many_step; [exact first_alive|exact (proj1 listener_set)]).
  apply (H _ A (L false (s_loading 1 [(OWatch, true)])) (last second_run new_server) (second_starts false)); try reflexivity.
  - apply (many_impl goes_quietly); [intros a b [X _]; exact X|]. exact (path_many _ _ _ second_path).
  - split; [discriminate|reflexivity].
Qed.
(** The second Run without SetListener has the closed listener. *)
Example C122_closed_meets : starts (L true after_first) (L true (s_loading 1 [(OWatch, true)])) /\ closed_listener (L true after_first) /\
  alive (L true after_first) /\ k_ln (r_core (l_rs (L true after_first))) <> LOpen /\ shutdowns (L true after_first) = 1%nat.
Proof.
  split; [apply second_starts|]. split; [eexists; split; reflexivity|]. split; [exact first_alive|]. split; [discriminate|reflexivity].
Qed.
(** With a time out the second Run stops: the hypotheses of C122_stops_again_partial. *)
Example C122_stops_again_meets : exists l0 l1, alive l0 /\ starts l0 l1 /\ k_ln (r_core (l_rs l0)) <> LOpen /\ l_timeout l0 = true /\ shutdowns l0 = 1%nat /\
  forall l2, many goes l1 l2 -> listening_done (l_rs l2) -> cancelled (l_rs l2) -> inevitably true returned (l_rs l2).
Proof.
  set (l0 := Life true (Some (Ln false 0)) true [] [] after_first []).
  exists l0, (Life true (Some (Ln false 0)) true [] [] (start_run after_first) []).
  assert (Id : idle (L false after_first)) by (split; [discriminate|intros x []]).
  assert (A : alive l0).
  { eapply many_step; [eapply many_step; [exact first_alive|exact (proj1 listener_set)]|]. apply (L_set_timeout (L false after_first) true Id). }
  assert (St : starts l0 (Life true (Some (Ln false 0)) true [] [] (start_run after_first) [])).
  { split; [apply (L_run l0); exact Id|]. split; [discriminate|reflexivity]. }
  assert (Nl : k_ln (r_core (l_rs l0)) <> LOpen) by discriminate.
  split; [exact A|]. split; [exact St|]. split; [exact Nl|]. split; [reflexivity|]. split; [reflexivity|].
  intros l2 M Ld Ca. pose proof (C122_stops_again_partial l0 _ l2 A St Nl M (or_introl Ld) (or_introl (conj Ca (or_introl eq_refl)))) as R.
  assert (T : l_timeout l2 = true) by (apply (goes_rs _ l2 M eq_refl)). rewrite T in R. exact R.
Qed.

(** Shutdown before Run: new, Shutdown (panics), Run, cancel. *)
Definition s_called : rs := RS (C LNone false) None None (WDone None) (SDone None) 0 [] [CAdd] (Some None).
Definition s_panicked : rs := RS (C LNone false) None None (WDone None) (SDone None) 1 [(OCall 0, true)] [CRet true None] (Some None).
Definition N (s : rs) (p : list nat) : life := Life false None false [] [] s p.
Lemma panic_path : path rests new_server [N s_called []; N s_panicked [0%nat]].
Proof.
  cbn [path]. split; [|split; [|exact I]].
  - split; [|split; discriminate].
    refine (L_step new_server s_called _ _ _); [right; apply E_call|intros X; exfalso; apply X; reflexivity|discriminate].
  - split; [|split; discriminate]. exact (L_panic (N s_called []) 0 eq_refl eq_refl eq_refl).
Qed.
Definition M_ (s : rs) : life := Life true (Some (Ln false 0)) false [] [] s [0%nat].
Definition cs1 := [CRet true None].
Definition a1 := [(OCall 0, true)].
Definition third_run : list life :=
  [M_ (RS (C LNone false) None None WSelect SReady 1 a1 cs1 None);
   M_ (RS (C LOpen false) None None WSelect SServing 1 a1 cs1 None);
   M_ (RS (C LOpen true) None None WSelect SServing 1 a1 cs1 None);
   M_ (RS (C LOpen true) None None WAdd SServing 1 a1 cs1 None);
   M_ (RS (C LOpen true) None None (WDone None) SServing 2 ((OWatch, false) :: a1) cs1 None)].
Lemma third_starts : starts (N s_panicked [0%nat]) (M_ (RS (C LNone false) None None WSelect SLoad 1 a1 cs1 None)).
Proof.
  split; [|split; [discriminate|reflexivity]]. apply (L_run (N s_panicked [0%nat])). split; [discriminate|]. intros x [<-|[]]. eauto.
Qed.
Lemma M_lstep s t : step false false s t -> k_conns (r_core t) = false -> ln_step false s t (Some (Ln false 0)) = Some (Ln false 0) ->
  lstep (M_ s) (M_ t).
Proof.
  intros St K E. unfold M_ at 2. rewrite <- E. apply (L_step (M_ s) t); cbn [l_srv M_ l_rs l_timeout]; auto. intros X. congruence.
Qed.
Lemma third_path : path goes (M_ (RS (C LNone false) None None WSelect SLoad 1 a1 cs1 None)) third_run.
Proof.
  unfold third_run. cbn [path]. unfold goes, running, C, cs1, a1.
  repeat (split; [split; [apply M_lstep; [one|reflexivity|reflexivity]|reflexivity]|]). exact I.
Qed.
Theorem C123_refuted : ~ C123_claim.
Proof.
  intros H. destruct (H (N s_panicked [0%nat]) (path_many _ _ _ panic_path)) as [X _]. discriminate X.
Qed.
Theorem C123_then_unstoppable : ~ (forall l0, many rests new_server l0 -> stoppable l0).
Proof.
  intros H. apply (stuck_not false returned (l_rs (last third_run new_server))).
  - intros t X. cbn in X. inversion X; subst; try discriminate;
      match goal with Y : nth_error cs1 ?i = Some _ |- _ => destruct i as [|[|i]]; discriminate Y end.
  - intros X; apply X; reflexivity.
  - apply (H _ (path_many _ _ _ panic_path) _ (last third_run new_server) third_starts); try reflexivity.
    + exact (path_many _ _ _ third_path).
    + split; [discriminate|reflexivity].
Qed.
Example C123_meets : many rests new_server (N s_called []) /\ shutdowns (N s_called []) = 0%nat /\ alive (N s_called []) /\
  lstep (N s_called []) (N s_panicked [0%nat]) /\ few_shutdowns (N s_called []).
Proof.
  destruct panic_path as [P1 [P2 _]].
  assert (M1 : many rests new_server (N s_called [])) by (eapply many_step; [constructor|exact P1]).
  split; [exact M1|]. split; [reflexivity|]. split; [|split; [exact (proj1 P2)|reflexivity]].
  apply (many_impl rests); [intros a b [X _]; exact X|exact M1].
Qed.
(** TLS with a certificate but no key *)
Definition T (c k : bytes) (n : nat) (s : rs) : life := Life true (Some (Ln false n)) false c k s [].
Definition tls_new (c k : bytes) : life := Life false None false c k (l_rs new_server) [].
Lemma tls_alive c k : alive (tls_new c k).
Proof. eapply many_step; [constructor|]. apply (L_set_tls new_server c k). split; [discriminate|intros x []]. Qed.
Lemma tls_starts c k : starts (tls_new c k) (T c k 0 (s_loading 0 [])).
Proof. split; [|split; [discriminate|reflexivity]]. apply (L_run (tls_new c k)). split; [discriminate|intros x []]. Qed.
Lemma tls_serves c k : many goes (T c k 0 (s_loading 0 [])) (T c k (if with_tls (tls_new c k) then 1 else 0) (s_serving 0 [])).
Proof.
  set (n := (if with_tls (tls_new c k) then 1 else 0)%nat).
  apply (many_step _ _ (T c k n (s_ready 0 []))); [apply (many_step _ _ (T c k 0 (s_loading 0 []))); [constructor|]|].
  - split; [|reflexivity].
    replace (T c k n (s_ready 0 [])) with (Life true (ln_step (with_tls (T c k 0 (s_loading 0 []))) (s_loading 0 []) (s_ready 0 []) (Some (Ln false 0))) false c k (s_ready 0 []) []).
    + apply (L_step (T c k 0 (s_loading 0 []))); [left; apply I_load|reflexivity|discriminate].
    + unfold T, n. cbn. change (with_tls (T c k 0 (s_loading 0 []))) with (with_tls (tls_new c k)).
      change (with_tls {| l_srv := true; l_ln := Some {| ln_closed := false; ln_layers := 0 |}; l_timeout := false; l_cert := c; l_key := k; l_rs := s_loading 0 []; l_panics := [] |}) with (with_tls (tls_new c k)).
      destruct (with_tls (tls_new c k)); reflexivity.
  - split; [|reflexivity]. apply (L_step (T c k n (s_ready 0 []))); [left; apply (I_register false (C LNone false)); reflexivity|reflexivity|discriminate].
Qed.
Theorem C124_one_name_refuted : ~ C124_claim.
Proof.
  intros H.
  assert (X : (0 < layers (T (B"c.pem") [] 0 (s_serving 0 [])))%nat).
  { apply (H (tls_new (B"c.pem") []) (T (B"c.pem") [] 0 (s_loading 0 []))).
    - apply tls_alive.
    - apply tls_starts.
    - exact (tls_serves (B"c.pem") []).
    - reflexivity.
    - left. discriminate. }
  unfold layers, T in X. cbn [l_ln ln_layers] in X. lia.
Qed.
Example C124_meets : exists l2, starts (tls_new (B"c.pem") (B"k.pem")) (T (B"c.pem") (B"k.pem") 0 (s_loading 0 [])) /\
  many goes (T (B"c.pem") (B"k.pem") 0 (s_loading 0 [])) l2 /\ serving l2 /\ layers l2 = 1%nat.
Proof.
  exists (T (B"c.pem") (B"k.pem") 1 (s_serving 0 [])). split; [apply tls_starts|]. split; [exact (tls_serves (B"c.pem") (B"k.pem"))|].
  split; reflexivity.
Qed.

Print Assumptions C122_used_server_never_stops.
Print Assumptions C122_second_run_never_stops.
Print Assumptions C122_no_shutdown_gets_there.
Print Assumptions C122_closed_listener_serves_nothing.
Print Assumptions C122_shut_down_leaves_it_closed.
Print Assumptions C122_stops_again_partial.
Print Assumptions C122_refuted.
Print Assumptions C123_panics_exactly.
Print Assumptions C123_not_called_partial.
Print Assumptions C123_refuted.
Print Assumptions C123_then_unstoppable.
Print Assumptions C124_layers.
Print Assumptions C124_both_names_partial.
Print Assumptions C124_one_name_refuted.
