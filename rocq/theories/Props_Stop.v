(** C140-C142: what the answers of Run and Shutdown say about the connections, and what errors
    Run returns. *)
From Verif Require Import Base GoErrors GoInt M_Run S_Run P_Slices Props_Run.
Local Open Scope Z_scope.

(** no connection is open, and none will be whatever happens *)
Definition drained (with_timeout tls : bool) (s : rs) : Prop :=
  forall t, many (step with_timeout tls) s t -> k_conns (r_core t) = false.
(** the [i]-th call of Shutdown is inside the underlying server *)
Definition busy (s : rs) (i : nat) : Prop := exists sh, nth_error (r_callers s) i = Some (CShut sh).

(** ** Invariant: closed and nobody waiting means no connection, unless Run's own shutdown was
    given up *)
Definition quiet (s : rs) : Prop :=
  k_ln (r_core s) = LClosed -> k_mu (r_core s) <> None \/ k_conns (r_core s) = false \/ exists e, r_watch s = WDone (Some e).
Lemma wrap_some e msg : exists e', wrap (Some e) msg = Some e'.
Proof. eexists. reflexivity. Qed.
Lemma quiet_step wt tls s t : inv s -> step wt tls s t -> quiet s -> quiet t.
Proof.
  intros I St Q. unfold quiet in Q |- *.
  destruct St as [St|St]; destruct St; cbn [r_core r_watch k_ln k_mu k_conns] in Q |- *; auto.
  - intros L. destruct (Q L) as [X|[X|(e & X)]]; auto. discriminate.
  - intros L. destruct (Q L) as [X|[X|(e & X)]]; auto. discriminate.
  - destruct (bump n =? 1); cbn [r_core r_watch]; intros L; destruct (Q L) as [X|[X|(e & X)]]; auto; discriminate.
  - inversion H; subst. cbn. intros _. left. discriminate.
  - inversion H; subst; cbn [k_ln k_mu k_conns].
    + intros L. destruct (Q L) as [X|[X|(e & X)]]; [contradiction|auto|discriminate].
    + auto.
    + intros _. right. right. destruct (wrap_some e msg) as (e' & ->). eauto.
  - discriminate.
  - destruct (bump n =? 1); cbn [r_core r_watch]; exact Q.
  - inversion H0; subst. cbn. intros _. left. discriminate.
  - inversion H0; subst; cbn [k_ln k_mu k_conns].
    + intros L. destruct (Q L) as [X|[X|X]]; [contradiction|auto|auto].
    + auto.
    + discriminate.
  - intros L. destruct (Q L) as [X|[X|X]]; auto. destruct b; [|auto]. specialize (H eq_refl). congruence.
Qed.
Lemma reachable_quiet wt tls s : reachable wt tls s -> quiet s.
Proof.
  unfold reachable. remember start as s0 eqn:E0. intros R. induction R as [|s0 s t R IH St]; subst.
  - discriminate.
  - eapply quiet_step; [apply (reachable_inv wt tls); exact R|exact St|exact (IH eq_refl)].
Qed.
Lemma closed_kept wt tls s t : inv s -> step wt tls s t -> k_ln (r_core s) = LClosed -> k_ln (r_core t) = LClosed.
Proof.
  intros I St H. pose proof (i_ready s I) as Rd.
  destruct St as [St|St]; destruct St; cbn [r_core r_serve k_ln] in *; auto.
  - destruct (bump n =? 1); exact H.
  - inversion H0; subst; reflexivity.
  - inversion H0; subst; cbn; auto.
  - specialize (Rd (or_intror eq_refl)). congruence.
  - destruct (bump n =? 1); exact H.
  - inversion H1; subst; reflexivity.
  - inversion H1; subst; cbn; auto.
Qed.
Lemma no_conns_kept wt tls s t : step wt tls s t -> k_ln (r_core s) = LClosed -> k_conns (r_core s) = false -> k_conns (r_core t) = false.
Proof.
  intros St L H. destruct St as [St|St]; destruct St; cbn [r_core k_conns k_ln] in *; auto.
  - destruct (bump n =? 1); exact H.
  - inversion H0; subst; cbn; auto.
  - inversion H0; subst; cbn; auto.
  - destruct (bump n =? 1); exact H.
  - inversion H1; subst; cbn; auto.
  - inversion H1; subst; cbn; auto.
  - destruct b; [|reflexivity]. specialize (H0 eq_refl). congruence.
Qed.
Lemma closed_drained wt tls s : reachable wt tls s -> k_ln (r_core s) = LClosed -> k_conns (r_core s) = false -> drained wt tls s.
Proof.
  intros R L C t M.
  assert (X : reachable wt tls t /\ k_ln (r_core t) = LClosed /\ k_conns (r_core t) = false); [|apply X].
  apply (many_inv (step wt tls) (fun s => reachable wt tls s /\ k_ln (r_core s) = LClosed /\ k_conns (r_core s) = false)) with (x := s);
    [|exact M|auto].
  intros x y St (Rx & Lx & Cx). split; [eapply many_step; eassumption|]. split.
  - eapply closed_kept; [apply (reachable_inv wt tls); exact Rx|exact St|exact Lx].
  - eapply no_conns_kept; eassumption.
Qed.

(** * C140 When Run returns nil, nothing is being served any more *)
Definition C140_claim (with_timeout tls : bool) : Prop := forall s, reachable with_timeout tls s ->
  r_result s = Some None -> k_conns (r_core s) = false.
(** False: without a shutdown timeout, a call of Shutdown is waiting for the connections; the
    context is cancelled, Run's own Shutdown finds the counter taken and returns nil at once. *)
Definition hasty : rs :=
  RS (Core LClosed (Some (OCall 0)) true false true) None None (WDone None) (SDone None) 2
     [(OWatch, false); (OCall 0, true)] [CShut (ShWait None)] (Some None).
Lemma hasty_reachable tls : reachable false tls hasty.
Proof.
  unfold reachable, hasty.
  eapply many_step; [|left; apply (I_return false)].
  eapply many_step; [|left; apply (I_closed false (Core LClosed (Some (OCall 0)) true false true) None None); reflexivity].
  eapply many_step; [|left; apply (I_watch_add false (Core LClosed (Some (OCall 0)) true false true) None None SServing 1 [(OCall 0, true)] [CShut (ShWait None)] None)].
  eapply many_step; [|left; apply (I_cancelled false); reflexivity].
  eapply many_step; [|right; apply (E_cancel tls (Core LClosed (Some (OCall 0)) true false false))].
  eapply many_step; [|left; apply (I_call_shut false (Core LOpen None true false false) None None WSelect SServing 1 [(OCall 0, true)] [CShut ShLock] None 0 ShLock _ (ShWait None)); [reflexivity|apply SH_close; reflexivity]].
  eapply many_step; [|left; apply (I_call_add false (Core LOpen None true false false) None None WSelect SServing 0 [] [CAdd] None 0); reflexivity].
  eapply many_step; [|right; apply (E_call tls (Core LOpen None true false false) None None WSelect SServing 0 [] [] None)].
  eapply many_step; [|right; apply (E_conns tls (Core LOpen None false false false) None None WSelect SServing 0 [] [] None true); reflexivity].
  eapply many_step; [|left; apply (I_register false (Core LNone None false false false)); reflexivity].
  eapply many_step; [|left; apply I_load]. constructor.
Qed.
Theorem C140_refuted : forall tls, ~ C140_claim false tls.
Proof. intros tls H. specialize (H hasty (hasty_reachable tls) eq_refl). discriminate. Qed.
(** It holds, for good, when no call of Shutdown is still inside the underlying server, and no
    shutdown came before the listener was known.  Missing: the two cases excluded. *)
Theorem C140_drained_partial : forall with_timeout tls s, reachable with_timeout tls s ->
  r_result s = Some None -> (forall i, ~ busy s i) -> k_lost (r_core s) = false -> drained with_timeout tls s.
Proof.
  intros wt tls s R E B L. destruct (C72_result wt tls s None R E) as (rw & rv & W & V & [X _] & _).
  destruct (X eq_refl) as [-> ->]. pose proof (reachable_inv wt tls s R) as I.
  assert (C : k_ln (r_core s) = LClosed).
  { destruct (i_done s I _ W) as [Y|[Y|(j & Y)]]; [exact Y|congruence|]. exfalso. apply (B j). eexists. exact Y. }
  apply closed_drained; [exact R|exact C|]. destruct (reachable_quiet wt tls s R C) as [M|[M|(e & M)]]; [|exact M|congruence].
  exfalso. destruct (k_mu (r_core s)) as [o|] eqn:Mu; [|congruence]. pose proof (i_owner s I o Mu) as O. destruct o as [|i].
  - destruct O as (k & m & e & O). congruence.
  - destruct O as (e & O). apply (B i). eexists. exact O.
Qed.
(** With a shutdown timeout Run's own shutdown does not pass over another one: a nil result is
    then enough, whatever calls of Shutdown there are. *)
Definition timed (s : rs) : Prop :=
  r_watch s <> WAdd /\ (r_watch s = WDone None -> k_lost (r_core s) = false ->
                        k_ln (r_core s) = LClosed /\ k_conns (r_core s) = false).
Lemma lost_kept wt tls s t : step wt tls s t -> k_lost (r_core t) = false -> k_lost (r_core s) = false.
Proof.
  intros St. destruct St as [St|St]; destruct St; cbn [r_core k_lost]; auto.
  - destruct (bump n =? 1); auto.
  - inversion H; subst; auto.
  - inversion H; subst; cbn; auto. destruct (k_ln c); auto; discriminate.
  - destruct (bump n =? 1); auto.
  - inversion H0; subst; auto.
  - inversion H0; subst; cbn; auto. destruct (k_ln c); auto; discriminate.
Qed.
Lemma timed_step tls s t : inv s -> quiet s -> step true tls s t -> timed s -> timed t.
Proof.
  intros I Q St [T1 T2].
  assert (Keep : r_watch t = r_watch s -> timed t).
  { intros E. split; [congruence|]. intros W L. rewrite E in W. pose proof (lost_kept _ _ _ _ St L) as L'.
    destruct (T2 W L') as [X Y]. split; [eapply closed_kept|eapply no_conns_kept]; eassumption. }
  destruct St as [St|St]; destruct St; try (apply Keep; reflexivity).
  - split; discriminate.
  - split; discriminate.
  - exfalso. apply T1. reflexivity.
  - split; discriminate.
  - pose proof (i_mu _ I) as M. pose proof (i_wait _ I) as Wt. unfold quiet in Q. cbn [r_core r_watch k_ln k_mu k_conns] in M, Wt, Q.
    split; [discriminate|]. cbn [r_watch r_core]. intros W L. inversion H; subst; cbn [k_ln k_conns k_lost] in *.
    + assert (C : k_ln c = LClosed) by (destruct (k_ln c); [discriminate|congruence|reflexivity]). split; [exact C|].
      destruct (Q C) as [X|[X|(e & X)]]; [contradiction|exact X|discriminate].
    + split; [|reflexivity]. apply M. rewrite (Wt _ _ _ eq_refl). discriminate.
    + destruct (wrap_some e msg) as (e' & X). rewrite X in W. discriminate.
  - apply Keep. destruct (bump n =? 1); reflexivity.
Qed.
Lemma reachable_timed tls s : reachable true tls s -> timed s.
Proof.
  unfold reachable. remember start as s0 eqn:E0. intros R. induction R as [|s0 s t R IH St]; subst.
  - split; discriminate.
  - eapply timed_step; [apply (reachable_inv true tls); exact R|apply (reachable_quiet true tls); exact R|exact St|exact (IH eq_refl)].
Qed.
Theorem C140_with_timeout_partial : forall tls s, reachable true tls s ->
  r_result s = Some None -> k_lost (r_core s) = false -> drained true tls s.
Proof.
  intros tls s R E L. destruct (C72_result true tls s None R E) as (rw & rv & W & V & [X _] & _).
  destruct (X eq_refl) as [-> ->]. destruct (proj2 (reachable_timed tls s R) W L) as [C N]. apply closed_drained; assumption.
Qed.
(** The other case excluded is real too, with and without a timeout: the context is cancelled
    before the listener is known, and later the serving goroutine ends by itself. *)
Definition missed (wt : bool) : rs :=
  RS (Core LOpen None true true true) None None (WDone None) (SDone None) (if wt then 0 else 1) (if wt then [] else [(OWatch, true)]) [] (Some None).
Lemma missed_reachable wt tls : reachable wt tls (missed wt).
Proof.
  unfold reachable, missed.
  eapply many_step; [|left; apply (I_return wt)].
  eapply many_step; [|right; apply (E_serve tls (Core LOpen None true true true) None None (WDone None) _ _ [] None None)].
  eapply many_step; [|right; apply (E_conns tls (Core LOpen None false true true) None None (WDone None) SServing _ _ [] None true); reflexivity].
  apply early_cancel_reachable.
Qed.
Theorem C140_missed_refuted : forall with_timeout tls, ~ C140_claim with_timeout tls.
Proof. intros wt tls H. specialize (H (missed wt) (missed_reachable wt tls) eq_refl). discriminate. Qed.

(** * C141 When Shutdown returns nil, nothing is being served any more *)
Definition C141_claim (with_timeout tls : bool) : Prop := forall s i b, reachable with_timeout tls s ->
  nth_error (r_callers s) i = Some (CRet b None) -> k_conns (r_core s) = false.
(** False: only the first call waits, a second one returns nil at once. *)
Definition second_call : rs :=
  RS (Core LClosed (Some (OCall 0)) true false false) None None WSelect SServing 2
     [(OCall 1, false); (OCall 0, true)] [CShut (ShWait None); CRet false None] None.
Lemma second_call_reachable wt tls : reachable wt tls second_call.
Proof.
  unfold reachable, second_call.
  eapply many_step; [|left; apply (I_call_add wt (Core LClosed (Some (OCall 0)) true false false) None None WSelect SServing 1 [(OCall 0, true)] [CShut (ShWait None); CAdd] None 1); reflexivity].
  eapply many_step; [|right; apply (E_call tls (Core LClosed (Some (OCall 0)) true false false) None None WSelect SServing 1 [(OCall 0, true)] [CShut (ShWait None)] None)].
  eapply many_step; [|left; apply (I_call_shut wt (Core LOpen None true false false) None None WSelect SServing 1 [(OCall 0, true)] [CShut ShLock] None 0 ShLock _ (ShWait None)); [reflexivity|apply SH_close; reflexivity]].
  eapply many_step; [|left; apply (I_call_add wt (Core LOpen None true false false) None None WSelect SServing 0 [] [CAdd] None 0); reflexivity].
  eapply many_step; [|right; apply (E_call tls (Core LOpen None true false false) None None WSelect SServing 0 [] [] None)].
  eapply many_step; [|right; apply (E_conns tls (Core LOpen None false false false) None None WSelect SServing 0 [] [] None true); reflexivity].
  eapply many_step; [|left; apply (I_register wt (Core LNone None false false false)); reflexivity].
  eapply many_step; [|left; apply I_load]. constructor.
Qed.
Theorem C141_refuted : forall with_timeout tls, ~ C141_claim with_timeout tls.
Proof.
  intros wt tls H. specialize (H second_call 1%nat false (second_call_reachable wt tls) eq_refl). discriminate.
Qed.
(** It holds, for good, for the call that reached the underlying server - whatever it returned -
    if no shutdown came before the listener was known and Run's own shutdown did not end with an
    error (it may have given up waiting).  Missing: the cases excluded, and the other calls. *)
Definition waited (s : rs) : Prop := forall i r, nth_error (r_callers s) i = Some (CRet true r) -> k_lost (r_core s) = false ->
  k_ln (r_core s) = LClosed /\ k_conns (r_core s) = false \/ exists e, r_watch s = WDone (Some e).
Lemma waited_step wt tls s t : inv s -> quiet s -> step wt tls s t -> waited s -> waited t.
Proof.
  intros I Q St W.
  assert (Keep : (forall i r, nth_error (r_callers t) i = Some (CRet true r) -> nth_error (r_callers s) i = Some (CRet true r)) -> waited t).
  { intros E i r H L. pose proof (lost_kept _ _ _ _ St L) as L'. destruct (W i r (E i r H) L') as [[X Y]|(e & X)].
    - left. split; [eapply closed_kept|eapply no_conns_kept]; eassumption.
    - right. exists e. eapply watched_step; eassumption. }
  pose proof St as St0.
  destruct St as [St|St]; destruct St; try (apply Keep; intros j r' X; exact X).
  - apply Keep. intros j r' X. destruct (bump n =? 1); exact X.
  - apply Keep. intros j r' X. destruct (bump n =? 1); cbn [r_callers] in X |- *; rewrite nth_error_upd_nth in X;
      (destruct (Nat.eqb_spec j i) as [->|_]; [rewrite H in X; discriminate|exact X]).
  - apply Keep. intros j r' X. cbn [r_callers] in X |- *. rewrite nth_error_upd_nth in X.
    destruct (Nat.eqb_spec j i) as [->|_]; [rewrite H in X; discriminate|exact X].
  - pose proof (i_mu _ I) as M. pose proof (i_cwait _ I) as Cw. unfold quiet in Q. cbn [r_core r_watch r_callers k_ln k_mu k_conns] in M, Cw, Q.
    intros j r' X L. cbn [r_callers r_core r_watch] in X, L |- *. rewrite nth_error_upd_nth in X.
    destruct (Nat.eqb_spec j i) as [->|_].
    + inversion H0; subst; cbn [k_ln k_conns k_lost] in *.
      * assert (C : k_ln c = LClosed) by (destruct (k_ln c); [discriminate|congruence|reflexivity]).
        destruct (Q C) as [Y|[Y|Y]]; [contradiction|left; auto|right; exact Y].
      * left. split; [|reflexivity]. apply M. rewrite (Cw _ _ H). discriminate.
      * discriminate.
    + pose proof (lost_kept _ _ _ _ St0 L) as L'. destruct (W j r' X L') as [[Y Z]|Y]; [left|right; exact Y].
      split; [exact (closed_kept _ _ _ _ I St0 Y)|exact (no_conns_kept _ _ _ _ St0 Y Z)].
  - apply Keep. intros j r' X. cbn [r_callers] in X |- *. destruct (nth_error cs j) as [x|] eqn:E.
    + rewrite nth_error_app1 in X by (apply nth_error_Some; congruence). congruence.
    + exfalso. apply nth_error_None in E. rewrite nth_error_app2 in X by exact E. destruct (j - length cs)%nat as [|[|k]]; discriminate.
Qed.
Lemma reachable_waited wt tls s : reachable wt tls s -> waited s.
Proof.
  unfold reachable. remember start as s0 eqn:E0. intros R. induction R as [|s0 s t R IH St]; subst.
  - intros [|i] r H; discriminate.
  - eapply waited_step; [apply (reachable_inv wt tls); exact R|apply (reachable_quiet wt tls); exact R|exact St|exact (IH eq_refl)].
Qed.
Theorem C141_drained_partial : forall with_timeout tls s i r, reachable with_timeout tls s ->
  nth_error (r_callers s) i = Some (CRet true r) -> k_lost (r_core s) = false ->
  (forall e, r_watch s <> WDone (Some e)) -> drained with_timeout tls s.
Proof.
  intros wt tls s i r R H L N. destruct (reachable_waited wt tls s R i r H L) as [[X Y]|(e & X)]; [|elim (N e X)].
  apply closed_drained; assumption.
Qed.

(** * C142 The error Run returns *)
(** an execution in which closing the listener does not fail *)
Definition closes_well (s : rs) : Prop := forall k msg e, r_watch s <> WShut k msg (ShWait (Some e)).
Definition well (with_timeout tls : bool) (s : rs) : Prop :=
  many (fun x y => step with_timeout tls x y /\ closes_well y) start s.
Definition reason (with_timeout : bool) (s : rs) (e : err) : Prop :=
  with_timeout = true /\ err_text e = B"context canceled: context deadline exceeded" \/
  cancelled s /\ exists sig, err_text e = B"server shutdown: " ++ sig ++ B": context canceled".
Definition told (wt : bool) (s : rs) : Prop :=
  match r_watch s with
  | WShut KTimeout msg _ => wt = true /\ msg = B"context canceled"
  | WShut KParent msg _ => exists sig, msg = B"server shutdown: " ++ sig
  | WShut KBackground msg _ => msg = B"context canceled"
  | WDone (Some e) => reason wt s e
  | _ => True
  end.
Lemma cancelled_step wt tls s t : step wt tls s t -> cancelled s -> cancelled t.
Proof.
  intros St. unfold cancelled. destruct St as [St|St]; destruct St; cbn [r_core k_parent]; auto.
  - destruct (bump n =? 1); auto.
  - inversion H; subst; auto.
  - inversion H; subst; auto.
  - destruct (bump n =? 1); auto.
  - inversion H0; subst; auto.
  - inversion H0; subst; auto.
Qed.
Lemma told_step wt tls s t : step wt tls s t -> closes_well s -> told wt s -> told wt t.
Proof.
  intros St Cw T.
  assert (Keep : r_watch t = r_watch s -> told wt t).
  { intros E. unfold told in T |- *. rewrite E. destruct (r_watch s) as [| |k m sh|[e|]]; auto.
    destruct T as [T|[T1 T2]]; [left; exact T|right]. split; [eapply cancelled_step; eassumption|exact T2]. }
  destruct St as [St|St]; destruct St; try (apply Keep; reflexivity).
  - unfold told. cbn [r_watch]. destruct wt; [split; reflexivity|exact Logic.I].
  - unfold told. cbn [r_watch]. exists sig. reflexivity.
  - unfold told. destruct (bump n =? 1); cbn [r_watch]; [reflexivity|exact Logic.I].
  - unfold told in T |- *. cbn [r_watch] in T |- *. exact T.
  - unfold told in T |- *. cbn [r_watch] in T |- *. inversion H; subst; cbn [wrap].
    + exact Logic.I.
    + destruct r as [e|]; [|exact Logic.I]. exfalso. apply (Cw k msg e). reflexivity.
    + match goal with X : ctx_err _ _ = Some _ |- _ => rename X into H0 end. destruct k; cbn [ctx_err] in H0.
      * discriminate.
      * injection H0 as <-. left. destruct T as [T ->]. split; [exact T|reflexivity].
      * destruct (k_parent c) eqn:P; [|discriminate]. injection H0 as <-. right. split; [reflexivity|]. destruct T as (sig & ->).
        exists sig. cbn [err_text]. rewrite <- app_assoc. reflexivity.
  - apply Keep. destruct (bump n =? 1); reflexivity.
Qed.
Lemma well_told wt tls s : well wt tls s -> closes_well s /\ told wt s /\ reachable wt tls s.
Proof.
  unfold well, reachable. remember start as s0 eqn:E0. intros R. induction R as [|s0 s t R IH [St Cw]]; subst.
  - split; [|split; [exact Logic.I|constructor]]. intros k m e X. discriminate.
  - destruct (IH eq_refl) as (C & T & R'). split; [exact Cw|]. split; [eapply told_step; eassumption|eapply many_step; eassumption].
Qed.
(** Run returns the error of its serving goroutine unchanged, or says that the shutdown timeout
    passed, or that a signal came and the context was cancelled while the connections were
    waited for. *)
Theorem C142_answers : forall with_timeout tls s e, well with_timeout tls s -> r_result s = Some (Some e) ->
  r_serve s = SDone (Some e) \/ reason with_timeout s e.
Proof.
  intros wt tls s e W H. destruct (well_told wt tls s W) as (_ & T & R).
  destruct (C72_result wt tls s (Some e) R H) as (rw & rv & E1 & E2 & _ & F). destruct (F e eq_refl) as [->| ->]; [right|left; exact E2].
  unfold told in T. rewrite E1 in T. exact T.
Qed.
(** the serving goroutine fails before listening only when there are certificate files, and
    never ends without an error before listening *)
Theorem C142_before_listening : forall with_timeout tls s r, reachable with_timeout tls s ->
  r_serve s = SDone r -> k_ln (r_core s) = LNone -> tls = true /\ r <> None.
Proof.
  intros wt tls s r. unfold reachable. remember start as s0 eqn:E0. intros R. induction R as [|s0 s t R IH St]; subst.
  - discriminate.
  - pose proof (reachable_inv wt tls s R) as I. pose proof (i_serve s I) as Sv. specialize (IH eq_refl).
    destruct St as [St|St]; destruct St; cbn [r_serve r_core k_ln] in *; auto; try discriminate.
    + destruct (bump n =? 1); auto.
    + intros X Y. apply IH; [exact X|]. inversion H; subst; [discriminate].
    + intros X Y. apply IH; [exact X|]. inversion H; subst; exact Y.
    + intros _ Y. elim (Sv eq_refl Y).
    + destruct (bump n =? 1); auto.
    + intros X Y. apply IH; [exact X|]. inversion H0; subst; [discriminate].
    + intros X Y. apply IH; [exact X|]. inversion H0; subst; exact Y.
    + intros X _. injection X as <-. split; [exact H|discriminate].
    + intros _ Y. elim (Sv eq_refl Y).
Qed.

(** ** The hypotheses are met *)
(* a call of Shutdown ends while there are no connections, then the context is cancelled *)
Definition orderly : rs :=
  RS (Core LClosed None false false true) None None (WDone None) (SDone None) 2 [(OWatch, false); (OCall 0, true)] [CRet true None] (Some None).
Example C140_nonvacuous : reachable false false orderly /\ r_result orderly = Some None /\ (forall i, ~ busy orderly i) /\
  k_lost (r_core orderly) = false /\ nth_error (r_callers orderly) 0 = Some (CRet true None) /\ (forall e, r_watch orderly <> WDone (Some e)).
Proof.
  split; [|split; [reflexivity|split; [|split; [reflexivity|split; [reflexivity|discriminate]]]]].
  - unfold reachable, orderly.
    eapply many_step; [|left; apply (I_return false)].
    eapply many_step; [|left; apply (I_watch_add false (Core LClosed None false false true) None None (SDone None) 1 [(OCall 0, true)] [CRet true None] None)].
    eapply many_step; [|left; apply (I_cancelled false); reflexivity].
    eapply many_step; [|right; apply (E_cancel false (Core LClosed None false false false))].
    apply after_shutdown_reachable.
  - intros [|[|i]] (sh & X); discriminate.
Qed.
(* the connections outlast the timeout *)
Definition too_long : err := EWrap (EUser 1 (B"context deadline exceeded")) (B"context canceled").
Definition gave_up : rs :=
  RS (Core LClosed None true false true) None (Some too_long) (WDone (Some too_long)) (SDone None) 0 [] [] (Some (Some too_long)).
Example C142_nonvacuous : well true false gave_up /\ r_result gave_up = Some (Some too_long).
Proof.
  split; [|reflexivity]. unfold well, gave_up.
  assert (N : forall c sg f w sv n a cs res, (forall k m e, w <> WShut k m (ShWait (Some e))) -> closes_well (RS c sg f w sv n a cs res)) by (intros; assumption).
  eapply many_step; [|split; [left; apply (I_return true)|apply N; discriminate]].
  eapply many_step; [|split; [left; apply (I_closed true (Core LClosed None true false true) None (Some too_long)); reflexivity|apply N; discriminate]].
  eapply many_step; [|split; [left; apply (I_watch_end true (Core LClosed (Some OWatch) true false true) None None KTimeout (B"context canceled") (ShWait None) SServing 0 [] [] None _ (Some (EUser 1 (B"context deadline exceeded")))); apply SH_ctx; reflexivity|apply N; discriminate]].
  eapply many_step; [|split; [left; apply (I_watch_shut true (Core LOpen None true false true) None None KTimeout (B"context canceled") ShLock SServing 0 [] [] None _ (ShWait None)); apply SH_close; reflexivity|apply N; intros k m e X; injection X; discriminate]].
  eapply many_step; [|split; [left; apply (I_cancelled true); reflexivity|apply N; discriminate]].
  eapply many_step; [|split; [right; apply (E_cancel false (Core LOpen None true false false))|apply N; discriminate]].
  eapply many_step; [|split; [right; apply (E_conns false (Core LOpen None false false false) None None WSelect SServing 0 [] [] None true); reflexivity|apply N; discriminate]].
  eapply many_step; [|split; [left; apply (I_register true (Core LNone None false false false)); reflexivity|apply N; discriminate]].
  eapply many_step; [|split; [left; apply I_load|apply N; discriminate]]. constructor.
Qed.
Example C142_load_nonvacuous : reachable false true failed_load /\ k_ln (r_core failed_load) = LNone.
Proof. split; [apply C72_failure_nonvacuous|reflexivity]. Qed.

Print Assumptions C140_refuted.
Print Assumptions C140_missed_refuted.
Print Assumptions C140_drained_partial.
Print Assumptions C140_with_timeout_partial.
Print Assumptions C141_refuted.
Print Assumptions C141_drained_partial.
Print Assumptions C142_answers.
Print Assumptions C142_before_listening.
