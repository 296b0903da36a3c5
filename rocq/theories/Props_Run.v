(** C71-C74: the server's life. *)
From Verif Require Import Base GoErrors GoInt P_Slices M_Run S_Run.
Local Open Scope Z_scope.

Lemma many_trans {A} (R : A -> A -> Prop) x y z : many R x y -> many R y z -> many R x z.
Proof. intros H1 H2. induction H2; [exact H1|]. eapply many_step; [apply IHmany; assumption|assumption]. Qed.
Lemma many_impl {A} (R R' : A -> A -> Prop) x y : (forall a b, R a b -> R' a b) -> many R x y -> many R' x y.
Proof. intros H M. induction M; [constructor|]. eapply many_step; [exact IHM|apply H; assumption]. Qed.
Lemma many_inv {A} (R : A -> A -> Prop) (P : A -> Prop) : (forall x y, R x y -> P x -> P y) -> forall x y, many R x y -> P x -> P y.
Proof. intros H x y M. induction M; auto. intros Px. eapply H; [eassumption|]. apply IHM, Px. Qed.

Section Run.
  Variables with_timeout tls : bool.
  Notation step := (step with_timeout tls).
  Notation istep := (istep with_timeout).
  Notation reachable := (reachable with_timeout tls).
  Notation stuck := (stuck with_timeout).
  Notation inevitably := (inevitably with_timeout).

  (** *** every run without outside events ends *)
  Definition m_shut (s : shut) : nat := match s with ShLock => 2 | ShWait _ => 1 end.
  Definition m_watch (w : wst) : nat := match w with WSelect => 4 | WAdd => 3 | WShut _ _ s => m_shut s | WDone _ => 0 end.
  Definition m_serve (s : sst) : nat := match s with SLoad => 3 | SReady => 2 | SServing => 1 | SDone _ => 0 end.
  Definition m_call (c : cst) : nat := match c with CAdd => 3 | CShut s => m_shut s | CRet _ _ => 0 end.
  Fixpoint m_calls (l : list cst) : nat := match l with [] => 0 | c :: l => m_call c + m_calls l end.
  Definition measure (s : rs) : nat :=
    m_watch (r_watch s) + m_serve (r_serve s) + m_calls (r_callers s) + (if k_conns (r_core s) then 1 else 0) +
    (match r_result s with None => 1 | Some _ => 0 end).
  Lemma m_calls_upd cs : forall i x y, nth_error cs i = Some x -> (m_calls (upd_nth i (fun _ => y) cs) + m_call x = m_calls cs + m_call y)%nat.
  Proof.
    induction cs as [|c cs IH]; intros [|i] x y H; cbn [nth_error] in H; try discriminate; cbn [upd_nth m_calls].
    - injection H as <-. lia.
    - specialize (IH i x y H). lia.
  Qed.
  Lemma shut_measure k me c s c' o : shut_step k me c s c' o ->
    ((match o with inl s' => m_shut s' | inr _ => 0 end) < m_shut s /\ (k_conns c' = true -> k_conns c = true))%nat.
  Proof. intros H. destruct H; cbn; split; try lia; auto; discriminate. Qed.
  Lemma measure_step s t : istep s t -> (measure t < measure s)%nat.
  Proof.
    intros H. destruct H; unfold measure; cbn [r_watch r_serve r_callers r_core r_result m_watch m_serve k_conns].
    - destruct with_timeout; cbn; lia.
    - cbn; lia.
    - destruct (bump n =? 1); cbn; lia.
    - apply shut_measure in H as [H K]. destruct (k_conns c'), (k_conns c); try lia; discriminate (K eq_refl).
    - apply shut_measure in H as [H K]. destruct (k_conns c'), (k_conns c); try lia; discriminate (K eq_refl).
    - lia.
    - lia.
    - lia.
    - destruct (bump n =? 1); cbn [r_watch r_serve r_callers r_core r_result m_watch m_serve];
        [pose proof (m_calls_upd cs i CAdd (CShut ShLock) H)|pose proof (m_calls_upd cs i CAdd (CRet false None) H)]; cbn in *; lia.
    - apply shut_measure in H0 as [H0 K]. pose proof (m_calls_upd cs i _ (CShut s') H). cbn [m_call] in *.
      destruct (k_conns c'), (k_conns c); try lia; discriminate (K eq_refl).
    - apply shut_measure in H0 as [H0 K]. pose proof (m_calls_upd cs i _ (CRet true r) H). cbn [m_call] in *.
      destruct (k_conns c'), (k_conns c); try lia; discriminate (K eq_refl).
    - lia.
    - rewrite H. lia.
  Qed.
  (** *** invariants *)
  Definition in_flight (s : rs) : Prop := exists i, nth_error (r_callers s) i = Some (CShut ShLock).
  Definition closing (s : rs) : Prop := k_ln (r_core s) = LClosed \/ k_lost (r_core s) = true \/ in_flight s.
  Record inv (s : rs) : Prop := Inv {
    i_mu : k_mu (r_core s) <> None -> k_ln (r_core s) = LClosed;
    i_serve : r_serve s = SServing -> k_ln (r_core s) <> LNone;
    i_ready : r_serve s = SLoad \/ r_serve s = SReady -> k_ln (r_core s) = LNone;
    i_done : forall r, r_watch s = WDone r -> closing s;
    i_count : r_counter s <> 0 -> closing s \/ exists k msg, r_watch s = WShut k msg ShLock;
    i_wait : forall k msg e, r_watch s = WShut k msg (ShWait e) -> k_mu (r_core s) = Some OWatch;
    i_cwait : forall i e, nth_error (r_callers s) i = Some (CShut (ShWait e)) -> k_mu (r_core s) = Some (OCall i);
    i_owner : forall me, k_mu (r_core s) = Some me ->
       match me with OWatch => exists k msg e, r_watch s = WShut k msg (ShWait e)
                   | OCall i => exists e, nth_error (r_callers s) i = Some (CShut (ShWait e)) end
  }.
  Lemma inv_start : inv start.
  Proof.
    split; cbn; try congruence; try tauto.
    intros i e H. destruct i; discriminate.
  Qed.
  Lemma flight_other cs i j (x y : cst) : nth_error cs i = Some x -> x <> CShut ShLock -> nth_error cs j = Some (CShut ShLock) ->
    nth_error (upd_nth i (fun _ => y) cs) j = Some (CShut ShLock).
  Proof. intros H N J. rewrite nth_error_upd_nth. destruct (Nat.eqb_spec j i) as [->|_]; [congruence|exact J]. Qed.
  Lemma bump_one n : bump n <> 1 -> n <> 0.
  Proof. intros H ->. apply H. reflexivity. Qed.
  Ltac simp := cbn [r_core r_watch r_serve r_counter r_callers r_adds k_ln k_mu k_conns k_lost k_parent] in *.
  Lemma inv_istep s t : istep s t -> inv s -> inv t.
  Proof.
    intros H [M Sv Rd D C Wt Cw Ow]. destruct H; simp.
    - (* cancelled *) assert (Ow' : forall me, k_mu c = Some me -> match me with OWatch => False | OCall i => exists e, nth_error cs i = Some (CShut (ShWait e)) end).
      { intros me Hm. specialize (Ow me Hm). destruct me; [|exact Ow]. destruct Ow as (k & m & e & X). discriminate. }
      split; simp; auto.
      + intros r X. destruct with_timeout; discriminate.
      + intros X. destruct (C X) as [Y|(k & m & Y)]; [left; exact Y|discriminate].
      + intros k m e X. destruct with_timeout; discriminate.
      + intros me Hm. specialize (Ow' me Hm). destruct me; [contradiction|exact Ow'].
    - (* signal *) assert (Ow' : forall me, k_mu c = Some me -> match me with OWatch => False | OCall i => exists e, nth_error cs i = Some (CShut (ShWait e)) end).
      { intros me Hm. specialize (Ow me Hm). destruct me; [|exact Ow]. destruct Ow as (k & m & e & X). discriminate. }
      split; simp; auto; try discriminate.
      + intros X. right. eauto.
      + intros me Hm. specialize (Ow' me Hm). destruct me; [contradiction|exact Ow'].
    - (* watcher's add *) assert (Ow' : forall me, k_mu c = Some me -> match me with OWatch => False | OCall i => exists e, nth_error cs i = Some (CShut (ShWait e)) end).
      { intros me Hm. specialize (Ow me Hm). destruct me; [|exact Ow]. destruct Ow as (k & m & e & X). discriminate. }
      destruct (Z.eqb_spec (bump n) 1) as [E|E]; split; simp; auto; try discriminate.
      + intros _. right. eauto.
      + intros me Hm. specialize (Ow' me Hm). destruct me; [contradiction|exact Ow'].
      + intros r _. destruct (C (bump_one n E)) as [X|(k & m & X)]; [exact X|discriminate].
      + intros _. left. destruct (C (bump_one n E)) as [X|(k & m & X)]; [exact X|discriminate].
      + intros me Hm. specialize (Ow' me Hm). destruct me; [contradiction|exact Ow'].
    - (* watcher closes *) inversion H; subst; clear H. split; simp; auto; try discriminate.
      + intros X. specialize (Rd X). congruence.
      + intros _. left. left. reflexivity.
      + intros i e X. apply Cw in X. congruence.
      + intros me X. injection X as <-. eauto.
    - (* watcher ends *) inversion H; subst; clear H; split; simp; auto; try discriminate; try congruence.
      + intros r X. unfold closing, in_flight; simp. destruct (k_ln c) eqn:L; try congruence; auto.
      + intros X. left. unfold closing, in_flight; simp. destruct (k_ln c) eqn:L; try congruence; auto.
      + intros i e X. apply Cw in X. congruence.
      + intros r' _. left. apply M. rewrite (Wt _ _ _ eq_refl). discriminate.
      + intros _. left. left. apply M. rewrite (Wt _ _ _ eq_refl). discriminate.
      + intros i e X. apply Cw in X. rewrite (Wt _ _ _ eq_refl) in X. discriminate.
      + intros r' _. left. apply M. rewrite (Wt _ _ _ eq_refl). discriminate.
      + intros _. left. left. apply M. rewrite (Wt _ _ _ eq_refl). discriminate.
      + intros i e' X. apply Cw in X. rewrite (Wt _ _ _ eq_refl) in X. discriminate.
    - (* load *) split; simp; auto; try discriminate.
    - (* register *) specialize (Rd (or_intror eq_refl)). split; simp; auto; try discriminate; try congruence.
      + intros [X|X]; discriminate.
      + intros r X. specialize (D r X). unfold closing, in_flight in *; simp. destruct D as [Y|[Y|Y]]; auto. congruence.
      + intros X. destruct (C X) as [Y|Y]; [left|right; exact Y]. unfold closing, in_flight in *; simp. destruct Y as [Y|[Y|Y]]; auto. congruence.
      + intros k m e X. apply Wt in X. congruence.
      + intros i e X. apply Cw in X. congruence.
    - (* serve ends *) split; simp; auto; try discriminate. intros [X|X]; discriminate.
    - (* caller's add *)
      assert (Fl : forall y, in_flight (RS c sg f w sv n a cs res) -> in_flight (RS c sg f w sv (bump n) ((OCall i, true) :: a) (upd_nth i (fun _ => y) cs) res)).
      { intros y (j & J). exists j. simp. eapply flight_other; [eassumption|discriminate|exact J]. }
      assert (Cl : forall y b, closing (RS c sg f w sv n a cs res) -> closing (RS c sg f w sv (bump n) ((OCall i, b) :: a) (upd_nth i (fun _ => y) cs) res)).
      { intros y b [X|[X|X]]; [left; exact X|right; left; exact X|right; right]. destruct (Fl y X) as (j & J). exists j. exact J. }
      assert (Cw' : forall y, (forall e, y <> CShut (ShWait e)) -> forall j e, nth_error (upd_nth i (fun _ => y) cs) j = Some (CShut (ShWait e)) -> k_mu c = Some (OCall j)).
      { intros y Ny j e X. rewrite nth_error_upd_nth in X. destruct (j =? i)%nat; [|eapply Cw; eassumption].
        destruct (nth_error cs j); [|discriminate]. injection X as X. exfalso. exact (Ny e X). }
      assert (Ow' : forall y me, k_mu c = Some me ->
         match me with OWatch => exists k msg e, w = WShut k msg (ShWait e)
                   | OCall j => exists e, nth_error (upd_nth i (fun _ => y) cs) j = Some (CShut (ShWait e)) end).
      { intros y me X. specialize (Ow me X). destruct me as [|j]; [exact Ow|]. destruct Ow as (e & J). exists e.
        rewrite nth_error_upd_nth. destruct (Nat.eqb_spec j i) as [->|_]; [congruence|exact J]. }
      assert (Nw : in_flight (RS c sg f w sv (bump n) ((OCall i, true) :: a) (upd_nth i (fun _ => CShut ShLock) cs) res)).
      { exists i. simp. rewrite nth_error_upd_nth, Nat.eqb_refl, H. reflexivity. }
      destruct (Z.eqb_spec (bump n) 1) as [E|E]; split; simp;
        [exact M|exact Sv|exact Rd| | |exact Wt|apply Cw'; discriminate|exact (Ow' _)
        |exact M|exact Sv|exact Rd| | |exact Wt|apply Cw'; discriminate|exact (Ow' _)].
      + intros r X. right. right. exact Nw.
      + intros _. left. right. right. exact Nw.
      + intros r X. apply Cl, (D r X).
      + intros X. destruct (C (bump_one n E)) as [Y|Y]; [left; apply Cl, Y|right; exact Y].
    - (* caller closes *) inversion H0; subst; clear H0. split; simp; auto; try discriminate; try congruence.
      + intros X. specialize (Rd X). congruence.
      + intros r X. left. reflexivity.
      + intros _. left. left. reflexivity.
      + intros k m e X. apply Wt in X. congruence.
      + intros j e X. rewrite nth_error_upd_nth in X. destruct (Nat.eqb_spec j i) as [->|_]; [reflexivity|]. apply Cw in X. congruence.
      + intros me X. injection X as <-. eexists. rewrite nth_error_upd_nth, Nat.eqb_refl, H. reflexivity.
    - (* caller ends *)
      assert (Cu : forall r j e, nth_error (upd_nth i (fun _ => CRet true r) cs) j = Some (CShut (ShWait e)) ->
                   j <> i /\ nth_error cs j = Some (CShut (ShWait e))).
      { intros r0 j e X. rewrite nth_error_upd_nth in X. destruct (Nat.eqb_spec j i) as [->|N]; [destruct (nth_error cs i); discriminate|auto]. }
      inversion H0; subst; clear H0.
      + assert (Cl : closing (RS (Core (k_ln c) None (k_conns c) (match k_ln c with LNone => true | _ => k_lost c end) (k_parent c))
                               sg f w sv n a (upd_nth i (fun _ => CRet true None) cs) res)).
        { unfold closing, in_flight; simp. destruct (k_ln c) eqn:L; try congruence; auto. }
        split; simp; [congruence|exact Sv|exact Rd|intros; exact Cl|intros; left; exact Cl| | |discriminate].
        * intros k m e X. apply Wt in X. congruence.
        * intros j e X. destruct (Cu _ _ _ X) as [_ Y]. apply Cw in Y. congruence.
      + assert (L : k_ln c = LClosed) by (apply M; rewrite (Cw _ _ H); discriminate).
        split; simp; [congruence|exact Sv|exact Rd|intros; left; exact L|intros; left; left; exact L| | |discriminate].
        * intros k m e X. apply Wt in X. rewrite (Cw _ _ H) in X. discriminate.
        * intros j e X. destruct (Cu _ _ _ X) as [Y1 Y]. apply Cw in Y. rewrite (Cw _ _ H) in Y. congruence.
      + assert (L : k_ln c = LClosed) by (apply M; rewrite (Cw _ _ H); discriminate).
        split; simp; [congruence|exact Sv|exact Rd|intros; left; exact L|intros; left; left; exact L| | |discriminate].
        * intros k m e' X. apply Wt in X. rewrite (Cw _ _ H) in X. discriminate.
        * intros j e' X. destruct (Cu _ _ _ X) as [Y1 Y]. apply Cw in Y. rewrite (Cw _ _ H) in Y. congruence.
    - (* return *) split; simp; auto.
    - (* drain *) split; simp; auto.
  Qed.
  Lemma inv_estep s t : estep tls s t -> inv s -> inv t.
  Proof.
    intros H [M Sv Rd D C Wt Cw Ow]. destruct H; simp.
    - split; simp; auto.
    - split; simp; auto.
    - split; simp; auto; try discriminate.
    - split; simp; auto; try discriminate. intros [X|X]; discriminate.
    - split; simp; auto.
    - assert (Ap : forall i x, nth_error cs i = Some x -> nth_error (cs ++ [CAdd]) i = Some x).
      { intros i x X. rewrite nth_error_app1; [exact X|]. apply nth_error_Some. congruence. }
      assert (Cl : closing (RS c sg f w sv n a cs res) -> closing (RS c sg f w sv n a (cs ++ [CAdd]) res)).
      { intros [X|[X|(i & X)]]; [left; exact X|right; left; exact X|right; right]. exists i. apply Ap, X. }
      split; simp; [exact M|exact Sv|exact Rd| | |exact Wt| | ].
      + intros r X. apply Cl, (D r X).
      + intros X. destruct (C X) as [Y|Y]; [left; apply Cl, Y|right; exact Y].
      + intros i e X. destruct (Nat.lt_ge_cases i (length cs)) as [L|L].
        * rewrite nth_error_app1 in X by exact L. eapply Cw; eassumption.
        * rewrite nth_error_app2 in X by exact L. destruct (i - length cs)%nat as [|[|k]]; discriminate.
      + intros me X. specialize (Ow me X). destruct me as [|i]; [exact Ow|]. destruct Ow as (e & Y). exists e. apply Ap, Y.
  Qed.
  Lemma reachable_inv s : reachable s -> inv s.
  Proof.
    intros H. apply (many_inv step inv) with (x := start); [|exact H|exact inv_start].
    intros x y [X|X] I; [eapply inv_istep|eapply inv_estep]; eassumption.
  Qed.

  (** *** what goes on by itself *)
  Lemma go_shut k me c e : (k_conns c = true -> k_ln c = LClosed) ->
    (exists c' r, shut_step k me c (ShWait e) c' (inr r)) \/ k_conns c = true /\ k_ln c <> LOpen.
  Proof.
    intros H. destruct (k_conns c) eqn:K; [right; split; [reflexivity|rewrite H by reflexivity; discriminate]|left].
    eexists _, _. apply SH_idle, K.
  Qed.
  Lemma go_lock k me c : k_mu c = None -> (exists c' s', shut_step k me c ShLock c' (inl s')) \/ (exists c' r, shut_step k me c ShLock c' (inr r)).
  Proof.
    intros H. destruct (k_ln c) eqn:L; [right|left|right].
    - eexists _, _. apply SH_none; congruence.
    - eexists _, _. apply (SH_close k me c None); assumption.
    - eexists _, _. apply SH_none; congruence.
  Qed.
  (** the mutex is free, or something can happen *)
  Lemma go_mu s : inv s -> k_mu (r_core s) = None \/ exists t, istep s t.
  Proof.
    destruct s as [c sg f w sv n a cs res]. intros I. destruct (k_mu c) as [me|] eqn:E; [right|left; exact E].
    pose proof (i_owner _ I me E) as Ow. pose proof (i_mu _ I) as M. simp.
    assert (L : k_ln c = LClosed) by (apply M; congruence). destruct me as [|i].
    - destruct Ow as (k & msg & e & ->). destruct (go_shut k OWatch c e (fun _ => L)) as [(c' & r & X)|[X Y]].
      + eexists. eapply I_watch_end, X.
      + eexists. eapply I_drain; assumption.
    - destruct Ow as (e & X). destruct (go_shut KBackground (OCall i) c e (fun _ => L)) as [(c' & r & Y)|[Y Z]].
      + eexists. eapply I_call_end; eassumption.
      + eexists. eapply I_drain; assumption.
  Qed.
  Lemma go_watch s : inv s -> awake s -> watched s \/ exists t, istep s t.
  Proof.
    intros I A. destruct (go_mu s I) as [M|G]; [|right; exact G].
    destruct s as [c sg f w sv n a cs res]. unfold awake, watched in *. simp. destruct w as [| |k msg [|e]|r].
    - right. destruct A as [A|[A|A]].
      + congruence.
      + eexists. apply I_cancelled, A.
      + cbn [r_signal] in A. destruct sg as [sig|]; [|congruence]. eexists. apply I_signal.
    - right. eexists. apply I_watch_add.
    - right. destruct (go_lock k OWatch c M) as [(c' & s' & X)|(c' & r & X)].
      + eexists. eapply I_watch_shut, X.
      + eexists. eapply I_watch_end, X.
    - pose proof (i_wait _ I _ _ _ eq_refl) as X. simp. congruence.
    - left. eauto.
  Qed.
  Lemma go_serve s : inv s -> watched s -> served s \/ (k_lost (r_core s) = true /\ k_ln (r_core s) = LOpen) \/
     (k_ln (r_core s) = LNone) \/ exists t, istep s t.
  Proof.
    intros I (r & W). destruct (go_mu s I) as [M|G]; [|right; right; right; exact G].
    pose proof (i_done _ I r W) as D. pose proof (i_serve _ I) as Sv. pose proof (i_ready _ I) as Rd. 
    destruct s as [c sg f w sv n a cs res]. unfold served. simp. subst w. destruct sv as [| | |r'].
    - right. right. left. apply Rd. auto.
    - right. right. left. apply Rd. auto.
    - destruct (k_ln c) eqn:L; [exfalso; apply Sv; reflexivity| |].
      + destruct D as [D|[D|(i & D)]]; simp; [congruence|auto|].
        right. right. right. destruct (go_lock KBackground (OCall i) c M) as [(c' & s' & X)|(c' & r' & X)].
        * eexists. eapply I_call_shut; eassumption.
        * eexists. eapply I_call_end; eassumption.
      + right. right. right. eexists. apply I_closed, L.
    - left. eauto.
  Qed.
  Lemma progress s : inv s -> awake s -> listening_done s \/ served s -> returned s \/ exists t, istep s t.
  Proof.
    intros I A L. destruct (go_watch s I A) as [W|G]; [|right; exact G].
    assert (Sv : served s \/ exists t, istep s t).
    { destruct L as [[L1 L2]|L]; [|left; exact L]. destruct (go_serve s I W) as [X|[[X Y]|[X|X]]]; auto; congruence. }
    destruct Sv as [Sv|G]; [|right; exact G].
    destruct s as [c sg f w sv n a cs res]. destruct W as (rw & W), Sv as (rv & Sv). simp. subst.
    destruct res as [r|]; [left; discriminate|right]. eexists. apply I_return.
  Qed.

  (** *** what stays *)
  Lemma awake_step s t : step s t -> awake s -> awake t.
  Proof.
    unfold awake, group_done. intros [H|H] A; destruct H; cbn [r_core r_first r_watch r_signal k_parent] in *; try (left; discriminate); auto;
      try (left; destruct with_timeout; discriminate).
    - destruct (bump n =? 1); left; discriminate.
    - destruct A as [A|[A|A]]; auto. right. left. destruct f; auto.
    - destruct (bump n =? 1); exact A.
    - inversion H0; subst; cbn; exact A.
    - inversion H0; subst; cbn; exact A.
    - right. right. discriminate.
    - destruct A as [A|[A|A]]; auto. right. left. destruct f; [exact A|apply orb_true_r].
    - destruct A as [A|[A|A]]; auto. right. left. destruct f; [exact A|]. rewrite orb_false_r in A. rewrite A. reflexivity.
  Qed.
  Lemma listening_step s t : step s t -> listening_done s -> listening_done t.
  Proof.
    unfold listening_done. intros [H|H] [L1 L2]; destruct H; simp; auto.
    - destruct (bump n =? 1); simp; auto.
    - inversion H; subst; simp. split; [discriminate|assumption].
    - inversion H; subst; simp; auto. destruct (k_ln c); auto; congruence.
    - split; [discriminate|assumption].
    - destruct (bump n =? 1); simp; auto.
    - inversion H0; subst; simp. split; [discriminate|assumption].
    - inversion H0; subst; simp; auto. destruct (k_ln c); auto; congruence.
  Qed.
  Lemma served_step s t r : step s t -> r_serve s = SDone r -> r_serve t = SDone r.
  Proof.
    intros [H|H] E; destruct H; simp; auto; try discriminate; destruct (bump n =? 1); simp; auto.
  Qed.
  Lemma watched_step s t r : step s t -> r_watch s = WDone r -> r_watch t = WDone r.
  Proof.
    intros [H|H] E; destruct H; simp; auto; try discriminate; destruct (bump n =? 1); simp; auto.
  Qed.
  Lemma reachable_step s t : step s t -> reachable s -> reachable t.
  Proof. intros H R. eapply many_step; eassumption. Qed.
  Lemma inevitable (P Q : rs -> Prop) : (forall s t, istep s t -> Q s -> Q t) -> (forall s, Q s -> P s \/ exists t, istep s t) ->
    forall s, Q s -> inevitably P s.
  Proof.
    intros HS HP s. remember (measure s) as m eqn:E. revert s E. induction m as [m IH] using lt_wf_ind. intros s -> HQ.
    destruct (HP s HQ) as [X|X]; [apply now, X|apply later; [exact X|]]. intros t T.
    apply (IH (measure t)); [apply measure_step, T|reflexivity|eapply HS; eassumption].
  Qed.
  Lemma returns s : reachable s -> awake s -> listening_done s \/ served s -> inevitably returned s.
  Proof.
    intros R A L. apply (inevitable returned (fun s => reachable s /\ awake s /\ (listening_done s \/ served s))); [| |auto].
    - intros x y H (R' & A' & L'). assert (St : step x y) by (left; exact H). split; [eapply reachable_step; eassumption|].
      split; [eapply awake_step; eassumption|]. destruct L' as [L'|(r & L')]; [left; eapply listening_step; eassumption|].
      right. exists r. eapply served_step; eassumption.
    - intros x (R' & A' & L'). apply progress; auto. apply reachable_inv, R'.
  Qed.

  (** *** results *)
  Record res_inv (s : rs) : Prop := ResInv {
    v_none : r_first s = None -> (forall r, r_watch s = WDone r -> r = None) /\ (forall r, r_serve s = SDone r -> r = None);
    v_some : forall e, r_first s = Some e -> r_watch s = WDone (Some e) \/ r_serve s = SDone (Some e);
    v_res : forall r, r_result s = Some r -> r = r_first s /\ watched s /\ served s
  }.
  Lemma first_step s t e : step s t -> r_first s = Some e -> r_first t = Some e.
  Proof.
    intros [H|H] E; destruct H; cbn [r_first] in *; subst; cbn [keep_first]; auto; destruct (bump n =? 1); auto.
  Qed.
  Lemma res_inv_step s t : step s t -> res_inv s -> res_inv t.
  Proof.
    intros St [N So Re]. unfold watched, served in *.
    assert (W : forall r, r_watch s = WDone r -> r_watch t = WDone r) by (intros; eapply watched_step; eassumption).
    assert (V : forall r, r_serve s = SDone r -> r_serve t = SDone r) by (intros; eapply served_step; eassumption).
    assert (So' : forall e, r_first s = Some e -> r_watch t = WDone (Some e) \/ r_serve t = SDone (Some e))
      by (intros e E; destruct (So e E); auto).
    assert (Re' : forall r, r_result s = Some r -> r = r_first s /\ watched t /\ served t).
    { intros r E. destruct (Re r E) as (E1 & (rw & E2) & (rv & E3)). split; [exact E1|]. split; [exists rw|exists rv]; auto. }
    assert (Dn : (exists r, r_result s = Some r) -> (exists rw, r_watch s = WDone rw) /\ exists rv, r_serve s = SDone rv).
    { intros (r & E). destruct (Re r E) as (_ & X & Y). auto. }
    destruct St as [H|H]; destruct H; cbn [r_first r_watch r_serve r_result] in *.
    - split; cbn [r_first r_watch r_serve r_result]; auto.
      intros E. destruct (N E) as [_ N2]. split; [|exact N2]. destruct with_timeout; discriminate.
    - split; cbn [r_first r_watch r_serve r_result]; auto. intros E. destruct (N E) as [_ N2]. split; [discriminate|exact N2].
    - assert (res = None) as -> by (destruct res as [r|]; [|reflexivity]; destruct (Dn (ex_intro _ r eq_refl)) as [(rw & X) _]; discriminate).
      destruct (bump n =? 1); split; cbn [r_first r_watch r_serve r_result]; auto; try discriminate.
      + intros E. destruct (N E) as [_ N2]. split; [discriminate|exact N2].
      + intros E. unfold keep_first in E. destruct f; [discriminate|]. destruct (N eq_refl) as [_ N2]. split; [intros r X; congruence|exact N2].
      + intros e E. unfold keep_first in E. destruct f; [|discriminate]. apply So', E.
    - split; cbn [r_first r_watch r_serve r_result]; auto. intros E. destruct (N E) as [_ N2]. split; [discriminate|exact N2].
    - assert (res = None) as -> by (destruct res as [r'|]; [|reflexivity]; destruct (Dn (ex_intro _ r' eq_refl)) as [(rw & X) _]; discriminate).
      split; cbn [r_first r_watch r_serve r_result]; auto; try discriminate.
      + intros E. unfold keep_first in E. destruct f; [discriminate|]. destruct (N eq_refl) as [_ N2]. split; [intros r' X; congruence|exact N2].
      + intros e E. unfold keep_first in E. destruct f; [apply So', E|]. left. congruence.
    - split; cbn [r_first r_watch r_serve r_result]; auto. intros E. destruct (N E) as [N1 _]. split; [exact N1|discriminate].
    - split; cbn [r_first r_watch r_serve r_result]; auto. intros E. destruct (N E) as [N1 _]. split; [exact N1|discriminate].
    - assert (res = None) as -> by (destruct res as [r'|]; [|reflexivity]; destruct (Dn (ex_intro _ r' eq_refl)) as [_ (rw & X)]; discriminate).
      split; cbn [r_first r_watch r_serve r_result]; auto; try discriminate.
      + intros E. unfold keep_first in E. destruct f; [discriminate|]. destruct (N eq_refl) as [N1 _]. split; [exact N1|intros r' X; congruence].
      + intros e E. unfold keep_first in E. destruct f; [apply So', E|discriminate].
    - destruct (bump n =? 1); split; cbn [r_first r_watch r_serve r_result] in *; auto.
    - split; cbn [r_first r_watch r_serve r_result]; auto.
    - split; cbn [r_first r_watch r_serve r_result]; auto.
    - split; cbn [r_first r_watch r_serve r_result]; auto. intros r E. injection E as <-. unfold watched, served; simp; eauto.
    - split; cbn [r_first r_watch r_serve r_result]; auto.
    - split; cbn [r_first r_watch r_serve r_result]; auto.
    - split; cbn [r_first r_watch r_serve r_result]; auto.
    - assert (res = None) as -> by (destruct res as [r'|]; [|reflexivity]; destruct (Dn (ex_intro _ r' eq_refl)) as [_ (rw & X)]; discriminate).
      split; cbn [r_first r_watch r_serve r_result]; auto; try discriminate.
      + intros E. unfold keep_first in E. destruct f; discriminate.
      + intros e' E. unfold keep_first in E. destruct f; [apply So', E|]. right. congruence.
    - assert (res = None) as -> by (destruct res as [r'|]; [|reflexivity]; destruct (Dn (ex_intro _ r' eq_refl)) as [_ (rw & X)]; discriminate).
      split; cbn [r_first r_watch r_serve r_result]; auto; try discriminate.
      + intros E. unfold keep_first in E. destruct f; [discriminate|]. destruct (N eq_refl) as [N1 _]. split; [exact N1|intros r' X; congruence].
      + intros e' E. unfold keep_first in E. destruct f; [apply So', E|]. right. congruence.
    - split; cbn [r_first r_watch r_serve r_result]; auto.
    - split; cbn [r_first r_watch r_serve r_result]; auto.
  Qed.
  Lemma reachable_res s : reachable s -> res_inv s.
  Proof.
    intros H. apply (many_inv step res_inv) with (x := start); [exact res_inv_step|exact H|]. split; cbn; try discriminate.
    intros _. split; discriminate.
  Qed.

  (** *** the counter *)
  Record adds_inv (s : rs) : Prop := AddsInv {
    a_count : r_counter s = wrap64 (Z.of_nat (length (r_adds s)));
    a_log : forall l1 o b l2, r_adds s = l1 ++ (o, b) :: l2 -> b = (wrap64 (Z.of_nat (length l2) + 1) =? 1);
    a_nodup : NoDup (map fst (r_adds s));
    a_watch : r_watch s = WSelect \/ r_watch s = WAdd -> ~ In OWatch (map fst (r_adds s));
    a_call : forall i x, nth_error (r_callers s) i = Some x ->
       match x with CAdd => ~ In (OCall i) (map fst (r_adds s)) | CShut _ => In (OCall i, true) (r_adds s)
                  | CRet b r => In (OCall i, b) (r_adds s) /\ (b = false -> r = None) end;
    a_known : forall i b, In (OCall i, b) (r_adds s) -> exists x, nth_error (r_callers s) i = Some x /\
       match x with CAdd => False | CShut _ => b = true | CRet b' _ => b = b' end
  }.
  Lemma bump_wrap z : bump (wrap64 z) = wrap64 (z + 1).
  Proof.
    unfold bump, wrap64. f_equal. replace ((z + two63) mod two64 - two63 + 1 + two63) with ((z + two63) mod two64 + 1) by lia.
    rewrite Z.add_mod_idemp_l by (unfold two64; lia). f_equal. lia.
  Qed.
  (* the log does not change *)
  Lemma adds_same s t : adds_inv s -> r_counter t = r_counter s -> r_adds t = r_adds s ->
    (r_watch t = WSelect \/ r_watch t = WAdd -> r_watch s = WSelect \/ r_watch s = WAdd) ->
    (forall i x, nth_error (r_callers t) i = Some x -> nth_error (r_callers s) i = Some x \/ x = CAdd /\ nth_error (r_callers s) i = None \/
       exists sh, nth_error (r_callers s) i = Some (CShut sh) /\ ((exists sh', x = CShut sh') \/ exists r, x = CRet true r)) ->
    (length (r_callers s) <= length (r_callers t))%nat ->
    adds_inv t.
  Proof.
    intros [I1 I2 I3 I4 I5 I6] E1 E2 W C L.
    assert (Nk : forall i, nth_error (r_callers s) i = None -> ~ In (OCall i) (map fst (r_adds s))).
    { intros i X Y. apply in_map_iff in Y as ([o b] & Y1 & Y2). cbn in Y1. subst o. destruct (I6 _ _ Y2) as (x & Z & _). congruence. }
    split; rewrite ?E1, ?E2; auto.
    - intros i x X. destruct (C i x X) as [Y|[[-> Y]|(sh & Y & [(sh' & ->)|(r & ->)])]].
      + exact (I5 i x Y).
      + apply Nk, Y.
      + exact (I5 i _ Y).
      + split; [exact (I5 i _ Y)|discriminate].
    - intros i b X. destruct (I6 i b X) as (x & Y & Z).
      assert (Lt : (i < length (r_callers s))%nat) by (apply nth_error_Some; congruence).
      destruct (nth_error (r_callers t) i) as [y|] eqn:T; [|apply nth_error_None in T; lia].
      exists y. split; [reflexivity|]. destruct (C i y T) as [Q|[[-> Q]|(sh & Q & [(sh' & ->)|(r & ->)])]].
      + assert (x = y) by congruence. subst. exact Z.
      + congruence.
      + assert (x = CShut sh) by congruence. subst. exact Z.
      + assert (x = CShut sh) by congruence. subst. exact Z.
  Qed.
  Lemma log_push (o : owner) (b : bool) l : b = (wrap64 (Z.of_nat (length l) + 1) =? 1) ->
    (forall l1 o b l2, l = l1 ++ (o, b) :: l2 -> b = (wrap64 (Z.of_nat (length l2) + 1) =? 1)) ->
    forall l1 o' b' l2, (o, b) :: l = l1 ++ (o', b') :: l2 -> b' = (wrap64 (Z.of_nat (length l2) + 1) =? 1).
  Proof.
    intros Hb IH l1 o' b' l2 E. destruct l1 as [|x l1]; cbn in E.
    - injection E as <- <- <-. exact Hb.
    - injection E as _ E. eapply IH, E.
  Qed.
  (* the watcher adds *)
  Lemma adds_watch c sg f sv n a cs res f' w' b : adds_inv (RS c sg f WAdd sv n a cs res) -> b = (bump n =? 1) -> w' <> WSelect -> w' <> WAdd ->
    adds_inv (RS c sg f' w' sv (bump n) ((OWatch, b) :: a) cs res).
  Proof.
    intros [I1 I2 I3 I4 I5 I6] -> N1 N2. simp. split; simp.
    - rewrite I1, bump_wrap. cbn [length]. f_equal. lia.
    - apply log_push; [|exact I2]. rewrite I1, bump_wrap. reflexivity.
    - cbn [map fst]. constructor; [apply I4; auto|exact I3].
    - intros [X|X]; congruence.
    - intros i x X. specialize (I5 i x X). destruct x as [|sh|b r]; cbn [map fst In].
      + intros [Y|Y]; [discriminate|exact (I5 Y)].
      + right. exact I5.
      + destruct I5 as [Y Z]. split; [right; exact Y|exact Z].
    - intros i b [X|X]; [discriminate|exact (I6 i b X)].
  Qed.
  Lemma adds_call c sg f w sv n a cs res i b y : adds_inv (RS c sg f w sv n a cs res) -> nth_error cs i = Some CAdd -> b = (bump n =? 1) ->
    y = (if b then CShut ShLock else CRet false None) ->
    adds_inv (RS c sg f w sv (bump n) ((OCall i, b) :: a) (upd_nth i (fun _ => y) cs) res).
  Proof.
    intros [I1 I2 I3 I4 I5 I6] Hi -> Ey. simp. set (b := bump n =? 1) in *. split; simp.
    - rewrite I1, bump_wrap. cbn [length]. f_equal. lia.
    - apply log_push; [|exact I2]. subst b. rewrite I1, bump_wrap. reflexivity.
    - cbn [map fst]. constructor; [apply (I5 i _ Hi)|exact I3].
    - intros X. cbn [map fst In]. intros [Y|Y]; [discriminate|exact (I4 X Y)].
    - intros j x X. rewrite nth_error_upd_nth in X. destruct (Nat.eqb_spec j i) as [->|Nji].
      + rewrite Hi in X. cbn in X. injection X as <-. subst y. destruct b; cbn; auto.
      + specialize (I5 j x X). destruct x as [|sh|b' r]; cbn [map fst In].
        * intros [Y|Y]; [congruence|exact (I5 Y)].
        * right. exact I5.
        * destruct I5 as [Y Z]. split; [right; exact Y|exact Z].
    - intros j b' [X|X].
      + injection X as <- <-. exists y. rewrite nth_error_upd_nth, Nat.eqb_refl, Hi. split; [reflexivity|]. subst y. destruct b; reflexivity.
      + destruct (I6 j b' X) as (x & Y & Z). rewrite nth_error_upd_nth. destruct (Nat.eqb_spec j i) as [->|_]; [|eauto].
        rewrite Hi in Y. injection Y as <-. contradiction.
  Qed.
  Lemma adds_inv_step s t : step s t -> adds_inv s -> adds_inv t.
  Proof.
    intros St I. destruct St as [H|H]; destruct H;
      try (apply (adds_same _ _ I); simp; [reflexivity|reflexivity|intros [X|X]; auto; discriminate|auto|lia]).
    - destruct (bump n =? 1) eqn:E; (eapply adds_watch; [exact I|symmetry; exact E|discriminate|discriminate]).
    - destruct (bump n =? 1) eqn:E; (eapply adds_call; [exact I|eassumption|symmetry; exact E|reflexivity]).
    - apply (adds_same _ _ I); simp; [reflexivity|reflexivity|auto| |rewrite upd_nth_length; lia].
      intros j x X. rewrite nth_error_upd_nth in X. destruct (Nat.eqb_spec j i) as [->|_]; [|auto]. rewrite H in *. injection X as <-. eauto 8.
    - apply (adds_same _ _ I); simp; [reflexivity|reflexivity|auto| |rewrite upd_nth_length; lia].
      intros j x X. rewrite nth_error_upd_nth in X. destruct (Nat.eqb_spec j i) as [->|_]; [|auto]. rewrite H in *. injection X as <-. eauto 8.
    - apply (adds_same _ _ I); simp; [reflexivity|reflexivity|auto| |rewrite app_length; lia].
      intros j x X. destruct (Nat.lt_ge_cases j (length cs)) as [L|L].
      + rewrite nth_error_app1 in X by exact L. auto.
      + rewrite nth_error_app2 in X by exact L. right. left. split; [|apply nth_error_None, L]. destruct (j - length cs)%nat as [|[|k]]; cbn in X; congruence.
  Qed.
  Lemma reachable_adds s : reachable s -> adds_inv s.
  Proof.
    intros H. apply (many_inv step adds_inv) with (x := start); [exact adds_inv_step|exact H|].
    split; cbn; try reflexivity; try tauto.
    - intros l1 o b l2 E. destruct l1; discriminate.
    - constructor.
    - intros [|i] x E; discriminate.
  Qed.
  (** the log is no longer than the calls *)
  Lemma adds_short s : adds_inv s -> (length (r_adds s) <= length (r_callers s) + 1)%nat.
  Proof.
    intros [I1 I2 I3 I4 I5 I6]. rewrite <- (map_length fst).
    transitivity (length (OWatch :: map OCall (seq 0 (length (r_callers s))))).
    - apply NoDup_incl_length; [exact I3|]. intros o Ho. apply in_map_iff in Ho as ([o' b] & X & Y). cbn in X. subst o'.
      destruct o as [|i]; [left; reflexivity|right]. apply in_map, in_seq. destruct (I6 i b Y) as (x & Z & _).
      split; [lia|]. apply nth_error_Some. congruence.
    - cbn [length]. rewrite map_length, seq_length. lia.
  Qed.
  Definition few_calls (s : rs) : Prop := Z.of_nat (length (r_callers s)) < two64 - 1.
  Lemma wrap_one z : 0 <= z < two64 -> (wrap64 (z + 1) =? 1) = (z =? 0).
  Proof.
    intros H. apply eq_true_iff_eq. rewrite !Z.eqb_eq. unfold wrap64, two63, two64 in *. split; intros E.
    - destruct (Z.lt_ge_cases z (2^63 - 1)).
      + rewrite Z.mod_small in E by lia. lia.
      + exfalso. assert (X : (z + 1 + 2^63) mod 2^64 = z + 1 + 2^63 - 2^64); [|lia].
        symmetry. apply (Z.mod_unique_pos _ _ 1); lia.
    - subst z. reflexivity.
  Qed.
  Lemma log_first s o b l1 l2 : reachable s -> few_calls s -> r_adds s = l1 ++ (o, b) :: l2 -> b = true <-> l2 = [].
  Proof.
    intros R F E. pose proof (reachable_adds s R) as I. pose proof (adds_short s I) as Sh. rewrite (a_log s I _ _ _ _ E).
    rewrite wrap_one; [|rewrite E, app_length in Sh; cbn [length] in Sh; unfold few_calls, two64 in *; lia].
    rewrite Z.eqb_eq. destruct l2; cbn [length]; split; intros X; try reflexivity; discriminate.
  Qed.
  Lemma log_true s o o' : reachable s -> few_calls s -> In (o, true) (r_adds s) -> In (o', true) (r_adds s) -> o = o'.
  Proof.
    intros R F H H'. apply in_split in H as (l1 & l2 & E). apply in_split in H' as (l1' & l2' & E').
    pose proof (proj1 (log_first s _ _ _ _ R F E) eq_refl). pose proof (proj1 (log_first s _ _ _ _ R F E') eq_refl). subst.
    rewrite E in E'. apply app_inj_tail in E' as [_ E']. congruence.
  Qed.
End Run.

(** ** C71 *)
(** Of all the calls of Shutdown, other goroutines' and Run's own, at most one reaches the
    underlying server; as soon as any has got anywhere one has; every other returned nil at once. *)
Theorem C71_one_shutdown : forall with_timeout tls s, reachable with_timeout tls s ->
  Z.of_nat (length (r_callers s)) < 2^64 - 1 ->
  (forall i j, reached s i -> reached s j -> i = j) /\
  (forall i, reached s i -> ~ run_reached s) /\
  (forall i x, nth_error (r_callers s) i = Some x -> x <> CAdd -> run_reached s \/ exists j, reached s j) /\
  (forall i x, nth_error (r_callers s) i = Some x -> x = CAdd \/ reached s i \/ x = CRet false None).
Proof.
  intros wt tls s R F. pose proof (reachable_adds _ _ s R) as I.
  assert (Rc : forall i, reached s i -> In (OCall i, true) (r_adds s)).
  { intros i (x & X & [(sh & ->)|(r & ->)]); [exact (a_call s I _ _ X)|exact (proj1 (a_call s I _ _ X))]. }
  split; [|split; [|split]].
  - intros i j Hi Hj. apply Rc in Hi, Hj. pose proof (log_true _ _ s _ _ R F Hi Hj). congruence.
  - intros i Hi X. apply Rc in Hi. pose proof (log_true _ _ s _ _ R F Hi X). discriminate.
  - intros i x X N. assert (Ne : r_adds s <> []).
    { pose proof (a_call s I _ _ X) as Y. destruct x as [|sh|b r]; [congruence|intros E; rewrite E in Y; exact Y|intros E; rewrite E in Y; exact (proj1 Y)]. }
    destruct (exists_last Ne) as (l & [o b] & E). assert (b = true) as -> by (apply (log_first _ _ s o b l [] R F E); reflexivity).
    assert (In (o, true) (r_adds s)) as Y by (rewrite E; apply in_or_app; right; left; reflexivity).
    destruct o as [|j]; [left; exact Y|right]. exists j. destruct (a_known s I j true Y) as (y & Y1 & Y2). exists y. split; [exact Y1|].
    destruct y as [|sh|b r]; [contradiction|left; eauto|right; subst b; eauto].
  - intros i x X. pose proof (a_call s I _ _ X) as Y. destruct x as [|sh|[|] r].
    + left. reflexivity.
    + right. left. exists (CShut sh). split; [exact X|left; eauto].
    + right. left. exists (CRet true r). split; [exact X|right; eauto].
    + right. right. f_equal. apply Y. reflexivity.
Qed.
(** who has reached the server or was refused stays so *)
Theorem C71_stable : forall with_timeout tls s t i, step with_timeout tls s t ->
  (reached s i -> reached t i) /\ (refused s i -> refused t i).
Proof.
  intros wt tls s t i H. unfold reached, refused. destruct s as [c sg f w sv n a cs res].
  assert (K : forall j y, nth_error cs j = Some CAdd \/ (exists sh, nth_error cs j = Some (CShut sh)) /\ ((exists sh, y = CShut sh) \/ exists r, y = CRet true r) ->
     ((exists x, nth_error cs i = Some x /\ ((exists sh, x = CShut sh) \/ exists r, x = CRet true r)) ->
      exists x, nth_error (upd_nth j (fun _ => y) cs) i = Some x /\ ((exists sh, x = CShut sh) \/ exists r, x = CRet true r)) /\
     ((exists r, nth_error cs i = Some (CRet false r)) -> exists r, nth_error (upd_nth j (fun _ => y) cs) i = Some (CRet false r))).
  { intros j y D. rewrite nth_error_upd_nth. destruct (Nat.eqb_spec i j) as [->|_]; [|auto]. split.
    - intros (x & X & Y). rewrite X in *. cbn [option_map]. exists y. split; [reflexivity|].
      destruct D as [D|[_ D]]; [|exact D]. injection D as ->. destruct Y as [(sh & Y)|(r & Y)]; discriminate.
    - intros (r & X). rewrite X in D. destruct D as [D|[(sh & D) _]]; discriminate. }
  destruct H as [H|H]; inversion H; subst; cbn [r_callers]; auto.
  - destruct (bump n =? 1); auto.
  - destruct (bump n =? 1); cbn [r_callers]; apply K; left; assumption.
  - apply K. right. eauto.
  - apply K. right. eauto.
  - assert (A : forall x, nth_error cs i = Some x -> nth_error (cs ++ [CAdd]) i = Some x).
    { intros x X. rewrite nth_error_app1; [exact X|]. apply nth_error_Some. congruence. }
    split; [intros (x & X & Y)|intros (x & X)]; exists x; auto.
Qed.

(** ** C72 *)
(** Run returns only when both goroutines have ended; its result is nil exactly when both
    ended with nil, and otherwise the error of one of them *)
Theorem C72_result : forall with_timeout tls s r, reachable with_timeout tls s -> r_result s = Some r ->
  exists rw rv, r_watch s = WDone rw /\ r_serve s = SDone rv /\
    (r = None <-> rw = None /\ rv = None) /\ (forall e, r = Some e -> rw = Some e \/ rv = Some e).
Proof.
  intros wt tls s r R E. pose proof (reachable_res _ _ s R) as [N So Re]. destruct (Re r E) as (E1 & (rw & E2) & (rv & E3)).
  exists rw, rv. split; [exact E2|]. split; [exact E3|]. split; [split|].
  - intros ->. destruct (N (eq_sym E1)) as [N1 N2]. split; auto.
  - intros [-> ->]. destruct r as [e|]; [|reflexivity]. destruct (So e (eq_sym E1)); congruence.
  - intros e ->. destruct (So e (eq_sym E1)); [left|right]; congruence.
Qed.
(** it is the first: once one of the two has ended with an error and the other has not ended,
    Run returns that error *)
Theorem C72_first_error : forall with_timeout tls s t e r, reachable with_timeout tls s ->
  r_watch s = WDone (Some e) /\ ~ served s \/ r_serve s = SDone (Some e) /\ ~ watched s ->
  many (step with_timeout tls) s t -> r_result t = Some r -> r = Some e.
Proof.
  intros wt tls s t e r R H M E. assert (F : r_first s = Some e).
  { pose proof (reachable_res _ _ s R) as [N So Re]. destruct (r_first s) as [e'|] eqn:F.
    - destruct (So e' eq_refl) as [X|X], H as [[Y Z]|[Y Z]]; try congruence; exfalso; apply Z; eexists; eassumption.
    - destruct (N eq_refl) as [N1 N2]. destruct H as [[Y _]|[Y _]]; [apply N1 in Y|apply N2 in Y]; discriminate. }
  assert (Ft : r_first t = Some e) by (apply (many_inv (step wt tls) (fun s => r_first s = Some e)) with (x := s); [intros; eapply first_step; eassumption|exact M|exact F]).
  pose proof (reachable_res _ _ t (many_trans _ _ _ _ R M)) as [_ _ Re]. destruct (Re r E) as [-> _]. exact Ft.
Qed.
Lemma inevitably_weaken wt tls (P Q : rs -> Prop) s : reachable wt tls s -> (forall t, many (step wt tls) s t -> P t -> Q t) -> inevitably wt P s -> inevitably wt Q s.
Proof.
  intros R H I. revert R H. induction I as [s X|s E _ IH]; intros R H.
  - apply now, H; [constructor|exact X].
  - apply later; [exact E|]. intros t T. apply IH; [exact T|eapply many_step; [exact R|left; exact T]|].
    intros u Hu. apply H. eapply many_trans; [|exact Hu]. eapply many_step; [constructor|left; exact T].
Qed.
(** a failing listener, or a certificate that cannot be loaded, makes Run return that error,
    whatever the other goroutines do *)
Theorem C72_serve_failure : forall with_timeout tls s e, reachable with_timeout tls s ->
  r_serve s = SDone (Some e) -> ~ watched s -> inevitably with_timeout (fun t => r_result t = Some (Some e)) s.
Proof.
  intros wt tls s e R V W. apply (inevitably_weaken wt tls returned); [exact R| |].
  - intros t M X. unfold returned in X. destruct (r_result t) as [r|] eqn:E; [|congruence].
    f_equal. eapply C72_first_error; [exact R| |exact M|exact E]. right. auto.
  - apply (returns wt tls); [exact R| |right; exists (Some e); exact V].
    pose proof (reachable_res _ _ s R) as [N So _]. right. left. unfold group_done. destruct (r_first s) as [e'|] eqn:F; [apply orb_true_r|].
    apply (proj2 (N eq_refl)) in V. discriminate.
Qed.
(** Cancellation of the context, or a signal, makes Run return.  This fails when the watcher
    is faster than the serving goroutine: its shutdown finds no listener, does nothing, and
    nobody shuts down what is served afterwards. *)
Definition C72_claim (with_timeout tls : bool) : Prop := forall s, reachable with_timeout tls s ->
  cancelled s -> inevitably with_timeout returned s.
Definition early_cancel (wt : bool) : rs :=
  RS (Core LOpen None false true true) None None (WDone None) SServing (if wt then 0 else 1) (if wt then [] else [(OWatch, true)]) [] None.
Lemma early_cancel_reachable wt tls : reachable wt tls (early_cancel wt).
Proof.
  unfold reachable. destruct wt; unfold early_cancel.
  - eapply many_step; [|left; apply (I_register _ (Core LNone None false true true)); reflexivity].
    eapply many_step; [|left; apply I_load].
    eapply many_step; [|left; apply (I_watch_end true (Core LNone None false false true) None None KTimeout (B"context canceled") ShLock SLoad 0 [] [] None _ None); apply SH_none; [reflexivity|discriminate]].
    eapply many_step; [|left; apply (I_cancelled true); reflexivity].
    eapply many_step; [|right; apply (E_cancel tls (Core LNone None false false false))]. constructor.
  - eapply many_step; [|left; apply (I_register _ (Core LNone None false true true)); reflexivity].
    eapply many_step; [|left; apply I_load].
    eapply many_step; [|left; apply (I_watch_end false (Core LNone None false false true) None None KBackground (B"context canceled") ShLock SLoad 1 [(OWatch, true)] [] None _ None); apply SH_none; [reflexivity|discriminate]].
    eapply many_step; [|left; apply (I_watch_add false (Core LNone None false false true) None None SLoad 0 [] [] None)].
    eapply many_step; [|left; apply (I_cancelled false); reflexivity].
    eapply many_step; [|right; apply (E_cancel tls (Core LNone None false false false))]. constructor.
Qed.
Lemma early_cancel_stuck wt : stuck wt (early_cancel wt).
Proof.
  intros t H. inversion H; subst; try discriminate.
  - destruct i; discriminate.
  - destruct i; discriminate.
  - destruct i; discriminate.
Qed.
Lemma stuck_not wt (P : rs -> Prop) s : stuck wt s -> ~ P s -> ~ inevitably wt P s.
Proof. intros St N I. destruct I as [s X|s (t & X) _]; [exact (N X)|exact (St t X)]. Qed.
Theorem C72_cancel_refuted : forall with_timeout tls, ~ C72_claim with_timeout tls.
Proof.
  intros wt tls H. apply (stuck_not wt returned (early_cancel wt)); [apply early_cancel_stuck|intros X; apply X; reflexivity|].
  apply H; [apply early_cancel_reachable|reflexivity].
Qed.
(** It holds when the underlying server knows the listener and no shutdown came before that
    (or the serving goroutine has ended already), in whatever order the rest happens.  Missing:
    the race just shown. *)
Theorem C72_returns_partial : forall with_timeout tls s, reachable with_timeout tls s ->
  cancelled s \/ r_signal s <> None -> listening_done s \/ served s -> inevitably with_timeout returned s.
Proof.
  intros wt tls s R A L. apply (returns wt tls); [exact R| |exact L].
  destruct A as [A|A]; [|right; right; exact A]. right. left. unfold group_done. unfold cancelled in A. rewrite A. reflexivity.
Qed.
(** the result does not change any more *)
Theorem C72_stays_returned : forall with_timeout tls s t r, many (step with_timeout tls) s t ->
  r_result s = Some r -> r_result t = Some r.
Proof.
  intros wt tls s t r M. apply (many_inv (step wt tls) (fun s => r_result s = Some r)); [|exact M].
  intros x y [H|H] E; destruct H; cbn [r_result] in *; auto; try discriminate; destruct (bump n =? 1); auto.
Qed.

(** ** C73 *)
(** After a call of Shutdown has reached the underlying server and completed, Run returns. *)
Definition C73_claim (with_timeout tls : bool) : Prop := forall s i r, reachable with_timeout tls s ->
  nth_error (r_callers s) i = Some (CRet true r) -> inevitably with_timeout returned s.
Definition after_shutdown : rs :=
  RS (Core LClosed None false false false) None None WSelect (SDone None) 1 [(OCall 0, true)] [CRet true None] None.
Lemma after_shutdown_reachable wt tls : reachable wt tls after_shutdown.
Proof.
  unfold reachable, after_shutdown.
  eapply many_step; [|left; apply (I_closed wt (Core LClosed None false false false) None None); reflexivity].
  eapply many_step; [|left; apply (I_call_end wt (Core LClosed (Some (OCall 0)) false false false) None None WSelect SServing 1 [(OCall 0, true)] [CShut (ShWait None)] None 0 (ShWait None) _ None); [reflexivity|apply SH_idle; reflexivity]].
  eapply many_step; [|left; apply (I_call_shut wt (Core LOpen None false false false) None None WSelect SServing 1 [(OCall 0, true)] [CShut ShLock] None 0 ShLock _ (ShWait None)); [reflexivity|apply SH_close; reflexivity]].
  eapply many_step; [|left; apply (I_call_add wt (Core LOpen None false false false) None None WSelect SServing 0 [] [CAdd] None 0); reflexivity].
  eapply many_step; [|right; apply (E_call tls (Core LOpen None false false false) None None WSelect SServing 0 [] [] None)].
  eapply many_step; [|left; apply (I_register wt (Core LNone None false false false)); reflexivity].
  eapply many_step; [|left; apply I_load]. constructor.
Qed.
Theorem C73_refuted : forall with_timeout tls, ~ C73_claim with_timeout tls.
Proof.
  intros wt tls H. apply (stuck_not wt returned after_shutdown); [|intros X; apply X; reflexivity|].
  - intros t X. inversion X; subst; try discriminate.
    + destruct i as [|[|i]]; discriminate.
    + destruct i as [|[|i]]; discriminate.
    + destruct i as [|[|i]]; discriminate.
  - apply (H after_shutdown 0%nat None); [apply after_shutdown_reachable|reflexivity].
Qed.
(** It is not a matter of schedule: as long as the context is not cancelled, no signal comes and
    the serving goroutine does not fail, Run does not return, whatever the callers of Shutdown do. *)
Theorem C73_waits : forall with_timeout tls s t, reachable with_timeout tls s -> ~ awake s ->
  many (istep with_timeout) s t -> ~ awake t /\ ~ returned t.
Proof.
  intros wt tls s t R A M.
  assert (At : ~ awake t).
  { apply (many_inv (istep wt) (fun s => ~ awake s)) with (x := s); [|exact M|exact A].
    clear. unfold awake, group_done. intros s t H A B. apply A. clear A.
    destruct H; cbn [r_core r_first r_watch r_signal k_parent] in *; auto; try (left; discriminate).
    - right. right. discriminate.
    - destruct B as [X|[X|X]]; auto. right. left. destruct f; auto.
    - destruct (bump n =? 1); exact B.
    - inversion H0; subst; cbn in B; exact B.
    - inversion H0; subst; cbn in B; exact B. }
  split; [exact At|]. intros X. unfold returned in X. destruct (r_result t) as [r|] eqn:E; [|congruence].
  destruct (C72_result wt tls t r) as (rw & rv & W & _); [eapply many_trans; [exact R|]; eapply many_impl; [|exact M]; intros; left; assumption|exact E|].
  apply At. left. congruence.
Qed.
Lemma closed_stays wt tls s t : step wt tls s t -> inv s -> k_ln (r_core s) = LClosed \/ k_lost (r_core s) = true ->
  k_ln (r_core t) = LClosed \/ k_lost (r_core t) = true.
Proof.
  intros St I H. pose proof (i_ready s I) as Rd.
  destruct St as [St|St]; destruct St; cbn [r_core r_serve k_ln k_lost] in *; auto.
  - destruct (bump n =? 1); exact H.
  - inversion H0; subst; cbn; auto.
  - inversion H0; subst; cbn; auto. destruct (k_ln c); destruct H; auto; congruence.
  - specialize (Rd (or_intror eq_refl)). destruct H as [H|H]; [congruence|auto].
  - destruct (bump n =? 1); exact H.
  - inversion H1; subst; cbn; auto.
  - inversion H1; subst; cbn; auto. destruct (k_ln c); destruct H; auto; congruence.
Qed.
Lemma ret_closed wt tls s : reachable wt tls s -> forall i r, nth_error (r_callers s) i = Some (CRet true r) ->
  k_ln (r_core s) = LClosed \/ k_lost (r_core s) = true.
Proof.
  unfold reachable. remember start as s0 eqn:E0. intros R. induction R as [|s0 s t R IH St].
  - subst. intros [|i] r H; discriminate.
  - subst. specialize (IH eq_refl). pose proof (reachable_inv wt tls s R) as I. pose proof (closed_stays wt tls s t St I) as K.
    intros i r H. destruct (nth_error (r_callers s) i) as [x|] eqn:E.
    + assert (D : (exists r', x = CRet true r') \/ forall r', x <> CRet true r') by (destruct x as [| |[|] r']; [right; discriminate|right; discriminate|left; eauto|right; discriminate]).
      destruct D as [(r' & ->)|D]; [exact (K (IH _ _ E))|]. clear K.
      destruct St as [St|St]; destruct St; cbn [r_core r_callers k_ln k_lost] in *; try (exfalso; rewrite H in E; injection E as E; exact (D _ (eq_sym E))).
      * destruct (bump n =? 1); cbn [r_callers] in H; exfalso; rewrite H in E; injection E as E; exact (D _ (eq_sym E)).
      * exfalso. destruct (bump n =? 1); cbn [r_callers] in H; rewrite nth_error_upd_nth in H;
          (destruct (Nat.eqb_spec i i0) as [->|_]; [rewrite E in H; discriminate|rewrite H in E; injection E as E; exact (D _ (eq_sym E))]).
      * exfalso. rewrite nth_error_upd_nth in H.
        destruct (Nat.eqb_spec i i0) as [->|_]; [rewrite E in H; discriminate|rewrite H in E; injection E as E; exact (D _ (eq_sym E))].
      * rewrite nth_error_upd_nth in H.
        destruct (Nat.eqb_spec i i0) as [->|_]; [|exfalso; rewrite H in E; injection E as E; exact (D _ (eq_sym E))].
        pose proof (i_cwait _ I i0) as Cw. pose proof (i_mu _ I) as M. cbn [r_core r_callers] in Cw, M.
        inversion H1; subst; cbn [k_ln k_lost].
        -- destruct (k_ln c); auto; congruence.
        -- left. apply M. rewrite (Cw _ H0). discriminate.
        -- left. apply M. rewrite (Cw _ H0). discriminate.
      * exfalso. rewrite nth_error_app1 in H by (apply nth_error_Some; congruence). rewrite H in E; injection E as E; exact (D _ (eq_sym E)).
    + exfalso. destruct St as [St|St]; destruct St; cbn [r_core r_callers k_ln k_lost] in *; try congruence.
      * destruct (bump n =? 1); cbn [r_callers] in H; congruence.
      * destruct (bump n =? 1); cbn [r_callers] in H; rewrite nth_error_upd_nth, E in H; destruct (i =? i0)%nat; discriminate.
      * rewrite nth_error_upd_nth, E in H; destruct (i =? i0)%nat; discriminate.
      * rewrite nth_error_upd_nth, E in H; destruct (i =? i0)%nat; discriminate.
      * apply nth_error_None in E. rewrite nth_error_app2 in H by exact E. destruct (i - length cs)%nat as [|[|k]]; discriminate.
Qed.
(** With one of these in addition it returns.  Missing: that it returns without. *)
Theorem C73_returns_partial : forall with_timeout tls s i r, reachable with_timeout tls s ->
  nth_error (r_callers s) i = Some (CRet true r) -> cancelled s \/ r_signal s <> None ->
  k_lost (r_core s) = false -> inevitably with_timeout returned s.
Proof.
  intros wt tls s i r R C A L. apply (C72_returns_partial wt tls); [exact R|exact A|left].
  destruct (ret_closed wt tls s R i r C) as [X|X]; [|congruence]. split; [congruence|exact L].
Qed.

(** ** C74 *)
Theorem C74_address : forall port add addr,
  (* Run has a listener already *)
  run_address port true add addr = Ok None /\
  (* one address: that, whatever PORT says *)
  run_address port false add [] = Ok (Some add) /\
  (* more *)
  (addr <> [] -> run_address port false add addr = Panic).
Proof. intros port add addr. split; [reflexivity|]. split; [reflexivity|]. destruct addr; [congruence|reflexivity]. Qed.
Theorem C74_environment : forall port port' has_listener add addr,
  run_address port has_listener add addr = run_address port' has_listener add addr.
Proof. reflexivity. Qed.


(** ** The hypotheses are met *)
Example C71_nonvacuous : reachable false false after_shutdown /\ reached after_shutdown 0.
Proof. split; [apply after_shutdown_reachable|]. exists (CRet true None). split; [reflexivity|right; eauto]. Qed.
(* serving with a listener, cancelled *)
Definition cancelled_serving : rs := RS (Core LOpen None false false true) None None WSelect SServing 0 [] [] None.
Example C72_nonvacuous : reachable true true cancelled_serving /\ cancelled cancelled_serving /\ listening_done cancelled_serving.
Proof.
  split; [|split; [reflexivity|split; [discriminate|reflexivity]]]. unfold reachable, cancelled_serving.
  eapply many_step; [|right; apply (E_cancel true (Core LOpen None false false false))].
  eapply many_step; [|left; apply (I_register _ (Core LNone None false false false)); reflexivity].
  eapply many_step; [|left; apply I_load]. constructor.
Qed.
(* the certificate could not be loaded *)
Definition failed_load : rs :=
  RS (Core LNone None false false false) None (Some (EUser 7 (B"cert"))) WSelect (SDone (Some (EUser 7 (B"cert")))) 0 [] [] None.
Example C72_failure_nonvacuous : reachable false true failed_load /\ ~ watched failed_load /\
  inevitably false (fun t => r_result t = Some (Some (EUser 7 (B"cert")))) failed_load.
Proof.
  assert (R : reachable false true failed_load).
  { unfold reachable. eapply many_step; [constructor|]. right. apply (E_load true _ None None WSelect 0 [] [] None (EUser 7 (B"cert"))). reflexivity. }
  assert (W : ~ watched failed_load) by (intros (r & X); discriminate).
  split; [exact R|split; [exact W|]]. apply (C72_serve_failure _ true); auto.
Qed.
Example C73_nonvacuous : ~ awake after_shutdown.
Proof. intros [X|[X|X]]; [apply X; reflexivity|discriminate|apply X; reflexivity]. Qed.
Example C74_nonvacuous : run_address (B"9000") false (B"localhost:1") [] = Ok (Some (B"localhost:1")) /\
  run_address (B"9000") false (B"localhost:1") [B"x"] = Panic.
Proof. split; reflexivity. Qed.

Print Assumptions C71_one_shutdown.
Print Assumptions C71_stable.
Print Assumptions C72_result.
Print Assumptions C72_first_error.
Print Assumptions C72_serve_failure.
Print Assumptions C72_cancel_refuted.
Print Assumptions C72_returns_partial.
Print Assumptions C72_stays_returned.
Print Assumptions C73_refuted.
Print Assumptions C73_waits.
Print Assumptions C73_returns_partial.
Print Assumptions C74_address.
Print Assumptions C74_environment.
