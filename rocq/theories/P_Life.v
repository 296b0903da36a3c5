(** Proofs about the server's whole life. *)
From Verif Require Import Base GoErrors GoInt P_Slices M_Run S_Run Props_Run M_Life S_Life.
Local Open Scope Z_scope.

Ltac simp := cbn [r_core r_watch r_serve r_counter r_callers r_adds r_signal r_first r_result k_ln k_mu k_conns k_lost k_parent] in *.

(** ** The counter *)
Lemma adds_step wt tls s t : step wt tls s t -> (r_counter t = r_counter s /\ r_adds t = r_adds s) \/
  (exists o, r_counter t = bump (r_counter s) /\ r_adds t = (o, bump (r_counter s) =? 1) :: r_adds s).
Proof.
  intros [H|H]; destruct H; simp; auto; right; eexists; destruct (bump n =? 1); simp; split; reflexivity.
Qed.
Definition counted (l : life) : Prop := r_counter (l_rs l) = wrap64 (Z.of_nat (shutdowns l)).
Lemma counted_push l o b s : counted l -> r_counter s = bump (r_counter (l_rs l)) -> r_adds s = (o, b) :: r_adds (l_rs l) ->
  r_counter s = wrap64 (Z.of_nat (length (r_adds s))).
Proof. unfold counted, shutdowns. intros C E1 E2. rewrite E1, E2, C, bump_wrap. cbn [length]. f_equal. lia. Qed.
Lemma counted_step l l' : lstep l l' -> counted l -> counted l'.
Proof.
  intros H C. destruct H; unfold counted, shutdowns; cbn [l_rs start_run r_counter r_adds]; try exact C.
  - destruct (adds_step _ _ _ _ H) as [[E1 E2]|(o & E1 & E2)].
    + rewrite E1, E2. exact C.
    + exact (counted_push l o _ t C E1 E2).
  - unfold counted, shutdowns in C. rewrite C, bump_wrap. cbn [length]. f_equal. lia.
Qed.
Lemma alive_counted l : alive l -> counted l.
Proof. intros A. apply (many_inv lstep counted counted_step _ _ A). reflexivity. Qed.
Lemma shutdowns_step l l' : lstep l l' -> (shutdowns l <= shutdowns l')%nat.
Proof.
  intros H. destruct H; unfold shutdowns; cbn [l_rs start_run r_adds length]; try lia.
  destruct (adds_step _ _ _ _ H) as [[_ ->]|(o & _ & ->)]; cbn [length]; lia.
Qed.
Lemma bump_used l : counted l -> (0 < shutdowns l)%nat -> few_shutdowns l -> bump (r_counter (l_rs l)) <> 1.
Proof.
  unfold counted, few_shutdowns. intros -> P F. rewrite bump_wrap. unfold wrap64.
  set (n := Z.of_nat (shutdowns l)) in *. assert (0 < n) by lia. unfold two63, two64 in *. intros E.
  assert (M : (n + 1 + 9223372036854775808) mod 18446744073709551616 = 9223372036854775809) by lia.
  destruct (Z.lt_ge_cases (n + 1 + 9223372036854775808) 18446744073709551616) as [L|L].
  - rewrite Z.mod_small in M by lia. lia.
  - replace (n + 1 + 9223372036854775808) with (n + 1 - 9223372036854775808 + 1 * 18446744073709551616) in M by lia.
    rewrite Z.mod_add in M by lia. rewrite Z.mod_small in M by lia. lia.
Qed.
Lemma many_lstep (R : life -> life -> Prop) l l' : (forall a b, R a b -> lstep a b) -> many R l l' -> many lstep l l'.
Proof. intros H. apply many_impl, H. Qed.
Lemma shutdowns_many l l' : many lstep l l' -> (shutdowns l <= shutdowns l')%nat.
Proof. intros M. induction M as [l|x y z M IH H]; [lia|]. apply shutdowns_step in H. lia. Qed.

(** ** Running *)
Lemma result_step wt tls s t : step wt tls s t -> r_result s <> None -> r_result t <> None.
Proof. intros [H|H] E; destruct H; simp; auto; try discriminate; destruct (bump n =? 1); simp; auto. Qed.
Lemma starts_inv l l' : starts l l' -> idle l /\
  l' = Life true (Some (listen (l_ln l))) (l_timeout l) (l_cert l) (l_key l) (start_run (l_rs l)) (l_panics l).
Proof.
  intros (H & N & R). unfold running in *. destruct H; cbn [l_rs r_result] in *; try contradiction.
  - exfalso. exact (result_step _ _ _ _ H N R).
  - split; [assumption|reflexivity].
Qed.
Lemma goes_inv l l' : goes l l' -> exists t, step (l_timeout l) (with_tls l) (l_rs l) t /\
  (k_conns (r_core t) = true -> k_conns (r_core (l_rs l)) = true \/ exists x, l_ln l = Some x /\ ln_closed x = false) /\
  l' = Life (l_srv l) (ln_step (with_tls l) (l_rs l) t (l_ln l)) (l_timeout l) (l_cert l) (l_key l) t (l_panics l) \/
  l_srv l = false.
Proof.
  intros [H R]. unfold running in R. destruct H; try (match goal with I : idle _ |- _ => destruct I as [I _]; contradiction end).
  - exists t. left. auto.
  - exists (l_rs l). right. assumption.
Qed.
Lemma goes_kept l l' : goes l l' -> l_timeout l' = l_timeout l /\ l_cert l' = l_cert l /\ l_key l' = l_key l /\ l_srv l' = l_srv l.
Proof.
  intros [H R]. unfold running in R. destruct H; try (match goal with I : idle _ |- _ => destruct I as [I _]; contradiction end); cbn; auto.
Qed.
(** the state of the Run itself goes through steps of M_Run *)
Lemma goes_rs l l' : many goes l l' -> l_srv l = true ->
  many (step (l_timeout l) (with_tls l)) (l_rs l) (l_rs l') /\ l_timeout l' = l_timeout l /\ with_tls l' = with_tls l /\ l_srv l' = true.
Proof.
  intros M Sv. induction M as [l|x y z M IH G]; [split; [constructor|auto]|].
  destruct (IH Sv) as (M' & T & W & V). destruct (goes_kept y z G) as (K1 & K2 & K3 & K4).
  destruct (goes_inv y z G) as (t & [(St & _ & E)|E]); [|congruence]. rewrite T, W in St.
  split; [|split; [congruence|split; [|congruence]]].
  - eapply many_step; [exact M'|]. rewrite E. cbn [l_rs]. exact St.
  - rewrite <- W. unfold with_tls. rewrite K2, K3. reflexivity.
Qed.
(** ** A Run without time out that ends without a signal has called Shutdown *)
Definition asked (s : rs) : Prop :=
  r_signal s = None /\ (r_adds s <> [] \/ (r_watch s = WSelect \/ r_watch s = WAdd) /\ r_result s = None).
Lemma asked_step tls s t : step false tls s t -> r_signal t = None -> asked s -> asked t.
Proof.
  intros St N [S0 A]. split; [exact N|].
  assert (G : r_adds s <> [] -> r_adds t <> []).
  { intros X. destruct (adds_step _ _ _ _ St) as [[_ ->]|(o & _ & ->)]; [exact X|discriminate]. }
  destruct A as [A|[A Rs]]; [left; exact (G A)|].
  destruct St as [St|St]; destruct St; simp; try discriminate; try (destruct A as [A|A]; discriminate A);
    try (right; split; [|assumption]; tauto); try (right; split; [right; reflexivity|assumption]); auto.
  - left. destruct (bump n =? 1); simp; discriminate.
  - left. destruct (bump n =? 1); simp; discriminate.
Qed.

(** ** After that no Shutdown gets there *)
Definition deaf (s : rs) : Prop :=
  r_result s = None /\ r_signal s = None /\ (r_watch s = WSelect \/ r_watch s = WAdd \/ r_watch s = WDone None) /\
  (forall r, r_serve s <> SDone r) /\ k_ln (r_core s) <> LClosed /\
  (forall x, In x (r_callers s) -> x = CAdd \/ exists b r, x = CRet b r).
Lemma in_upd i (y : cst) cs x : In x (upd_nth i (fun _ => y) cs) -> x = y \/ In x cs.
Proof.
  revert i. induction cs as [|c cs IH]; intros [|i] H; cbn [upd_nth In] in *; [destruct H|destruct H|..].
  - destruct H as [H|H]; [left; congruence|auto].
  - destruct H as [H|H]; [auto|]. destruct (IH i H); auto.
Qed.
Lemma deaf_step tls s t : step false tls s t -> bump (r_counter s) <> 1 -> r_signal t = None ->
  (served t -> served s \/ k_ln (r_core s) = LClosed) -> deaf s -> deaf t.
Proof.
  intros St Nb Ns Sv (R & S0 & W & V & L & Cs).
  assert (Nsv : forall r, r_serve t <> SDone r).
  { intros r E. destruct Sv as [[r' Sv]|Sv]; [exists r; exact E|exact (V r' Sv)|exact (L Sv)]. }
  assert (Cn : forall i sh cs', nth_error cs' i = Some (CShut sh) -> cs' = r_callers s -> False).
  { intros i sh cs' X ->. destruct (Cs _ (nth_error_In _ _ X)) as [Y|(b & r & Y)]; discriminate. }
  unfold deaf.
  destruct St as [St|St]; destruct St; simp; try (exfalso; destruct W as [W|[W|W]]; discriminate W); try (exfalso; eapply Cn; [eassumption|reflexivity]);
    try contradiction; try (exfalso; eapply Nsv; reflexivity); try (exfalso; eapply V; reflexivity).
  - (* cancelled *) repeat split; auto.
  - discriminate.
  - (* watch add *) destruct (Z.eqb_spec (bump n) 1) as [E|_]; [contradiction|]. simp. repeat split; auto.
  - repeat split; auto.
  - repeat split; auto. discriminate.
  - (* caller *) destruct (Z.eqb_spec (bump n) 1) as [E|_]; [contradiction|]. simp. repeat split; auto.
    intros x X. destruct (in_upd _ _ _ _ X) as [->|Y]; [eauto|exact (Cs x Y)].
  - repeat split; auto.
  - repeat split; auto.
  - discriminate.
  - repeat split; auto.
  - repeat split; auto. intros x X. apply in_app_or in X as [X|[<-|[]]]; auto.
Qed.
Lemma start_deaf l l1 : starts l l1 -> deaf (l_rs l1).
Proof.
  intros H. apply starts_inv in H as [[_ I] ->]. unfold deaf, start_run. cbn [l_rs]. simp.
  split; [reflexivity|]. split; [reflexivity|]. split; [auto|]. split; [intros r X; discriminate X|]. split.
  - destruct (k_ln (r_core (l_rs l))); intros X; discriminate X.
  - intros x X. right. exact (I x X).
Qed.
Lemma deaf_many l1 l2 : counted l1 -> (0 < shutdowns l1)%nat -> l_timeout l1 = false -> l_srv l1 = true -> few_shutdowns l2 ->
  many goes_quietly l1 l2 -> deaf (l_rs l1) -> deaf (l_rs l2).
Proof.
  intros C P T Sv F M D. induction M as [l|x y z M IH G]; [exact D|].
  destruct G as (G & Ns & So).
  assert (Mg : many goes x y) by (eapply many_impl; [|exact M]; intros a b [H _]; exact H).
  assert (Ml : many lstep x y) by (eapply many_impl; [|exact Mg]; intros a b [H _]; exact H).
  destruct (goes_rs x y Mg Sv) as (_ & Ty & _ & Svy).
  assert (Fy : few_shutdowns y). { unfold few_shutdowns in *. pose proof (shutdowns_step y z (proj1 G)). lia. }
  specialize (IH C P T Sv Fy D).
  assert (Cy : counted y) by exact (many_inv lstep counted counted_step _ _ Ml C).
  assert (Py : (0 < shutdowns y)%nat) by (pose proof (shutdowns_many x y Ml); lia).
  destruct (goes_inv y z G) as (t & [(St & _ & E)|E]); [|congruence]. subst z. rewrite Ty, T in St. cbn [l_rs].
  apply (deaf_step (with_tls y) (l_rs y)); auto. exact (bump_used y Cy Py Fy).
Qed.

(** ** Stopping a Run on a used server: the invariants of Props_Run without the assumption that
       nobody has called Shutdown before *)
Record base (s : rs) : Prop := Base_ {
  b_mu : k_mu (r_core s) <> None -> k_ln (r_core s) = LClosed;
  b_serve : r_serve s = SServing -> k_ln (r_core s) <> LNone;
  b_ready : r_serve s = SLoad \/ r_serve s = SReady -> k_ln (r_core s) = LNone;
  b_wait : forall k msg e, r_watch s = WShut k msg (ShWait e) -> k_mu (r_core s) = Some OWatch;
  b_cwait : forall i e, nth_error (r_callers s) i = Some (CShut (ShWait e)) -> k_mu (r_core s) = Some (OCall i);
  b_owner : forall me, k_mu (r_core s) = Some me ->
     match me with OWatch => exists k msg e, r_watch s = WShut k msg (ShWait e)
                 | OCall i => exists e, nth_error (r_callers s) i = Some (CShut (ShWait e)) end
}.
Section Again.
  Variables (wt tls : bool).
  (* the lock part does not change *)
  Lemma base_same s t : base s -> r_core t = r_core s -> r_serve t = r_serve s ->
    (forall k msg e, r_watch t = WShut k msg (ShWait e) <-> r_watch s = WShut k msg (ShWait e)) ->
    (forall i e, nth_error (r_callers t) i = Some (CShut (ShWait e)) <-> nth_error (r_callers s) i = Some (CShut (ShWait e))) -> base t.
  Proof.
    intros [M Sv Rd Wt Cw Ow] E1 E2 E3 E4. split; rewrite ?E1, ?E2; auto.
    - intros k m e X. apply E3 in X. exact (Wt _ _ _ X).
    - intros i e X. apply E4 in X. exact (Cw _ _ X).
    - intros me X. specialize (Ow me X). destruct me as [|i].
      + destruct Ow as (k & m & e & Y). exists k, m, e. apply E3, Y.
      + destruct Ow as (e & Y). exists e. apply E4, Y.
  Qed.
  Lemma upd_wait cs i (x y : cst) : nth_error cs i = Some x -> (forall e, x <> CShut (ShWait e)) -> (forall e, y <> CShut (ShWait e)) ->
    forall j e, nth_error (upd_nth i (fun _ => y) cs) j = Some (CShut (ShWait e)) <-> nth_error cs j = Some (CShut (ShWait e)).
  Proof.
    intros H Nx Ny j e. rewrite nth_error_upd_nth. destruct (Nat.eqb_spec j i) as [->|_]; [|reflexivity].
    rewrite H. split; intros X; injection X as X; exfalso; [exact (Ny e X)|exact (Nx e X)].
  Qed.
  Lemma base_step s t : step wt tls s t -> base s -> base t.
  Proof.
    intros [H|H] I; pose proof I as [M Sv Rd Wt Cw Ow]; destruct H; simp.
    - apply (base_same _ _ I); simp; auto; try reflexivity. intros k m e. destruct wt; split; discriminate.
    - apply (base_same _ _ I); simp; auto; try reflexivity. intros k m e. split; discriminate.
    - destruct (bump n =? 1); apply (base_same _ _ I); simp; auto; try reflexivity; intros k m e; split; discriminate.
    - inversion H; subst; clear H. split; simp; auto; try discriminate.
      + intros X. specialize (Rd X). congruence.
      + intros i e X. apply Cw in X. congruence.
      + intros me X. injection X as <-. eauto.
    - inversion H; subst; clear H; split; simp; auto; try discriminate; try congruence.
      + intros i e X. apply Cw in X. congruence.
      + intros i e X. apply Cw in X. rewrite (Wt _ _ _ eq_refl) in X. discriminate.
      + intros i e' X. apply Cw in X. rewrite (Wt _ _ _ eq_refl) in X. discriminate.
    - split; simp; auto; try discriminate.
    - specialize (Rd (or_intror eq_refl)). split; simp; auto; try discriminate; try congruence.
      + intros [X|X]; discriminate.
      + intros k m e X. apply Wt in X. congruence.
      + intros i e X. apply Cw in X. congruence.
    - split; simp; auto; try discriminate; try (intros [X|X]; discriminate).
    - destruct (bump n =? 1); apply (base_same _ _ I); simp; auto; try reflexivity; apply (upd_wait cs i CAdd); auto; discriminate.
    - inversion H0; subst; clear H0. split; simp; auto; try discriminate; try congruence.
      + intros X. specialize (Rd X). congruence.
      + intros k m e X. apply Wt in X. congruence.
      + intros j e X. rewrite nth_error_upd_nth in X. destruct (Nat.eqb_spec j i) as [->|_]; [reflexivity|]. apply Cw in X. congruence.
      + intros me X. injection X as <-. eexists. rewrite nth_error_upd_nth, Nat.eqb_refl, H. reflexivity.
    - assert (Cu : forall r j e, nth_error (upd_nth i (fun _ => CRet true r) cs) j = Some (CShut (ShWait e)) ->
                   j <> i /\ nth_error cs j = Some (CShut (ShWait e))).
      { intros r0 j e X. rewrite nth_error_upd_nth in X. destruct (Nat.eqb_spec j i) as [->|N]; [destruct (nth_error cs i); discriminate|auto]. }
      inversion H0; subst; clear H0; split; simp; auto; try discriminate; try congruence.
      all: try (intros k0 m0 e0 X; apply Wt in X; first [congruence|rewrite (Cw _ _ H) in X; discriminate]).
      all: try (intros j0 e0 X; destruct (Cu _ _ _ X) as [Y1 Y]; apply Cw in Y; first [congruence|rewrite (Cw _ _ H) in Y; congruence]).
    - apply (base_same _ _ I); simp; auto; try reflexivity.
    - split; simp; auto.
    - split; simp; auto.
    - apply (base_same _ _ I); simp; auto; try reflexivity.
    - split; simp; auto; try discriminate; try (intros [X|X]; discriminate).
    - split; simp; auto; try discriminate; try (intros [X|X]; discriminate).
    - split; simp; auto.
    - apply (base_same _ _ I); simp; auto; try reflexivity. intros i e. destruct (Nat.lt_ge_cases i (length cs)) as [L|L].
      + rewrite nth_error_app1 by exact L. reflexivity.
      + rewrite nth_error_app2 by exact L. rewrite (proj2 (nth_error_None cs i) L).
        destruct (i - length cs)%nat as [|[|k]]; cbn; split; discriminate.
  Qed.
  (** once a shutdown is on its way it closes the listener, or is lost *)
  Lemma closing_step s t : step wt tls s t -> base s -> closing s -> closing t.
  Proof.
    intros St I Cl. unfold closing, in_flight in *.
    assert (K : k_ln (r_core s) = LClosed \/ k_lost (r_core s) = true -> k_ln (r_core t) = LClosed \/ k_lost (r_core t) = true).
    { intros X. pose proof (b_ready s I) as Rd. destruct St as [St|St]; destruct St; simp; auto.
      - destruct (bump n =? 1); exact X.
      - inversion H; subst; simp; auto.
      - inversion H; subst; simp; auto. destruct (k_ln c); destruct X; auto; congruence.
      - specialize (Rd (or_intror eq_refl)). destruct X as [X|X]; [congruence|auto].
      - destruct (bump n =? 1); exact X.
      - inversion H0; subst; simp; auto.
      - inversion H0; subst; simp; auto. destruct (k_ln c); destruct X; auto; congruence. }
    destruct Cl as [Cl|[Cl|(j & Cl)]]; [tauto|tauto|]. clear K.
    assert (Kp : forall cs', cs' = r_callers s -> forall i x y, nth_error cs' i = Some x -> x <> CShut ShLock ->
      nth_error (upd_nth i (fun _ => y) cs') j = Some (CShut ShLock)).
    { intros cs' -> i x y X N. eapply flight_other; [exact X|exact N|exact Cl]. }
    destruct St as [St|St]; destruct St; simp; eauto.
    - destruct (bump n =? 1); simp; eauto.
    - right. right. exists j. destruct (bump n =? 1); simp; apply (Kp cs eq_refl i CAdd); auto; discriminate.
    - inversion H0; subst; simp; auto.
    - inversion H0; subst; simp.
      + destruct (k_ln c); auto; congruence.
      + right. right. exists j. apply (Kp cs eq_refl i (CShut (ShWait r))); auto; discriminate.
      + right. right. exists j. apply (Kp cs eq_refl i (CShut (ShWait lnerr))); auto; discriminate.
    - right. right. exists j. rewrite nth_error_app1; [exact Cl|]. apply nth_error_Some. congruence.
  Qed.
  Lemma parent_step s t : step wt tls s t -> k_parent (r_core s) = true -> k_parent (r_core t) = true.
  Proof.
    intros [H|H] E; destruct H; simp; auto; try (destruct (bump n =? 1); exact E).
    - inversion H; subst; simp; auto.
    - inversion H; subst; simp; auto.
    - inversion H0; subst; simp; auto.
    - inversion H0; subst; simp; auto.
  Qed.
  (** [fresh]: nobody had called Shutdown when this Run started *)
  Variable fresh : bool.
  Record inv2 (s : rs) : Prop := Inv2 {
    j_base : base s;
    j_add : r_watch s = WAdd -> wt = false /\ (fresh = true \/ served s \/ k_parent (r_core s) = true);
    j_done : forall r, r_watch s = WDone r -> closing s \/ served s \/ wt = false /\ fresh = false /\ k_parent (r_core s) = true;
    j_first : r_first s <> None -> served s \/ watched s;
    j_count : fresh = true -> r_counter s <> 0 -> closing s \/ exists k msg, r_watch s = WShut k msg ShLock
  }.
  Lemma inv2_step s t : step wt tls s t -> inv2 s -> inv2 t.
  Proof.
    intros St [Bs Ad Dn Fi Co]. pose proof (base_step s t St Bs) as Bt. pose proof (closing_step s t St Bs) as Cl.
    assert (Sv : served s -> served t) by (intros [r X]; exists r; exact (served_step wt tls s t r St X)).
    assert (Wd : watched s -> watched t) by (intros [r X]; exists r; exact (watched_step wt tls s t r St X)).
    pose proof (parent_step s t St) as Pa.
    assert (Dn' : forall r, r_watch s = WDone r -> closing t \/ served t \/ wt = false /\ fresh = false /\ k_parent (r_core t) = true).
    { intros r X. destruct (Dn r X) as [Y|[Y|(Y1 & Y2 & Y3)]]; auto 6. }
    assert (Fi' : r_first s <> None -> served t \/ watched t) by (intros X; destruct (Fi X); auto).
    split; [exact Bt| | | |].
    - (* add *)
      assert (Ga : r_watch s = WAdd -> wt = false /\ (fresh = true \/ served t \/ k_parent (r_core t) = true)).
      { intros X. destruct (Ad X) as [Y1 [Y2|[Y2|Y2]]]; auto. }
      clear Dn Co Dn' Fi' Ad Bs Bt Cl Sv Wd Pa.
      destruct St as [St|St]; destruct St; simp; try exact Ga; try (intros X; discriminate X).
      + intros X. destruct wt; [discriminate X|]. split; [reflexivity|]. right. unfold group_done in H. simp.
        destruct (k_parent c); [auto|]. destruct f; [|discriminate H]. left.
        destruct Fi as [Y|[r Y]]; [discriminate|exact Y|discriminate Y].
      + destruct (bump n =? 1); intros X; discriminate X.
      + destruct (bump n =? 1); exact Ga.
    - (* done *)
      clear Fi Fi' Dn Pa Wd.
      assert (Clf : r_core t = r_core s -> r_callers t = r_callers s -> closing s -> closing t).
      { intros E1 E2. unfold closing, in_flight. rewrite E1, E2. auto. }
      destruct St as [St|St]; destruct St; simp; try exact Dn'; try (intros r0 X; discriminate X).
      + intros r0 X. destruct wt; discriminate X.
      + intros r0 X. destruct (Z.eqb_spec (bump n) 1) as [E|E]; [discriminate X|]. cbn [r_core].
        destruct (Ad eq_refl) as [Y1 [Y2|[Y2|Y2]]].
        * left. apply Cl. destruct (Co Y2) as [Z|(k & m & Z)]; [exact (bump_one n E)|exact Z|discriminate Z].
        * right. left. exact (Sv Y2).
        * destruct fresh eqn:Ef; [|auto 6].
          left. apply Cl. destruct (Co eq_refl) as [Z|(k & m & Z)]; [exact (bump_one n E)|exact Z|discriminate Z].
      + intros r0 X. left. pose proof (b_mu _ Bs) as M. pose proof (b_wait _ Bs) as Wt. simp. unfold closing. simp. inversion H; subst; simp.
        * destruct (k_ln c); auto; congruence.
        * left. apply M. rewrite (Wt _ _ _ eq_refl). discriminate.
        * left. apply M. rewrite (Wt _ _ _ eq_refl). discriminate.
      + destruct (bump n =? 1); exact Dn'.
    - (* first *)
      clear Dn Dn' Co Ad Cl Sv Wd Pa Bs Bt Fi.
      destruct St as [St|St]; destruct St; simp; try exact Fi'; try (intros _; right; eexists; reflexivity); try (intros _; left; eexists; reflexivity).
      + destruct (bump n =? 1); simp; [exact Fi'|intros _; right; eexists; reflexivity].
      + destruct (bump n =? 1); simp; exact Fi'.
    - (* count *)
      clear Dn Dn' Ad Sv Wd Pa Fi Fi'. intros Fr. specialize (Co Fr).
      assert (Gc : r_counter s <> 0 -> r_watch t = r_watch s -> closing t \/ exists k msg, r_watch t = WShut k msg ShLock).
      { intros X E. rewrite E. destruct (Co X) as [Y|Y]; auto. }
      destruct St as [St|St]; destruct St; simp; try (intros X; exact (Gc X eq_refl)).
      + intros X. destruct (Co X) as [Y|(k & m & Y)]; [left; exact (Cl Y)|discriminate Y].
      + intros X. right. eauto.
      + destruct (Z.eqb_spec (bump n) 1) as [E|E]; simp; intros X; [right; eauto|].
        left. apply Cl. destruct (Co (bump_one n E)) as [Y|(k & m & Y)]; [exact Y|discriminate Y].
      + intros X. pose proof (b_mu _ Bs) as M. simp. left. unfold closing. simp. inversion H; subst; simp. auto.
      + intros X. pose proof (b_mu _ Bs) as M. pose proof (b_wait _ Bs) as Wt. simp. left. unfold closing. simp. inversion H; subst; simp.
        * destruct (k_ln c); auto; congruence.
        * left. apply M. rewrite (Wt _ _ _ eq_refl). discriminate.
        * left. apply M. rewrite (Wt _ _ _ eq_refl). discriminate.
      + destruct (Z.eqb_spec (bump n) 1) as [E|E]; simp; intros X.
        * left. unfold closing, in_flight. simp. right. right. exists i. rewrite nth_error_upd_nth, Nat.eqb_refl, H. reflexivity.
        * exact (Gc (bump_one n E) eq_refl).
  Qed.

  Lemma go_mu2 s : base s -> k_mu (r_core s) = None \/ exists t, istep wt s t.
  Proof.
    destruct s as [c sg f w sv n a cs res]. intros I. destruct (k_mu c) as [me|] eqn:E; [right|left; exact E].
    pose proof (b_owner _ I me E) as Ow. pose proof (b_mu _ I) as M. simp.
    assert (L : k_ln c = LClosed) by (apply M; congruence). destruct me as [|i].
    - destruct Ow as (k & msg & e & ->). destruct (go_shut k OWatch c e (fun _ => L)) as [(c' & r & X)|[X Y]].
      + eexists. eapply I_watch_end, X.
      + eexists. eapply I_drain; assumption.
    - destruct Ow as (e & X). destruct (go_shut KBackground (OCall i) c e (fun _ => L)) as [(c' & r & Y)|[Y Z]].
      + eexists. eapply I_call_end; eassumption.
      + eexists. eapply I_drain; assumption.
  Qed.
  Lemma go_watch2 s : base s -> awake s -> watched s \/ exists t, istep wt s t.
  Proof.
    intros I A. destruct (go_mu2 s I) as [M|G]; [|right; exact G].
    destruct s as [c sg f w sv n a cs res]. unfold awake, watched in *. simp. destruct w as [| |k msg [|e]|r].
    - right. destruct A as [A|[A|A]].
      + congruence.
      + eexists. apply I_cancelled, A.
      + destruct sg as [sig|]; [|congruence]. eexists. apply I_signal.
    - right. eexists. apply I_watch_add.
    - right. destruct (go_lock k OWatch c M) as [(c' & s' & X)|(c' & r & X)].
      + eexists. eapply I_watch_shut, X.
      + eexists. eapply I_watch_end, X.
    - pose proof (b_wait _ I _ _ _ eq_refl) as X. simp. congruence.
    - left. eauto.
  Qed.
  Lemma progress2 s : inv2 s -> awake s -> listening_done s \/ served s -> wt = true \/ fresh = true \/ k_parent (r_core s) = false ->
    returned s \/ exists t, istep wt s t.
  Proof.
    intros I A L Ok. pose proof (j_base s I) as Bs. destruct (go_watch2 s Bs A) as [W|G]; [|right; exact G].
    destruct (go_mu2 s Bs) as [M|G]; [|right; exact G].
    assert (Sv : served s \/ exists t, istep wt s t).
    { destruct L as [[L1 L2]|L]; [|left; exact L]. pose proof W as [r Wr].
      pose proof (j_done s I r Wr) as D. pose proof (b_ready s Bs) as Rd.
      destruct D as [D|[D|(D1 & D2 & D3)]]; [|left; exact D|exfalso; destruct Ok as [Ok|[Ok|Ok]]; congruence].
      destruct s as [c sg f w sv n a cs res]. unfold served. unfold closing, in_flight in D. simp. destruct sv as [| | |r'].
      - exfalso. apply L1, Rd. auto.
      - exfalso. apply L1, Rd. auto.
      - destruct (k_ln c) eqn:El; [congruence| |right; eexists; apply I_closed, El].
        destruct D as [D|[D|(i & D)]]; [congruence|congruence|].
        right. destruct (go_lock KBackground (OCall i) c M) as [(c' & s' & X)|(c' & r'' & X)].
        + eexists. eapply I_call_shut; eassumption.
        + eexists. eapply I_call_end; eassumption.
      - left. eauto. }
    destruct Sv as [Sv|G]; [|right; exact G].
    destruct s as [c sg f w sv n a cs res]. destruct W as (rw & W), Sv as (rv & Sv). simp. subst.
    destruct res as [r|]; [left; discriminate|right]. eexists. apply I_return.
  Qed.
  Lemma parent_istep s t : istep wt s t -> k_parent (r_core t) = k_parent (r_core s).
  Proof.
    intros H; destruct H; simp; auto; try (destruct (bump n =? 1); reflexivity).
    - inversion H; subst; simp; auto.
    - inversion H; subst; simp; auto.
    - inversion H0; subst; simp; auto.
    - inversion H0; subst; simp; auto.
  Qed.
  Lemma returns2 s : inv2 s -> awake s -> listening_done s \/ served s -> wt = true \/ fresh = true \/ k_parent (r_core s) = false ->
    inevitably wt returned s.
  Proof.
    intros I A L Ok. apply (inevitable wt returned (fun s => inv2 s /\ awake s /\ (listening_done s \/ served s) /\ (wt = true \/ fresh = true \/ k_parent (r_core s) = false))); [| |auto].
    - intros x y H (I' & A' & L' & Ok'). assert (St : step wt tls x y) by (left; exact H). split; [exact (inv2_step x y St I')|].
      split; [exact (awake_step wt tls x y St A')|]. split; [|rewrite (parent_istep x y H); exact Ok'].
      destruct L' as [L'|(r & L')]; [left; exact (listening_step wt tls x y St L')|].
      right. exists r. exact (served_step wt tls x y r St L').
    - intros x (I' & A' & L' & Ok'). exact (progress2 x I' A' L' Ok').
  Qed.
End Again.
Definition unused (l : life) : bool := match r_adds (l_rs l) with [] => true | _ => false end.
(** the mutex is free when everybody has returned: an invariant of the whole life *)
Definition mu_inv (s : rs) : Prop := forall me, k_mu (r_core s) = Some me ->
  match me with OWatch => exists k msg e, r_watch s = WShut k msg (ShWait e)
              | OCall i => exists e, nth_error (r_callers s) i = Some (CShut (ShWait e)) end.
Lemma nth_upd_other cs i (x y z : cst) j : nth_error cs i = Some x -> nth_error cs j = Some z -> x <> z ->
  nth_error (upd_nth i (fun _ => y) cs) j = Some z.
Proof. intros Hi Hj N. rewrite nth_error_upd_nth. destruct (Nat.eqb_spec j i) as [->|_]; [congruence|exact Hj]. Qed.
Lemma mu_step wt tls s t : step wt tls s t -> mu_inv s -> mu_inv t.
Proof.
  intros St I me X. unfold mu_inv in I.
  destruct St as [St|St]; destruct St; simp; try exact (I me X).
  - specialize (I me X). destruct me; [|exact I]. destruct I as (k & m & e & Y). discriminate.
  - specialize (I me X). destruct me; [|exact I]. destruct I as (k & m & e & Y). discriminate.
  - destruct (bump n =? 1); simp; specialize (I me X); (destruct me; [|exact I]); destruct I as (k & m & e & Y); discriminate.
  - inversion H; subst; simp. injection X as <-. eauto.
  - inversion H; subst; simp; discriminate X.
  - congruence.
  - assert (Y : match me with OWatch => exists k msg e, w = WShut k msg (ShWait e)
      | OCall j => exists e, nth_error (upd_nth i (fun _ => if bump n =? 1 then CShut ShLock else CRet false None) cs) j = Some (CShut (ShWait e)) end).
    { destruct (bump n =? 1); simp; specialize (I me X); (destruct me as [|j]; [exact I|]); destruct I as (e & Y); exists e;
        (eapply nth_upd_other; [exact H|exact Y|discriminate]). }
    destruct (bump n =? 1); simp; exact Y.
  - inversion H0; subst; simp. injection X as <-. exists lnerr. rewrite nth_error_upd_nth, Nat.eqb_refl, H. reflexivity.
  - inversion H0; subst; simp; discriminate X.
  - specialize (I me X). destruct me as [|i]; [exact I|]. destruct I as (e & Y). exists e.
    rewrite nth_error_app1; [exact Y|]. apply nth_error_Some. congruence.
Qed.
Definition ended (s : rs) : Prop := r_result s <> None -> watched s.
Lemma ended_step wt tls s t : step wt tls s t -> ended s -> ended t.
Proof.
  intros St I X. destruct (r_result s) as [r|] eqn:E.
  - destruct I as [q Q]; [congruence|]. exists q. exact (watched_step _ _ _ _ _ St Q).
  - destruct St as [St|St]; destruct St; simp; subst; try congruence.
    + destruct (bump n =? 1); simp; congruence.
    + destruct (bump n =? 1); simp; congruence.
    + eexists. reflexivity.
Qed.
Lemma alive_mu l : alive l -> mu_inv (l_rs l) /\ ended (l_rs l).
Proof.
  intros A. apply (many_inv lstep (fun l => mu_inv (l_rs l) /\ ended (l_rs l))) with (x := new_server); [|exact A|].
  - intros x y St [M E]. destruct St; cbn [l_rs]; auto.
    + split; [exact (mu_step _ _ _ _ H M)|exact (ended_step _ _ _ _ H E)].
    + split; [|exact E]. intros me X. simp. specialize (M me X). destruct me as [|j]; [exact M|]. destruct M as (e & Y). exists e.
      eapply nth_upd_other; [eassumption|exact Y|discriminate].
    + split; [|intros X; contradiction X; reflexivity]. destruct H as [H1 H2]. intros me X. unfold start_run in *. simp. specialize (M me X). destruct me as [|j].
      * destruct M as (k & m & e & Y). destruct (E H1) as [r W]. congruence.
      * destruct M as (e & Y). destruct (H2 _ (nth_error_In _ _ Y)) as (b & r & Z). discriminate.
    + split; [|exact E]. intros me X. discriminate X.
  - split; [intros me X; discriminate X|]. intros _. eexists. reflexivity.
Qed.
Lemma idle_mu l : alive l -> idle l -> k_mu (r_core (l_rs l)) = None.
Proof.
  intros A [H1 H2]. destruct (alive_mu l A) as [M E]. destruct (k_mu (r_core (l_rs l))) as [me|] eqn:X; [|reflexivity].
  specialize (M me X). destruct me as [|j].
  - destruct M as (k & m & e & Y). destruct (E H1) as [r W]. congruence.
  - destruct M as (e & Y). destruct (H2 _ (nth_error_In _ _ Y)) as (b & r & Z). discriminate.
Qed.
Lemma start_inv2 l l1 : alive l -> starts l l1 -> k_ln (r_core (l_rs l)) <> LOpen -> inv2 (l_timeout l) (unused l) (l_rs l1).
Proof.
  intros A H L. pose proof (alive_counted l A) as C. apply starts_inv in H as [I ->]. pose proof (idle_mu l A I) as M. destruct I as [I1 I2].
  unfold start_run. cbn [l_rs]. split; simp; try discriminate.
  - split; simp; try discriminate; try congruence.
    + intros _. destruct (k_ln (r_core (l_rs l))); congruence.
    + intros i e X. destruct (I2 _ (nth_error_In _ _ X)) as (b & r & Y). discriminate.
  - congruence.
  - unfold unused. intros F X. exfalso. apply X. rewrite C. unfold shutdowns. destruct (r_adds (l_rs l)); [reflexivity|discriminate F].
Qed.
