(** C165-C167: the time stamps of log records. *)
From Verif Require Import Base GoStrings GoErrors GoSlices P_Slices GoTime M_Logger M_Stamp S_Logger S_LogValues S_Date S_Stamp Props_Logger Props_LogValues P_Date P_Date2 P_Stamp.
From Coq Require Import Permutation.
From Coq Require Import ZifyNat ZifyN ZifyBool.
Ltac Zify.zify_post_hook ::= Z.to_euclidean_division_equations.
Local Open Scope Z_scope.

(** ** C165: which time it is *)
Section Stamps.
  Context {V : Type}.
  Variable order : forall A, list (bytes * A) -> list (bytes * A).
  Variable marshal : fields V -> option bytes.
  Hypothesis order_ok : forall A (m : list (bytes * A)), Permutation (order A m) m.
  Notation step := (M_Logger.step order marshal).
  Notation run := (M_Logger.run order marshal).
  Notation ts := (B"@timestamp").

  (** the invariant, on plain values *)
  Definition names_ok (c : cfgv) : Prop := forall k, k <> ts -> c_name c k <> ts.
  Definition has_stamp (stamp : Z -> bytes) (b : Z) (l : lgrv V) : Prop := names_ok (l_config l) /\ l_fields l ts = Some (FStr (stamp b)).
  Definition inv (stamp : Z -> bytes) (bs : list Z) (s : vals V) : Prop := Forall names_ok (configs s) /\ Forall2 (has_stamp stamp) bs (loggers s).
  Lemma beq_ts k : k <> ts -> beq ts k = false.
  Proof. intros N. destruct (beq ts k) eqn:E; [apply beq_eq in E; congruence|reflexivity]. Qed.
  Lemma put_stamp stamp b k x l : k <> ts -> has_stamp stamp b l -> has_stamp stamp b (put k x l).
  Proof. intros N [H1 H2]. split; [exact H1|]. unfold put. cbn [l_fields]. unfold set. rewrite (beq_ts k N). exact H2. Qed.
  Lemma name_key_ok k n c : k <> ts -> n <> ts -> names_ok c -> names_ok (name_key k n c).
  Proof.
    intros Nk Nn H. unfold name_key. destruct (standard k && negb (is_empty n)); [|exact H]. intros k' Nk'. cbn [c_name]. unfold set.
    destruct (beq k' k); [exact Nn|apply H, Nk'].
  Qed.
  Lemma move_stamp stamp b k n l : k <> ts -> n <> ts -> has_stamp stamp b l -> has_stamp stamp b (move k n l).
  Proof.
    intros Nk Nn [H1 H2]. unfold move. destruct (standard k && negb (is_empty n)) eqn:E; [|split; assumption].
    cbv zeta. split; cbn [l_config l_fields]; [apply name_key_ok; assumption|].
    destruct (l_fields l (c_name (l_config l) k)); [|exact H2]. destruct (beq (c_name (l_config l) k) k); [exact H2|].
    unfold set. rewrite (beq_ts _ (H1 k Nk)), (beq_ts n Nn). exact H2.
  Qed.
  Lemma complete_stamp stamp b l : has_stamp stamp b l -> has_stamp stamp b (complete l).
  Proof.
    intros H. unfold complete. pose proof H as [H1 _]. apply put_stamp; [apply H1; discriminate|]. apply put_stamp; [apply H1; discriminate|exact H].
  Qed.
  Lemma forall2_nth {A C} (R : A -> C -> Prop) l l' i y : Forall2 R l l' -> nth_error l' i = Some y -> exists x, nth_error l i = Some x /\ R x y.
  Proof.
    intros F. revert i. induction F as [|a c l l' H _ IH]; intros [|i] E; try discriminate E; cbn [nth_error] in *; [injection E as <-; eauto|apply IH, E].
  Qed.
  Lemma forall2_upd {A C} (R : A -> C -> Prop) l l' i y : Forall2 R l l' -> (forall x, nth_error l i = Some x -> R x y) -> Forall2 R l (upd_nth i (fun _ => y) l').
  Proof.
    intros F. revert i. induction F as [|a c l l' H F IH]; intros [|i] E; cbn [upd_nth]; try constructor; auto.
  Qed.
  Lemma forall_upd {A} (P : A -> Prop) l i y : Forall P l -> P y -> Forall P (upd_nth i (fun _ => y) l).
  Proof. intros F Y. revert i. induction F as [|a l H F IH]; intros [|i]; cbn [upd_nth]; constructor; auto. Qed.

  Lemma set_lgr_inv stamp bs s i f s' : inv stamp bs s -> set_lgr s i f = Some s' -> (forall b l, has_stamp stamp b l -> has_stamp stamp b (f l)) -> inv stamp bs s'.
  Proof.
    intros [H1 H2] E F. unfold set_lgr, with_lgr in E. destruct (nth_error (loggers s) i) as [l|] eqn:El; [|discriminate E]. injection E as <-.
    split; [exact H1|]. cbn [loggers]. destruct (forall2_nth _ _ _ _ _ H2 El) as (b & Eb & Hb). apply forall2_upd; [exact H2|].
    intros x Ex. rewrite Eb in Ex. injection Ex as <-. apply F, Hb.
  Qed.
  Lemma set_cfg_inv stamp bs s h f s' : inv stamp bs s -> set_cfg s h f = Some s' -> (forall c, names_ok c -> names_ok (f c)) -> inv stamp bs s'.
  Proof.
    intros [H1 H2] E F. unfold set_cfg, with_cfg in E. destruct (nth_error (configs s) h) as [c|] eqn:Ec; [|discriminate E]. injection E as <-.
    split; [|exact H2]. cbn [configs]. apply forall_upd; [exact H1|]. apply F. apply (proj1 (Forall_forall _ _) H1). eapply nth_error_In, Ec.
  Qed.
  Lemma log_inv stamp bs s i lvl msg s' : inv stamp bs s -> with_lgr s i (log lvl msg i s) = Some s' -> inv stamp bs s'.
  Proof.
    intros [H1 H2] E. unfold with_lgr in E. destruct (nth_error (loggers s) i) as [l|] eqn:El; [|discriminate E]. unfold log in E.
    destruct (c_level (l_config l) <? lvl); [injection E as <-; split; assumption|]. destruct (c_writer (l_config l)); [|discriminate E].
    injection E as <-. split; [exact H1|]. cbn [loggers]. destruct (forall2_nth _ _ _ _ _ H2 El) as (b & Eb & Hb). apply forall2_upd; [exact H2|].
    intros x Ex. rewrite Eb in Ex. injection Ex as <-. apply complete_stamp. destruct msg; [apply put_stamp; [discriminate|exact Hb]|exact Hb].
  Qed.
  Lemma merge_stamp stamp b (m : fields V) : (forall x, ~ In (ts, x) m) -> forall l, has_stamp stamp b l ->
    has_stamp stamp b (fold_left (fun l kx => put (fst kx) (snd kx) l) m l).
  Proof.
    induction m as [|[k x] m IH]; intros N l H; [exact H|]. cbn [fold_left]. apply IH; [intros y I; apply (N y); right; exact I|].
    apply put_stamp; [|exact H]. cbn [fst]. intros ->. apply (N x). left. reflexivity.
  Qed.
  Lemma step_inv stamp bs s t o s' : inv stamp bs s -> leaves_stamp o -> (forall now, o = New now -> now = stamp t) -> vstep s o = Some s' -> inv stamp (birth1 bs (t, o)) s'.
  Proof.
    intros I L N E. pose proof I as [I1 I2]. destruct o; cbn [vstep birth1 snd fst leaves_stamp] in *;
      try (eapply set_lgr_inv; [exact I|exact E|]; intros b l0 Hl);
      try (eapply set_cfg_inv; [exact I|exact E|]; intros c0 Hc).
    - injection E as <-. split; [|exact I2]. apply Forall_app. split; [exact I1|]. constructor; [|constructor]. intros k Hk. exact Hk.
    - unfold with_cfg in E. destruct (nth_error (configs s) h) as [c|] eqn:Ec; [|discriminate E]. injection E as <-. split; [|exact I2].
      apply Forall_app. split; [exact I1|]. constructor; [|constructor]. apply (proj1 (Forall_forall _ _) I1). eapply nth_error_In, Ec.
    - exact Hc.
    - exact Hc.
    - apply name_key_ok; tauto.
    - apply name_key_ok; [discriminate|exact L|exact Hc].
    - apply name_key_ok; [discriminate|exact L|exact Hc].
    - apply name_key_ok; [discriminate|exact L|exact Hc].
    - injection E as <-. split; [exact I1|]. cbn [new_lgr loggers]. apply Forall2_app; [exact I2|]. constructor; [|constructor].
      rewrite (N now eq_refl). split; [intros k Hk; exact Hk|]. cbn [l_fields]. unfold set. rewrite beq_refl. reflexivity.
    - unfold with_lgr in E. destruct (nth_error (loggers s) l) as [l1|]; [|discriminate E]. destruct (nth_error (configs s) h) as [c|] eqn:Ec; [|discriminate E].
      eapply set_lgr_inv; [exact I|exact E|]. intros b l0 [_ Hl]. split; [|exact Hl]. cbn [on_config l_config]. apply (proj1 (Forall_forall _ _) I1). eapply nth_error_In, Ec.
    - unfold with_lgr in E. destruct (nth_error (loggers s) l) as [l0|] eqn:El; [|discriminate E]. injection E as <-. split; [|exact I2].
      destruct (forall2_nth _ _ _ _ _ I2 El) as (b & _ & Hb & _). apply Forall_app. split; [exact I1|]. constructor; [exact Hb|constructor].
    - unfold with_lgr in E. destruct (nth_error (loggers s) l) as [l0|] eqn:El; [|discriminate E]. injection E as <-. split; [exact I1|].
      destruct (forall2_nth _ _ _ _ _ I2 El) as (b & Eb & Hb). cbn [new_lgr loggers]. apply Forall2_app; [exact I2|]. constructor; [|constructor].
      rewrite (nth_error_nth _ _ _ Eb). exact Hb.
    - apply put_stamp; assumption.
    - cbv beta. destruct (5 <=? c_level (l_config l0)); [apply put_stamp; assumption|exact Hl].
    - apply merge_stamp; assumption.
    - exact Hl.
    - exact Hl.
    - apply move_stamp; tauto.
    - apply move_stamp; [discriminate|exact L|exact Hl].
    - apply move_stamp; [discriminate|exact L|exact Hl].
    - apply move_stamp; [discriminate|exact L|exact Hl].
    - destruct e; exact Hl.
    - eapply log_inv; [exact I|exact E].
    - eapply log_inv; [exact I|exact E].
  Qed.
  Lemma run_inv stamp (h : timed) : forall s, stamped stamp h -> Forall leaves_stamp (map snd h) -> vrun nothing (map snd h) = Some s -> inv stamp (births h) s.
  Proof.
    induction h as [|[t o] h IH] using rev_ind; intros s St L E.
    - cbn in E. injection E as <-. split; constructor.
    - rewrite map_app in E, L. cbn [map snd] in E, L. rewrite vrun_snoc in E. apply Forall_app in L as [L1 L2]. inversion L2; subst.
      destruct (vrun nothing (map snd h)) as [s0|] eqn:E0; [|discriminate E].
      unfold births. rewrite fold_left_app. cbn [fold_left]. eapply step_inv; [apply IH; [|exact L1|reflexivity]|assumption| |exact E].
      + intros t0 now I. apply (St t0 now). apply in_or_app. auto.
      + intros now ->. apply (St t now). apply in_or_app. right. left. reflexivity.
  Qed.
  Lemma sim_run os st : run init os = Ok st -> exists s, vrun nothing os = Some s /\ sim marshal st s.
  Proof.
    revert st. induction os as [|o os IH] using rev_ind; intros st E.
    - cbn in E. injection E as <-. exists nothing. split; [reflexivity|]. split; [reflexivity|]. split; [reflexivity|]. split; [intros [|h] cf c; discriminate|].
      split; [intros [|i] v l; discriminate|]. exists []. split; [reflexivity|constructor].
    - rewrite run_snoc in E. destruct (run init os) as [st0|] eqn:E0; [|discriminate E]. destruct (IH st0 eq_refl) as (s0 & Ev & S).
      pose proof (step_sim order marshal order_ok st0 s0 o (ex_intro _ os E0) S) as X. rewrite E in X.
      destruct (vstep s0 o) as [s|] eqn:Es; [|contradiction]. exists s. rewrite vrun_snoc, Ev. auto.
  Qed.
  (** C165.  Proved: a record carries the time its logger was made (for a clone: its original), whenever it is written, unless
      the program itself uses the name @timestamp.  Missing (false): the time it is written. *)
  Theorem C165_stamp_partial : forall stamp (h : timed) st l v lvl w,
    stamped stamp h -> Forall leaves_stamp (map snd h) -> run init (map snd h) = Ok st ->
    logger_of st l = Some v -> cf_writer (v_config v) = Some w -> lvl <= cf_level (v_config v) ->
    exists b, nth_error (births h) l = Some b /\
      (exists st' rec, step st (Log l lvl) = Ok st' /\ writes marshal st st' w rec /\ aget ts rec = Some (FStr (stamp b))) /\
      forall msg, exists st' rec, step st (Logf l lvl msg) = Ok st' /\ writes marshal st st' w rec /\ aget ts rec = Some (FStr (stamp b)).
  Proof.
    intros stamp h st l v lvl w St L E Hv Hw Hl. destruct (sim_run _ _ E) as (s & Ev & S).
    destruct (run_inv stamp h s St L Ev) as [_ I]. pose proof S as (_ & S2 & _ & S4 & _).
    destruct (nth_error (loggers s) l) as [lv|] eqn:El.
    2:{ exfalso. apply nth_error_None in El. rewrite <- S2 in El. apply logger_len in Hv. lia. }
    destruct (forall2_nth _ _ _ _ _ I El) as (b & Eb & Hn & Hf). exists b. split; [exact Eb|].
    destruct (S4 l v lv Hv El) as (C & _ & _ & F).
    assert (Nm : forall k key, standard k = true -> k <> ts -> name_for (v_config v) k key -> key <> ts).
    { intros k key Sk Nk Hk. destruct C as (_ & _ & C & _). specialize (C k). rewrite Sk in C.
      destruct Hk as [Hk|[Hk _]]; rewrite C in Hk; [injection Hk as <-; apply Hn, Nk|discriminate Hk]. }
    assert (Rec : forall (v' : view V) (rec : fields V), v_config v' = v_config v -> aget ts (v_fields v') = Some (FStr (stamp b)) -> record_of v' rec -> aget ts rec = Some (FStr (stamp b))).
    { intros v' rec Ec Ef (lk & ek & ln & R1 & R2 & _ & R4). rewrite Ec in R1, R2. rewrite R4.
      rewrite (beq_ts ek), (beq_ts lk); [exact Ef|eapply (Nm (B"@level")); [reflexivity|discriminate|exact R1]|eapply (Nm (B"error.message")); [reflexivity|discriminate|exact R2]]. }
    destruct (C66_threshold order marshal (map snd h) st l v lvl E Hv) as [_ T]. destruct (T Hl w Hw) as [T1 T2]. split.
    - destruct T1 as (st' & rec & A1 & A2 & A3 & _). exists st', rec. split; [exact A1|]. split; [exact A2|]. eapply Rec; [reflexivity| |exact A3]. rewrite F. exact Hf.
    - intros msg. destruct (T2 msg) as (st' & rec & A1 & A2 & A3 & _). exists st', rec. split; [exact A1|]. split; [exact A2|].
      eapply Rec; [| |exact A3]; [reflexivity|]. cbn [v_fields]. rewrite aget_aput_other by discriminate. rewrite F. exact Hf.
  Qed.
End Stamps.

(** the claim: the record says when it was written *)
Definition C165_claim : Prop := forall (V : Type) order (marshal : fields V -> option bytes) (h : timed) st l v lvl w t,
  (forall A (m : list (bytes * A)), Permutation (order A m) m) ->
  in_time (h ++ [(t, Log l lvl)]) -> stamped (timestamp 0) h -> Forall leaves_stamp (map snd h) -> M_Logger.run order marshal init (map snd h) = Ok st ->
  logger_of st l = Some v -> cf_writer (v_config v) = Some w -> lvl <= cf_level (v_config v) ->
  forall st', M_Logger.step order marshal st (Log l lvl) = Ok st' -> exists rec, writes marshal st st' w rec /\ aget (B"@timestamp") rec = Some (FStr (timestamp 0 t)).
(** the text written is the time stamp *)
Definition stamp_marshal (f : fields unit) : option bytes := match aget (B"@timestamp") f with Some (FStr s) => Some s | _ => None end.
Theorem C165_time_of_record_refuted : ~ C165_claim.
Proof.
  intros H. set (h := [(0, new_at 0 0)] : timed (V := unit)).
  destruct (M_Logger.run (fun A m => m) stamp_marshal init (map snd h)) as [st|] eqn:E; [|vm_compute in E; discriminate E].
  destruct (logger_of st 0) as [v|] eqn:Ev; [|vm_compute in E; injection E as <-; vm_compute in Ev; discriminate Ev].
  destruct (M_Logger.step (fun A m => m) stamp_marshal st (Log 0 4)) as [st'|] eqn:Es; [|vm_compute in E; injection E as <-; vm_compute in Es; discriminate Es].
  specialize (H unit (fun A m => m) stamp_marshal h st 0%nat v 4 0%nat 1000000000 (fun A m => Permutation_refl _)).
  destruct (H) with (st' := st') as (rec & W & R); try assumption.
  - intros i j t t' L X Y. cbn in X, Y. destruct i as [|[|[|i]]], j as [|[|[|j]]]; cbn in X, Y; try discriminate; try lia; injection X as <-; injection Y as <-; lia.
  - intros t now [X|[]]. injection X as <- X. symmetry. exact X.
  - repeat constructor.
  - vm_compute in E. injection E as <-. vm_compute in Ev. injection Ev as <-. reflexivity.
  - vm_compute in E. injection E as <-. vm_compute in Ev. injection Ev as <-. cbn. lia.
  - vm_compute in E. injection E as <-. vm_compute in Es. injection Es as <-. unfold writes, stamp_marshal in W. rewrite R in W.
    destruct W as [(text & T & W)|[T _]]; [|discriminate T]. injection T as <-. vm_compute in W. discriminate W.
Qed.

(** ** C166: which text it is *)
Definition writable_at (f : Z -> date) (t : Z) : Prop := exists n c, at_ f t n (f n) c /\ 0 <= year (f n) <= 9999.
(** The text names, as a time in UTC, the reading of the local clock: the time itself plus how far the location is ahead of UTC. *)
Theorem C166_local_clock : forall f off t, calendar f -> writable_at f (t + off * 1000000000) -> names f (timestamp off t) (t + off * 1000000000).
Proof. intros f off t Cf (n & c & A & Y). eapply stamp_names; eassumption. Qed.
(** and nothing else *)
Theorem C166_one_reading : forall f s t t', calendar f -> names f s t -> names f s t' -> t / 1000000 = t' / 1000000.
Proof. intros f s t t' Cf. apply names_unique, Cf. Qed.
Definition C166_claim : Prop := forall f off t, calendar f -> writable_at f t -> writable_at f (t + off * 1000000000) -> names f (timestamp off t) t.
(** C166.  Proved: it is the time in UTC exactly if the location is UTC (or level with it).  Missing (false): everywhere else the
    "Z" is wrong. *)
Theorem C166_utc_partial : forall f off t, calendar f -> writable_at f (t + off * 1000000000) -> (names f (timestamp off t) t <-> off = 0).
Proof.
  intros f off t Cf W. pose proof (C166_local_clock f off t Cf W) as N. split.
  - intros N'. pose proof (names_unique f _ _ _ Cf N N'). lia.
  - intros ->. rewrite Z.mul_0_l, Z.add_0_r in N. exact N.
Qed.
Lemma writable_epoch t : 0 <= t < 86400000000000 -> writable_at cal t.
Proof.
  intros H. exists 0, (Clock (t / 3600000000000) (t / 60000000000 mod 60) (t / 1000000000 mod 60)).
  split; [|vm_compute; split; discriminate]. split; [reflexivity|]. unfold on_clock. cbn [hour minute second]. lia.
Qed.
Theorem C166_utc_refuted : ~ C166_claim.
Proof.
  intros H. specialize (H cal 3600 0 cal_calendar (writable_epoch 0 ltac:(lia)) (writable_epoch (0 + 3600 * 1000000000) ltac:(lia))).
  apply (C166_utc_partial cal 3600 0 cal_calendar (writable_epoch (0 + 3600 * 1000000000) ltac:(lia))) in H. discriminate H.
Qed.

(** ** C167: sorting *)
Definition C167_claim : Prop := forall f off t t', calendar f -> writable_at f (t + off * 1000000000) -> writable_at f (t' + off * 1000000000) ->
  t / 1000000 < t' / 1000000 -> sorts_before (timestamp off t) (timestamp off t').
(** C167.  Proved: stamps of different seconds of the local clock sort like the times, and stamps of different milliseconds differ.
    Missing (false): within one second, because zeros at the end are left out. *)
Theorem C167_sorted_partial : forall f off off' t t', calendar f -> writable_at f (t + off * 1000000000) -> writable_at f (t' + off' * 1000000000) ->
  (t / 1000000000 + off < t' / 1000000000 + off' -> sorts_before (timestamp off t) (timestamp off' t')) /\
  (t / 1000000 + off * 1000 <> t' / 1000000 + off' * 1000 -> timestamp off t <> timestamp off' t').
Proof.
  intros f off off' t t' Cf W W'. pose proof (C166_local_clock f off t Cf W) as N. pose proof (C166_local_clock f off' t' Cf W') as N'. split.
  - intros L. eapply names_sorted; [exact Cf|exact N|exact N'|]. lia.
  - intros D E. rewrite <- E in N'. pose proof (names_unique f _ _ _ Cf N N'). lia.
Qed.
Lemma sorts_tail a s s' : sorts_before (a :: s) (a :: s') -> sorts_before s s'.
Proof. intros H. inversion H; subst; [lia|assumption]. Qed.
Theorem C167_sorted_refuted : ~ C167_claim.
Proof.
  intros H. specialize (H cal 0 0 500000000 cal_calendar (writable_epoch (0 + 0 * 1000000000) ltac:(lia)) (writable_epoch (500000000 + 0 * 1000000000) ltac:(lia)) ltac:(lia)).
  assert (E1 : timestamp 0 0 = B"1970-01-01T00:00:00Z") by (vm_compute; reflexivity). assert (E2 : timestamp 0 500000000 = B"1970-01-01T00:00:00.5Z") by (vm_compute; reflexivity).
  rewrite E1, E2 in H. repeat apply sorts_tail in H. inversion H as [| |]; subst. match goal with X : (_ < _)%N |- _ => vm_compute in X; discriminate X end.
Qed.

(** ** Concrete cases *)
Definition x165 : timed (V := unit) :=
  [(1000000000, new_at 0 1000000000); (2000000000, Add 0 (B"user") (FAny tt)); (3000000000, LgClone 0); (4000000000, new_at 0 4000000000); (5000000000, LevelKey 1 (B"lvl"))].
Example C165_case : stamped (timestamp 0) x165 /\ Forall leaves_stamp (map snd x165) /\ births x165 = [1000000000; 1000000000; 4000000000] /\
  exists st v, M_Logger.run (fun A m => m) stamp_marshal init (map snd x165) = Ok st /\ logger_of st 1 = Some v /\ cf_writer (v_config v) = Some 0%nat /\ 4 <= cf_level (v_config v) /\
    (* logged at any time after that *)
    match M_Logger.step (fun A m => m) stamp_marshal st (Log 1 4) with Ok st' => st_out st' = [EWrite 0 (B"1970-01-01T00:00:01Z" ++ [ch 10])] | Panic => False end.
Proof.
  split; [intros t now I; cbn in I; repeat (destruct I as [I|I]; [first [discriminate I|injection I as <- I; symmetry; exact I]|]); destruct I|].
  split; [repeat constructor; discriminate|]. split; [reflexivity|].
  eexists _, _. split; [vm_compute; reflexivity|]. split; [vm_compute; reflexivity|]. split; [reflexivity|]. split; [cbn; lia|]. vm_compute. reflexivity.
Qed.
Example C166_case : writable_at cal 0 /\ timestamp 0 0 = B"1970-01-01T00:00:00Z" /\ timestamp 3600 0 = B"1970-01-01T01:00:00Z" /\
  timestamp 7200 1700000000120000000 = B"2023-11-15T00:13:20.12Z".
Proof. split; [apply writable_epoch; lia|]. repeat split; vm_compute; reflexivity. Qed.
Example C167_case : writable_at cal 0 /\ writable_at cal 1000000000 /\ sorts_before (timestamp 0 500000000) (timestamp 0 0) /\ sorts_before (timestamp 0 510000000) (timestamp 0 500000000) /\
  sorts_before (timestamp 0 500000000) (timestamp 0 1000000000).
Proof.
  split; [apply writable_epoch; lia|]. split; [apply writable_epoch; lia|].
  split; [|split]; match goal with |- sorts_before ?a ?b => let x := eval vm_compute in a in let y := eval vm_compute in b in change (sorts_before x y) end;
  repeat (apply B_same); apply B_less; vm_compute; reflexivity.
Qed.

Print Assumptions C165_stamp_partial.
Print Assumptions C165_time_of_record_refuted.
Print Assumptions C166_local_clock.
Print Assumptions C166_one_reading.
Print Assumptions C166_utc_partial.
Print Assumptions C166_utc_refuted.
Print Assumptions C167_sorted_partial.
Print Assumptions C167_sorted_refuted.
