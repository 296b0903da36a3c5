(** C101-C103: what may be used from several goroutines at the same time. *)
From Verif Require Import Base M_Share S_Share P_Share.

Definition all_lmethods : list lmethod :=
  [LSetConfig; LConfig; LClone; LAdd; LAddDebug; LMerge; LWriter; LIsDebug; LLevel; LSetLevel; LStdKeys; LError; LLog; LLogf].
Lemma all_lmethods_in : forall m, In m all_lmethods.
Proof. intros []; cbn; tauto. Qed.
Definition all_cmethods : list cmethod := [CfClone; CfCurrentKey; CfLevel; CfWriter; CfSetWriter; CfStdKeys; CfSetLevel].
Lemma all_cmethods_in : forall m, In m all_cmethods.
Proof. intros []; cbn; tauto. Qed.
Definition all_smethods : list smethod :=
  [SServer; SSetServer; SSetBaseAuth; SSetListener; SServerName; SSetServerName; SSetServerTLS; SShutdownTimeOut;
   SSetShutdownTimeOut; SLoggerWriter; SSetLoggerWriter; SSetLogLevel; SLogLevel; SDebugf; SSesInit; SShutdown;
   SAuthSetMessage; SAuthSetCheckAccess; SAuthSetLogFunc; SAuthMessage; SAuthSetUse; SAuthUse; SAuthSetRoles; SAuthRoles;
   SRequest; SServe; SWatch].
Lemma all_smethods_in : forall m, In m all_smethods.
Proof. intros []; cbn; tauto. Qed.
Definition all_xmethods : list xmethod :=
  [XClone; XCtx; XWrite; XSetLogger; XGetLogger; XSetLoggerLevel; XLoggerLevel; XUrlAdd; XCookieGet; XPeekParam;
   XSqueezeParams; XSet; XGet; XSetSameSite; XStop; XSkipMain; XAbort; XIsAborted; XIsStopped; XDebugf; XSetCookie;
   XEGGo; XEGSetLimit; XAddDebugHandleName; XCalledHandles; XLogf; XPipeline].
Lemma all_xmethods_in : forall m, In m all_xmethods.
Proof. intros []; cbn; tauto. Qed.

Lemma logger_exact : exactb logger_traces logger_clash all_lmethods = true.
Proof. vm_compute. reflexivity. Qed.
Lemma config_exact : exactb (config_traces false) config_clash all_cmethods = true.
Proof. vm_compute. reflexivity. Qed.
Lemma server_exact : exactb server_traces server_clash all_smethods = true.
Proof. vm_compute. reflexivity. Qed.
Lemma context_exact : exactb context_traces context_clash all_xmethods = true.
Proof. vm_compute. reflexivity. Qed.

(** ** C101 *)
(** The full claim: any number of goroutines, calling any methods of one Logger any number
    of times, never race. *)
Definition C101_claim : Prop :=
  forall gs progs, Forall2 (calls logger_traces) gs progs -> race_free progs.
Lemma calls_one : forall {M} (traces : M -> list trace) m t, In t (traces m) -> calls traces [m] t.
Proof. intros M traces m t I. rewrite <- (app_nil_r t). constructor; [assumption|constructor]. Qed.
Lemma claim_fails : forall {M} (traces : M -> list trace) (clash : M -> M -> bool) all,
  (forall m, In m all) -> exactb traces clash all = true -> forall m n, clash m n = true ->
  ~ (forall gs progs, Forall2 (calls traces) gs progs -> Forall (fun g => g = [m] \/ g = [n]) gs -> race_free progs).
Proof.
  intros M traces clash all A E m n C H.
  destruct (proj1 (exact_clash traces clash all A E m n) C) as (t & u & It & Iu & R).
  apply R, (H [[m]; [n]]).
  - constructor; [apply calls_one; assumption|constructor; [apply calls_one; assumption|constructor]].
  - constructor; [left; reflexivity|constructor; [right; reflexivity|constructor]].
Qed.
(** It fails: two goroutines that print with one Logger race on its field map. *)
Theorem C101_loggers_can_be_shared_refuted : ~ C101_claim.
Proof.
  intros H. refine (claim_fails logger_traces logger_clash _ all_lmethods_in logger_exact LLogf LLogf eq_refl _).
  intros gs progs F _. exact (H gs progs F).
Qed.
(** The table of [logger_clash] is exact: two overlapping calls can race just if listed. *)
Theorem C101_clash_table_exact : forall m n,
  logger_clash m n = true <-> exists t u, In t (logger_traces m) /\ In u (logger_traces n) /\ ~ race_free [t; u].
Proof. apply (exact_clash _ _ _ all_lmethods_in logger_exact). Qed.
(** What holds: without such a pair in different goroutines, nothing races, for any number
    of goroutines and calls. *)
Theorem C101_unlisted_calls_share_a_logger_partial : forall gs progs,
  Forall2 (calls logger_traces) gs progs ->
  (forall i j a b m n, i <> j -> nth_error gs i = Some a -> nth_error gs j = Some b ->
     In m a -> In n b -> logger_clash m n = false) ->
  race_free progs.
Proof. apply (exact_calls _ _ _ all_lmethods_in logger_exact). Qed.
(** The same for a Config. *)
Theorem C101_config_clash_table_exact : forall m n,
  config_clash m n = true <-> exists t u, In t (config_traces false m) /\ In u (config_traces false n) /\ ~ race_free [t; u].
Proof. apply (exact_clash _ _ _ all_cmethods_in config_exact). Qed.
Theorem C101_unlisted_calls_share_a_config_partial : forall gs progs,
  Forall2 (calls (config_traces false)) gs progs ->
  (forall i j a b m n, i <> j -> nth_error gs i = Some a -> nth_error gs j = Some b ->
     In m a -> In n b -> config_clash m n = false) ->
  race_free progs.
Proof. apply (exact_calls _ _ _ all_cmethods_in config_exact). Qed.
(** Adding fields and errors, cloning the configuration and reading the level can be done
    from any number of goroutines, with one of them emitting records with Log. *)
Theorem C101_collecting_is_safe : forall gs progs,
  Forall2 (calls logger_traces) gs progs ->
  Forall (Forall (fun m => In m [LAdd; LAddDebug; LMerge; LError; LConfig; LIsDebug; LLevel; LLog])) gs ->
  race_free progs.
Proof.
  intros gs progs F A. apply (C101_unlisted_calls_share_a_logger_partial gs progs F).
  intros i j a b m n _ Ha Hb Im In'.
  apply nth_error_In in Ha. apply nth_error_In in Hb. rewrite Forall_forall in A.
  pose proof (A a Ha) as Aa. pose proof (A b Hb) as Ab. rewrite Forall_forall in Aa, Ab.
  specialize (Aa m Im). specialize (Ab n In').
  cbn in Aa, Ab. intuition subst; reflexivity.
Qed.
Print Assumptions C101_loggers_can_be_shared_refuted.
Print Assumptions C101_clash_table_exact.
Print Assumptions C101_unlisted_calls_share_a_logger_partial.
Print Assumptions C101_config_clash_table_exact.
Print Assumptions C101_unlisted_calls_share_a_config_partial.
Print Assumptions C101_collecting_is_safe.

(** three goroutines: fields, errors, records *)
Example C101_example : exists progs,
  Forall2 (calls logger_traces) [[LAdd; LAdd; LMerge]; [LError; LLog]; [LAddDebug; LLog; LLog]] progs /\
  race_free progs /\ Forall (fun p => length p > 6) progs.
Proof.
  assert (C : forall ms, exists p, calls logger_traces ms p /\ p = concat (map (fun m => last (logger_traces m) []) ms)).
  { induction ms as [|m ms (p & C & E)]; [exists []; split; [constructor|reflexivity]|].
    exists (last (logger_traces m) [] ++ p). split; [|cbn [map concat]; rewrite E; reflexivity].
    constructor; [destruct m; cbn; tauto|assumption]. }
  destruct (C [LAdd; LAdd; LMerge]) as (p1 & C1 & E1), (C [LError; LLog]) as (p2 & C2 & E2), (C [LAddDebug; LLog; LLog]) as (p3 & C3 & E3).
  exists [p1; p2; p3]. split; [|split].
  - repeat (constructor; [assumption|]). constructor.
  - apply (C101_collecting_is_safe [[LAdd; LAdd; LMerge]; [LError; LLog]; [LAddDebug; LLog; LLog]]).
    + repeat (constructor; [assumption|]). constructor.
    + repeat constructor; cbn; tauto.
  - subst. vm_compute. repeat constructor.
Qed.

(** ** C102 *)
(** A running server (S_Share has the tables): the goroutines of Run, at least one request
    being served, and a goroutine that changes the given settings. *)
Definition running (sets : list smethod) (gs : list (list smethod)) : Prop :=
  exists n, gs = [SServe] :: [SWatch] :: sets :: [SRequest] :: repeat [SRequest] n.
(** The full claim: settings can be changed while the server runs. *)
Definition C102_claim : Prop :=
  forall sets gs progs, incl sets setters -> running sets gs -> Forall2 (calls server_traces) gs progs -> race_free progs.

Lemma background : forall sets gs i j a b m n, (forall s, In s sets -> s = SSetServerName \/ s = SSetLoggerWriter) -> running sets gs ->
  i <> j -> nth_error gs i = Some a -> nth_error gs j = Some b -> In m a -> In n b -> server_clash m n = false.
Proof.
  intros sets gs i j a b m n Safe (k & ->) Ne Ha Hb Im In'.
  assert (Cases : forall i a m, nth_error ([SServe] :: [SWatch] :: sets :: [SRequest] :: repeat [SRequest] k) i = Some a -> In m a ->
            (i = 0 /\ m = SServe) \/ (i = 1 /\ m = SWatch) \/ (i = 2 /\ (m = SSetServerName \/ m = SSetLoggerWriter)) \/ (3 <= i /\ m = SRequest)).
  { clear -Safe. intros [|[|[|[|i]]]] a m H I; cbn [nth_error] in H; [| | | |apply nth_error_In, repeat_spec in H; subst; destruct I as [<-|[]]; right; right; right; split; [lia|reflexivity]];
      inversion H; subst; [destruct I as [<-|[]]; auto|destruct I as [<-|[]]; auto| |destruct I as [<-|[]]; right; right; right; split; [lia|reflexivity]].
    right. right. left. split; [reflexivity|]. auto. }
  destruct (Cases i a m Ha Im) as [[Ei ->]|[[Ei ->]|[[Ei [->| ->]]|[Ei ->]]]];
    destruct (Cases j b n Hb In') as [[Ej ->]|[[Ej ->]|[[Ej [->| ->]]|[Ej ->]]]]; try reflexivity; subst; try congruence.
Qed.
Definition unsafe_setting (s : smethod) : bool :=
  existsb (fun u => existsb (fun t => raceb t u || raceb2 t u) (server_traces SServe)) (server_traces s) ||
  existsb (fun u => existsb (fun t => raceb t u || raceb2 t u) (server_traces SWatch)) (server_traces s) ||
  existsb (fun u => existsb (fun t => raceb u t || raceb2 u t) (server_traces SRequest)) (server_traces s).
Lemma unsafe_races : forall s, unsafe_setting s = true ->
  exists gs progs, running [s] gs /\ Forall2 (calls server_traces) gs progs /\ ~ race_free progs.
Proof.
  intros s U. exists [[SServe]; [SWatch]; [s]; [SRequest]].
  assert (C : forall a b c d, In a (server_traces SServe) -> In b (server_traces SWatch) -> In c (server_traces s) -> In d (server_traces SRequest) ->
            Forall2 (calls server_traces) [[SServe]; [SWatch]; [s]; [SRequest]] [a; b; c; d]).
  { intros. repeat (constructor; [apply calls_one; assumption|]). constructor. }
  set (a0 := [Rd VCert; Rd VSrv; Rd VListener]). set (d0 := [Rd VAuth; Rd AUse]).
  assert (Ia : In a0 (server_traces SServe)) by (left; reflexivity).
  assert (Ib : In [] (server_traces SWatch)) by (left; reflexivity).
  assert (Id : In d0 (server_traces SRequest)) by (left; reflexivity).
  unfold unsafe_setting in U. apply orb_prop in U. destruct U as [U|U]; [apply orb_prop in U; destruct U as [U|U]|];
    apply existsb_exists in U; destruct U as (u & Iu & U); apply existsb_exists in U; destruct U as (t & It & U).
  - exists [t; []; u; d0]. split; [exists 0; reflexivity|split; [apply C; assumption|]].
    exact (race_among_others [] [[]] [d0] t u U).
  - exists [a0; t; u; d0]. split; [exists 0; reflexivity|split; [apply C; assumption|]].
    exact (race_among_others [a0] [] [d0] t u U).
  - exists [a0; []; u; t]. split; [exists 0; reflexivity|split; [apply C; assumption|]].
    exact (race_among_others [a0; []] [] [] u t U).
Qed.
(** It fails, for instance for SetLogLevel. *)
Theorem C102_settings_can_change_while_serving_refuted : ~ C102_claim.
Proof.
  intros H. destruct (unsafe_races SSetLogLevel ltac:(vm_compute; reflexivity)) as (gs & progs & R & C & N).
  apply N. refine (H _ gs progs _ R C). intros s [<-|[]]. cbn. tauto.
Qed.
(** What holds: changing the server name and the log writer is safe, with any number of
    requests being served; requests do not race with each other. *)
Theorem C102_name_and_writer_can_change_partial : forall sets gs progs,
  incl sets [SSetServerName; SSetLoggerWriter] -> running sets gs -> Forall2 (calls server_traces) gs progs -> race_free progs.
Proof.
  intros sets gs progs I R F. apply (exact_calls _ _ _ all_smethods_in server_exact gs progs F).
  intros i j a b m n. apply (background sets gs); [|assumption].
  intros s Is. destruct (I s Is) as [<-|[<-|[]]]; auto.
Qed.
(** Every other setting can race. *)
Theorem C102_other_settings_race : forall s, In s setters ->
  ((forall gs progs, running [s] gs -> Forall2 (calls server_traces) gs progs -> race_free progs) <->
   s = SSetServerName \/ s = SSetLoggerWriter).
Proof.
  intros s I. split.
  - intros H. assert (D : unsafe_setting s = true \/ s = SSetServerName \/ s = SSetLoggerWriter).
    { cbn in I. intuition subst; first [left; vm_compute; reflexivity|right; tauto]. }
    destruct D as [U|D]; [|assumption]. destruct (unsafe_races s U) as (gs & progs & R & C & N). destruct (N (H gs progs R C)).
  - intros D gs progs R C. apply (C102_name_and_writer_can_change_partial [s] gs progs); [|assumption|assumption].
    intros x [<-|[]]. destruct D as [->| ->]; cbn; tauto.
Qed.
(** The table of [server_clash] is exact for every pair of methods, and calls of unlisted
    pairs never race. *)
Theorem C102_clash_table_exact : forall m n,
  server_clash m n = true <-> exists t u, In t (server_traces m) /\ In u (server_traces n) /\ ~ race_free [t; u].
Proof. apply (exact_clash _ _ _ all_smethods_in server_exact). Qed.
Theorem C102_unlisted_calls_are_safe : forall gs progs,
  Forall2 (calls server_traces) gs progs ->
  (forall i j a b m n, i <> j -> nth_error gs i = Some a -> nth_error gs j = Some b ->
     In m a -> In n b -> server_clash m n = false) ->
  race_free progs.
Proof. apply (exact_calls _ _ _ all_smethods_in server_exact). Qed.
Print Assumptions C102_settings_can_change_while_serving_refuted.
Print Assumptions C102_name_and_writer_can_change_partial.
Print Assumptions C102_other_settings_race.
Print Assumptions C102_clash_table_exact.
Print Assumptions C102_unlisted_calls_are_safe.
Example C102_example : exists gs progs, running [SSetLoggerWriter; SSetServerName] gs /\
  Forall2 (calls server_traces) gs progs /\ length progs = 5 /\ Forall (fun p => length p > 1) progs.
Proof.
  exists [[SServe]; [SWatch]; [SSetLoggerWriter; SSetServerName]; [SRequest]; [SRequest]],
    [[Rd VCert; Rd VSrv; Rd VListener]; [Rd VTimeout; Rd VSrv]; [Lk KShared; Wr SWriter; Ul KShared] ++ [Wr VName] ++ [];
     [Rd VAuth; Rd AUse]; [Rd VAuth; Rd AUse; Rd VCtx; Rd VInit; Rd VInit; Lk KShared; Rd SWriter; Rd SLevel; Rd SKeys; Ul KShared; Rd SLevel]].
  split; [exists 1; reflexivity|split; [|split; [reflexivity|repeat constructor]]].
  repeat (apply Forall2_cons; [first [apply calls_one; vm_compute; tauto|constructor; [vm_compute; tauto|apply calls_one; vm_compute; tauto]]|]).
  constructor.
Qed.

(** ** C103 *)
(** The full claim: the methods of a Context can be called from the goroutines started with
    EGGo, at the same time as the following handlers run. *)
Definition C103_claim : Prop :=
  forall gs progs, Forall2 (calls context_traces) gs progs ->
    (forall i g, nth_error gs i = Some g -> i > 0 -> ~ In XPipeline g) -> race_free progs.
(** It fails: two goroutines that read parameters race (the query is parsed at the first
    use); so does a goroutine that calls Stop with the pipeline. *)
Theorem C103_context_methods_from_goroutines_refuted : ~ C103_claim.
Proof.
  intros H. refine (claim_fails context_traces context_clash _ all_xmethods_in context_exact XPeekParam XPeekParam eq_refl _).
  intros gs progs F A. apply (H gs progs F). intros i g N _ I. apply nth_error_In in N. rewrite Forall_forall in A.
  destruct (A g N) as [->| ->]; destruct I as [|[]]; discriminate.
Qed.
Theorem C103_stop_from_a_goroutine_races : exists t u,
  In t (context_traces XPipeline) /\ In u (context_traces XStop) /\ ~ race_free [t; u].
Proof. apply (exact_clash _ _ _ all_xmethods_in context_exact). reflexivity. Qed.
(** The table of [context_clash] is exact, and calls of unlisted pairs never race. *)
Theorem C103_clash_table_exact : forall m n,
  context_clash m n = true <-> exists t u, In t (context_traces m) /\ In u (context_traces n) /\ ~ race_free [t; u].
Proof. apply (exact_clash _ _ _ all_xmethods_in context_exact). Qed.
Theorem C103_unlisted_calls_are_safe_partial : forall gs progs,
  Forall2 (calls context_traces) gs progs ->
  (forall i j a b m n, i <> j -> nth_error gs i = Some a -> nth_error gs j = Some b ->
     In m a -> In n b -> context_clash m n = false) ->
  race_free progs.
Proof. apply (exact_calls _ _ _ all_xmethods_in context_exact). Qed.
(** What may be called from any goroutine, while the handlers use anything but SetLogger and
    EGSetLimit: Ctx, Logger, Debugf and EGGo. *)
Theorem C103_always_safe : forall gs progs handlers,
  Forall2 (calls context_traces) (handlers :: gs) progs ->
  ~ In XSetLogger handlers -> ~ In XEGSetLimit handlers ->
  Forall (fun g => incl g [XCtx; XGetLogger; XDebugf; XEGGo]) gs -> race_free progs.
Proof.
  intros gs progs handlers F N1 N2 A. apply (C103_unlisted_calls_are_safe_partial _ _ F).
  assert (Safe : forall m n, In m [XCtx; XGetLogger; XDebugf; XEGGo] -> n <> XSetLogger -> n <> XEGSetLimit -> context_clash m n = false /\ context_clash n m = false).
  { intros m n I Na Nb. cbn in I. destruct n; try congruence; intuition subst; reflexivity. }
  assert (Ne : forall m, In m [XCtx; XGetLogger; XDebugf; XEGGo] -> m <> XSetLogger /\ m <> XEGSetLimit).
  { intros m I. cbn in I. intuition subst; discriminate. }
  assert (G : forall i g m, nth_error gs i = Some g -> In m g -> In m [XCtx; XGetLogger; XDebugf; XEGGo]).
  { intros i g m H I. apply nth_error_In in H. rewrite Forall_forall in A. exact (A g H m I). }
  intros [|i] [|j] a b m n Hij Ha Hb Im In'; cbn [nth_error] in Ha, Hb.
  - congruence.
  - inversion Ha; subst. apply (Safe n m); [exact (G j b n Hb In')|intros ->; auto|intros ->; auto].
  - inversion Hb; subst. apply (Safe m n); [exact (G i a m Ha Im)|intros ->; auto|intros ->; auto].
  - apply (Safe m n); [exact (G i a m Ha Im)| |]; apply Ne; exact (G j b n Hb In').
Qed.
Print Assumptions C103_context_methods_from_goroutines_refuted.
Print Assumptions C103_stop_from_a_goroutine_races.
Print Assumptions C103_clash_table_exact.
Print Assumptions C103_unlisted_calls_are_safe_partial.
Print Assumptions C103_always_safe.
Example C103_example : exists progs,
  Forall2 (calls context_traces) [[XPipeline; XSet; XWrite]; [XCtx; XDebugf]; [XGetLogger; XDebugf]] progs /\
  race_free progs /\ Forall (fun p => length p > 3) progs.
Proof.
  assert (C : forall ms, exists p, calls context_traces ms p /\ p = concat (map (fun m => last (context_traces m) []) ms)).
  { induction ms as [|m ms (p & C & E)]; [exists []; split; [constructor|reflexivity]|].
    exists (last (context_traces m) [] ++ p). split; [|cbn [map concat]; rewrite E; reflexivity].
    constructor; [destruct m; vm_compute; tauto|assumption]. }
  destruct (C [XPipeline; XSet; XWrite]) as (p1 & C1 & E1), (C [XCtx; XDebugf]) as (p2 & C2 & E2), (C [XGetLogger; XDebugf]) as (p3 & C3 & E3).
  exists [p1; p2; p3].
  assert (F : Forall2 (calls context_traces) [[XPipeline; XSet; XWrite]; [XCtx; XDebugf]; [XGetLogger; XDebugf]] [p1; p2; p3])
    by (repeat (constructor; [assumption|]); constructor).
  split; [exact F|split].
  - apply (C103_always_safe _ _ _ F).
    + cbn. intuition discriminate.
    + cbn. intuition discriminate.
    + constructor; [intros x I; cbn in *; tauto|constructor; [intros x I; cbn in *; tauto|constructor]].
  - subst. vm_compute. repeat constructor.
Qed.
