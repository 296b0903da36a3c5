(** C105-C108: requests whose handlers start goroutines - lifetime, Ctx(), limits, errors. *)
From Verif Require Import Base GoErrors M_Pipeline M_Group S_Group P_Group P_Group2 P_Group3 P_Group4 P_Group5.

Lemma event_at : forall s ses path post x pre, user_request s ses -> history s ses path (post ++ x :: pre) ->
  exists y1 p1 y2 p2, areach s ses path y1 p1 /\ astep s ses path y1 p1 y2 p2 /\ y_trace y1 = pre /\ y_trace y2 = x :: pre.
Proof.
  intros s ses path post x pre U H. destruct (history_areach _ _ _ U _ H) as (y & p & A & _ & E).
  exact (moment s ses path post x pre y p A E).
Qed.
Lemma mark_at : forall s ses path post m pre, user_request s ses -> history s ses path (post ++ (None, EMark m) :: pre) ->
  exists y p p', areach s ses path y p /\ y_trace y = pre /\ cstep s ses path p (EMark m) p'.
Proof.
  intros s ses path post m pre U H. destruct (event_at _ _ _ _ _ _ U H) as (y1 & p1 & y2 & p2 & A & St & E1 & E2).
  exists y1, p1, p2. split; [exact A|]. split; [exact E1|].
  destruct (astep_cases _ _ _ _ _ _ _ St) as [(e & C & Et & _)|(_ & (w & e & O & Et & _) & _)]; rewrite E2, E1 in Et; inversion Et; subst.
  - exact C.
  - exfalso. eapply other_not_mark; [exact O|reflexivity].
Qed.
Lemma mark_start : forall s ses path w p p', cstep s ses path p (EMark (MStart w)) p' -> p = PStart w.
Proof.
  intros s ses path w p p' C. inversion C as [| w0 q0 e0 q0' Ue| | | | | | | | |]; subst; [reflexivity|inversion Ue].
Qed.
Lemma mark_return : forall s ses path r p p', cstep s ses path p (EMark (MReturn r)) p' -> p = PRet r.
Proof.
  intros s ses path r p p' C. inversion C as [| w0 q0 e0 q0' Ue| | | | | | | | |]; subst; [inversion Ue|reflexivity].
Qed.

(** ** C105: goroutines and the end of the request *)
Definition C105_claim : Prop := forall s ses path post r pre, user_request s ses ->
  history s ses path (post ++ (None, EMark (MReturn (RRet r))) :: pre) -> all_gone pre.
(** whatever happens, all goroutines have ended when the last handler is called *)
Theorem C105_gone_before_last_partial : forall s ses path post e pre, user_request s ses ->
  history s ses path (post ++ (None, EMark (MStart (WLast e))) :: pre) -> all_gone pre.
Proof.
  intros s ses path post e pre U H. destruct (mark_at _ _ _ _ _ _ U H) as (y & p & p' & A & <- & C). apply mark_start in C. subst p.
  destruct (quiet_areach _ _ _ U _ _ A) as [Q _]. apply idle_all_gone; [eapply books_areach; exact A|exact Q].
Qed.
(** and when the request returns, unless it was aborted, refused by the initialiser, or the
    last handler started some *)
Theorem C105_gone_at_return_partial : forall s ses path post r pre, user_request s ses ->
  history s ses path (post ++ (None, EMark (MReturn (RRet r))) :: pre) ->
  ~ happened (EAct DoAbort) pre -> ~ init_failed pre -> late pre = 0 -> all_gone pre.
Proof.
  intros s ses path post r pre U H Na Ni L. destruct (mark_at _ _ _ _ _ _ U H) as (y & p & p' & A & <- & C). apply mark_return in C. subst p.
  destruct (out_areach _ _ _ U _ _ A) as [X|[X|X]]; [contradiction|contradiction|].
  apply idle_all_gone; [eapply books_areach; exact A|exact (X L)].
Qed.

(** *** concrete requests *)
Lemma reach_cons : forall a b c, step a b -> reach b c -> reach a c.
Proof. intros a b c St R. induction R as [|y y' R IH St']; [eapply reach_step; [constructor|exact St]|eapply reach_step; eassumption]. Qed.
Ltac side := first [reflexivity|discriminate|lia|cbn; congruence].
Ltac main := eapply reach_cons; [eapply S_main; [reflexivity|once (econstructor; side)]|lazy].
Ltac main_done := eapply reach_cons; [eapply S_main; [reflexivity|apply P_wait; reflexivity]|cbn].
Definition ok : prog := Ret (HRet None).
Definition set_of (init run : prog) (last : option (option err -> prog)) : gset := GSet [] [] last (Some (init, run)).
Lemma user_set : forall i m l ses, user i -> user m -> (forall f, l = Some f -> forall e, user (f e)) -> (forall p, ses = Some p -> user p) ->
  user_request (set_of i m l) ses.
Proof. intros. constructor; cbn; auto. intros a b E. injection E as <- <-. auto. Qed.
Definition goroutine_then (a : act) : prog := Go ok (Act a ok).
Definition outlives (s : gset) (ses : option prog) : Prop :=
  exists post r pre, history s ses [] (post ++ (None, EMark (MReturn (RRet r))) :: pre) /\ ~ all_gone pre.
Ltac not_gone := intros Hg; specialize (Hg 0 (le_n 1)); cbn in Hg; repeat (destruct Hg as [Hg|Hg]; [discriminate|]); destruct Hg.
Tactic Notation "outlive" integer(n) := unfold outlives; exists []; do 2 eexists; split;
  [eexists; split; [unfold reaches; lazy; do n main; apply reach_start|cbn; reflexivity]|not_gone].
(** each of the conditions above is needed *)
Theorem C105_each_condition_matters :
  outlives (set_of ok (goroutine_then DoAbort) None) None /\
  outlives (set_of ok ok None) (Some (Go ok (Ret (HRet (Some (EUser 1 (B"no"))))))) /\
  outlives (set_of ok ok (Some (fun _ => Go ok ok))) None.
Proof.
  split; [|split].
  - outlive 10.
  - outlive 4.
  - outlive 12.
Qed.
Lemma user_abort_example : user_request (set_of ok (goroutine_then DoAbort) None) None.
Proof. apply user_set; cbn; auto; discriminate. Qed.
Theorem C105_goroutines_outlive_refuted : ~ C105_claim.
Proof.
  intros H. destruct C105_each_condition_matters as [(post & r & pre & Hh & N) _]. apply N. exact (H _ _ _ _ _ _ user_abort_example Hh).
Qed.
(** the theorems above are about requests that do start goroutines: one that ends before the
    last handler *)
Example C105_example : exists post e pre,
  history (set_of ok (Go ok ok) (Some (fun _ => ok))) None [] (post ++ (None, EMark (MStart (WLast e))) :: pre) /\ started pre = 1.
Proof.
  exists []. do 2 eexists. split.
  - eexists. split. { unfold reaches. lazy. do 8 main.
    eapply reach_cons; [eapply (S_returned _ _ [] []); reflexivity|lazy].
    eapply reach_cons; [eapply (S_gone _ _ [] []); reflexivity|lazy].
    do 2 main. apply reach_start. } cbn; reflexivity.
  - reflexivity.
Qed.
Print Assumptions C105_gone_at_return_partial.
Print Assumptions C105_gone_before_last_partial.
Print Assumptions C105_goroutines_outlive_refuted.

(** ** C106: when Ctx() is done *)
Definition ended_context (tr : log) : Prop := exists w e, In (w, e) tr /\ ends_context e.
(** ... is told exactly, whoever asks: *)
Theorem C106_ctx_done_exactly : forall s ses path post w b pre, user_request s ses ->
  history s ses path (post ++ (w, ESaw b) :: pre) -> (b = true <-> ended_context pre).
Proof.
  intros s ses path post w b pre U H. destruct (event_at _ _ _ _ _ _ U H) as (y1 & p1 & y2 & p2 & A & St & E1 & E2).
  pose proof (context_areach _ _ _ _ _ A) as C. unfold context_ok in C. unfold ended_context. rewrite <- E1, <- C.
  destruct St; cbn [y_trace y_sh] in *; rewrite E1 in E2; inversion E2; subst; clear E2;
    match goal with P : pstep _ _ _ _ _ _ _ |- _ => inversion P; subst; reflexivity end.
Qed.
(** ... and who waits for it goes on only then; after the request has returned it always is *)
Theorem C106_woken_only_then : forall s ses path post w pre, user_request s ses ->
  history s ses path (post ++ (w, EWoken) :: pre) -> ended_context pre.
Proof.
  intros s ses path post w pre U H. destruct (event_at _ _ _ _ _ _ U H) as (y1 & p1 & y2 & p2 & A & St & E1 & E2).
  pose proof (context_areach _ _ _ _ _ A) as C. unfold context_ok in C. unfold ended_context. rewrite <- E1. apply C.
  destruct St; cbn [y_trace y_sh] in *; rewrite E1 in E2; inversion E2; subst; clear E2;
    match goal with P : pstep _ _ _ _ _ _ _ |- _ => inversion P; subst; assumption end.
Qed.
Theorem C106_done_after_return : forall s ses path post w b pre r, user_request s ses ->
  history s ses path (post ++ (w, ESaw b) :: pre) -> happened (EMark (MReturn r)) pre -> b = true.
Proof.
  intros s ses path post w b pre r U H (x & I). apply (C106_ctx_done_exactly _ _ _ _ _ _ _ U H). exists x, (EMark (MReturn r)).
  split; [exact I|exact Logic.I].
Qed.
(** a waiting goroutine can always go on once that has happened *)
Theorem C106_waiter_is_woken : forall s ses path y k, user_request s ses -> reaches s ses path y -> h_crashed (y_sh y) = false ->
  In (Run (Await k)) (y_gos y) -> ended_context (y_trace y) -> exists i y', step y y' /\ y_trace y' = (Some i, EWoken) :: y_trace y.
Proof.
  intros s ses path y k U R Hc I E. destruct (reaches_at _ _ _ U y R) as (p & A & _).
  pose proof (proj2 (context_areach _ _ _ _ _ A) E) as D. apply in_split in I. destruct I as (g1 & g2 & G).
  destruct y as [h m gs tr]. cbn in *. subst gs. exists (length g1). eexists. split; [eapply (S_go h m g1); [exact Hc|apply P_await; exact D]|reflexivity].
Qed.
Example C106_example : exists post w1 pre w2 mid,
  history (set_of ok (Go (Ret (HRet (Some (EUser 1 (B"no"))))) (Done (fun _ => Done (fun _ => ok)))) None) None []
    (post ++ (w1, ESaw true) :: mid ++ (w2, ESaw false) :: pre).
Proof.
  exists []. exists None. eexists. exists None, [(Some 0, EReturned (Some (EUser 1 (B"no"))))]. eexists. split.
  - unfold reaches. lazy. do 6 main. eapply reach_cons; [eapply (S_returned _ _ [] []); reflexivity|lazy]. main. apply reach_start.
  - cbn; reflexivity.
Qed.
Print Assumptions C106_ctx_done_exactly.
Print Assumptions C106_waiter_is_woken.

(** ** C107: EGSetLimit *)
(** if limits are only set while no goroutine is active, the number of active ones never
    exceeds the limit *)
Theorem C107_limit_holds : forall s ses path tr n, user_request s ses -> history s ses path tr -> limits_idle tr ->
  limit tr = Some n -> started tr <= ended tr + n.
Proof.
  intros s ses path tr n U H L E. destruct (history_areach _ _ _ U _ H) as (y & p & A & _ & <-).
  pose proof (sem_areach _ _ _ _ _ A L) as Sm. unfold sem_of in Sm. rewrite E in Sm. pose proof (sem_bound _ _ _ _ _ A _ _ Sm). lia.
Qed.
(** EGTryGo refuses only if the limit is reached, and then always; EGGo waits only then *)
Lemma refused_step : forall e pre idle h q h' o q', e = ERefused \/ e = EGo -> pstep idle h q e h' o q' ->
  ended pre <= started pre ->
  h_sem h = match limit pre with None => None | Some n => Some (n, started pre - ended pre) end ->
  (forall cap n, h_sem h = Some (cap, n) -> n <= cap) -> (e = ERefused <-> exists n, limit pre = Some n /\ started pre = ended pre + n).
Proof.
  intros e pre idle h q h' o q' He P Le Es B0. destruct He as [->| ->]; inversion P; subst.
    - split; [intros _|reflexivity]. destruct (limit pre) as [m|]; [|congruence]. exists m. split; [reflexivity|].
      specialize (B0 _ _ Es). rewrite H in Es. injection Es as -> ->. lia.
    - split; [discriminate|]. intros (n & En & Eq). rewrite En in Es. congruence.
    - split; [discriminate|]. intros (m & En & Eq). rewrite En, H in Es. injection Es as -> ->. lia.
    - split; [discriminate|]. intros (n & En & Eq). rewrite En in Es. congruence.
    - split; [discriminate|]. intros (m & En & Eq). rewrite En, H in Es. injection Es as -> ->. lia.
Qed.
Theorem C107_refused_exactly : forall s ses path post w e pre, user_request s ses -> e = ERefused \/ e = EGo ->
  history s ses path (post ++ (w, e) :: pre) -> limits_idle pre ->
  (e = ERefused <-> exists n, limit pre = Some n /\ started pre = ended pre + n).
Proof.
  intros s ses path post w e pre U He H L. destruct (event_at _ _ _ _ _ _ U H) as (y1 & p1 & y2 & p2 & A & St & E1 & E2).
  rewrite <- E1 in L. pose proof (sem_areach _ _ _ _ _ A L) as Sm. pose proof (sem_bound _ _ _ _ _ A) as Sb.
  pose proof (books_le _ (books_areach _ _ _ _ _ A)) as Le. rewrite E1 in *. unfold sem_of in Sm.
  destruct St; cbn [y_trace y_sh] in *; rewrite E1 in E2; inversion E2; subst; clear E2; try (destruct He; discriminate);
    (eapply refused_step; eassumption).
Qed.
(** a goroutine that has returned can always leave the group *)
Theorem C107_leaving_never_blocks : forall s ses path y i, user_request s ses -> reaches s ses path y -> limits_idle (y_trace y) ->
  h_crashed (y_sh y) = false -> nth_error (y_gos y) i = Some Leaving -> exists y', step y y' /\ y_trace y' = (Some i, EGone) :: y_trace y.
Proof.
  intros s ses path y i U R L Hc N. destruct (reaches_at _ _ _ U y R) as (p & A & _).
  pose proof (sem_areach _ _ _ _ _ A L) as Sm. pose proof (books_areach _ _ _ _ _ A) as (L1 & L2 & _).
  apply nth_error_split in N. destruct N as (g1 & g2 & G & Li). destruct y as [h m gs tr]. cbn [y_sh y_gos y_trace] in *. subst gs i.
  rewrite filter_mid in L2. cbn [is_ended] in L2. rewrite app_length in L1. cbn [length] in L1.
  assert (Le : forall g, length (filter is_ended g) <= length g) by (induction g as [|x g IH]; cbn [filter length]; [lia|]; destruct (is_ended x); cbn [length]; lia).
  pose proof (Le g1). pose proof (Le g2). unfold sem_of in Sm. destruct (limit tr) as [n|].
  - destruct (started tr - ended tr) as [|k] eqn:Ek; [lia|]. eexists. split; [eapply S_gone_token; eassumption|reflexivity].
  - eexists. split; [eapply S_gone; eassumption|reflexivity].
Qed.
Example C107_example : exists tr, history (set_of ok (Limit 1 (Go ok (TryGo ok (fun _ => ok)))) None) None [] tr /\
  limits_idle tr /\ limit tr = Some 1 /\ started tr = 1 /\ happened ERefused tr.
Proof.
  eexists. split; [|split; [|split; [|split]]].
  - eexists. split. { unfold reaches. lazy. do 6 main.
    eapply reach_cons; [eapply S_main; [reflexivity|eapply P_try_full; [reflexivity|lia]]|lazy]. apply reach_start. } cbn; reflexivity.
  - intros post w z pre E. cbn [y_trace] in E. repeat (destruct post as [|? post]; [first [discriminate E|inversion E; reflexivity]|injection E as _ E]). destruct post; discriminate.
  - reflexivity.
  - reflexivity.
  - eexists. left. reflexivity.
Qed.
(** The condition matters: a limit set while goroutines are active makes them wait for tokens
    they never put in, and the request hangs. *)
Definition late_limit : gset := set_of ok (Go ok (Limit 1 ok)) None.
Theorem C107_late_limit_hangs : exists y, reaches late_limit None [] y /\ h_crashed (y_sh y) = false /\ ~ returned y /\ ~ can_go_on y.
Proof.
  eexists. split; [|split; [|split]].
  - unfold reaches. lazy. do 9 main. eapply reach_cons; [eapply (S_returned _ _ [] []); reflexivity|lazy]. apply reach_start.
  - reflexivity.
  - intros (r & w & I). cbn in I. repeat (destruct I as [I|I]; [discriminate|]). destruct I.
  - intros (y' & w & e & St & E & Ne). inversion St; subst; cbn [y_trace] in *.
    + inversion H5; subst; discriminate.
    + destruct g1 as [|? [|]]; discriminate.
    + destruct g1 as [|? [|]]; discriminate.
    + destruct g1 as [|? [|]]; discriminate.
    + discriminate.
    + discriminate.
    + inversion E. congruence.
Qed.
Print Assumptions C107_limit_holds.
Print Assumptions C107_refused_exactly.
Print Assumptions C107_leaving_never_blocks.
Print Assumptions C107_late_limit_hangs.

(** ** C108: the errors *)
(** the last handler is given the error of the pipeline and that of the goroutine that failed
    first *)
Theorem C108_last_gets_both_errors : forall s ses path post e pre, user_request s ses ->
  history s ses path (post ++ (None, EMark (MStart (WLast e))) :: pre) ->
  both (handlers_error pre) (first_failure pre) e.
Proof.
  intros s ses path post e pre U H. destruct (mark_at _ _ _ _ _ _ U H) as (y & p & p' & A & <- & C). apply mark_start in C. subst p.
  apply (quiet_areach _ _ _ U _ _ A).
Qed.
(** what a request returns: what the last handler did; the initialiser's error; if aborted,
    the pipeline's error; without a last handler, both *)
Theorem C108_result : forall s ses path post r pre, user_request s ses ->
  history s ses path (post ++ (None, EMark (MReturn (RRet r))) :: pre) ->
  (exists e, last_end pre = Some (WLast e, HRet r)) \/
  (exists e t, last_end pre = Some (WSesInit, HRet (Some e)) /\ r = Some t /\ err_text t = B"path '" ++ path ++ B"': " ++ err_text e) \/
  (happened (EAct DoAbort) pre /\ r = handlers_error pre) \/
  (gs_last s = None /\ all_gone pre /\ both (handlers_error pre) (first_failure pre) r).
Proof.
  intros s ses path post r pre U H. destruct (mark_at _ _ _ _ _ _ U H) as (y & p & p' & A & <- & C). apply mark_return in C. subst p.
  destruct (ret_areach _ _ _ U _ _ A) as [K|[(e & K & ->)|[K|(K1 & K2 & K3)]]].
  - left. exact K.
  - right; left. exists e. eexists. split; [exact K|]. split; reflexivity.
  - right; right; left. exact K.
  - right; right; right. split; [exact K1|]. split; [|exact K3]. apply idle_all_gone; [eapply books_areach; exact A|exact K2].
Qed.
Definition failing (n : nat) : prog := Ret (HRet (Some (EUser n (B"e")))).
Example C108_example : exists post pre,
  history (set_of ok (Go (failing 1) (Go (failing 2) (failing 3))) (Some (fun _ => ok))) None []
    (post ++ (None, EMark (MStart (WLast (Some (EWrap (EUser 3 (B"e")) (B"e")))))) :: pre) /\ first_failure pre = Some (EUser 2 (B"e")).
Proof.
  exists []. eexists. split.
  - eexists. split. { unfold reaches. lazy. do 8 main.
    eapply reach_cons; [eapply (S_returned _ _ [_] []); reflexivity|lazy].
    eapply reach_cons; [eapply (S_returned _ _ [] [_]); reflexivity|lazy].
    eapply reach_cons; [eapply (S_gone _ _ [] [_]); reflexivity|lazy].
    eapply reach_cons; [eapply (S_gone _ _ [_] []); reflexivity|lazy].
    do 2 main. apply reach_start. } cbn; reflexivity.
  - reflexivity.
Qed.
Print Assumptions C108_last_gets_both_errors.
Print Assumptions C108_result.
