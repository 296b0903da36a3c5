(** C109-C112: requests whose handlers start goroutines - termination, order, Stop and Abort. *)
From Verif Require Import Base GoErrors M_Pipeline M_Group S_Group P_Group P_Group2 P_Group3 P_Group4 P_Group5 Props_Group.

Ltac nret := intros (r & w & I); cbn in I; repeat (destruct I as [I|I]; [discriminate|]); destruct I.
Ltac stuck := let y' := fresh in let w := fresh in let e := fresh in
  intros (y' & w & e & St & E & Ne); inversion St; subst; cbn [y_trace] in *;
  repeat match goal with
  | H : pstep _ _ _ _ _ _ _ |- _ => inversion H; subst; clear H; cbn in *; try discriminate; try lia
  | H : ?a ++ _ :: _ = [_] |- _ => destruct a as [|? [|]]; inversion H; subst; clear H
  | H : [_] = ?a ++ _ :: _ |- _ => destruct a as [|? [|]]; inversion H; subst; clear H
  | H : ?a ++ _ :: _ = [] |- _ => destruct a; discriminate H
  | H : [] = ?a ++ _ :: _ |- _ => destruct a; discriminate H
  | H : Some (_, _) = Some (_, _) |- _ => inversion H; subst; clear H; try lia
  end; try discriminate; try (inversion E; congruence).

(** ** C109: requests come to an end *)
(** no request runs on for ever *)
Theorem C109_no_endless_request : forall s ses path (f : nat -> sys), f 0 = init s ses path -> ~ forall n, step (f n) (f (S n)).
Proof. intros s ses path f _. apply no_endless_run. Qed.
(** nor does one get stuck *)
Definition C109_claim : Prop := forall s ses path y, user_request s ses -> reaches s ses path y ->
  h_crashed (y_sh y) = false -> returned y \/ can_go_on y.
(** this is false: EGWait does not end Ctx() before all goroutines have ended, so a goroutine
    that waits for Ctx() keeps its request waiting *)
Definition waiting : gset := set_of ok (Go (Await ok) ok) None.
Lemma waiting_user : user_request waiting None.
Proof. apply user_set; cbn; auto; discriminate. Qed.
Lemma waiting_stuck : exists y, reaches waiting None [] y /\ h_crashed (y_sh y) = false /\ ~ returned y /\ ~ can_go_on y.
Proof.
  eexists. split; [|split; [|split]].
  - unfold reaches. lazy. do 8 main. apply reach_start.
  - reflexivity.
  - nret.
  - stuck.
Qed.
Theorem C109_requests_get_stuck_refuted : ~ C109_claim.
Proof.
  intros H. destruct waiting_stuck as (y & R & Hc & Nr & Ns). destruct (H _ _ _ y waiting_user R Hc) as [K|K]; auto.
Qed.
(** what is true: if limits are positive and only set while no goroutine is active, and the
    functions given to EGGo do not themselves call EGGo, EGSetLimit or EGWait, a request only
    waits for Ctx() (missing: other uses of the EG methods, which can hang) *)
Lemma returned_pos : forall s ses path y p, areach s ses path y p -> (forall r, p = PEnd r -> returned y).
Proof.
  intros s ses path y p A. induction A as [|y p y' p' A IH St]; intros r E.
  - unfold first_pos, begin in E. destruct ses; [discriminate|]. destruct (gs_main s); discriminate.
  - destruct (astep_cases _ _ _ _ _ _ _ St) as [(e & C & Et & _)|(-> & (w & e & _ & Et & _) & _)].
    + subst p'. pose proof (check_areach _ _ _ _ _ A) as K. inversion C as [| |w o Ep Ee Ep'|w f Ef|w f Ef Ep Ee Ep'|f Ef Ep Ee Ep'| | | |e0 g Ep Ee Ep'|]; subst.
      * exfalso. destruct w; cbn [npos] in Ep'; destruct o as [[er|]|]; try discriminate Ep'; unfold next_before, begin in Ep';
          try (destruct (_ <? _); discriminate Ep'); try (destruct (gs_main s); discriminate Ep').
      * destruct K as [K _]. exfalso. destruct w; cbn [next] in Ep'; try (now destruct K); unfold next_before, next_after in Ep'; destruct (_ <? _); discriminate Ep'.
      * exfalso. unfold next_after in Ep'. destruct (_ <? _); discriminate Ep'.
      * exfalso. unfold wait_next in Ep'. destruct (gs_last s); discriminate Ep'.
      * exists r. rewrite Et. exists None. left. reflexivity.
    + destruct (IH r E) as (r' & w' & I). exists r', w'. rewrite Et. right. exact I.
Qed.
Lemma at_ret : forall s ses path y p o, at_pos s ses path y p -> y_main y = Ret o -> exists r, p = PEnd r.
Proof.
  intros s ses path y p o [E G] R. rewrite R in E. destruct p as [w|w q|w| |e|e|r|r]; cbn [prog_of] in E; try discriminate.
  - destruct q; discriminate.
  - eexists; reflexivity.
Qed.
Theorem C109_only_waits_for_context_partial : forall s ses path y, user_request s ses -> simple_request s ses -> reaches s ses path y ->
  limits_idle (y_trace y) -> ~ happened (ELimit 0) (y_trace y) -> h_crashed (y_sh y) = false ->
  returned y \/ can_go_on y \/ waits_for_context y.
Proof.
  intros s ses path y U M R L Z Hc. destruct (reaches_at _ _ _ U y R) as (p & A & Ap & _).
  destruct (simple_areach _ _ _ _ M R) as [_ Gs].
  pose proof (sem_areach _ _ _ _ _ A L) as Sm. pose proof (books_areach _ _ _ _ _ A) as Bk.
  (* an active goroutine can do something *)
  assert (Act : forall g, In g (y_gos y) -> g <> Ended -> can_go_on y \/ waits_for_context y).
  { intros g I Na. pose proof I as I0. rewrite Forall_forall in Gs. specialize (Gs g I0). apply In_nth_error in I. destruct I as (i & N).
    destruct g as [q| |]; [| |congruence].
    - pose proof N as N0. apply nth_error_split in N. destruct N as (g1 & g2 & G & Li).
      destruct (prog_progress false (y_sh y) q) as [(o & ->)|[(e & h' & o & q' & P & Ne)|[(k & -> & D)|[(b & k & cap & n & -> & _)|(k & -> & _)]]]].
      + left. destruct y as [h m gs tr]. cbn [y_sh y_gos y_trace] in *. subst gs. destruct o as [e|].
        * do 3 eexists. split; [eapply S_returned; exact Hc|]. split; [reflexivity|discriminate].
        * do 3 eexists. split; [eapply S_panic; exact Hc|]. split; [reflexivity|discriminate].
      + left. destruct y as [h m gs tr]. cbn [y_sh y_gos y_trace] in *. subst gs. do 3 eexists. split; [eapply S_go; eassumption|]. split; [reflexivity|exact Ne].
      + right. split; [exact D|]. right. exists k. exact I0.
      + destruct Gs.
      + destruct Gs.
    - left. destruct (C107_leaving_never_blocks _ _ _ _ _ U R L Hc N) as (y' & St & E). do 3 eexists. split; [exact St|]. split; [exact E|discriminate]. }
  assert (Some_active : forallb (fun g => negb (active g)) (y_gos y) = false -> can_go_on y \/ waits_for_context y).
  { intros F. assert (exists g, In g (y_gos y) /\ g <> Ended) as (g & I & Ng); [|exact (Act g I Ng)].
    clear -F. induction (y_gos y) as [|g gs IH]; [discriminate|]. cbn [forallb] in F. destruct g as [q| |].
    - exists (Run q). split; [left; reflexivity|discriminate].
    - exists Leaving. split; [left; reflexivity|discriminate].
    - cbn in F. destruct (IH F) as (g & I & N). exists g. split; [right; exact I|exact N]. }
  destruct (prog_progress (forallb (fun g => negb (active g)) (y_gos y)) (y_sh y) (y_main y))
    as [(o & E)|[(e & h' & o & q' & P & Ne)|[(k & E & D)|[(b & k & cap & n & E & Es & Le)|(k & E & F)]]]].
  - left. destruct (at_ret _ _ _ _ _ _ Ap E) as (r & Er). exact (returned_pos _ _ _ _ _ A r Er).
  - right; left. destruct y as [h m gs tr]. cbn [y_sh y_gos y_main y_trace] in *. do 3 eexists. split; [eapply S_main; eassumption|]. split; [reflexivity|exact Ne].
  - right; right. split; [exact D|]. left. exists k. exact E.
  - right. apply Some_active. destruct (forallb _ (y_gos y)) eqn:F; [exfalso|reflexivity].
    apply idle_bool in F. rewrite Sm in Es. unfold sem_of in Es. destruct (limit (y_trace y)) as [m|] eqn:Em; [|discriminate].
    injection Es as <- <-. assert (started (y_trace y) = ended (y_trace y)).
    { destruct Bk as (B1 & B2 & _). rewrite <- B1, <- B2. clear -F. induction F as [|g gs E F IH]; [reflexivity|]. subst g. cbn. congruence. }
    assert (m = 0) by lia. subst m. apply Z. clear -Em. induction (y_trace y) as [|[w e] tr IH]; [discriminate|]. cbn [limit] in Em.
    destruct e; try (apply happened_mono; auto; fail).
    destruct (Z.ltb_spec n 0); [discriminate|]. assert (n = 0%Z) by (injection Em as Em; lia). subst n. exists w. left. reflexivity.
  - right. apply Some_active. exact F.
Qed.
(** so when the server shuts down, or the request is aborted or one of its goroutines fails,
    such a request gets to its end *)
Theorem C109_ended_context_means_progress_partial : forall s ses path y, user_request s ses -> simple_request s ses -> reaches s ses path y ->
  limits_idle (y_trace y) -> ~ happened (ELimit 0) (y_trace y) -> h_crashed (y_sh y) = false ->
  ended_context (y_trace y) -> returned y \/ can_go_on y.
Proof.
  intros s ses path y U M R L Z Hc E. destruct (C109_only_waits_for_context_partial s ses path y U M R L Z Hc) as [H|[H|[D _]]]; auto.
  exfalso. destruct (reaches_at _ _ _ U y R) as (p & A & _). pose proof (proj2 (context_areach _ _ _ _ _ A) E). congruence.
Qed.
(** the conditions are met by a request that limits, starts and waits for goroutines *)
Example C109_example :
  let s := set_of ok (Limit 1 (Go (Done (fun _ => ok)) (Go (Await ok) (Act DoAbort ok)))) None in
  user_request s None /\ simple_request s None /\ exists y, reaches s None [] y /\
  limits_idle (y_trace y) /\ ~ happened (ELimit 0) (y_trace y) /\ h_crashed (y_sh y) = false /\ started (y_trace y) = 2.
Proof.
  cbn. split; [apply user_set; cbn; auto; discriminate|]. split.
  { constructor; cbn; auto; try discriminate. intros i m E. injection E as <- <-. cbn. auto. }
  eexists. split; [|split; [|split; [|split]]].
  - unfold reaches. lazy. do 6 main.
    eapply reach_cons; [eapply (S_go _ _ [] _ []); [reflexivity|apply P_done]|lazy].
    eapply reach_cons; [eapply (S_returned _ _ [] []); reflexivity|lazy].
    eapply reach_cons; [eapply (S_gone_token _ _ [] []); reflexivity|lazy]. main. apply reach_start.
  - intros post w z pre E. cbn [y_trace] in E. repeat (destruct post as [|? post]; [first [discriminate E|inversion E; reflexivity]|injection E as _ E]). destruct post; discriminate.
  - intros (w & I). cbn in I. repeat (destruct I as [I|I]; [discriminate|]). destruct I.
  - reflexivity.
  - reflexivity.
Qed.
(** other ways to hang: a limit of zero, EGGo in a goroutine when the limit is reached, and
    EGWait in a goroutine *)
Definition hangs (s : gset) : Prop := exists y, reaches s None [] y /\ h_crashed (y_sh y) = false /\ ~ returned y /\ ~ can_go_on y.
Theorem C109_other_ways_to_hang :
  hangs (set_of ok (Limit 0 (Go ok ok)) None) /\
  hangs (set_of ok (Limit 1 (Go (Go ok ok) ok)) None) /\
  hangs (set_of ok (Go (Wait (fun _ => ok)) ok) None).
Proof.
  split; [|split].
  - eexists. split; [unfold reaches; lazy; do 5 main; apply reach_start|]. split; [reflexivity|]. split; [nret|]. stuck.
  - eexists. split; [unfold reaches; lazy; do 9 main; apply reach_start|]. split; [reflexivity|]. split; [nret|]. stuck.
  - eexists. split; [unfold reaches; lazy; do 8 main; apply reach_start|]. split; [reflexivity|]. split; [nret|]. stuck.
Qed.
Print Assumptions C109_no_endless_request.
Print Assumptions C109_only_waits_for_context_partial.
Print Assumptions C109_requests_get_stuck_refuted.
Print Assumptions C109_other_ways_to_hang.
