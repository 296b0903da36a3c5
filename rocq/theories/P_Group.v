(** Proofs about M_Group: the control states of a request. *)
From Verif Require Import Base GoErrors M_Pipeline M_Group S_Group.

Section Req.
Variables (s : gset) (ses : option prog) (path : bytes).
Notation dead := (Ret HPanic).
Definition main_progs : prog * prog := match gs_main s with Some p => p | None => (dead, dead) end.
Definition handler (w : who) : prog :=
  match w with
  | WInit => fst main_progs
  | WBefore i => nth i (gs_before s) dead
  | WMain => snd main_progs
  | WAfter i => nth i (gs_after s) dead
  | WSesInit => match ses with Some p => p | None => dead end
  | WLast e => match gs_last s with Some l => l e | None => dead end
  | WWait => dead
  end.
Inductive pos :=
| PStart (w : who) | PIn (w : who) (q : prog) | PCheck (w : who) | PSkip
| PFin (e : option err) | PWait (e : option err) | PRet (r : rout) | PEnd (r : rout).

Definition pend (r : rout) : pos := match r with RPanic => PRet RPanic | RRet e => PFin e end.
Definition next_before (i : nat) : pos := if i <? length (gs_before s) then PStart (WBefore i) else PSkip.
Definition next_after (i : nat) : pos := if i <? length (gs_after s) then PStart (WAfter i) else PFin None.
Definition begin : pos := match gs_main s with Some _ => PStart WInit | None => PRet RPanic end.
(** after the check that follows [w] *)
Definition next (w : who) : pos :=
  match w with
  | WInit => next_before 0
  | WBefore i => next_before (S i)
  | WMain => next_after 0
  | WAfter i => next_after (S i)
  | _ => PEnd RPanic
  end.
(** after [w] has ended *)
Definition npos (w : who) (o : outcome) : pos :=
  match w with
  | WSesInit =>
      match o with
      | HPanic => PRet RPanic
      | HRet (Some e) => PRet (RRet (new_err (B"path '" ++ path ++ B"': " ++ err_text e)))
      | HRet None => begin
      end
  | WLast _ => PRet (match o with HPanic => RPanic | HRet e => RRet e end)
  | WInit => match o with HPanic => PRet RPanic | HRet (Some e) => PFin (Some e) | HRet None => next_before 0 end
  | _ => match o with HPanic => PRet RPanic | HRet (Some e) => PFin (Some e) | HRet None => PCheck w end
  end.

(** the program at a control state *)
Definition kfin (r : rout) : prog :=
  match r with
  | RPanic => return_ RPanic
  | RRet e =>
      Look (fun f =>
        if f_aborted f then return_ (RRet e)
        else Wait (fun eg =>
               match gs_last s with
               | None => return_ (RRet (combine_err e eg))
               | Some l => M_Group.call (WLast (combine_err e eg)) (l (combine_err e eg))
                             (fun o => return_ (match o with HPanic => RPanic | HRet e' => RRet e' end))
               end))
  end.
Lemma body_eq : body s = set_run s kfin. Proof. reflexivity. Qed.
Definition prog_after (i : nat) : prog := list_run WAfter i (skipn i (gs_after s)) kfin (kfin (RRet None)).
Definition prog_skip : prog :=
  Look (fun f => if f_skip f then prog_after 0 else M_Group.call WMain (snd main_progs) (checked kfin (prog_after 0))).
Definition prog_before (i : nat) : prog := list_run WBefore i (skipn i (gs_before s)) kfin prog_skip.
Definition kinit (o : outcome) : prog :=
  match o with HPanic => kfin RPanic | HRet (Some e) => kfin (RRet (Some e)) | HRet None => prog_before 0 end.
Definition kont (w : who) (o : outcome) : prog :=
  match w with
  | WSesInit =>
      match o with
      | HPanic => return_ RPanic
      | HRet (Some e) => return_ (RRet (new_err (B"path '" ++ path ++ B"': " ++ err_text e)))
      | HRet None => body s
      end
  | WLast _ => return_ (match o with HPanic => RPanic | HRet e => RRet e end)
  | WInit => kinit o
  | WBefore i => checked kfin (prog_before (S i)) o
  | WMain => checked kfin (prog_after 0) o
  | WAfter i => checked kfin (prog_after (S i)) o
  | WWait => dead
  end.
Definition prog_next (w : who) : prog :=
  match w with
  | WInit => prog_before 0
  | WBefore i => prog_before (S i)
  | WMain => prog_after 0
  | WAfter i => prog_after (S i)
  | _ => dead
  end.
Definition prog_of (p : pos) : prog :=
  match p with
  | PStart w => M_Group.call w (handler w) (kont w)
  | PIn w q => bind q (fun o => Mark (MEnd w o) (kont w o))
  | PCheck w => Look (fun f => if f_aborted f || f_stopped f then kfin (RRet None) else prog_next w)
  | PSkip => prog_skip
  | PFin e => kfin (RRet e)
  | PWait e => Wait (fun eg =>
               match gs_last s with
               | None => return_ (RRet (combine_err e eg))
               | Some l => M_Group.call (WLast (combine_err e eg)) (l (combine_err e eg))
                             (fun o => return_ (match o with HPanic => RPanic | HRet e' => RRet e' end))
               end)
  | PRet r => return_ r
  | PEnd r => Ret (match r with RPanic => HPanic | RRet e => HRet e end)
  end.
Lemma skipn_nth : forall A (d : A) l i, i < length l -> skipn i l = nth i l d :: skipn (S i) l.
Proof.
  intros A d l. induction l as [|x l IH]; intros i L; [cbn in L; lia|]. destruct i as [|i]; [reflexivity|].
  cbn [skipn nth]. rewrite (IH i) by (cbn in L; lia). reflexivity.
Qed.
Lemma prog_of_next_after : forall i, prog_of (next_after i) = prog_after i.
Proof.
  intros i. unfold next_after, prog_after. destruct (Nat.ltb_spec i (length (gs_after s))).
  - rewrite (skipn_nth _ dead) by assumption. reflexivity.
  - rewrite skipn_all2 by assumption. reflexivity.
Qed.
Lemma prog_of_next_before : forall i, prog_of (next_before i) = prog_before i.
Proof.
  intros i. unfold next_before, prog_before. destruct (Nat.ltb_spec i (length (gs_before s))).
  - rewrite (skipn_nth _ dead) by assumption. reflexivity.
  - rewrite skipn_all2 by assumption. reflexivity.
Qed.
Lemma prog_of_begin : prog_of begin = body s.
Proof.
  unfold begin. rewrite body_eq. unfold set_run, prog_of, kont, kinit, prog_before, prog_skip, handler, main_progs.
  destruct (gs_main s) as [[i m]|]; reflexivity.
Qed.
Definition first_pos : pos := match ses with Some _ => PStart WSesInit | None => begin end.
Lemma prog_of_first : prog_of first_pos = request s ses path.
Proof. unfold first_pos, request. destruct ses as [p|] eqn:E; [cbn [prog_of handler]; rewrite E; reflexivity|apply prog_of_begin]. Qed.
Definition real (w : who) : Prop := w <> WWait.
Lemma prog_of_npos : forall w o, real w -> prog_of (npos w o) = kont w o.
Proof.
  intros w o R. destruct w; cbn [npos kont]; try reflexivity; try (now destruct o as [[er|]|]).
  - unfold kinit. destruct o as [[e|]|]; try reflexivity. apply prog_of_next_before.
  - destruct o as [[e|]|]; try reflexivity. apply prog_of_begin.
Qed.
Lemma prog_of_next : forall w, in_pipeline w -> prog_of (next w) = prog_next w.
Proof. intros [|i| |i| | |e] I; try (now destruct I); cbn [next prog_next]; [apply prog_of_next_before|apply prog_of_next_before|apply prog_of_next_after|apply prog_of_next_after]. Qed.

(** ** The automaton *)
Definition wait_next (e g : option err) : pos :=
  match gs_last s with None => PRet (RRet (combine_err e g)) | Some _ => PStart (WLast (combine_err e g)) end.
Inductive user_event : event -> Prop :=
| ue_act : forall a, user_event (EAct a) | ue_look : forall f, user_event (ELook f) | ue_saw : forall b, user_event (ESaw b)
| ue_woken : user_event EWoken | ue_go : user_event EGo | ue_ref : user_event ERefused | ue_lim : forall z, user_event (ELimit z)
| ue_wait : forall r, user_event (EWaited r) | ue_panic : user_event EPanic.
Inductive cstep : pos -> event -> pos -> Prop :=
| C_start : forall w, real w -> cstep (PStart w) (EMark (MStart w)) (PIn w (handler w))
| C_in : forall w q e q', user_event e -> cstep (PIn w q) e (PIn w q')
| C_end : forall w o, cstep (PIn w (Ret o)) (EMark (MEnd w o)) (npos w o)
| C_check_stop : forall w f, f_aborted f || f_stopped f = true -> cstep (PCheck w) (ELook f) (PFin None)
| C_check_go : forall w f, f_aborted f || f_stopped f = false -> cstep (PCheck w) (ELook f) (next w)
| C_skip : forall f, f_skip f = true -> cstep PSkip (ELook f) (next_after 0)
| C_main : forall f, f_skip f = false -> cstep PSkip (ELook f) (PStart WMain)
| C_aborted : forall e f, f_aborted f = true -> cstep (PFin e) (ELook f) (PRet (RRet e))
| C_wait : forall e f, f_aborted f = false -> cstep (PFin e) (ELook f) (PWait e)
| C_waited : forall e g, cstep (PWait e) (EWaited g) (wait_next e g)
| C_return : forall r, cstep (PRet r) (EMark (MReturn r)) (PEnd r).

(** a position the request can be at *)
Definition good (p : pos) : Prop :=
  match p with
  | PStart w => real w
  | PIn w q => real w /\ user q
  | PCheck w => in_pipeline w
  | _ => True
  end.
End Req.

(** ** Steps of user programs *)
Lemma user_bind_step : forall idle h q f e h' o p', user q -> (forall x, q <> Ret x) -> pstep idle h (bind q f) e h' o p' ->
  exists q', p' = bind q' f /\ user q' /\ pstep idle h q e h' o q' /\ user_event e /\ (forall b, o = Some b -> user b).
Proof.
  intros idle h q f e h' o p' U N P. destruct q; cbn [bind] in P; cbn [user] in U; try (now destruct U); try (now destruct (N o0)).
  - inversion P; subst; (exists q; split; [reflexivity|]; split; [assumption|]; split; [constructor; auto|]; split; [constructor|congruence]).
  - inversion P; subst. exists (k (h_flags h')). split; [reflexivity|]. split; [apply U|]. split; [constructor; auto|]. split; [constructor|congruence].
  - inversion P; subst. exists (k (ctx_done h')). split; [reflexivity|]. split; [apply U|]. split; [constructor; auto|]. split; [constructor|congruence].
  - inversion P; subst; (exists q; split; [reflexivity|]; split; [assumption|]; split; [constructor; auto|]; split; [constructor|congruence]).
  - destruct U as [Ub Uk]. inversion P; subst; (exists q2; split; [reflexivity|]; split; [assumption|]; split; [econstructor; eauto|]; split; [constructor|congruence]).
  - destruct U as [Ub Uk]. inversion P; subst; (eexists; split; [reflexivity|]; split; [apply Uk|]; split; [econstructor; eauto|]; split; [constructor|try congruence; intros b E; injection E as <-; assumption]).
  - inversion P; subst; (exists q; split; [reflexivity|]; split; [assumption|]; split; [econstructor; eauto|]; split; [constructor|congruence]).
  - inversion P; subst. eexists; split; [reflexivity|]. split; [apply U|]. split; [constructor; auto|]. split; [constructor|congruence].
Qed.
Lemma user_step : forall idle h q e h' o q', user q -> pstep idle h q e h' o q' ->
  user q' /\ user_event e /\ (forall b, o = Some b -> user b).
Proof.
  intros idle h q e h' o q' U P. destruct q; cbn [user] in U; try (now destruct U); inversion P; subst;
    try destruct U as [Ub Uk]; (split; [auto|]; split; [constructor|try congruence; intros b0 E; injection E as <-; assumption]).
Qed.

Section Sim.
Variables (s : gset) (ses : option prog) (path : bytes).
Hypothesis U : user_request s ses.
Lemma nth_user : forall l i, Forall user l -> user (nth i l (Ret HPanic)).
Proof.
  intros l i F. destruct (Nat.ltb_spec i (length l)) as [L|L].
  - rewrite Forall_forall in F. apply F. apply nth_In. assumption.
  - rewrite nth_overflow by assumption. exact I.
Qed.
Lemma handler_user : forall w, user (handler s ses w).
Proof.
  intros [|i| |i| | |e]; cbn [handler]; try exact I.
  - unfold main_progs. destruct (gs_main s) as [[i m]|] eqn:E; [apply (u_main _ _ U _ _ E)|exact I].
  - apply nth_user. apply (u_before _ _ U).
  - unfold main_progs. destruct (gs_main s) as [[i m]|] eqn:E; [apply (u_main _ _ U _ _ E)|exact I].
  - apply nth_user. apply (u_after _ _ U).
  - destruct ses as [p|] eqn:E; [|exact I]. apply (u_ses _ _ U). reflexivity.
  - destruct (gs_last s) as [l|] eqn:E; [|exact I]. apply (u_last _ _ U l E).
Qed.
Lemma real_pipeline : forall w, in_pipeline w -> real w.
Proof. intros [|i| |i| | |e] Hi; try (now destruct Hi); discriminate. Qed.
Lemma good_next_before : forall i, good (next_before s i).
Proof. intros i. unfold next_before. destruct (_ <? _); cbn [good]; [discriminate|exact I]. Qed.
Lemma good_next_after : forall i, good (next_after s i).
Proof. intros i. unfold next_after. destruct (_ <? _); cbn [good]; [discriminate|exact I]. Qed.
Lemma good_begin : good (begin s).
Proof. unfold begin. destruct (gs_main s); cbn [good]; [discriminate|exact I]. Qed.
Lemma good_first : good (first_pos s ses).
Proof. unfold first_pos. destruct ses; [discriminate|apply good_begin]. Qed.
Lemma good_npos : forall w o, real w -> good (npos s path w o).
Proof.
  intros w o R. destruct w; cbn [npos]; try exact I; destruct o as [[er|]|]; cbn [good]; try exact I;
    first [apply good_next_before|apply good_begin|exfalso; apply R; reflexivity].
Qed.
Lemma good_next : forall w, good (next s w).
Proof. intros [|i| |i| | |e]; cbn [next]; try exact I; first [apply good_next_before|apply good_next_after]. Qed.
Lemma good_cstep : forall p e p', good p -> cstep s ses path p e p' -> (forall w q', p' = PIn w q' -> user q') -> good p'.
Proof.
  intros p e p' G C K. destruct C; cbn [good] in *; try exact I.
  - split; [assumption|]. eapply K. reflexivity.
  - split; [apply G|]. eapply K. reflexivity.
  - apply good_npos. apply G.
  - apply good_next.
  - apply good_next_after.
  - discriminate.
  - unfold wait_next. destruct (gs_last s); cbn [good]; [discriminate|exact I].
Qed.
(** the simulation *)
Lemma sim_step : forall idle h p e h' o q, good p -> pstep idle h (prog_of s ses path p) e h' o q ->
  exists p', q = prog_of s ses path p' /\ good p' /\ cstep s ses path p e p' /\ (forall b, o = Some b -> user b) /\ (forall w r, p = PIn w r -> (exists x, r = Ret x) \/ exists r', pstep idle h r e h' o r' /\ p' = PIn w r').
Proof.
  intros idle h p e h' o q G P. destruct p as [w|w r|w| |er|er|r|r].
  - cbn [prog_of] in P. unfold M_Group.call in P. inversion P; subst. exists (PIn w (handler s ses w)). split; [reflexivity|].
    split; [split; [exact G|apply handler_user; exact U]|]. split; [constructor; exact G|]. split; [discriminate|]. discriminate.
  - destruct G as [Rw Ur]. cbn [prog_of] in P. destruct r as [x| | | | | | | | |].
    { cbn [bind] in P. inversion P; subst. exists (npos s path w x). split; [symmetry; apply prog_of_npos; exact Rw|].
      split; [apply good_npos; exact Rw|]. split; [constructor|]. split; [discriminate|]. intros w' r' E. injection E as <- <-. left. eexists; reflexivity. }
    all: (apply user_bind_step in P; [|exact Ur|discriminate]; destruct P as (q' & -> & Uq & P & Ue & Ub);
      exists (PIn w q'); split; [reflexivity|]; split; [split; assumption|]; split; [constructor; assumption|]; split; [assumption|];
      intros w' r' E; injection E as <- <-; right; eexists; split; [eassumption|reflexivity]).
  - cbn [good] in G. inversion P; subst.
    destruct (f_aborted (h_flags h') || f_stopped (h_flags h')) eqn:F.
    + exists (PFin None). split; [reflexivity|]. split; [exact I|]. split; [constructor; assumption|]. split; discriminate.
    + exists (next s w). split; [symmetry; apply prog_of_next; exact G|]. split; [apply good_next|]. split; [apply C_check_go; assumption|]. split; discriminate.
  - inversion P; subst. destruct (f_skip (h_flags h')) eqn:F.
    + exists (next_after s 0). split; [symmetry; apply prog_of_next_after|]. split; [apply good_next_after|]. split; [apply C_skip; assumption|]. split; discriminate.
    + exists (PStart WMain). split; [reflexivity|]. split; [discriminate|]. split; [apply C_main; assumption|]. split; discriminate.
  - inversion P; subst. destruct (f_aborted (h_flags h')) eqn:F.
    + exists (PRet (RRet er)). split; [reflexivity|]. split; [exact I|]. split; [apply C_aborted; assumption|]. split; discriminate.
    + exists (PWait er). split; [reflexivity|]. split; [exact I|]. split; [apply C_wait; assumption|]. split; discriminate.
  - inversion P; subst. exists (wait_next s er (h_err h)). unfold wait_next. destruct (gs_last s) as [l|] eqn:El.
    + split; [cbn [prog_of handler]; rewrite El; reflexivity|]. split; [discriminate|].
      split; [|split; discriminate]. pose proof (C_waited s ses path er (h_err h)) as C. unfold wait_next in C. rewrite El in C. exact C.
    + split; [reflexivity|]. split; [exact I|]. split; [|split; discriminate].
      pose proof (C_waited s ses path er (h_err h)) as C. unfold wait_next in C. rewrite El in C. exact C.
  - cbn [prog_of] in P. unfold return_ in P. inversion P; subst. exists (PEnd r). split; [reflexivity|]. split; [exact I|]. split; [constructor|]. split; discriminate.
  - cbn [prog_of] in P. inversion P.
Qed.
Definition gor_user (g : gor) : Prop := match g with Run p => user p | _ => True end.
Definition at_pos (y : sys) (p : pos) : Prop := y_main y = prog_of s ses path p /\ good p.
Lemma add_user : forall o l, (forall b, o = Some b -> user b) -> Forall gor_user l -> Forall gor_user (add o l).
Proof.
  intros [b|] l Hb F; cbn [add]; [|assumption]. apply Forall_app. split; [assumption|]. constructor; [|constructor]. cbn. auto.
Qed.
Lemma mid_user : forall g1 g g' g2, (gor_user g -> gor_user g') -> Forall gor_user (g1 ++ g :: g2) -> Forall gor_user (g1 ++ g' :: g2).
Proof.
  intros g1 g g' g2 H F. apply Forall_app in F. destruct F as [F1 F2]. inversion F2; subst. apply Forall_app. split; [assumption|].
  constructor; auto.
Qed.

(** ** One step of the system, with the control state: the induction principle used below *)
Inductive astep : sys -> pos -> sys -> pos -> Prop :=
| A_main : forall h m gs tr e h' o m' p p', h_crashed h = false ->
    pstep (forallb (fun g => negb (active g)) gs) h m e h' o m' -> cstep s ses path p e p' -> (forall b, o = Some b -> user b) ->
    astep (Sys h m gs tr) p (Sys h' m' (add o gs) ((None, e) :: tr)) p'
| A_go : forall h m g1 q g2 tr e h' o q' p, h_crashed h = false ->
    pstep false h q e h' o q' -> user q -> user q' -> user_event e -> (forall b, o = Some b -> user b) ->
    astep (Sys h m (g1 ++ Run q :: g2) tr) p (Sys h' m (add o (g1 ++ Run q' :: g2)) ((Some (length g1), e) :: tr)) p
| A_returned : forall h m g1 g2 tr e p, h_crashed h = false ->
    astep (Sys h m (g1 ++ Run (Ret (HRet e)) :: g2) tr) p
          (Sys (record_err e h) m (g1 ++ Leaving :: g2) ((Some (length g1), EReturned e) :: tr)) p
| A_panic : forall h m g1 g2 tr p, h_crashed h = false ->
    astep (Sys h m (g1 ++ Run (Ret HPanic) :: g2) tr) p
          (Sys (crash h) m (g1 ++ Run (Ret HPanic) :: g2) ((Some (length g1), EPanic) :: tr)) p
| A_gone : forall h m g1 g2 tr p, h_crashed h = false -> h_sem h = None ->
    astep (Sys h m (g1 ++ Leaving :: g2) tr) p (Sys h m (g1 ++ Ended :: g2) ((Some (length g1), EGone) :: tr)) p
| A_gone_token : forall h m g1 g2 tr cap n p, h_crashed h = false -> h_sem h = Some (cap, S n) ->
    astep (Sys h m (g1 ++ Leaving :: g2) tr) p
          (Sys (set_sem (Some (cap, n)) h) m (g1 ++ Ended :: g2) ((Some (length g1), EGone) :: tr)) p
| A_shutdown : forall h m gs tr p, h_crashed h = false -> h_server h = false ->
    astep (Sys h m gs tr) p (Sys (set_server h) m gs ((None, EShutdown) :: tr)) p.
Inductive areach : sys -> pos -> Prop :=
| areach_start : areach (init s ses path) (first_pos s ses)
| areach_step : forall y p y' p', areach y p -> astep y p y' p' -> areach y' p'.
Theorem reaches_at : forall y, reaches s ses path y -> exists p, areach y p /\ at_pos y p /\ Forall gor_user (y_gos y).
Proof.
  intros y R. induction R as [|y y' R IH St].
  - exists (first_pos s ses). split; [constructor|]. split; [split; [symmetry; apply prog_of_first|apply good_first]|constructor].
  - destruct IH as (p & A & [Ep G] & F). destruct St; cbn [y_main y_gos y_sh y_trace] in *.
    + subst p0. pose proof (sim_step _ _ _ _ _ _ _ G H0) as (pp & -> & G' & C & Ub & _).
      exists pp. split; [eapply areach_step; [exact A|econstructor; eassumption]|]. split; [split; [reflexivity|exact G']|].
      apply add_user; assumption.
    + assert (Uq : user q) by (apply Forall_app in F; destruct F as [_ F]; inversion F; assumption).
      pose proof (user_step _ _ _ _ _ _ _ Uq H0) as (Uq' & Ue & Ub).
      exists p. split; [eapply areach_step; [exact A|constructor; assumption]|]. split; [split; assumption|].
      apply add_user; [assumption|]. eapply mid_user; [|exact F]. auto.
    + exists p. split; [eapply areach_step; [exact A|constructor; assumption]|]. split; [split; assumption|].
      eapply mid_user; [|exact F]. intros _. exact I.
    + exists p. split; [eapply areach_step; [exact A|constructor; assumption]|]. split; [split; assumption|assumption].
    + exists p. split; [eapply areach_step; [exact A|constructor; assumption]|]. split; [split; assumption|].
      eapply mid_user; [|exact F]. intros _. exact I.
    + exists p. split; [eapply areach_step; [exact A|econstructor; eassumption]|]. split; [split; assumption|].
      eapply mid_user; [|exact F]. intros _. exact I.
    + exists p. split; [eapply areach_step; [exact A|constructor; assumption]|]. split; [split; assumption|assumption].
Qed.
End Sim.
