(** C110-C112: requests whose handlers start goroutines - order of the handlers, Stop, Abort
    and SkipMain whoever calls them. *)
From Verif Require Import Base GoErrors M_Pipeline M_Group S_Group P_Group P_Group2 P_Group3 P_Group4 P_Group5 Props_Group.

(** ** C110: the order of the handlers, and where Stop, errors and SkipMain take effect *)
Theorem C110_order : forall s ses path tr, user_request s ses -> history s ses path tr ->
  exists a l z, called tr = a ++ l ++ z /\ (a = [] \/ a = [WSesInit]) /\
    (exists with_main more, plan s with_main = l ++ more) /\ (z = [] \/ exists e, z = [WLast e]) /\
    (l <> [] \/ z <> [] -> a = with_init ses).
Proof.
  intros s ses path tr U H. destruct (history_areach _ _ _ U _ H) as (y & p & A & _ & <-).
  destruct (ord_areach _ _ _ _ _ A) as (a & l & z & E & Hh & Ha & Hz). exists a, l, z. split; [exact E|].
  assert (Wi : True -> with_init ses = [] \/ with_init ses = [WSesInit]) by (intros _; destruct ses; cbn; auto).
  assert (Bp : forall i, i <= length (gs_before s) -> exists wm more, plan s wm = bl i ++ more).
  { intros i L. destruct (bl_plan s i true L) as (more & K). eauto. }
  assert (Apl : forall i (b : bool), i <= length (gs_after s) -> exists wm more, plan s wm = al s b i ++ more).
  { intros i wm L. destruct (al_plan s i wm L) as (more & K). eauto. }
  assert (Mp : True -> exists wm more, plan s wm = (bl (length (gs_before s)) ++ [WMain]) ++ more).
  { intros _. destruct (al_plan s 0 true (Nat.le_0_l _)) as (more & K). unfold al in K. cbn [seq map] in K. rewrite app_nil_r in K. exists true, more. exact K. }
  assert (Fp : fin_ok s l (y_trace y) -> exists wm more, plan s wm = l ++ more) by (intros (wm & more & K & _); eauto).
  assert (Nil : l = [] -> exists wm more, plan s wm = l ++ more) by (intros ->; exists true; eexists; reflexivity).
  destruct p as [w|w q|w| |e|e|r|r]; try destruct w; cbn [head_ok at_list tail_ok] in Hh, Ha, Hz;
    repeat match goal with
    | H : _ /\ _ |- _ => destruct H
    | H : exists _, _ |- _ => destruct H
    | H : _ \/ _ |- _ => destruct H
    end; subst; (split; [auto|]; split; [first [apply Fp; assumption|apply Nil; reflexivity|apply Bp; lia|eapply Apl; lia|exact (Mp I)]|]; split; [eauto|]);
    try (intros; reflexivity); try (intros [K|K]; congruence); intros [K|K]; try congruence; auto.
Qed.
(** all handlers that ended so far returned nil *)
Definition nil_ok (p : pos) (tr : log) : Prop :=
  match p with
  | PStart (WLast _) | PIn (WLast _) _ | PFin _ | PWait _ | PRet _ | PEnd _ => True
  | _ => forall x w o, In (x, EMark (MEnd w o)) tr -> o = HRet None
  end.
Lemma nil_areach : forall s ses path y p, areach s ses path y p -> nil_ok p (y_trace y).
Proof.
  intros s ses path y p A. induction A as [|y p y' p' A IH St].
  - unfold first_pos, begin. destruct ses; [intros x w o []|]. destruct (gs_main s); [intros x w o []|exact I].
  - assert (Other : forall x e, (forall m, e <> EMark m) -> (forall x w o, In (x, EMark (MEnd w o)) (y_trace y) -> o = HRet None) ->
       forall x' w o, In (x', EMark (MEnd w o)) ((x, e) :: y_trace y) -> o = HRet None).
    { intros x e Hm K x' w o [E|I]; [injection E as _ ->; now destruct (Hm (MEnd w o))|eauto]. }
    destruct (astep_cases _ _ _ _ _ _ _ St) as [(e & C & -> & _)|(-> & (w & e & O & -> & _) & _)].
    + assert (N1 : forall i tr, (forall x w o, In (x, EMark (MEnd w o)) tr -> o = HRet None) -> nil_ok (next_before s i) tr)
        by (intros i tr K; unfold next_before; destruct (_ <? _); exact K).
      assert (N2 : forall i tr, (forall x w o, In (x, EMark (MEnd w o)) tr -> o = HRet None) -> nil_ok (next_after s i) tr)
        by (intros i tr K; unfold next_after; destruct (_ <? _); [exact K|exact I]).
      destruct C as [w R|w q e q' Ue|w o|w f Ef|w f Ef|f Ef|f Ef|e f Ef|e f Ef|e g|r]; try exact I.
      * destruct w; cbn [nil_ok] in *; try exact I; intros x' w' o' [E|J]; try discriminate; eauto.
      * destruct w; cbn [nil_ok] in *; try exact I; (apply Other; [apply user_not_mark; exact Ue|exact IH]).
      * assert (K : o = HRet None -> (forall x w o, In (x, EMark (MEnd w o)) (y_trace y) -> o = HRet None) ->
          forall x' w' o', In (x', EMark (MEnd w' o')) ((None, EMark (MEnd w o)) :: y_trace y) -> o' = HRet None).
        { intros Eo K x' w' o' [E|J]; [injection E as _ _ <-; exact Eo|eauto]. }
        destruct w; cbn [npos]; try exact I; destruct o as [[er|]|]; try exact I; cbn [nil_ok] in *;
          try (apply N1; apply K; [reflexivity|exact IH]); try (apply K; [reflexivity|exact IH]).
        unfold begin. destruct (gs_main s); [exact (K eq_refl IH)|exact I].
      * destruct w; cbn [next]; try exact I; first [apply N1|apply N2]; (apply Other; [discriminate|exact IH]).
      * apply N2. apply Other; [discriminate|exact IH].
      * cbn [nil_ok] in *. apply Other; [discriminate|exact IH].
      * unfold wait_next. destruct (gs_last s); exact I.
    + assert (Om : forall m, e <> EMark m) by (apply other_not_mark; exact O).
      destruct p as [w'|w' q'|w'| | | | |]; try exact I; try (destruct w'; try exact I); (cbn [nil_ok] in *; apply Other; [exact Om|exact IH]).
Qed.
(** A handler of the pipeline is only started if all before it returned nil, and if neither Stop
    nor Abort had been called - by whomever - when the previous one (other than Init) ended. *)
Theorem C110_start_conditions : forall s ses path post w pre, user_request s ses -> in_pipeline w ->
  history s ses path (post ++ (None, EMark (MStart w)) :: pre) ->
  (forall x w0 o, In (x, EMark (MEnd w0 o)) pre -> o = HRet None) /\
  (forall w0 o, last_end pre = Some (w0, o) -> w0 <> WInit -> w0 <> WSesInit ->
     ~ happened (EAct DoStop) (before_end pre) /\ ~ happened (EAct DoAbort) (before_end pre)).
Proof.
  intros s ses path post w pre U Hi H. destruct (mark_at _ _ _ _ _ _ U H) as (y & p & p' & A & <- & C). apply mark_start in C. subst p.
  split.
  - pose proof (nil_areach _ _ _ _ _ A) as K. destruct w; try (now destruct Hi); exact K.
  - intros w0 o E N1 N2. pose proof (chk_areach _ _ _ U _ _ A) as K.
    assert (K' : no_stop (y_trace y)) by (destruct w; try (now destruct Hi); try exact K; destruct K; assumption).
    apply (K' w0 o E). destruct w0; congruence || reflexivity.
Qed.
(** SkipMain called before the last before-handler ended keeps main from being called *)
Theorem C110_skip_main : forall s ses path post pre, user_request s ses ->
  history s ses path (post ++ (None, EMark (MStart WMain)) :: pre) -> ~ happened (EAct DoSkip) (before_end pre).
Proof.
  intros s ses path post pre U H. destruct (mark_at _ _ _ _ _ _ U H) as (y & p & p' & A & <- & C). apply mark_start in C. subst p.
  apply (chk_areach _ _ _ U _ _ A).
Qed.
Lemma last_called : forall s ses path y p, areach s ses path y p ->
  (forall e, In (WLast e) (called (y_trace y)) -> gs_last s <> None) /\ (forall e, p = PStart (WLast e) -> gs_last s <> None).
Proof.
  intros s ses path y p A. induction A as [|y p y' p' A [IH1 IH2] St].
  - split; [intros e []|]. intros e E. unfold first_pos, begin in E. destruct ses; [discriminate|]. destruct (gs_main s); discriminate.
  - destruct (astep_cases _ _ _ _ _ _ _ St) as [(e & C & -> & _)|(-> & (w & e & O & -> & _) & _)].
    + split.
      * intros x I. destruct e as [[w|w o|r]| | | | | | | | | | | |]; try (exact (IH1 x I)). cbn [called] in I. apply in_app_or in I.
        destruct I as [I|[->|[]]]; [exact (IH1 x I)|]. apply mark_start in C. exact (IH2 x C).
      * intros x ->. inversion C as [| |w o Ep Ee Ep'|w f Ef|w f Ef Ep Ee Ep'|f Ef Ep Ee Ep'| | | |e0 g Ep Ee Ep'|]; subst.
        -- destruct (npos_no_last s path w o x). assumption.
        -- destruct (next_no_last s w x). assumption.
        -- unfold next_after in Ep'. destruct (_ <? _); discriminate Ep'.
        -- unfold wait_next in Ep'. destruct (gs_last s); discriminate.
    + split; [|exact IH2]. intros x I. rewrite called_other in I by (apply other_not_mark; exact O). exact (IH1 x I).
Qed.
(** and a request that nobody stopped or aborted and whose handlers all returned nil called all
    of them (main left out only after SkipMain), then the last handler *)
Theorem C110_all_called : forall s ses path post r pre, user_request s ses -> gs_main s <> None ->
  history s ses path (post ++ (None, EMark (MReturn (RRet r))) :: pre) -> ~ halted pre ->
  exists with_main z, called pre = with_init ses ++ plan s with_main ++ z /\
    (with_main = false -> happened (EAct DoSkip) pre) /\ (gs_last s <> None -> exists e, z = [WLast e]) /\ (gs_last s = None -> z = []).
Proof.
  intros s ses path post r pre U Hm H Nh. destruct (mark_at _ _ _ _ _ _ U H) as (y & p & p' & A & <- & C). apply mark_return in C. subst p.
  destruct (ord_areach _ _ _ _ _ A) as (a & l & z & E & Hh & (wm & more & Ep & Hs & Hl) & Hz).
  cbn [head_ok tail_ok] in Hh, Hz. exists wm, z. destruct more as [|m more].
  - rewrite app_nil_r in Ep. rewrite Ep. split; [rewrite E, Hh; reflexivity|]. split; [exact Hs|]. split.
    + intros Nl. destruct Hz as [Hz|(_ & [K|[K|K]])]; [exact Hz|congruence|contradiction|contradiction].
    + intros Nl. destruct Hz as [(e & ->)|(-> & _)]; [|reflexivity]. exfalso.
      (* the last handler was called, so there is one *)
      destruct (last_called _ _ _ _ _ A) as [K _]. specialize (K e). apply K; [|exact Nl]. rewrite E. apply in_or_app. right. apply in_or_app. right. left. reflexivity.
  - exfalso. destruct (Hl ltac:(discriminate)); contradiction.
Qed.
(** concrete: a goroutine that stops the request, and one that is too late *)
Example C110_example :
  let s := GSet [Go (Act DoStop ok) ok; ok] [] None (Some (ok, ok)) in user_request s None /\
  exists tr, history s None [] tr /\ called tr = [WInit; WBefore 0] /\ happened (EAct DoStop) (before_end tr).
Proof.
  cbn. split. { constructor; cbn; try (repeat constructor; fail); try discriminate. intros i m E. injection E as <- <-. split; exact I. }
  eexists. split; [|split].
  - eexists. split. { unfold reaches. lazy. do 4 main. eapply reach_cons; [eapply (S_go _ _ [] _ []); [reflexivity|apply P_act]|lazy]. main. apply reach_start. } reflexivity.
  - reflexivity.
  - eexists. left. reflexivity.
Qed.
Print Assumptions C110_order.
Print Assumptions C110_start_conditions.
Print Assumptions C110_skip_main.
Print Assumptions C110_all_called.

(** ** C111: after Abort no further handler is called, nor the last handler *)
Definition C111_claim : Prop := forall s ses path post w pre, user_request s ses ->
  history s ses path (post ++ (None, EMark (MStart w)) :: pre) -> ~ happened (EAct DoAbort) pre.
(** false: if a goroutine calls Abort while the request waits for it, the last handler runs *)
Definition aborted_late : gset := set_of ok (Go (Act DoAbort ok) ok) (Some (fun _ => ok)).
Lemma aborted_late_user : user_request aborted_late None.
Proof. apply user_set; cbn; auto; try discriminate. intros f E. injection E as <-. cbn. auto. Qed.
Theorem C111_last_runs_after_abort_refuted : ~ C111_claim.
Proof.
  intros K. assert (H : exists e pre, history aborted_late None [] ([] ++ (None, EMark (MStart (WLast e))) :: pre) /\ happened (EAct DoAbort) pre).
  { do 2 eexists. split.
    - eexists. split.
      { unfold reaches. lazy. do 8 main. eapply reach_cons; [eapply (S_go _ _ [] _ []); [reflexivity|apply P_act]|lazy].
        eapply reach_cons; [eapply (S_returned _ _ [] []); reflexivity|lazy].
        eapply reach_cons; [eapply (S_gone _ _ [] []); reflexivity|lazy]. do 2 main. apply reach_start. }
      cbn. reflexivity.
    - exists (Some 0). cbn. tauto. }
  destruct H as (e & pre & H & Ha). exact (K _ _ _ _ _ _ aborted_late_user H Ha).
Qed.
Lemma first_nothing_ended : forall s ses path y p, areach s ses path y p -> p = PStart WSesInit -> last_end (y_trace y) = None.
Proof.
  intros s ses path y p A. induction A as [|y p y' p' A IH St]; intros E; [reflexivity|]. subst p'.
  destruct (astep_cases _ _ _ _ _ _ _ St) as [(e & C & Et & _)|(Ep & (w & e & O & Et & _) & _)].
  - exfalso. inversion C as [| |w o Ep Ee Ep'|w f Ef|w f Ef Ep Ee Ep'|f Ef Ep Ee Ep'| | | |e0 g Ep Ee Ep'|]; subst.
    + destruct w; cbn [npos] in Ep'; destruct o as [[er|]|]; try discriminate Ep'; unfold next_before, begin in Ep';
          try (destruct (_ <? _); discriminate Ep'); try (destruct (gs_main s); discriminate Ep').
    + destruct w; cbn [next] in Ep'; try discriminate Ep'; unfold next_before, next_after in Ep'; destruct (_ <? _); discriminate Ep'.
    + unfold next_after in Ep'. destruct (_ <? _); discriminate Ep'.
    + unfold wait_next in Ep'. destruct (gs_last s); discriminate Ep'.
  - rewrite Et, last_end_other by (apply other_not_mark; exact O). apply IH. congruence.
Qed.
(** What holds: Abort called before the handler that ended last had ended prevents every
    further handler, the last handler included (missing: an Abort after that; Init and the
    initialiser, after which there is no check). *)
Theorem C111_abort_in_time_partial : forall s ses path post w pre, user_request s ses ->
  history s ses path (post ++ (None, EMark (MStart w)) :: pre) ->
  (forall w0 o, last_end pre = Some (w0, o) -> w0 <> WInit /\ w0 <> WSesInit \/ exists e, w = WLast e) ->
  ~ happened (EAct DoAbort) (before_end pre).
Proof.
  intros s ses path post w pre U H Hw. destruct (last_end pre) as [[w0 o]|] eqn:El.
  - destruct w as [|i| |i| | |e].
    1-4: match type of H with history _ _ _ (_ ++ (_, EMark (MStart ?w)) :: _) => destruct (C110_start_conditions s ses path post w pre U I H) as [_ K] end; destruct (Hw _ _ eq_refl) as [[N1 N2]|(x & E)]; [|discriminate];
      apply (K _ _ El N1 N2).
    + exfalso. destruct (mark_at _ _ _ _ _ _ U H) as (y & p & p' & A & <- & C). apply mark_start in C. subst p.
      rewrite (first_nothing_ended _ _ _ _ _ A eq_refl) in El. discriminate.
    + exfalso. destruct (mark_at _ _ _ _ _ _ U H) as (y & p & p' & A & E1 & C). apply mark_start in C. subst p.
      apply (check_areach _ _ _ _ _ A). reflexivity.
    + destruct (mark_at _ _ _ _ _ _ U H) as (y & p & p' & A & <- & C). apply mark_start in C. subst p. apply (chk_areach _ _ _ U _ _ A).
  - assert (before_end pre = []) as ->; [|apply happened_nil].
    clear -El. induction pre as [|[x e] pre IH]; [reflexivity|]. cbn [before_end last_end] in *. destruct e as [[?|? ?|?]| | | | | | | | | | | |]; auto; discriminate.
Qed.
Print Assumptions C111_last_runs_after_abort_refuted.
Print Assumptions C111_abort_in_time_partial.

(** ** C112: Stopped, Aborted and the SkipMain flag tell what was asked for *)
Theorem C112_flags_exact : forall s ses path post w f pre, user_request s ses ->
  history s ses path (post ++ (w, ELook f) :: pre) ->
  (f_stopped f = true <-> happened (EAct DoStop) pre) /\
  (f_aborted f = true <-> happened (EAct DoAbort) pre) /\
  (f_skip f = true <-> happened (EAct DoSkip) pre).
Proof.
  intros s ses path post w f pre U H. destruct (event_at _ _ _ _ _ _ U H) as (y1 & p1 & y2 & p2 & A & St & E1 & E2).
  pose proof (flags_areach _ _ _ _ _ A) as K. unfold flags_ok in K. rewrite <- E1.
  assert (Ef : f = h_flags (y_sh y1)); [|rewrite Ef; exact K].
  destruct St; cbn [y_trace y_sh] in *; rewrite E1 in E2; inversion E2; subst; clear E2;
    match goal with P : pstep _ _ _ _ _ _ _ |- _ => inversion P; subst; reflexivity end.
Qed.
Example C112_example : exists post f pre, history (set_of ok (Go (Look (fun _ => ok)) (Act DoStop ok)) None) None []
  (post ++ (Some 0, ELook f) :: pre) /\ f_stopped f = true.
Proof.
  exists []. do 2 eexists. split.
  - eexists. split. { unfold reaches. lazy. do 6 main. eapply reach_cons; [eapply (S_go _ _ [] _ []); [reflexivity|apply P_look]|lazy]. apply reach_start. } cbn. reflexivity.
  - reflexivity.
Qed.
Print Assumptions C112_flags_exact.
