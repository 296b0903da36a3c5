(** C154, C155: what a server logs, and the loggers of its requests. *)
From Verif Require Import Base GoStrings GoErrors GoSlices P_Slices M_Logger S_Logger S_LogValues Props_Logger Props_LogValues M_ReqLog S_ReqLog.
From Coq Require Import Permutation.
Local Open Scope Z_scope.

Section ReqLog.
  Context {V : Type}.
  Variable order : forall A, list (bytes * A) -> list (bytes * A).
  Variable marshal : fields V -> option bytes.
  Hypothesis order_ok : forall A (m : list (bytes * A)), Permutation (order A m) m.
  Variable vtrue : V.
  Notation lrun := (M_Logger.run order marshal).
  Notation reached := (Props_LogValues.reached order marshal).
  Notation sim := (Props_LogValues.sim marshal).
  Notation step := (M_ReqLog.step order marshal vtrue).
  Notation acts_from := (M_ReqLog.acts_from order marshal vtrue).
  Notation calls := (M_ReqLog.calls order marshal).
  Notation spec_step := (S_ReqLog.spec_step vtrue).
  Notation spec_run := (S_ReqLog.spec_run vtrue).

  Lemma run_sim os : forall st s, reached st -> sim st s ->
    match lrun st os, vrun s os with Ok st', Some s' => sim st' s' /\ reached st' | Panic, None => True | _, _ => False end.
  Proof.
    induction os as [|o os IH]; intros st s R S; cbn [M_Logger.run vrun]; [auto|].
    pose proof (step_sim order marshal order_ok st s o R S) as H.
    destruct (M_Logger.step order marshal st o) as [st'|] eqn:E, (vstep s o) as [s'|]; try exact H; try contradiction.
    apply IH; [|exact H]. destruct R as (l & R). exists (l ++ [o]). rewrite run_snoc, R. exact E.
  Qed.
  Lemma upd_last {A} (l : list A) x f : upd_nth (length l) f (l ++ [x]) = l ++ [f x].
  Proof. induction l as [|y l IH]; cbn [length app upd_nth]; [reflexivity|]. f_equal. exact IH. Qed.
  Lemma nth_last {A} (l : list A) x : nth_error (l ++ [x]) (length l) = Some x.
  Proof. rewrite nth_error_app2, Nat.sub_diag by lia. reflexivity. Qed.
  Lemma upd_app {A} (l : list A) x i f : (i < length l)%nat -> upd_nth i f (l ++ [x]) = upd_nth i f l ++ [x].
  Proof. revert i. induction l as [|y l IH]; intros [|i] H; cbn [length app upd_nth] in *; try lia; [reflexivity|]. f_equal. apply IH. lia. Qed.

  Definition agrees (w : world V) (r : rstate (V := V)) : Prop :=
    sim (w_log w) (fst r) /\ reached (w_log w) /\ w_ctxs w = snd r /\ configs (fst r) <> [].
  Lemma calls_agree w r os : agrees w r ->
    match calls w os, vrun (fst r) os with
    | Ok w', Some s' => configs s' <> [] -> agrees w' (s', snd r)
    | Panic, None => True
    | _, _ => False
    end.
  Proof.
    intros (S & R & E & N). unfold M_ReqLog.calls. pose proof (run_sim os _ _ R S) as H.
    destruct (lrun (w_log w) os) as [st|], (vrun (fst r) os) as [s'|]; try exact H. intros N'. destruct H. split; [assumption|]. split; [assumption|]. split; [exact E|exact N'].
  Qed.
  (** the usual way to use it *)
  Lemma calls_ok w r os s' : agrees w r -> vrun (fst r) os = Some s' -> configs s' <> [] -> exists w', calls w os = Ok w' /\ agrees w' (s', snd r).
  Proof. intros A E N. pose proof (calls_agree w r os A) as H. rewrite E in H. destruct (calls w os) as [w'|]; [eauto|contradiction]. Qed.
  Lemma calls_panic w r os : agrees w r -> vrun (fst r) os = None -> calls w os = Panic.
  Proof. intros A E. pose proof (calls_agree w r os A) as H. rewrite E in H. destruct (calls w os) as [w'|]; [contradiction|reflexivity]. Qed.

  Lemma vstep_configs s (o : op V) s' : vstep s o = Some s' -> configs s <> [] -> configs s' <> [].
  Proof.
    assert (U : forall h f s', set_cfg s h f = Some s' -> configs s <> [] -> configs s' <> []).
    { intros h f s1 H N. unfold set_cfg, with_cfg in H. destruct (nth_error (configs s) h); [|discriminate]. injection H as <-. cbn [configs].
      intros X. apply N. apply length_zero_iff_nil. rewrite <- (upd_nth_length h (fun _ => f c) (configs s)), X. reflexivity. }
    assert (L : forall i f s', set_lgr s i f = Some s' -> configs s <> [] -> configs s' <> []).
    { intros i f s1 H N. unfold set_lgr, with_lgr in H. destruct (nth_error (loggers s) i); [|discriminate]. injection H as <-. exact N. }
    assert (G : forall lvl m i s', with_lgr s i (log lvl m i s) = Some s' -> configs s <> [] -> configs s' <> []).
    { intros lvl m i s1 H N. unfold with_lgr in H. destruct (nth_error (loggers s) i); [|discriminate]. unfold log in H.
      destruct (_ <? lvl); [injection H as <-; exact N|]. destruct (c_writer _); [|discriminate]. injection H as <-. exact N. }
    destruct o; cbn [vstep]; try (intros H; eapply U; exact H); try (intros H; eapply L; exact H); try (intros H; eapply G; exact H).
    - intros H _. injection H as <-. cbn. destruct (configs s); discriminate.
    - intros H _. unfold with_cfg in H. destruct (nth_error (configs s) h); [|discriminate]. injection H as <-. cbn. destruct (configs s); discriminate.
    - intros H N. injection H as <-. exact N.
    - intros H N. unfold with_lgr in H. destruct (nth_error (loggers s) l); [|discriminate]. destruct (nth_error (configs s) h); [|discriminate]. eapply L; eassumption.
    - intros H _. unfold with_lgr in H. destruct (nth_error (loggers s) l); [|discriminate]. injection H as <-. cbn. destruct (configs s); discriminate.
    - intros H N. unfold with_lgr in H. destruct (nth_error (loggers s) l); [|discriminate]. injection H as <-. exact N.
  Qed.

  (** reading the server's configuration *)
  Lemma server_sim w r : agrees w r -> simc (server_config w) (server_of (fst r)) /\ nth_error (configs (fst r)) 0 = Some (server_of (fst r)).
  Proof.
    intros (S & R & E & N). destruct S as (S1 & _ & S3 & _). unfold server_config, server_of.
    destruct (configs (fst r)) as [|c cs] eqn:Ec; [congruence|]. split; [|reflexivity].
    assert (exists h, nth_error (st_handles (w_log w)) 0 = Some h) as [h Eh].
    { destruct (st_handles (w_log w)); [discriminate S1|]. eexists. reflexivity. }
    assert (nth 0 (st_handles (w_log w)) 0%nat = h) as -> by (destruct (st_handles (w_log w)); [discriminate Eh|]; injection Eh as ->; reflexivity).
    apply (S3 0%nat); [|reflexivity]. unfold config_of. rewrite Eh. reflexivity.
  Qed.
  Lemma log_level_is w r : agrees w r -> log_level w = c_level (server_of (fst r)).
  Proof. intros A. destruct (server_sim w r A) as [H _]. apply H. Qed.
  Lemma next_logger_is w r : agrees w r -> next_logger w = length (loggers (fst r)).
  Proof. intros ((_ & S2 & _) & _). exact S2. Qed.
  Lemma next_config_is w r : agrees w r -> next_config w = length (configs (fst r)).
  Proof. intros ((S1 & _) & _). exact S1. Qed.

  (** Debugf, once the configuration is variable [h] *)
  Lemma vrun_debugf (s : vals V) h c now msg : nth_error (configs s) h = Some c -> 5 <= c_level c ->
    vrun s [New now; SetConfig (length (loggers s)) h; debugf (length (loggers s)) msg] =
    match c_writer c with
    | None => None
    | Some w => Some (Vals (configs s) (loggers s ++ [LgrV c [] (debug_record c now msg)]) (output s ++ [(w, debug_record c now msg)]))
    end.
  Proof.
    intros Ec L. cbn [vrun vstep debugf]. unfold with_lgr at 1, new_lgr. cbn [loggers configs output]. rewrite nth_last, Ec.
    unfold set_lgr, with_lgr. cbn [loggers configs output]. rewrite nth_last. cbn [loggers configs output]. rewrite upd_last, nth_last.
    unfold log. cbn [on_config l_config]. destruct (Z.ltb_spec (c_level c) 5) as [X|_]; [lia|].
    destruct (c_writer c) as [w|]; [|reflexivity]. cbn [loggers configs output]. rewrite upd_last. reflexivity.
  Qed.

  Lemma step_agrees w r a : agrees w r ->
    match step w a, spec_step r a with Ok w', Some r' => agrees w' r' | Panic, None => True | _, _ => False end.
  Proof.
    intros A. pose proof (server_sim w r A) as [Sc Sn]. pose proof A as (S & R & E & N). destruct r as [s cs]. cbn [fst snd] in *.
    assert (ctxlen : length (w_ctxs w) = length cs) by (rewrite E; reflexivity).
    assert (Ch : forall c os f, (forall i l, nth_error (loggers s) i = Some l ->
                   vrun s (os i) = Some (Vals (configs s) (upd_nth i (fun _ => f l) (loggers s)) (output s))) ->
                 (forall i, nth_error (loggers s) i = None -> vrun s (os i) = None) ->
                 match on_ctx w c (fun l => calls w (os l)), change (s, cs) c f with Ok w', Some r' => agrees w' r' | Panic, None => True | _, _ => False end).
    { intros c os f H1 H2. unfold on_ctx, change, ctx_logger. cbn [fst snd]. rewrite E. destruct (nth_error cs c) as [[i|]|]; try exact I.
      destruct (nth_error (loggers s) i) as [l|] eqn:Ei; cbn [option_map].
      - destruct (calls_ok w (s, cs) (os i) _ A (H1 _ _ Ei) N) as (w' & -> & A'). exact A'.
      - rewrite (calls_panic w (s, cs) (os i) A (H2 _ Ei)). exact I. }
    assert (Sl : forall i f l, nth_error (loggers s) i = Some l -> set_lgr s i f = Some (Vals (configs s) (upd_nth i (fun _ => f l) (loggers s)) (output s))).
    { intros i f l Ei. unfold set_lgr, with_lgr. rewrite Ei. reflexivity. }
    assert (Sx : forall i (f : lgrv V -> lgrv V), nth_error (loggers s) i = None -> set_lgr s i f = None).
    { intros i f Ei. unfold set_lgr, with_lgr. rewrite Ei. reflexivity. }
    assert (Nt : forall k x (l : lgrv V), (if 5 <=? c_level (l_config l) then put k x l else l) = note k x l).
    { intros k x l. unfold note. destruct (Z.leb_spec 5 (c_level (l_config l))), (Z.ltb_spec (c_level (l_config l)) 5); try lia; reflexivity. }
    assert (Ad : forall c k x, match on_ctx w c (fun l => calls w [AddDebug l k x]), change (s, cs) c (note k x) with Ok w', Some r' => agrees w' r' | Panic, None => True | _, _ => False end).
    { intros c k x. apply (Ch c (fun l => [AddDebug l k x])).
      - intros i l Ei. cbn [vrun vstep]. rewrite (Sl i _ l Ei). rewrite Nt. reflexivity.
      - intros i Ei. cbn [vrun vstep]. rewrite (Sx i _ Ei). reflexivity. }
    assert (Up : forall f, configs (Vals (upd_nth 0 f (configs s)) (loggers s) (output s)) <> []).
    { intros f. cbn [configs]. destruct (configs s); [congruence|discriminate]. }
    assert (Cg : forall (f : cfgv -> cfgv), set_cfg s 0 f = Some (Vals (upd_nth 0 f (configs s)) (loggers s) (output s))).
    { intros f. unfold set_cfg, with_cfg. rewrite Sn. cbn [option_map]. destruct (configs s) as [|c0 cr]; [congruence|]. injection Sn as E0. rewrite E0. reflexivity. }
    destruct a as [n|wr|now msg|now|c now|c|c l|c n|c|c|c|c now msg|c old new|o]; cbn [M_ReqLog.step S_ReqLog.spec_step fst snd].
    - destruct (calls_ok w (s, cs) [CfgLevel 0 n] _ A (ltac:(cbn [vrun vstep fst]; rewrite Cg; reflexivity)) (Up _)) as (w' & -> & A'). exact A'.
    - destruct (calls_ok w (s, cs) [CfgWriter 0 wr] _ A (ltac:(cbn [vrun vstep fst]; rewrite Cg; reflexivity)) (Up _)) as (w' & -> & A'). exact A'.
    - unfold server_debugf, spec_debugf. rewrite (log_level_is w (s, cs) A), (next_logger_is w (s, cs) A). cbn [fst].
      destruct (Z.leb_spec 5 (c_level (server_of s))) as [L|L], (Z.ltb_spec (c_level (server_of s)) 5) as [L'|L']; try lia; [|exact A].
      pose proof (vrun_debugf s 0 (server_of s) now msg Sn L) as Ev. destruct (c_writer (server_of s)) as [w0|]; cbn [option_map].
      + destruct (calls_ok w (s, cs) _ _ A Ev N) as (w' & -> & A'). exact A'.
      + rewrite (calls_panic w (s, cs) _ A Ev). exact I.
    - destruct (calls_ok w (s, cs) [New now] _ A eq_refl N) as (w' & -> & (S' & R' & E' & N')).
      rewrite (next_logger_is w (s, cs) A). split; [exact S'|]. split; [exact R'|]. split; [|exact N']. cbn [w_ctxs snd fst] in *. rewrite E'. reflexivity.
    - rewrite ctxlen. destruct (c <? length cs)%nat; [|exact I]. unfold handlers_start. rewrite (next_logger_is w (s, cs) A). cbn [fst].
      assert (Ev : vrun s [New now; SetConfig (length (loggers s)) 0] = Some (Vals (configs s) (loggers s ++ [LgrV (server_of s) [] (only_time now)]) (output s))).
      { cbn [vrun vstep]. unfold with_lgr at 1, new_lgr. cbn [loggers configs output]. rewrite nth_last, Sn. unfold set_lgr, with_lgr. cbn [loggers configs output]. rewrite nth_last, upd_last. reflexivity. }
      destruct (calls_ok w (s, cs) _ _ A Ev N) as (w1 & -> & A1). pose proof A1 as (S1 & R1 & E1 & N1).
      set (s1 := Vals (configs s) (loggers s ++ [LgrV (server_of s) [] (only_time now)]) (output s)) in *.
      assert (A2 : agrees (World (w_log w1) (upd_nth c (fun _ => Some (length (loggers s))) (w_ctxs w1))) (s1, upd_nth c (fun _ => Some (length (loggers s))) cs)).
      { split; [exact S1|]. split; [exact R1|]. split; [|exact N1]. cbn [w_ctxs snd] in *. rewrite E1. reflexivity. }
      rewrite (log_level_is w1 _ A1). cbn [fst].
      assert (Ev2 : vrun s1 [SetLevel (length (loggers s)) (c_level (server_of s1))] = Some s1).
      { cbn [vrun vstep]. unfold set_lgr, with_lgr, s1. cbn [loggers configs output]. rewrite nth_last, upd_last. unfold on_config, with_level. cbn [l_config l_errors l_fields].
        change (server_of (Vals (configs s) (loggers s ++ [LgrV (server_of s) [] (only_time now)]) (output s))) with (server_of s).
        destruct (server_of s). reflexivity. }
      destruct (calls_ok _ _ _ _ A2 Ev2 N) as (w' & -> & A'). exact A'.
    - rewrite ctxlen. destruct (c <? length cs)%nat; [|exact I]. split; [exact S|]. split; [exact R|]. split; [|exact N]. cbn [w_ctxs snd]. rewrite E. reflexivity.
    - rewrite ctxlen. destruct (c <? length cs)%nat; [|exact I]. split; [exact S|]. split; [exact R|]. split; [|exact N]. cbn [w_ctxs snd]. rewrite E. reflexivity.
    - apply (Ch c (fun l => [SetLevel l n])).
      + intros i l Ei. cbn [vrun vstep]. rewrite (Sl i _ l Ei). reflexivity.
      + intros i Ei. cbn [vrun vstep]. rewrite (Sx i _ Ei). reflexivity.
    - apply Ad.
    - apply Ad.
    - apply Ad.
    - unfold on_ctx, ctx_logger. cbn [fst snd]. rewrite E. destruct (nth_error cs c) as [[i|]|]; try exact I.
      destruct (nth_error (loggers s) i) as [l|] eqn:Ei; cbn [option_map]; unfold ctx_debugf.
      2:{ assert (Ev : vrun s [LgConfig i] = None) by (cbn [vrun vstep]; unfold with_lgr; rewrite Ei; reflexivity). rewrite (calls_panic w (s, cs) _ A Ev). exact I. }
      assert (Ev : vrun s [LgConfig i] = Some (new_cfg s (l_config l))) by (cbn [vrun vstep]; unfold with_lgr; rewrite Ei; reflexivity).
      destruct (calls_ok w (s, cs) _ _ A Ev) as (w1 & -> & A1); [cbn; destruct (configs s); discriminate|].
      assert (Lv : cf_level (get_config (w_log w1) (nth (next_config w) (st_handles (w_log w1)) 0%nat)) = c_level (l_config l)).
      { pose proof A1 as ((S1 & _ & S3 & _) & _). rewrite (next_config_is w _ A). cbn [fst new_cfg configs] in *.
        assert (exists h, nth_error (st_handles (w_log w1)) (length (configs s)) = Some h) as [h Eh].
        { apply nth_get. rewrite S1, app_length. cbn. lia. }
        rewrite (nth_error_nth _ _ 0%nat Eh). apply (S3 (length (configs s))); [unfold config_of; rewrite Eh; reflexivity|apply nth_last]. }
      rewrite Lv, (next_logger_is w _ A), (next_config_is w1 _ A1). cbn [fst new_cfg configs]. unfold spec_debugf. cbn [configs loggers output].
      destruct (Z.leb_spec 5 (c_level (l_config l))) as [L|L], (Z.ltb_spec (c_level (l_config l)) 5) as [L'|L']; try lia; cbn [option_map]; [|exact A1].
      assert (Ev2 : vrun (new_cfg s (l_config l)) [New now; LgConfig i; SetConfig (length (loggers s)) (length (configs s ++ [l_config l])); debugf (length (loggers s)) msg] =
                    match c_writer (l_config l) with None => None | Some w0 => Some (Vals (configs s ++ [l_config l; l_config l]) (loggers s ++ [LgrV (l_config l) [] (debug_record (l_config l) now msg)]) (output s ++ [(w0, debug_record (l_config l) now msg)])) end).
      { pose proof (vrun_debugf (Vals (configs s ++ [l_config l; l_config l]) (loggers s) (output s)) (length (configs s ++ [l_config l])) (l_config l) now msg) as D.
        cbn [configs loggers output] in D.
        assert (En : nth_error (configs s ++ [l_config l; l_config l]) (length (configs s ++ [l_config l])) = Some (l_config l)).
        { change [l_config l; l_config l] with ([l_config l] ++ [l_config l]). rewrite app_assoc. apply nth_last. }
        rewrite <- (D En L). cbn [vrun vstep]. unfold new_cfg at 1, new_lgr at 1, with_lgr at 1. cbn [loggers configs output].
        rewrite (nth_error_app1 (loggers s) _ (proj1 (nth_error_Some (loggers s) i) ltac:(congruence))), Ei.
        cbn [new_cfg new_lgr loggers configs output].
        unfold new_cfg, new_lgr, set_lgr, with_lgr. cbn [loggers configs output]. rewrite <- !app_assoc. reflexivity. }
      destruct (c_writer (l_config l)) as [w0|]; cbn [option_map].
      + destruct (calls_ok w1 _ _ _ A1 Ev2) as (w' & -> & A'); [cbn; destruct (configs s); discriminate|]. exact A'.
      + rewrite (calls_panic w1 _ _ A1 Ev2). exact I.
    - apply (Ch c (fun l => [AddDebug l (B"url_path_income") (FStr old); AddDebug l (B"url_path_internal") (FStr new)])).
      + intros i l Ei. cbn [vrun vstep]. rewrite (Sl i _ l Ei), Nt. unfold set_lgr, with_lgr. cbn [loggers configs output].
        assert (Li : (i < length (loggers s))%nat) by (apply nth_error_Some; congruence).
        rewrite nth_error_upd_nth, Nat.eqb_refl, Ei. cbn [option_map]. rewrite Nt. do 2 f_equal.
        clear. revert i. induction (loggers s) as [|y ls IH]; intros [|i]; cbn [upd_nth]; try reflexivity. f_equal. apply IH.
      + intros i Ei. cbn [vrun vstep]. rewrite (Sx i _ Ei). reflexivity.
    - pose proof (calls_agree w (s, cs) [o] A) as H. cbn [vrun fst snd] in H. destruct (vstep s o) as [s'|] eqn:Eo; cbn [option_map].
      + destruct (calls w [o]); [|contradiction]. exact (H (vstep_configs _ _ _ Eo N)).
      + destruct (calls w [o]); [contradiction|exact I].
  Qed.

  Lemma start_agrees : agrees new_server spec_start.
  Proof.
    assert (R : reached (new_handle init new_config)) by (exists [NewConfig]; reflexivity).
    split; [|split; [exact R|split; [reflexivity|discriminate]]].
    pose proof (step_sim order marshal order_ok init nothing NewConfig (ex_intro _ [] eq_refl)) as H. cbn [M_Logger.step vstep] in H. apply H.
    split; [reflexivity|]. split; [reflexivity|]. split; [intros [|h] cf c; discriminate|]. split; [intros [|i] v l; discriminate|].
    exists []. split; [reflexivity|constructor].
  Qed.
  Lemma acts_agree l : forall w r, agrees w r ->
    match acts_from w l, spec_run r l with Ok w', Some r' => agrees w' r' | Panic, None => True | _, _ => False end.
  Proof.
    induction l as [|a l IH]; intros w r A; cbn [M_ReqLog.acts_from S_ReqLog.spec_run]; [exact A|].
    pose proof (step_agrees w r a A) as H. destruct (step w a), (spec_step r a); try exact H; try contradiction. apply IH, H.
  Qed.

  (** Whatever the server, its requests and user code do with loggers, everything written is what the same calls write
      when every logger and configuration is a value of its own, and they panic at the same points. *)
  Theorem C154_logging_is_values : forall acts,
    match acts_from new_server acts, spec_run spec_start acts with
    | Ok w, Some r => w_ctxs w = snd r /\
        exists recs, rev (st_out (w_log w)) = flat_map (printed marshal) recs /\ Forall2 holds recs (output (fst r))
    | Panic, None => True
    | _, _ => False
    end.
  Proof.
    intros acts. pose proof (acts_agree acts _ _ start_agrees) as H.
    destruct (acts_from new_server acts), (spec_run spec_start acts); try exact H. destruct H as ((_ & _ & _ & _ & H) & _ & E & _). split; [exact E|exact H].
  Qed.

  (** *** the server's settings *)
  Lemma vstep_keeps (s : vals V) o s' c : vstep s o = Some s' -> changes_config o <> Some 0%nat -> nth_error (configs s) 0 = Some c ->
    nth_error (configs s') 0 = Some c.
  Proof.
    intros H N E.
    assert (U : forall h f s', Some h <> Some 0%nat -> set_cfg s h f = Some s' -> nth_error (configs s') 0 = Some c).
    { intros h f s1 Nh X. unfold set_cfg, with_cfg in X. destruct (nth_error (configs s) h); [|discriminate]. injection X as <-. cbn [configs].
      rewrite nth_error_upd_nth. destruct h; [congruence|]. cbn [Nat.eqb]. exact E. }
    assert (L : forall i f s', set_lgr s i f = Some s' -> nth_error (configs s') 0 = Some c).
    { intros i f s1 X. unfold set_lgr, with_lgr in X. destruct (nth_error (loggers s) i); [|discriminate]. injection X as <-. exact E. }
    assert (M : forall d, nth_error (configs s ++ [d]) 0 = Some c).
    { intros d. destruct (configs s); [discriminate E|exact E]. }
    assert (G : forall lvl m i s', with_lgr s i (log lvl m i s) = Some s' -> nth_error (configs s') 0 = Some c).
    { intros lvl m i s1 X. unfold with_lgr in X. destruct (nth_error (loggers s) i); [|discriminate]. unfold log in X.
      destruct (_ <? lvl); [injection X as <-; exact E|]. destruct (c_writer _); [|discriminate]. injection X as <-. exact E. }
    destruct o; cbn [vstep changes_config] in H, N; try (eapply U; [|exact H]; congruence); try (eapply L; exact H); try (eapply G; exact H).
    - injection H as <-. apply M.
    - unfold with_cfg in H. destruct (nth_error (configs s) h); [|discriminate]. injection H as <-. apply M.
    - injection H as <-. exact E.
    - unfold with_lgr in H. destruct (nth_error (loggers s) l); [|discriminate]. destruct (nth_error (configs s) h); [|discriminate]. eapply L. exact H.
    - unfold with_lgr in H. destruct (nth_error (loggers s) l); [|discriminate]. injection H as <-. apply M.
    - unfold with_lgr in H. destruct (nth_error (loggers s) l); [|discriminate]. injection H as <-. exact E.
  Qed.
  Lemma debugf_configs (s : vals V) c now msg s' : spec_debugf s c now msg = Some s' -> configs s' = configs s.
  Proof. unfold spec_debugf. destruct (_ <? 5); [intros H; injection H as <-; reflexivity|]. destruct (c_writer c); [|discriminate]. intros H; injection H as <-; reflexivity. Qed.
  Lemma change_configs r c (f : lgrv V -> lgrv V) r' : change r c f = Some r' -> configs (fst r') = configs (fst r).
  Proof. unfold change. destruct (ctx_logger r c) as [[i l]|]; [|discriminate]. intros H; injection H as <-; reflexivity. Qed.
  Definition settings (c : cfgv) (l : Z) (w : option nat) : Prop := c_level c = l /\ c_writer c = w /\ forall k, c_name c k = k.
  Lemma spec_settings l : forall r r' c lv wr, spec_run r l = Some r' -> user_code l ->
    nth_error (configs (fst r)) 0 = Some c -> settings c lv wr ->
    exists c', nth_error (configs (fst r')) 0 = Some c' /\ settings c' (last_level l lv) (last_writer l wr).
  Proof.
    induction l as [|a l IH]; intros r r' c lv wr H U E S; cbn [S_ReqLog.spec_run] in H.
    - injection H as <-. exists c. split; [exact E|exact S].
    - destruct (spec_step r a) as [r1|] eqn:E1; [|discriminate]. 
      assert (U' : user_code l) by (intros o Ho; apply U; right; exact Ho).
      assert (P : nth_error (configs (fst r1)) 0 = Some c -> (forall n, a <> SetLogLevel n) -> (forall w, a <> SetLoggerWriter w) ->
                  exists c', nth_error (configs (fst r')) 0 = Some c' /\ settings c' (last_level (a :: l) lv) (last_writer (a :: l) wr)).
      { intros Ec N1 N2. destruct (IH r1 r' c lv wr H U' Ec S) as (c' & Q). exists c'.
        replace (last_level (a :: l) lv) with (last_level l lv) by (destruct a; try reflexivity; exfalso; eapply N1; reflexivity).
        replace (last_writer (a :: l) wr) with (last_writer l wr) by (destruct a; try reflexivity; exfalso; eapply N2; reflexivity). exact Q. }
      assert (Ch : forall k f, change r k f = Some r1 -> nth_error (configs (fst r1)) 0 = Some c).
      { intros k f X. rewrite (change_configs _ _ _ _ X). exact E. }
      destruct r as [s cs]. cbn [fst snd] in *.
      destruct a as [n|wr'|now msg|now|k now|k|k lg|k n|k|k|k|k now msg|k old new|o]; cbn [S_ReqLog.spec_step fst snd] in E1;
        try (apply P; [|intros; discriminate|intros; discriminate]); try (eapply Ch; exact E1).
      + injection E1 as <-. cbn [last_level last_writer]. destruct S as (S1 & S2 & S3).
        refine (IH _ _ (with_level n c) n wr H U' _ _).
        * cbn [fst configs]. destruct (configs s); [discriminate E|]. injection E as ->. reflexivity.
        * split; [reflexivity|]. split; [exact S2|exact S3].
      + injection E1 as <-. cbn [last_level last_writer]. destruct S as (S1 & S2 & S3).
        refine (IH _ _ (with_writer wr' c) lv wr' H U' _ _).
        * cbn [fst configs]. destruct (configs s); [discriminate E|]. injection E as ->. reflexivity.
        * split; [exact S1|]. split; [reflexivity|exact S3].
      + destruct (spec_debugf s (server_of s) now msg) as [s1|] eqn:D; [|discriminate]. injection E1 as <-. cbn [fst]. rewrite (debugf_configs _ _ _ _ _ D). exact E.
      + injection E1 as <-. exact E.
      + destruct (k <? length cs)%nat; [|discriminate]. injection E1 as <-. exact E.
      + destruct (k <? length cs)%nat; [|discriminate]. injection E1 as <-. exact E.
      + destruct (k <? length cs)%nat; [|discriminate]. injection E1 as <-. exact E.
      + destruct (ctx_logger (s, cs) k) as [[i lv']|]; [|discriminate]. cbv zeta in E1.
        destruct (spec_debugf _ _ now msg) as [s1|] eqn:D; [|discriminate]. injection E1 as <-. cbn [fst]. rewrite (debugf_configs _ _ _ _ _ D). cbn [configs].
        rewrite nth_error_app1; [exact E|]. apply nth_error_Some. congruence.
      + destruct (vstep s o) as [s1|] eqn:D; [|discriminate]. injection E1 as <-. cbn [fst]. eapply vstep_keeps; [exact D|apply U; left; reflexivity|exact E].
  Qed.
  Lemma reached_agrees acts w : acts_from new_server acts = Ok w -> exists r, spec_run spec_start acts = Some r /\ agrees w r.
  Proof.
    intros H. pose proof (acts_agree acts _ _ start_agrees) as X. rewrite H in X. destruct (spec_run spec_start acts) as [r|]; [|contradiction]. eauto.
  Qed.
  Lemma server_settings acts w : acts_from new_server acts = Ok w -> user_code acts ->
    exists r, agrees w r /\ settings (server_of (fst r)) (last_level acts 5) (last_writer acts (Some 0%nat)).
  Proof.
    intros H U. destruct (reached_agrees _ _ H) as (r & Hr & A). exists r. split; [exact A|].
    destruct (spec_settings acts spec_start r fresh_config 5 (Some 0%nat) Hr U eq_refl) as (c & Ec & S).
    { split; [reflexivity|]. split; reflexivity. }
    destruct (server_sim w r A) as [_ X]. rewrite Ec in X. injection X as ->. exact S.
  Qed.
  (** Nothing but the server's own setters changes its level and its writer, whatever handlers do with theirs. *)
  Theorem C154_server_settings : forall acts w, acts_from new_server acts = Ok w -> user_code acts ->
    log_level w = last_level acts 5 /\ logger_writer w = last_writer acts (Some 0%nat).
  Proof.
    intros acts w H U. destruct (server_settings _ _ H U) as (r & A & S1 & S2 & _). destruct (server_sim w r A) as [(C1 & C2 & _) _].
    unfold log_level, logger_writer. rewrite C1, C2. auto.
  Qed.

  (** *** Debugf *)
  Lemma calls_snoc w os o w' : calls w (os ++ [o]) = Ok w' ->
    exists w1, calls w os = Ok w1 /\ M_Logger.step order marshal (w_log w1) o = Ok (w_log w') /\ w_ctxs w' = w_ctxs w.
  Proof.
    unfold M_ReqLog.calls. rewrite run_snoc. destruct (lrun (w_log w) os) as [st|]; [|discriminate]. intros H. exists (World st (w_ctxs w)).
    cbn [w_log]. destruct (M_Logger.step order marshal st o) as [st'|]; [|discriminate]. injection H as <-. auto.
  Qed.
  Lemma logf_writes st s i lvl msg st' l wr : reached st -> sim st s -> nth_error (loggers s) i = Some l ->
    lvl <= c_level (l_config l) -> c_writer (l_config l) = Some wr -> M_Logger.step order marshal st (Logf i lvl msg) = Ok st' ->
    exists rec, writes marshal st st' wr rec /\ NoDup (map fst rec) /\ forall k, aget k rec = l_fields (complete (put (B"message") (FStr msg) l)) k.
  Proof.
    intros R Sm El Hl Hw H. pose proof Sm as (S1 & S2 & S3 & S4 & _). pose proof (step_sim order marshal order_ok st s (Logf i lvl msg) R Sm) as Q.
    rewrite H in Q. cbn [vstep] in Q. unfold with_lgr in Q. rewrite El in Q. unfold log in Q.
    destruct (Z.ltb_spec (c_level (l_config l)) lvl) as [X|_]; [lia|]. rewrite Hw in Q. destruct Q as (_ & _ & _ & Q & _).
    destruct (logger_at st i) as (v & Ev); [rewrite S2; apply nth_error_Some; congruence|].
    destruct (S4 i v l Ev El) as ((C1 & C2 & _) & _). destruct R as (os & R).
    destruct (C66_threshold order marshal os st i v lvl R Ev) as [_ T].
    destruct (T ltac:(lia) wr ltac:(congruence)) as [_ T']. destruct (T' msg) as (st1 & rec & E1 & W & _ & Er). rewrite H in E1. injection E1 as <-.
    exists rec. split; [exact W|]. destruct (Q i _ _ Er ltac:(cbn [loggers]; rewrite nth_error_upd_nth, Nat.eqb_refl, El; reflexivity)) as (_ & _ & Q1 & Q2). cbn [v_fields] in Q1, Q2. auto.
  Qed.
  Definition quiet (o : op V) : bool := match o with Log _ _ | Logf _ _ _ => false | _ => true end.
  Lemma quiet_out os : forall st st', forallb quiet os = true -> lrun st os = Ok st' -> st_out st' = st_out st.
  Proof.
    induction os as [|o os IH]; intros st st' Q H; cbn [M_Logger.run forallb] in *; [injection H as <-; reflexivity|].
    apply andb_true_iff in Q as [Q1 Q2]. destruct (M_Logger.step order marshal st o) as [st1|] eqn:E; [|discriminate]. rewrite (IH _ _ Q2 H). clear H IH.
    destruct o; try discriminate Q1; cbn [M_Logger.step] in E; unfold on_handle, on_logger in E;
      repeat match type of E with context [match ?x with _ => _ end] => destruct x end; try discriminate E; injection E as <-; try reflexivity.
    all: unfold do_std_keys; repeat match goal with |- context [let (_, _) := ?x in _] => destruct x | |- context [match ?x with _ => _ end] => destruct x end; reflexivity.
  Qed.
  Lemma debugf_does w s h c now msg os : reached (w_log w) -> sim (w_log w) s -> nth_error (configs s) h = Some c ->
    (length (loggers s) = next_logger w)%nat -> 5 <= c_level c -> os = [New now; SetConfig (next_logger w) h; debugf (next_logger w) msg] ->
    match c_writer c with
    | None => calls w os = Panic
    | Some wr => exists w' rec, calls w os = Ok w' /\ writes marshal (w_log w) (w_log w') wr rec /\ NoDup (map fst rec) /\ w_ctxs w' = w_ctxs w /\
                   forall k, aget k rec = debug_record c now msg k
    end.
  Proof.
    intros R Sm Ec El Hl ->. rewrite <- El. pose proof (vrun_debugf s h c now msg Ec Hl) as Ev.
    pose proof (run_sim [New now; SetConfig (length (loggers s)) h; debugf (length (loggers s)) msg] (w_log w) s R Sm) as Q. unfold M_ReqLog.calls.
    rewrite Ev in Q. destruct (c_writer c) as [wr|] eqn:Ew.
    2:{ destruct (lrun _ _); [contradiction|reflexivity]. }
    destruct (lrun (w_log w) _) as [st'|] eqn:Er; [|contradiction].
    assert (Ok' : calls w ([New now; SetConfig (length (loggers s)) h] ++ [debugf (length (loggers s)) msg]) = Ok (World st' (w_ctxs w))) by (unfold M_ReqLog.calls; cbn [app]; rewrite Er; reflexivity).
    destruct (calls_snoc _ _ _ _ Ok') as (w1 & H1 & H2 & _). cbn [w_log] in H2.
    assert (H1' : lrun (w_log w) [New now; SetConfig (length (loggers s)) h] = Ok (w_log w1)) by (unfold M_ReqLog.calls in H1; destruct (lrun (w_log w) [New now; SetConfig (length (loggers s)) h]); [inversion H1; reflexivity|discriminate]).
    pose proof (run_sim [New now; SetConfig (length (loggers s)) h] (w_log w) s R Sm) as Q1. rewrite H1' in Q1.
    assert (Ev1 : vrun s [New now; SetConfig (length (loggers s)) h] = Some (Vals (configs s) (loggers s ++ [LgrV c [] (only_time now)]) (output s))).
    { cbn [vrun vstep]. unfold with_lgr at 1, new_lgr. cbn [loggers configs output]. rewrite nth_last, Ec. unfold set_lgr, with_lgr. cbn [loggers configs output]. rewrite nth_last, upd_last. reflexivity. }
    rewrite Ev1 in Q1. destruct Q1 as [Q1 R1].
    destruct (logf_writes (w_log w1) _ (length (loggers s)) 5 msg st' (LgrV c [] (only_time now)) wr R1 Q1 (nth_last _ _) Hl Ew H2) as (rec & Wr & Nd & Er').
    exists (World st' (w_ctxs w)), rec. split; [reflexivity|]. cbn [w_log w_ctxs]. split; [|split; [exact Nd|split; [reflexivity|exact Er']]].
    unfold writes in Wr |- *. rewrite (quiet_out _ _ _ (eq_refl : forallb quiet [New now; SetConfig (length (loggers s)) h] = true) H1') in Wr. exact Wr.
  Qed.
  (** the names of a fresh configuration *)
  Definition standard_record (lvl : Z) (now msg : bytes) : record_ (V := V) :=
    fun k => if beq k (B"error.message") then Some (FStr []) else if beq k (B"@level") then Some (FStr (level_name lvl))
             else if beq k (B"message") then Some (FStr msg) else if beq k (B"@timestamp") then Some (FStr now) else None.

  (** Server.Debugf (so also a mount's message): nothing below level debug; at it or above, one Write of a record with
      exactly these four fields to the writer last set, a panic if that is nil. *)
  Theorem C154_server_debugf : forall acts w now msg, acts_from new_server acts = Ok w -> user_code acts ->
    let lvl := last_level acts 5 in
    (lvl < 5 -> step w (ServerDebugf now msg) = Ok w) /\
    (5 <= lvl -> match last_writer acts (Some 0%nat) with
                 | None => step w (ServerDebugf now msg) = Panic
                 | Some wr => exists w' rec, step w (ServerDebugf now msg) = Ok w' /\ writes marshal (w_log w) (w_log w') wr rec /\
                                NoDup (map fst rec) /\ (forall k, aget k rec = standard_record lvl now msg k) /\ w_ctxs w' = w_ctxs w
                 end).
  Proof.
    intros acts w now msg H U lvl. destruct (server_settings _ _ H U) as (r & A & S1 & S2 & S3).
    destruct (server_sim w r A) as [_ Sn]. pose proof A as (Sm & R & E & N). cbn [M_ReqLog.step]. unfold server_debugf.
    rewrite (log_level_is w r A), S1. fold lvl. split; intros L; destruct (Z.leb_spec 5 lvl) as [L'|L']; try lia; [reflexivity|].
    pose proof (debugf_does w (fst r) 0 (server_of (fst r)) now msg _ R Sm Sn (eq_sym (next_logger_is w r A)) ltac:(rewrite S1; exact L) eq_refl) as D.
    rewrite S2 in D. destruct (last_writer acts (Some 0%nat)) as [wr|]; [|exact D].
    destruct D as (w' & rec & D1 & D2 & D3 & D4 & D5). exists w', rec. split; [exact D1|]. split; [exact D2|]. split; [exact D3|]. split; [|exact D4].
    intros k. rewrite D5. unfold debug_record, standard_record. rewrite !S3, S1. reflexivity.
  Qed.

  (** *** what handlers get *)
  (** the names of a configuration: under which key each standard field is stored *)
  Definition own_names (cf : config) : Prop := forall k, standard k = true -> aget k (cf_keys cf) = Some k.
  (** a logger as the handlers of a request find it: no errors, no fields but the time it was made *)
  Definition as_new (v : view V) (lvl : Z) (wr : option nat) (now : bytes) : Prop :=
    cf_level (v_config v) = lvl /\ cf_writer (v_config v) = wr /\ own_names (v_config v) /\ v_err v = None /\
    NoDup (map fst (v_fields v)) /\ forall k, aget k (v_fields v) = if beq k (B"@timestamp") then Some (FStr now) else None.
  Lemma siml_new v c now lvl wr : siml v (LgrV c [] (only_time now)) -> settings c lvl wr -> as_new v lvl wr now.
  Proof.
    intros ((A1 & A2 & A3 & A4) & E & F1 & F2) (S1 & S2 & S3). cbn [l_config l_errors l_fields] in *. split; [congruence|]. split; [congruence|].
    split; [intros k Hk; rewrite A3, Hk, S3; reflexivity|]. split; [destruct (v_err v); [destruct E as [E _]; congruence|reflexivity]|]. split; [exact F1|exact F2].
  Qed.
  (** When the handlers of a request start, its Context has a logger of its own with the server's level and writer and
      the standard names, holding nothing: whatever SesInit did with the one it was given. No other logger, and not the
      server, is changed, and nothing is written. *)
  Theorem C155_handlers_logger : forall acts w c now, acts_from new_server acts = Ok w -> user_code acts -> (c < length (w_ctxs w))%nat ->
    exists w' v, let i := length (st_loggers (w_log w)) in
      step w (HandlersStart c now) = Ok w' /\ w_ctxs w' = upd_nth c (fun _ => Some i) (w_ctxs w) /\
      logger_of (w_log w') i = Some v /\ as_new v (last_level acts 5) (last_writer acts (Some 0%nat)) now /\
      st_out (w_log w') = st_out (w_log w) /\ length (st_loggers (w_log w')) = Datatypes.S i.
  Proof.
    intros acts w c now H U Hc. destruct (server_settings _ _ H U) as (r & A & S). pose proof (server_sim w r A) as [_ Sn].
    pose proof (step_agrees w r (HandlersStart c now) A) as Q. cbn [S_ReqLog.spec_step] in Q.
    pose proof A as (Sm & R & E & N). rewrite <- E in Q. assert (Hb : (c <? length (w_ctxs w))%nat = true) by (apply Nat.ltb_lt; exact Hc). rewrite Hb in Q.
    destruct (step w (HandlersStart c now)) as [w'|] eqn:Es; [|contradiction]. pose proof Q as (Q1 & _ & Q3 & _). cbn [fst snd] in Q3.
    pose proof (next_logger_is w r A) as Nl. unfold next_logger in Nl. rewrite <- Nl in Q1, Q3. cbn [fst] in Q1. destruct Q1 as (_ & L2 & _ & L4 & _). cbn [loggers] in L2, L4.
    rewrite app_length in L2. cbn [length] in L2. rewrite Nat.add_1_r in L2.
    destruct (logger_at (w_log w') (length (st_loggers (w_log w)))) as (v & Ev); [rewrite L2, <- Nl; lia|].
    exists w', v. cbv zeta. split; [reflexivity|]. split; [exact Q3|]. split; [exact Ev|]. split; [|split; [|rewrite L2, <- Nl; reflexivity]].
    - eapply siml_new; [|exact S]. apply (L4 _ _ _ Ev). rewrite Nl. apply nth_last.
    - cbn [M_ReqLog.step] in Es. rewrite Hb in Es. unfold handlers_start in Es.
      destruct (calls w _) as [w1|] eqn:E1; [|discriminate]. unfold M_ReqLog.calls in E1, Es. cbn [w_log w_ctxs] in Es.
      destruct (lrun (w_log w) _) as [st1|] eqn:F1; [|discriminate]. injection E1 as <-. cbn [w_log] in *.
      destruct (lrun st1 _) as [st2|] eqn:F2; [|discriminate]. injection Es as <-. cbn [w_log].
      rewrite (quiet_out _ _ _ (eq_refl : forallb quiet [SetLevel _ _] = true) F2). apply (quiet_out _ _ _ (eq_refl : forallb quiet [New now; SetConfig _ _] = true) F1).
  Qed.

  (** ctx.Debugf: nothing below level debug of the Context's logger; at it or above, one Write of a record with exactly
      four fields, under the logger's names, to the logger's writer: neither the fields nor the errors of the logger are in it. *)
  Theorem C155_ctx_debugf : forall acts w c i v now msg, acts_from new_server acts = Ok w ->
    nth_error (w_ctxs w) c = Some (Some i) -> logger_of (w_log w) i = Some v ->
    let lvl := cf_level (v_config v) in
    (lvl < 5 -> exists w', step w (CtxDebugf c now msg) = Ok w' /\ st_out (w_log w') = st_out (w_log w)) /\
    (5 <= lvl -> match cf_writer (v_config v) with
                 | None => step w (CtxDebugf c now msg) = Panic
                 | Some wr => exists w' rec lkey ekey, step w (CtxDebugf c now msg) = Ok w' /\ writes marshal (w_log w) (w_log w') wr rec /\
                     name_for (v_config v) (B"@level") lkey /\ name_for (v_config v) (B"error.message") ekey /\ NoDup (map fst rec) /\
                     forall k, aget k rec = if beq k ekey then Some (FStr []) else if beq k lkey then Some (FStr (level_name lvl))
                                            else if beq k (B"message") then Some (FStr msg) else if beq k (B"@timestamp") then Some (FStr now) else None
                 end).
  Proof.
    intros acts w c i v now msg H Ec Ev lvl. destruct (reached_agrees _ _ H) as (r & _ & A). pose proof A as (Sm & R & E & N).
    pose proof Sm as (S1 & S2 & S3 & S4 & _).
    assert (Hi : (i < length (loggers (fst r)))%nat) by (rewrite <- S2; exact (logger_len _ _ _ Ev)).
    destruct (nth_get (loggers (fst r)) i Hi) as (l & El). destruct (S4 i v l Ev El) as ((C1 & C2 & C3 & C4) & _).
    cbn [M_ReqLog.step]. unfold on_ctx. rewrite Ec. unfold ctx_debugf.
    assert (Ev1 : vrun (fst r) [LgConfig i] = Some (new_cfg (fst r) (l_config l))) by (cbn [vrun vstep]; unfold with_lgr; rewrite El; reflexivity).
    destruct (calls_ok w r _ _ A Ev1) as (w1 & E1 & A1); [cbn; destruct (configs (fst r)); discriminate|]. rewrite E1.
    assert (O1 : st_out (w_log w1) = st_out (w_log w)).
    { unfold M_ReqLog.calls in E1. destruct (lrun (w_log w) [LgConfig i]) as [st1|] eqn:F1; [|discriminate]. injection E1 as <-. cbn [w_log]. apply (quiet_out _ _ _ (eq_refl : forallb quiet [LgConfig i] = true) F1). }
    assert (Lv : cf_level (get_config (w_log w1) (nth (next_config w) (st_handles (w_log w1)) 0%nat)) = lvl).
    { pose proof A1 as ((T1 & _ & T3 & _) & _). rewrite (next_config_is w _ A). cbn [fst new_cfg configs] in T1, T3.
      assert (exists h, nth_error (st_handles (w_log w1)) (length (configs (fst r))) = Some h) as [h Eh].
      { apply nth_get. rewrite T1, app_length. cbn. lia. }
      rewrite (nth_error_nth _ _ 0%nat Eh). transitivity (c_level (l_config l)); [|symmetry; exact C1].
      apply (T3 (length (configs (fst r)))); [unfold config_of; rewrite Eh; reflexivity|apply nth_last]. }
    rewrite Lv. split; intros L; destruct (Z.leb_spec 5 lvl) as [L'|L']; try lia; [exists w1; auto|].
    (* the second Config(), after New *)
    set (s1 := new_cfg (fst r) (l_config l)) in *.
    assert (Ei1 : nth_error (loggers s1) i = Some l) by exact El.
    assert (Nl : next_logger w = length (loggers s1)) by exact (next_logger_is w r A).
    assert (Nc : next_config w1 = length (configs s1)) by exact (next_config_is w1 _ A1).
    assert (El2 : (length (loggers s1) = next_logger w1)%nat) by (symmetry; exact (next_logger_is w1 _ A1)).
    set (os := [New now; LgConfig i; SetConfig (next_logger w) (next_config w1); debugf (next_logger w) msg]).
    set (s2 := Vals (configs s1 ++ [l_config l]) (loggers s1 ++ [LgrV (l_config l) [] (only_time now)]) (output s1)).
    assert (Ev2 : vrun s1 [New now; LgConfig i; SetConfig (next_logger w) (next_config w1)] = Some s2).
    { rewrite Nl, Nc. cbn [vrun vstep]. unfold new_lgr at 1, with_lgr at 1. cbn [loggers configs output]. rewrite (nth_error_app1 (loggers s1) _ ltac:(exact Hi)), Ei1.
      unfold new_cfg, with_lgr. cbn [loggers configs output new_lgr]. rewrite !nth_last. unfold set_lgr, with_lgr. cbn [loggers configs output]. rewrite nth_last, upd_last. reflexivity. }
    pose proof A1 as (Sm1 & R1 & _ & _). cbn [fst] in Sm1.
    pose proof (run_sim [New now; LgConfig i; SetConfig (next_logger w) (next_config w1)] (w_log w1) s1 R1 Sm1) as Q. rewrite Ev2 in Q.
    destruct (lrun (w_log w1) _) as [st2|] eqn:F2; [|contradiction]. destruct Q as [Q R2].
    assert (O2 : st_out st2 = st_out (w_log w)) by (rewrite <- O1; apply (quiet_out _ _ _ (eq_refl : forallb quiet [New now; LgConfig i; SetConfig (next_logger w) (next_config w1)] = true) F2)).
    assert (Eos : forall st3, M_Logger.step order marshal st2 (debugf (next_logger w) msg) = st3 -> calls w1 os = match st3 with Ok st => Ok (World st (w_ctxs w1)) | Panic => Panic end).
    { intros st3 <-. unfold M_ReqLog.calls, os. change [New now; LgConfig i; SetConfig (next_logger w) (next_config w1); debugf (next_logger w) msg] with
        ([New now; LgConfig i; SetConfig (next_logger w) (next_config w1)] ++ [@debugf V (next_logger w) msg]). rewrite run_snoc, F2. reflexivity. }
    pose proof (step_sim order marshal order_ok st2 s2 (debugf (next_logger w) msg) R2 Q) as Q3.
    assert (Eo : vstep s2 (debugf (next_logger w) msg) = log 5 (Some msg) (length (loggers s1)) s2 (LgrV (l_config l) [] (only_time now))).
    { rewrite Nl. cbn [vstep debugf]. unfold with_lgr, s2. cbn [loggers]. rewrite nth_last. reflexivity. }
    rewrite Eo in Q3. unfold log in Q3. cbn [l_config] in Q3. destruct (Z.ltb_spec (c_level (l_config l)) 5) as [X|_]; [lia|]. rewrite C2.
    destruct (c_writer (l_config l)) as [wr|] eqn:Ew.
    2:{ rewrite (Eos _ eq_refl). destruct (M_Logger.step order marshal st2 _); [contradiction|reflexivity]. }
    destruct (M_Logger.step order marshal st2 (debugf (next_logger w) msg)) as [st3|] eqn:F3; [|contradiction].
    rewrite Nl in F3. destruct (logf_writes st2 s2 _ 5 msg st3 (LgrV (l_config l) [] (only_time now)) wr R2 Q (nth_last _ _) ltac:(cbn [l_config]; lia) Ew F3) as (rec & Wr & Nd & Er).
    exists (World st3 (w_ctxs w1)), rec, (c_name (l_config l) (B"@level")), (c_name (l_config l) (B"error.message")).
    rewrite (Eos _ eq_refl). split; [reflexivity|]. cbn [w_log]. split; [unfold writes in Wr |- *; rewrite O2 in Wr; exact Wr|].
    split; [left; exact (C3 (B"@level"))|]. split; [left; exact (C3 (B"error.message"))|]. split; [exact Nd|].
    intros k. rewrite Er. unfold lvl. rewrite C1. reflexivity.
  Qed.

  (** *** isolation *)
  Lemma run_isolated os : forall st st' j v, reached st -> lrun st os = Ok st' -> logger_of st j = Some v ->
    (forall o, In o os -> changes_logger o <> Some j) -> logger_of st' j = Some v.
  Proof.
    induction os as [|o os IH]; intros st st' j v R H Ev N; cbn [M_Logger.run] in H; [injection H as <-; exact Ev|].
    destruct (M_Logger.step order marshal st o) as [st1|] eqn:E; [|discriminate]. pose proof R as (l & Rl).
    eapply IH; [|exact H| |intros o' Ho; apply N; right; exact Ho].
    - exists (l ++ [o]). rewrite run_snoc, Rl. exact E.
    - eapply (C69_logger_isolated order marshal l st o st1 j v Rl E Ev). apply N. left. reflexivity.
  Qed.
  Lemma calls_isolated w os w' j v : reached (w_log w) -> calls w os = Ok w' -> logger_of (w_log w) j = Some v ->
    (forall o, In o os -> changes_logger o <> Some j) -> logger_of (w_log w') j = Some v.
  Proof.
    intros R H Ev N. unfold M_ReqLog.calls in H. destruct (lrun (w_log w) os) as [st|] eqn:E; [|discriminate]. injection H as <-. cbn [w_log]. eapply run_isolated; eassumption.
  Qed.
  Lemma calls_reached w os w' : reached (w_log w) -> calls w os = Ok w' -> reached (w_log w').
  Proof.
    intros (l & R) H. unfold M_ReqLog.calls in H. destruct (lrun (w_log w) os) as [st|] eqn:E; [|discriminate]. injection H as <-. cbn [w_log].
    exists (l ++ os). clear -R E. revert l st R E. induction os as [|o os IH] using rev_ind; intros l st R E; [cbn in E; injection E as <-; rewrite app_nil_r; exact R|].
    rewrite app_assoc, run_snoc. rewrite run_snoc in E. destruct (lrun (w_log w) os) as [st1|] eqn:E1; [|discriminate]. rewrite (IH l st1 R eq_refl). exact E.
  Qed.
  (** the Context an action is applied to; HandlersStart is not among these: it leaves the Context's logger alone and
      gives it another *)
  Definition at_ctx (a : act V) : option nat :=
    match a with
    | CtxSetLoggerLevel c _ | CtxStop c | CtxSkipMain c | CtxAbort c | StaticRun c _ _ => Some c
    | _ => None
    end.
  (** An action changes no logger but that of the Context it is applied to; user code only the logger it uses. *)
  Theorem C155_loggers_isolated : forall acts w a w' j v, acts_from new_server acts = Ok w -> step w a = Ok w' ->
    logger_of (w_log w) j = Some v ->
    (forall c, at_ctx a = Some c -> nth_error (w_ctxs w) c <> Some (Some j)) -> (forall o, a = User o -> changes_logger o <> Some j) ->
    logger_of (w_log w') j = Some v.
  Proof.
    intros acts w a w' j v H Hs Ev Nc Nu. destruct (reached_agrees _ _ H) as (r & _ & A). pose proof A as (_ & R & _ & _). clear r A.
    assert (Lj : j <> next_logger w) by (pose proof (logger_len _ _ _ Ev); unfold next_logger; lia).
    assert (Cx : forall c os, at_ctx a = Some c -> on_ctx w c (fun l => calls w (os l)) = Ok w' -> (forall l o, In o (os l) -> changes_logger o = Some l) -> logger_of (w_log w') j = Some v).
    { intros c os Ea X Ho. unfold on_ctx in X. destruct (nth_error (w_ctxs w) c) as [[i|]|] eqn:Ei; try discriminate X. eapply calls_isolated; [exact R|exact X|exact Ev|].
      intros o Io. rewrite (Ho _ _ Io). intros Q. injection Q as ->. exact (Nc c Ea Ei). }
    destruct a as [n|wr|now msg|now|c now|c|c l|c n|c|c|c|c now msg|c old new|o]; cbn [M_ReqLog.step] in Hs.
    - eapply calls_isolated; [exact R|exact Hs|exact Ev|]. intros o [<-|[]]. discriminate.
    - eapply calls_isolated; [exact R|exact Hs|exact Ev|]. intros o [<-|[]]. discriminate.
    - unfold server_debugf in Hs. destruct (5 <=? log_level w); [|injection Hs as <-; exact Ev].
      eapply calls_isolated; [exact R|exact Hs|exact Ev|]. intros o [<-|[<-|[<-|[]]]]; cbn [changes_logger debugf]; congruence.
    - destruct (calls w [New now]) as [w1|] eqn:E1; [|discriminate]. injection Hs as <-. cbn [w_log].
      eapply calls_isolated; [exact R|exact E1|exact Ev|]. intros o [<-|[]]. discriminate.
    - destruct (c <? length (w_ctxs w))%nat; [|discriminate]. unfold handlers_start in Hs. destruct (calls w _) as [w1|] eqn:E1; [|discriminate].
      eapply calls_isolated; [|exact Hs| |].
      + cbn [w_log]. exact (calls_reached _ _ _ R E1).
      + cbn [w_log]. eapply calls_isolated; [exact R|exact E1|exact Ev|]. intros o [<-|[<-|[]]]; cbn [changes_logger]; congruence.
      + intros o [<-|[]]. cbn [changes_logger]. congruence.
    - destruct (c <? length (w_ctxs w))%nat; [|discriminate]. injection Hs as <-. exact Ev.
    - destruct (c <? length (w_ctxs w))%nat; [|discriminate]. injection Hs as <-. exact Ev.
    - eapply (Cx c (fun l => [SetLevel l n]) eq_refl Hs). intros l o [<-|[]]; reflexivity.
    - eapply (Cx c (fun l => [AddDebug l _ _]) eq_refl Hs). intros l o [<-|[]]; reflexivity.
    - eapply (Cx c (fun l => [AddDebug l _ _]) eq_refl Hs). intros l o [<-|[]]; reflexivity.
    - eapply (Cx c (fun l => [AddDebug l _ _]) eq_refl Hs). intros l o [<-|[]]; reflexivity.
    - unfold on_ctx in Hs. destruct (nth_error (w_ctxs w) c) as [[i|]|]; try discriminate Hs. unfold ctx_debugf in Hs.
      destruct (calls w [LgConfig i]) as [w1|] eqn:E1; [|discriminate].
      assert (Ev1 : logger_of (w_log w1) j = Some v) by (eapply calls_isolated; [exact R|exact E1|exact Ev|]; intros o [<-|[]]; discriminate).
      destruct (5 <=? _); [|injection Hs as <-; exact Ev1].
      eapply calls_isolated; [exact (calls_reached _ _ _ R E1)|exact Hs|exact Ev1|]. intros o [<-|[<-|[<-|[<-|[]]]]]; cbn [changes_logger debugf]; congruence.
    - eapply (Cx c (fun l => [AddDebug l _ _; AddDebug l _ _]) eq_refl Hs). intros l o [<-|[<-|[]]]; reflexivity.
    - eapply calls_isolated; [exact R|exact Hs|exact Ev|]. intros o' [<-|[]]. apply Nu. reflexivity.
  Qed.

  (** Requests whose logger nobody replaced (SetLogger) have a logger each. *)
  Theorem C155_own_loggers : forall acts w, acts_from new_server acts = Ok w -> (forall c l, ~ In (CtxSetLogger c l) acts) ->
    forall c c' i, nth_error (w_ctxs w) c = Some (Some i) -> nth_error (w_ctxs w) c' = Some (Some i) -> c = c'.
  Proof.
    intros acts w H N. destruct (reached_agrees _ _ H) as (r & Hr & A). pose proof A as (_ & _ & E & _). rewrite E. clear H A E w.
    assert (P0 : forall c i, nth_error (snd (spec_start (V := V))) c = Some (Some i) -> (i < length (loggers (fst (spec_start (V := V)))))%nat /\ forall c', nth_error (snd (spec_start (V := V))) c' = Some (Some i) -> c' = c) by (intros [|c] i X; discriminate X).
    cut (forall c i, nth_error (snd r) c = Some (Some i) -> (i < length (loggers (fst r)))%nat /\ forall c', nth_error (snd r) c' = Some (Some i) -> c' = c).
    { intros Q c c' i Hc Hc'. symmetry. apply (proj2 (Q c i Hc)), Hc'. }
    revert Hr P0. generalize (spec_start (V := V)). induction acts as [|a acts IH]; intros r0 Hr P; cbn [S_ReqLog.spec_run] in Hr; [injection Hr as <-; exact P|].
    destruct (spec_step r0 a) as [r1|] eqn:E1; [|discriminate]. apply (IH (fun c l X => N c l (or_intror X)) r1 Hr). clear IH Hr.
    assert (K : snd r1 = snd r0 -> (length (loggers (fst r0)) <= length (loggers (fst r1)))%nat ->
      forall c i, nth_error (snd r1) c = Some (Some i) -> (i < length (loggers (fst r1)))%nat /\ forall c', nth_error (snd r1) c' = Some (Some i) -> c' = c).
    { intros -> Hl c i Hc. destruct (P c i Hc) as [P1 P2]. split; [lia|exact P2]. }
    assert (Ch : forall k f, change r0 k f = Some r1 -> snd r1 = snd r0 /\ (length (loggers (fst r0)) <= length (loggers (fst r1)))%nat).
    { intros k f X. unfold change in X. destruct (ctx_logger r0 k) as [[i l]|]; [|discriminate]. injection X as <-. cbn [fst snd loggers]. rewrite upd_nth_length. auto. }
    assert (Db : forall s c now msg s', spec_debugf s c now msg = Some s' -> (length (loggers s) <= length (@loggers V s'))%nat).
    { intros s c now msg s' X. unfold spec_debugf in X. destruct (_ <? 5); [injection X as <-; lia|]. destruct (c_writer c); [|discriminate]. injection X as <-. cbn [loggers]. rewrite app_length. lia. }
    destruct r0 as [s cs]. cbn [fst snd] in *.
    destruct a as [n|wr|now msg|now|k now|k|k lg|k n|k|k|k|k now msg|k old new|o]; cbn [S_ReqLog.spec_step fst snd] in E1;
      try (destruct (Ch _ _ E1) as [X1 X2]; exact (K X1 X2)).
    - injection E1 as <-. exact (K eq_refl ltac:(cbn; lia)).
    - injection E1 as <-. exact (K eq_refl ltac:(cbn; lia)).
    - destruct (spec_debugf s _ now msg) as [s1|] eqn:D; [|discriminate]. injection E1 as <-. exact (K eq_refl (Db _ _ _ _ _ D)).
    - injection E1 as <-. cbn [fst snd loggers]. intros c i Hc. rewrite app_length. cbn [length].
      assert (F : forall d j, nth_error (cs ++ [Some (length (loggers s))]) d = Some (Some j) -> (nth_error cs d = Some (Some j) /\ (j < length (loggers s))%nat) \/ (d = length cs /\ j = length (loggers s))).
      { intros d j Hd. destruct (Nat.lt_ge_cases d (length cs)) as [Y|Y]; [rewrite nth_error_app1 in Hd by exact Y; left; split; [exact Hd|apply (P d j Hd)]|].
        rewrite nth_error_app2 in Hd by exact Y. destruct (d - length cs)%nat as [|z] eqn:Ez; [injection Hd as <-; right; lia|destruct z; discriminate Hd]. }
      destruct (F c i Hc) as [[Y1 Y2]|[-> ->]].
      + split; [lia|]. intros c' Hc'. destruct (F c' i Hc') as [[Z1 _]|[_ ->]]; [|lia]. apply (proj2 (P c i Y1)), Z1.
      + split; [lia|]. intros c' Hc'. destruct (F c' _ Hc') as [[Z1 Z2]|[-> _]]; [lia|reflexivity].
    - destruct (Nat.ltb_spec k (length cs)) as [Lk|]; [|discriminate]. injection E1 as <-. cbn [fst snd loggers]. intros c i Hc. rewrite app_length. cbn [length].
      assert (F : forall d j, nth_error (upd_nth k (fun _ => Some (length (loggers s))) cs) d = Some (Some j) -> (d <> k /\ nth_error cs d = Some (Some j) /\ (j < length (loggers s))%nat) \/ (d = k /\ j = length (loggers s))).
      { intros d j Hd. rewrite nth_error_upd_nth in Hd. destruct (Nat.eqb_spec d k) as [->|Nd]; [|left; split; [exact Nd|]; split; [exact Hd|apply (P d j Hd)]].
        destruct (nth_error cs k); [|discriminate]. injection Hd as <-. auto. }
      destruct (F c i Hc) as [(Y0 & Y1 & Y2)|[-> ->]].
      + split; [lia|]. intros c' Hc'. destruct (F c' i Hc') as [(_ & Z1 & _)|[_ ->]]; [|lia]. apply (proj2 (P c i Y1)), Z1.
      + split; [lia|]. intros c' Hc'. destruct (F c' _ Hc') as [(_ & Z1 & Z2)|[-> _]]; [lia|reflexivity].
    - destruct (k <? length cs)%nat; [|discriminate]. injection E1 as <-. cbn [fst snd]. intros c i Hc.
      assert (F : forall d j, nth_error (cs ++ [None]) d = Some (Some j) -> nth_error cs d = Some (Some j)).
      { intros d j Hd. destruct (Nat.lt_ge_cases d (length cs)) as [Y|Y]; [rewrite nth_error_app1 in Hd by exact Y; exact Hd|].
        rewrite nth_error_app2 in Hd by exact Y. destruct (d - length cs)%nat as [|z]; [discriminate|destruct z; discriminate Hd]. }
      destruct (P c i (F _ _ Hc)) as [P1 P2]. split; [exact P1|]. intros c' Hc'. apply P2, F, Hc'.
    - exfalso. eapply N. left. reflexivity.
    - destruct (ctx_logger (s, cs) k) as [[i l]|]; [|discriminate]. cbv zeta in E1. destruct (spec_debugf _ _ now msg) as [s1|] eqn:D; [|discriminate].
      injection E1 as <-. exact (K eq_refl (Db _ _ _ _ _ D)).
    - destruct (vstep s o) as [s1|] eqn:D; [|discriminate]. injection E1 as <-. refine (K eq_refl _). cbn [fst]. clear -D.
      assert (U : forall h f s', set_cfg s h f = Some s' -> (length (loggers s) <= length (loggers s'))%nat).
      { intros h f s2 X. unfold set_cfg, with_cfg in X. destruct (nth_error (configs s) h); [|discriminate]. injection X as <-. cbn. lia. }
      assert (L : forall j f s', set_lgr s j f = Some s' -> (length (loggers s) <= length (loggers s'))%nat).
      { intros j f s2 X. unfold set_lgr, with_lgr in X. destruct (nth_error (loggers s) j); [|discriminate]. injection X as <-. cbn [loggers]. rewrite upd_nth_length. lia. }
      assert (G : forall lvl m j s', with_lgr s j (log lvl m j s) = Some s' -> (length (loggers s) <= length (loggers s'))%nat).
      { intros lvl m j s2 X. unfold with_lgr in X. destruct (nth_error (loggers s) j); [|discriminate]. unfold log in X.
        destruct (_ <? lvl); [injection X as <-; lia|]. destruct (c_writer _); [|discriminate]. injection X as <-. cbn [loggers]. rewrite upd_nth_length. lia. }
      destruct o; cbn [vstep] in D; try (eapply U; exact D); try (eapply L; exact D); try (eapply G; exact D).
      + injection D as <-. cbn. lia.
      + unfold with_cfg in D. destruct (nth_error (configs s) h); [|discriminate]. injection D as <-. cbn. lia.
      + injection D as <-. cbn [new_lgr loggers]. rewrite app_length. lia.
      + unfold with_lgr in D. destruct (nth_error (loggers s) l); [|discriminate]. destruct (nth_error (configs s) h); [|discriminate]. eapply L. exact D.
      + unfold with_lgr in D. destruct (nth_error (loggers s) l); [|discriminate]. injection D as <-. cbn. lia.
      + unfold with_lgr in D. destruct (nth_error (loggers s) l); [|discriminate]. injection D as <-. cbn [new_lgr loggers]. rewrite app_length. lia.
  Qed.
End ReqLog.

(** the claim: what SesInit adds to the logger of the request is in the logger the handlers get *)
Definition C155_claim : Prop := forall (V : Type) (vtrue : V) acts w c l k x now,
  let step := M_ReqLog.step (fun _ m => m) (fun _ => None) vtrue in
  M_ReqLog.acts_from (fun _ m => m) (fun _ => None) vtrue new_server acts = Ok w -> nth_error (w_ctxs w) c = Some (Some l) -> k <> B"@timestamp" ->
  forall w1 w2, step w (User (Add l k x)) = Ok w1 -> step w1 (HandlersStart c now) = Ok w2 ->
  exists i v, nth_error (w_ctxs w2) c = Some (Some i) /\ logger_of (w_log w2) i = Some v /\ aget k (v_fields v) = Some x.
Theorem C155_sesinit_fields_reach_handlers_refuted : ~ C155_claim.
Proof.
  intros H. destruct (H bool true [NewContext (B"t")] _ 0%nat 0%nat (B"user") (FStr (B"bob")) (B"t") eq_refl eq_refl ltac:(discriminate) _ _ eq_refl eq_refl) as (i & v & E1 & E2 & E3).
  vm_compute in E1. injection E1 as <-. vm_compute in E2. injection E2 as <-. vm_compute in E3. discriminate E3.
Qed.
(** What is missing from the claim is all of it but this: what SesInit adds is in the logger it was added to, which
    keeps it, and never in that of the handlers, whatever else SesInit did to it. *)
Theorem C155_sesinit_fields_partial : forall (V : Type) order marshal (vtrue : V), (forall A (m : list (bytes * A)), Permutation (order A m) m) ->
  forall acts w c l v k x now, acts_from order marshal vtrue new_server acts = Ok w -> user_code acts ->
  nth_error (w_ctxs w) c = Some (Some l) -> logger_of (w_log w) l = Some v -> aget k (v_fields v) = Some x -> k <> B"@timestamp" ->
  exists w' i v', M_ReqLog.step order marshal vtrue w (HandlersStart c now) = Ok w' /\ nth_error (w_ctxs w') c = Some (Some i) /\ i <> l /\
    logger_of (w_log w') l = Some v /\ logger_of (w_log w') i = Some v' /\ aget k (v_fields v') = None.
Proof.
  intros V order marshal vtrue Ho acts w c l v k x now H U Ec Ev Ek Nk.
  assert (Lc : (c < length (w_ctxs w))%nat) by (apply nth_error_Some; congruence).
  destruct (C155_handlers_logger order marshal Ho vtrue acts w c now H U Lc) as (w' & v' & E1 & E2 & E3 & (_ & _ & _ & _ & _ & F) & _).
  pose proof (logger_len _ _ _ Ev) as Ll.
  exists w', (length (st_loggers (w_log w))), v'. split; [exact E1|]. split; [rewrite E2, nth_error_upd_nth, Nat.eqb_refl, Ec; reflexivity|].
  split; [lia|]. split; [|split; [exact E3|]].
  - apply (C155_loggers_isolated order marshal Ho vtrue acts w _ w' l v H E1 Ev); [discriminate|discriminate].
  - rewrite F. destruct (beq_spec k (B"@timestamp")); [contradiction|reflexivity].
Qed.

(** a server with its own writer, a mount, a request: SesInit adds a field and turns the level down; the handlers add
    their own, log, and call ctx.Debugf *)
Definition x154 : list (act bool) :=
  [ServerDebugf (B"t0") (mount_message (B"./docs") (B"/d/")); SetLoggerWriter (Some 7%nat); NewContext (B"t1"); User (Add 1 (B"user") (FStr (B"bob")));
   CtxSetLoggerLevel 0 2; HandlersStart 0 (B"t2"); CtxStop 0; User (infof 2 (B"hi")); CtxDebugf 0 (B"t3") (B"dbg"); SetLogLevel 4; ServerDebugf (B"t4") (B"no")].
Definition fields_of (r : record_ (V := bool)) := map r [B"@timestamp"; B"message"; B"@level"; B"error.message"; B"is_stopped"; B"user"].
Example C154_example :
  user_code x154 /\
  match acts_from (fun _ m => m) (fun _ => None) true new_server x154 with
  | Ok w => (length (st_out (w_log w)), log_level w, logger_writer w) = (6%nat, 4, Some 7%nat)
  | Panic => False
  end /\
  option_map (fun r => map (fun p => (fst p, fields_of (snd p))) (output (fst r))) (spec_run true spec_start x154) = Some
    [(0%nat, [Some (FStr (B"t0")); Some (FStr (B"static_file sets prefix: from '/d/' to './docs'")); Some (FStr (B"debug")); Some (FStr []); None; None]);
     (7%nat, [Some (FStr (B"t2")); Some (FStr (B"hi")); Some (FStr (B"debug")); Some (FStr []); Some (FAny true); None]);
     (7%nat, [Some (FStr (B"t3")); Some (FStr (B"dbg")); Some (FStr (B"debug")); Some (FStr []); None; None])].
Proof.
  split.
  { intros o H. unfold x154, infof in H. cbn [In] in H. repeat (destruct H as [H|H]; [first [discriminate H|injection H as <-; discriminate]|]). destruct H. }
  split; vm_compute; reflexivity.
Qed.
Print Assumptions C154_logging_is_values.
Print Assumptions C154_server_settings.
Print Assumptions C154_server_debugf.
Print Assumptions C155_handlers_logger.
Print Assumptions C155_ctx_debugf.
Print Assumptions C155_loggers_isolated.
Print Assumptions C155_own_loggers.
Print Assumptions C155_sesinit_fields_reach_handlers_refuted.
Print Assumptions C155_sesinit_fields_partial.
