(** C104: the methods of Logger, Config, Context and Server never deadlock. *)
From Verif Require Import Base M_Share S_Share P_Share.

(** every goroutine has ended *)
Definition finished (ths : list thread) : Prop := Forall (fun th => t_prog th = []) ths.
(** the given goroutines, started together in whatever order they are scheduled, can always
    go on until all have ended, which they have after finitely many steps *)
Definition deadlock_free (progs : list trace) : Prop :=
  (forall ths, runs (map (Th []) progs) ths -> finished ths \/ exists ths', tstep ths ths') /\
  (forall f : nat -> list thread, f 0 = map (Th []) progs -> exists n, ~ tstep (f n) (f (S n))).
(** a call of any of the methods *)
Inductive any_call := OnLogger (m : lmethod) | OnConfig (m : cmethod) | OnContext (m : xmethod) | OnServer (m : smethod).
Definition any_traces (c : any_call) : list trace :=
  match c with
  | OnLogger m => logger_traces m
  | OnConfig m => config_traces false m
  | OnContext m => context_traces m
  | OnServer m => server_traces m
  end.

(** ** Locks are taken in order *)
Definition rank (k : lock) : nat := match k with KLogger => 0 | KConfig => 1 | KShared => 1 end.
Fixpoint ordered (held : list lock) (p : trace) : bool :=
  match p with
  | [] => match held with [] => true | _ => false end
  | Lk k :: p' => forallb (fun h => rank h <? rank k) held && ordered (k :: held) p'
  | Ul k :: p' => ordered (release k held) p'
  | _ :: p' => ordered held p'
  end.
Lemma ordered_app : forall p held q, ordered held p = true -> ordered [] q = true -> ordered held (p ++ q) = true.
Proof.
  induction p as [|[k|k|l|l] p IH]; intros held q H Hq; cbn [app ordered] in *.
  - destruct held; [assumption|discriminate].
  - apply andb_prop in H. destruct H as [-> H]. cbn. auto.
  - auto.
  - auto.
  - auto.
Qed.
Definition fine (th : thread) : Prop := ordered (t_held th) (t_prog th) = true.
Lemma fine_step : forall x y, tstep x y -> Forall fine x -> Forall fine y.
Proof.
  assert (Mid : forall l1 l2 (a b : thread), (fine a -> fine b) -> Forall fine (l1 ++ a :: l2) -> Forall fine (l1 ++ b :: l2)).
  { intros l1 l2 a b H F. apply Forall_app in F. destruct F as [F1 F2]. apply Forall_app. split; [assumption|].
    inversion F2; subst. constructor; auto. }
  intros x y St. destruct St; apply Mid; unfold fine; cbn [t_held t_prog ordered]; auto.
  intros Hx. apply andb_prop in Hx. tauto.
Qed.
Lemma fine_runs : forall x y, runs x y -> Forall fine x -> Forall fine y.
Proof. intros x y R. induction R as [|x y z R IH St]; intros F; [assumption|]. eapply fine_step; [eassumption|auto]. Qed.

(** the lock a goroutine waits for *)
Definition wants (th : thread) : option lock := match t_prog th with Lk k :: _ => Some k | _ => None end.
Lemma not_waiting_steps : forall ths th, In th ths -> t_prog th <> [] -> wants th = None -> exists ths', tstep ths ths'.
Proof.
  intros ths [h p] I N W. apply in_split in I. destruct I as (l1 & l2 & ->). cbn [t_prog] in *. unfold wants in W. cbn [t_prog] in W.
  destruct p as [|[k|k|l|l] p]; try congruence.
  - eexists. apply T_unlock.
  - eexists. apply T_read.
  - eexists. apply T_write.
Qed.
Lemma free_steps : forall ths th k, In th ths -> wants th = Some k -> (forall t, In t ths -> ~ In k (t_held t)) -> exists ths', tstep ths ths'.
Proof.
  intros ths [h p] k I W F. apply in_split in I. destruct I as (l1 & l2 & ->). unfold wants in W. cbn [t_prog] in *.
  destruct p as [|[k'|k'|l|l] p]; try discriminate. injection W as ->. eexists. apply T_lock. exact F.
Qed.
Lemma held_dec : forall k ths, (exists t, In t ths /\ In k (t_held t)) \/ (forall t, In t ths -> ~ In k (t_held t)).
Proof.
  intros k ths. induction ths as [|t ths IH]; [right; intros t []|].
  destruct (in_dec lock_dec k (t_held t)) as [I|N]; [left; exists t; split; [left; reflexivity|assumption]|].
  destruct IH as [(t' & It & Ik)|F]; [left; exists t'; split; [right; assumption|assumption]|].
  right. intros t' [<-|It]; auto.
Qed.
(** whoever waits for a lock of rank [n] can be unblocked or leads to a higher one *)
Lemma progress_from : forall ths, Forall fine ths -> forall d th k, In th ths -> wants th = Some k -> 2 <= rank k + d ->
  exists ths', tstep ths ths'.
Proof.
  intros ths F. induction d as [|d IH]; intros th k I W Hr; [destruct k; cbn in Hr; lia|].
  destruct (held_dec k ths) as [(t & It & Ik)|Free]; [|eapply free_steps; eassumption].
  rewrite Forall_forall in F. pose proof (F t It) as Ft. unfold fine in Ft.
  destruct (t_prog t) as [|i p] eqn:Ep; [cbn in Ft; destruct (t_held t); [destruct Ik|discriminate]|].
  destruct (wants t) as [k'|] eqn:Wt.
  - unfold wants in Wt. rewrite Ep in Wt. destruct i as [k0|?|?|?]; try discriminate. injection Wt as ->.
    cbn [ordered] in Ft. apply andb_prop in Ft. destruct Ft as [Ft _]. rewrite forallb_forall in Ft. specialize (Ft k Ik). apply Nat.ltb_lt in Ft.
    apply (IH t k' It); [unfold wants; rewrite Ep; reflexivity|lia].
  - eapply not_waiting_steps; [exact It|congruence|exact Wt].
Qed.
Definition size (ths : list thread) : nat := list_sum (map (fun th => length (t_prog th)) ths).
Lemma step_size : forall x y, tstep x y -> size x = S (size y).
Proof.
  assert (Mid : forall l1 l2 a b, length (t_prog a) = S (length (t_prog b)) -> size (l1 ++ a :: l2) = S (size (l1 ++ b :: l2))).
  { intros l1 l2 a b H. unfold size. rewrite !map_app, !list_sum_app. cbn [map list_sum fold_right]. fold list_sum. rewrite H. unfold list_sum. cbn [fold_right]. lia. }
  intros x y St. destruct St; apply Mid; reflexivity.
Qed.
Theorem ordered_deadlock_free : forall progs, Forall (fun p => ordered [] p = true) progs -> deadlock_free progs.
Proof.
  intros progs O. split.
  - intros ths R. assert (F : Forall fine ths).
    { eapply fine_runs; [exact R|]. apply Forall_forall. intros th I. apply in_map_iff in I. destruct I as (p & <- & I).
      rewrite Forall_forall in O. exact (O p I). }
    assert (D : finished ths \/ exists th, In th ths /\ t_prog th <> []).
    { clear. induction ths as [|th ths IH]; [left; constructor|]. destruct (t_prog th) as [|i p] eqn:E.
      - destruct IH as [IH|(t & I & N)]; [left; constructor; assumption|right; exists t; split; [right; assumption|assumption]].
      - right. exists th. split; [left; reflexivity|congruence]. }
    destruct D as [D|(th & I & N)]; [left; exact D|right].
    destruct (wants th) as [k|] eqn:W; [eapply (progress_from ths F 2); [eassumption|eassumption|lia]|eapply not_waiting_steps; eassumption].
  - intros f _. assert (H : forall n m, (forall i, tstep (f i) (f (S i))) -> size (f m) < n -> False).
    { induction n as [|n IH]; intros m A L; [lia|]. apply (IH (S m) A). pose proof (step_size _ _ (A m)). lia. }
    assert (H' : ~ forall i, tstep (f i) (f (S i))) by (intros A; exact (H (S (size (f 0))) 0 A (Nat.lt_succ_diag_r _))).
    assert (K : forall b m, size (f m) < b -> exists n, ~ tstep (f n) (f (S n))).
    { induction b as [|b IH]; intros m L; [lia|].
      destruct (Nat.eq_dec (size (f m)) (S (size (f (S m))))) as [E|Ne]; [apply (IH (S m)); lia|].
      exists m. intros St. apply Ne. apply step_size. exact St. }
    exact (K (S (size (f 0))) 0 (Nat.lt_succ_diag_r _)).
Qed.

Lemma any_ordered : forall c t, In t (any_traces c) -> ordered [] t = true.
Proof.
  assert (K : forall c, forallb (ordered []) (any_traces c) = true) by (intros [m|m|m|m]; destruct m; vm_compute; reflexivity).
  intros c t I. specialize (K c). rewrite forallb_forall in K. auto.
Qed.
(** ** C104 *)
Theorem C104_no_deadlock : forall gs progs, Forall2 (calls any_traces) gs progs -> deadlock_free progs.
Proof.
  intros gs progs F. apply ordered_deadlock_free. induction F as [|ms p gs progs C F IH]; constructor; [|assumption].
  clear -C. induction C as [|m t ms p I C IH]; [reflexivity|]. apply ordered_app; [eapply any_ordered; eassumption|assumption].
Qed.
Print Assumptions C104_no_deadlock.
(** the theorem is about calls that do take locks, also two at a time *)
Example C104_example : exists p, calls any_traces [OnLogger LConfig; OnContext XStop; OnServer SSetLogLevel] p /\
  In (Lk KLogger) p /\ In (Lk KConfig) p /\ In (Lk KShared) p.
Proof.
  exists (concat [last (logger_traces LConfig) []; last (context_traces XStop) []; last (server_traces SSetLogLevel) []]).
  split; [|vm_compute; tauto]. cbn [concat].
  repeat (apply calls_more; [vm_compute; tauto|]). apply calls_none.
Qed.

(** The condition on user code: Log holds the logger's lock while the writer, the error's
    text and the fields' encoders run (out.go:19-28).  If one of these calls a method that
    takes that lock, the goroutine waits for itself. *)
Definition log_calling (inner : trace) : trace :=
  concat (seqs [on_config CfLevel; on_config CfCurrentKey; on_config CfCurrentKey; acts [Lk KLogger];
                acts [Rd GFields]; on_config CfLevel; acts [Wr GMap; Rd GErr; Rd GFields; Wr GMap];
                on_config CfWriter; acts [Rd GFields; Rd GMap]; acts inner; acts [Ul KLogger]]).
Theorem C104_writer_that_logs_deadlocks : forall m t, In m [LAdd; LAddDebug; LMerge; LConfig] -> In t (logger_traces m) ->
  ~ deadlock_free [log_calling t].
Proof.
  intros m t Im It [D _].
  assert (First : exists r, t = Lk KLogger :: r).
  { cbn [In] in Im. destruct Im as [<-|[<-|[<-|[<-|[]]]]]; cbn in It; intuition subst; eexists; reflexivity. }
  destruct First as (r & ->).
  assert (R : runs [Th [] (log_calling (Lk KLogger :: r))] [Th [KLogger] (Lk KLogger :: r ++ [Ul KLogger])]).
  { unfold log_calling. cbn. 
    assert (Step : forall (x y : thread) z, tstep [x] [y] -> runs [y] z -> runs [x] z)
      by (intros x y z St R; eapply runs_trans; [eapply runs_more; [constructor|exact St]|exact R]).
    repeat first
      [ (eapply Step; [apply (T_read [] [])|])
      | (eapply Step; [apply (T_write [] [])|])
      | (eapply Step; [apply (T_lock [] []); intros th [<-|[]] Hin; solve [destruct Hin]|]) ].
    rewrite ?app_nil_r. apply runs_none. }
  destruct (D _ R) as [F|(y & St)].
  - inversion F; subst. discriminate.
  - inversion St as [l1 l2 held k prog Free E|l1 l2 held k prog E|l1 l2 held l prog E|l1 l2 held l prog E];
      (destruct l1 as [|? [|]]; [|discriminate E|discriminate E]); cbn in E; inversion E; subst.
    apply (Free (Th [KLogger] (Lk KLogger :: r ++ [Ul KLogger]))); left; reflexivity.
Qed.
Print Assumptions C104_writer_that_logs_deadlocks.
