(** C145: every handler and goroutine does what it was written to do, told what happened. *)
From Verif Require Import Base GoErrors M_Pipeline M_Group S_Group P_Group P_Group2 P_Group3 Props_Group S_Follow.

Lemma follows_app p es q es' r : follows p es q -> follows q es' r -> follows p (es ++ es') r \/ In EPanic es.
Proof. induction 1; intros H'; cbn [app]; try (destruct (IHfollows H') as [X|X]; [left; constructor; exact X|right; right; exact X]); [left; exact H'|right; left; reflexivity]. Qed.
Lemma follows_snoc p es q e r : follows p es q -> ~ In EPanic es -> follows q [e] r -> follows p (es ++ [e]) r.
Proof. intros H N H'. destruct (follows_app _ _ _ _ _ H H'); [assumption|contradiction]. Qed.
Lemma follows_det p es q : follows p es q -> forall q2, follows p es q2 -> q = q2.
Proof. induction 1; intros q2 X; inversion X; subst; auto; match goal with Y : follows _ [] _ |- _ => inversion Y end. Qed.

Lemma pstep_follows idle h p e h' o p' : pstep idle h p e h' o p' ->
  follows p [e] p' /\ (forall b, o = Some b <-> (e = EGo /\ given p = Some b)) /\ e <> EShutdown /\
  (e = EPanic -> h_crashed h' = true).
Proof.
  intros H. destruct H; (split; [repeat constructor|]); (split; [intros x; split; [intros X; inversion X; subst; auto|intros [X Y]; try discriminate X; try exact Y]|]);
    (split; [discriminate|]); try discriminate; intros _; try reflexivity.
Qed.

Lemma did_same w e tr : e <> EShutdown -> did w ((w, e) :: tr) = did w tr ++ [e].
Proof.
  intros N. unfold did. cbn [rev]. rewrite filter_app, map_app. f_equal. cbn [filter fst snd].
  assert (X : same_owner w w = true) by (destruct w; [apply Nat.eqb_refl|reflexivity]). rewrite X. destruct e; try reflexivity. contradiction.
Qed.
Lemma did_other w w' e tr : w <> w' \/ e = EShutdown -> did w ((w', e) :: tr) = did w tr.
Proof.
  intros N. unfold did. cbn [rev]. rewrite filter_app, map_app. cbn [filter fst snd].
  assert (X : same_owner w' w && match e with EShutdown => false | _ => true end = false).
  { destruct N as [N| ->]; [|apply andb_false_r]. apply andb_false_iff. left. destruct w, w'; cbn; try reflexivity; [|contradiction].
    apply Nat.eqb_neq. congruence. }
  rewrite X. cbn [map]. apply app_nil_r.
Qed.
Lemma did_fresh i tr : (forall j e, In (Some j, e) tr -> j < i) -> did (Some i) tr = [].
Proof.
  intros H. unfold did. replace (filter _ (rev tr)) with (@nil (option nat * event)); [reflexivity|]. symmetry.
  assert (F : forall (f : option nat * event -> bool) l, (forall x, In x l -> f x = false) -> filter f l = []).
  { intros f l. induction l as [|x l IH]; intros K; [reflexivity|]. cbn [filter]. rewrite (K x (or_introl eq_refl)). apply IH. intros y Y. apply K. right. exact Y. }
  apply F. intros [[j|] e] X; apply in_rev in X; cbn [fst snd same_owner andb]; [|reflexivity].
  replace (j =? i) with false; [reflexivity|]. symmetry. apply Nat.eqb_neq. specialize (H _ _ X). lia.
Qed.
Lemma runs_more main x tr w p : runs main tr w p -> runs main (x :: tr) w p.
Proof. intros [|post w' pre q q1 b ->]; [constructor|]. intros. eapply (runs_go main _ (x :: post)); [reflexivity|eassumption..]. Qed.

Section Fix.
  Variable main : prog.
  Definition gor_ok (crashed : bool) (b : prog) (es : list event) (g : gor) : Prop :=
    match g with
    | Run q => lives b es /\ (crashed = false -> follows b es q /\ ~ In EPanic es)
    | Leaving => exists es' e, follows b es' (Ret (HRet e)) /\ es = es' ++ [EReturned e]
    | Ended => exists es' e, follows b es' (Ret (HRet e)) /\ es = es' ++ [EReturned e; EGone]
    end.
  Record inv (y : sys) : Prop := {
    v_main : exists p, follows main (did None (y_trace y)) p;
    v_main_now : h_crashed (y_sh y) = false -> follows main (did None (y_trace y)) (y_main y) /\ ~ In EPanic (did None (y_trace y));
    v_len : length (y_gos y) = started (y_trace y);
    v_gos : forall i g, nth_error (y_gos y) i = Some g ->
      exists b, runs main (y_trace y) (Some i) b /\ gor_ok (h_crashed (y_sh y)) b (did (Some i) (y_trace y)) g;
    v_own : forall i e, In (Some i, e) (y_trace y) -> i < started (y_trace y)
  }.
  Lemma nth_mid {A} (l1 : list A) x l2 : nth_error (l1 ++ x :: l2) (length l1) = Some x.
  Proof. rewrite nth_error_app2 by lia. rewrite Nat.sub_diag. reflexivity. Qed.
  Lemma nth_mid_other {A} (l1 : list A) x x' l2 i : i <> length l1 -> nth_error (l1 ++ x :: l2) i = nth_error (l1 ++ x' :: l2) i.
  Proof.
    intros N. destruct (Nat.lt_ge_cases i (length l1)); [rewrite !nth_error_app1 by lia; reflexivity|].
    rewrite !nth_error_app2 by lia. destruct (i - length l1) as [|k] eqn:E; [lia|reflexivity].
  Qed.
  Lemma gor_ok_crash b es g c : gor_ok c b es g -> gor_ok true b es g.
  Proof. destruct g; cbn [gor_ok]; auto. intros [X _]. split; [exact X|discriminate]. Qed.
  Lemma gor_ok_mono b es g c c' : gor_ok c b es g -> (c' = false -> c = false) -> gor_ok c' b es g.
  Proof. destruct g; cbn [gor_ok]; auto. intros [X Y] Z. split; [exact X|auto]. Qed.
  Lemma started_cons w e tr : started ((w, e) :: tr) = (match e with EGo => 1 | _ => 0 end) + started tr.
  Proof. unfold started. cbn [filter is_go snd]. destruct e; reflexivity. Qed.

  (** a step of a program, by whoever *)
  Lemma go_next y w p e h' o gs' m' :
    inv y -> h_crashed (y_sh y) = false -> runs main (y_trace y) w p -> 
    (exists q q', follows p (did w (y_trace y)) q /\ ~ In EPanic (did w (y_trace y)) /\ (forall b, o = Some b <-> e = EGo /\ given q = Some b) /\ follows q [e] q' /\
      (w = None -> m' = q' ) /\ (w <> None -> m' = y_main y) /\
      (forall i g, nth_error gs' i = Some g -> match w with Some j => i = j -> g = Run q' | None => True end) ) ->
    e <> EShutdown -> (e = EPanic -> h_crashed h' = true) ->
    length gs' = length (y_gos y) ->
    (forall i, w <> Some i -> nth_error gs' i = nth_error (y_gos y) i) ->
    (forall j, w = Some j -> j < length (y_gos y)) ->
    inv (Sys h' m' (add o gs') ((w, e) :: y_trace y)).
  Proof.
    intros I Hc Hr (q & q' & Fq & Np & Ho & Fe & Wm & Wm' & Wg) Ns Hp Lg Og Jw.
    assert (Ogo : o = None \/ exists b, o = Some b /\ e = EGo /\ given q = Some b).
    { destruct o as [b|]; [|left; reflexivity]. right. exists b. split; [reflexivity|]. apply Ho. reflexivity. }
    assert (Ego : e = EGo -> exists b, o = Some b).
    { intros ->. inversion Fe; subst; match goal with |- exists b, o = Some b => eexists; apply Ho; split; reflexivity end. }
    assert (Fn : follows p (did w ((w, e) :: y_trace y)) q') by (rewrite did_same by exact Ns; eapply follows_snoc; eassumption).
    assert (Pn : h_crashed h' = false -> ~ In EPanic (did w ((w, e) :: y_trace y))).
    { intros C. rewrite did_same by exact Ns. intros X. apply in_app_or in X as [X|[X|[]]]; [contradiction|]. subst e. rewrite Hp in C by reflexivity. discriminate. }
    constructor; cbn [y_sh y_main y_gos y_trace].
    - destruct w as [j|].
      + rewrite did_other by (left; discriminate). apply (v_main y I).
      + inversion Hr; subst. eauto.
    - intros C. destruct w as [j|].
      + rewrite did_other by (left; discriminate). rewrite Wm' by discriminate. exact (v_main_now y I Hc).
      + inversion Hr; subst. rewrite Wm by reflexivity. auto.
    - rewrite started_cons. destruct Ogo as [->|(b & -> & -> & _)]; cbn [add].
      + rewrite Lg, (v_len y I). destruct e; try reflexivity. destruct (Ego eq_refl) as (b & X). discriminate X.
      + rewrite app_length, Lg, (v_len y I). cbn [length]. lia.
    - assert (Old : forall i g, nth_error gs' i = Some g -> exists b, runs main ((w, e) :: y_trace y) (Some i) b /\
        gor_ok (h_crashed h') b (did (Some i) ((w, e) :: y_trace y)) g).
      { intros i g N. assert (D : w = Some i \/ w <> Some i) by (destruct w as [j|]; [|right; discriminate]; destruct (Nat.eq_dec i j); [left; congruence|right; congruence]).
        destruct D as [->|D].
        - exists p. split; [apply runs_more; exact Hr|]. rewrite (Wg i g N eq_refl). cbn [gor_ok]. split; [econstructor; exact Fn|auto].
        - rewrite Og in N by exact D. destruct (v_gos y I i g N) as (b & Rb & Gb). exists b. split; [apply runs_more; exact Rb|].
          rewrite did_other by (left; congruence). eapply gor_ok_mono; [exact Gb|auto]. }
      intros i g N. destruct Ogo as [->|(b & -> & -> & Gq)]; cbn [add] in N; [apply Old; exact N|].
      destruct (Nat.lt_ge_cases i (length gs')) as [Li|Li]; [rewrite nth_error_app1 in N by exact Li; apply Old; exact N|].
      rewrite nth_error_app2 in N by exact Li. destruct (i - length gs') as [|k] eqn:Ei; [|destruct k; discriminate N].
      injection N as <-. assert (i = started (y_trace y)) as -> by (rewrite <- (v_len y I); lia).
      exists b. split; [eapply (runs_go main _ [] w (y_trace y) p q b); auto|].
      rewrite did_other.
      2:{ left. intros X. specialize (Jw _ (eq_sym X)). rewrite (v_len y I) in Jw. lia. }
      rewrite did_fresh by (exact (v_own y I)). cbn [gor_ok]. split; [econstructor; constructor|]. intros _. split; [constructor|intros []].
    - intros i x X. rewrite started_cons. destruct X as [X|X]; [|apply (v_own y I) in X; lia].
      injection X as -> ->. specialize (Jw _ eq_refl). rewrite (v_len y I) in Jw. lia.
  Qed.
  Lemma inv_start : inv (Sys sh0 main [] []).
  Proof.
    constructor; cbn.
    - exists main. constructor.
    - intros _. split; [constructor|intros []].
    - reflexivity.
    - intros [|i] g N; discriminate N.
    - intros i e [].
  Qed.
  (** a goroutine ends, or leaves *)
  Lemma over_next y i g1 g g' g2 e h' : inv y -> y_gos y = g1 ++ g :: g2 -> i = length g1 -> e <> EGo -> e <> EShutdown ->
    (h_crashed h' = false -> h_crashed (y_sh y) = false) ->
    (forall b, gor_ok (h_crashed (y_sh y)) b (did (Some i) (y_trace y)) g -> gor_ok (h_crashed h') b (did (Some i) (y_trace y) ++ [e]) g') ->
    inv (Sys h' (y_main y) (g1 ++ g' :: g2) ((Some i, e) :: y_trace y)).
  Proof.
    intros I Eg Ei Ng Ns Hc Hg.
    assert (Sa : started ((Some i, e) :: y_trace y) = started (y_trace y)) by (rewrite started_cons; destruct e; try reflexivity; congruence).
    constructor; cbn [y_sh y_main y_gos y_trace].
    - rewrite did_other by (left; discriminate). apply (v_main y I).
    - intros C. rewrite did_other by (left; discriminate). apply (v_main_now y I). auto.
    - rewrite Sa, <- (v_len y I), Eg, !app_length. reflexivity.
    - intros j x N. destruct (Nat.eq_dec j i) as [->|D].
      + rewrite Ei, nth_mid in N. injection N as <-.
        destruct (v_gos y I i g) as (b & Rb & Gb); [rewrite Eg, Ei; apply nth_mid|]. exists b. split; [apply runs_more; exact Rb|].
        rewrite did_same by exact Ns. apply Hg. exact Gb.
      + rewrite (nth_mid_other g1 g' g) in N by congruence. rewrite <- Eg in N. destruct (v_gos y I j x N) as (b & Rb & Gb). exists b. split; [apply runs_more; exact Rb|].
        rewrite did_other by (left; congruence). eapply gor_ok_mono; [exact Gb|exact Hc].
    - intros j x X. rewrite Sa. destruct X as [X|X]; [|apply (v_own y I) in X; lia].
      injection X as <- <-. rewrite <- (v_len y I), Eg, app_length. cbn [length]. lia.
  Qed.
  Lemma inv_step y y' : inv y -> step y y' -> inv y'.
  Proof.
    intros I St. destruct St as [h p gs tr e h' o p' Hc P|h p g1 q g2 tr e h' o q' Hc P|h p g1 g2 tr e Hc|h p g1 g2 tr Hc|h p g1 g2 tr Hc Hs|h p g1 g2 tr cap n Hc Hs|h p gs tr Hc Hs].
    - destruct (pstep_follows _ _ _ _ _ _ _ P) as (F & O & Ns & Pn). destruct (v_main_now _ I Hc) as [Fm Nm].
      apply (go_next (Sys h p gs tr) None main e h' o gs p'); auto; [constructor| |discriminate].
      exists p, p'. split; [exact Fm|]. split; [exact Nm|]. split; [exact O|]. split; [exact F|]. split; [reflexivity|]. split; [congruence|auto].
    - destruct (pstep_follows _ _ _ _ _ _ _ P) as (F & O & Ns & Pn).
      destruct (v_gos _ I (length g1) (Run q) (nth_mid _ _ _)) as (b & Rb & Lb & Gb). cbn [y_sh y_trace] in Gb, Lb, Rb. specialize (Gb Hc). destruct Gb as [Fb Nb].
      apply (go_next (Sys h p (g1 ++ Run q :: g2) tr) (Some (length g1)) b e h' o (g1 ++ Run q' :: g2) p); auto.
      + exists q, q'. split; [exact Fb|]. split; [exact Nb|]. split; [exact O|]. split; [exact F|]. split; [discriminate|]. split; [reflexivity|].
        intros i g N ->. rewrite nth_mid in N. congruence.
      + cbn [y_gos]. rewrite !app_length. reflexivity.
      + intros i D. apply nth_mid_other. congruence.
      + intros j X. injection X as <-. cbn [y_gos]. rewrite app_length. cbn [length]. lia.
    - apply (over_next (Sys h p (g1 ++ Run (Ret (HRet e)) :: g2) tr) (length g1) g1 (Run (Ret (HRet e))) Leaving g2); auto; try discriminate.
      intros b [_ Gk]. destruct (Gk Hc) as [Gr _]. exists (did (Some (length g1)) tr), e. split; [exact Gr|reflexivity].
    - apply (over_next (Sys h p (g1 ++ Run (Ret HPanic) :: g2) tr) (length g1) g1 (Run (Ret HPanic)) (Run (Ret HPanic)) g2); auto; try discriminate.
      intros b [_ Gk]. destruct (Gk Hc) as [Gr _]. split; [apply L_panicked; exact Gr|discriminate].
    - apply (over_next (Sys h p (g1 ++ Leaving :: g2) tr) (length g1) g1 Leaving Ended g2); auto; try discriminate.
      intros b (es & e & F & E). exists es, e. split; [exact F|]. rewrite E, <- app_assoc. reflexivity.
    - apply (over_next (Sys h p (g1 ++ Leaving :: g2) tr) (length g1) g1 Leaving Ended g2); auto; try discriminate.
      intros b (es & e & F & E). exists es, e. split; [exact F|]. rewrite E, <- app_assoc. reflexivity.
    - destruct I as [I1 I2 I3 I4 I5]. cbn [y_sh y_main y_gos y_trace] in *. constructor; cbn [y_sh y_main y_gos y_trace].
      + rewrite did_other by auto. exact I1.
      + rewrite did_other by auto. exact I2.
      + exact I3.
      + intros i g N. destruct (I4 i g N) as (b & Rb & Gb). exists b. split; [apply runs_more; exact Rb|]. rewrite did_other by auto. exact Gb.
      + intros i e [X|X]; [discriminate X|]. apply (I5 i e X).
  Qed.
End Fix.

(** ** C145: what the request and its goroutines do is what their programs say, told what the
    events say; nobody else does anything *)
Theorem C145_programs_followed : forall s ses path tr, history s ses path tr ->
  (exists p, follows (request s ses path) (did None tr) p) /\
  (forall i, i < started tr -> exists b, runs (request s ses path) tr (Some i) b /\ lives b (did (Some i) tr)) /\
  (forall i e, In (Some i, e) tr -> i < started tr).
Proof.
  intros s ses path tr (y & R & <-).
  assert (I : inv (request s ses path) y) by (induction R; [apply inv_start|eapply inv_step; eassumption]).
  split; [exact (v_main _ _ I)|]. split; [|exact (v_own _ _ I)]. intros i Li. rewrite <- (v_len _ _ I) in Li.
  destruct (nth_error (y_gos y) i) as [g|] eqn:N; [|apply nth_error_None in N; lia].
  destruct (v_gos _ _ I i g N) as (b & Rb & Gb). exists b. split; [exact Rb|].
  destruct g; cbn [gor_ok] in Gb; [exact (proj1 Gb)| |]; destruct Gb as (es & e & F & ->); [apply L_returned|apply L_gone]; exact F.
Qed.
(** what a goroutine runs is determined by what happened *)
Lemma runs_started main tr i b : runs main tr (Some i) b -> i < started tr.
Proof. inversion 1; subst. unfold started. rewrite filter_app, app_length. cbn [filter is_go snd length]. lia. Qed.
Theorem C145_function_unique : forall main tr w b b', runs main tr w b -> runs main tr w b' -> b = b'.
Proof.
  intros main tr. remember (length tr) as n eqn:En. assert (Hn : length tr <= n) by lia. clear En. revert tr Hn.
  induction n as [n IH] using lt_wf_ind. intros tr Hn w b b' H H'.
  destruct H as [|post w pre p p1 b E Rp Fp Gp]; [inversion H'; reflexivity|].
  inversion H' as [|post' w' pre' q q1 b0 E' Rq Fq Gq Ei Eb]; subst b0. 
  assert (Epre : (w, EGo) :: pre = (w', EGo) :: pre').
  { assert (K : forall (a a' : log) x x' l l', a ++ (x, EGo) :: l = a' ++ (x', EGo) :: l' -> started l = started l' -> (x, EGo) :: l = (x', EGo) :: l').
    { clear. induction a as [|y a IH]; intros a' x x' l l' E L.
      - destruct a' as [|y' a']; [exact E|]. cbn [app] in E. injection E as <- E. exfalso. rewrite E in L. unfold started in L.
        rewrite filter_app, app_length in L. cbn [filter is_go snd length] in L. lia.
      - destruct a' as [|y' a']; cbn [app] in E.
        + injection E as -> E. exfalso. rewrite <- E in L. unfold started in L. rewrite filter_app, app_length in L. cbn [filter is_go snd length] in L. lia.
        + injection E as _ E. exact (IH a' x x' l l' E L). }
    apply (K post post'); congruence. }
  injection Epre as <- <-.
  assert (Lp : length pre < n) by (rewrite E, app_length in Hn; cbn [length] in Hn; lia).
  assert (p = q) as -> by (exact (IH (length pre) Lp pre (le_n _) w p q Rp Rq)).
  assert (p1 = q1) as -> by (exact (follows_det _ _ _ Fp _ Fq)). congruence.
Qed.
(** EGWait returns when all goroutines are away, with the error of the first that failed *)
Theorem C145_wait_exact : forall s ses path post w r pre, user_request s ses ->
  history s ses path (post ++ (w, EWaited r) :: pre) -> w = None /\ all_gone pre /\ r = first_failure pre.
Proof.
  intros s ses path post w r pre U H. destruct (event_at _ _ _ _ _ _ U H) as (y1 & p1 & y2 & p2 & A & St & E1 & E2).
  pose proof (books_areach _ _ _ _ _ A) as Bk. destruct (err_areach _ _ _ _ _ A) as [Er _]. rewrite <- E1, <- Er.
  destruct St; cbn [y_trace y_sh y_gos] in *; rewrite E1 in E2; inversion E2; subst; clear E2;
    match goal with P : pstep _ _ _ _ _ _ _ |- _ => inversion P; subst end; try discriminate.
  all: (split; [reflexivity|]; split; [|reflexivity]; apply (idle_all_gone _ Bk); cbn [y_gos]; apply idle_bool; assumption).
Qed.
(** a limit of one: the second start is refused, and the handler, told so, asks to skip *)
Definition told : prog := Limit 1 (Go (Act DoStop ok) (TryGo ok (fun x => if x then Act DoStop ok else Act DoSkip ok))).
Example C145_example : exists tr, history (set_of ok told None) None [] tr /\
  In (None, ERefused) tr /\ In (None, EAct DoSkip) tr /\ runs (request (set_of ok told None) None []) tr (Some 0) (Act DoStop ok) /\
  did (Some 0) tr = [EAct DoStop; EReturned None].
Proof.
  eexists. split; [|split; [|split; [|split]]].
  - eexists. split. { unfold reaches. lazy. do 6 main.
    eapply reach_cons; [eapply S_main; [reflexivity|eapply P_try_full; [reflexivity|lia]]|lazy]. main.
    eapply reach_cons; [eapply (S_go _ _ [] _ []); [reflexivity|apply P_act]|lazy].
    eapply reach_cons; [eapply (S_returned _ _ [] []); reflexivity|lazy]. apply reach_start. } cbn; reflexivity.
  - cbn. auto 10.
  - cbn. auto 10.
  - match goal with |- runs ?m ?t _ _ => eapply (runs_go m t (firstn 4 t) None (skipn 5 t) m) end; [reflexivity|apply runs_main| |].
    { cbn. repeat constructor. } reflexivity.
  - reflexivity.
Qed.
Print Assumptions C145_programs_followed.
Print Assumptions C145_function_unique.
Print Assumptions C145_wait_exact.
