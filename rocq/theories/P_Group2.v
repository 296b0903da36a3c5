(** Proofs about M_Group: invariants that tie the state to the trace. *)
From Verif Require Import Base GoErrors M_Pipeline M_Group S_Group P_Group.

Section Inv.
Variables (s : gset) (ses : option prog) (path : bytes).
Hypothesis U : user_request s ses.
Notation areach := (areach s ses path).
Notation astep := (astep s ses path).

(** every step adds one event *)
Lemma astep_trace : forall y p y' p', astep y p y' p' -> exists x, y_trace y' = x :: y_trace y.
Proof. intros y p y' p' St. destruct St; cbn [y_trace]; eexists; reflexivity. Qed.
Lemma moment : forall post x pre y p, areach y p -> y_trace y = post ++ x :: pre ->
  exists y1 p1 y2 p2, areach y1 p1 /\ astep y1 p1 y2 p2 /\ y_trace y1 = pre /\ y_trace y2 = x :: pre.
Proof.
  intros post x pre y p A. revert post. induction A as [|y p y' p' A IH St]; intros post E.
  - cbn in E. destruct post; discriminate.
  - destruct (astep_trace _ _ _ _ St) as (x' & E'). rewrite E' in E. destruct post as [|a post].
    + cbn [app] in E. injection E as -> E. exists y, p, y', p'. split; [assumption|]. split; [assumption|]. split; [assumption|congruence].
    + cbn [app] in E. injection E as -> E. eapply IH. exact E.
Qed.
Lemma history_areach : forall tr, history s ses path tr -> exists y p, areach y p /\ at_pos s ses path y p /\ y_trace y = tr.
Proof. intros tr (y & R & E). destruct (reaches_at _ _ _ U y R) as (p & A & Ap & _). exists y, p. auto. Qed.

(** ** Goroutines *)
Definition idle_list (gs : list gor) : Prop := Forall (fun g => g = Ended) gs.
Lemma idle_bool : forall gs, forallb (fun g => negb (active g)) gs = true -> idle_list gs.
Proof.
  intros gs H. apply Forall_forall. intros g I. rewrite forallb_forall in H. specialize (H g I). destruct g; cbn in H; congruence.
Qed.
Lemma idle_bool' : forall gs, idle_list gs -> forallb (fun g => negb (active g)) gs = true.
Proof. intros gs H. apply forallb_forall. intros g I. unfold idle_list in H. rewrite Forall_forall in H. rewrite (H g I). reflexivity. Qed.
Lemma idle_mid : forall g1 g g2, idle_list (g1 ++ g :: g2) -> g = Ended.
Proof. intros g1 g g2 H. apply Forall_app in H. destruct H as [_ H]. inversion H; assumption. Qed.
Definition is_ended (g : gor) : bool := match g with Ended => true | _ => false end.
Definition books (y : sys) : Prop :=
  length (y_gos y) = started (y_trace y) /\
  length (filter is_ended (y_gos y)) = ended (y_trace y) /\
  (forall i, nth_error (y_gos y) i = Some Ended <-> In (Some i, EGone) (y_trace y)).
Lemma filter_mid : forall g1 g g2, length (filter is_ended (g1 ++ g :: g2)) =
  length (filter is_ended g1) + (if is_ended g then 1 else 0) + length (filter is_ended g2).
Proof. intros. rewrite filter_app, app_length. cbn [filter]. destruct (is_ended g); cbn [length]; lia. Qed.
Lemma nth_mid_ended : forall g1 g g' g2 i, is_ended g = false -> 
  (nth_error (g1 ++ g' :: g2) i = Some Ended <-> (nth_error (g1 ++ g :: g2) i = Some Ended \/ (i = length g1 /\ g' = Ended))).
Proof.
  intros g1 g g' g2 i Hg. destruct (Nat.lt_trichotomy i (length g1)) as [L|[->|L]].
  - rewrite !nth_error_app1 by assumption. split; [auto|]. intros [H|[H _]]; [assumption|lia].
  - rewrite !nth_error_app2, Nat.sub_diag by lia. cbn [nth_error]. split.
    + intros H. right. split; [reflexivity|congruence].
    + intros [H|[_ ->]]; [|reflexivity]. injection H as ->. discriminate.
  - rewrite !nth_error_app2 by lia. destruct (i - length g1) as [|n] eqn:E; [lia|]. cbn [nth_error]. split; [auto|].
    intros [H|[H _]]; [assumption|lia].
Qed.
Lemma user_event_plain : forall e, user_event e -> e <> EGone.
Proof. intros e H. destruct H; discriminate. Qed.
Lemma pstep_go : forall idle h q e h' o q', pstep idle h q e h' o q' -> (e = EGo <-> o <> None) /\ e <> EGone.
Proof. intros idle h q e h' o q' P. destruct P; (split; [split; congruence|discriminate]). Qed.
Lemma books_event : forall h m gs tr m' h' o e w, books (Sys h m gs tr) -> (e = EGo <-> o <> None) -> e <> EGone ->
  books (Sys h' m' (add o gs) ((w, e) :: tr)).
Proof.
  intros h m gs tr m' h' o e w (L & C & N) Ho Ne. unfold books in *. cbn [y_gos y_trace] in *. unfold started, ended in *. cbn [filter].
  assert (Hg : is_gone (w, e) = false) by (unfold is_gone; cbn; destruct e; congruence).
  rewrite Hg. destruct o as [b|]; cbn [add].
  - assert (e = EGo) as -> by (apply Ho; discriminate). cbn [is_go snd length]. rewrite app_length, filter_app, app_length. cbn [length filter is_ended].
    split; [lia|]. split; [lia|]. intros i. rewrite <- (app_nil_r [Run b]). cbn [app]. split.
    + intros H. right. apply N. destruct (Nat.ltb_spec i (length gs)) as [Li|Li].
      * rewrite nth_error_app1 in H by assumption. exact H.
      * rewrite nth_error_app2 in H by assumption. destruct (i - length gs) as [|[|]]; cbn in H; discriminate.
    + intros [H|H]; [discriminate|]. apply N in H. rewrite nth_error_app1; [assumption|]. apply nth_error_Some. congruence.
  - assert (Hgo : is_go (w, e) = false).
    { unfold is_go. cbn. destruct e; try reflexivity. exfalso. assert (@None prog <> None) by (apply Ho; reflexivity). congruence. }
    rewrite Hgo. split; [assumption|]. split; [assumption|]. intros i. rewrite N. split; [intros; right; assumption|].
    intros [H|H]; [injection H as _ He; congruence|assumption].
Qed.
Lemma books_mid : forall h m h' m' g1 g g' g2 tr e, is_ended g = false -> is_go (Some (length g1), e) = false ->
  (g' = Ended <-> e = EGone) -> books (Sys h m (g1 ++ g :: g2) tr) -> books (Sys h' m' (g1 ++ g' :: g2) ((Some (length g1), e) :: tr)).
Proof.
  intros h m h' m' g1 g g' g2 tr e Hg Hgo He (L & C & N). unfold books in *. cbn [y_gos y_trace] in *. unfold started, ended in *.
  cbn [filter]. rewrite Hgo. rewrite app_length in *. cbn [length] in *. split; [exact L|]. split.
  - rewrite filter_mid in *. rewrite Hg in C. assert (is_ended g' = is_gone (Some (length g1), e)) as ->.
    { unfold is_gone. cbn [snd]. destruct (is_ended g') eqn:E1.
      - destruct g'; try discriminate. rewrite (proj1 He eq_refl). reflexivity.
      - destruct e; try reflexivity. rewrite (proj2 He eq_refl) in E1. discriminate. }
    destruct (is_gone _); cbn [length]; lia.
  - intros i. rewrite (nth_mid_ended g1 g g' g2 i Hg). rewrite N. cbn [In]. split.
    + intros [H|[-> H]]; [right; assumption|left]. f_equal. apply He. assumption.
    + intros [H|H]; [right|left; assumption]. injection H as <- H'. split; [reflexivity|apply He; assumption].
Qed.
Lemma books_areach : forall y p, areach y p -> books y.
Proof.
  intros y p A. induction A as [|y p y' p' A IH St].
  - split; [reflexivity|]. split; [reflexivity|]. intros i. cbn. destruct i; split; try discriminate; intros [].
  - destruct St.
    + pose proof (pstep_go _ _ _ _ _ _ _ H0) as [Ho Ne]. eapply books_event; eassumption.
    + pose proof (pstep_go _ _ _ _ _ _ _ H0) as [Ho Ne].
      destruct IH as (L & C & N).
      assert (B' : books (Sys h m (g1 ++ Run q' :: g2) tr)).
      { unfold books in *. cbn [y_gos y_trace] in *. rewrite app_length in *. cbn [length] in *. split; [exact L|]. split.
        - rewrite filter_mid in *. exact C.
        - intros i. rewrite <- N. rewrite (nth_mid_ended g1 (Run q) (Run q') g2 i eq_refl). split; [intros [?|[_ ?]]; [assumption|discriminate]|auto]. }
      eapply books_event; eassumption.
    + eapply books_mid; [| | |exact IH]; [reflexivity|reflexivity|split; discriminate].
    + eapply books_mid; [| | |exact IH]; [reflexivity|reflexivity|split; discriminate].
    + eapply books_mid; [| | |exact IH]; [reflexivity|reflexivity|split; reflexivity].
    + eapply books_mid; [| | |exact IH]; [reflexivity|reflexivity|split; reflexivity].
    + apply (books_event h m gs tr m (set_server h) None EShutdown None IH); [split; congruence|discriminate].
Qed.
Lemma idle_all_gone : forall y, books y -> idle_list (y_gos y) -> all_gone (y_trace y).
Proof.
  intros y (L & C & N) F i Hi. apply N. destruct (nth_error (y_gos y) i) as [g|] eqn:E.
  - unfold idle_list in F. rewrite Forall_forall in F. f_equal. apply F. eapply nth_error_In. exact E.
  - apply nth_error_None in E. lia.
Qed.
Lemma all_gone_idle : forall y, books y -> all_gone (y_trace y) -> idle_list (y_gos y).
Proof.
  intros y (L & C & N) F. apply Forall_forall. intros g I. apply In_nth_error in I. destruct I as (i & E).
  assert (Hi : i < started (y_trace y)) by (rewrite <- L; apply nth_error_Some; congruence).
  specialize (F i Hi). apply N in F. congruence.
Qed.
Lemma idle_balance : forall gs, length (filter is_ended gs) = length gs -> idle_list gs.
Proof.
  assert (Le : forall gs, length (filter is_ended gs) <= length gs)
    by (induction gs as [|g gs IH]; cbn [filter length]; [lia|]; destruct (is_ended g); cbn [length]; lia).
  induction gs as [|g gs IH]; intros H; [constructor|]. cbn [filter length] in H. specialize (Le gs).
  destruct g; cbn [is_ended length] in H; try lia. constructor; [reflexivity|]. apply IH. lia.
Qed.

(** ** Flags and context *)
Lemma happened_cons : forall e w e' tr, happened e ((w, e') :: tr) <-> (e = e' \/ happened e tr).
Proof.
  intros e w e' tr. unfold happened. cbn [In]. split.
  - intros (x & [H|H]); [left; congruence|right; exists x; assumption].
  - intros [->|(x & H)]; [exists w; left; reflexivity|exists x; right; assumption].
Qed.
Lemma happened_nil : forall e, ~ happened e [].
Proof. intros e (w & []). Qed.
Definition flags_ok (y : sys) : Prop :=
  (f_stopped (h_flags (y_sh y)) = true <-> happened (EAct DoStop) (y_trace y)) /\
  (f_aborted (h_flags (y_sh y)) = true <-> happened (EAct DoAbort) (y_trace y)) /\
  (f_skip (h_flags (y_sh y)) = true <-> happened (EAct DoSkip) (y_trace y)).
Lemma flags_same : forall h h' m m' gs gs' tr w e, flags_ok (Sys h m gs tr) -> h_flags h' = h_flags h -> (forall a, e <> EAct a) ->
  flags_ok (Sys h' m' gs' ((w, e) :: tr)).
Proof.
  intros h h' m m' gs gs' tr w e (F1 & F2 & F3) E N. unfold flags_ok in *. cbn [y_sh y_trace] in *. rewrite E.
  assert (K : forall a, happened (EAct a) ((w, e) :: tr) <-> happened (EAct a) tr).
  { intros a. rewrite happened_cons. split; [intros [H|H]; [destruct (N a); congruence|assumption]|auto]. }
  rewrite !K. auto.
Qed.
Lemma flags_pstep : forall idle h q e h' o q' m m' gs gs' tr w, pstep idle h q e h' o q' ->
  flags_ok (Sys h m gs tr) -> flags_ok (Sys h' m' gs' ((w, e) :: tr)).
Proof.
  intros idle h q e h' o q' m m' gs gs' tr w P F. destruct P; try (eapply flags_same; [exact F|reflexivity|discriminate]).
  - eapply flags_same; [exact F| |discriminate]. destruct m0 as [?|? ?|[?|]]; reflexivity.
  - destruct F as (F1 & F2 & F3). unfold flags_ok in *. cbn [y_sh y_trace] in *. rewrite !happened_cons.
    destruct a; cbn [do_act h_flags set_flags set_cancel f_stopped f_aborted f_skip].
    + split; [tauto|]. split; [rewrite F2|rewrite F3]; (split; [auto|intros [E|E]; [discriminate|assumption]]).
    + split; [rewrite F1|split; [tauto|rewrite F3]]; (split; [auto|intros [E|E]; [discriminate|assumption]]).
    + split; [rewrite F1|split; [rewrite F2|tauto]]; (split; [auto|intros [E|E]; [discriminate|assumption]]).
Qed.
Lemma flags_areach : forall y p, areach y p -> flags_ok y.
Proof.
  intros y p A. induction A as [|y p y' p' A IH St].
  - unfold flags_ok. cbn. split; [|split]; (split; [discriminate|intros H; destruct (happened_nil _ H)]).
  - destruct St; try (eapply flags_same; [exact IH|reflexivity|discriminate]).
    + eapply flags_pstep; eassumption.
    + eapply flags_pstep; eassumption.
    + eapply flags_same; [exact IH| |discriminate]. unfold record_err. destruct e; [destruct (h_err h)|]; reflexivity.
Qed.
Definition context_ok (y : sys) : Prop :=
  ctx_done (y_sh y) = true <-> exists w e, In (w, e) (y_trace y) /\ ends_context e.
Lemma context_same : forall h h' m m' gs gs' tr w e, context_ok (Sys h m gs tr) -> ctx_done h' = ctx_done h -> ~ ends_context e ->
  context_ok (Sys h' m' gs' ((w, e) :: tr)).
Proof.
  intros h h' m m' gs gs' tr w e C E N. unfold context_ok in *. cbn [y_sh y_trace] in *. rewrite E, C. split.
  - intros (a & b & I & K). exists a, b. split; [right; assumption|assumption].
  - intros (a & b & [I|I] & K); [injection I as -> ->; destruct (N K)|exists a, b; auto].
Qed.
Lemma context_new : forall h' m' gs' tr w e, ctx_done h' = true -> ends_context e -> context_ok (Sys h' m' gs' ((w, e) :: tr)).
Proof.
  intros. unfold context_ok. cbn [y_sh y_trace]. rewrite H. split; [|reflexivity]. intros _. exists w, e. split; [left; reflexivity|assumption].
Qed.
Ltac done_true := unfold ctx_done; cbn; rewrite ?orb_true_r; reflexivity.
Lemma context_pstep : forall idle h q e h' o q' m m' gs gs' tr w, pstep idle h q e h' o q' ->
  context_ok (Sys h m gs tr) -> context_ok (Sys h' m' gs' ((w, e) :: tr)).
Proof.
  intros idle h q e h' o q' m m' gs gs' tr w P C.
  destruct P; try (eapply context_same; [exact C|reflexivity|exact (fun x => x)]).
  - destruct m0 as [?|? ?|[?|]]; try (eapply context_same; [exact C|reflexivity|exact (fun x => x)]);
      (apply context_new; [done_true|exact I]).
  - destruct a; try (eapply context_same; [exact C|reflexivity|exact (fun x => x)]). apply context_new; [done_true|exact I].
  - apply context_new; [done_true|exact I].
Qed.
Definition err_ok (y : sys) : Prop :=
  h_err (y_sh y) = first_failure (y_trace y) /\ (h_err (y_sh y) <> None -> h_group (y_sh y) = true).
Lemma err_pstep : forall idle h q e h' o q' m m' gs gs' tr w, pstep idle h q e h' o q' ->
  err_ok (Sys h m gs tr) -> err_ok (Sys h' m' gs' ((w, e) :: tr)).
Proof.
  intros idle h q e h' o q' m m' gs gs' tr w P [E G]. unfold err_ok in *. cbn [y_sh y_trace first_failure] in *.
  destruct P; rewrite <- ?E; cbn; try (split; [destruct (h_err h); reflexivity|assumption]).
  - destruct m0 as [?|? ?|[?|]]; cbn; (split; [destruct (h_err h); reflexivity|assumption]).
  - destruct a; cbn; (split; [destruct (h_err h); reflexivity|assumption]).
  - split; [destruct (h_err h); reflexivity|reflexivity].
Qed.
Lemma err_areach : forall y p, areach y p -> err_ok y.
Proof.
  intros y p A. induction A as [|y p y' p' A IH St].
  - split; [reflexivity|]. intros H. now destruct H.
  - destruct St; try (eapply err_pstep; eassumption).
    all: destruct IH as [E G]; unfold err_ok in *; cbn [y_sh y_trace first_failure] in *; rewrite <- ?E; cbn;
      try (split; [destruct (h_err h); reflexivity|assumption]).
    destruct e as [x|]; cbn [record_err]; [destruct (h_err h) eqn:Eh|]; cbn; rewrite ?Eh; 
      (split; [try reflexivity; destruct (h_err h); reflexivity|auto]).
Qed.
Lemma context_areach : forall y p, areach y p -> context_ok y.
Proof.
  intros y p A. induction A as [|y p y' p' A IH St].
  - unfold context_ok. cbn. split; [discriminate|]. intros (w & e & [] & _).
  - pose proof (err_areach _ _ A) as [_ G].
    destruct St; try (eapply context_pstep; eassumption); try (eapply context_same; [exact IH|reflexivity|exact (fun x => x)]).
    + destruct e as [x|]; [|eapply context_same; [exact IH|reflexivity|exact (fun x => x)]].
      apply context_new; [|exact I]. cbn [record_err]. destruct (h_err h) eqn:Eh; [|done_true].
      cbn [y_sh] in G. rewrite Eh in G. unfold ctx_done. rewrite G by discriminate. rewrite orb_true_r. reflexivity.
    + apply context_new; [done_true|exact I].
Qed.
End Inv.
