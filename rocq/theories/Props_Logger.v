(** C65-C70, C85-C86: levels, configurations, loggers. *)
From Verif Require Import Base GoStrings GoErrors GoSlices P_Slices M_Logger S_Logger.
From Coq Require Import Permutation.
Local Open Scope Z_scope.

(** ** C65 *)
Lemma level_string_name l : 0 <= l <= 6 -> exists s, level_string l = Ok s /\ is_level_name l s.
Proof.
  intros H. assert (C : l = 0 \/ l = 1 \/ l = 2 \/ l = 3 \/ l = 4 \/ l = 5 \/ l = 6) by lia.
  destruct C as [->|[->|[->|[->|[->|[->| ->]]]]]]; eexists; (split; [reflexivity|cbn; auto 10]).
Qed.
Theorem C65_string : forall l,
  (forall s, is_level_name l s -> level_string l = Ok s) /\
  (~ (0 <= l <= 6) -> level_string l = Ok (B"unknown")) /\
  (0 <= l <= 6 -> level_string l <> Ok (B"unknown")).
Proof.
  intros l. split; [|split].
  - intros s H. unfold is_level_name in H. cbn in H.
    repeat (destruct H as [H|H]; [injection H as <- <-; reflexivity|]). contradiction.
  - intros H. unfold level_string, level_byte, max_level_number.
    destruct (Z.leb_spec l 6), (Z.ltb_spec (-1) l); cbn [andb]; try reflexivity. lia.
  - intros H X. destruct (level_string_name l H) as (s & E & N). rewrite E in X. injection X as ->.
    unfold is_level_name in N. cbn in N. repeat (destruct N as [N|N]; [discriminate|]). contradiction.
Qed.
Lemma same_letters_iff a b : same_letters a b <-> map lower_ascii a = map lower_ascii b.
Proof.
  split.
  - induction 1 as [|x y a b E _ IH]; [reflexivity|]. cbn [map]. rewrite E, IH. reflexivity.
  - revert b. induction a as [|x a IH]; intros [|y b] E; cbn [map] in E; try discriminate; [constructor|].
    injection E as E1 E2. constructor; [exact E1|apply IH, E2].
Qed.
Theorem C65_parse : forall uni s l, forallb is_ascii s = true ->
  (parse_level uni s = Some l <-> exists n, In (l, n) accepted_names /\ same_letters s n).
Proof.
  intros uni s l A. unfold parse_level, to_lower. rewrite A. cbv zeta.
  assert (N : forall l n, In (l, n) accepted_names -> map lower_ascii n = n).
  { intros l0 n H. cbn in H. repeat (destruct H as [H|H]; [injection H as <- <-; reflexivity|]). contradiction. }
  split.
  - intros H.
    repeat match type of H with (if ?b then _ else _) = _ => destruct b eqn:?E end; try discriminate; injection H as <-;
    try (apply orb_true_iff in E2 as [E2|E2]);
    match goal with E : beq _ ?n = true |- _ => apply beq_eq in E; exists n; split; [cbn; auto 12|apply same_letters_iff; exact E] end.
  - intros (n & Hn & Hs). apply same_letters_iff in Hs. rewrite (N _ _ Hn) in Hs. rewrite Hs. clear Hs A.
    cbn in Hn. repeat (destruct Hn as [Hn|Hn]; [injection Hn as <- <-; reflexivity|]). contradiction.
Qed.
Theorem C65_round_trip : forall uni l, 0 <= l <= 6 -> exists s, level_string l = Ok s /\ parse_level uni s = Some l.
Proof.
  intros uni l H. destruct (level_string_name l H) as (s & E & N). exists s. split; [exact E|].
  apply C65_parse.
  - unfold is_level_name in N. cbn in N. repeat (destruct N as [N|N]; [injection N as <- <-; reflexivity|]). contradiction.
  - exists s. split; [right; exact N|]. apply same_letters_iff. reflexivity.
Qed.
(** outside ASCII the Unicode tables decide: U+0130 lower-cases to 'i' *)
Example C65_non_ascii : forall uni, uni (map ch [196; 176; 78; 70; 79]%N) = B"info" -> parse_level uni (map ch [196; 176; 78; 70; 79]%N) = Some 4.
Proof. intros uni H. unfold parse_level, to_lower. change (forallb is_ascii _) with false. cbv iota zeta. rewrite H. reflexivity. Qed.

(** ** Loggers and configurations *)
Section Loggers.
  Context {V : Type}.
  Variable order : forall A, list (bytes * A) -> list (bytes * A).
  Variable marshal : fields V -> option bytes.
  Hypothesis order_ok : forall A (m : list (bytes * A)), Permutation (order A m) m.
  Notation step := (step order marshal).
  Notation run := (run order marshal).
  Implicit Types st : state V.

  Record wf st : Prop := Wf {
    wf_h : forall h c, nth_error (st_handles st) h = Some c -> (c < length (st_configs st))%nat;
    wf_l : forall l g, nth_error (st_loggers st) l = Some g ->
             (lg_config g < length (st_configs st) /\ lg_fields g < length (st_maps st))%nat;
    wf_hh : forall h h' c, nth_error (st_handles st) h = Some c -> nth_error (st_handles st) h' = Some c -> h = h';
    wf_ll : forall l l' g g', nth_error (st_loggers st) l = Some g -> nth_error (st_loggers st) l' = Some g' ->
             lg_config g = lg_config g' \/ lg_fields g = lg_fields g' -> l = l';
    wf_hl : forall h l c g, nth_error (st_handles st) h = Some c -> nth_error (st_loggers st) l = Some g -> c <> lg_config g
  }.
  Lemma wf_init : wf init.
  Proof. split; cbn; intros *; try (intros X; destruct h; discriminate); try (intros X; destruct l; discriminate). Qed.
  Lemma wf_same st st' : length (st_configs st') = length (st_configs st) -> length (st_maps st') = length (st_maps st) ->
    st_handles st' = st_handles st -> st_loggers st' = st_loggers st -> wf st -> wf st'.
  Proof. intros E1 E2 E3 E4 W. destruct W. split; rewrite ?E1, ?E2, ?E3, ?E4; assumption. Qed.
  Lemma wf_with_config st c f : wf st -> wf (with_config st c f).
  Proof. apply wf_same; try reflexivity. apply upd_nth_length. Qed.
  Lemma wf_with_map st c f : wf st -> wf (with_map st c f).
  Proof. apply wf_same; try reflexivity. apply upd_nth_length. Qed.
  Lemma wf_emit st es : wf st -> wf (emit st es).
  Proof. apply wf_same; reflexivity. Qed.
  Lemma nth_snoc {A} (l : list A) x i y : nth_error (l ++ [x]) i = Some y ->
    (nth_error l i = Some y) \/ (i = length l /\ y = x).
  Proof.
    destruct (Nat.lt_ge_cases i (length l)) as [H|H].
    - rewrite nth_error_app1 by exact H. auto.
    - rewrite nth_error_app2 by exact H. destruct (i - length l)%nat eqn:E; cbn; [intros X; injection X as <-; right; split; [lia|reflexivity]|].
      destruct n; discriminate.
  Qed.
  Lemma wf_new_handle st cf : wf st -> wf (new_handle st cf).
  Proof.
    intros [W1 W2 W3 W4 W5]. split; cbn [new_handle st_configs st_maps st_handles st_loggers]; rewrite ?app_length; cbn [length].
    - intros h c H. apply nth_snoc in H as [H|[_ ->]]; [apply W1 in H|]; lia.
    - intros l g H. apply W2 in H. lia.
    - intros h h' c H H'. apply nth_snoc in H as [H|[-> ->]]; apply nth_snoc in H' as [H'|[-> E]].
      + eapply W3; eassumption.
      + subst c. apply W1 in H. lia.
      + apply W1 in H'. lia.
      + reflexivity.
    - exact W4.
    - intros h l c g H Hl. apply nth_snoc in H as [H|[_ ->]]; [eapply W5; eassumption|]. apply W2 in Hl. lia.
  Qed.
  Lemma wf_new_logger st cf m e : wf st ->
    wf (State (st_configs st ++ [cf]) (st_maps st ++ [m]) (st_handles st)
              (st_loggers st ++ [Lgr (length (st_configs st)) e (length (st_maps st))]) (st_out st)).
  Proof.
    intros [W1 W2 W3 W4 W5]. split; cbn [st_configs st_maps st_handles st_loggers]; rewrite ?app_length; cbn [length].
    - intros h c H. apply W1 in H. lia.
    - intros l g H. apply nth_snoc in H as [H|[_ ->]]; [apply W2 in H; lia|cbn; lia].
    - exact W3.
    - intros l l' g g' H H' E. apply nth_snoc in H as [H|[-> ->]]; apply nth_snoc in H' as [H'|[-> ->]].
      + eapply W4; eassumption.
      + apply W2 in H. cbn in E. lia.
      + apply W2 in H'. cbn in E. lia.
      + reflexivity.
    - intros h l c g H Hl. apply nth_snoc in Hl as [Hl|[_ ->]]; [eapply W5; eassumption|]. apply W1 in H. cbn. lia.
  Qed.
  Lemma wf_set_config st l cf : wf st ->
    wf (with_logger (State (st_configs st ++ [cf]) (st_maps st) (st_handles st) (st_loggers st) (st_out st)) l
          (fun lg => Lgr (length (st_configs st)) (lg_err lg) (lg_fields lg))).
  Proof.
    intros [W1 W2 W3 W4 W5]. split; cbn [with_logger st_configs st_maps st_handles st_loggers]; rewrite ?app_length; cbn [length].
    - intros h c H. apply W1 in H. lia.
    - intros i g H. rewrite nth_error_upd_nth in H. destruct (i =? l)%nat; [|apply W2 in H; lia].
      destruct (nth_error (st_loggers st) i) eqn:E; [|discriminate]. injection H as <-. cbn. apply W2 in E. lia.
    - exact W3.
    - intros i i' g g' H H' E. rewrite nth_error_upd_nth in H, H'.
      destruct (Nat.eqb_spec i l) as [->|Ni], (Nat.eqb_spec i' l) as [->|Ni'].
      + reflexivity.
      + destruct (nth_error (st_loggers st) l) eqn:El; [|discriminate]. injection H as <-. cbn in E.
        destruct E as [E|E]; [apply W2 in H'; lia|]. eapply W4; try eassumption. right. exact E.
      + destruct (nth_error (st_loggers st) l) eqn:El; [|discriminate]. injection H' as <-. cbn in E.
        destruct E as [E|E]; [apply W2 in H; lia|]. eapply W4; try eassumption. right. exact E.
      + eapply W4; eassumption.
    - intros h i c g H Hl. rewrite nth_error_upd_nth in Hl. destruct (i =? l)%nat; [|eapply W5; eassumption].
      destruct (nth_error (st_loggers st) i); [|discriminate]. injection Hl as <-. cbn. apply W1 in H. lia.
  Qed.
  Lemma wf_error st l f : (forall g, lg_config (f g) = lg_config g /\ lg_fields (f g) = lg_fields g) -> wf st -> wf (with_logger st l f).
  Proof.
    intros F [W1 W2 W3 W4 W5].
    assert (G : forall i g, nth_error (upd_nth l f (st_loggers st)) i = Some g ->
       exists g0, nth_error (st_loggers st) i = Some g0 /\ lg_config g = lg_config g0 /\ lg_fields g = lg_fields g0).
    { intros i g H. rewrite nth_error_upd_nth in H. destruct (i =? l)%nat; [|eauto].
      destruct (nth_error (st_loggers st) i) as [g0|]; [|discriminate]. injection H as <-. exists g0. split; [reflexivity|apply F]. }
    split; cbn [with_logger st_configs st_maps st_handles st_loggers].
    - exact W1.
    - intros i g H. apply G in H as (g0 & H & -> & ->). eauto.
    - exact W3.
    - intros i i' g g' H H' E. apply G in H as (g0 & H & E1 & E2), H' as (g1 & H' & E3 & E4).
      rewrite E1, E2, E3, E4 in E. eauto.
    - intros h i c g Hh H. apply G in H as (g0 & H & -> & _). eauto.
  Qed.
  Lemma wf_std_keys st g k v : wf st -> wf (do_std_keys st g k v).
  Proof.
    intros W. unfold do_std_keys. destruct (config_std_keys _ k v) as [cf old].
    pose proof (wf_with_config st (lg_config g) (fun _ => cf) W) as W'.
    destruct (is_empty old); [exact W'|]. destruct (aget old _); [|exact W'].
    destruct (negb (beq old k)); [apply wf_with_map|]; exact W'.
  Qed.
  Lemma wf_log st g lvl st' : do_log marshal st g lvl = Ok st' -> wf st -> wf st'.
  Proof.
    intros H W. unfold do_log in H. destruct (_ <? lvl); [injection H as <-; exact W|].
    destruct (level_string _); [|discriminate]. cbv zeta in H.
    destruct (cf_writer _); [|discriminate].
    match type of H with context [json marshal ?x] => destruct (json marshal x) end.
    injection H as <-. apply wf_emit, wf_with_map, W.
  Qed.
  Lemma wf_step st o st' : step st o = Ok st' -> wf st -> wf st'.
  Proof.
    intros H W. destruct o; cbn [M_Logger.step] in H;
      unfold on_logger, on_handle in H;
      repeat match type of H with
      | match nth_error ?a ?b with _ => _ end = _ => destruct (nth_error a b); [|discriminate H]
      end;
      try (injection H as <-);
      try (apply wf_new_handle; exact W); try (apply wf_with_config; exact W); try (apply wf_with_map; exact W);
      try (apply wf_new_logger; exact W); try (apply wf_set_config; exact W); try (apply wf_std_keys; exact W).
    - destruct (5 <=? _); injection H as <-; [apply wf_with_map|]; exact W.
    - destruct e; injection H as <-; [|exact W]. apply wf_error; [intros g; split; reflexivity|exact W].
    - eapply wf_log; eassumption.
    - unfold do_logf in H. destruct (_ <? lvl); [injection H as <-; exact W|].
      eapply wf_log; [exact H|]. apply wf_with_map, W.
  Qed.
  Lemma wf_run os : forall st st', run st os = Ok st' -> wf st -> wf st'.
  Proof.
    induction os as [|o os IH]; intros st st' H W; cbn [M_Logger.run] in H; [injection H as <-; exact W|].
    destruct (step st o) as [st1|] eqn:E; [|discriminate]. eapply IH; [exact H|]. eapply wf_step; eassumption.
  Qed.
  Definition reachable st : Prop := exists os, run init os = Ok st.
  Lemma reachable_wf st : reachable st -> wf st.
  Proof. intros (os & H). eapply wf_run; [exact H|apply wf_init]. Qed.

  (** *** what a step leaves alone *)
  Definition frame (st st' : state V) (cs ms : nat -> Prop) (ls : nat -> Prop) : Prop :=
    (forall c, (c < length (st_configs st))%nat -> ~ cs c -> get_config st' c = get_config st c) /\
    (forall m, (m < length (st_maps st))%nat -> ~ ms m -> get_map st' m = get_map st m) /\
    (forall h c, nth_error (st_handles st) h = Some c -> nth_error (st_handles st') h = Some c) /\
    (forall l g, ~ ls l -> nth_error (st_loggers st) l = Some g -> nth_error (st_loggers st') l = Some g).
  Lemma frame_refl st cs ms ls : frame st st cs ms ls.
  Proof. repeat split; auto. Qed.
  Lemma frame_weaken st st' (cs cs' ms ms' ls ls' : nat -> Prop) : (forall x, cs x -> cs' x) -> (forall x, ms x -> ms' x) -> (forall x, ls x -> ls' x) ->
    frame st st' cs ms ls -> frame st st' cs' ms' ls'.
  Proof. intros A B C (F1 & F2 & F3 & F4). repeat split; auto 6. Qed.
  Lemma frame_trans st st1 st2 cs ms ls : length (st_configs st1) = length (st_configs st) -> length (st_maps st1) = length (st_maps st) ->
    frame st st1 cs ms ls -> frame st1 st2 cs ms ls -> frame st st2 cs ms ls.
  Proof.
    intros E1 E2 (F1 & F2 & F3 & F4) (G1 & G2 & G3 & G4). repeat split.
    - intros c Hc N. rewrite G1, F1; auto. lia.
    - intros m Hm N. rewrite G2, F2; auto. lia.
    - auto.
    - auto.
  Qed.
  Lemma frame_config st c f (cs ms ls : nat -> Prop) : cs c -> frame st (with_config st c f) cs ms ls.
  Proof.
    intros H. repeat split; cbn [with_config st_configs st_maps st_handles st_loggers]; auto.
    intros c' _ N. unfold get_config. cbn [with_config st_configs]. rewrite nth_upd_nth.
    destruct (Nat.eqb_spec c' c) as [->|_]; [contradiction|reflexivity].
  Qed.
  Lemma frame_map st m f (cs ms ls : nat -> Prop) : ms m -> frame st (with_map st m f) cs ms ls.
  Proof.
    intros H. repeat split; cbn [with_map st_configs st_maps st_handles st_loggers]; auto.
    intros m' _ N. unfold get_map. cbn [with_map st_maps]. rewrite nth_upd_nth.
    destruct (Nat.eqb_spec m' m) as [->|_]; [contradiction|reflexivity].
  Qed.
  Lemma frame_logger st l f (cs ms ls : nat -> Prop) : ls l -> frame st (with_logger st l f) cs ms ls.
  Proof.
    intros H. repeat split; cbn [with_logger st_configs st_maps st_handles st_loggers]; auto.
    intros l' g N Hl. rewrite nth_error_upd_nth. destruct (Nat.eqb_spec l' l) as [->|_]; [contradiction|exact Hl].
  Qed.
  Lemma frame_emit st es cs ms ls : frame st (emit st es) cs ms ls.
  Proof. repeat split; auto. Qed.
  Lemma frame_alloc st cfs ms' hs ls' out cs ms ls :
    frame st (State (st_configs st ++ cfs) (st_maps st ++ ms') (st_handles st ++ hs) (st_loggers st ++ ls') out) cs ms ls.
  Proof.
    repeat split; cbn [st_configs st_maps st_handles st_loggers].
    - intros c H _. unfold get_config. cbn [st_configs]. apply app_nth1. exact H.
    - intros c H _. unfold get_map. cbn [st_maps]. apply app_nth1. exact H.
    - intros h c H. rewrite nth_error_app1; [exact H|]. apply nth_error_Some. congruence.
    - intros h c _ H. rewrite nth_error_app1; [exact H|]. apply nth_error_Some. congruence.
  Qed.
  Lemma frame_log st g lvl st' (cs ms ls : nat -> Prop) : ms (lg_fields g) -> do_log marshal st g lvl = Ok st' -> frame st st' cs ms ls.
  Proof.
    intros Hm H. unfold do_log in H. destruct (_ <? lvl); [injection H as <-; apply frame_refl|].
    destruct (level_string _); [|discriminate]. cbv zeta in H. destruct (cf_writer _); [|discriminate].
    match type of H with context [json marshal ?x] => destruct (json marshal x) end. injection H as <-.
    eapply frame_trans; [| |apply frame_map, Hm|apply frame_emit]; [reflexivity|apply upd_nth_length].
  Qed.
  Lemma frame_std_keys st g k v (cs ms ls : nat -> Prop) : cs (lg_config g) -> ms (lg_fields g) -> frame st (do_std_keys st g k v) cs ms ls.
  Proof.
    intros Hc Hm. unfold do_std_keys. destruct (config_std_keys _ k v) as [cf old].
    pose proof (frame_config st (lg_config g) (fun _ => cf) cs ms ls Hc) as F.
    destruct (is_empty old); [exact F|]. destruct (aget old _); [|exact F]. destruct (negb (beq old k)); [|exact F].
    eapply frame_trans; [| |exact F|apply frame_map, Hm]; [apply upd_nth_length|reflexivity].
  Qed.
  Lemma frame_step st o st' : step st o = Ok st' ->
    frame st st' (fun c => (exists h, changes_config o = Some h /\ nth_error (st_handles st) h = Some c) \/
                           (exists l g, changes_logger o = Some l /\ nth_error (st_loggers st) l = Some g /\ c = lg_config g))
                 (fun m => exists l g, changes_logger o = Some l /\ nth_error (st_loggers st) l = Some g /\ m = lg_fields g)
                 (fun l => changes_logger o = Some l).
  Proof.
    intros H.
    assert (A : forall cfs ms' hs ls', st' = State (st_configs st ++ cfs) (st_maps st ++ ms') (st_handles st ++ hs) (st_loggers st ++ ls') (st_out st) ->
                forall cs ms ls, frame st st' cs ms ls) by (intros; subst; apply frame_alloc).
    destruct o; cbn [M_Logger.step] in H; unfold on_logger, on_handle in H;
      repeat match type of H with
      | match nth_error ?a ?b with _ => _ end = _ => destruct (nth_error a b) eqn:?Hn; [|discriminate H]
      end;
      try (injection H as <-);
      try (apply frame_config; cbn [changes_config changes_logger]; left; eexists; split; [reflexivity|eassumption]);
      try (apply frame_config; cbn [changes_config changes_logger]; right; eexists _, _; split; [reflexivity|split; [eassumption|reflexivity]]);
      try (apply frame_map; cbn [changes_config changes_logger]; eexists _, _; split; [reflexivity|split; [eassumption|reflexivity]]);
      try (apply frame_std_keys; cbn [changes_config changes_logger]; [right|]; eexists _, _; (split; [reflexivity|split; [eassumption|reflexivity]]));
      try (apply (A [new_config] [] [length (st_configs st)] []); unfold new_handle; rewrite !app_nil_r; reflexivity).
    - eapply (A [_] [] [_] []). unfold new_handle. rewrite !app_nil_r. reflexivity.
    - eapply (A [_] [_] [] [_]). rewrite !app_nil_r. reflexivity.
    - (* SetConfig *) 
      set (st1 := State (st_configs st ++ [config_clone order (config_clone order (get_config st n))]) (st_maps st) (st_handles st) (st_loggers st) (st_out st)).
      assert (F : frame st st1 (fun _ => False) (fun _ => False) (fun _ => False)).
      { pose proof (frame_alloc st [config_clone order (config_clone order (get_config st n))] [] [] [] (st_out st)) as F. rewrite !app_nil_r in F. apply F. }
      pose proof (frame_logger st1 l (fun lg => Lgr (length (st_configs st)) (lg_err lg) (lg_fields lg)) (fun _ => False) (fun _ => False) (fun x => Some l = Some x) eq_refl) as G.
      destruct F as (F1 & F2 & F3 & F4), G as (G1 & G2 & G3 & G4). split; [|split; [|split]].
      + intros c Hc _. rewrite G1; [apply F1; auto|unfold st1; cbn; rewrite app_length; lia|auto].
      + intros m Hm _. rewrite G2; [apply F2; auto|exact Hm|auto].
      + auto.
      + intros x g N Hx. apply G4; [exact N|]. apply F4; auto.
    - eapply (A [_] [] [_] []). unfold new_handle. rewrite !app_nil_r. reflexivity.
    - eapply (A [_] [_] [] [_]). rewrite !app_nil_r. reflexivity.
    - destruct (5 <=? _); injection H as <-; [|apply frame_refl].
      apply frame_map. eexists _, _. split; [reflexivity|split; [eassumption|reflexivity]].
    - destruct e; injection H as <-; [|apply frame_refl]. apply frame_logger. reflexivity.
    - eapply frame_log; [|exact H]. eexists _, _. split; [reflexivity|split; [eassumption|reflexivity]].
    - unfold do_logf in H. destruct (_ <? lvl); [injection H as <-; apply frame_refl|].
      eapply frame_trans; [| |eapply frame_map|eapply frame_log; [|exact H]]; [reflexivity|apply upd_nth_length| |];
        (eexists _, _; split; [reflexivity|split; [eassumption|reflexivity]]).
  Qed.

  (** ** C69 *)
  Theorem C69_config_isolated : forall os st o st' h cf,
    run init os = Ok st -> step st o = Ok st' ->
    config_of st h = Some cf -> changes_config o <> Some h -> config_of st' h = Some cf.
  Proof.
    intros os st o st' h cf R H C N. pose proof (reachable_wf st (ex_intro _ os R)) as W.
    destruct (frame_step st o st' H) as (F1 & _ & F3 & _). unfold config_of in *.
    destruct (nth_error (st_handles st) h) as [c|] eqn:E; [|discriminate]. cbn [option_map] in C. injection C as <-.
    rewrite (F3 h c E). cbn [option_map]. f_equal. apply F1; [eapply wf_h; eassumption|].
    intros [(h' & E1 & E2)|(l & g & E1 & E2 & ->)].
    - apply N. rewrite E1. f_equal. eapply wf_hh; eassumption.
    - eapply wf_hl; try eassumption. reflexivity.
  Qed.
  Theorem C69_logger_isolated : forall os st o st' l v,
    run init os = Ok st -> step st o = Ok st' ->
    logger_of st l = Some v -> changes_logger o <> Some l -> logger_of st' l = Some v.
  Proof.
    intros os st o st' l v R H C N. pose proof (reachable_wf st (ex_intro _ os R)) as W.
    destruct (frame_step st o st' H) as (F1 & F2 & _ & F4). unfold logger_of in *.
    destruct (nth_error (st_loggers st) l) as [g|] eqn:E; [|discriminate]. cbn [option_map] in C. injection C as <-.
    rewrite (F4 l g N E). cbn [option_map]. destruct (wf_l _ W l g E) as [B1 B2]. f_equal. f_equal.
    - apply F1; [exact B1|]. intros [(h' & E1 & E2)|(l' & g' & E1 & E2 & E3)].
      + eapply wf_hl; try eassumption. reflexivity.
      + apply N. rewrite E1. f_equal. eapply wf_ll; try eassumption. left. congruence.
    - apply F2; [exact B2|]. intros (l' & g' & E1 & E2 & E3).
      apply N. rewrite E1. f_equal. eapply wf_ll; try eassumption. right. congruence.
  Qed.
  Lemma aget_none {A} (m : list (bytes * A)) k : ~ In k (map fst m) <-> aget k m = None.
  Proof.
    induction m as [|[k' v] m IH]; cbn [map fst In aget]; [tauto|]. destruct (beq_spec k k') as [->|N].
    - split; [intros X; exfalso; apply X; left; reflexivity|discriminate].
    - rewrite <- IH. split; [intros X Y; apply X; right; exact Y|intros X [Y|Y]; [congruence|exact (X Y)]].
  Qed.
  Lemma copy_fold {A} (m : list (bytes * A)) : forall l d k,
    aget k (fold_left (fun d kv => match aget (fst kv) m with Some v => aput (fst kv) v d | None => d end) l d) =
    if existsb (fun kv : bytes * A => beq k (fst kv)) l then match aget k m with Some v => Some v | None => aget k d end else aget k d.
  Proof.
    induction l as [|[k' v'] l IH]; intros d k; cbn [fold_left existsb fst]; [reflexivity|]. rewrite IH.
    destruct (beq_spec k k') as [->|N]; cbn [orb].
    - destruct (aget k' m) as [v|]; [|destruct (existsb _ l); reflexivity].
      rewrite aget_aput_same. destruct (existsb _ l); reflexivity.
    - destruct (aget k' m) as [v|]; [|reflexivity]. rewrite aget_aput_other by exact N. reflexivity.
  Qed.
  Lemma copy_map_same {A} (m : list (bytes * A)) : same_map (copy_map order m) m.
  Proof.
    intros k. unfold copy_map. rewrite copy_fold. cbn [aget].
    destruct (existsb (fun kv => beq k (fst kv)) (order A m)) eqn:E; [destruct (aget k m); reflexivity|].
    symmetry. apply aget_none. intros X. rewrite <- (Permutation_map fst (order_ok A m)) in X.
    apply in_map_iff in X as ([k' v] & <- & X). assert (Y : existsb (fun kv => beq k' (fst kv)) (order A m) = true).
    { apply existsb_exists. exists (k', v). split; [exact X|apply beq_refl]. }
    cbn [fst] in E. congruence.
  Qed.
  Lemma clone_same cf : same_config (config_clone order cf) cf.
  Proof. split; [reflexivity|]. split; [reflexivity|]. apply copy_map_same. Qed.
  Lemma same_config_trans a b c : same_config a b -> same_config b c -> same_config a c.
  Proof. intros (A1 & A2 & A3) (B1 & B2 & B3). repeat split; [congruence|congruence|]. intros k. rewrite A3, B3. reflexivity. Qed.
  Lemma get_new cfs (ms : list (fields V)) hs ls out cf : get_config (State (cfs ++ [cf]) ms hs ls out) (length cfs) = cf.
  Proof. unfold get_config. cbn [st_configs]. rewrite app_nth2, Nat.sub_diag by lia. reflexivity. Qed.
  (** what a copy contains; the new variables are the last ones *)
  Theorem C69_copies : forall st st',
    (forall l h cf v, step st (SetConfig l h) = Ok st' -> config_of st h = Some cf -> logger_of st l = Some v ->
       exists v', logger_of st' l = Some v' /\ same_config (v_config v') cf /\ v_err v' = v_err v /\ v_fields v' = v_fields v) /\
    (forall h cf, step st (CfgClone h) = Ok st' -> config_of st h = Some cf ->
       exists cf', config_of st' (length (st_handles st)) = Some cf' /\ same_config cf' cf) /\
    (forall l v, step st (LgConfig l) = Ok st' -> logger_of st l = Some v ->
       exists cf', config_of st' (length (st_handles st)) = Some cf' /\ same_config cf' (v_config v)) /\
    (forall l v, step st (LgClone l) = Ok st' -> logger_of st l = Some v ->
       exists v', logger_of st' (length (st_loggers st)) = Some v' /\ same_config (v_config v') (v_config v) /\
         same_map (v_fields v') (v_fields v)).
  Proof.
    intros st st'. unfold config_of, logger_of. cbn [M_Logger.step]. unfold on_logger, on_handle. split; [|split; [|split]].
    - intros l h cf v H Hc Hl. destruct (nth_error (st_loggers st) l) as [g|] eqn:El; [|discriminate].
      destruct (nth_error (st_handles st) h) as [c|] eqn:Eh; [|discriminate]. cbn [option_map] in Hc, Hl.
      injection H as <-. injection Hc as <-. injection Hl as <-. cbn [with_logger st_loggers].
      rewrite nth_error_upd_nth, Nat.eqb_refl, El. cbn [option_map]. eexists. split; [reflexivity|]. cbn [v_config v_err v_fields lg_config lg_err lg_fields].
      split; [|split; reflexivity]. unfold with_logger. cbn [st_configs]. rewrite get_new. eapply same_config_trans; apply clone_same.
    - intros h cf H Hc. destruct (nth_error (st_handles st) h) as [c|]; [|discriminate]. cbn [option_map] in Hc.
      injection H as <-. injection Hc as <-. cbn [new_handle st_handles]. rewrite nth_error_app2, Nat.sub_diag by lia. cbn [nth_error option_map].
      eexists. split; [reflexivity|]. unfold new_handle. rewrite get_new. apply clone_same.
    - intros l v H Hl. destruct (nth_error (st_loggers st) l) as [g|]; [|discriminate]. cbn [option_map] in Hl.
      injection H as <-. injection Hl as <-. cbn [new_handle st_handles]. rewrite nth_error_app2, Nat.sub_diag by lia. cbn [nth_error option_map].
      eexists. split; [reflexivity|]. unfold new_handle. rewrite get_new. apply clone_same.
    - intros l v H Hl. destruct (nth_error (st_loggers st) l) as [g|]; [|discriminate]. cbn [option_map] in Hl.
      injection H as <-. injection Hl as <-. cbn [st_loggers]. rewrite nth_error_app2, Nat.sub_diag by lia. cbn [nth_error option_map].
      eexists. split; [reflexivity|]. cbn [v_config v_fields lg_config lg_fields]. rewrite get_new. split; [apply clone_same|].
      unfold get_map at 1. cbn [st_maps]. rewrite app_nth2, Nat.sub_diag by lia. apply copy_map_same.
  Qed.

  (** ** C66: the threshold *)
  (** exactly one Write, of [rec] as JSON and a line feed; if it cannot be marshalled, an
      empty Write and a line on standard error *)
  Definition writes (st st' : state V) (w : nat) (rec : fields V) : Prop :=
    (exists text, marshal rec = Some text /\ st_out st' = EWrite w (text ++ [ch 10]) :: st_out st) \/
    (marshal rec = None /\ st_out st' = EWrite w [] :: EStderr :: st_out st).
  (** what a record holds: the logger's fields, the level field and the error field *)
  Definition record_of (v : view V) (rec : fields V) : Prop :=
    exists lkey ekey lname,
      name_for (v_config v) (B"@level") lkey /\ name_for (v_config v) (B"error.message") ekey /\
      level_string (cf_level (v_config v)) = Ok lname /\
      forall k, aget k rec = if beq k ekey then Some (FStr (match v_err v with Some e => err_text e | None => [] end))
                             else if beq k lkey then Some (FStr lname) else aget k (v_fields v).
  Lemma current_key_name cf k : name_for cf k (current_key cf k).
  Proof. unfold name_for, current_key. destruct (aget k (cf_keys cf)); auto. Qed.
  Lemma name_for_unique cf k a b : name_for cf k a -> name_for cf k b -> a = b.
  Proof. intros [A|[A1 A2]] [C|[C1 C2]]; congruence. Qed.
  Lemma level_string_total l : exists s, level_string l = Ok s.
  Proof.
    destruct (Z_le_dec 0 l) as [H|H], (Z_le_dec l 6) as [H'|H'].
    - destruct (level_string_name l (conj H H')) as (s & E & _). eauto.
    - exists (B"unknown"). apply C65_string. lia.
    - exists (B"unknown"). apply C65_string. lia.
    - exists (B"unknown"). apply C65_string. lia.
  Qed.
  Lemma view_g st l v : wf st -> logger_of st l = Some v -> exists g, nth_error (st_loggers st) l = Some g /\
    v = View (get_config st (lg_config g)) (lg_err g) (get_map st (lg_fields g)) /\ (lg_fields g < length (st_maps st))%nat.
  Proof.
    intros W H. unfold logger_of in H. destruct (nth_error (st_loggers st) l) as [g|] eqn:E; [|discriminate].
    injection H as <-. exists g. split; [reflexivity|]. split; [reflexivity|]. apply (wf_l _ W l g E).
  Qed.
  Lemma get_with_map st m f : (m < length (st_maps st))%nat -> get_map (with_map st m f) m = f (get_map st m).
  Proof.
    intros H. unfold get_map. cbn [with_map st_maps]. rewrite nth_upd_nth, Nat.eqb_refl.
    apply Nat.ltb_lt in H. rewrite H. reflexivity.
  Qed.
  Lemma log_ok st g lvl w : wf st -> (lg_fields g < length (st_maps st))%nat ->
    let v := View (get_config st (lg_config g)) (lg_err g) (get_map st (lg_fields g)) in
    lvl <= cf_level (v_config v) -> cf_writer (v_config v) = Some w ->
    exists st' rec, do_log marshal st g lvl = Ok st' /\ writes st st' w rec /\ record_of v rec /\
      st_loggers st' = st_loggers st /\ get_config st' (lg_config g) = get_config st (lg_config g) /\ get_map st' (lg_fields g) = rec.
  Proof.
    intros W Bd v Hl Hw. unfold do_log. cbn [v v_config] in Hl, Hw.
    destruct (Z.ltb_spec (cf_level (get_config st (lg_config g))) lvl); [lia|].
    destruct (level_string_total (cf_level (get_config st (lg_config g)))) as (name & En). rewrite En, Hw. cbv zeta.
    match goal with |- context [with_map st (lg_fields g) ?f] => set (fn := f) end.
    assert (E1 : get_map (with_map st (lg_fields g) fn) (lg_fields g) = fn (get_map st (lg_fields g))) by (apply get_with_map; exact Bd).
    rewrite E1. set (rec := fn (get_map st (lg_fields g))) in *.
    destruct (json marshal rec) as [data es] eqn:J. eexists _, rec. split; [reflexivity|]. split; [|split; [|split; [|split]]].
    - unfold json in J. destruct (marshal rec) as [t|] eqn:M; injection J as <- <-; [left; exists t; auto|right; auto].
    - exists (current_key (get_config st (lg_config g)) level_field), (current_key (get_config st (lg_config g)) error_message_field), name.
      split; [apply current_key_name|]. split; [apply current_key_name|]. split; [exact En|].
      intros k. unfold rec, fn. cbn [v v_fields v_err]. rewrite !aget_aput. reflexivity.
    - reflexivity.
    - reflexivity.
    - exact E1.
  Qed.
  Lemma log_view st l g lvl w : wf st -> nth_error (st_loggers st) l = Some g ->
    forall v, logger_of st l = Some v -> lvl <= cf_level (v_config v) -> cf_writer (v_config v) = Some w ->
    exists st' rec, do_log marshal st g lvl = Ok st' /\ writes st st' w rec /\ record_of v rec /\
      logger_of st' l = Some (View (v_config v) (v_err v) rec).
  Proof.
    intros W El v Hv Hl Hw. destruct (view_g st l v W Hv) as (g' & El' & -> & Bd). rewrite El in El'. injection El' as <-.
    destruct (log_ok st g lvl w W Bd Hl Hw) as (st' & rec & H & Wr & Rc & L & C & M).
    exists st', rec. split; [exact H|]. split; [exact Wr|]. split; [exact Rc|].
    unfold logger_of. rewrite L, El. cbn [option_map v_config v_err]. rewrite C, M. reflexivity.
  Qed.
  Theorem C66_threshold : forall os st l v lvl,
    run init os = Ok st -> logger_of st l = Some v ->
    (cf_level (v_config v) < lvl ->
       step st (Log l lvl) = Ok st /\ forall msg, step st (Logf l lvl msg) = Ok st) /\
    (lvl <= cf_level (v_config v) -> forall w, cf_writer (v_config v) = Some w ->
       (exists st' rec, step st (Log l lvl) = Ok st' /\ writes st st' w rec /\ record_of v rec /\
          logger_of st' l = Some (View (v_config v) (v_err v) rec)) /\
       forall msg, exists st' rec, step st (Logf l lvl msg) = Ok st' /\ writes st st' w rec /\
          record_of (View (v_config v) (v_err v) (aput (B"message") (FStr msg) (v_fields v))) rec /\
          logger_of st' l = Some (View (v_config v) (v_err v) rec)).
  Proof.
    intros os st l v lvl R Hv. pose proof (reachable_wf st (ex_intro _ os R)) as W.
    destruct (view_g st l v W Hv) as (g & El & Ev & Bd). cbn [M_Logger.step]. unfold on_logger. rewrite El. split.
    - intros H. rewrite Ev in H. cbn [v_config] in H. unfold do_logf, do_log.
      destruct (Z.ltb_spec (cf_level (get_config st (lg_config g))) lvl); [|lia]. auto.
    - intros H w Hw. split; [eapply log_view; eassumption|]. intros msg. unfold do_logf.
      destruct (Z.ltb_spec (cf_level (get_config st (lg_config g))) lvl) as [X|_]; [rewrite Ev in H; cbn [v_config] in H; lia|].
      set (st1 := with_map st (lg_fields g) (aput message_field (FStr msg))).
      assert (Hv1 : logger_of st1 l = Some (View (v_config v) (v_err v) (aput (B"message") (FStr msg) (v_fields v)))).
      { unfold logger_of, st1. cbn [with_map st_loggers]. rewrite El. cbn [option_map]. fold st1. rewrite Ev. cbn [v_config v_err v_fields].
        f_equal. f_equal. apply get_with_map. exact Bd. }
      destruct (log_view st1 l g lvl w (wf_with_map _ _ _ W) El _ Hv1 H Hw) as (st' & rec & E & Wr & Rc & Lv).
      exists st', rec. auto.
  Qed.
  (** a nil writer makes an enabled call panic *)
  Theorem C66_nil_writer : forall os st l v lvl,
    run init os = Ok st -> logger_of st l = Some v -> cf_writer (v_config v) = None -> lvl <= cf_level (v_config v) ->
    step st (Log l lvl) = Panic.
  Proof.
    intros os st l v lvl R Hv Hw Hl. pose proof (reachable_wf st (ex_intro _ os R)) as W.
    destruct (view_g st l v W Hv) as (g & El & -> & Bd). cbn [v_config] in *. cbn [M_Logger.step]. unfold on_logger, do_log. rewrite El.
    destruct (Z.ltb_spec (cf_level (get_config st (lg_config g))) lvl); [lia|]. destruct (level_string _); [|reflexivity]. rewrite Hw. reflexivity.
  Qed.

  (** ** C67 *)
  (** Proved: the level field names the logger's configured level (unless the error key has
      the same name), so it is right for calls at that level.  Missing: calls at other levels. *)
  Theorem C67_level_field_partial : forall os st l v lvl w n,
    run init os = Ok st -> logger_of st l = Some v -> cf_writer (v_config v) = Some w ->
    lvl <= cf_level (v_config v) -> is_level_name (cf_level (v_config v)) n ->
    ~ (exists k, name_for (v_config v) (B"@level") k /\ name_for (v_config v) (B"error.message") k) ->
    exists st' rec, step st (Log l lvl) = Ok st' /\ writes st st' w rec /\
      forall key, name_for (v_config v) (B"@level") key -> aget key rec = Some (FStr n).
  Proof.
    intros os st l v lvl w n R Hv Hw Hl Hn Nk.
    destruct (proj2 (C66_threshold os st l v lvl R Hv) Hl w Hw) as [(st' & rec & E & Wr & (lk & ek & ln & N1 & N2 & En & Rc) & _) _].
    exists st', rec. split; [exact E|]. split; [exact Wr|]. intros key Hk. rewrite Rc.
    rewrite (proj1 (C65_string _) n Hn) in En. injection En as <-.
    rewrite (name_for_unique _ _ _ _ Hk N1) in *. rewrite beq_refl. destruct (beq_spec lk ek) as [->|_]; [|reflexivity].
    exfalso. apply Nk. exists ek. auto.
  Qed.

  (** ** C68 *)
  Definition renamed (v v' : view V) (k old value : bytes) (x : fval V) : Prop :=
    aget k (cf_keys (v_config v')) = Some value /\
    aget value (v_fields v') = Some x /\ aget old (v_fields v') = None /\
    forall k', k' <> old -> k' <> value -> aget k' (v_fields v') = aget k' (v_fields v).
  Lemma std_keys_view st l v k value old : wf st -> logger_of st l = Some v -> k <> [] -> value <> [] ->
    aget k (cf_keys (v_config v)) = Some old -> old <> [] ->
    exists st' v', step st (StdKeys l k value) = Ok st' /\ logger_of st' l = Some v' /\
      v_config v' = Config (cf_level (v_config v)) (cf_writer (v_config v)) (aput k value (cf_keys (v_config v))) /\
      v_err v' = v_err v /\
      v_fields v' = (match aget old (v_fields v) with
                     | Some x => if beq old k then v_fields v else adel old (aput value x (v_fields v))
                     | None => v_fields v end).
  Proof.
    intros W Hv Nk Nv Ho No. destruct (view_g st l v W Hv) as (g & El & -> & Bd). cbn [v_config v_err v_fields] in *.
    cbn [M_Logger.step]. unfold on_logger. rewrite El. destruct (wf_l _ W l g El) as [Bc _].
    set (st' := do_std_keys st g k value). exists st'.
    assert (E : st' = do_std_keys st g k value) by reflexivity. clearbody st'.
    unfold do_std_keys, config_std_keys in E. apply is_empty_false in Nk, Nv, No. rewrite Nk, Nv, Ho in E. cbn [orb] in E.
    rewrite No in E. 
    set (cf := Config (cf_level (get_config st (lg_config g))) (cf_writer (get_config st (lg_config g))) (aput k value (cf_keys (get_config st (lg_config g))))) in *.
    set (st1 := with_config st (lg_config g) (fun _ => cf)) in *.
    assert (C1 : get_config st1 (lg_config g) = cf).
    { unfold get_config, st1. cbn [with_config st_configs]. rewrite nth_upd_nth, Nat.eqb_refl.
      apply Nat.ltb_lt in Bc. rewrite Bc. reflexivity. }
    assert (E' : st' = match aget old (get_map st (lg_fields g)) with
                       | Some x => if negb (beq old k) then with_map st1 (lg_fields g) (fun m => adel old (aput value x m)) else st1
                       | None => st1 end) by exact E.
    clear E. rename E' into E.
    exists (View (get_config st' (lg_config g)) (lg_err g) (get_map st' (lg_fields g))). split; [reflexivity|].
    assert (Ls : st_loggers st' = st_loggers st) by (rewrite E; destruct (aget old _); [destruct (negb _)|]; reflexivity).
    split; [unfold logger_of; rewrite Ls, El; reflexivity|]. cbn [v_config v_err v_fields].
    split; [|split; [reflexivity|]].
    - transitivity (get_config st1 (lg_config g)); [|exact C1]. clear - E. rewrite E. destruct (aget old (get_map st (lg_fields g))); [destruct (negb (beq old k))|]; reflexivity.
    - rewrite E. destruct (aget old (get_map st (lg_fields g))) as [x|]; [|reflexivity].
      destruct (beq old k); cbn [negb]; [reflexivity|]. apply (get_with_map st1). exact Bd.
  Qed.
  (** Proved: from the second renaming on (the current name differs from the standard key)
      and to a new name, the field moves.  Missing: the first renaming leaves an existing
      field under its old name, and renaming to the current name deletes the field. *)
  Theorem C68_rename_partial : forall os st l v k value old x,
    run init os = Ok st -> logger_of st l = Some v -> k <> [] -> value <> [] ->
    aget k (cf_keys (v_config v)) = Some old -> old <> [] -> aget old (v_fields v) = Some x ->
    old <> k -> old <> value ->
    exists st' v', step st (StdKeys l k value) = Ok st' /\ logger_of st' l = Some v' /\ renamed v v' k old value x.
  Proof.
    intros os st l v k value old x R Hv Nk Nv Ho No Hx N1 N2. pose proof (reachable_wf st (ex_intro _ os R)) as W.
    destruct (std_keys_view st l v k value old W Hv Nk Nv Ho No) as (st' & v' & E & Lv & C & _ & F).
    exists st', v'. split; [exact E|]. split; [exact Lv|]. rewrite Hx, (proj2 (beq_neq _ _) N1) in F. unfold renamed.
    rewrite C, F. cbn [cf_keys]. split; [apply aget_aput_same|]. rewrite !aget_adel, beq_refl.
    rewrite (proj2 (beq_neq value old)) by congruence. split; [apply aget_aput_same|]. split; [reflexivity|].
    intros k' K1 K2. rewrite aget_adel, (proj2 (beq_neq _ _) K1). apply aget_aput_other. exact K2.
  Qed.
  Theorem C68_first_and_same : forall os st l v k value old x,
    run init os = Ok st -> logger_of st l = Some v -> k <> [] -> value <> [] ->
    aget k (cf_keys (v_config v)) = Some old -> old <> [] -> aget old (v_fields v) = Some x ->
    exists st' v', step st (StdKeys l k value) = Ok st' /\ logger_of st' l = Some v' /\
      (old = k -> v_fields v' = v_fields v) /\
      (old <> k -> old = value -> aget value (v_fields v') = None).
  Proof.
    intros os st l v k value old x R Hv Nk Nv Ho No Hx. pose proof (reachable_wf st (ex_intro _ os R)) as W.
    destruct (std_keys_view st l v k value old W Hv Nk Nv Ho No) as (st' & v' & E & Lv & C & _ & F).
    exists st', v'. split; [exact E|]. split; [exact Lv|]. rewrite Hx in F. split.
    - intros ->. rewrite beq_refl in F. exact F.
    - intros N1 <-. rewrite (proj2 (beq_neq _ _) N1) in F. rewrite F, aget_adel, beq_refl. reflexivity.
  Qed.

  (** ** C70 *)
  Lemma error_view st l v e : wf st -> logger_of st l = Some v ->
    exists st', step st (Error l e) = Ok st' /\
      logger_of st' l = Some (View (v_config v) (match e with None => v_err v | Some e => 
         match v_err v with None => Some e | Some e0 => Some (EWrap e0 (err_text e)) end end) (v_fields v)).
  Proof.
    intros W Hv. destruct (view_g st l v W Hv) as (g & El & -> & Bd). cbn [v_config v_err v_fields M_Logger.step]. unfold on_logger. rewrite El.
    destruct e as [e|]; eexists; (split; [reflexivity|]); [|exact Hv].
    unfold logger_of. cbn [with_logger st_loggers]. rewrite nth_error_upd_nth, Nat.eqb_refl, El. cbn [option_map lg_config lg_err lg_fields].
    destruct (lg_err g); reflexivity.
  Qed.
  Lemma texts_app a b : texts (a ++ b) = texts a ++ texts b.
  Proof. induction a as [|[e|] a IH]; cbn [app texts]; [reflexivity|rewrite IH; reflexivity|exact IH]. Qed.
  Definition text_of (e : option err) : bytes := match e with Some e => err_text e | None => [] end.
  Definition opt_list (e : option err) : list bytes := match e with Some e => [err_text e] | None => [] end.
  Lemma joined_cons s x l : l <> [] -> joined s (x :: l) = x ++ s ++ joined s l.
  Proof. destruct l; [congruence|reflexivity]. Qed.
  Lemma errors_run l : forall es st v, wf st -> logger_of st l = Some v ->
    exists st' e', run st (map (Error l) es) = Ok st' /\ wf st' /\ logger_of st' l = Some (View (v_config v) e' (v_fields v)) /\
      st_out st' = st_out st /\
      (texts es = [] -> e' = v_err v) /\ (v_err v = None -> text_of e' = joined (B": ") (rev (texts es))).
  Proof.
    intros es. induction es as [|e es IH] using rev_ind; intros st v W Hv.
    - exists st, (v_err v). cbn. split; [reflexivity|]. split; [exact W|]. destruct v; split; [exact Hv|].
      split; [reflexivity|]. split; [reflexivity|]. cbn. intros ->. reflexivity.
    - destruct (IH st v W Hv) as (st1 & e1 & R1 & W1 & L1 & O1 & T1 & J1).
      destruct (error_view st1 l _ e W1 L1) as (st2 & S2 & L2). cbn [v_config v_err v_fields] in L2.
      exists st2. eexists. rewrite map_app. split.
      { clear - R1 S2. revert st R1. induction (map (Error l) es) as [|o os IHo]; intros st R1; cbn [M_Logger.run app] in *.
        - injection R1 as ->. cbn [map]. cbn [M_Logger.run]. rewrite S2. reflexivity.
        - destruct (step st o); [|discriminate]. apply IHo. exact R1. }
      split; [eapply wf_step; eassumption|]. split; [exact L2|]. split.
      { rewrite <- O1. clear - S2. cbn [M_Logger.step] in S2. unfold on_logger in S2. destruct (nth_error _ l); [|discriminate].
        destruct e; injection S2 as <-; reflexivity. }
      rewrite texts_app. split.
      + intros X. apply app_eq_nil in X as [X Y]. destruct e as [e|]; [discriminate|]. exact (T1 X).
      + intros Hn. specialize (J1 Hn). destruct e as [e|]; cbn [texts]; [|rewrite app_nil_r; exact J1].
        rewrite rev_app_distr. cbn [rev app]. destruct (rev (texts es)) as [|t ts] eqn:Er.
        * assert (texts es = []) as Z by (rewrite <- (rev_involutive (texts es)), Er; reflexivity). rewrite (T1 Z), Hn. reflexivity.
        * rewrite joined_cons by discriminate. rewrite <- J1. destruct e1 as [e1|]; [reflexivity|].
          exfalso. cbn [text_of] in J1. clear - Er J1 T1 Hn R1 L1. 
          (* some error was logged, so there is one *)
          assert (K : forall es st st1, run st (map (Error l) es) = Ok st1 -> forall g1, nth_error (st_loggers st1) l = Some g1 -> lg_err g1 = None -> texts es = []).
          { clear. induction es as [|e es IH]; intros st st1 R g1 H1 N; [reflexivity|]. cbn [map M_Logger.run M_Logger.step] in R.
            unfold on_logger in R. destruct (nth_error (st_loggers st) l) as [g|] eqn:El; [|discriminate].
            destruct e as [e|]; [|cbn [texts]; eapply IH; eassumption]. exfalso.
            set (st0 := with_logger st l _) in R.
            assert (G : exists g0 e0, nth_error (st_loggers st0) l = Some g0 /\ lg_err g0 = Some e0).
            { unfold st0. cbn [with_logger st_loggers]. rewrite nth_error_upd_nth, Nat.eqb_refl, El. cbn [option_map].
              destruct (lg_err g) eqn:X; eexists _, _; (split; [reflexivity|reflexivity]). }
            clearbody st0. clear El IH. revert st0 R G. induction es as [|e1 es IH]; intros st0 R (g0 & e0 & G1 & G2); cbn [map M_Logger.run M_Logger.step] in R.
            - injection R as ->. congruence.
            - unfold on_logger in R. rewrite G1 in R. destruct e1 as [e1|]; [|apply (IH _ R); eauto].
              apply (IH _ R). cbn [with_logger st_loggers]. rewrite nth_error_upd_nth, Nat.eqb_refl, G1. cbn [option_map].
              eexists _, _. split; [reflexivity|]. cbn [lg_err]. rewrite G2. reflexivity. }
          unfold logger_of in L1. destruct (nth_error (st_loggers st1) l) as [g1|] eqn:E1; [|discriminate].
          injection L1 as _ L1 _. rewrite (K _ _ _ R1 g1 E1 L1) in Er. discriminate.
  Qed.
  Theorem C70_errors_accumulate : forall os st l v es lvl w,
    run init os = Ok st -> logger_of st l = Some v -> v_err v = None ->
    cf_writer (v_config v) = Some w -> lvl <= cf_level (v_config v) ->
    exists st1 st2 rec, run st (map (Error l) es) = Ok st1 /\ step st1 (Log l lvl) = Ok st2 /\ writes st st2 w rec /\
      forall key, name_for (v_config v) (B"error.message") key ->
        aget key rec = Some (FStr (joined (B": ") (rev (texts es)))).
  Proof.
    intros os st l v es lvl w R Hv Hn Hw Hl. pose proof (reachable_wf st (ex_intro _ os R)) as W.
    destruct (errors_run l es st v W Hv) as (st1 & e1 & R1 & W1 & L1 & O1 & _ & J).
    destruct (view_g st1 l _ W1 L1) as (g & El & _ & _).
    destruct (log_view st1 l g lvl w W1 El _ L1 Hl Hw) as (st2 & rec & E2 & Wr & (lk & ek & ln & N1 & N2 & En & Rc) & _).
    exists st1, st2, rec. split; [exact R1|]. split; [cbn [M_Logger.step]; unfold on_logger; rewrite El; exact E2|].
    split; [unfold writes in *; rewrite <- O1; exact Wr|]. intros key Hk. cbn [v_config v_err] in *.
    rewrite Rc, (name_for_unique _ _ _ _ Hk N2), beq_refl. rewrite <- (J Hn). reflexivity.
  Qed.

  (** ** C85: the message *)
  (** Proved: the message is under "message" (unless the level or the error text is put
      there too), whatever keys were set.  Missing: MessageKey has no effect on it. *)
  Theorem C85_message_partial : forall os st l v lvl w msg,
    run init os = Ok st -> logger_of st l = Some v -> cf_writer (v_config v) = Some w -> lvl <= cf_level (v_config v) ->
    ~ name_for (v_config v) (B"@level") (B"message") -> ~ name_for (v_config v) (B"error.message") (B"message") ->
    exists st' rec, step st (Logf l lvl msg) = Ok st' /\ writes st st' w rec /\ aget (B"message") rec = Some (FStr msg).
  Proof.
    intros os st l v lvl w msg R Hv Hw Hl N1 N2.
    destruct (proj2 (proj2 (C66_threshold os st l v lvl R Hv) Hl w Hw) msg) as (st' & rec & E & Wr & (lk & ek & ln & K1 & K2 & En & Rc) & _).
    exists st', rec. split; [exact E|]. split; [exact Wr|]. cbn [v_config v_fields] in *. rewrite Rc.
    destruct (beq_spec (B"message") ek) as [X|_]; [subst ek; contradiction|].
    destruct (beq_spec (B"message") lk) as [X|_]; [subst lk; contradiction|]. apply aget_aput_same.
  Qed.
End Loggers.

(** ** Refutations *)
Definition C67_claim : Prop := forall (V : Type) order (marshal : fields V -> option bytes) os st l v lvl w n st',
  run order marshal init os = Ok st -> logger_of st l = Some v -> cf_writer (v_config v) = Some w ->
  lvl <= cf_level (v_config v) -> is_level_name lvl n -> step order marshal st (Log l lvl) = Ok st' ->
  exists rec, writes marshal st st' w rec /\
    forall key, name_for (v_config v) (B"@level") key -> aget key rec = Some (FStr n).
(** a debug logger; the text written is the level field *)
Definition x_marshal (f : fields unit) : option bytes :=
  match aget (B"@level") f with Some (FStr s) => Some s | _ => None end.
Theorem C67_level_field_refuted : ~ C67_claim.
Proof.
  intros H.
  edestruct (H unit (fun _ m => m) x_marshal [New (B"now")]) with (l := 0%nat) (lvl := 4) as (rec & Wr & K).
  - reflexivity.
  - reflexivity.
  - reflexivity.
  - cbn. lia.
  - cbn. auto 10.
  - vm_compute. reflexivity.
  - specialize (K (B"@level") (or_introl eq_refl)). unfold writes, x_marshal in Wr. rewrite K in Wr.
    destruct Wr as [(t & E & Wr)|[E _]]; [|discriminate]. injection E as <-. cbn in Wr. discriminate.
Qed.
Definition C68_claim : Prop := forall (V : Type) order (marshal : fields V -> option bytes) os st l v k value old x st',
  run order marshal init os = Ok st -> logger_of st l = Some v -> k <> [] -> value <> [] ->
  aget k (cf_keys (v_config v)) = Some old -> aget old (v_fields v) = Some x ->
  step order marshal st (StdKeys l k value) = Ok st' ->
  exists v', logger_of st' l = Some v' /\ aget value (v_fields v') = Some x.
Theorem C68_rename_refuted : ~ C68_claim.
Proof.
  intros H.
  edestruct (H unit (fun _ m => m) x_marshal [New (B"now")]) with (l := 0%nat) (k := B"@timestamp") (value := B"time") as (v' & E & K);
    try reflexivity; try discriminate.
  cbn in E. injection E as <-. vm_compute in K. discriminate.
Qed.
Definition C85_claim : Prop := forall (V : Type) order (marshal : fields V -> option bytes) os st l v key lvl msg st1 st2 w,
  run order marshal init os = Ok st -> logger_of st l = Some v -> cf_writer (v_config v) = Some w ->
  lvl <= cf_level (v_config v) -> key <> [] ->
  step order marshal st (MessageKey l key) = Ok st1 -> step order marshal st1 (Logf l lvl msg) = Ok st2 ->
  exists rec, writes marshal st1 st2 w rec /\ aget key rec = Some (FStr msg).
Definition x_marshal2 (f : fields unit) : option bytes :=
  match aget (B"msg") f with Some (FStr s) => Some s | _ => None end.
Theorem C85_message_refuted : ~ C85_claim.
Proof.
  intros H.
  edestruct (H unit (fun _ m => m) x_marshal2 [New (B"now")]) with (l := 0%nat) (key := B"msg") (lvl := 4) (msg := B"hello") as (rec & Wr & K);
    try reflexivity; try discriminate.
  unfold writes, x_marshal2 in Wr. rewrite K in Wr.
  destruct Wr as [(t & E & Wr)|[E _]]; [|discriminate]. injection E as <-. vm_compute in Wr. discriminate.
Qed.

(** ** Concrete cases *)
Definition x_ops : list (op unit) :=
  [NewConfig; CfgLevel 0 4; CfgWriter 0 (Some 7%nat); New (B"now"); SetConfig 0 0; CfgLevel 0 0; LevelKey 0 (B"lvl");
   Add 0 (B"user") (FStr (B"bob")); LgClone 0; Add 1 (B"user") (FStr (B"eve")); LevelKey 0 (B"severity")].
Definition x_all (f : fields unit) : option bytes :=
  Some (concat (map (fun kv => match snd kv with FStr s => fst kv ++ B"=" ++ s ++ B" " | _ => [] end) f)).
Example C66_case : exists st st' , run (fun _ m => m) x_all init x_ops = Ok st /\
  logger_of st 0 = Some (View (Config 4 (Some 7%nat) [(B"@level", B"severity"); (B"message", B"message"); (B"error.message", B"error.message"); (B"@timestamp", B"@timestamp")])
                              None [(B"user", FStr (B"bob")); (B"@timestamp", FStr (B"now"))]) /\
  step (fun _ m => m) x_all st (Logf 0 4 (B"hi")) = Ok st' /\
  st_out st' = [EWrite 7 (B"error.message= severity=info message=hi user=bob @timestamp=now " ++ [ch 10])].
Proof. eexists _, _. split; [vm_compute; reflexivity|]. split; [vm_compute; reflexivity|]. split; vm_compute; reflexivity. Qed.
Example C70_case : exists st, run (fun _ m => m) x_all init
   (x_ops ++ [Error 0 (Some (EUser 1 (B"a"))); Error 0 None; Error 0 (Some (EUser 2 (B"b"))); Log 0 2]) = Ok st /\
  st_out st = [EWrite 7 (B"error.message=b: a severity=info user=bob @timestamp=now " ++ [ch 10])].
Proof. eexists. split; vm_compute; reflexivity. Qed.
(** a field recorded under a name that is not the standard key is moved *)
Example C68_case : exists st st' v', run (fun _ m => m) x_all init
    [New (B"now"); LevelKey 0 (B"lvl"); Log 0 4] = Ok st /\
  step (fun _ m => m) x_all st (StdKeys 0 (B"@level") (B"severity")) = Ok st' /\ logger_of st' 0 = Some v' /\
  aget (B"severity") (v_fields v') = Some (FStr (B"debug")) /\ aget (B"lvl") (v_fields v') = None.
Proof. eexists _, _, _. split; [vm_compute; reflexivity|]. split; [vm_compute; reflexivity|]. split; [vm_compute; reflexivity|]. split; reflexivity. Qed.

Print Assumptions C65_string.
Print Assumptions C65_parse.
Print Assumptions C65_round_trip.
Print Assumptions C66_threshold.
Print Assumptions C66_nil_writer.
Print Assumptions C67_level_field_refuted.
Print Assumptions C67_level_field_partial.
Print Assumptions C68_rename_refuted.
Print Assumptions C68_rename_partial.
Print Assumptions C68_first_and_same.
Print Assumptions C69_config_isolated.
Print Assumptions C69_logger_isolated.
Print Assumptions C69_copies.
Print Assumptions C70_errors_accumulate.
Print Assumptions C85_message_refuted.
Print Assumptions C85_message_partial.
