(** C101: the accesses listed in M_Share against the sequential model of loggers: whatever
    part of a logger a call changes, one of the listed runs of that method writes it. *)
From Verif Require Import Base GoErrors M_Share P_Slices M_Logger S_Logger Props_Logger.
Local Open Scope Z_scope.

(** the method an operation of M_Logger calls, and on which logger *)
Definition method_of {V} (o : op V) : option (nat * lmethod) :=
  match o with
  | SetConfig l _ => Some (l, LSetConfig)
  | LgConfig l => Some (l, LConfig)
  | LgClone l => Some (l, LClone)
  | Add l _ _ => Some (l, LAdd)
  | AddDebug l _ _ => Some (l, LAddDebug)
  | Merge l _ => Some (l, LMerge)
  | Writer l _ => Some (l, LWriter)
  | SetLevel l _ => Some (l, LSetLevel)
  | StdKeys l _ _ | LevelKey l _ | ErrorMessageKey l _ | MessageKey l _ => Some (l, LStdKeys)
  | Error l _ => Some (l, LError)
  | Log l _ => Some (l, LLog)
  | Logf l _ _ => Some (l, LLogf)
  | _ => None
  end.
Definition writes_part (m : lmethod) (g : loc) : Prop := exists t, In t (logger_traces m) /\ In (Wr g) t.

Section Effects.
  Context {V : Type}.
  Variable order : forall A, list (bytes * A) -> list (bytes * A).
  Variable marshal : fields V -> option bytes.
  Hypothesis order_ok : forall A (m : list (bytes * A)), Permutation (order A m) m.
  Notation step := (step order marshal).
  Notation run := (run order marshal).
  Implicit Types st : state V.

  (** which parts of logger [l] (with the objects it had before) differ *)
  Definition part_changed st st' (lg lg' : lgr) (g : loc) : Prop :=
    let cf := get_config st (lg_config lg) in
    let cf' := get_config st' (lg_config lg) in
    match g with
    | GConfig => lg_config lg' <> lg_config lg
    | GErr => lg_err lg' <> lg_err lg
    | GFields => lg_fields lg' <> lg_fields lg
    | GMap => get_map st' (lg_fields lg) <> get_map st (lg_fields lg)
    | CLevel => cf_level cf' <> cf_level cf
    | CWriter => cf_writer cf' <> cf_writer cf
    | CKeys => cf_keys cf' <> cf_keys cf
    | _ => False
    end.

  Notation none := (fun _ : nat => False).
  (** from a frame: nothing changed, or only the map, or only the configuration *)
  Lemma unchanged st st' l lg lg' g : wf st -> nth_error (st_loggers st) l = Some lg -> nth_error (st_loggers st') l = Some lg' ->
    frame st st' none none none -> ~ part_changed st st' lg lg' g.
  Proof.
    intros W L L' (F1 & F2 & _ & F4). destruct (wf_l _ W l lg L) as [B1 B2].
    rewrite (F4 l lg (fun x => x) L) in L'. injection L' as <-. unfold part_changed.
    rewrite (F1 _ B1 (fun x => x)), (F2 _ B2 (fun x => x)). destruct g; tauto.
  Qed.
  Lemma only_map st st' l lg lg' g : wf st -> nth_error (st_loggers st) l = Some lg -> nth_error (st_loggers st') l = Some lg' ->
    frame st st' none (fun m => m = lg_fields lg) none -> part_changed st st' lg lg' g -> g = GMap.
  Proof.
    intros W L L' (F1 & _ & _ & F4). destruct (wf_l _ W l lg L) as [B1 B2].
    rewrite (F4 l lg (fun x => x) L) in L'. injection L' as <-. unfold part_changed.
    rewrite (F1 _ B1 (fun x => x)). destruct g; tauto.
  Qed.
  Lemma std_keys_parts st l lg lg' k v g : wf st -> nth_error (st_loggers st) l = Some lg ->
    nth_error (st_loggers (do_std_keys st lg k v)) l = Some lg' ->
    part_changed st (do_std_keys st lg k v) lg lg' g -> g = CKeys \/ g = GMap.
  Proof.
    intros W L L' C. pose proof (wf_l _ W l lg L) as [B1 B2].
    assert (Ls : st_loggers (do_std_keys st lg k v) = st_loggers st).
    { unfold do_std_keys. destruct (config_std_keys _ k v) as [cf old].
      destruct (is_empty old); [reflexivity|]. destruct (aget old _); [|reflexivity]. destruct (negb (beq old k)); reflexivity. }
    assert (Cs : get_config (do_std_keys st lg k v) (lg_config lg) = fst (config_std_keys (get_config st (lg_config lg)) k v)).
    { unfold do_std_keys. destruct (config_std_keys _ k v) as [cf old] eqn:E. cbn [fst].
      assert (G : get_config (with_config st (lg_config lg) (fun _ => cf)) (lg_config lg) = cf).
      { unfold get_config. cbn [with_config st_configs]. rewrite nth_upd_nth, Nat.eqb_refl. rewrite (proj2 (Nat.ltb_lt _ _) B1). reflexivity. }
      destruct (is_empty old); [exact G|]. destruct (aget old _); [|exact G]. destruct (negb (beq old k)); exact G. }
    rewrite Ls, L in L'. injection L' as <-. unfold part_changed in C. rewrite Cs in C.
    assert (Lv : cf_level (fst (config_std_keys (get_config st (lg_config lg)) k v)) = cf_level (get_config st (lg_config lg)) /\
                 cf_writer (fst (config_std_keys (get_config st (lg_config lg)) k v)) = cf_writer (get_config st (lg_config lg))).
    { unfold config_std_keys. destruct (is_empty k || is_empty v); [tauto|]. destruct (aget k _); tauto. }
    destruct Lv as [E1 E2]. rewrite E1, E2 in C. destruct g; tauto.
  Qed.
  Lemma in_logger_step st o st' l m lg lg' g : wf st -> step st o = Ok st' -> method_of o = Some (l, m) ->
    nth_error (st_loggers st) l = Some lg -> nth_error (st_loggers st') l = Some lg' ->
    part_changed st st' lg lg' g -> writes_part m g.
  Proof.
    intros W H M L L' C. pose proof (wf_l _ W l lg L) as [B1 B2].
    assert (Alloc : forall cfs ms hs ls, st' = State (st_configs st ++ cfs) (st_maps st ++ ms) (st_handles st ++ hs) (st_loggers st ++ ls) (st_out st) -> False).
    { intros cfs ms hs ls ->. revert C. eapply unchanged; try eassumption. apply frame_alloc. }
    assert (Same : st' <> st).
    { intros ->. revert C. eapply unchanged; try eassumption. apply frame_refl. }
    assert (Cfg : forall f, st' = with_config st (lg_config lg) f ->
              (g = CLevel /\ cf_level (f (get_config st (lg_config lg))) <> cf_level (get_config st (lg_config lg))) \/
              (g = CWriter /\ cf_writer (f (get_config st (lg_config lg))) <> cf_writer (get_config st (lg_config lg))) \/
              (g = CKeys /\ cf_keys (f (get_config st (lg_config lg))) <> cf_keys (get_config st (lg_config lg)))).
    { intros f ->. cbn [with_config st_loggers] in L'. rewrite L in L'. injection L' as <-. unfold part_changed in C.
      assert (E : get_config (with_config st (lg_config lg) f) (lg_config lg) = f (get_config st (lg_config lg))).
      { unfold get_config. cbn [with_config st_configs]. rewrite nth_upd_nth, Nat.eqb_refl. rewrite (proj2 (Nat.ltb_lt _ _) B1). reflexivity. }
      rewrite E in C. cbn [with_config st_maps get_map] in C. destruct g; try tauto. }
    assert (Std : writes_part LStdKeys CKeys /\ writes_part LStdKeys GMap).
    { split; exists (last (logger_traces LStdKeys) []); vm_compute; tauto. }
    destruct o; cbn [method_of] in M; try discriminate; injection M as <- <-;
      cbn [M_Logger.step] in H; unfold M_Logger.on_logger in H; rewrite L in H.
    - (* SetConfig *)
      unfold on_handle in H. destruct (nth_error (st_handles st) h) as [c|]; [|discriminate]. injection H as <-.
      cbn [with_logger st_loggers] in L'. rewrite nth_error_upd_nth, Nat.eqb_refl, L in L'. cbn [option_map] in L'. injection L' as <-.
      unfold part_changed in C. unfold get_config, get_map in C. cbn [with_logger st_configs st_maps] in C.
      rewrite app_nth1 in C by assumption. destruct g; cbn [lg_config lg_err lg_fields] in C; try tauto.
      eexists. split; [left; reflexivity|cbn; tauto].
    - (* Config *) injection H as <-. destruct (Alloc [config_clone order (get_config st (lg_config lg))] [] [length (st_configs st)] []). unfold new_handle. rewrite !app_nil_r. reflexivity.
    - (* Clone *) injection H as <-. exfalso. eapply (Alloc [_] [_] [] [_]). rewrite !app_nil_r. reflexivity.
    - (* Add *) injection H as <-. assert (g = GMap) as ->.
      { eapply only_map; [exact W|exact L|exact L'| |exact C]. apply frame_map. reflexivity. }
      eexists. split; [left; reflexivity|cbn; tauto].
    - (* AddDebug *) destruct (5 <=? _); injection H as <-; [|congruence]. assert (g = GMap) as ->.
      { eapply only_map; [exact W|exact L|exact L'| |exact C]. apply frame_map. reflexivity. }
      eexists. split; [right; left; reflexivity|cbn; tauto].
    - (* Merge *) injection H as <-. assert (g = GMap) as ->.
      { eapply only_map; [exact W|exact L|exact L'| |exact C]. apply frame_map. reflexivity. }
      eexists. split; [right; left; reflexivity|cbn; tauto].
    - (* Writer *) injection H as <-. destruct (Cfg _ eq_refl) as [[-> N]|[[-> N]|[-> N]]]; cbn [cfg_set_writer cf_level cf_writer cf_keys] in N; try tauto.
      eexists. split; [left; reflexivity|cbn; tauto].
    - (* SetLevel *) injection H as <-. destruct (Cfg _ eq_refl) as [[-> N]|[[-> N]|[-> N]]]; cbn [cfg_set_level cf_level cf_writer cf_keys] in N; try tauto.
      eexists. split; [left; reflexivity|cbn; tauto].
    - injection H as <-. destruct (std_keys_parts _ _ _ _ _ _ _ W L L' C) as [->| ->]; apply Std.
    - injection H as <-. destruct (std_keys_parts _ _ _ _ _ _ _ W L L' C) as [->| ->]; apply Std.
    - injection H as <-. destruct (std_keys_parts _ _ _ _ _ _ _ W L L' C) as [->| ->]; apply Std.
    - injection H as <-. destruct (std_keys_parts _ _ _ _ _ _ _ W L L' C) as [->| ->]; apply Std.
    - (* Error *) destruct e as [e|]; injection H as <-; [|congruence].
      cbn [with_logger st_loggers] in L'. rewrite nth_error_upd_nth, Nat.eqb_refl, L in L'. cbn [option_map] in L'. injection L' as <-.
      unfold part_changed, get_config, get_map in C. cbn [with_logger st_configs st_maps] in C.
      destruct g; cbn [lg_config lg_err lg_fields] in C; try tauto.
      eexists. split; [right; left; reflexivity|cbn; tauto].
    - (* Log *) assert (g = GMap) as ->.
      { eapply only_map; [exact W|exact L|exact L'| |exact C]. eapply frame_log; [|exact H]. reflexivity. }
      eexists. split; [right; left; reflexivity|cbn; tauto].
    - (* Logf *) assert (g = GMap) as ->.
      { eapply only_map; [exact W|exact L|exact L'| |exact C]. unfold do_logf in H.
        destruct (_ <? lvl); [injection H as <-; congruence|].
        eapply frame_trans; [| |eapply frame_map; reflexivity|eapply frame_log; [|exact H]]; [reflexivity|apply upd_nth_length|reflexivity]. }
      eexists. split; [right; left; reflexivity|cbn; tauto].
  Qed.
  Theorem C101_effects_are_listed : forall os st o st' l m lg lg' g,
    run init os = Ok st -> step st o = Ok st' -> method_of o = Some (l, m) ->
    nth_error (st_loggers st) l = Some lg -> nth_error (st_loggers st') l = Some lg' ->
    part_changed st st' lg lg' g -> writes_part m g.
  Proof.
    intros os st o st' l m lg lg' g R. apply in_logger_step.
    eapply reachable_wf. exists os. exact R.
  Qed.
End Effects.
Print Assumptions C101_effects_are_listed.
