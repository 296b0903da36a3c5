(** More on loggers: C66 (the named methods), C68 (unknown keys), C85 (what MessageKey does),
    C91 (fields). *)
From Verif Require Import Base GoStrings GoErrors GoSlices P_Slices M_Logger S_Logger Props_Logger.
From Coq Require Import Permutation.
Local Open Scope Z_scope.

(** ** Specification *)
(** the logging methods and the level each is named after *)
Definition named_methods {V} : list (bytes * (nat -> bytes -> op V)) :=
  [(B"panic", panicf); (B"fatal", fatalf); (B"error", errorf); (B"warning", warnf); (B"info", infof);
   (B"info", printf); (B"debug", debugf); (B"trace", tracef)].
(** the fields one call assigns on a logger at the given level, in order *)
Definition assigns {V} (level : Z) (o : op V) : list (bytes * fval V) :=
  match o with
  | Add _ k x => [(k, x)]
  | AddDebug _ k x => if 5 <=? level then [(k, x)] else []
  | Merge _ m => m
  | _ => []
  end.
Definition field_op {V} (l : nat) (o : op V) : Prop :=
  match o with Add l' _ _ | AddDebug l' _ _ | Merge l' _ => l' = l | _ => False end.
(** the last assignment to a key *)
Fixpoint last_of {A} (k : bytes) (l : list (bytes * A)) : option A :=
  match l with
  | [] => None
  | (k', x) :: l' => match last_of k l' with Some y => Some y | None => if beq k k' then Some x else None end
  end.

Section Loggers.
  Context {V : Type}.
  Variable order : forall A, list (bytes * A) -> list (bytes * A).
  Variable marshal : fields V -> option bytes.
  Notation step := (step order marshal).
  Notation run := (run order marshal).
  Notation writes := (writes marshal).
  Implicit Types st : state V.
  Notation wf_of R := (reachable_wf order marshal _ (ex_intro _ _ R)).

  (** ** C66: each method logs at the level of its name *)
  Theorem C66_named : forall os st l v name f lvl msg,
    run init os = Ok st -> logger_of st l = Some v -> In (name, f) named_methods -> is_level_name lvl name ->
    (cf_level (v_config v) < lvl -> step st (f l msg) = Ok st) /\
    (lvl <= cf_level (v_config v) -> forall w, cf_writer (v_config v) = Some w ->
       exists st' rec, step st (f l msg) = Ok st' /\ writes st st' w rec /\
         record_of (View (v_config v) (v_err v) (aput (B"message") (FStr msg) (v_fields v))) rec).
  Proof.
    intros os st l v name f lvl msg R Hv Hf Hn.
    assert (E : f l msg = Logf l lvl msg).
    { unfold is_level_name in Hn. cbn in Hf, Hn.
      repeat (destruct Hf as [Hf|Hf]; [injection Hf as <- <-;
        repeat (destruct Hn as [Hn|Hn]; [first [discriminate Hn|injection Hn as <-; reflexivity]|]); contradiction|]). contradiction. }
    rewrite E. destruct (C66_threshold order marshal os st l v lvl R Hv) as [T1 T2]. split.
    - intros H. apply (proj2 (T1 H)).
    - intros H w Hw. destruct (proj2 (T2 H w Hw) msg) as (st' & rec & E1 & E2 & E3 & _). eauto.
  Qed.

  (** ** C68: a key that is not a standard one, or an empty name, changes nothing at all *)
  Lemma upd_same {A} (d : A) n (l : list A) x : (n < length l)%nat -> x = nth n l d -> upd_nth n (fun _ => x) l = l.
  Proof.
    revert n; induction l as [|y l IH]; intros [|n] H E; cbn [upd_nth nth length] in *; try lia; [congruence|].
    f_equal. apply IH; [lia|exact E].
  Qed.
  Lemma upd_id {A} n (f : A -> A) (l : list A) : (forall x, nth_error l n = Some x -> f x = x) -> upd_nth n f l = l.
  Proof.
    revert n; induction l as [|y l IH]; intros [|n] H; cbn [upd_nth] in *; try reflexivity.
    - rewrite (H y eq_refl). reflexivity.
    - f_equal. apply IH. exact H.
  Qed.
  Theorem C68_unknown_key : forall os st k value, run init os = Ok st ->
    (forall l v, logger_of st l = Some v -> aget k (cf_keys (v_config v)) = None \/ k = [] \/ value = [] ->
       step st (StdKeys l k value) = Ok st) /\
    (forall h cf, config_of st h = Some cf -> aget k (cf_keys cf) = None \/ k = [] \/ value = [] ->
       step st (CfgStdKeys h k value) = Ok st).
  Proof.
    intros os st k value R. pose proof (wf_of R) as W.
    assert (N : forall cf, aget k (cf_keys cf) = None \/ k = [] \/ value = [] -> config_std_keys cf k value = (cf, [])).
    { intros cf [H|[H|H]]; unfold config_std_keys; rewrite H; [destruct (_ || _); reflexivity|reflexivity|].
      destruct (is_empty k); reflexivity. }
    split.
    - intros l v Hv H. destruct (view_g st l v W Hv) as (g & El & -> & Bd). cbn [v_config] in H.
      cbn [M_Logger.step]. unfold on_logger. rewrite El. unfold do_std_keys. rewrite (N _ H). cbv zeta. cbn [is_empty].
      f_equal. unfold with_config. destruct (wf_l _ W l g El) as [Bc _].
      rewrite (upd_same new_config _ _ (get_config st (lg_config g)) Bc eq_refl). destruct st; reflexivity.
    - intros h cf Hc H. unfold config_of in Hc. cbn [M_Logger.step]. unfold on_handle.
      destruct (nth_error (st_handles st) h) as [c|] eqn:Eh; [|discriminate]. injection Hc as <-.
      f_equal. unfold with_config. rewrite upd_id; [destruct st; reflexivity|]. intros x Hx.
      assert (get_config st c = x) as E by (unfold get_config; apply nth_error_nth; exact Hx).
      rewrite E in H. rewrite (N _ H). reflexivity.
  Qed.

  (** ** C85: what MessageKey does: it renames the field of the error text *)
  Theorem C85_message_key_names_error : forall os st l v key lvl w,
    run init os = Ok st -> logger_of st l = Some v -> cf_writer (v_config v) = Some w -> lvl <= cf_level (v_config v) ->
    key <> [] -> (exists old, aget (B"error.message") (cf_keys (v_config v)) = Some old /\ old <> []) ->
    exists st1 st2 rec, step st (MessageKey l key) = Ok st1 /\ step st1 (Log l lvl) = Ok st2 /\ writes st1 st2 w rec /\
      aget key rec = Some (FStr (match v_err v with Some e => err_text e | None => [] end)).
  Proof.
    intros os st l v key lvl w R Hv Hw Hl Nk (old & Ho & No). pose proof (wf_of R) as W.
    destruct (std_keys_view order marshal st l v (B"error.message") key old W Hv ltac:(discriminate) Nk Ho No)
      as (st1 & v1 & E1 & L1 & C1 & Er & _).
    assert (E1' : step st (MessageKey l key) = Ok st1) by exact E1.
    assert (R1 : run init (os ++ [MessageKey l key]) = Ok st1).
    { clear - R E1'. revert R. generalize (@init V). induction os as [|o os IH]; intros s R; cbn [app M_Logger.run] in *.
      - injection R as ->. rewrite E1'. reflexivity.
      - destruct (step s o); [|discriminate]. apply IH. exact R. }
    assert (Hl1 : lvl <= cf_level (v_config v1)) by (rewrite C1; exact Hl).
    assert (Hw1 : cf_writer (v_config v1) = Some w) by (rewrite C1; exact Hw).
    destruct (proj1 (proj2 (C66_threshold order marshal _ st1 l v1 lvl R1 L1) Hl1 w Hw1)) as (st2 & rec & E2 & Wr & (lk & ek & ln & N1 & N2 & En & Rc) & _).
    exists st1, st2, rec. split; [exact E1'|]. split; [exact E2|]. split; [exact Wr|].
    assert (ek = key) as ->.
    { rewrite C1 in N2. unfold name_for in N2. cbn [cf_keys] in N2.
      destruct N2 as [N2|[N2 _]]; rewrite aget_aput_same in N2; congruence. }
    rewrite Rc, beq_refl, Er. reflexivity.
  Qed.

  (** ** C91: fields *)
  Lemma fold_last (m : fields V) : forall f k,
    aget k (fold_left (fun f kv => aput (fst kv) (snd kv) f) m f) = match last_of k m with Some x => Some x | None => aget k f end.
  Proof.
    induction m as [|[k' x] m IH]; intros f k; cbn [fold_left last_of fst snd]; [reflexivity|].
    rewrite IH. destruct (last_of k m); [reflexivity|]. rewrite aget_aput. destruct (beq k k'); reflexivity.
  Qed.
  Lemma last_of_app {A} k (a b : list (bytes * A)) : last_of k (a ++ b) = match last_of k b with Some x => Some x | None => last_of k a end.
  Proof.
    induction a as [|[k' x] a IH]; cbn [app last_of]; [destruct (last_of k b); reflexivity|]. rewrite IH.
    destruct (last_of k b); reflexivity.
  Qed.
  Lemma field_step st l v o : wf st -> logger_of st l = Some v -> field_op l o ->
    exists st' f, step st o = Ok st' /\ wf st' /\ logger_of st' l = Some (View (v_config v) (v_err v) f) /\ st_out st' = st_out st /\
      forall k, aget k f = match last_of k (assigns (cf_level (v_config v)) o) with Some x => Some x | None => aget k (v_fields v) end.
  Proof.
    intros W Hv Fo. destruct (view_g st l v W Hv) as (g & El & -> & Bd). cbn [v_config v_err v_fields].
    assert (G : forall fn, logger_of (with_map st (lg_fields g) fn) l =
      Some (View (get_config st (lg_config g)) (lg_err g) (fn (get_map st (lg_fields g))))).
    { intros fn. unfold logger_of. cbn [with_map st_loggers]. rewrite El. cbn [option_map]. f_equal. f_equal. apply get_with_map. exact Bd. }
    destruct o; cbn [field_op] in Fo; try contradiction; subst; cbn [M_Logger.step assigns]; unfold on_logger; rewrite El.
    - eexists _, _. split; [reflexivity|]. split; [apply wf_with_map, W|]. split; [apply G|]. split; [reflexivity|].
      intros k. cbn [last_of]. rewrite aget_aput. destruct (beq k key); reflexivity.
    - destruct (5 <=? cf_level (get_config st (lg_config g))).
      + eexists _, _. split; [reflexivity|]. split; [apply wf_with_map, W|]. split; [apply G|]. split; [reflexivity|].
        intros k. cbn [last_of]. rewrite aget_aput. destruct (beq k key); reflexivity.
      + exists st, (get_map st (lg_fields g)). split; [reflexivity|]. split; [exact W|]. split; [exact Hv|]. split; [reflexivity|].
        intros k. reflexivity.
    - eexists _, _. split; [reflexivity|]. split; [apply wf_with_map, W|]. split; [apply G|]. split; [reflexivity|].
      intros k. apply fold_last.
  Qed.
  Lemma field_run l : forall fo st v, wf st -> logger_of st l = Some v -> Forall (field_op l) fo ->
    exists st' f, run st fo = Ok st' /\ wf st' /\ logger_of st' l = Some (View (v_config v) (v_err v) f) /\ st_out st' = st_out st /\
      forall k, aget k f = match last_of k (flat_map (assigns (cf_level (v_config v))) fo) with Some x => Some x | None => aget k (v_fields v) end.
  Proof.
    induction fo as [|o fo IH]; intros st v W Hv F.
    - exists st, (v_fields v). split; [reflexivity|]. split; [exact W|]. split; [destruct v; exact Hv|]. split; reflexivity.
    - destruct (field_step st l v o W Hv (Forall_inv F)) as (st1 & f1 & E1 & W1 & L1 & O1 & A1).
      destruct (IH st1 _ W1 L1 (Forall_inv_tail F)) as (st2 & f2 & E2 & W2 & L2 & O2 & A2). cbn [v_config v_err v_fields] in *.
      exists st2, f2. cbn [M_Logger.run]. rewrite E1. split; [exact E2|]. split; [exact W2|]. split; [exact L2|].
      split; [congruence|]. intros k. cbn [flat_map]. rewrite last_of_app, A2, A1. destruct (last_of k (flat_map _ fo)); reflexivity.
  Qed.
  (** the next record has each key's last value *)
  Theorem C91_fields : forall os st l v fo lvl w,
    run init os = Ok st -> logger_of st l = Some v -> Forall (field_op l) fo ->
    cf_writer (v_config v) = Some w -> lvl <= cf_level (v_config v) ->
    exists st1 st2 rec, run st fo = Ok st1 /\ st_out st1 = st_out st /\ step st1 (Log l lvl) = Ok st2 /\ writes st st2 w rec /\
      forall k, ~ name_for (v_config v) (B"@level") k -> ~ name_for (v_config v) (B"error.message") k ->
        aget k rec = match last_of k (flat_map (assigns (cf_level (v_config v))) fo) with
                     | Some x => Some x
                     | None => aget k (v_fields v)
                     end.
  Proof.
    intros os st l v fo lvl w R Hv F Hw Hl. pose proof (wf_of R) as W.
    destruct (field_run l fo st v W Hv F) as (st1 & f & R1 & W1 & L1 & O1 & A).
    destruct (view_g st1 l _ W1 L1) as (g & El & _ & _).
    destruct (log_view marshal st1 l g lvl w W1 El _ L1 Hl Hw) as (st2 & rec & E2 & Wr & (lk & ek & ln & N1 & N2 & En & Rc) & _).
    exists st1, st2, rec. split; [exact R1|]. split; [exact O1|]. split; [cbn [M_Logger.step]; unfold on_logger; rewrite El; exact E2|].
    split; [unfold Props_Logger.writes in *; rewrite <- O1; exact Wr|]. intros k K1 K2. cbn [v_config v_fields] in *.
    rewrite Rc. destruct (beq_spec k ek) as [->|_]; [contradiction|]. destruct (beq_spec k lk) as [->|_]; [contradiction|]. apply A.
  Qed.
End Loggers.

(** ** Concrete cases *)
Example C66_named_case : exists st st' , run (fun _ m => m) x_all init x_ops = Ok st /\
  is_level_name 0 (B"panic") /\ In (B"panic", panicf) (@named_methods unit) /\
  step (fun _ m => m) x_all st (panicf 0 (B"hi")) = Ok st' /\ st_out st' <> st_out st /\
  step (fun _ m => m) x_all st (debugf 0 (B"hi")) = Ok st.
Proof.
  eexists _, _. split; [vm_compute; reflexivity|]. split; [left; reflexivity|]. split; [left; reflexivity|].
  split; [vm_compute; reflexivity|]. split; [vm_compute; discriminate|vm_compute; reflexivity].
Qed.
Example C91_case : exists st1 st2, run (fun _ m => m) x_all init (x_ops ++
    [Add 0 (B"a") (FStr (B"1")); Merge 0 [(B"a", FStr (B"2")); (B"user", FStr (B"al"))]; AddDebug 0 (B"a") (FStr (B"3"))]) = Ok st1 /\
  step (fun _ m => m) x_all st1 (Log 0 4) = Ok st2 /\
  st_out st2 = [EWrite 7 (B"error.message= severity=info user=al a=2 @timestamp=now " ++ [ch 10])].
Proof. eexists _, _. split; [vm_compute; reflexivity|]. split; vm_compute; reflexivity. Qed.

Print Assumptions C66_named.
Print Assumptions C68_unknown_key.
Print Assumptions C85_message_key_names_error.
Print Assumptions C91_fields.
