(** C138: loggers behave as plain values. *)
From Verif Require Import Base GoStrings GoErrors GoSlices P_Slices M_Logger S_Logger S_LogValues Props_Logger.
From Coq Require Import Permutation.
Local Open Scope Z_scope.

Section LogValues.
  Context {V : Type}.
  Variable order : forall A, list (bytes * A) -> list (bytes * A).
  Variable marshal : fields V -> option bytes.
  Hypothesis order_ok : forall A (m : list (bytes * A)), Permutation (order A m) m.
  Notation step := (step order marshal).
  Notation run := (run order marshal).
  Implicit Types st : state V.

  Definition simc (cf : config) (c : cfgv) : Prop :=
    cf_level cf = c_level c /\ cf_writer cf = c_writer c /\
    (forall k, aget k (cf_keys cf) = if standard k then Some (c_name c k) else None) /\
    (forall k, standard k = true -> c_name c k <> []).
  Definition simf (m : fields V) (f : record_) : Prop := NoDup (map fst m) /\ forall k, aget k m = f k.
  Definition siml (v : view V) (l : lgrv V) : Prop :=
    simc (v_config v) (l_config l) /\
    match v_err v with None => l_errors l = [] | Some e => l_errors l <> [] /\ err_text e = joined (B": ") (l_errors l) end /\
    simf (v_fields v) (l_fields l).
  Definition sim st (s : vals V) : Prop :=
    length (st_handles st) = length (configs s) /\ length (st_loggers st) = length (loggers s) /\
    (forall h cf c, config_of st h = Some cf -> nth_error (configs s) h = Some c -> simc cf c) /\
    (forall i v l, logger_of st i = Some v -> nth_error (loggers s) i = Some l -> siml v l) /\
    exists recs, rev (st_out st) = flat_map (printed marshal) recs /\ Forall2 holds recs (output s).

  Lemma beq_refl_if {A} k (x y : A) : (if beq k k then x else y) = x.
  Proof. rewrite beq_refl. reflexivity. Qed.
  Lemma simc_fresh : simc new_config fresh_config.
  Proof.
    split; [reflexivity|]. split; [reflexivity|]. split.
    - intros k. cbn [new_config cf_keys aget]. unfold standard, standard_keys. cbn [existsb fresh_config c_name].
      unfold message_field, error_message_field, timestamp_field, level_field.
      destruct (beq_spec k (B"message")) as [->|N1]; [reflexivity|]. destruct (beq_spec k (B"error.message")) as [->|N2]; [reflexivity|].
      destruct (beq_spec k (B"@timestamp")) as [->|N3]; [reflexivity|]. destruct (beq_spec k (B"@level")) as [->|N4]; reflexivity.
    - intros k H E. cbn in E. subst k. discriminate H.
  Qed.
  Lemma simc_same cf cf' c : same_config cf' cf -> simc cf c -> simc cf' c.
  Proof. intros (S1 & S2 & S3) (C1 & C2 & C3 & C4). split; [congruence|]. split; [congruence|]. split; [|exact C4]. intros k. rewrite S3. apply C3. Qed.
  Lemma simc_clone cf c : simc cf c -> simc (config_clone order cf) c.
  Proof. apply simc_same, clone_same, order_ok. Qed.
  Lemma is_empty_nil {A} (l : list A) : is_empty l = true <-> l = [].
  Proof. destruct l; split; (reflexivity || discriminate). Qed.
  Lemma simc_name cf c k name : simc cf c -> simc (fst (config_std_keys cf k name)) (name_key k name c) /\
    snd (config_std_keys cf k name) = if standard k && negb (is_empty name) then c_name c k else [].
  Proof.
    intros (C1 & C2 & C3 & C4). unfold config_std_keys, name_key.
    assert (Ek : standard k = true -> is_empty k = false).
    { intros H. destruct k; [discriminate H|reflexivity]. }
    destruct (standard k) eqn:Es.
    - rewrite (Ek eq_refl). destruct (is_empty name) eqn:En; cbn [orb andb negb fst snd]; [repeat split; assumption|].
      rewrite C3, Es. cbn [fst snd]. split; [|reflexivity]. split; [exact C1|]. split; [exact C2|]. cbn [cf_keys c_name]. split.
      + intros k'. rewrite aget_aput. unfold set. destruct (beq_spec k' k) as [->|N]; [rewrite Es; reflexivity|apply C3].
      + intros k' H. unfold set. destruct (beq k' k); [|apply C4, H]. intros ->. discriminate En.
    - cbn [andb]. destruct (is_empty k || is_empty name); cbn [fst snd]; [repeat split; assumption|].
      rewrite C3, Es. cbn [fst snd]. repeat split; assumption.
  Qed.
  Lemma nodup_adel {A} k (m : list (bytes * A)) : NoDup (map fst m) -> NoDup (map fst (adel k m)) /\ ~ In k (map fst (adel k m)).
  Proof.
    intros H. unfold adel. induction m as [|[k' x] m IH]; cbn [filter map fst]; [split; [constructor|intros []]|].
    inversion H as [|? ? H1 H2]; subst. destruct (IH H2) as [I1 I2]. cbn [fst] in *.
    destruct (beq_spec k k') as [->|N]; cbn [negb]; [auto|]. cbn [map fst]. split.
    - constructor; [|exact I1]. intros X. apply H1. apply in_map_iff in X as ([a b] & <- & X). apply filter_In in X as [X _].
      apply in_map_iff. exists (a, b). auto.
    - intros [X|X]; [congruence|exact (I2 X)].
  Qed.
  Lemma simf_put m f k x : simf m f -> simf (aput k x m) (set f k (Some x)).
  Proof.
    intros [F1 F2]. split.
    - unfold aput. cbn [map fst]. destruct (nodup_adel k m F1). constructor; assumption.
    - intros k'. rewrite aget_aput. unfold set. destruct (beq k' k); [reflexivity|apply F2].
  Qed.
  Lemma simf_del m f k : simf m f -> simf (adel k m) (set f k None).
  Proof.
    intros [F1 F2]. split; [apply nodup_adel, F1|]. intros k'. rewrite aget_adel. unfold set. destruct (beq k' k); [reflexivity|apply F2].
  Qed.
  Lemma simf_copy m f : simf m f -> simf (copy_map order m) f.
  Proof.
    intros [F1 F2]. split; [|intros k; rewrite copy_map_same by exact order_ok; apply F2].
    unfold copy_map. generalize (order _ m). intros l.
    assert (G : forall d, NoDup (map fst d) -> NoDup (map fst (fold_left (fun d kv => match aget (fst kv) m with Some v => aput (fst kv) v d | None => d end) l d))).
    { induction l as [|[k x] l IH]; intros d Hd; cbn [fold_left fst]; [exact Hd|]. apply IH. destruct (aget k m); [|exact Hd].
      unfold aput. cbn [map fst]. destruct (nodup_adel k d Hd). constructor; assumption. }
    apply G. constructor.
  Qed.
  Lemma name_of_level n : level_string n = Ok (level_name n).
  Proof.
    destruct (Z_le_dec 0 n) as [H|H], (Z_le_dec n 6) as [H'|H'].
    1:{ assert (C : n = 0 \/ n = 1 \/ n = 2 \/ n = 3 \/ n = 4 \/ n = 5 \/ n = 6) by lia.
        destruct C as [->|[->|[->|[->|[->|[->| ->]]]]]]; reflexivity. }
    1,2,3: assert (U : level_name n = B"unknown") by
      (unfold level_name, level_names; cbn [find fst];
       repeat match goal with |- context [(?a =? ?b)%Z] => destruct (Z.eqb_spec a b); [lia|] end; reflexivity);
      rewrite U; apply C65_string; lia.
  Qed.
  Lemma sim_name cf c k : simc cf c -> standard k = true -> current_key cf k = c_name c k.
  Proof. intros (_ & _ & C3 & _) H. unfold current_key. rewrite C3, H. reflexivity. Qed.

  (** ** one variable changes, the others stay *)
  Lemma nth_get {A} (l : list A) i : (i < length l)%nat -> exists x, nth_error l i = Some x.
  Proof. intros H. destruct (nth_error l i) eqn:E; [eauto|]. apply nth_error_None in E. lia. Qed.
  Lemma config_len st h cf : config_of st h = Some cf -> (h < length (st_handles st))%nat.
  Proof. unfold config_of. destruct (nth_error _ _) eqn:E; [|discriminate]. intros _. apply nth_error_Some. congruence. Qed.
  Lemma logger_len st i v : logger_of st i = Some v -> (i < length (st_loggers st))%nat.
  Proof. unfold logger_of. destruct (nth_error _ _) eqn:E; [|discriminate]. intros _. apply nth_error_Some. congruence. Qed.
  Lemma config_at st h : (h < length (st_handles st))%nat -> exists cf, config_of st h = Some cf.
  Proof. intros H. apply nth_get in H as (c & E). unfold config_of. rewrite E. cbn. eauto. Qed.
  Lemma logger_at st i : (i < length (st_loggers st))%nat -> exists v, logger_of st i = Some v.
  Proof. intros H. apply nth_get in H as (c & E). unfold logger_of. rewrite E. cbn. eauto. Qed.

  Definition reached st := exists os, run init os = Ok st.
  Lemma upd_config st s o st' h c f : reached st -> sim st s -> step st o = Ok st' -> changes_config o = Some h -> changes_logger o = None ->
    length (st_handles st') = length (st_handles st) -> length (st_loggers st') = length (st_loggers st) -> st_out st' = st_out st ->
    nth_error (configs s) h = Some c -> (forall cf, config_of st h = Some cf -> exists cf', config_of st' h = Some cf' /\ (simc cf c -> simc cf' (f c))) ->
    sim st' (Vals (upd_nth h (fun _ => f c) (configs s)) (loggers s) (output s)).
  Proof.
    intros (os & R) (S1 & S2 & S3 & S4 & S5) H Hc Hl L1 L2 L3 Ec K. split; [cbn; rewrite upd_nth_length; congruence|].
    split; [cbn; congruence|]. split; [|split].
    - intros h' cf' c' E1 E2. cbn [configs] in E2. rewrite nth_error_upd_nth in E2.
      destruct (config_at st h') as (cf & E0); [apply config_len in E1; lia|].
      destruct (Nat.eqb_spec h' h) as [->|N].
      + rewrite Ec in E2. cbn in E2. injection E2 as <-. destruct (K cf E0) as (cf2 & E3 & E4). rewrite E3 in E1. injection E1 as <-.
        apply E4. eapply S3; eassumption.
      + assert (X : config_of st' h' = Some cf) by (eapply C69_config_isolated; [eassumption..|congruence]).
        rewrite X in E1. injection E1 as <-. eapply S3; eassumption.
    - intros i v l E1 E2. cbn [loggers] in E2. destruct (logger_at st i) as (v0 & E0); [apply logger_len in E1; lia|].
      assert (X : logger_of st' i = Some v0) by (eapply C69_logger_isolated; [eassumption..|congruence]).
      rewrite X in E1. injection E1 as <-. eapply S4; eassumption.
    - rewrite L3. exact S5.
  Qed.
  Lemma upd_logger st s o st' i l l' out : reached st -> sim st s -> step st o = Ok st' -> changes_config o = None -> changes_logger o = Some i ->
    length (st_handles st') = length (st_handles st) -> length (st_loggers st') = length (st_loggers st) ->
    nth_error (loggers s) i = Some l -> (forall v, logger_of st i = Some v -> exists v', logger_of st' i = Some v' /\ (siml v l -> siml v' l')) ->
    (exists recs, rev (st_out st') = flat_map (printed marshal) recs /\ Forall2 holds recs out) ->
    sim st' (Vals (configs s) (upd_nth i (fun _ => l') (loggers s)) out).
  Proof.
    intros (os & R) (S1 & S2 & S3 & S4 & S5) H Hc Hl L1 L2 Ec K Ho. split; [cbn; congruence|].
    split; [cbn; rewrite upd_nth_length; congruence|]. split; [|split; [|exact Ho]].
    - intros h' cf' c' E1 E2. cbn [configs] in E2. 
      destruct (config_at st h') as (cf & E0); [apply config_len in E1; lia|].
      assert (X : config_of st' h' = Some cf) by (eapply C69_config_isolated; [eassumption..|congruence]).
      rewrite X in E1. injection E1 as <-. eapply S3; eassumption.
    - intros j v l0 E1 E2. cbn [loggers] in E2. rewrite nth_error_upd_nth in E2.
      destruct (logger_at st j) as (v0 & E0); [apply logger_len in E1; lia|].
      destruct (Nat.eqb_spec j i) as [->|N].
      + rewrite Ec in E2. cbn in E2. injection E2 as <-. destruct (K v0 E0) as (v2 & E3 & E4). rewrite E3 in E1. injection E1 as <-.
        apply E4. eapply S4; eassumption.
      + assert (X : logger_of st' j = Some v0) by (eapply C69_logger_isolated; [eassumption..|congruence]).
        rewrite X in E1. injection E1 as <-. eapply S4; eassumption.
  Qed.
  Lemma add_config st s o st' cf c : reached st -> sim st s -> step st o = Ok st' -> changes_config o = None -> changes_logger o = None ->
    length (st_handles st') = S (length (st_handles st)) -> length (st_loggers st') = length (st_loggers st) -> st_out st' = st_out st ->
    config_of st' (length (st_handles st)) = Some cf -> simc cf c -> sim st' (new_cfg s c).
  Proof.
    intros (os & R) (S1 & S2 & S3 & S4 & S5) H Hc Hl L1 L2 L3 En Sn. split; [cbn; rewrite app_length; cbn; lia|].
    split; [cbn; congruence|]. split; [|split; [|rewrite L3; exact S5]].
    - intros h' cf' c' E1 E2. cbn [new_cfg configs] in E2. apply nth_snoc in E2 as [E2|[-> ->]].
      + destruct (config_at st h') as (cf0 & E0); [apply nth_error_Some_lt in E2 || (assert (X : nth_error (configs s) h' <> None) by congruence; apply nth_error_Some in X; lia)|].
        assert (X : config_of st' h' = Some cf0) by (eapply C69_config_isolated; [eassumption..|congruence]).
        rewrite X in E1. injection E1 as <-. eapply S3; eassumption.
      + rewrite <- S1, En in E1. injection E1 as <-. exact Sn.
    - intros i v l E1 E2. cbn [new_cfg loggers] in E2. destruct (logger_at st i) as (v0 & E0); [apply logger_len in E1; lia|].
      assert (X : logger_of st' i = Some v0) by (eapply C69_logger_isolated; [eassumption..|congruence]).
      rewrite X in E1. injection E1 as <-. eapply S4; eassumption.
  Qed.
  Lemma add_logger st s o st' v l : reached st -> sim st s -> step st o = Ok st' -> changes_config o = None -> changes_logger o = None ->
    length (st_handles st') = length (st_handles st) -> length (st_loggers st') = S (length (st_loggers st)) -> st_out st' = st_out st ->
    logger_of st' (length (st_loggers st)) = Some v -> siml v l -> sim st' (new_lgr s l).
  Proof.
    intros (os & R) (S1 & S2 & S3 & S4 & S5) H Hc Hl L1 L2 L3 En Sn. split; [cbn; congruence|].
    split; [cbn; rewrite app_length; cbn; lia|]. split; [|split; [|rewrite L3; exact S5]].
    - intros h' cf' c' E1 E2. cbn [new_lgr configs] in E2. 
      destruct (config_at st h') as (cf0 & E0); [apply config_len in E1; lia|].
      assert (X : config_of st' h' = Some cf0) by (eapply C69_config_isolated; [eassumption..|congruence]).
      rewrite X in E1. injection E1 as <-. eapply S3; eassumption.
    - intros i v' l' E1 E2. cbn [new_lgr loggers] in E2. apply nth_snoc in E2 as [E2|[-> ->]].
      + destruct (logger_at st i) as (v0 & E0); [assert (X : nth_error (loggers s) i <> None) by congruence; apply nth_error_Some in X; lia|].
        assert (X : logger_of st' i = Some v0) by (eapply C69_logger_isolated; [eassumption..|congruence]).
        rewrite X in E1. injection E1 as <-. eapply S4; eassumption.
      + rewrite <- S2, En in E1. injection E1 as <-. exact Sn.
  Qed.

  Lemma wf_reached st : reached st -> wf st.
  Proof. intros (os & R). eapply reachable_wf. exists os. exact R. Qed.
  Lemma get_config_upd st c f : (c < length (st_configs st))%nat -> get_config (with_config st c f) c = f (get_config st c).
  Proof. intros H. unfold get_config. cbn [with_config st_configs]. rewrite nth_upd_nth, Nat.eqb_refl.
    destruct (Nat.ltb_spec c (length (st_configs st))); [reflexivity|lia]. Qed.
  Lemma get_map_upd st c f : (c < length (st_maps st))%nat -> get_map (with_map st c f) c = f (get_map st c).
  Proof. intros H. unfold get_map. cbn [with_map st_maps]. rewrite nth_upd_nth, Nat.eqb_refl.
    destruct (Nat.ltb_spec c (length (st_maps st))); [reflexivity|lia]. Qed.
  Lemma cv_config st h c f : wf st -> nth_error (st_handles st) h = Some c ->
    config_of (with_config st c f) h = Some (f (get_config st c)).
  Proof. intros W E. unfold config_of. cbn [with_config st_handles]. rewrite E. cbn [option_map]. f_equal. apply get_config_upd, (wf_h _ W _ _ E). Qed.
  Lemma lv_config st i g f : wf st -> nth_error (st_loggers st) i = Some g ->
    logger_of (with_config st (lg_config g) f) i = Some (View (f (get_config st (lg_config g))) (lg_err g) (get_map st (lg_fields g))).
  Proof. intros W E. unfold logger_of. cbn [with_config st_loggers]. rewrite E. cbn [option_map]. f_equal. f_equal. apply get_config_upd, (wf_l _ W _ _ E). Qed.
  Lemma lv_map st i g f : wf st -> nth_error (st_loggers st) i = Some g ->
    logger_of (with_map st (lg_fields g) f) i = Some (View (get_config st (lg_config g)) (lg_err g) (f (get_map st (lg_fields g)))).
  Proof. intros W E. unfold logger_of. cbn [with_map st_loggers]. rewrite E. cbn [option_map]. f_equal. f_equal. apply get_map_upd, (wf_l _ W _ _ E). Qed.
  Lemma lv_now st i g : nth_error (st_loggers st) i = Some g ->
    logger_of st i = Some (View (get_config st (lg_config g)) (lg_err g) (get_map st (lg_fields g))).
  Proof. intros E. unfold logger_of. rewrite E. reflexivity. Qed.

  (** an operation on a configuration variable *)
  Lemma on_cfg st s o h f f' : reached st -> sim st s -> changes_config o = Some h -> changes_logger o = None ->
    step st o = on_handle st h (fun c => with_config st c f) -> vstep s o = set_cfg s h f' -> (forall cf c, simc cf c -> simc (f cf) (f' c)) ->
    match step st o, vstep s o with Ok st', Some s' => sim st' s' | Panic, None => True | _, _ => False end.
  Proof.
    intros R S Hc Hl E1 E2 K. pose proof (wf_reached st R) as W. pose proof S as (S1 & _). remember (step st o) as r eqn:Er.
    rewrite E2. unfold on_handle in E1. unfold set_cfg, with_cfg.
    destruct (nth_error (st_handles st) h) as [c|] eqn:Eh.
    - destruct (nth_get (configs s) h) as (cv & Ec); [rewrite <- S1; apply nth_error_Some; congruence|]. rewrite Ec. cbn [option_map].
      subst r. rewrite E1. eapply (upd_config st s o _ h cv f'); try eassumption; try reflexivity.
      intros cf Hcf. unfold config_of in Hcf. rewrite Eh in Hcf. injection Hcf as <-. eexists. split; [apply cv_config; [exact W|exact Eh]|]. apply K.
    - rewrite E1. replace (nth_error (configs s) h) with (@None cfgv); [exact I|]. symmetry. apply nth_error_None. rewrite <- S1. apply nth_error_None, Eh.
  Qed.
  (** an operation on a logger variable that writes nothing *)
  Lemma on_lgr st s o i (F : lgr -> state V) f' : reached st -> sim st s -> changes_config o = None -> changes_logger o = Some i ->
    step st o = on_logger st i (fun g => Ok (F g)) -> vstep s o = set_lgr s i f' ->
    (forall g, nth_error (st_loggers st) i = Some g -> length (st_handles (F g)) = length (st_handles st) /\
       length (st_loggers (F g)) = length (st_loggers st) /\ st_out (F g) = st_out st /\
       exists v', logger_of (F g) i = Some v' /\
         forall l, siml (View (get_config st (lg_config g)) (lg_err g) (get_map st (lg_fields g))) l -> siml v' (f' l)) ->
    match step st o, vstep s o with Ok st', Some s' => sim st' s' | Panic, None => True | _, _ => False end.
  Proof.
    intros R S Hc Hl E1 E2 K. pose proof S as (_ & S2 & _ & _ & S5). remember (step st o) as r eqn:Er.
    rewrite E2. unfold on_logger in E1. unfold set_lgr, with_lgr.
    destruct (nth_error (st_loggers st) i) as [g|] eqn:Eg.
    - destruct (nth_get (loggers s) i) as (lv & El); [rewrite <- S2; apply nth_error_Some; congruence|]. rewrite El.
      destruct (K g eq_refl) as (K1 & K2 & K3 & v' & K4 & K5).
      subst r. rewrite E1. eapply (upd_logger st s o _ i lv (f' lv) (output s)); try eassumption.
      + intros v Hv. rewrite (lv_now _ _ _ Eg) in Hv. injection Hv as <-. exists v'. split; [exact K4|apply K5].
      + rewrite K3. exact S5.
    - rewrite E1. replace (nth_error (loggers s) i) with (@None (lgrv V)); [exact I|]. symmetry. apply nth_error_None. rewrite <- S2. apply nth_error_None, Eg.
  Qed.
  Lemma siml_fields cf e m f' l : siml (View cf e m) l -> (forall f, simf m f -> simf (f' m) (l_fields l)) -> siml (View cf e (f' m)) l.
  Proof. intros (A1 & A2 & A3) H. split; [exact A1|]. split; [exact A2|]. eapply H, A3. Qed.
  Lemma siml_put cf e m l k x : siml (View cf e m) l -> siml (View cf e (aput k x m)) (put k x l).
  Proof. intros (A1 & A2 & A3). split; [exact A1|]. split; [exact A2|]. apply simf_put, A3. Qed.
  Lemma siml_cfg cf e m l cf' f : siml (View cf e m) l -> (forall c, simc cf c -> simc cf' (f c)) -> siml (View cf' e m) (on_config f l).
  Proof. intros (A1 & A2 & A3) H. split; [apply H, A1|]. split; [exact A2|exact A3]. Qed.

  (** renaming through a logger *)
  Lemma std_keys_view st i g k name : wf st -> nth_error (st_loggers st) i = Some g ->
    let F := do_std_keys st g k name in
    length (st_handles F) = length (st_handles st) /\ length (st_loggers F) = length (st_loggers st) /\ st_out F = st_out st /\
    exists v', logger_of F i = Some v' /\
      forall l, siml (View (get_config st (lg_config g)) (lg_err g) (get_map st (lg_fields g))) l -> siml v' (move k name l).
  Proof.
    intros W E. cbv zeta. unfold do_std_keys.
    destruct (config_std_keys (get_config st (lg_config g)) k name) as [cf old] eqn:Ek.
    set (st1 := with_config st (lg_config g) (fun _ => cf)).
    assert (W1 : wf st1) by (apply wf_with_config, W).
    assert (E1 : nth_error (st_loggers st1) i = Some g) by exact E.
    assert (M1 : get_map st1 (lg_fields g) = get_map st (lg_fields g)) by reflexivity.
    assert (C1 : get_config st1 (lg_config g) = cf) by (apply (get_config_upd st (lg_config g) (fun _ => cf)), (wf_l _ W _ _ E)).
    assert (K : forall l, siml (View (get_config st (lg_config g)) (lg_err g) (get_map st (lg_fields g))) l ->
      simc cf (name_key k name (l_config l)) /\ old = if standard k && negb (is_empty name) then c_name (l_config l) k else []).
    { intros l (A1 & _). cbn [v_config] in A1. pose proof (simc_name _ _ k name A1) as X. rewrite Ek in X. exact X. }
    rewrite M1.
    destruct (is_empty old) eqn:Eo.
    - split; [reflexivity|]. split; [reflexivity|]. split; [reflexivity|]. eexists. split; [apply lv_config; [exact W|exact E]|].
      intros l L. destruct (K l L) as [K1 K2]. destruct L as (A1 & A2 & A3). unfold move. cbn [v_config v_err v_fields] in *.
      destruct (standard k && negb (is_empty name)) eqn:Es.
      + exfalso. apply is_empty_nil in Eo. apply andb_true_iff in Es as [Es _]. destruct A1 as (_ & _ & _ & A1). apply (A1 k Es). congruence.
      + unfold name_key in K1. rewrite Es in K1. split; [exact K1|]. split; [exact A2|exact A3].
    - assert (Q : forall l, siml (View (get_config st (lg_config g)) (lg_err g) (get_map st (lg_fields g))) l ->
         standard k && negb (is_empty name) = true /\ c_name (l_config l) k = old).
      { intros l L. destruct (K l L) as [_ K2]. destruct (standard k && negb (is_empty name)); [auto|]. rewrite K2 in Eo. discriminate. }
      destruct (aget old (get_map st (lg_fields g))) as [x|] eqn:Ex; [destruct (negb (beq old k)) eqn:Eb|].
      + split; [reflexivity|]. split; [reflexivity|]. split; [reflexivity|]. eexists. split; [apply (lv_map st1); [exact W1|exact E1]|].
        intros l L. destruct (K l L) as [K1 _]. destruct (Q l L) as [Q1 Q2]. destruct L as (A1 & A2 & A3). unfold move.
        cbn [v_config v_err v_fields] in *. rewrite Q1, Q2, C1, M1. split; [exact K1|]. split; [exact A2|]. cbn [v_fields l_fields].
        replace (l_fields l old) with (Some x) by (rewrite <- Ex; apply A3). apply negb_true_iff in Eb. rewrite Eb.
        apply simf_del, simf_put, A3.
      + split; [reflexivity|]. split; [reflexivity|]. split; [reflexivity|]. eexists. split; [apply lv_config; [exact W|exact E]|].
        intros l L. destruct (K l L) as [K1 _]. destruct (Q l L) as [Q1 Q2]. destruct L as (A1 & A2 & A3). unfold move.
        cbn [v_config v_err v_fields] in *. rewrite Q1, Q2. split; [exact K1|]. split; [exact A2|]. cbn [v_fields l_fields].
        replace (l_fields l old) with (Some x) by (rewrite <- Ex; apply A3). apply negb_false_iff in Eb. rewrite Eb. exact A3.
      + split; [reflexivity|]. split; [reflexivity|]. split; [reflexivity|]. eexists. split; [apply lv_config; [exact W|exact E]|].
        intros l L. destruct (K l L) as [K1 _]. destruct (Q l L) as [Q1 Q2]. destruct L as (A1 & A2 & A3). unfold move.
        cbn [v_config v_err v_fields] in *. rewrite Q1, Q2. split; [exact K1|]. split; [exact A2|]. cbn [v_fields l_fields].
        replace (l_fields l old) with (@None (fval V)) by (rewrite <- Ex; apply A3). exact A3.
  Qed.

  (** a log call: [g0] is the logger's state after the message was stored (if any) *)
  Lemma log_view st i g lvl : wf st -> nth_error (st_loggers st) i = Some g ->
    let cf := get_config st (lg_config g) in
    if cf_level cf <? lvl then do_log marshal st g lvl = Ok st
    else match cf_writer cf with
         | None => do_log marshal st g lvl = Panic
         | Some w => exists st' rec, do_log marshal st g lvl = Ok st' /\
             length (st_handles st') = length (st_handles st) /\ length (st_loggers st') = length (st_loggers st) /\
             rev (st_out st') = rev (st_out st) ++ printed marshal (w, rec) /\
             logger_of st' i = Some (View cf (lg_err g) rec) /\
             forall l, siml (View cf (lg_err g) (get_map st (lg_fields g))) l -> siml (View cf (lg_err g) rec) (complete l)
         end.
  Proof.
    intros W E. cbv zeta. unfold do_log. destruct (_ <? lvl); [reflexivity|]. rewrite name_of_level. cbv zeta.
    destruct (cf_writer (get_config st (lg_config g))) as [w|]; [|reflexivity].
    set (ek := current_key _ error_message_field). set (lk := current_key _ level_field). set (text := match lg_err g with Some e => err_text e | None => [] end).
    set (st1 := with_map st (lg_fields g) _). 
    assert (M : get_map st1 (lg_fields g) = aput ek (FStr text) (aput lk (FStr (level_name (cf_level (get_config st (lg_config g))))) (get_map st (lg_fields g)))).
    { apply (get_map_upd st (lg_fields g) (fun m => aput ek (FStr text) (aput lk (FStr (level_name (cf_level (get_config st (lg_config g))))) m))), (wf_l _ W _ _ E). }
    destruct (json marshal (get_map st1 (lg_fields g))) as [data es] eqn:J.
    exists (emit st1 (EWrite w data :: es)), (get_map st1 (lg_fields g)).
    split; [reflexivity|]. split; [reflexivity|]. split; [reflexivity|]. split; [|split].
    - cbn [emit st_out]. rewrite rev_app_distr. f_equal. unfold json in J. unfold printed. cbn [fst snd].
      destruct (marshal (get_map st1 (lg_fields g))); injection J as <- <-; reflexivity.
    - assert (E1 : nth_error (st_loggers (emit st1 (EWrite w data :: es))) i = Some g) by exact E.
      rewrite (lv_now _ _ _ E1). reflexivity.
    - intros l (A1 & A2 & A3). cbn [v_config v_err v_fields] in *. split; [exact A1|]. split; [exact A2|]. cbn [v_fields complete put l_fields l_config].
      rewrite M. subst ek lk text. rewrite (sim_name _ _ error_message_field A1 eq_refl), (sim_name _ _ level_field A1 eq_refl).
      destruct A1 as (A1 & _). rewrite A1.
      assert (T : match lg_err g with Some e => err_text e | None => [] end = joined (B": ") (l_errors l)).
      { destruct (lg_err g) as [e|]; [apply A2|]. rewrite A2. reflexivity. }
      rewrite T. apply simf_put, simf_put, A3.
  Qed.
  Lemma log_sim st s i lvl msg : reached st -> sim st s ->
    let o := match msg with Some m => Logf i lvl m | None => Log i lvl end in
    match step st o, vstep s o with Ok st', Some s' => sim st' s' | Panic, None => True | _, _ => False end.
  Proof.
    intros R S o. pose proof (wf_reached st R) as W. pose proof S as (S1 & S2 & S3 & S4 & recs & S5 & S6).
    assert (Eo : step st o = on_logger st i (fun g => match msg with Some m => do_logf marshal st g lvl m | None => do_log marshal st g lvl end)) by (subst o; destruct msg; reflexivity).
    assert (Ev : vstep s o = with_lgr s i (log lvl msg i s)) by (subst o; destruct msg; reflexivity).
    assert (Oc : changes_config o = None) by (subst o; destruct msg; reflexivity).
    assert (Ol : changes_logger o = Some i) by (subst o; destruct msg; reflexivity).
    remember (step st o) as r eqn:Er. rewrite Ev. unfold on_logger in Eo. unfold with_lgr.
    destruct (nth_error (st_loggers st) i) as [g|] eqn:Eg.
    2:{ rewrite Eo. replace (nth_error (loggers s) i) with (@None (lgrv V)); [exact I|]. symmetry. apply nth_error_None. rewrite <- S2. apply nth_error_None, Eg. }
    destruct (nth_get (loggers s) i) as (lv & El); [rewrite <- S2; apply nth_error_Some; congruence|]. rewrite El.
    pose proof (S4 i _ lv (lv_now _ _ _ Eg) El) as L. destruct L as (A1 & A2 & A3). cbn [v_config v_err v_fields] in A1, A2, A3.
    unfold log. pose proof A1 as A1'. destruct A1 as (C1 & C2 & C3 & C4).
    set (st0 := match msg with Some m => with_map st (lg_fields g) (aput message_field (FStr m)) | None => st end).
    set (lv0 := match msg with Some m => put (B"message") (FStr m) lv | None => lv end).
    assert (W0 : wf st0) by (subst st0; destruct msg; [apply wf_with_map|]; exact W).
    assert (E0 : nth_error (st_loggers st0) i = Some g) by (subst st0; destruct msg; exact Eg).
    assert (G0 : get_config st0 (lg_config g) = get_config st (lg_config g)) by (subst st0; destruct msg; reflexivity).
    assert (Er' : r = if cf_level (get_config st (lg_config g)) <? lvl then Ok st else do_log marshal st0 g lvl).
    { rewrite Eo. subst st0. destruct msg as [m|]; [reflexivity|]. unfold do_log. destruct (_ <? lvl); reflexivity. }
    rewrite <- C1. pose proof (log_view st0 i g lvl W0 E0) as K. cbv zeta in K. rewrite G0 in K.
    destruct (cf_level (get_config st (lg_config g)) <? lvl) eqn:Et; [rewrite Er'; exact S|].
    rewrite <- C2. destruct (cf_writer (get_config st (lg_config g))) as [w|]; [|rewrite Er', K; exact I].
    destruct K as (st' & rec & K1 & K2 & K3 & K4 & K5 & K6). rewrite Er', K1.
    assert (Lc : siml (View (get_config st (lg_config g)) (lg_err g) (get_map st0 (lg_fields g))) lv0).
    { subst st0 lv0. destruct msg as [m|].
      - rewrite get_map_upd by apply (wf_l _ W _ _ Eg). apply siml_put. split; [exact A1'|]. split; [exact A2|exact A3].
      - split; [exact A1'|]. split; [exact A2|exact A3]. }
    assert (Ls : siml (View (get_config st (lg_config g)) (lg_err g) rec) (complete lv0)) by (apply K6, Lc).
    assert (H0 : st_handles st0 = st_handles st) by (subst st0; destruct msg; reflexivity).
    assert (H1 : st_loggers st0 = st_loggers st) by (subst st0; destruct msg; reflexivity).
    assert (H2 : st_out st0 = st_out st) by (subst st0; destruct msg; reflexivity).
    eapply (upd_logger st s o st' i lv (complete lv0)); try eassumption.
    - rewrite <- Er, Er', K1. reflexivity.
    - rewrite K2, H0. reflexivity.
    - rewrite K3, H1. reflexivity.
    - intros v Hv. eexists. split; [exact K5|]. intros _. exact Ls.
    - exists (recs ++ [(w, rec)]). rewrite K4, H2, S5, flat_map_app. cbn [flat_map]. rewrite app_nil_r. split; [reflexivity|].
      apply Forall2_app; [exact S6|]. constructor; [|constructor]. destruct Ls as (_ & _ & B1 & B2). split; [reflexivity|]. split; [exact B1|exact B2].
  Qed.

  Lemma step_sim st s o : reached st -> sim st s ->
    match step st o, vstep s o with Ok st', Some s' => sim st' s' | Panic, None => True | _, _ => False end.
  Proof.
    intros R S. pose proof (wf_reached st R) as W. pose proof S as (S1 & S2 & S3 & S4 & S5).
    assert (Hn : forall h, nth_error (st_handles st) h = None -> nth_error (configs s) h = None).
    { intros h X. apply nth_error_None. rewrite <- S1. apply nth_error_None, X. }
    assert (Ln : forall i, nth_error (st_loggers st) i = None -> nth_error (loggers s) i = None).
    { intros h X. apply nth_error_None. rewrite <- S2. apply nth_error_None, X. }
    assert (Hs : forall h c, nth_error (st_handles st) h = Some c -> exists cv, nth_error (configs s) h = Some cv /\ simc (get_config st c) cv).
    { intros h c X. destruct (nth_get (configs s) h) as (cv & Ec); [rewrite <- S1; apply nth_error_Some; congruence|].
      exists cv. split; [exact Ec|]. eapply S3; [|exact Ec]. unfold config_of. rewrite X. reflexivity. }
    assert (Ls : forall i g, nth_error (st_loggers st) i = Some g -> exists lv, nth_error (loggers s) i = Some lv /\
        siml (View (get_config st (lg_config g)) (lg_err g) (get_map st (lg_fields g))) lv).
    { intros i g X. destruct (nth_get (loggers s) i) as (lv & El); [rewrite <- S2; apply nth_error_Some; congruence|].
      exists lv. split; [exact El|]. eapply S4; [|exact El]. apply lv_now, X. }
    assert (Nc : forall st0 cf, config_of (new_handle st0 cf) (length (st_handles st0)) = Some cf).
    { intros st0 cf. unfold config_of, new_handle. cbn [st_handles]. rewrite nth_error_app2, Nat.sub_diag by lia. cbn [nth_error option_map].
      f_equal. apply get_new. }
    destruct o.
    - cbn [M_Logger.step vstep]. eapply (add_config st s NewConfig); [exact R|exact S|reflexivity|reflexivity|reflexivity|cbn; rewrite app_length; cbn; lia|reflexivity|reflexivity|apply Nc|apply simc_fresh].
    - cbn [M_Logger.step vstep]. unfold on_handle, with_cfg. destruct (nth_error (st_handles st) h) as [c|] eqn:Eh; [|rewrite (Hn _ Eh); exact I].
      destruct (Hs _ _ Eh) as (cv & -> & Sc). cbn [option_map].
      eapply (add_config st s (CfgClone h)); [exact R|exact S|cbn [M_Logger.step]; unfold on_handle; rewrite Eh; reflexivity|reflexivity|reflexivity|cbn; rewrite app_length; cbn; lia|reflexivity|reflexivity|apply Nc|apply simc_clone, Sc].
    - eapply (on_cfg st s _ h (cfg_set_level lvl) (with_level lvl)); try eassumption; try reflexivity.
      intros cf c (C1 & C2 & C3 & C4). repeat split; assumption.
    - eapply (on_cfg st s _ h (cfg_set_writer w) (with_writer w)); try eassumption; try reflexivity.
      intros cf c (C1 & C2 & C3 & C4). repeat split; assumption.
    - eapply (on_cfg st s _ h (fun cf => fst (config_std_keys cf key value)) (name_key key value)); try eassumption; try reflexivity.
      intros cf c Sc. apply simc_name, Sc.
    - eapply (on_cfg st s _ h (fun cf => fst (config_std_keys cf level_field key)) (name_key (B"@level") key)); try eassumption; try reflexivity.
      intros cf c Sc. apply simc_name, Sc.
    - eapply (on_cfg st s _ h (fun cf => fst (config_std_keys cf error_message_field key)) (name_key (B"error.message") key)); try eassumption; try reflexivity.
      intros cf c Sc. apply simc_name, Sc.
    - eapply (on_cfg st s _ h (fun cf => fst (config_std_keys cf error_message_field key)) (name_key (B"error.message") key)); try eassumption; try reflexivity.
      intros cf c Sc. apply simc_name, Sc.
    - (* New *) cbn [M_Logger.step vstep]. eapply (add_logger st s (New now)); [exact R|exact S|reflexivity|reflexivity|reflexivity|reflexivity|cbn; rewrite app_length; cbn; lia|reflexivity| |].
      + unfold logger_of. cbn [st_loggers]. rewrite nth_error_app2, Nat.sub_diag by lia. cbn [nth_error option_map lg_config lg_fields lg_err].
        rewrite get_new. unfold get_map. cbn [st_maps]. rewrite app_nth2, Nat.sub_diag by lia. reflexivity.
      + split; [apply simc_fresh|]. split; [reflexivity|]. cbn [v_fields nth l_fields]. change [(timestamp_field, FStr now)] with (aput (B"@timestamp") (@FStr V now) []).
        apply simf_put. split; [constructor|reflexivity].
    - (* SetConfig *) cbn [M_Logger.step vstep]. unfold on_logger, on_handle, with_lgr.
      destruct (nth_error (st_loggers st) l) as [g|] eqn:El; [|rewrite (Ln _ El); exact I]. destruct (Ls _ _ El) as (lv & Ev & Sl). rewrite Ev.
      destruct (nth_error (st_handles st) h) as [c|] eqn:Eh; [|rewrite (Hn _ Eh); exact I]. destruct (Hs _ _ Eh) as (cv & -> & Sc).
      unfold set_lgr, with_lgr. rewrite Ev. cbv zeta.
      eapply (upd_logger st s (SetConfig l h) _ l lv); try eassumption; try reflexivity.
      + cbn [M_Logger.step]. unfold on_logger, on_handle. rewrite El, Eh. reflexivity.
      + cbn [with_logger st_loggers]. apply upd_nth_length.
      + intros v Hv. rewrite (lv_now _ _ _ El) in Hv. injection Hv as <-. unfold logger_of. cbn [with_logger st_loggers].
        rewrite nth_error_upd_nth, Nat.eqb_refl, El. cbn [option_map lg_config lg_fields lg_err]. eexists. split; [reflexivity|].
        unfold with_logger. cbn [st_configs]. rewrite get_new. intros (A1 & A2 & A3). split; [apply simc_clone, simc_clone, Sc|]. split; [exact A2|exact A3].
    - (* LgConfig *) cbn [M_Logger.step vstep]. unfold on_logger, with_lgr. destruct (nth_error (st_loggers st) l) as [g|] eqn:El; [|rewrite (Ln _ El); exact I].
      destruct (Ls _ _ El) as (lv & -> & Sl).
      eapply (add_config st s (LgConfig l)); [exact R|exact S|cbn [M_Logger.step]; unfold on_logger; rewrite El; reflexivity|reflexivity|reflexivity|cbn; rewrite app_length; cbn; lia|reflexivity|reflexivity|apply Nc|].
      destruct Sl as (A1 & _). apply simc_clone, A1.
    - (* LgClone *) cbn [M_Logger.step vstep]. unfold on_logger, with_lgr. destruct (nth_error (st_loggers st) l) as [g|] eqn:El; [|rewrite (Ln _ El); exact I].
      destruct (Ls _ _ El) as (lv & -> & (A1 & A2 & A3)). cbn [v_config v_fields] in A1, A3.
      eapply (add_logger st s (LgClone l)); [exact R|exact S|cbn [M_Logger.step]; unfold on_logger; rewrite El; reflexivity|reflexivity|reflexivity|reflexivity|cbn; rewrite app_length; cbn; lia|reflexivity| |].
      + unfold logger_of. cbn [st_loggers]. rewrite nth_error_app2, Nat.sub_diag by lia. cbn [nth_error option_map lg_config lg_fields lg_err].
        rewrite get_new. unfold get_map at 1. cbn [st_maps]. rewrite app_nth2, Nat.sub_diag by lia. reflexivity.
      + split; [apply simc_clone, A1|]. split; [reflexivity|]. apply simf_copy, A3.
    - (* Add *) eapply (on_lgr st s _ l (fun lg => with_map st (lg_fields lg) (aput key v)) (put key v)); try eassumption; try reflexivity.
      intros g Hg. split; [reflexivity|]. split; [reflexivity|]. split; [reflexivity|]. eexists. split; [apply lv_map; [exact W|exact Hg]|].
      intros lv L. apply siml_put, L.
    - (* AddDebug *) eapply (on_lgr st s _ l (fun lg => if 5 <=? cf_level (get_config st (lg_config lg)) then with_map st (lg_fields lg) (aput key v) else st)
        (fun lv => if 5 <=? c_level (l_config lv) then put key v lv else lv)); try eassumption; try reflexivity.
      + cbn [M_Logger.step]. unfold on_logger. destruct (nth_error (st_loggers st) l); [|reflexivity]. destruct (5 <=? _); reflexivity.
      + intros g Hg. destruct (5 <=? cf_level (get_config st (lg_config g))) eqn:E5.
        * split; [reflexivity|]. split; [reflexivity|]. split; [reflexivity|]. eexists. split; [apply lv_map; [exact W|exact Hg]|].
          intros lv L. pose proof L as ((C1 & _) & _). cbn [v_config] in C1. rewrite <- C1, E5. apply siml_put, L.
        * split; [reflexivity|]. split; [reflexivity|]. split; [reflexivity|]. eexists. split; [apply lv_now, Hg|].
          intros lv L. pose proof L as ((C1 & _) & _). cbn [v_config] in C1. rewrite <- C1, E5. exact L.
    - (* Merge *) eapply (on_lgr st s _ l (fun lg => with_map st (lg_fields lg) (fun f => fold_left (fun f kv => aput (fst kv) (snd kv) f) m f)) (fun lv => fold_left (fun lv kx => put (fst kx) (snd kx) lv) m lv)); try eassumption; try reflexivity.
      intros g Hg. split; [reflexivity|]. split; [reflexivity|]. split; [reflexivity|]. eexists. split; [apply lv_map; [exact W|exact Hg]|].
      generalize (get_map st (lg_fields g)). induction m as [|[k x] m IH]; intros m0 lv L; cbn [fold_left fst snd]; [exact L|]. apply IH, siml_put, L.
    - (* Writer *) eapply (on_lgr st s _ l (fun lg => with_config st (lg_config lg) (cfg_set_writer w)) (on_config (with_writer w))); try eassumption; try reflexivity.
      intros g Hg. split; [reflexivity|]. split; [reflexivity|]. split; [reflexivity|]. eexists. split; [apply lv_config; [exact W|exact Hg]|].
      intros lv L. eapply siml_cfg; [exact L|]. intros c (C1 & C2 & C3 & C4). repeat split; assumption.
    - (* SetLevel *) eapply (on_lgr st s _ l (fun lg => with_config st (lg_config lg) (cfg_set_level lvl)) (on_config (with_level lvl))); try eassumption; try reflexivity.
      intros g Hg. split; [reflexivity|]. split; [reflexivity|]. split; [reflexivity|]. eexists. split; [apply lv_config; [exact W|exact Hg]|].
      intros lv L. eapply siml_cfg; [exact L|]. intros c (C1 & C2 & C3 & C4). repeat split; assumption.
    - eapply (on_lgr st s _ l (fun lg => do_std_keys st lg key value) (move key value)); try eassumption; try reflexivity. intros g Hg. apply std_keys_view; assumption.
    - eapply (on_lgr st s _ l (fun lg => do_std_keys st lg level_field key) (move (B"@level") key)); try eassumption; try reflexivity. intros g Hg. apply (std_keys_view st l g level_field); assumption.
    - eapply (on_lgr st s _ l (fun lg => do_std_keys st lg error_message_field key) (move (B"error.message") key)); try eassumption; try reflexivity. intros g Hg. apply (std_keys_view st l g error_message_field); assumption.
    - eapply (on_lgr st s _ l (fun lg => do_std_keys st lg error_message_field key) (move (B"error.message") key)); try eassumption; try reflexivity. intros g Hg. apply (std_keys_view st l g error_message_field); assumption.
    - (* Error *) destruct e as [e|].
      + eapply (on_lgr st s _ l (fun _ => with_logger st l (fun lg => Lgr (lg_config lg) (match lg_err lg with None => Some e | Some e0 => wrap (Some e0) (err_text e) end) (lg_fields lg))) (add_error (Some e))); try eassumption; try reflexivity.
        intros g Hg. split; [reflexivity|]. split; [apply upd_nth_length|]. split; [reflexivity|].
        unfold logger_of. cbn [with_logger st_loggers]. rewrite nth_error_upd_nth, Nat.eqb_refl, Hg. cbn [option_map lg_config lg_fields lg_err].
        eexists. split; [reflexivity|]. intros lv (A1 & A2 & A3). cbn [v_config v_err v_fields] in A1, A2, A3. split; [exact A1|]. split; [|exact A3].
        cbn [v_err add_error l_errors]. destruct (lg_err g) as [e0|]; cbn [wrap].
        * destruct A2 as [A2 A4]. split; [discriminate|]. cbn [err_text]. rewrite A4. destruct (l_errors lv) as [|x r]; [contradiction|]. reflexivity.
        * rewrite A2. split; [discriminate|]. reflexivity.
      + eapply (on_lgr st s _ l (fun _ => st) (add_error None)); try eassumption; try reflexivity.
        intros g Hg. split; [reflexivity|]. split; [reflexivity|]. split; [reflexivity|]. eexists. split; [apply lv_now, Hg|]. intros lv L. exact L.
    - exact (log_sim st s l lvl None R S).
    - exact (log_sim st s l lvl (Some msg) R S).
  Qed.
  Lemma run_snoc os : forall st o, run st (os ++ [o]) = match run st os with Ok st' => step st' o | Panic => Panic end.
  Proof.
    induction os as [|x os IH]; intros st o; cbn [app M_Logger.run]; [destruct (step st o); reflexivity|].
    destruct (step st x); [apply IH|reflexivity].
  Qed.
  Lemma vrun_snoc os : forall (s : vals V) o, vrun s (os ++ [o]) = match vrun s os with Some s' => vstep s' o | None => None end.
  Proof.
    induction os as [|x os IH]; intros s o; cbn [app vrun]; [destruct (vstep s o); reflexivity|].
    destruct (vstep s x); [apply IH|reflexivity].
  Qed.

  (** Whatever configurations and loggers a program makes, copies, shares and changes, what is
      printed is what the same calls print when every variable holds a value of its own; and
      the program panics exactly where they do. *)
  Theorem C138_loggers_are_values : forall os,
    match run init os, vrun nothing os with
    | Ok st, Some s => exists recs, rev (st_out st) = flat_map (printed marshal) recs /\ Forall2 holds recs (output s)
    | Panic, None => True
    | _, _ => False
    end.
  Proof.
    intros os. enough (H : match run init os, vrun nothing os with Ok st, Some s => sim st s | Panic, None => True | _, _ => False end).
    { destruct (run init os), (vrun nothing os); try exact H. apply H. }
    induction os as [|o os IH] using rev_ind.
    - cbn [M_Logger.run vrun]. split; [reflexivity|]. split; [reflexivity|]. split; [intros [|h] cf c; discriminate|].
      split; [intros [|i] v l; discriminate|]. exists []. split; [reflexivity|constructor].
    - rewrite run_snoc, vrun_snoc. destruct (run init os) as [st|] eqn:E, (vrun nothing os) as [s|]; try exact IH; try contradiction.
      apply step_sim; [exists os; exact E|exact IH].
  Qed.
End LogValues.

(** two loggers made from one configuration, one renames the level field and logs below and at
    its level; the other and the configuration are not touched *)
Definition x138 : list (op nat) :=
  [NewConfig; CfgLevel 0 3; New (B"t0"); SetConfig 0 0; LgClone 0; LevelKey 0 (B"lvl"); Add 0 (B"a") (FAny 1%nat);
   Error 0 (Some (EUser 0 (B"e1"))); Error 0 (Some (EUser 1 (B"e2"))); Logf 0 4 (B"no"); Logf 0 2 (B"yes");
   LevelKey 0 (B"level"); Log 0 3; Log 1 0].
Example C138_example : exists r1 r2 r3,
  option_map output (vrun nothing x138) = Some [(0, r1); (0, r2); (0, r3)]%nat /\
  map r1 [B"message"; B"lvl"; B"@level"; B"error.message"; B"a"; B"@timestamp"] =
    [Some (FStr (B"yes")); Some (FStr (B"warning")); None; Some (FStr (B"e2: e1")); Some (FAny 1%nat); Some (FStr (B"t0"))] /\
  map r2 [B"message"; B"lvl"; B"level"; B"error.message"; B"a"; B"@timestamp"] =
    [Some (FStr (B"yes")); None; Some (FStr (B"warning")); Some (FStr (B"e2: e1")); Some (FAny 1%nat); Some (FStr (B"t0"))] /\
  map r3 [B"message"; B"lvl"; B"@level"; B"error.message"; B"a"; B"@timestamp"] =
    [None; None; Some (FStr (B"warning")); Some (FStr (B"")); None; Some (FStr (B"t0"))].
Proof. eexists _, _, _. split; [reflexivity|]. vm_compute. auto. Qed.
Print Assumptions C138_loggers_are_values.
