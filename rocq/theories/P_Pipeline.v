(** Proofs about the request pipeline. *)
From Verif Require Import Base GoErrors M_Pipeline S_Pipeline.

(** ** Effect of actions *)
Definition is_stop (a : action) : bool := match a with AStop | AAbort => true | _ => false end.
Definition is_abort (a : action) : bool := match a with AAbort => true | _ => false end.
Definition is_skip (a : action) : bool := match a with ASkipMain => true | _ => false end.

Lemma apply_stopped acts : forall c,
  stopped (apply c acts) = stopped c || existsb is_stop acts.
Proof.
  unfold apply. induction acts as [|a acts IH]; intros c; simpl; [rewrite orb_false_r; reflexivity|].
  rewrite IH. destruct a, c as [[] [] ? ? ? ? ?]; unfold stopped; simpl; reflexivity.
Qed.
Lemma apply_aborted acts : forall c,
  c_aborted (apply c acts) = c_aborted c || existsb is_abort acts.
Proof.
  unfold apply. induction acts as [|a acts IH]; intros c; simpl; [rewrite orb_false_r; reflexivity|].
  rewrite IH. destruct a, c as [[] [] [] [] ? ? ?]; simpl; reflexivity.
Qed.
Lemma apply_cancelled acts : forall c,
  c_cancelled (apply c acts) = c_cancelled c || existsb is_abort acts.
Proof.
  unfold apply. induction acts as [|a acts IH]; intros c; simpl; [rewrite orb_false_r; reflexivity|].
  rewrite IH. destruct a, c as [[] [] [] [] ? ? ?]; simpl; reflexivity.
Qed.
Lemma apply_skip acts : forall c,
  c_skip (apply c acts) = c_skip c || existsb is_skip acts.
Proof.
  unfold apply. induction acts as [|a acts IH]; intros c; simpl; [rewrite orb_false_r; reflexivity|].
  rewrite IH. destruct a, c as [[] [] [] [] ? ? ?]; simpl; reflexivity.
Qed.
Lemma apply_log acts : forall c, c_log (apply c acts) = c_log c.
Proof. unfold apply. induction acts as [|[] acts IH]; intros c; simpl; rewrite ?IH; reflexivity. Qed.
Definition level_action (a : action) : bool := match a with ASetLevel _ => true | _ => false end.
Lemma apply_level acts : forall c, existsb level_action acts = false ->
  c_level (apply c acts) = c_level c.
Proof.
  unfold apply. induction acts as [|[] acts IH]; intros c H; simpl in *; try discriminate;
    rewrite ?IH; auto.
Qed.

Lemma add_debug_flags c n :
  stopped (add_debug c n) = stopped c /\ c_aborted (add_debug c n) = c_aborted c /\
  c_skip (add_debug c n) = c_skip c /\ c_cancelled (add_debug c n) = c_cancelled c /\
  c_level (add_debug c n) = c_level c /\ c_tasks (add_debug c n) = c_tasks c.
Proof. unfold add_debug. destruct (5 <=? c_level c)%Z; repeat split. Qed.

(** context after a call *)
Definition k_post (k : call) : ctx := apply (k_seen k) (k_acts k).

(** ** A run as a chain of calls *)
Inductive runs : ctx -> list call -> ctx -> Prop :=
| RunsNil c : runs c [] c
| RunsCons c k ks c' :
    k_seen k = add_debug c (k_name k) -> runs (k_post k) ks c' -> runs c (k :: ks) c'.

Lemma runs_app c ks1 c1 ks2 c2 : runs c ks1 c1 -> runs c1 ks2 c2 -> runs c (ks1 ++ ks2) c2.
Proof. induction 1; intros H2; simpl; [exact H2|]. constructor; auto. Qed.

Lemma runs_skip c ks c' : runs c ks c' ->
  c_skip c' = c_skip c || existsb (fun k => existsb is_skip (k_acts k)) ks.
Proof.
  induction 1 as [c|c k ks c' Hs H IH]; simpl; [rewrite orb_false_r; reflexivity|].
  rewrite IH. unfold k_post. rewrite apply_skip, Hs.
  destruct (add_debug_flags c (k_name k)) as (_ & _ & -> & _). rewrite orb_assoc. reflexivity.
Qed.

Lemma runs_aborted c ks c' : runs c ks c' ->
  c_aborted c' = c_aborted c || existsb (fun k => existsb is_abort (k_acts k)) ks.
Proof.
  induction 1 as [c|c k ks c' Hs H IH]; simpl; [rewrite orb_false_r; reflexivity|].
  rewrite IH. unfold k_post. rewrite apply_aborted, Hs.
  destruct (add_debug_flags c (k_name k)) as (_ & -> & _). rewrite orb_assoc. reflexivity.
Qed.

Lemma runs_cancelled c ks c' : runs c ks c' ->
  c_cancelled c' = c_cancelled c || existsb (fun k => existsb is_abort (k_acts k)) ks.
Proof.
  induction 1 as [c|c k ks c' Hs H IH]; simpl; [rewrite orb_false_r; reflexivity|].
  rewrite IH. unfold k_post. rewrite apply_cancelled, Hs.
  destruct (add_debug_flags c (k_name k)) as (_ & _ & _ & -> & _). rewrite orb_assoc. reflexivity.
Qed.

Lemma runs_split c ks1 k ks2 c' : runs c (ks1 ++ k :: ks2) c' ->
  exists c1, runs c ks1 c1 /\ k_seen k = add_debug c1 (k_name k) /\ runs (k_post k) ks2 c'.
Proof.
  revert c. induction ks1 as [|k1 ks1 IH]; intros c H; simpl in H; inversion H; subst.
  - exists c. split; [constructor|auto].
  - destruct (IH _ H5) as (c1 & R1 & E & R2). exists c1. split; [constructor; assumption|auto].
Qed.

Lemma runs_log c ks c' :
  runs c ks c' -> Forall (fun k => existsb level_action (k_acts k) = false) ks ->
  c_level c' = c_level c /\
  c_log c' = c_log c ++ (if (5 <=? c_level c)%Z then map k_name ks else []).
Proof.
  induction 1 as [c|c k ks c' Hs H IH]; intros HF.
  - split; [reflexivity|]. destruct (5 <=? c_level c)%Z; rewrite app_nil_r; reflexivity.
  - inversion HF as [|? ? Hk HF']; subst. destruct (IH HF') as [L1 L2].
    unfold k_post in *. rewrite apply_level in L1, L2 by exact Hk. rewrite apply_log in L2.
    rewrite Hs in *. destruct (add_debug_flags c (k_name k)) as (_ & _ & _ & _ & E & _).
    rewrite E in *. split; [exact L1|]. rewrite L2. unfold add_debug.
    destruct (5 <=? c_level c)%Z; simpl; [rewrite <- app_assoc|]; reflexivity.
Qed.

(** a call that lets the pipeline go on *)
Definition quiet (k : call) : Prop := k_out k = HRet None /\ stopped (k_post k) = false.
(** a call that ends the pipeline with result [r] *)
Definition ends (k : call) (r : rout) : Prop :=
  (k_out k = HPanic /\ r = RPanic) \/
  (exists e, k_out k = HRet (Some e) /\ r = RRet (Some e)) \/
  (k_out k = HRet None /\ stopped (k_post k) = true /\ r = RRet None).
Definition ends_hard (k : call) (r : rout) : Prop :=
  (k_out k = HPanic /\ r = RPanic) \/
  (exists e, k_out k = HRet (Some e) /\ r = RRet (Some e)).

Lemma run1_spec w n b c k c1 : run1 w n b c = (k, c1) ->
  k_who k = w /\ k_name k = n /\ k_seen k = add_debug c (k_name k) /\ c1 = k_post k.
Proof.
  unfold run1, k_post. destruct (b (add_debug c n)) as [acts out].
  intros H. injection H as <- <-. repeat split.
Qed.

Lemma after_call_spec k c : after_call true k (k_post k) = c ->
  match c with Continue => quiet k | Finish r => ends k r end.
Proof.
  unfold after_call, quiet, ends. destruct (k_out k) as [[e|]|]; simpl.
  - intros <-. right; left. eauto.
  - destruct (stopped (k_post k)) eqn:E; intros <-; auto 6.
  - intros <-. auto.
Qed.
Lemma after_call_hard k c : after_call false k (k_post k) = c ->
  match c with Continue => k_out k = HRet None | Finish r => ends_hard k r end.
Proof.
  unfold after_call, ends_hard. destruct (k_out k) as [[e|]|]; simpl; intros <-; eauto.
Qed.

Lemma run_list_spec mkw hs : forall i c ks c' r,
  run_list mkw i hs c = (ks, c', r) ->
  runs c ks c' /\
  (exists n, n <= length hs /\ whos ks = map mkw (seq i n) /\
             map k_name ks = map h_name (firstn n hs) /\
             match r with
             | Continue => n = length hs /\ Forall quiet ks
             | Finish x => exists ks0 k, ks = ks0 ++ [k] /\ Forall quiet ks0 /\ ends k x
             end).
Proof.
  induction hs as [|h hs IH]; intros i c ks c' r H; simpl in H.
  - injection H as <- <- <-. split; [constructor|]. exists 0. repeat split; auto.
  - destruct (run1 (mkw i) (h_name h) (h_run h) c) as [k c1] eqn:E1.
    apply run1_spec in E1 as (W & N & SN & ->).
    destruct (after_call true k (k_post k)) as [|x] eqn:A; apply after_call_spec in A.
    + destruct (run_list mkw (S i) hs (k_post k)) as [[ks1 c2] r1] eqn:E2.
      injection H as <- <- <-. apply IH in E2 as (R & n & Hn & Hw & Hnm & Hr).
      split; [constructor; [exact SN|exact R]|]. exists (S n).
      split; [simpl; lia|]. split; [unfold whos in *; simpl; rewrite W, Hw; reflexivity|].
      split; [simpl; rewrite N, Hnm; reflexivity|]. destruct r1 as [|x].
      * destruct Hr as [-> HF]. split; [reflexivity|]. constructor; assumption.
      * destruct Hr as (ks0 & k' & -> & HF & He). exists (k :: ks0), k'.
        split; [reflexivity|]. split; [constructor; assumption|exact He].
    + injection H as <- <- <-. split; [constructor; [exact SN|constructor]|].
      exists 1. split; [simpl; lia|]. split; [unfold whos; simpl; rewrite W; reflexivity|].
      split; [simpl; rewrite N; reflexivity|]. exists [], k. auto.
Qed.

Definition skips (ks : list call) : bool := existsb (fun k => existsb is_skip (k_acts k)) ks.

(** the names expected for a prefix of the pipeline *)
Definition seg_names (kb : list call) (hs : list handler) : Prop :=
  exists n, n <= length hs /\ length kb = n /\ map k_name kb = map h_name (firstn n hs).

Inductive run_shape (s : hset) (m : main_handler) (c : ctx) (ks : list call) (c' : ctx) (r : rout)
  : Prop := RunShape
  (rs_k0 : call) (rs_kb rs_km rs_ka : list call)
  (rs_split : ks = rs_k0 :: rs_kb ++ rs_km ++ rs_ka)
  (rs_init : k_who rs_k0 = WInit)
  (rs_runs : runs c ks c')
  (rs_wb : exists nb, nb <= length (hs_before s) /\ whos rs_kb = map WBefore (seq 0 nb)
            /\ map k_name rs_kb = map h_name (firstn nb (hs_before s))
            /\ (nb = length (hs_before s) \/ rs_km = [] /\ rs_ka = []))
  (rs_wm : (rs_km = [] \/ exists k, rs_km = [k] /\ k_who k = WMain /\ k_name k = m_name m))
  (rs_wa : exists na, na <= length (hs_after s) /\ whos rs_ka = map WAfter (seq 0 na)
            /\ map k_name rs_ka = map h_name (firstn na (hs_after s)))
  (rs_name0 : k_name rs_k0 = m_name m)
  (rs_main_called : rs_km <> [] -> c_skip c || skips (rs_k0 :: rs_kb) = false)
  (rs_main_skipped : rs_km = [] -> rs_ka <> [] -> c_skip c || skips (rs_k0 :: rs_kb) = true)
  (rs_end :
    (rs_kb ++ rs_km ++ rs_ka = [] /\ ends_hard rs_k0 r) \/
    (k_out rs_k0 = HRet None /\
      ((exists ks0 k, rs_kb ++ rs_km ++ rs_ka = ks0 ++ [k] /\ Forall quiet ks0 /\ ends k r) \/
       (Forall quiet (rs_kb ++ rs_km ++ rs_ka) /\ r = RRet None /\
        length rs_kb = length (hs_before s) /\ length rs_ka = length (hs_after s) /\
        (rs_km = [] -> c_skip c || skips (rs_k0 :: rs_kb) = true))))) : run_shape s m c ks c' r.

Lemma map_nil_inv {A C} (f : A -> C) l : map f l = [] -> l = [].
Proof. destruct l; [reflexivity|discriminate]. Qed.

Lemma run_set_shape s m c ks c' r :
  hs_main s = Some m -> run_set s c = (ks, c', r) -> run_shape s m c ks c' r.
Proof.
  intros Hm H. unfold run_set in H. rewrite Hm in H.
  destruct (run1 WInit (m_name m) (m_init m) c) as [k0 c0] eqn:E0.
  apply run1_spec in E0 as (W0 & N0 & S0 & ->).
  destruct (after_call false k0 (k_post k0)) as [|x] eqn:A0; apply after_call_hard in A0.
  2:{ injection H as <- <- <-. apply (RunShape s m c [k0] (k_post k0) x k0 [] [] []).
      - reflexivity.
      - exact W0.
      - constructor; [exact S0|constructor].
      - exists 0. repeat split; auto. lia.
      - auto.
      - exists 0. repeat split; auto. lia.
      - exact N0.
      - congruence.
      - congruence.
      - left. auto. }
  destruct (run_list WBefore 0 (hs_before s) (k_post k0)) as [[kb c1] rb] eqn:Eb.
  apply run_list_spec in Eb as (Rb & nb & Hnb & Wb & Nb & Cb).
  destruct rb as [|x].
  2:{ injection H as <- <- <-. destruct Cb as (ks0 & k & -> & HF & He).
      apply (RunShape s m c (k0 :: ks0 ++ [k]) c1 x k0 (ks0 ++ [k]) [] []).
      - rewrite !app_nil_r. reflexivity.
      - exact W0.
      - constructor; assumption.
      - exists nb. repeat split; auto.
      - auto.
      - exists 0. repeat split; auto. lia.
      - exact N0.
      - congruence.
      - congruence.
      - right. split; [exact A0|]. left. exists ks0, k. rewrite !app_nil_r. auto. }
  destruct Cb as [-> HFb].
  assert (R0b : runs c (k0 :: kb) c1) by (constructor; assumption).
  pose proof (runs_skip _ _ _ R0b) as Sk. fold (skips (k0 :: kb)) in Sk.
  assert (Lb : length kb = length (hs_before s)).
  { pose proof (f_equal (@length _) Wb) as L. unfold whos in L.
    rewrite !map_length, seq_length in L. exact L. }
  (* main *)
  destruct (c_skip c1) eqn:Esk.
  - (* skipped *)
    destruct (run_list WAfter 0 (hs_after s) c1) as [[ka c3] ra] eqn:Ea.
    apply run_list_spec in Ea as (Ra & na & Hna & Wa & Na & Ca).
    destruct ra as [|x].
    + injection H as <- <- <-. destruct Ca as [-> HFa].
      apply (RunShape s m c (k0 :: kb ++ [] ++ ka) c3 (RRet None) k0 kb [] ka).
      * reflexivity.
      * exact W0.
      * apply (runs_app c (k0 :: kb) c1 ka c3 R0b Ra).
      * exists (length (hs_before s)). repeat split; auto.
      * auto.
      * exists (length (hs_after s)). repeat split; auto.
      * exact N0.
      * congruence.
      * intros _ _. congruence.
      * right. split; [exact A0|]. right. cbn [app].
        split; [apply Forall_app; auto|]. split; [reflexivity|]. split; [exact Lb|].
        split; [|intros _; congruence].
        pose proof (f_equal (@length _) Wa) as L. unfold whos in L.
        rewrite !map_length, seq_length in L. exact L.
    + injection H as <- <- <-. destruct Ca as (ks0 & k & -> & HFa & He).
      apply (RunShape s m c (k0 :: kb ++ [] ++ ks0 ++ [k]) c3 x k0 kb [] (ks0 ++ [k])).
      * reflexivity.
      * exact W0.
      * apply (runs_app c (k0 :: kb) c1 (ks0 ++ [k]) c3 R0b Ra).
      * exists (length (hs_before s)). repeat split; auto.
      * auto.
      * exists na. repeat split; auto.
      * exact N0.
      * congruence.
      * intros _ _. congruence.
      * right. split; [exact A0|]. left. exists (kb ++ ks0), k. cbn [app].
        split; [rewrite app_assoc; reflexivity|]. split; [apply Forall_app; auto|exact He].
  - (* main is called *)
    destruct (run1 WMain (m_name m) (m_run m) c1) as [km c2] eqn:Em.
    apply run1_spec in Em as (Wm & Nm & Sm & ->).
    destruct (after_call true km (k_post km)) as [|x] eqn:Am; apply after_call_spec in Am.
    2:{ injection H as <- <- <-.
        apply (RunShape s m c (k0 :: kb ++ [km]) (k_post km) x k0 kb [km] []).
        - rewrite app_nil_r. reflexivity.
        - exact W0.
        - apply (runs_app c (k0 :: kb) c1 [km] _ R0b). constructor; [exact Sm|constructor].
        - exists (length (hs_before s)). repeat split; auto.
        - right. exists km. auto.
        - exists 0. repeat split; auto. lia.
        - exact N0.
        - intros _. congruence.
        - intros Hx. discriminate.
        - right. split; [exact A0|]. left. exists kb, km. rewrite app_nil_r. auto. }
    destruct (run_list WAfter 0 (hs_after s) (k_post km)) as [[ka c3] ra] eqn:Ea.
    apply run_list_spec in Ea as (Ra & na & Hna & Wa & Na & Ca).
    assert (Rall : runs c (k0 :: kb ++ [km] ++ ka) c3).
    { apply (runs_app c (k0 :: kb) c1 ([km] ++ ka) c3 R0b). constructor; assumption. }
    destruct ra as [|x].
    + injection H as <- <- <-. destruct Ca as [-> HFa].
      apply (RunShape s m c (k0 :: kb ++ [km] ++ ka) c3 (RRet None) k0 kb [km] ka).
      * reflexivity.
      * exact W0.
      * exact Rall.
      * exists (length (hs_before s)). repeat split; auto.
      * right. exists km. auto.
      * exists (length (hs_after s)). repeat split; auto.
      * exact N0.
      * intros _. congruence.
      * intros Hx. discriminate.
      * right. split; [exact A0|]. right.
        split; [apply Forall_app; split; [exact HFb|constructor; assumption]|].
        split; [reflexivity|]. split; [exact Lb|].
        split; [|intros Hx; discriminate].
        pose proof (f_equal (@length _) Wa) as L. unfold whos in L.
        rewrite !map_length, seq_length in L. exact L.
    + injection H as <- <- <-. destruct Ca as (ks0 & k & -> & HFa & He).
      apply (RunShape s m c (k0 :: kb ++ [km] ++ ks0 ++ [k]) c3 x k0 kb [km] (ks0 ++ [k])).
      * reflexivity.
      * exact W0.
      * exact Rall.
      * exists (length (hs_before s)). repeat split; auto.
      * right. exists km. auto.
      * exists na. repeat split; auto.
      * exact N0.
      * intros _. congruence.
      * intros Hx. discriminate.
      * right. split; [exact A0|]. left. exists (kb ++ km :: ks0), k.
        split; [rewrite <- app_assoc; reflexivity|].
        split; [apply Forall_app; split; [exact HFb|constructor; assumption]|exact He].
Qed.

(** ** Consequences *)
Lemma seq_prefix (n m : nat) {A} (f : nat -> A) : n <= m ->
  exists rest, map f (seq 0 m) = map f (seq 0 n) ++ rest.
Proof.
  intros H. replace m with (n + (m - n)) by lia. rewrite seq_app, map_app. eauto.
Qed.

Lemma whos_app a b : whos (a ++ b) = whos a ++ whos b.
Proof. apply map_app. Qed.

Lemma run_set_prefix s c ks c' r :
  hs_main s <> None -> run_set s c = (ks, c', r) ->
  exists b rest, pipeline s b = whos ks ++ rest.
Proof.
  intros Hm H. destruct (hs_main s) as [m|] eqn:Em; [|contradiction].
  destruct (run_set_shape s m c ks c' r Em H)
    as [k0 kb km ka -> Hi _ (nb & Hnb & Wb & _ & Hfull) Hkm (na & Hna & Wa & _) _ _ _ _].
  unfold pipeline. cbn [whos map]. rewrite Hi.
  change (map k_who (kb ++ km ++ ka)) with (whos (kb ++ km ++ ka)).
  rewrite !whos_app, Wb, Wa.
  destruct Hfull as [->|[-> ->]].
  - destruct (seq_prefix na (length (hs_after s)) WAfter Hna) as [rest ->].
    destruct Hkm as [->|(k & -> & Wk & _)].
    + exists false, rest. simpl. rewrite <- app_assoc. reflexivity.
    + exists true, rest. unfold whos. simpl. rewrite Wk, <- app_assoc. reflexivity.
  - destruct (seq_prefix nb (length (hs_before s)) WBefore Hnb) as [rest E].
    exists false. destruct na as [|na]; [|discriminate]. simpl. rewrite E.
    eexists. rewrite <- !app_assoc. simpl. reflexivity.
Qed.

Lemma NoDup_pipeline s b : NoDup (pipeline s b).
Proof.
  unfold pipeline.
  assert (NB : NoDup (map WBefore (seq 0 (length (hs_before s))))).
  { apply FinFun.Injective_map_NoDup; [intros x y E; congruence|apply seq_NoDup]. }
  assert (NA : NoDup (map WAfter (seq 0 (length (hs_after s))))).
  { apply FinFun.Injective_map_NoDup; [intros x y E; congruence|apply seq_NoDup]. }
  assert (APP : forall (l1 l2 : list who), NoDup l1 -> NoDup l2 ->
            (forall x, In x l1 -> ~ In x l2) -> NoDup (l1 ++ l2)).
  { induction l1 as [|x l1 IH]; intros l2 N1 N2 D; [exact N2|]. inversion N1; subst.
    simpl. constructor.
    - rewrite in_app_iff. intros [Hx|Hx]; [contradiction|]. exact (D x (or_introl eq_refl) Hx).
    - apply IH; auto. intros y Hy. apply D. right. exact Hy. }
  apply APP; [repeat constructor; intros []| |].
  - apply APP; [exact NB| |].
    + apply APP; [destruct b; repeat constructor; intros []|exact NA|].
      intros x Hx Ha. apply in_map_iff in Ha as (i & <- & _).
      destruct b; simpl in Hx; [destruct Hx as [Hx|[]]; discriminate|contradiction].
    + intros x Hx. apply in_map_iff in Hx as (i & <- & _). rewrite in_app_iff.
      intros [Hx|Hx]; [destruct b; simpl in Hx; [destruct Hx as [Hx|[]]; discriminate|contradiction]|].
      apply in_map_iff in Hx as (j & E & _). discriminate.
  - intros x [<-|[]]. rewrite !in_app_iff. intros [Hx|[Hx|Hx]].
    + apply in_map_iff in Hx as (j & E & _). discriminate.
    + destruct b; simpl in Hx; [destruct Hx as [Hx|[]]; discriminate|contradiction].
    + apply in_map_iff in Hx as (j & E & _). discriminate.
Qed.

Lemma NoDup_app_l {A} (l1 l2 : list A) : NoDup (l1 ++ l2) -> NoDup l1.
Proof.
  induction l1 as [|x l1 IH]; simpl; intros H; [constructor|]. inversion H; subst.
  constructor; [|auto]. intros Hx. apply H2. apply in_app_iff. auto.
Qed.

(** position of a call that ends the run *)
Lemma ends_unique s m c ks c' r ks1 k ks2 :
  run_shape s m c ks c' r -> ks = ks1 ++ k :: ks2 ->
  (k_who k <> WInit /\ ~ quiet k) \/ k_out k <> HRet None ->
  ks2 = [] /\ (ends k r).
Proof.
  intros Sh E Hk.
  destruct Sh as [k0 kb km ka Es Hi _ _ _ _ _ _ _ Hend].
  set (rest := kb ++ km ++ ka) in *.
  destruct Hend as [[E1 He]|[H0 Hend]].
  - rewrite E1 in Es. rewrite Es in E. destruct ks1 as [|? [|]]; try discriminate.
    simpl in E. injection E as <- <-. split; [reflexivity|].
    destruct He as [He|He]; [left; exact He|right; left; exact He].
  - rewrite Es in E. destruct ks1 as [|k1 ks1].
    + injection E as <- _. exfalso. destruct Hk as [[Hk _]|Hk]; [exact (Hk Hi)|exact (Hk H0)].
    + simpl in E. injection E as _ E.
      assert (NQ : ~ quiet k).
      { destruct Hk as [[_ Hk]|Hk]; [exact Hk|]. intros [Q _]. contradiction. }
      destruct Hend as [(ks0 & k' & E2 & HF & He)|(HF & _)].
      * rewrite E2 in E. destruct ks2 as [|y ks2 _] using rev_ind.
        -- apply app_inj_tail in E as [_ ->]. auto.
        -- exfalso. change (ks1 ++ k :: ks2 ++ [y]) with (ks1 ++ (k :: ks2) ++ [y]) in E.
           rewrite app_assoc in E. apply app_inj_tail in E as [E _].
           rewrite E in HF. apply Forall_app in HF as [_ HF]. inversion HF; contradiction.
      * exfalso. rewrite E in HF. apply Forall_app in HF as [_ HF]. inversion HF; contradiction.
Qed.

(** ** Genuineness *)
Lemma run1_does w n b c k c1 : run1 w n b c = (k, c1) -> k_who k = w /\ does k n b.
Proof.
  unfold run1, does. destruct (b (add_debug c n)) as [acts out] eqn:E.
  intros H. injection H as <- <-. simpl. auto.
Qed.

Lemma run_list_genuine mkw (hs : list handler) : forall i c ks c' r,
  run_list mkw i hs c = (ks, c', r) ->
  Forall (fun k => exists j h, k_who k = mkw (i + j) /\ nth_error hs j = Some h
                               /\ does k (h_name h) (h_run h)) ks.
Proof.
  induction hs as [|h hs IH]; intros i c ks c' r H; simpl in H.
  - injection H as <- <- <-. constructor.
  - destruct (run1 (mkw i) (h_name h) (h_run h) c) as [k c1] eqn:E1.
    apply run1_does in E1 as [W D].
    assert (G : exists j h', k_who k = mkw (i + j) /\ nth_error (h :: hs) j = Some h'
                             /\ does k (h_name h') (h_run h')).
    { exists 0, h. rewrite Nat.add_0_r. auto. }
    destruct (after_call true k c1) as [|x].
    + destruct (run_list mkw (S i) hs c1) as [[ks1 c2] r1] eqn:E2.
      injection H as <- <- <-. constructor; [exact G|]. apply IH in E2.
      eapply Forall_impl; [|exact E2]. intros k' (j & h' & W' & N' & D').
      exists (S j), h'. rewrite Nat.add_succ_r. auto.
    + injection H as <- <- <-. constructor; [exact G|constructor].
Qed.

Lemma run_set_genuine s c ks c' r : run_set s c = (ks, c', r) -> Forall (genuine s) ks.
Proof.
  unfold run_set. destruct (hs_main s) as [m|] eqn:Hm;
    [|intros H; injection H as <- <- <-; constructor].
  destruct (run1 WInit (m_name m) (m_init m) c) as [k0 c0] eqn:E0.
  apply run1_does in E0 as [W0 D0].
  assert (G0 : genuine s k0) by (unfold genuine; rewrite W0, Hm; eauto).
  destruct (after_call false k0 c0) as [|x].
  2:{ intros H; injection H as <- <- <-; auto. }
  destruct (run_list WBefore 0 (hs_before s) c0) as [[kb c1] rb] eqn:Eb.
  apply run_list_genuine in Eb.
  assert (Gb : Forall (genuine s) kb).
  { eapply Forall_impl; [|exact Eb]. intros k (j & h & W & N & D). unfold genuine.
    rewrite W. eauto. }
  destruct rb as [|x].
  2:{ intros H; injection H as <- <- <-; auto. }
  destruct (if c_skip c1 then ([], c1, Continue)
            else let '(k, c2) := run1 WMain (m_name m) (m_run m) c1 in
                 ([k], c2, after_call true k c2)) as [[km c2] rm] eqn:Em.
  assert (Gm : Forall (genuine s) km).
  { destruct (c_skip c1); [injection Em as <- <- <-; constructor|].
    destruct (run1 WMain (m_name m) (m_run m) c1) as [k c2'] eqn:E1.
    apply run1_does in E1 as [W D]. injection Em as <- <- <-.
    constructor; [unfold genuine; rewrite W, Hm; eauto|constructor]. }
  destruct rm as [|x].
  2:{ intros H; injection H as <- <- <-. constructor; [exact G0|]. apply Forall_app; auto. }
  destruct (run_list WAfter 0 (hs_after s) c2) as [[ka c3] ra] eqn:Ea.
  apply run_list_genuine in Ea.
  assert (Ga : Forall (genuine s) ka).
  { eapply Forall_impl; [|exact Ea]. intros k (j & h & W & N & D). unfold genuine.
    rewrite W. eauto. }
  destruct ra as [|x]; intros H; injection H as <- <- <-; constructor; try exact G0;
    apply Forall_app; split; auto; apply Forall_app; auto.
Qed.

Lemma run_set_runs s c ks c' r : run_set s c = (ks, c', r) -> runs c ks c'.
Proof.
  intros H. destruct (hs_main s) as [m|] eqn:Hm.
  - destruct (run_set_shape s m c ks c' r Hm H). assumption.
  - unfold run_set in H. rewrite Hm in H. injection H as <- <- <-. constructor.
Qed.

(** ** Stop bookkeeping *)
Lemma is_stop_asks k : existsb is_stop (k_acts k) = true <-> asks_stop k.
Proof.
  rewrite existsb_exists. unfold asks_stop, asks. split.
  - intros (a & Hi & Ha). destruct a; try discriminate; auto.
  - intros [H|H]; [exists AStop|exists AAbort]; auto.
Qed.
Lemma is_abort_asks k : existsb is_abort (k_acts k) = true <-> asks AAbort k.
Proof.
  rewrite existsb_exists. unfold asks. split.
  - intros (a & Hi & Ha). destruct a; try discriminate; auto.
  - intros H. exists AAbort; auto.
Qed.
Lemma is_skip_asks k : existsb is_skip (k_acts k) = true <-> asks ASkipMain k.
Proof.
  rewrite existsb_exists. unfold asks. split.
  - intros (a & Hi & Ha). destruct a; try discriminate; auto.
  - intros H. exists ASkipMain; auto.
Qed.

Lemma post_stopped c k : k_seen k = add_debug c (k_name k) ->
  stopped (k_post k) = stopped c || existsb is_stop (k_acts k).
Proof.
  intros E. unfold k_post. rewrite apply_stopped, E.
  destruct (add_debug_flags c (k_name k)) as (-> & _). reflexivity.
Qed.

Lemma runs_stopped c ks c' : runs c ks c' ->
  stopped c' = stopped c || existsb (fun k => existsb is_stop (k_acts k)) ks.
Proof.
  induction 1 as [c|c k ks c' Hs H IH]; simpl; [rewrite orb_false_r; reflexivity|].
  rewrite IH, (post_stopped c k Hs), orb_assoc. reflexivity.
Qed.

Lemma runs_no_stop c ks c' : runs c ks c' -> stopped c = false ->
  (forall k, In k ks -> ~ asks_stop k) -> forall k, In k ks -> stopped (k_post k) = false.
Proof.
  induction 1 as [c|c k ks c' Hs H IH]; intros H0 Hn k' Hi; [destruct Hi|].
  assert (P : stopped (k_post k) = false).
  { rewrite (post_stopped c k Hs), H0. simpl.
    destruct (existsb is_stop (k_acts k)) eqn:E; [|reflexivity].
    apply is_stop_asks in E. exfalso. exact (Hn k (or_introl eq_refl) E). }
  destruct Hi as [<-|Hi]; [exact P|]. apply IH; auto. intros k2 H2. apply Hn. right. exact H2.
Qed.

Lemma runs_tasks c ks c' : runs c ks c' -> c_tasks c' = c_tasks c ++ all_started ks.
Proof.
  assert (AT : forall acts c, c_tasks (apply c acts) =
     c_tasks c ++ flat_map (fun a => match a with AGo r => [r] | _ => [] end) acts).
  { unfold apply. induction acts as [|a acts IH]; intros c0; simpl; [rewrite app_nil_r; reflexivity|].
    rewrite IH. destruct a; simpl; try reflexivity. rewrite <- app_assoc. reflexivity. }
  induction 1 as [c|c k ks c' Hs H IH]; simpl; [rewrite app_nil_r; reflexivity|].
  rewrite IH. unfold k_post. rewrite AT, Hs.
  destruct (add_debug_flags c (k_name k)) as (_ & _ & _ & _ & _ & ->).
  unfold started. rewrite <- app_assoc. reflexivity.
Qed.

Lemma existsb_false_iff {A} (f : A -> bool) l :
  existsb f l = false <-> forall x, In x l -> f x = false.
Proof.
  split.
  - intros H x Hi. destruct (f x) eqn:E; [|reflexivity].
    exfalso. assert (existsb f l = true) by (apply existsb_exists; eauto). congruence.
  - intros H. destruct (existsb f l) eqn:E; [|reflexivity].
    apply existsb_exists in E as (x & Hi & Hx). rewrite (H x Hi) in Hx. discriminate.
Qed.

Lemma skips_false ks : skips ks = false <-> forall k, In k ks -> ~ asks ASkipMain k.
Proof.
  unfold skips. rewrite existsb_false_iff. split; intros H k Hi.
  - intros A. apply is_skip_asks in A. rewrite (H k Hi) in A. discriminate.
  - destruct (existsb is_skip (k_acts k)) eqn:E; [|reflexivity].
    apply is_skip_asks in E. exfalso. exact (H k Hi E).
Qed.
Lemma skips_true ks : skips ks = true <-> exists k, In k ks /\ asks ASkipMain k.
Proof.
  unfold skips. rewrite existsb_exists. split; intros (k & Hi & H); exists k;
    rewrite is_skip_asks in *; auto.
Qed.

(** which calls of a shape are early *)
Lemma whos_in k ks : In k ks -> In (k_who k) (whos ks).
Proof. apply in_map. Qed.

(** ** Everything runs *)
Lemma shape_full s m c ks c' :
  run_shape s m c ks c' (RRet None) -> stopped c' = false ->
  exists b, whos ks = pipeline s b /\
    (b = true <-> c_skip c = false /\ forall k, In k ks -> early (k_who k) -> ~ asks ASkipMain k).
Proof.
  intros Sh Hst.
  destruct Sh as [k0 kb km ka Es Hi R (nb & Hnb & Wb & _ & Hfull) Hkm (na & Hna & Wa & _) _ Hmc Hms Hend].
  assert (Full : Forall quiet (kb ++ km ++ ka) /\
        length kb = length (hs_before s) /\ length ka = length (hs_after s) /\
        (km = [] -> c_skip c || skips (k0 :: kb) = true)).
  { destruct Hend as [[_ [[_ X]|(e & _ & X)]]|[_ [(ks0 & k & E & HF & He)|(HF & _ & L1 & L2 & L3)]]];
      try discriminate; [|auto].
    exfalso. destruct He as [[_ X]|[(e & _ & X)|(_ & X & _)]]; try discriminate.
    rewrite Es in R. rewrite E in R.
    change (k0 :: ks0 ++ [k]) with ((k0 :: ks0) ++ k :: []) in R.
    destruct (runs_split _ _ _ _ _ R) as (c1 & _ & _ & R2). inversion R2; subst. congruence. }
  destruct Full as (_ & Lb & La & Hskip).
  assert (Ea : early (k_who k0) /\ forall k, In k kb -> early (k_who k)).
  { split; [left; exact Hi|]. intros k Hk. right.
    pose proof (whos_in k kb Hk) as Hw. rewrite Wb in Hw. apply in_map_iff in Hw as (i & E & _). eauto. }
  assert (Na : forall k, In k ka -> ~ early (k_who k)).
  { intros k Hk. pose proof (whos_in k ka Hk) as Hw. rewrite Wa in Hw.
    apply in_map_iff in Hw as (i & E & _). rewrite <- E. intros [X|[j X]]; discriminate. }
  assert (WB : whos kb = map WBefore (seq 0 (length (hs_before s)))).
  { rewrite Wb. f_equal. f_equal. pose proof (f_equal (@length _) Wb) as L. unfold whos in L.
    rewrite !map_length, seq_length in L. lia. }
  assert (WA : whos ka = map WAfter (seq 0 (length (hs_after s)))).
  { rewrite Wa. f_equal. f_equal. pose proof (f_equal (@length _) Wa) as L. unfold whos in L.
    rewrite !map_length, seq_length in L. lia. }
  assert (NM : forall k, In k km -> ~ early (k_who k)).
  { intros k Hk. destruct Hkm as [->|(k' & -> & W & _)]; [destruct Hk|].
    destruct Hk as [<-|[]]. rewrite W. intros [X|[j X]]; discriminate. }
  assert (SK : c_skip c || skips (k0 :: kb) = false <->
               c_skip c = false /\ forall k, In k ks -> early (k_who k) -> ~ asks ASkipMain k).
  { rewrite orb_false_iff, skips_false. split; intros [A1 A2]; (split; [exact A1|]); intros k Hk.
    - intros He. apply A2. rewrite Es in Hk. destruct Hk as [<-|Hk]; [left; reflexivity|].
      apply in_app_iff in Hk as [Hk|Hk]; [right; exact Hk|].
      apply in_app_iff in Hk as [Hk|Hk]; exfalso; [exact (NM k Hk He)|exact (Na k Hk He)].
    - destruct Hk as [<-|Hk].
      + apply A2; [rewrite Es; left; reflexivity|exact (proj1 Ea)].
      + apply A2; [rewrite Es; right; apply in_app_iff; auto|exact (proj2 Ea k Hk)]. }
  exists (match km with [] => false | _ => true end). split.
  - rewrite Es. unfold pipeline. unfold whos in *. cbn [map]. rewrite !map_app, WB, WA, Hi.
    destruct Hkm as [->|(k & -> & W & _)]; [reflexivity|]. simpl. rewrite W. reflexivity.
  - rewrite <- SK. destruct km as [|k1 km'].
    + split; [discriminate|]. rewrite (Hskip eq_refl). discriminate.
    + split; [intros _; apply Hmc; discriminate|reflexivity].
Qed.
