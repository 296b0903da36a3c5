(** The before lists of routers are never written to (C31), the last and main handlers
    (C32). *)
From Verif Require Import Base GoSlices M_Router S_Router P_Slices P_Router P_Router2 P_Router3.

Definition rb (st : state) : list slice := map r_before (st_routers st).
(** the slices that appends are made on *)
Definition wr (st : state) : list slice := map r_after (st_routers st) ++ setsl st.

Record binv (st : state) : Prop := {
  b_wb : forall s, In s (rb st) -> wfs (st_heap st) s;
  b_ww : forall s, In s (wr st) -> wfs (st_heap st) s;
  b_dj : forall s t, In s (rb st) -> In t (wr st) -> disj s t
}.
Lemma binv_init : binv init.
Proof. constructor; [intros s []|intros s []|intros s t []]. Qed.

(** either an old one (or grown in place from one) or new *)
Definition kin (h : heap) (l : list slice) (s : slice) : Prop :=
  (exists s0, In s0 l /\ sl_arr s = sl_arr s0 /\ (sl_cap s0 = 0 -> sl_cap s = 0)) \/
  length h <= sl_arr s \/ sl_cap s = 0.
Lemma kin_in h l s : In s l -> kin h l s.
Proof. intros H. left. exists s. auto. Qed.

Lemma binv_step st st' :
  binv st -> heap_ext (st_heap st) (st_heap st') ->
  (forall s, In s (rb st') -> In s (rb st) \/ (wfs (st_heap st') s /\ (length (st_heap st) <= sl_arr s \/ sl_cap s = 0))) ->
  (forall s, In s (wr st') -> In s (wr st) \/ (wfs (st_heap st') s /\ kin (st_heap st) (wr st) s)) ->
  (forall s t, In s (rb st') -> In t (wr st') -> length (st_heap st) <= sl_arr s -> length (st_heap st) <= sl_arr t -> disj s t) ->
  binv st'.
Proof.
  intros I He Hb Hw Hn. constructor.
  - intros s Hs. destruct (Hb s Hs) as [H|[H _]]; [exact (wfs_ext _ _ _ He (b_wb st I s H))|exact H].
  - intros s Hs. destruct (Hw s Hs) as [H|[H _]]; [exact (wfs_ext _ _ _ He (b_ww st I s H))|exact H].
  - intros s t Hs Ht.
    assert (Kt : kin (st_heap st) (wr st) t) by (destruct (Hw t Ht) as [H|[_ H]]; [apply kin_in; exact H|exact H]).
    destruct Kt as [(t0 & I0 & E0 & C0)|[F|C]].
    + destruct (Hb s Hs) as [H|[_ [F|C]]].
      * destruct (b_dj st I s t0 H I0) as [D|[D|D]]; unfold disj; [auto|auto|rewrite E0; auto].
      * destruct (b_ww st I t0 I0) as [_ [W|[W _]]]; unfold disj; [auto|]. right; right. lia.
      * left; exact C.
    + destruct (Hb s Hs) as [H|[_ [F'|C]]].
      * destruct (b_wb st I s H) as [_ [W|[W _]]]; unfold disj; [auto|]. right; right. lia.
      * auto.
      * left; exact C.
    + right; left; exact C.
Qed.

Definition sets_before (y : nat) (o : op) : bool :=
  match o with RFirst r _ | RBefore r _ => r =? y | _ => false end.

Ltac w0 := unfold rb, wr, setsl in *; simpl in *;
  rewrite ?map_app, ?flat_map_app, ?in_app_iff in *; simpl in *; rewrite ?in_app_iff in *; simpl in *.

Lemma wr_after st r x : nth_error (st_routers st) r = Some x -> In (r_after x) (wr st).
Proof. intros H. unfold wr. apply in_app_iff. left. exact (In_map_nth r_after _ r x H). Qed.
Lemma wr_set st i x s : nth_error (st_sets st) i = Some x -> In s (ssl x) -> In s (wr st).
Proof. intros H I. unfold wr, setsl. apply in_app_iff. right. exact (In_flat_map_nth ssl s _ i x H I). Qed.

Lemma before_step grow st o st' :
  binv st -> tidy o = true -> step grow st o = Ok st' ->
  binv st' /\
  (forall y, y < length (st_routers st) -> sets_before y o = false ->
     router_before st' y = router_before st y).
Proof.
  intros I Ht H.
  assert (KEEP : forall h' rs ss vs gs,
    heap_ext (st_heap st) h' ->
    (forall p, wfs (st_heap st) p -> (forall w, In w (wr st) -> disj p w) -> read h' p = read (st_heap st) p) ->
    forall y, nth_error (map r_before rs) y = nth_error (map r_before (st_routers st)) y ->
    router_before (State h' rs ss vs gs) y = router_before st y).
  { intros h' rs ss vs gs He Hr y Hy. unfold router_before. cbn [st_routers st_heap].
    rewrite !nth_error_map in Hy.
    destruct (nth_error (st_routers st) y) as [a|] eqn:Ea; destruct (nth_error rs y) as [b|] eqn:Eb;
      cbn [option_map] in *; try discriminate Hy; [|reflexivity].
    injection Hy as ->. f_equal.
    assert (Ia : In (r_before a) (rb st)) by (exact (In_map_nth r_before _ y a Ea)).
    apply Hr; [exact (b_wb st I _ Ia)|]. intros w Hw. exact (b_dj st I _ _ Ia Hw). }
  assert (UPD : forall r x z y, nth_error (st_routers st) r = Some x ->
    (r_before z = r_before x \/ (r =? y) = false) ->
    nth_error (map r_before (upd_nth r (fun _ => z) (st_routers st))) y = nth_error (map r_before (st_routers st)) y).
  { intros r x z y Ex Hz. rewrite !nth_error_map, nth_error_upd_nth.
    destruct (y =? r) eqn:E; [|reflexivity]. apply Nat.eqb_eq in E. subst y. rewrite Ex. cbn [option_map].
    destruct Hz as [->|Hz]; [reflexivity|]. rewrite Nat.eqb_refl in Hz. discriminate. }
  destruct o; try discriminate; cbn [step] in H.
  - (* NewRouter *)
    destruct (alloc (st_heap st) [] 0) as [h1 b] eqn:E1. destruct (alloc h1 [] 0) as [h2 a] eqn:E2.
    injection H as <-.
    destruct (alloc_spec _ _ _ _ _ E1) as (A1 & A2 & A3 & A4 & A5 & A6 & A7).
    destruct (alloc_spec _ _ _ _ _ E2) as (B1 & B2 & B3 & B4 & B5 & B6 & B7).
    assert (Cb : sl_cap b = 0) by (unfold alloc in E1; injection E1 as _ <-; reflexivity).
    assert (Ca : sl_cap a = 0) by (unfold alloc in E2; injection E2 as _ <-; reflexivity).
    assert (X : heap_ext (st_heap st) h2) by exact (heap_ext_trans _ _ _ A1 B1).
    split.
    + apply (binv_step st); [exact I|exact X| | |].
      * intros s Hs. w0. destruct Hs as [Hs|[<-|[]]]; auto. right. split; [exact (wfs_ext _ _ _ B1 A2)|auto].
      * intros s Hs. w0. destruct Hs as [[Hs|[<-|[]]]|Hs]; auto. right. split; [exact B2|right; right; exact Ca].
      * intros s t Hs Ht' Fs Ft. w0. destruct Hs as [Hs|[<-|[]]]; [|left; exact Cb].
        destruct (b_wb st I s Hs) as [_ [W|[W _]]]; [left; exact W|lia].
    + intros y Ly _. apply KEEP; [exact X| |].
      * intros p Wp _. rewrite B7 by exact (wfs_ext _ _ _ A1 Wp). apply A7; exact Wp.
      * rewrite map_app, nth_error_app1 by (rewrite map_length; exact Ly). reflexivity.
  - (* RFirst *)
    destruct (nth_error (st_routers st) r) as [x|] eqn:Ex; [|discriminate].
    destruct (alloc (st_heap st) [h] 0) as [h1 lit] eqn:E1.
    destruct (append grow h1 lit (read h1 (r_before x))) as [h2 b] eqn:E2. injection H as <-.
    destruct (alloc_spec _ _ _ _ _ E1) as (A1 & A2 & A3 & A4 & A5 & A6 & A7).
    destruct (append_spec _ _ _ _ _ _ A2 E2) as (B1 & B2 & B3 & B4 & B5).
    assert (Fb : length (st_heap st) <= sl_arr b) by (destruct B5 as [(E & _)|(E & _)]; [lia|destruct A1; lia]).
    assert (X : heap_ext (st_heap st) h2) by exact (heap_ext_trans _ _ _ A1 B1).
    assert (Ww : forall s, In s (wr (set_router st h2 r (Router b (r_after x) (r_last x)))) -> In s (wr st)).
    { intros s Hs. w0. destruct Hs as [Hs|Hs]; [|auto]. apply In_map_upd in Hs as [Hs|Hs]; [auto|].
      left. subst s. exact (In_map_nth r_after _ r x Ex). }
    split.
    + apply (binv_step st); [exact I|exact X| | |].
      * intros s Hs. w0. apply In_map_upd in Hs as [Hs|Hs]; [auto|]. subst s. right. split; [exact B2|auto].
      * intros s Hs. left. exact (Ww s Hs).
      * intros s t Hs Ht' Fs Ft. destruct (b_ww st I t (Ww t Ht')) as [_ [W|[W _]]]; [right; left; exact W|lia].
    + intros y Ly Ny. apply KEEP; [exact X| |].
      * intros p Wp _. rewrite (append_read_disj _ _ _ _ _ _ p A2 E2 (wfs_ext _ _ _ A1 Wp)); [auto|].
        destruct Wp as [_ [Wp|[Wp _]]]; [right; left; exact Wp|right; right; lia].
      * apply (UPD r x); auto.
  - (* RBefore *)
    destruct a as [xs extra|]; [|discriminate].
    destruct (nth_error (st_routers st) r) as [x|] eqn:Ex; [|discriminate]. unfold eval_arg in H.
    destruct (alloc (st_heap st) xs extra) as [h1 b] eqn:E1. injection H as <-.
    destruct (alloc_spec _ _ _ _ _ E1) as (A1 & A2 & A3 & A4 & A5 & A6 & A7).
    assert (Ww : forall s, In s (wr (set_router st h1 r (Router b (r_after x) (r_last x)))) -> In s (wr st)).
    { intros s Hs. w0. destruct Hs as [Hs|Hs]; [|auto]. apply In_map_upd in Hs as [Hs|Hs]; [auto|].
      left. subst s. exact (In_map_nth r_after _ r x Ex). }
    split.
    + apply (binv_step st); [exact I|exact A1| | |].
      * intros s Hs. w0. apply In_map_upd in Hs as [Hs|Hs]; [auto|]. subst s. simpl. right. split; [exact A2|left; lia].
      * intros s Hs. left. exact (Ww s Hs).
      * intros s t Hs Ht' Fs Ft. destruct (b_ww st I t (Ww t Ht')) as [_ [W|[W _]]]; [right; left; exact W|lia].
    + intros y Ly Ny. apply KEEP; [exact A1|intros p Wp _; auto|]. apply (UPD r x); auto.
  - (* RAfter *)
    destruct a as [xs extra|]; [|discriminate].
    destruct (nth_error (st_routers st) r) as [x|] eqn:Ex; [|discriminate]. unfold eval_arg in H.
    destruct (alloc (st_heap st) xs extra) as [h1 b] eqn:E1. injection H as <-.
    destruct (alloc_spec _ _ _ _ _ E1) as (A1 & A2 & A3 & A4 & A5 & A6 & A7).
    assert (Bb : forall s, In s (rb (set_router st h1 r (Router (r_before x) b (r_last x)))) -> In s (rb st)).
    { intros s Hs. w0. apply In_map_upd in Hs as [Hs|Hs]; [auto|]. subst s. exact (In_map_nth r_before _ r x Ex). }
    split.
    + apply (binv_step st); [exact I|exact A1| | |].
      * intros s Hs. left. exact (Bb s Hs).
      * intros s Hs. w0. destruct Hs as [Hs|Hs]; [|auto]. apply In_map_upd in Hs as [Hs|Hs]; [auto|].
        subst s. simpl. right. split; [exact A2|right; left; lia].
      * intros s t Hs Ht' Fs Ft. destruct (b_wb st I s (Bb s Hs)) as [_ [W|[W _]]]; [left; exact W|lia].
    + intros y Ly Ny. apply KEEP; [exact A1|intros p Wp _; auto|]. apply (UPD r x); auto.
  - (* RLastAfter *)
    destruct (nth_error (st_routers st) r) as [x|] eqn:Ex; [|discriminate].
    pose proof (wr_after st r x Ex) as Ia. pose proof (b_ww st I _ Ia) as Wa.
    destruct (append grow (st_heap st) (r_after x) [h]) as [h1 a] eqn:E1. injection H as <-.
    destruct (append_spec _ _ _ _ _ _ Wa E1) as (B1 & B2 & B3 & B4 & B5).
    assert (Bb : forall s, In s (rb (set_router st h1 r (Router (r_before x) a (r_last x)))) -> In s (rb st)).
    { intros s Hs. w0. apply In_map_upd in Hs as [Hs|Hs]; [auto|]. subst s. exact (In_map_nth r_before _ r x Ex). }
    split.
    + apply (binv_step st); [exact I|exact B1| | |].
      * intros s Hs. left. exact (Bb s Hs).
      * intros s Hs. unfold wr in Hs. simpl in Hs. apply in_app_iff in Hs as [Hs|Hs];
          [|left; unfold wr; apply in_app_iff; auto].
        apply In_map_upd in Hs as [Hs|Hs]; [left; unfold wr; apply in_app_iff; auto|].
        subst s. simpl. right. split; [exact B2|].
        destruct (append_kin _ _ _ _ _ _ Wa E1) as [K|K]; [left; exists (r_after x); auto|right; auto].
      * intros s t Hs Ht' Fs Ft. destruct (b_wb st I s (Bb s Hs)) as [_ [W|[W _]]]; [left; exact W|lia].
    + intros y Ly Ny. apply KEEP; [exact B1| |].
      * intros p Wp Dp. apply (append_read_disj _ _ _ _ _ _ p Wa E1 Wp). apply disj_sym. auto.
      * apply (UPD r x); auto.
  - (* RLast *)
    destruct (nth_error (st_routers st) r) as [x|] eqn:Ex; [|discriminate]. injection H as <-.
    assert (Bb : forall s, In s (rb (set_router st (st_heap st) r (Router (r_before x) (r_after x) l))) -> In s (rb st)).
    { intros s Hs. w0. apply In_map_upd in Hs as [Hs|Hs]; [auto|]. subst s. exact (In_map_nth r_before _ r x Ex). }
    split.
    + apply (binv_step st); [exact I|apply heap_ext_refl|intros s Hs; left; exact (Bb s Hs)| |].
      * intros s Hs. left. w0. destruct Hs as [Hs|Hs]; [|auto]. apply In_map_upd in Hs as [Hs|Hs]; [auto|].
        left. subst s. exact (In_map_nth r_after _ r x Ex).
      * intros s t Hs Ht' Fs Ft. destruct (b_wb st I s (Bb s Hs)) as [_ [W|[W _]]]; [left; exact W|lia].
    + intros y Ly Ny. apply KEEP; [apply heap_ext_refl|auto|]. apply (UPD r x); auto.
  - (* RClone *)
    destruct (nth_error (st_routers st) r) as [x|] eqn:Ex; [|discriminate]. injection H as <-.
    set (st1 := State (st_heap st) (st_routers st ++ [Router (r_before x) (r_after x) (r_last x)])
                 (st_sets st) (st_vars st) (st_routes st)).
    assert (Bb : forall s, In s (rb st1) -> In s (rb st)).
    { intros s Hs. w0. destruct Hs as [Hs|[<-|[]]]; auto. exact (In_map_nth r_before _ r x Ex). }
    split.
    + apply (binv_step st); [exact I|apply heap_ext_refl|intros s Hs; left; exact (Bb s Hs)| |].
      * intros s Hs. left. w0. destruct Hs as [[Hs|[<-|[]]]|Hs]; auto. left. exact (In_map_nth r_after _ r x Ex).
      * intros s t Hs Ht' Fs Ft. destruct (b_wb st I s (Bb s Hs)) as [_ [W|[W _]]]; [left; exact W|lia].
    + intros y Ly Ny. apply KEEP; [apply heap_ext_refl|auto|].
      rewrite map_app, nth_error_app1 by (rewrite map_length; exact Ly). reflexivity.
  - (* RUse *)
    destruct (nth_error (st_routers st) r) as [x|] eqn:Ex; [|discriminate].
    destruct (new_set (st_heap st)) as [h1 s0] eqn:E0.
    destruct (new_set_spec _ _ _ E0) as (N1 & N2 & N3 & N4 & N5 & N6 & N7 & N8 & N9 & N10).
    unfold set_after, set_before in H.
    destruct (append grow h1 (s_after s0) (read h1 (r_after x))) as [h2 a] eqn:E1.
    cbn [s_before s_after s_last s_main] in H.
    destruct (append grow h2 (s_before s0) (read h2 (r_before x))) as [h3 b] eqn:E2.
    injection H as <-.
    destruct (append_spec _ _ _ _ _ _ N3 E1) as (B1 & B2 & B3 & B4 & B5).
    pose proof (wfs_ext _ _ _ B1 N2) as N2'.
    destruct (append_spec _ _ _ _ _ _ N2' E2) as (C1 & C2 & C3 & C4 & C5).
    assert (X : heap_ext (st_heap st) h3) by exact (heap_ext_trans _ _ _ (heap_ext_trans _ _ _ N1 B1) C1).
    split.
    + apply (binv_step st); [exact I|exact X|intros s Hs; left; exact Hs|intros s Hs; left; exact Hs|].
      intros s t Hs Ht' Fs Ft. destruct (b_wb st I s Hs) as [_ [W|[W _]]]; [left; exact W|lia].
    + intros y Ly Ny. apply KEEP; [exact X| |reflexivity].
      intros t Wt _. pose proof (wfs_ext _ _ _ N1 Wt) as W1. pose proof (wfs_ext _ _ _ B1 W1) as W2.
      rewrite C4; [|exact W2|left; left; exact N6].
      rewrite B4; [|exact W1|left; left; exact N7]. apply N10; exact Wt.
  - (* NewSet *)
    destruct (new_set (st_heap st)) as [h1 s0] eqn:E0. injection H as <-.
    destruct (new_set_spec _ _ _ E0) as (N1 & N2 & N3 & N4 & N5 & N6 & N7 & N8 & N9 & N10).
    split.
    + apply (binv_step st); [exact I|exact N1|intros s Hs; left; exact Hs| |].
      * intros s Hs. w0. destruct Hs as [Hs|[Hs|[<-|[<-|[]]]]]; auto; right; (split; [assumption|]); right; auto.
      * intros s t Hs Ht' Fs Ft. destruct (b_wb st I s Hs) as [_ [W|[W _]]]; [left; exact W|lia].
    + intros y Ly Ny. apply KEEP; [exact N1|auto|reflexivity].
  - (* SBefore *)
    destruct a as [xs extra|]; [|discriminate].
    destruct (nth_error (st_sets st) s) as [x|] eqn:Ex; [|discriminate]. unfold eval_arg in H.
    destruct (alloc (st_heap st) xs extra) as [h1 sa] eqn:E1.
    destruct (alloc_spec _ _ _ _ _ E1) as (A1 & A2 & A3 & A4 & A5 & A6 & A7).
    assert (Ib : In (s_before x) (wr st)) by (apply (wr_set st s x _ Ex); left; reflexivity).
    pose proof (wfs_ext _ _ _ A1 (b_ww st I _ Ib)) as Wb. unfold set_before in H.
    destruct (append grow h1 (s_before x) (read h1 sa)) as [h2 b] eqn:E2. injection H as <-.
    destruct (append_spec _ _ _ _ _ _ Wb E2) as (B1 & B2 & B3 & B4 & B5).
    assert (X : heap_ext (st_heap st) h2) by exact (heap_ext_trans _ _ _ A1 B1).
    split.
    + apply (binv_step st); [exact I|exact X|intros u Hu; left; exact Hu| |].
      * intros u Hu. unfold wr in Hu. simpl in Hu. apply in_app_iff in Hu as [Hu|Hu];
          [left; unfold wr; apply in_app_iff; auto|].
        unfold setsl in Hu. simpl in Hu.
        apply In_flat_map_upd in Hu as [Hu|Hu]; [left; unfold wr, setsl; apply in_app_iff; auto|].
        destruct Hu as [<-|[<-|[]]].
        -- right. split; [exact B2|]. destruct (append_kin _ _ _ _ _ _ Wb E2) as [K|K];
             [left; exists (s_before x); auto|right; left; simpl; destruct A1; lia].
        -- left. apply (wr_set st s x _ Ex). right; left; reflexivity.
      * intros u t Hs Ht' Fs Ft. destruct (b_wb st I u Hs) as [_ [W|[W _]]]; [left; exact W|lia].
    + intros y Ly Ny. apply KEEP; [exact X| |reflexivity].
      intros p Wp Dp. rewrite (append_read_disj _ _ _ _ _ _ p Wb E2 (wfs_ext _ _ _ A1 Wp)); [auto|].
      apply disj_sym. auto.
  - (* SAfter *)
    destruct a as [xs extra|]; [|discriminate].
    destruct (nth_error (st_sets st) s) as [x|] eqn:Ex; [|discriminate]. unfold eval_arg in H.
    destruct (alloc (st_heap st) xs extra) as [h1 sa] eqn:E1.
    destruct (alloc_spec _ _ _ _ _ E1) as (A1 & A2 & A3 & A4 & A5 & A6 & A7).
    assert (Ib : In (s_after x) (wr st)) by (apply (wr_set st s x _ Ex); right; left; reflexivity).
    pose proof (wfs_ext _ _ _ A1 (b_ww st I _ Ib)) as Wb. unfold set_after in H.
    destruct (append grow h1 (s_after x) (read h1 sa)) as [h2 b] eqn:E2. injection H as <-.
    destruct (append_spec _ _ _ _ _ _ Wb E2) as (B1 & B2 & B3 & B4 & B5).
    assert (X : heap_ext (st_heap st) h2) by exact (heap_ext_trans _ _ _ A1 B1).
    split.
    + apply (binv_step st); [exact I|exact X|intros u Hu; left; exact Hu| |].
      * intros u Hu. unfold wr in Hu. simpl in Hu. apply in_app_iff in Hu as [Hu|Hu];
          [left; unfold wr; apply in_app_iff; auto|].
        unfold setsl in Hu. simpl in Hu.
        apply In_flat_map_upd in Hu as [Hu|Hu]; [left; unfold wr, setsl; apply in_app_iff; auto|].
        destruct Hu as [<-|[<-|[]]].
        -- left. apply (wr_set st s x _ Ex). left; reflexivity.
        -- right. split; [exact B2|]. destruct (append_kin _ _ _ _ _ _ Wb E2) as [K|K];
             [left; exists (s_after x); auto|right; left; simpl; destruct A1; lia].
      * intros u t Hs Ht' Fs Ft. destruct (b_wb st I u Hs) as [_ [W|[W _]]]; [left; exact W|lia].
    + intros y Ly Ny. apply KEEP; [exact X| |reflexivity].
      intros p Wp Dp. rewrite (append_read_disj _ _ _ _ _ _ p Wb E2 (wfs_ext _ _ _ A1 Wp)); [auto|].
      apply disj_sym. auto.
  - (* SLast *)
    destruct (nth_error (st_sets st) s) as [x|] eqn:Ex; [|discriminate]. injection H as <-.
    split.
    + apply (binv_step st); [exact I|apply heap_ext_refl|intros u Hu; left; exact Hu| |].
      * intros u Hu. left. unfold wr in *. simpl in Hu. apply in_app_iff in Hu as [Hu|Hu]; apply in_app_iff; [auto|].
        right. unfold setsl in *. simpl in Hu. apply In_flat_map_upd in Hu as [Hu|Hu]; [auto|].
        exact (In_flat_map_nth ssl u _ s x Ex Hu).
      * intros u t Hs Ht' Fs Ft. destruct (b_wb st I u Hs) as [_ [W|[W _]]]; [left; exact W|simpl in Fs; lia].
    + intros y Ly Ny. apply KEEP; [apply heap_ext_refl|auto|reflexivity].
  - (* SUse *)
    destruct (nth_error (st_sets st) s) as [x|] eqn:Ex; [|discriminate]. injection H as <-.
    split.
    + apply (binv_step st); [exact I|apply heap_ext_refl|intros u Hu; left; exact Hu| |].
      * intros u Hu. left. unfold wr in *. simpl in Hu. apply in_app_iff in Hu as [Hu|Hu]; apply in_app_iff; [auto|].
        right. unfold setsl in *. simpl in Hu. apply In_flat_map_upd in Hu as [Hu|Hu]; [auto|].
        exact (In_flat_map_nth ssl u _ s x Ex Hu).
      * intros u t Hs Ht' Fs Ft. destruct (b_wb st I u Hs) as [_ [W|[W _]]]; [left; exact W|simpl in Fs; lia].
    + intros y Ly Ny. apply KEEP; [apply heap_ext_refl|auto|reflexivity].
  - (* SClone *)
    destruct (nth_error (st_sets st) s) as [x|] eqn:Ex; [|discriminate]. injection H as <-.
    split.
    + apply (binv_step st); [exact I|apply heap_ext_refl|intros u Hu; left; exact Hu| |].
      * intros u Hu. left. unfold wr in *. simpl in Hu. apply in_app_iff in Hu as [Hu|Hu]; apply in_app_iff; [auto|].
        right. unfold setsl in *. simpl in Hu. rewrite flat_map_app in Hu. apply in_app_iff in Hu as [Hu|Hu]; [auto|].
        cbn [flat_map] in Hu. rewrite app_nil_r in Hu. exact (In_flat_map_nth ssl u _ s x Ex Hu).
      * intros u t Hs Ht' Fs Ft. destruct (b_wb st I u Hs) as [_ [W|[W _]]]; [left; exact W|simpl in Fs; lia].
    + intros y Ly Ny. apply KEEP; [apply heap_ext_refl|auto|reflexivity].
  - (* SAdd *)
    destruct s as [i|]; [|discriminate].
    destruct (nth_error (st_sets st) i) as [x|] eqn:Ex; [|discriminate]. injection H as <-.
    split.
    + apply (binv_step st); [exact I|apply heap_ext_refl|intros u Hu; left; exact Hu|intros u Hu; left; exact Hu|].
      intros u t Hs Ht' Fs Ft. destruct (b_wb st I u Hs) as [_ [W|[W _]]]; [left; exact W|simpl in Fs; lia].
    + intros y Ly Ny. apply KEEP; [apply heap_ext_refl|auto|reflexivity].
Qed.

Lemma routers_grow grow st o st' : step grow st o = Ok st' -> length (st_routers st) <= length (st_routers st').
Proof.
  intros H. destruct o; cbn [step] in H;
    repeat match type of H with
    | match ?e with _ => _ end = _ => let E := fresh "E" in destruct e eqn:E; try discriminate H
    | (if ?e then _ else _) = _ => destruct e; try discriminate H
    | (let '(_, _) := ?e in _) = _ => destruct e
    end; try (injection H as <-); simpl; rewrite ?app_length, ?upd_nth_length; simpl; try lia.
Qed.
Lemma before_run grow os : forall st st' y,
  binv st -> Forall (fun o => tidy o = true) os -> run grow st os = Ok st' ->
  y < length (st_routers st) -> Forall (fun o => sets_before y o = false) os ->
  router_before st' y = router_before st y.
Proof.
  induction os as [|o os IH]; intros st st' y I Ft H Ly Fn; cbn [run] in H.
  - injection H as <-. reflexivity.
  - destruct (step grow st o) as [st1|] eqn:E; [|discriminate].
    inversion Ft; subst. inversion Fn; subst.
    destruct (before_step grow st o st1 I H2 E) as [I1 K].
    rewrite <- (K y Ly H4). apply IH; auto. pose proof (routers_grow _ _ _ _ E). lia.
Qed.
Lemma binv_run grow os : forall st st',
  binv st -> Forall (fun o => tidy o = true) os -> run grow st os = Ok st' -> binv st'.
Proof.
  induction os as [|o os IH]; intros st st' I Ft H; cbn [run] in H.
  - injection H as <-. exact I.
  - destruct (step grow st o) as [st1|] eqn:E; [|discriminate]. inversion Ft; subst.
    apply (IH st1); auto. apply (before_step grow st o st1 I H2 E).
Qed.

(** ** C32: last and main handlers *)
Lemma nth_error_ext {A} : forall (l l' : list A), (forall i, nth_error l i = nth_error l' i) -> l = l'.
Proof.
  induction l as [|x l IH]; intros [|y l'] H; auto; try (specialize (H 0); discriminate).
  pose proof (H 0) as H0. injection H0 as ->. f_equal. apply IH. intros i. exact (H (S i)).
Qed.
Lemma map_upd {A C} (f : A -> C) (g : A -> A) (g' : C -> C) (l : list A) : forall i,
  (forall x, nth_error l i = Some x -> f (g x) = g' (f x)) ->
  map f (upd_nth i g l) = upd_nth i g' (map f l).
Proof.
  induction l as [|a l IH]; intros [|i] H; simpl; auto.
  - f_equal. apply H. reflexivity.
  - f_equal. apply IH. exact H.
Qed.
Lemma map_upd_same {A C} (f : A -> C) (y : A) (l : list A) i x :
  nth_error l i = Some x -> f y = f x -> map f (upd_nth i (fun _ => y) l) = map f l.
Proof.
  revert i. induction l as [|a l IH]; intros [|i] E H; simpl in *; auto; try discriminate.
  - injection E as ->. rewrite H. reflexivity.
  - f_equal. exact (IH i E H).
Qed.

Lemma ends_step grow st o st' : step grow st o = Ok st' ->
  map r_last (st_routers st') = lasts_spec1 (map r_last (st_routers st)) o /\
  map (fun x => (s_last x, s_main x)) (st_sets st') = ends_spec1 (map (fun x => (s_last x, s_main x)) (st_sets st)) o.
Proof.
  intros H.
  assert (NR : forall r x, nth_error (st_routers st) r = Some x -> nth r (map r_last (st_routers st)) None = r_last x).
  { intros r x E. apply nth_error_nth. rewrite nth_error_map, E. reflexivity. }
  assert (NS : forall r x, nth_error (st_sets st) r = Some x ->
    nth r (map (fun x => (s_last x, s_main x)) (st_sets st)) (None, None) = (s_last x, s_main x)).
  { intros r x E. apply nth_error_nth. rewrite nth_error_map, E. reflexivity. }
  destruct o; cbn [step] in H; unfold new_set, set_before, set_after, set_use, set_last, set_clone in H;
    repeat match type of H with
    | match ?e with _ => _ end = _ => let E := fresh "E" in destruct e eqn:E; try discriminate H
    | (if ?e then _ else _) = _ => destruct e; try discriminate H
    end;
    repeat match goal with
    | E : (let '(_, _) := ?e in _) = _ |- _ => let E' := fresh "E" in destruct e eqn:E'
    | E : (_, _) = (_, _) |- _ => injection E; clear E; intros; subst
    end;
    try (injection H as <-);
    cbn [lasts_spec1 ends_spec1 st_routers st_sets set_router set_set add_var];
    (split; [|]); rewrite ?map_app; cbn [map r_last s_last s_main];
    try reflexivity;
    try (eapply map_upd_same; [eassumption|reflexivity]);
    try (erewrite NR by eassumption; reflexivity);
    try (erewrite NS by eassumption; reflexivity);
    try (apply map_upd; intros; cbn [s_last s_main r_last fst snd]; congruence).
Qed.
