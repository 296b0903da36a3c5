(** Proofs about registration: who shares which array. *)
From Verif Require Import Base GoSlices M_Router S_Router P_Slices.

Definition rsl (x : router) : list slice := [r_before x; r_after x].
Definition ssl (x : hset) : list slice := [s_before x; s_after x].
Definition own1 (g : reg) : list slice := if g_own g then ssl (g_set g) else [].
Definition foreign1 (g : reg) : list slice := if g_own g then [] else ssl (g_set g).

(** every slice that is not private to a route registered by a Router *)
Definition shared (st : state) : list slice :=
  flat_map rsl (st_routers st) ++ flat_map ssl (st_sets st) ++ st_vars st
  ++ flat_map foreign1 (st_routes st).
Definition own (st : state) : list slice := flat_map own1 (st_routes st).

Lemma In_flat_map_upd {A C} (f : A -> list C) (y : A) (x : C) (l : list A) : forall i,
  In x (flat_map f (upd_nth i (fun _ => y) l)) -> In x (flat_map f l) \/ In x (f y).
Proof.
  induction l as [|a l IH]; intros [|i]; simpl; auto; rewrite !in_app_iff.
  - tauto.
  - intros [H|H]; [auto|]. destruct (IH i H); auto.
Qed.
Lemma In_flat_map_nth {A C} (f : A -> list C) (x : C) (l : list A) i y :
  nth_error l i = Some y -> In x (f y) -> In x (flat_map f l).
Proof. intros H1 H2. apply in_flat_map. exists y. split; [apply nth_error_In in H1; exact H1|exact H2]. Qed.

Definition derived (h : heap) (S : list slice) (s' : slice) : Prop :=
  (exists s, In s S /\ sl_arr s' = sl_arr s /\ (sl_cap s = 0 -> sl_cap s' = 0)) \/
  length h <= sl_arr s' \/ sl_cap s' = 0.

Lemma derived_in h S s : In s S -> derived h S s.
Proof. intros H. left. exists s. auto. Qed.

Lemma append_derived grow h S s xs h' s' : In s S -> wfs h s -> append grow h s xs = (h', s') ->
  derived h S s'.
Proof.
  intros Hi W H. destruct (append_spec grow h s xs h' s' W H) as (_ & _ & _ & _ & [(E & _ & C & _)|(E & _)]).
  - left. exists s. split; [exact Hi|]. split; [exact E|congruence].
  - right. left. lia.
Qed.

Lemma append_read_disj grow h s xs h' s' p : wfs h s -> append grow h s xs = (h', s') ->
  wfs h p -> disj s p -> read h' p = read h p.
Proof.
  intros W H Wp D. destruct (append_spec grow h s xs h' s' W H) as (_ & _ & _ & R & _).
  apply R; [exact Wp|left; exact D].
Qed.

Lemma eval_arg_spec st a h1 s : eval_arg st a = Ok (h1, s) ->
  (forall v, In v (st_vars st) -> wfs (st_heap st) v) ->
  heap_ext (st_heap st) h1 /\ wfs h1 s /\
  (In s (st_vars st) \/ sl_arr s = length (st_heap st)) /\
  (forall t, wfs (st_heap st) t -> read h1 t = read (st_heap st) t) /\
  match a with
  | Fresh xs _ => read h1 s = xs /\ sl_off s = 0 /\ sl_arr s = length (st_heap st)
  | Var v => h1 = st_heap st /\ nth_error (st_vars st) v = Some s
  end.
Proof.
  destruct a as [xs extra|v]; unfold eval_arg; intros H Hv.
  - assert (H' : alloc (st_heap st) xs extra = (h1, s)) by congruence.
    destruct (alloc_spec _ _ _ _ _ H') as (A1 & A2 & A3 & A4 & A5 & _ & A7).
    split; [exact A1|]. split; [exact A2|]. split; [auto|]. split; auto.
  - destruct (nth_error (st_vars st) v) as [x|] eqn:E; [|discriminate]. injection H as <- <-.
    assert (I : In x (st_vars st)) by (apply nth_error_In in E; exact E).
    split; [apply heap_ext_refl|]. split; [auto|]. split; auto.
Qed.

Ltac sh := unfold shared; repeat rewrite in_app_iff; auto 6.

Lemma new_set_spec h h' s : new_set h = (h', s) ->
  heap_ext h h' /\ wfs h' (s_before s) /\ wfs h' (s_after s) /\
  length h <= sl_arr (s_before s) /\ length h <= sl_arr (s_after s) /\
  sl_cap (s_before s) = 0 /\ sl_cap (s_after s) = 0 /\
  read h' (s_before s) = [] /\ read h' (s_after s) = [] /\
  (forall t, wfs h t -> read h' t = read h t).
Proof.
  unfold new_set. destruct (alloc h [] 0) as [h1 b] eqn:E1. destruct (alloc h1 [] 0) as [h2 a] eqn:E2.
  intros H. injection H as <- <-. simpl.
  destruct (alloc_spec _ _ _ _ _ E1) as (A1 & A2 & A3 & A4 & A5 & A6 & A7).
  destruct (alloc_spec _ _ _ _ _ E2) as (B1 & B2 & B3 & B4 & B5 & B6 & B7).
  split; [exact (heap_ext_trans _ _ _ A1 B1)|]. split; [exact (wfs_ext _ _ _ B1 A2)|].
  split; [exact B2|]. split; [lia|]. split; [destruct A1; lia|].
  split; [unfold alloc in E1; injection E1 as _ <-; reflexivity|].
  split; [unfold alloc in E2; injection E2 as _ <-; reflexivity|].
  split; [rewrite B7 by exact A2; exact A3|]. split; [exact B3|].
  intros t Wt. rewrite B7 by exact (wfs_ext _ _ _ A1 Wt). apply A7. exact Wt.
Qed.

Lemma cslice_wf h s i j : wfs h s -> i <= j -> j <= sl_cap s ->
  wfs h (Slice (sl_arr s) (sl_off s + i) (j - i) (sl_cap s - i)).
Proof.
  intros [W1 W2] Hi Hj. split; simpl; [lia|]. destruct W2 as [W2|[W2 W3]]; [left; lia|].
  right. split; [exact W2|lia].
Qed.

Record effect (st st' : state) : Prop := Effect {
  ef_ext : heap_ext (st_heap st) (st_heap st');
  ef_shared : forall s', In s' (shared st') ->
      wfs (st_heap st') s' /\ derived (st_heap st) (shared st) s';
  ef_read : forall p, wfs (st_heap st) p -> (forall s, In s (shared st) -> disj s p) ->
      read (st_heap st') p = read (st_heap st) p;
  ef_routes : exists rs, st_routes st' = st_routes st ++ rs /\
      forall p, In p (flat_map own1 rs) ->
        wfs (st_heap st') p /\ (length (st_heap st) <= sl_arr p \/ sl_cap p = 0)
        /\ (forall s, In s (shared st') -> disj s p)
}.

(** building an effect when no route is registered *)
Lemma mk_effect st st' :
  st_routes st' = st_routes st ->
  (forall s, In s (shared st) -> wfs (st_heap st) s) ->
  heap_ext (st_heap st) (st_heap st') ->
  (forall p, wfs (st_heap st) p -> (forall s, In s (shared st) -> disj s p) ->
      read (st_heap st') p = read (st_heap st) p) ->
  (forall s', In s' (flat_map rsl (st_routers st') ++ flat_map ssl (st_sets st') ++ st_vars st') ->
      In s' (shared st) \/ (wfs (st_heap st') s' /\ derived (st_heap st) (shared st) s')) ->
  effect st st'.
Proof.
  intros Hr Hw He Hp Hs. constructor; auto.
  - intros s' Hi. unfold shared in Hi. rewrite !app_assoc in Hi. apply in_app_iff in Hi as [Hi|Hi].
    + rewrite <- app_assoc in Hi. destruct (Hs s' Hi) as [H|H]; [|exact H].
      split; [exact (wfs_ext _ _ _ He (Hw s' H))|apply derived_in; exact H].
    + rewrite Hr in Hi. assert (H : In s' (shared st)) by sh.
      split; [exact (wfs_ext _ _ _ He (Hw s' H))|apply derived_in; exact H].
  - exists []. rewrite app_nil_r. split; [exact Hr|]. intros p [].
Qed.

Lemma step_effect grow st o st' :
  (forall s, In s (shared st) -> wfs (st_heap st) s) -> step grow st o = Ok st' -> effect st st'.
Proof.
  intros Hw H.
  assert (Hv : forall v, In v (st_vars st) -> wfs (st_heap st) v) by (intros v Hv; apply Hw; sh).
  destruct o; cbn [step] in H.
  - (* NewRouter *)
    destruct (alloc (st_heap st) [] 0) as [h1 b] eqn:E1. destruct (alloc h1 [] 0) as [h2 a] eqn:E2.
    injection H as <-.
    destruct (alloc_spec _ _ _ _ _ E1) as (A1 & A2 & A3 & A4 & A5 & A6 & A7).
    destruct (alloc_spec _ _ _ _ _ E2) as (B1 & B2 & B3 & B4 & B5 & B6 & B7).
    apply mk_effect; simpl; auto.
    + exact (heap_ext_trans _ _ _ A1 B1).
    + intros p Wp _. rewrite B7 by exact (wfs_ext _ _ _ A1 Wp). apply A7; exact Wp.
    + intros s' Hi. rewrite flat_map_app in Hi. cbn [flat_map rsl app] in Hi.
      rewrite !in_app_iff in Hi. cbn [r_before r_after In] in Hi.
      destruct Hi as [[Hi|[Hi|[Hi|[]]]]|[Hi|Hi]]; try (left; sh; fail); subst s'; right.
      * split; [exact (wfs_ext _ _ _ B1 A2)|right; left; lia].
      * split; [exact B2|right; left; destruct A1; lia].
  - (* RFirst *)
    destruct (nth_error (st_routers st) r) as [x|] eqn:Ex; [|discriminate].
    destruct (alloc (st_heap st) [h] 0) as [h1 lit] eqn:E1.
    destruct (append grow h1 lit (read h1 (r_before x))) as [h2 b] eqn:E2. injection H as <-.
    destruct (alloc_spec _ _ _ _ _ E1) as (A1 & A2 & A3 & A4 & A5 & A6 & A7).
    destruct (append_spec _ _ _ _ _ _ A2 E2) as (B1 & B2 & B3 & B4 & B5).
    apply mk_effect; simpl; auto.
    + exact (heap_ext_trans _ _ _ A1 B1).
    + intros p Wp _. rewrite (append_read_disj _ _ _ _ _ _ p A2 E2 (wfs_ext _ _ _ A1 Wp)); [auto|].
      destruct Wp as [_ [Wp|[Wp _]]]; [right; left; exact Wp|right; right; lia].
    + intros s' Hi. rewrite !in_app_iff in Hi.
      destruct Hi as [Hi|[Hi|Hi]]; try (left; sh; fail).
      apply In_flat_map_upd in Hi as [Hi|Hi]; [left; sh|]. cbn [rsl r_before r_after In] in Hi.
      destruct Hi as [Hi|[Hi|[]]]; subst s'.
      * right. split; [exact B2|]. right; left. destruct B5 as [(E & _)|(E & _)]; [lia|destruct A1; lia].
      * left. unfold shared. apply in_app_iff. left.
        apply (In_flat_map_nth rsl _ _ r x Ex). right; left; reflexivity.
  - (* RBefore *)
    destruct (nth_error (st_routers st) r) as [x|] eqn:Ex; [|discriminate].
    destruct (eval_arg st a) as [[h1 s]|] eqn:Ea; [|discriminate]. injection H as <-.
    destruct (eval_arg_spec st a h1 s Ea Hv) as (A1 & A2 & A3 & A4 & _).
    apply mk_effect; simpl; auto.
    intros s' Hi. rewrite !in_app_iff in Hi.
    destruct Hi as [Hi|[Hi|Hi]]; try (left; sh; fail).
    apply In_flat_map_upd in Hi as [Hi|Hi]; [left; sh|]. cbn [rsl r_before r_after In] in Hi.
    destruct Hi as [Hi|[Hi|[]]]; subst s'.
    * destruct A3 as [A3|A3]; [left; sh|]. right. split; [exact A2|right; left; lia].
    * left. unfold shared. apply in_app_iff. left.
      apply (In_flat_map_nth rsl _ _ r x Ex). right; left; reflexivity.
  - (* RAfter *)
    destruct (nth_error (st_routers st) r) as [x|] eqn:Ex; [|discriminate].
    destruct (eval_arg st a) as [[h1 s]|] eqn:Ea; [|discriminate]. injection H as <-.
    destruct (eval_arg_spec st a h1 s Ea Hv) as (A1 & A2 & A3 & A4 & _).
    apply mk_effect; simpl; auto.
    intros s' Hi. rewrite !in_app_iff in Hi.
    destruct Hi as [Hi|[Hi|Hi]]; try (left; sh; fail).
    apply In_flat_map_upd in Hi as [Hi|Hi]; [left; sh|]. cbn [rsl r_before r_after In] in Hi.
    destruct Hi as [Hi|[Hi|[]]]; subst s'.
    * left. unfold shared. apply in_app_iff. left.
      apply (In_flat_map_nth rsl _ _ r x Ex). left; reflexivity.
    * destruct A3 as [A3|A3]; [left; sh|]. right. split; [exact A2|right; left; lia].
  - (* RLastAfter *)
    destruct (nth_error (st_routers st) r) as [x|] eqn:Ex; [|discriminate].
    assert (Ia : In (r_after x) (shared st)).
    { unfold shared. apply in_app_iff. left. apply (In_flat_map_nth rsl _ _ r x Ex). right; left; reflexivity. }
    destruct (append grow (st_heap st) (r_after x) [h]) as [h1 a] eqn:E1. injection H as <-.
    destruct (append_spec _ _ _ _ _ _ (Hw _ Ia) E1) as (B1 & B2 & B3 & B4 & B5).
    apply mk_effect; simpl; auto.
    + intros p Wp Dp. apply (append_read_disj _ _ _ _ _ _ p (Hw _ Ia) E1 Wp). auto.
    + intros s' Hi. rewrite !in_app_iff in Hi.
      destruct Hi as [Hi|[Hi|Hi]]; try (left; sh; fail).
      apply In_flat_map_upd in Hi as [Hi|Hi]; [left; sh|]. cbn [rsl r_before r_after In] in Hi.
      destruct Hi as [Hi|[Hi|[]]]; subst s'.
      * left. unfold shared. apply in_app_iff. left.
        apply (In_flat_map_nth rsl _ _ r x Ex). left; reflexivity.
      * right. split; [exact B2|]. exact (append_derived _ _ _ _ _ _ _ Ia (Hw _ Ia) E1).
  - (* RLast *)
    destruct (nth_error (st_routers st) r) as [x|] eqn:Ex; [|discriminate]. injection H as <-.
    apply mk_effect; simpl; auto using heap_ext_refl.
    intros s' Hi. rewrite !in_app_iff in Hi.
    destruct Hi as [Hi|[Hi|Hi]]; try (left; sh; fail).
    apply In_flat_map_upd in Hi as [Hi|Hi]; [left; sh|].
    left. unfold shared. apply in_app_iff. left. apply (In_flat_map_nth rsl _ _ r x Ex). exact Hi.
  - (* RClone *)
    destruct (nth_error (st_routers st) r) as [x|] eqn:Ex; [|discriminate]. injection H as <-.
    apply mk_effect; simpl; auto using heap_ext_refl.
    intros s' Hi. rewrite flat_map_app, !in_app_iff in Hi. cbn [flat_map] in Hi.
    rewrite app_nil_r in Hi.
    destruct Hi as [[Hi|Hi]|[Hi|Hi]]; try (left; sh; fail).
    left. unfold shared. apply in_app_iff. left. apply (In_flat_map_nth rsl _ _ r x Ex). exact Hi.
  - (* RUse *)
    destruct (nth_error (st_routers st) r) as [x|] eqn:Ex; [|discriminate].
    destruct (new_set (st_heap st)) as [h1 s0] eqn:E0.
    destruct (new_set_spec _ _ _ E0) as (N1 & N2 & N3 & N4 & N5 & N6 & N7 & N8 & N9 & N10).
    unfold set_after, set_before in H.
    destruct (append grow h1 (s_after s0) (read h1 (r_after x))) as [h2 a] eqn:E1.
    cbn [s_before s_after s_last s_main] in H.
    destruct (append grow h2 (s_before s0) (read h2 (r_before x))) as [h3 b] eqn:E2.
    injection H as <-.
    destruct (append_spec _ _ _ _ _ _ N3 E1) as (B1 & B2 & B3 & B4 & B5).
    pose proof (wfs_ext _ _ _ B1 N2) as N2'.
    destruct (append_spec _ _ _ _ _ _ N2' E2) as (C1 & C2 & C3 & C4 & C5).
    assert (X : heap_ext (st_heap st) h3) by exact (heap_ext_trans _ _ _ (heap_ext_trans _ _ _ N1 B1) C1).
    assert (Rd : forall t, wfs (st_heap st) t -> read h3 t = read (st_heap st) t).
    { intros t Wt. pose proof (wfs_ext _ _ _ N1 Wt) as W1. pose proof (wfs_ext _ _ _ B1 W1) as W2.
      rewrite C4; [|exact W2|left; left; exact N6].
      rewrite B4; [|exact W1|left; left; exact N7]. apply N10; exact Wt. }
    constructor; simpl.
    + exact X.
    + intros s' Hi. unfold shared in Hi. simpl in Hi. rewrite flat_map_app, !in_app_iff in Hi.
      assert (I : In s' (shared st)).
      { sh. cbn in Hi. destruct Hi as [Hi|[Hi|[Hi|[Hi|[]]]]]; auto. }
      split; [exact (wfs_ext _ _ _ X (Hw _ I))|apply derived_in; exact I].
    + intros p Wp _. auto.
    + eexists. split; [reflexivity|]. intros p Hp. cbn in Hp.
      assert (Pp : wfs h3 p /\ length (st_heap st) <= sl_arr p).
      { destruct Hp as [<-|[<-|[]]].
        - split; [exact C2|]. destruct C5 as [(E & _)|(E & _)]; [lia|destruct N1, B1; lia].
        - split; [exact (wfs_ext _ _ _ C1 B2)|]. destruct B5 as [(E & _)|(E & _)]; [lia|destruct N1; lia]. }
      destruct Pp as [P1 P2]. split; [exact P1|]. split; [auto|].
      intros s Hs. unfold shared in Hs. simpl in Hs. rewrite flat_map_app, !in_app_iff in Hs.
      assert (I : In s (shared st)).
      { sh. cbn in Hs. destruct Hs as [Hi|[Hi|[Hi|[Hi|[]]]]]; auto. }
      destruct (Hw s I) as [_ [W|[W _]]]; [left; exact W|right; right; lia].
  - (* RGetBefore *)
    destruct (nth_error (st_routers st) r) as [x|] eqn:Ex; [|discriminate]. injection H as <-.
    apply mk_effect; simpl; auto using heap_ext_refl.
    intros s' Hi. rewrite !in_app_iff in Hi. left.
    destruct Hi as [Hi|[Hi|[Hi|Hi]]]; try (sh; fail).
    destruct Hi as [<-|[]]. unfold shared. apply in_app_iff. left. apply (In_flat_map_nth rsl _ _ r x Ex).
    left; reflexivity.
  - (* RGetAfter *)
    destruct (nth_error (st_routers st) r) as [x|] eqn:Ex; [|discriminate]. injection H as <-.
    apply mk_effect; simpl; auto using heap_ext_refl.
    intros s' Hi. rewrite !in_app_iff in Hi. left.
    destruct Hi as [Hi|[Hi|[Hi|Hi]]]; try (sh; fail).
    destruct Hi as [<-|[]]. unfold shared. apply in_app_iff. left. apply (In_flat_map_nth rsl _ _ r x Ex).
    right; left; reflexivity.
  - (* NewSet *)
    destruct (new_set (st_heap st)) as [h1 s0] eqn:E0. injection H as <-.
    destruct (new_set_spec _ _ _ E0) as (N1 & N2 & N3 & N4 & N5 & N6 & N7 & N8 & N9 & N10).
    apply mk_effect; simpl; auto.
    intros s' Hi. rewrite flat_map_app, !in_app_iff in Hi. cbn [flat_map ssl app In] in Hi.
    destruct Hi as [Hi|[[Hi|[Hi|[Hi|[]]]]|Hi]]; try (left; sh; fail); subst s'; right.
    + split; [exact N2|right; left; lia].
    + split; [exact N3|right; left; lia].
  - (* SBefore *)
    destruct (nth_error (st_sets st) s) as [x|] eqn:Ex; [|discriminate].
    destruct (eval_arg st a) as [[h1 sa]|] eqn:Ea; [|discriminate].
    destruct (eval_arg_spec st a h1 sa Ea Hv) as (A1 & A2 & A3 & A4 & _).
    assert (Ib : In (s_before x) (shared st)).
    { unfold shared. rewrite !in_app_iff. right; left. apply (In_flat_map_nth ssl _ _ s x Ex). left; reflexivity. }
    unfold set_before in H. pose proof (wfs_ext _ _ _ A1 (Hw _ Ib)) as Wb.
    destruct (append grow h1 (s_before x) (read h1 sa)) as [h2 b] eqn:E1. injection H as <-.
    destruct (append_spec _ _ _ _ _ _ Wb E1) as (B1 & B2 & B3 & B4 & B5).
    apply mk_effect; simpl; auto.
    + exact (heap_ext_trans _ _ _ A1 B1).
    + intros p Wp Dp. rewrite (append_read_disj _ _ _ _ _ _ p Wb E1 (wfs_ext _ _ _ A1 Wp)); auto.
    + intros s' Hi. rewrite !in_app_iff in Hi.
      destruct Hi as [Hi|[Hi|Hi]]; try (left; sh; fail).
      apply In_flat_map_upd in Hi as [Hi|Hi]; [left; sh|]. cbn [ssl s_before s_after In] in Hi.
      destruct Hi as [Hi|[Hi|[]]]; subst s'.
      * right. split; [exact B2|].
        destruct (append_derived grow h1 (shared st) (s_before x) _ h2 b Ib Wb E1) as [D|[D|D]];
          [left; exact D|right; left; destruct A1; lia|right; right; exact D].
      * left. unfold shared. rewrite !in_app_iff. right; left.
        apply (In_flat_map_nth ssl _ _ s x Ex). right; left; reflexivity.
  - (* SAfter *)
    destruct (nth_error (st_sets st) s) as [x|] eqn:Ex; [|discriminate].
    destruct (eval_arg st a) as [[h1 sa]|] eqn:Ea; [|discriminate].
    destruct (eval_arg_spec st a h1 sa Ea Hv) as (A1 & A2 & A3 & A4 & _).
    assert (Ib : In (s_after x) (shared st)).
    { unfold shared. rewrite !in_app_iff. right; left. apply (In_flat_map_nth ssl _ _ s x Ex). right; left; reflexivity. }
    unfold set_after in H. pose proof (wfs_ext _ _ _ A1 (Hw _ Ib)) as Wb.
    destruct (append grow h1 (s_after x) (read h1 sa)) as [h2 b] eqn:E1. injection H as <-.
    destruct (append_spec _ _ _ _ _ _ Wb E1) as (B1 & B2 & B3 & B4 & B5).
    apply mk_effect; simpl; auto.
    + exact (heap_ext_trans _ _ _ A1 B1).
    + intros p Wp Dp. rewrite (append_read_disj _ _ _ _ _ _ p Wb E1 (wfs_ext _ _ _ A1 Wp)); auto.
    + intros s' Hi. rewrite !in_app_iff in Hi.
      destruct Hi as [Hi|[Hi|Hi]]; try (left; sh; fail).
      apply In_flat_map_upd in Hi as [Hi|Hi]; [left; sh|]. cbn [ssl s_before s_after In] in Hi.
      destruct Hi as [Hi|[Hi|[]]]; subst s'.
      * left. unfold shared. rewrite !in_app_iff. right; left.
        apply (In_flat_map_nth ssl _ _ s x Ex). left; reflexivity.
      * right. split; [exact B2|].
        destruct (append_derived grow h1 (shared st) (s_after x) _ h2 b Ib Wb E1) as [D|[D|D]];
          [left; exact D|right; left; destruct A1; lia|right; right; exact D].
  - (* SLast *)
    destruct (nth_error (st_sets st) s) as [x|] eqn:Ex; [|discriminate]. injection H as <-.
    apply mk_effect; simpl; auto using heap_ext_refl.
    intros s' Hi. rewrite !in_app_iff in Hi.
    destruct Hi as [Hi|[Hi|Hi]]; try (left; sh; fail).
    apply In_flat_map_upd in Hi as [Hi|Hi]; [left; sh|].
    left. unfold shared. rewrite !in_app_iff. right; left. apply (In_flat_map_nth ssl _ _ s x Ex). exact Hi.
  - (* SUse *)
    destruct (nth_error (st_sets st) s) as [x|] eqn:Ex; [|discriminate]. injection H as <-.
    apply mk_effect; simpl; auto using heap_ext_refl.
    intros s' Hi. rewrite !in_app_iff in Hi.
    destruct Hi as [Hi|[Hi|Hi]]; try (left; sh; fail).
    apply In_flat_map_upd in Hi as [Hi|Hi]; [left; sh|].
    left. unfold shared. rewrite !in_app_iff. right; left. apply (In_flat_map_nth ssl _ _ s x Ex). exact Hi.
  - (* SClone *)
    destruct (nth_error (st_sets st) s) as [x|] eqn:Ex; [|discriminate]. injection H as <-.
    apply mk_effect; simpl; auto using heap_ext_refl.
    intros s' Hi. rewrite flat_map_app, !in_app_iff in Hi. cbn [flat_map] in Hi. rewrite app_nil_r in Hi.
    destruct Hi as [Hi|[[Hi|Hi]|Hi]]; try (left; sh; fail).
    left. unfold shared. rewrite !in_app_iff. right; left. apply (In_flat_map_nth ssl _ _ s x Ex). exact Hi.
  - (* SAdd *)
    destruct s as [s|]; [|discriminate].
    destruct (nth_error (st_sets st) s) as [x|] eqn:Ex; [|discriminate]. injection H as <-.
    constructor; simpl.
    + apply heap_ext_refl.
    + intros s' Hi. unfold shared in Hi. simpl in Hi. rewrite flat_map_app, !in_app_iff in Hi.
      cbn [flat_map] in Hi. rewrite app_nil_r in Hi.
      assert (I : In s' (shared st)).
      { destruct Hi as [Hi|[Hi|[Hi|[Hi|Hi]]]]; try (sh; fail).
        unfold shared. rewrite !in_app_iff. right; left. apply (In_flat_map_nth ssl _ _ s x Ex). exact Hi. }
      split; [exact (Hw _ I)|apply derived_in; exact I].
    + reflexivity.
    + eexists. split; [reflexivity|]. intros p Hp. cbn in Hp. destruct Hp.
  - (* CMake *)
    destruct (alloc (st_heap st) xs extra) as [h1 s0] eqn:E1. injection H as <-.
    destruct (alloc_spec _ _ _ _ _ E1) as (A1 & A2 & A3 & A4 & A5 & A6 & A7).
    apply mk_effect; simpl; auto.
    intros s' Hi. rewrite !in_app_iff in Hi.
    destruct Hi as [Hi|[Hi|[Hi|[<-|[]]]]]; try (left; sh; fail).
    right. split; [exact A2|right; left; lia].
  - (* CWrite *)
    destruct (nth_error (st_vars st) v) as [x|] eqn:Ex; [|discriminate].
    destruct (i <? sl_len x) eqn:L; [|discriminate]. injection H as <-. apply Nat.ltb_lt in L.
    assert (Iv : In x (st_vars st)) by (apply nth_error_In in Ex; exact Ex).
    destruct (Hv x Iv) as [W1 W2].
    assert (P : sl_off x + i + 1 <= length (nth (sl_arr x) (st_heap st) [])) by (destruct W2; lia).
    apply mk_effect; simpl; auto.
    + apply write_ext. exact P.
    + intros p Wp Dp. apply write_read_other; [exact Wp| |exact P].
      assert (Ix : In x (shared st)) by sh. destruct (Dp x Ix) as [D|[D|D]]; [lia|auto|auto].
    + intros s' Hi. left. rewrite !in_app_iff in Hi. destruct Hi as [Hi|[Hi|Hi]]; sh.
  - (* CAppend *)
    destruct (nth_error (st_vars st) v) as [x|] eqn:Ex; [|discriminate].
    assert (Iv : In x (st_vars st)) by (apply nth_error_In in Ex; exact Ex).
    assert (Ix : In x (shared st)) by sh.
    destruct (append grow (st_heap st) x [h]) as [h1 s1] eqn:E1. injection H as <-.
    destruct (append_spec _ _ _ _ _ _ (Hw _ Ix) E1) as (B1 & B2 & B3 & B4 & B5).
    apply mk_effect; simpl; auto.
    + intros p Wp Dp. apply (append_read_disj _ _ _ _ _ _ p (Hw _ Ix) E1 Wp). auto.
    + intros s' Hi. rewrite !in_app_iff in Hi.
      destruct Hi as [Hi|[Hi|[Hi|[<-|[]]]]]; try (left; sh; fail).
      right. split; [exact B2|]. exact (append_derived _ _ _ _ _ _ _ Ix (Hw _ Ix) E1).
  - (* CSlice *)
    destruct (nth_error (st_vars st) v) as [x|] eqn:Ex; [|discriminate].
    destruct ((i <=? j) && (j <=? sl_cap x)) eqn:L; [|discriminate]. injection H as <-.
    apply andb_true_iff in L as [L1 L2]. apply Nat.leb_le in L1, L2.
    assert (Iv : In x (st_vars st)) by (apply nth_error_In in Ex; exact Ex).
    assert (Ix : In x (shared st)) by sh.
    apply mk_effect; simpl; auto using heap_ext_refl.
    intros s' Hi. rewrite !in_app_iff in Hi.
    destruct Hi as [Hi|[Hi|[Hi|[<-|[]]]]]; try (left; sh; fail).
    right. split; [apply cslice_wf; auto|]. left. exists x. simpl. split; [exact Ix|]. split; [reflexivity|lia].
Qed.

(** ** The invariant behind C29 *)
Record inv (st : state) : Prop := Inv {
  iv_shared : forall s, In s (shared st) -> wfs (st_heap st) s;
  iv_own : forall p, In p (own st) -> wfs (st_heap st) p;
  iv_disj : forall s p, In s (shared st) -> In p (own st) -> disj s p
}.

Lemma inv_init : inv init.
Proof. constructor; simpl; intros; contradiction. Qed.

Lemma inv_step grow st o st' : inv st -> step grow st o = Ok st' ->
  inv st' /\ effect st st'.
Proof.
  intros I H. pose proof (step_effect grow st o st' (iv_shared st I) H) as E. split; [|exact E].
  destruct (ef_routes st st' E) as (rs & Er & Hrs).
  assert (OldDisj : forall s p, In s (shared st') -> In p (own st) -> disj s p).
  { intros s p Hs Hp. destruct (ef_shared st st' E s Hs) as [_ [D|[D|D]]].
    - destruct D as (s0 & H0 & Ea & Ec). destruct (iv_disj st I s0 p H0 Hp) as [X|[X|X]].
      + left; auto.
      + right; left; exact X.
      + right; right; congruence.
    - destruct (iv_own st I p Hp) as [_ [W|[W _]]]; [right; left; exact W|right; right; lia].
    - left; exact D. }
  constructor.
  - intros s Hs. apply (ef_shared st st' E s Hs).
  - intros p Hp. unfold own in Hp. rewrite Er, flat_map_app in Hp. apply in_app_iff in Hp as [Hp|Hp].
    + exact (wfs_ext _ _ _ (ef_ext st st' E) (iv_own st I p Hp)).
    + apply (Hrs p Hp).
  - intros s p Hs Hp. unfold own in Hp. rewrite Er, flat_map_app in Hp. apply in_app_iff in Hp as [Hp|Hp].
    + exact (OldDisj s p Hs Hp).
    + apply (Hrs p Hp). exact Hs.
Qed.

Lemma inv_run grow os : forall st st', inv st -> run grow st os = Ok st' -> inv st'.
Proof.
  induction os as [|o os IH]; intros st st' I H; simpl in H; [congruence|].
  destruct (step grow st o) as [st1|] eqn:E; [|discriminate].
  apply (IH st1); [exact (proj1 (inv_step grow st o st1 I E))|exact H].
Qed.

(** a route of a Router never changes *)
Lemma own_route_stable grow os : forall st st' i g,
  inv st -> run grow st os = Ok st' -> nth_error (st_routes st) i = Some g -> g_own g = true ->
  nth_error (st_routes st') i = Some g /\ set_pipe st' (g_set g) = set_pipe st (g_set g).
Proof.
  induction os as [|o os IH]; intros st st' i g I H Hi Ho; simpl in H.
  - injection H as <-. auto.
  - destruct (step grow st o) as [st1|] eqn:E; [|discriminate].
    destruct (inv_step grow st o st1 I E) as [I1 Ef].
    destruct (ef_routes st st1 Ef) as (rs & Er & _).
    assert (Hi1 : nth_error (st_routes st1) i = Some g).
    { rewrite Er. rewrite nth_error_app1; [exact Hi|]. apply nth_error_Some. congruence. }
    destruct (IH st1 st' i g I1 H Hi1 Ho) as [A1 A2]. split; [exact A1|]. rewrite A2.
    assert (Io : forall p, In p (ssl (g_set g)) -> In p (own st)).
    { intros p Hp. unfold own. apply (In_flat_map_nth own1 p _ i g Hi). unfold own1. rewrite Ho. exact Hp. }
    unfold set_pipe. f_equal; apply (ef_read st st1 Ef).
    + apply (iv_own st I), Io. left; reflexivity.
    + intros s Hs. apply (iv_disj st I s _ Hs), Io. left; reflexivity.
    + apply (iv_own st I), Io. right; left; reflexivity.
    + intros s Hs. apply (iv_disj st I s _ Hs), Io. right; left; reflexivity.
Qed.

Lemma ruse_spec grow st r k m st' : inv st -> step grow st (RUse r k m) = Ok st' ->
  exists b a l, router_before st r = Some b /\ router_after st r = Some a /\ router_last st r = Some l /\
    exists g, st_routes st' = st_routes st ++ [g] /\ g_own g = true /\ g_key g = k /\
              set_pipe st' (g_set g) = Pipe b m a l.
Proof.
  intros I H. cbn [step] in H.
  unfold router_before, router_after, router_last.
  destruct (nth_error (st_routers st) r) as [x|] eqn:Ex; [|discriminate].
  destruct (new_set (st_heap st)) as [h1 s0] eqn:E0.
  destruct (new_set_spec _ _ _ E0) as (N1 & N2 & N3 & N4 & N5 & N6 & N7 & N8 & N9 & N10).
  unfold set_after, set_before in H.
  destruct (append grow h1 (s_after s0) (read h1 (r_after x))) as [h2 a] eqn:E1.
  cbn [s_before s_after s_last s_main] in H.
  destruct (append grow h2 (s_before s0) (read h2 (r_before x))) as [h3 b] eqn:E2.
  injection H as <-.
  destruct (append_spec _ _ _ _ _ _ N3 E1) as (B1 & B2 & B3 & B4 & B5).
  pose proof (wfs_ext _ _ _ B1 N2) as N2'.
  destruct (append_spec _ _ _ _ _ _ N2' E2) as (C1 & C2 & C3 & C4 & C5).
  assert (Wb : wfs (st_heap st) (r_before x)).
  { apply (iv_shared st I). unfold shared. apply in_app_iff. left.
    apply (In_flat_map_nth rsl _ _ r x Ex). left; reflexivity. }
  assert (Wa : wfs (st_heap st) (r_after x)).
  { apply (iv_shared st I). unfold shared. apply in_app_iff. left.
    apply (In_flat_map_nth rsl _ _ r x Ex). right; left; reflexivity. }
  do 3 eexists. repeat (split; [reflexivity|]).
  eexists. split; [reflexivity|]. repeat (split; [reflexivity|]).
  unfold set_pipe. cbn. f_equal.
  - rewrite C3, (B4 _ N2) by (left; left; exact N7). rewrite N8. simpl.
    rewrite B4; [apply N10; exact Wb|exact (wfs_ext _ _ _ N1 Wb)|left; left; exact N7].
  - rewrite C4; [|exact B2|left; left; exact N6]. rewrite B3, N9. simpl. apply N10. exact Wa.
Qed.
