(** Proofs for C31 and C32. *)
From Verif Require Import Base GoSlices M_Router S_Router P_Slices P_Router P_Router2.

(** ** Set operations do not touch the routers *)
Lemma nonext_reads grow st o st' :
  inv30 st -> ext_op o = false -> (forall s, o <> SClone s) -> step grow st o = Ok st' ->
  st_routers st' = st_routers st /\ st_vars st' = st_vars st /\
  forall p, In p (ext st) -> read (st_heap st') p = read (st_heap st) p.
Proof.
  intros I He Hc H.
  assert (Hv : forall v, In v (st_vars st) -> wfs (st_heap st) v).
  { intros v Hv. apply (i_ext st I). unfold ext. apply in_app_iff. auto. }
  destruct o; try discriminate; try (exfalso; exact (Hc _ eq_refl)); cbn [step] in H.
  - destruct (nth_error (st_routers st) r) as [x|] eqn:Ex; [|discriminate].
    destruct (new_set (st_heap st)) as [h1 s0] eqn:E0.
    destruct (new_set_spec _ _ _ E0) as (N1 & N2 & N3 & N4 & N5 & N6 & N7 & N8 & N9 & N10).
    unfold set_after, set_before in H.
    destruct (append grow h1 (s_after s0) (read h1 (r_after x))) as [h2 a] eqn:E1.
    cbn [s_before s_after s_last s_main] in H.
    destruct (append grow h2 (s_before s0) (read h2 (r_before x))) as [h3 b] eqn:E2.
    injection H as <-.
    destruct (append_spec _ _ _ _ _ _ N3 E1) as (B1 & B2 & B3 & B4 & B5).
    pose proof (wfs_ext _ _ _ B1 N2) as N2'.
    destruct (append_spec _ _ _ _ _ _ N2' E2) as (C1 & C2 & C3 & C4 & C5).
    repeat split. simpl. intros t Ht.
    pose proof (i_ext st I t Ht) as Wt.
    pose proof (wfs_ext _ _ _ N1 Wt) as W1. pose proof (wfs_ext _ _ _ B1 W1) as W2.
    rewrite C4; [|exact W2|left; left; exact N6].
    rewrite B4; [|exact W1|left; left; exact N7]. apply N10; exact Wt.
  - destruct (new_set (st_heap st)) as [h1 s0] eqn:E0. injection H as <-.
    destruct (new_set_spec _ _ _ E0) as (N1 & N2 & N3 & N4 & N5 & N6 & N7 & N8 & N9 & N10).
    repeat split. simpl. intros t Ht. apply N10. exact (i_ext st I t Ht).
  - destruct (nth_error (st_sets st) s) as [x|] eqn:Ex; [|discriminate].
    destruct (eval_arg st a) as [[h1 sa]|] eqn:Ea; [|discriminate].
    destruct (eval_arg_spec st a h1 sa Ea Hv) as (A1 & A2 & A3 & A4 & _).
    assert (Ib : In (s_before x) (setsl st)) by (apply (In_flat_map_nth ssl _ _ s x Ex); simpl; auto).
    unfold set_before in H. pose proof (wfs_ext _ _ _ A1 (i_sets st I _ Ib)) as Wb.
    destruct (append grow h1 (s_before x) (read h1 sa)) as [h2 b] eqn:E1. injection H as <-.
    repeat split. simpl. intros t Ht. pose proof (i_ext st I t Ht) as Wt.
    rewrite (append_read_disj _ _ _ _ _ _ t Wb E1 (wfs_ext _ _ _ A1 Wt)); [apply A4; exact Wt|].
    apply disj_sym. exact (i_es st I t _ Ht Ib).
  - destruct (nth_error (st_sets st) s) as [x|] eqn:Ex; [|discriminate].
    destruct (eval_arg st a) as [[h1 sa]|] eqn:Ea; [|discriminate].
    destruct (eval_arg_spec st a h1 sa Ea Hv) as (A1 & A2 & A3 & A4 & _).
    assert (Ib : In (s_after x) (setsl st)) by (apply (In_flat_map_nth ssl _ _ s x Ex); simpl; auto).
    unfold set_after in H. pose proof (wfs_ext _ _ _ A1 (i_sets st I _ Ib)) as Wb.
    destruct (append grow h1 (s_after x) (read h1 sa)) as [h2 b] eqn:E1. injection H as <-.
    repeat split. simpl. intros t Ht. pose proof (i_ext st I t Ht) as Wt.
    rewrite (append_read_disj _ _ _ _ _ _ t Wb E1 (wfs_ext _ _ _ A1 Wt)); [apply A4; exact Wt|].
    apply disj_sym. exact (i_es st I t _ Ht Ib).
  - destruct (nth_error (st_sets st) s) as [x|]; [|discriminate]. injection H as <-. repeat split.
  - destruct (nth_error (st_sets st) s) as [x|]; [|discriminate]. injection H as <-. repeat split.
  - destruct s as [s|]; [|discriminate].
    destruct (nth_error (st_sets st) s) as [x|]; [|discriminate]. injection H as <-. repeat split.
Qed.

(** ** C32: routers *)
Lemma plain_not_clone o : plain o = true -> forall s, o <> SClone s.
Proof. intros H s ->. discriminate. Qed.

Definition lists_of (st : state) (x : router) : list hid * list hid :=
  (read (st_heap st) (r_before x), read (st_heap st) (r_after x)).

Record inv32 (st : state) : Prop := Inv32 { k_inv : inv30 st; k_pd : pd robj (st_routers st) }.

Lemma disj_ok_fresh h s t : sl_arr s = length h -> wfs h t -> disj s t.
Proof. intros E W. apply (fresh_disj h); [lia|exact W]. Qed.

Lemma step32 grow st o st' :
  inv32 st -> plain o = true -> step grow st o = Ok st' ->
  inv32 st' /\
  (forall r x, nth_error (st_routers st) r = Some x ->
     exists x', nth_error (st_routers st') r = Some x' /\
       lists_of st' x' = router_spec1 r (lists_of st x) o) /\
  (forall r x', nth_error (st_routers st') r = Some x' -> nth_error (st_routers st) r = None ->
     lists_of st' x' = ([], []) /\ o = NewRouter).
Proof.
  intros [I P] Hp H.
  pose proof (step30_holds grow st o st' I (plain_not_clone o Hp) H) as Z.
  destruct (ext_op o) eqn:He.
  2:{ destruct (nonext_reads grow st o st' I He (plain_not_clone o Hp) H) as (Er & Ev & R).
      split; [constructor; [exact (z_inv _ _ _ Z)|rewrite Er; exact P]|]. split.
      - intros r x Hx. exists x. rewrite Er. split; [exact Hx|].
        assert (S1 : router_spec1 r (lists_of st x) o = lists_of st x) by (destruct o; try discriminate; reflexivity).
        rewrite S1. unfold lists_of. f_equal; apply R; unfold ext; apply in_app_iff; left;
          apply (In_flat_map_nth rsl _ _ r x Hx); simpl; auto.
      - intros r x' H1 H2. rewrite Er in H1. congruence. }
  assert (Wr : forall r x, nth_error (st_routers st) r = Some x ->
            wfs (st_heap st) (r_before x) /\ wfs (st_heap st) (r_after x)).
  { intros r x Hx. split; apply (i_ext st I); unfold ext; apply in_app_iff; left;
      apply (In_flat_map_nth rsl _ _ r x Hx); simpl; auto. }
  destruct P as [P1 P2].
  (* replacing the lists of router [r] by [x'] *)
  assert (Rep : forall r x x' h', st' = set_router st h' r x' ->
     nth_error (st_routers st) r = Some x ->
     disj (r_before x') (r_after x') ->
     (forall t, wfs (st_heap st) t -> disj (r_before x) t -> disj (r_after x) t ->
        disj (r_before x') t /\ disj (r_after x') t) ->
     pd robj (st_routers st')).
  { intros r x x' h' -> Hx D DD. simpl. apply pd_upd; [split; assumption|exact D|].
    intros j y Nj Hy s t Hs Ht. destruct (Wr j y Hy) as [Wb Wa].
    pose proof (P2 r j x y (fun E => Nj (eq_sym E)) Hx Hy) as O. 
    assert (Wt : wfs (st_heap st) t) by (destruct Ht as [<-|[<-|[]]]; assumption).
    destruct (DD t Wt) as [D1 D2]; [apply O; simpl; auto|apply O; simpl; auto|].
    destruct Hs as [<-|[<-|[]]]; assumption. }
  (* reading after the replacement *)
  assert (Rd : forall r x x' h', st' = set_router st h' r x' ->
     nth_error (st_routers st) r = Some x ->
     (forall t, wfs (st_heap st) t -> disj (r_before x) t -> disj (r_after x) t ->
        read h' t = read (st_heap st) t) ->
     (read h' (r_before x'), read h' (r_after x')) = router_spec1 r (lists_of st x) o ->
     (forall j l, j <> r -> router_spec1 j l o = l) ->
     (forall j y, nth_error (st_routers st) j = Some y ->
       exists y', nth_error (st_routers st') j = Some y' /\
       lists_of st' y' = router_spec1 j (lists_of st y) o) /\
     (forall j y, nth_error (st_routers st') j = Some y -> nth_error (st_routers st) j = None ->
        lists_of st' y = ([], []) /\ o = NewRouter)).
  { intros r x x' h' -> Hx R1 R2 R3. simpl. split.
    - intros j y Hy. rewrite nth_error_upd_nth, Hy. destruct (Nat.eqb_spec j r) as [->|N].
      + assert (x = y) by congruence. subst y. simpl. eexists. split; [reflexivity|]. exact R2.
      + exists y. split; [reflexivity|]. rewrite (R3 j _ N). unfold lists_of. simpl.
        destruct (Wr j y Hy) as [Wb Wa].
        pose proof (P2 r j x y (fun E => N (eq_sym E)) Hx Hy) as O.
        f_equal; apply R1; auto; apply O; simpl; auto.
    - intros j y H1 H2. exfalso. exact (nth_error_upd_len _ _ _ _ _ H1 H2). }
  destruct o; try discriminate; cbn [step] in H.
  - (* NewRouter *)
    destruct (alloc (st_heap st) [] 0) as [h1 b] eqn:E1. destruct (alloc h1 [] 0) as [h2 a] eqn:E2.
    injection H as <-.
    destruct (alloc_spec _ _ _ _ _ E1) as (A1 & A2 & A3 & A4 & A5 & A6 & A7).
    destruct (alloc_spec _ _ _ _ _ E2) as (B1 & B2 & B3 & B4 & B5 & B6 & B7).
    assert (Cb : sl_cap b = 0) by (unfold alloc in E1; injection E1 as _ <-; reflexivity).
    assert (Ca : sl_cap a = 0) by (unfold alloc in E2; injection E2 as _ <-; reflexivity).
    split; [constructor; [exact (z_inv _ _ _ Z)|]|].
    + simpl. apply pd_app; [split; assumption|left; exact Cb|].
      intros y Hy s t Hs Ht. left. destruct Hs as [<-|[<-|[]]]; assumption.
    + split.
      * intros r x Hx. exists x. simpl. split; [rewrite nth_error_app1; [exact Hx|apply nth_error_Some; congruence]|].
        destruct (Wr r x Hx) as [Wb Wa]. unfold lists_of. simpl.
        f_equal; rewrite B7 by (eapply wfs_ext; [exact A1|assumption]); apply A7; assumption.
      * simpl. intros r x' H1 H2. split; [|reflexivity]. apply nth_error_None in H2. rewrite nth_error_app2 in H1 by exact H2.
        destruct (r - length (st_routers st)) as [|n]; [|destruct n; discriminate]. injection H1 as <-.
        unfold lists_of. simpl. f_equal; [rewrite B7 by exact A2; exact A3|exact B3].
  - (* RFirst *)
    destruct (nth_error (st_routers st) r) as [x|] eqn:Ex; [|discriminate].
    destruct (alloc (st_heap st) [h] 0) as [h1 lit] eqn:E1.
    destruct (append grow h1 lit (read h1 (r_before x))) as [h2 b] eqn:E2. injection H as H.
    destruct (alloc_spec _ _ _ _ _ E1) as (A1 & A2 & A3 & A4 & A5 & A6 & A7).
    destruct (append_spec _ _ _ _ _ _ A2 E2) as (B1 & B2 & B3 & B4 & B5).
    destruct (Wr r x Ex) as [Wb Wa].
    assert (Fb : length (st_heap st) <= sl_arr b) by (destruct B5 as [(E & _)|(E & _)]; [lia|destruct A1; lia]).
    assert (RR : forall t, wfs (st_heap st) t -> read h2 t = read (st_heap st) t).
    { intros t Wt. rewrite B4; [apply A7; exact Wt|exact (wfs_ext _ _ _ A1 Wt)|].
      left. exact (fresh_disj (st_heap st) lit t ltac:(lia) Wt). }
    split; [constructor; [exact (z_inv _ _ _ Z)|]|].
    + eapply Rep; [symmetry; exact H|exact Ex| |]; cbn [r_before r_after].
      * exact (fresh_disj _ b _ Fb Wa).
      * intros t Wt D1 D2. split; [exact (fresh_disj _ b t Fb Wt)|exact D2].
    + eapply Rd; [symmetry; exact H|exact Ex|auto| |].
      * cbn [r_before r_after router_spec1]. rewrite Nat.eqb_refl. unfold lists_of. cbn [fst snd].
        rewrite B3, A3. simpl. rewrite (A7 _ Wb), (RR _ Wa). reflexivity.
      * intros j l N. simpl. rewrite (proj2 (Nat.eqb_neq r j)) by auto. reflexivity.
  - (* RBefore *)
    destruct a as [xs extra|]; [|discriminate].
    destruct (nth_error (st_routers st) r) as [x|] eqn:Ex; [|discriminate]. unfold eval_arg in H.
    destruct (alloc (st_heap st) xs extra) as [h1 s] eqn:E1. injection H as H.
    destruct (alloc_spec _ _ _ _ _ E1) as (A1 & A2 & A3 & A4 & A5 & A6 & A7).
    destruct (Wr r x Ex) as [Wb Wa].
    split; [constructor; [exact (z_inv _ _ _ Z)|]|].
    + eapply Rep; [symmetry; exact H|exact Ex| |]; cbn [r_before r_after].
      * exact (disj_ok_fresh _ s _ A4 Wa).
      * intros t Wt D1 D2. split; [exact (disj_ok_fresh _ s t A4 Wt)|exact D2].
    + eapply Rd; [symmetry; exact H|exact Ex|auto| |].
      * cbn [r_before r_after router_spec1 arg_list]. rewrite Nat.eqb_refl. unfold lists_of. cbn [fst snd].
        rewrite A3, (A7 _ Wa). reflexivity.
      * intros j l N. simpl. rewrite (proj2 (Nat.eqb_neq r j)) by auto. reflexivity.
  - (* RAfter *)
    destruct a as [xs extra|]; [|discriminate].
    destruct (nth_error (st_routers st) r) as [x|] eqn:Ex; [|discriminate]. unfold eval_arg in H.
    destruct (alloc (st_heap st) xs extra) as [h1 s] eqn:E1. injection H as H.
    destruct (alloc_spec _ _ _ _ _ E1) as (A1 & A2 & A3 & A4 & A5 & A6 & A7).
    destruct (Wr r x Ex) as [Wb Wa].
    split; [constructor; [exact (z_inv _ _ _ Z)|]|].
    + eapply Rep; [symmetry; exact H|exact Ex| |]; cbn [r_before r_after].
      * apply disj_sym. exact (disj_ok_fresh _ s _ A4 Wb).
      * intros t Wt D1 D2. split; [exact D1|exact (disj_ok_fresh _ s t A4 Wt)].
    + eapply Rd; [symmetry; exact H|exact Ex|auto| |].
      * cbn [r_before r_after router_spec1 arg_list]. rewrite Nat.eqb_refl. unfold lists_of. cbn [fst snd].
        rewrite A3, (A7 _ Wb). reflexivity.
      * intros j l N. simpl. rewrite (proj2 (Nat.eqb_neq r j)) by auto. reflexivity.
  - (* RLastAfter *)
    destruct (nth_error (st_routers st) r) as [x|] eqn:Ex; [|discriminate].
    destruct (Wr r x Ex) as [Wb Wa].
    destruct (append grow (st_heap st) (r_after x) [h]) as [h1 a] eqn:E1. injection H as H.
    destruct (append_spec _ _ _ _ _ _ Wa E1) as (B1 & B2 & B3 & B4 & B5).
    split; [constructor; [exact (z_inv _ _ _ Z)|]|].
    + eapply Rep; [symmetry; exact H|exact Ex| |]; cbn [r_before r_after].
      * apply disj_sym, (append_disj _ _ _ _ _ _ _ Wa Wb E1), disj_sym. exact (P1 r x Ex).
      * intros t Wt D1 D2. split; [exact D1|exact (append_disj _ _ _ _ _ _ _ Wa Wt E1 D2)].
    + eapply Rd; [symmetry; exact H|exact Ex| | |].
      * intros t Wt D1 D2. apply B4; [exact Wt|left; exact D2].
      * cbn [r_before r_after router_spec1]. rewrite Nat.eqb_refl. unfold lists_of. cbn [fst snd].
        rewrite B3. f_equal. apply B4; [exact Wb|left; apply disj_sym; exact (P1 r x Ex)].
      * intros j l N. simpl. rewrite (proj2 (Nat.eqb_neq r j)) by auto. reflexivity.
  - (* RLast *)
    destruct (nth_error (st_routers st) r) as [x|] eqn:Ex; [|discriminate]. injection H as H.
    split; [constructor; [exact (z_inv _ _ _ Z)|]|].
    + eapply Rep; [symmetry; exact H|exact Ex| |]; cbn [r_before r_after]; [exact (P1 r x Ex)|auto].
    + eapply Rd; [symmetry; exact H|exact Ex|auto|reflexivity|reflexivity].
Qed.

Lemma inv32_init : inv32 init.
Proof.
  constructor; [exact inv30_init|]. split.
  - intros [|] ? ?; discriminate.
  - intros [|] ? ? ? ? ?; discriminate.
Qed.

Lemma run_snoc grow os o : forall st,
  run grow st (os ++ [o]) = match run grow st os with Ok st' => step grow st' o | Panic => Panic end.
Proof.
  induction os as [|o' os IH]; intros st; simpl.
  - destruct (step grow st o); reflexivity.
  - destruct (step grow st o'); [apply IH|reflexivity].
Qed.

Lemma router_spec_before os : forall r st grow,
  run grow init os = Ok st -> nth_error (st_routers st) r = None -> router_spec r os = ([], []).
Proof.
  induction os as [|o os IH] using rev_ind; intros r st grow H N; [reflexivity|].
  rewrite run_snoc in H. destruct (run grow init os) as [st0|] eqn:E; [|discriminate].
  assert (Mono : forall n, nth_error (st_routers st0) n <> None -> nth_error (st_routers st) n <> None).
  { intros n Hn. clear -H Hn. destruct o; cbn [step] in H;
      repeat match goal with
      | H : context [match ?e with _ => _ end] |- _ => destruct e; try discriminate
      | H : Ok _ = Ok _ |- _ => injection H as <-
      end; simpl; rewrite ?nth_error_upd_nth; try exact Hn.
    all: try (rewrite nth_error_app1; [exact Hn|apply nth_error_Some; exact Hn]).
    all: destruct (n =? r); [|exact Hn]; destruct (nth_error (st_routers st0) n); simpl; congruence. }
  assert (N0 : nth_error (st_routers st0) r = None).
  { destruct (nth_error (st_routers st0) r) eqn:E0; [|reflexivity]. exfalso.
    apply (Mono r); congruence. }
  unfold router_spec. rewrite fold_left_app. fold (router_spec r os). rewrite (IH r st0 grow E N0). simpl.
  destruct o; simpl; try reflexivity; destruct (Nat.eqb_spec r0 r) as [->|]; try reflexivity;
    cbn [step] in H; rewrite N0 in H; discriminate.
Qed.

Lemma run_inv32 grow os : forall st,
  Forall (fun o => plain o = true) os -> run grow init os = Ok st -> inv32 st /\
  (forall r x, nth_error (st_routers st) r = Some x -> lists_of st x = router_spec r os).
Proof.
  induction os as [|o os IH] using rev_ind; intros st HF H.
  - injection H as <-. split; [exact inv32_init|]. intros [|] ? ?; discriminate.
  - rewrite run_snoc in H. destruct (run grow init os) as [st0|] eqn:E; [|discriminate].
    apply Forall_app in HF as [HF Ho]. inversion Ho as [|? ? Hp _]; subst.
    destruct (IH st0 HF eq_refl) as [I R]. destruct (step32 grow st0 o st I Hp H) as (I' & S1 & S2).
    split; [exact I'|]. intros r x Hx. unfold router_spec. rewrite fold_left_app. simpl.
    fold (router_spec r os).
    destruct (nth_error (st_routers st0) r) as [x0|] eqn:E0.
    + destruct (S1 r x0 E0) as (x' & Hx' & L). assert (x = x') by congruence. subst x'.
      rewrite L, (R r x0 E0). reflexivity.
    + destruct (S2 r x Hx E0) as [L ->]. rewrite L. simpl. symmetry.
      exact (router_spec_before os r st0 grow E E0).
Qed.

(** handler sets *)
Lemma set_spec_before os : forall s st grow,
  run grow init os = Ok st -> nth_error (st_sets st) s = None -> set_spec s os = ([], []).
Proof.
  induction os as [|o os IH] using rev_ind; intros r st grow H N; [reflexivity|].
  rewrite run_snoc in H. destruct (run grow init os) as [st0|] eqn:E; [|discriminate].
  assert (Mono : forall n, nth_error (st_sets st0) n <> None -> nth_error (st_sets st) n <> None).
  { intros n Hn. clear -H Hn. destruct o; cbn [step] in H;
      repeat match goal with
      | H : context [match ?e with _ => _ end] |- _ => destruct e; try discriminate
      | H : Ok _ = Ok _ |- _ => injection H as <-
      end; simpl; rewrite ?nth_error_upd_nth; try exact Hn.
    all: try (rewrite nth_error_app1; [exact Hn|apply nth_error_Some; exact Hn]).
    all: destruct (n =? s); [|exact Hn]; destruct (nth_error (st_sets st0) n); simpl; congruence. }
  assert (N0 : nth_error (st_sets st0) r = None).
  { destruct (nth_error (st_sets st0) r) eqn:E0; [|reflexivity]. exfalso.
    apply (Mono r); congruence. }
  unfold set_spec. rewrite fold_left_app. fold (set_spec r os). rewrite (IH r st0 grow E N0). simpl.
  destruct o; simpl; try reflexivity; destruct (Nat.eqb_spec s r) as [->|]; try reflexivity;
    cbn [step] in H; rewrite N0 in H; discriminate.
Qed.

Definition slists (st : state) (x : hset) := (read (st_heap st) (s_before x), read (st_heap st) (s_after x)).

Lemma run_sets32 grow os : forall st,
  Forall (fun o => plain o = true) os -> run grow init os = Ok st ->
  forall s x, nth_error (st_sets st) s = Some x -> slists st x = set_spec s os.
Proof.
  induction os as [|o os IH] using rev_ind; intros st HF H.
  - injection H as <-. intros [|] ? ?; discriminate.
  - rewrite run_snoc in H. destruct (run grow init os) as [st0|] eqn:E; [|discriminate].
    apply Forall_app in HF as [HF Ho]. inversion Ho as [|? ? Hp _]; subst.
    destruct (run_inv32 grow os st0 HF E) as [[I _] _].
    pose proof (step30_holds grow st0 o st I (plain_not_clone o Hp) H) as Z.
    intros s x Hx. unfold set_spec. rewrite fold_left_app. simpl. fold (set_spec s os).
    destruct (nth_error (st_sets st0) s) as [x0|] eqn:E0.
    + destruct (z_sets _ _ _ Z s x0 E0) as (x' & Hx' & L1 & L2). assert (x = x') by congruence. subst x'.
      unfold slists. rewrite L1, L2. pose proof (IH st0 HF eq_refl s x0 E0) as R. unfold slists in R.
      rewrite <- R. destruct o; simpl in *; rewrite ?app_nil_r; try reflexivity;
        destruct a; try discriminate; simpl; destruct (s0 =? s); rewrite ?app_nil_r; reflexivity.
    + destruct (z_new _ _ _ Z s x Hx E0) as [L1 L2]. unfold slists. rewrite L1, L2.
      rewrite (set_spec_before os s st0 grow E E0).
      destruct o; simpl; try reflexivity; destruct (Nat.eqb_spec s0 s) as [->|]; try reflexivity;
        cbn [step] in H; rewrite E0 in H; discriminate.
Qed.

(** routes registered from handler sets, without Clone *)
Lemma run_inv30 grow os : forall st st',
  inv30 st -> Forall (fun o => forall s, o <> SClone s) os -> run grow st os = Ok st' ->
  inv30 st' /\ (exists rs, st_routes st' = st_routes st ++ rs) /\
  (forall t, In t (regs st) -> read (st_heap st') t = read (st_heap st) t).
Proof.
  induction os as [|o os IH]; intros st st' I HF H; simpl in H.
  - injection H as <-. split; [exact I|]. split; [exists []; rewrite app_nil_r; reflexivity|reflexivity].
  - destruct (step grow st o) as [st1|] eqn:E; [|discriminate]. inversion HF as [|? ? Ho HF']; subst.
    pose proof (step30_holds grow st o st1 I Ho E) as Z.
    destruct (IH st1 st' (z_inv _ _ _ Z) HF' H) as (I' & (rs & Er) & R).
    destruct (z_routes _ _ _ Z) as (rs1 & Er1).
    split; [exact I'|]. split; [exists (rs1 ++ rs); rewrite Er, Er1, app_assoc; reflexivity|].
    intros t Ht. rewrite R; [exact (z_regs _ _ _ Z t Ht)|].
    unfold regs. rewrite Er1, flat_map_app. apply in_app_iff. auto.
Qed.

(** ** C31 *)
Definition befores (st : state) : list slice := map r_before (st_routers st) ++ map s_before (st_sets st).
Definition afters (st : state) : list slice := map r_after (st_routers st) ++ map s_after (st_sets st).
Record tinv (st : state) : Prop := Tinv {
  t_wb : forall s, In s (befores st) -> wfs (st_heap st) s;
  t_wa : forall s, In s (afters st) -> wfs (st_heap st) s;
  t_ba : odisj (befores st) (afters st)
}.

Lemma In_map_upd {A C} (f : A -> C) (y : A) (x : C) (l : list A) : forall i,
  In x (map f (upd_nth i (fun _ => y) l)) -> In x (map f l) \/ x = f y.
Proof.
  induction l as [|a l IH]; intros [|i]; simpl; auto.
  - intros [H|H]; auto.
  - intros [H|H]; [auto|]. destruct (IH i H); auto.
Qed.
Lemma In_map_nth {A C} (f : A -> C) (l : list A) i y :
  nth_error l i = Some y -> In (f y) (map f l).
Proof. intros H. apply in_map. apply nth_error_In in H. exact H. Qed.

(** new slices come from old ones of the same kind, or are new *)
Lemma tinv_step st st' :
  tinv st -> heap_ext (st_heap st) (st_heap st') ->
  (forall s, In s (befores st') -> In s (befores st) \/ (wfs (st_heap st') s /\
     ((exists s0, In s0 (befores st) /\ sl_arr s = sl_arr s0 /\ (sl_cap s0 = 0 -> sl_cap s = 0))
      \/ length (st_heap st) <= sl_arr s))) ->
  (forall s, In s (afters st') -> In s (afters st) \/ (wfs (st_heap st') s /\
     ((exists s0, In s0 (afters st) /\ sl_arr s = sl_arr s0 /\ (sl_cap s0 = 0 -> sl_cap s = 0))
      \/ length (st_heap st) <= sl_arr s))) ->
  (forall s t, In s (befores st') -> In t (afters st') ->
     length (st_heap st) <= sl_arr s -> length (st_heap st) <= sl_arr t -> sl_cap s = 0 \/ sl_cap t = 0) ->
  tinv st'.
Proof.
  intros T X HB HA HN. constructor.
  - intros s Hs. destruct (HB s Hs) as [H|[H _]]; [exact (wfs_ext _ _ _ X (t_wb st T s H))|exact H].
  - intros s Hs. destruct (HA s Hs) as [H|[H _]]; [exact (wfs_ext _ _ _ X (t_wa st T s H))|exact H].
  - intros s t Hs Ht.
    assert (Bs : (exists s0, In s0 (befores st) /\ sl_arr s = sl_arr s0 /\ (sl_cap s0 = 0 -> sl_cap s = 0))
      \/ length (st_heap st) <= sl_arr s).
    { destruct (HB s Hs) as [H|[_ H]]; [left; exists s; auto|exact H]. }
    assert (As : (exists s0, In s0 (afters st) /\ sl_arr t = sl_arr s0 /\ (sl_cap s0 = 0 -> sl_cap t = 0))
      \/ length (st_heap st) <= sl_arr t).
    { destruct (HA t Ht) as [H|[_ H]]; [left; exists t; auto|exact H]. }
    destruct Bs as [(s0 & B1 & B2 & B3)|Bs]; destruct As as [(t0 & A1 & A2 & A3)|As].
    + destruct (t_ba st T s0 t0 B1 A1) as [D|[D|D]]; [left; auto|right; left; auto|right; right; congruence].
    + destruct (t_wb st T s0 B1) as [_ [W|[W _]]]; [left; auto|right; right; lia].
    + destruct (t_wa st T t0 A1) as [_ [W|[W _]]]; [right; left; auto|right; right; lia].
    + destruct (HN s t Hs Ht Bs As); [left; assumption|right; left; assumption].
Qed.

Lemma old_small st s : tinv st -> In s (befores st) \/ In s (afters st) ->
  sl_cap s = 0 \/ sl_arr s < length (st_heap st).
Proof.
  intros T [H|H]; [destruct (t_wb st T s H) as [_ [W|[W _]]]|destruct (t_wa st T s H) as [_ [W|[W _]]]]; auto.
Qed.

Lemma append_kin grow h s xs h' s' : wfs h s -> append grow h s xs = (h', s') ->
  (sl_arr s' = sl_arr s /\ (sl_cap s = 0 -> sl_cap s' = 0)) \/ length h <= sl_arr s'.
Proof.
  intros W H. destruct (append_spec grow h s xs h' s' W H) as (_ & _ & _ & _ & [(E & _ & C & _)|(E & _)]).
  - left. split; [exact E|congruence].
  - right. lia.
Qed.

Ltac ba := unfold befores, afters in *; simpl in *; rewrite ?map_app, ?in_app_iff in *; simpl in *.

Lemma tidy_step grow st o st' :
  tinv st -> tidy o = true -> step grow st o = Ok st' -> tinv st'.
Proof.
  intros T Ht H.
  destruct o; try discriminate; cbn [step] in H.
  - (* NewRouter *)
    destruct (alloc (st_heap st) [] 0) as [h1 b] eqn:E1. destruct (alloc h1 [] 0) as [h2 a] eqn:E2.
    injection H as <-.
    destruct (alloc_spec _ _ _ _ _ E1) as (A1 & A2 & A3 & A4 & A5 & A6 & A7).
    destruct (alloc_spec _ _ _ _ _ E2) as (B1 & B2 & B3 & B4 & B5 & B6 & B7).
    assert (Cb : sl_cap b = 0) by (unfold alloc in E1; injection E1 as _ <-; reflexivity).
    assert (Ca : sl_cap a = 0) by (unfold alloc in E2; injection E2 as _ <-; reflexivity).
    apply (tinv_step st); [exact T|exact (heap_ext_trans _ _ _ A1 B1)| | |].
    + intros s Hs. ba. destruct Hs as [[Hs|[<-|[]]]|Hs]; auto.
      right. split; [exact (wfs_ext _ _ _ B1 A2)|right; lia].
    + intros s Hs. ba. destruct Hs as [[Hs|[<-|[]]]|Hs]; auto.
      right. split; [exact B2|right; destruct A1; lia].
    + intros s t Hs Ht' Fs Ft.
      assert (X : In s (befores st) \/ s = b).
      { unfold befores in *. simpl in Hs. rewrite map_app, !in_app_iff in Hs. rewrite in_app_iff.
        destruct Hs as [[Hs|[Hs|[]]]|Hs]; auto. }
      destruct X as [X| ->]; [|auto]. destruct (old_small st s T (or_introl X)); [auto|lia].
  - (* RFirst *)
    destruct (nth_error (st_routers st) r) as [x|] eqn:Ex; [|discriminate].
    destruct (alloc (st_heap st) [h] 0) as [h1 lit] eqn:E1.
    destruct (append grow h1 lit (read h1 (r_before x))) as [h2 b] eqn:E2. injection H as <-.
    destruct (alloc_spec _ _ _ _ _ E1) as (A1 & A2 & A3 & A4 & A5 & A6 & A7).
    destruct (append_spec _ _ _ _ _ _ A2 E2) as (B1 & B2 & B3 & B4 & B5).
    assert (Fb : length (st_heap st) <= sl_arr b) by (destruct B5 as [(E & _)|(E & _)]; [lia|destruct A1; lia]).
    assert (Af : forall s, In s (afters (set_router st h2 r (Router b (r_after x) (r_last x)))) -> In s (afters st)).
    { intros s Hs. ba. destruct Hs as [Hs|Hs]; [|auto]. apply In_map_upd in Hs as [Hs|Hs]; [auto|].
      left. subst s. apply (In_map_nth r_after _ r x Ex). }
    apply (tinv_step st); [exact T|exact (heap_ext_trans _ _ _ A1 B1)| | |].
    + intros s Hs. ba. destruct Hs as [Hs|Hs]; [|auto]. apply In_map_upd in Hs as [Hs|Hs]; [auto|].
      subst s. simpl. right. split; [exact B2|auto].
    + intros s Hs. left. exact (Af s Hs).
    + intros s t Hs Ht' Fs Ft. destruct (old_small st t T (or_intror (Af t Ht'))); [auto|lia].
  - (* RBefore *)
    destruct a as [xs extra|]; [|discriminate].
    destruct (nth_error (st_routers st) r) as [x|] eqn:Ex; [|discriminate]. unfold eval_arg in H.
    destruct (alloc (st_heap st) xs extra) as [h1 b] eqn:E1. injection H as <-.
    destruct (alloc_spec _ _ _ _ _ E1) as (A1 & A2 & A3 & A4 & A5 & A6 & A7).
    assert (Af : forall s, In s (afters (set_router st h1 r (Router b (r_after x) (r_last x)))) -> In s (afters st)).
    { intros s Hs. ba. destruct Hs as [Hs|Hs]; [|auto]. apply In_map_upd in Hs as [Hs|Hs]; [auto|].
      left. subst s. apply (In_map_nth r_after _ r x Ex). }
    apply (tinv_step st); [exact T|exact A1| | |].
    + intros s Hs. ba. destruct Hs as [Hs|Hs]; [|auto]. apply In_map_upd in Hs as [Hs|Hs]; [auto|].
      subst s. simpl. right. split; [exact A2|right; lia].
    + intros s Hs. left. exact (Af s Hs).
    + intros s t Hs Ht' Fs Ft. destruct (old_small st t T (or_intror (Af t Ht'))); [auto|lia].
  - (* RAfter *)
    destruct a as [xs extra|]; [|discriminate].
    destruct (nth_error (st_routers st) r) as [x|] eqn:Ex; [|discriminate]. unfold eval_arg in H.
    destruct (alloc (st_heap st) xs extra) as [h1 b] eqn:E1. injection H as <-.
    destruct (alloc_spec _ _ _ _ _ E1) as (A1 & A2 & A3 & A4 & A5 & A6 & A7).
    assert (Af : forall s, In s (befores (set_router st h1 r (Router (r_before x) b (r_last x)))) -> In s (befores st)).
    { intros s Hs. ba. destruct Hs as [Hs|Hs]; [|auto]. apply In_map_upd in Hs as [Hs|Hs]; [auto|].
      left. subst s. apply (In_map_nth r_before _ r x Ex). }
    apply (tinv_step st); [exact T|exact A1| | |].
    + intros s Hs. left. exact (Af s Hs).
    + intros s Hs. ba. destruct Hs as [Hs|Hs]; [|auto]. apply In_map_upd in Hs as [Hs|Hs]; [auto|].
      subst s. simpl. right. split; [exact A2|right; lia].
    + intros s t Hs Ht' Fs Ft. destruct (old_small st s T (or_introl (Af s Hs))); [auto|lia].
  - (* RLastAfter *)
    destruct (nth_error (st_routers st) r) as [x|] eqn:Ex; [|discriminate].
    assert (Ia : In (r_after x) (afters st)) by (unfold afters; apply in_app_iff; left; apply (In_map_nth r_after _ r x Ex)).
    pose proof (t_wa st T _ Ia) as Wa.
    destruct (append grow (st_heap st) (r_after x) [h]) as [h1 a] eqn:E1. injection H as <-.
    destruct (append_spec _ _ _ _ _ _ Wa E1) as (B1 & B2 & B3 & B4 & B5).
    assert (Bf : forall s, In s (befores (set_router st h1 r (Router (r_before x) a (r_last x)))) -> In s (befores st)).
    { intros s Hs. ba. destruct Hs as [Hs|Hs]; [|auto]. apply In_map_upd in Hs as [Hs|Hs]; [auto|].
      left. subst s. apply (In_map_nth r_before _ r x Ex). }
    apply (tinv_step st); [exact T|exact B1| | |].
    + intros s Hs. left. exact (Bf s Hs).
    + intros s Hs. unfold afters in Hs. simpl in Hs. apply in_app_iff in Hs as [Hs|Hs];
        [|left; unfold afters; apply in_app_iff; auto].
      apply In_map_upd in Hs as [Hs|Hs]; [left; unfold afters; apply in_app_iff; auto|].
      subst s. simpl. right. split; [exact B2|].
      destruct (append_kin _ _ _ _ _ _ Wa E1) as [K|K]; [left; exists (r_after x); auto|auto].
    + intros s t Hs Ht' Fs Ft. destruct (old_small st s T (or_introl (Bf s Hs))); [auto|lia].
  - (* RLast *)
    destruct (nth_error (st_routers st) r) as [x|] eqn:Ex; [|discriminate]. injection H as <-.
    assert (Bf : forall s, In s (befores (set_router st (st_heap st) r (Router (r_before x) (r_after x) l))) -> In s (befores st)).
    { intros s Hs. ba. destruct Hs as [Hs|Hs]; [|auto]. apply In_map_upd in Hs as [Hs|Hs]; [auto|].
      left. subst s. apply (In_map_nth r_before _ r x Ex). }
    assert (Af : forall s, In s (afters (set_router st (st_heap st) r (Router (r_before x) (r_after x) l))) -> In s (afters st)).
    { intros s Hs. ba. destruct Hs as [Hs|Hs]; [|auto]. apply In_map_upd in Hs as [Hs|Hs]; [auto|].
      left. subst s. apply (In_map_nth r_after _ r x Ex). }
    apply (tinv_step st); [exact T|apply heap_ext_refl|intros s Hs; left; auto|intros s Hs; left; auto|].
    intros s t Hs Ht' Fs Ft. destruct (old_small st s T (or_introl (Bf s Hs))); [auto|lia].
  - (* RClone *)
    destruct (nth_error (st_routers st) r) as [x|] eqn:Ex; [|discriminate]. injection H as <-.
    set (st1 := State (st_heap st) (st_routers st ++ [Router (r_before x) (r_after x) (r_last x)])
                 (st_sets st) (st_vars st) (st_routes st)).
    assert (Bf : forall s, In s (befores st1) -> In s (befores st)).
    { intros s Hs. ba. destruct Hs as [[Hs|[<-|[]]]|Hs]; auto. left. apply (In_map_nth r_before _ r x Ex). }
    assert (Af : forall s, In s (afters st1) -> In s (afters st)).
    { intros s Hs. ba. destruct Hs as [[Hs|[<-|[]]]|Hs]; auto. left. apply (In_map_nth r_after _ r x Ex). }
    apply (tinv_step st); [exact T|apply heap_ext_refl|intros s Hs; left; auto|intros s Hs; left; auto|].
    intros s t Hs Ht' Fs Ft. destruct (old_small st s T (or_introl (Bf s Hs))); [auto|lia].
  - (* RUse *)
    destruct (nth_error (st_routers st) r) as [x|] eqn:Ex; [|discriminate].
    destruct (new_set (st_heap st)) as [h1 s0] eqn:E0.
    destruct (new_set_spec _ _ _ E0) as (N1 & N2 & N3 & N4 & N5 & N6 & N7 & N8 & N9 & N10).
    unfold set_after, set_before in H.
    destruct (append grow h1 (s_after s0) (read h1 (r_after x))) as [h2 a] eqn:E1.
    cbn [s_before s_after s_last s_main] in H.
    destruct (append grow h2 (s_before s0) (read h2 (r_before x))) as [h3 b] eqn:E2.
    injection H as <-.
    destruct (append_spec _ _ _ _ _ _ N3 E1) as (B1 & B2 & B3 & B4 & B5).
    pose proof (wfs_ext _ _ _ B1 N2) as N2'.
    destruct (append_spec _ _ _ _ _ _ N2' E2) as (C1 & C2 & C3 & C4 & C5).
    apply (tinv_step st); [exact T|exact (heap_ext_trans _ _ _ (heap_ext_trans _ _ _ N1 B1) C1)|
      intros s Hs; left; exact Hs|intros s Hs; left; exact Hs|].
    intros s t Hs Ht' Fs Ft. destruct (old_small st s T (or_introl Hs)); [auto|lia].
  - (* NewSet *)
    destruct (new_set (st_heap st)) as [h1 s0] eqn:E0. injection H as <-.
    destruct (new_set_spec _ _ _ E0) as (N1 & N2 & N3 & N4 & N5 & N6 & N7 & N8 & N9 & N10).
    apply (tinv_step st); [exact T|exact N1| | |].
    + intros s Hs. ba. destruct Hs as [Hs|[Hs|[<-|[]]]]; auto.
    + intros s Hs. ba. destruct Hs as [Hs|[Hs|[<-|[]]]]; auto.
    + intros s t Hs Ht' Fs Ft.
      assert (X : In s (befores st) \/ s = s_before s0).
      { unfold befores in *. simpl in Hs. rewrite map_app, !in_app_iff in Hs. rewrite in_app_iff.
        destruct Hs as [Hs|[Hs|[Hs|[]]]]; auto. }
      destruct X as [X| ->]; [|auto]. destruct (old_small st s T (or_introl X)); [auto|lia].
  - (* SBefore *)
    destruct a as [xs extra|]; [|discriminate].
    destruct (nth_error (st_sets st) s) as [x|] eqn:Ex; [|discriminate]. unfold eval_arg in H.
    destruct (alloc (st_heap st) xs extra) as [h1 sa] eqn:E1.
    destruct (alloc_spec _ _ _ _ _ E1) as (A1 & A2 & A3 & A4 & A5 & A6 & A7).
    assert (Ib : In (s_before x) (befores st)) by (unfold befores; apply in_app_iff; right; apply (In_map_nth s_before _ s x Ex)).
    pose proof (wfs_ext _ _ _ A1 (t_wb st T _ Ib)) as Wb. unfold set_before in H.
    destruct (append grow h1 (s_before x) (read h1 sa)) as [h2 b] eqn:E2. injection H as <-.
    destruct (append_spec _ _ _ _ _ _ Wb E2) as (B1 & B2 & B3 & B4 & B5).
    assert (Af : forall u, In u (afters (set_set st h2 s (HSet b (s_after x) (s_last x) (s_main x)))) -> In u (afters st)).
    { intros u Hu. ba. destruct Hu as [Hu|Hu]; [auto|]. apply In_map_upd in Hu as [Hu|Hu]; [auto|].
      right. subst u. apply (In_map_nth s_after _ s x Ex). }
    apply (tinv_step st); [exact T|exact (heap_ext_trans _ _ _ A1 B1)| | |].
    + intros u Hu. unfold befores in Hu. simpl in Hu. apply in_app_iff in Hu as [Hu|Hu];
        [left; unfold befores; apply in_app_iff; auto|].
      apply In_map_upd in Hu as [Hu|Hu]; [left; unfold befores; apply in_app_iff; auto|].
      subst u. simpl. right. split; [exact B2|].
      destruct (append_kin _ _ _ _ _ _ Wb E2) as [K|K]; [left; exists (s_before x); auto|right; destruct A1; lia].
    + intros u Hu. left. exact (Af u Hu).
    + intros u t Hu Ht' Fs Ft. destruct (old_small st t T (or_intror (Af t Ht'))); [auto|lia].
  - (* SAfter *)
    destruct a as [xs extra|]; [|discriminate].
    destruct (nth_error (st_sets st) s) as [x|] eqn:Ex; [|discriminate]. unfold eval_arg in H.
    destruct (alloc (st_heap st) xs extra) as [h1 sa] eqn:E1.
    destruct (alloc_spec _ _ _ _ _ E1) as (A1 & A2 & A3 & A4 & A5 & A6 & A7).
    assert (Ib : In (s_after x) (afters st)) by (unfold afters; apply in_app_iff; right; apply (In_map_nth s_after _ s x Ex)).
    pose proof (wfs_ext _ _ _ A1 (t_wa st T _ Ib)) as Wb. unfold set_after in H.
    destruct (append grow h1 (s_after x) (read h1 sa)) as [h2 b] eqn:E2. injection H as <-.
    destruct (append_spec _ _ _ _ _ _ Wb E2) as (B1 & B2 & B3 & B4 & B5).
    assert (Bf : forall u, In u (befores (set_set st h2 s (HSet (s_before x) b (s_last x) (s_main x)))) -> In u (befores st)).
    { intros u Hu. ba. destruct Hu as [Hu|Hu]; [auto|]. apply In_map_upd in Hu as [Hu|Hu]; [auto|].
      right. subst u. apply (In_map_nth s_before _ s x Ex). }
    apply (tinv_step st); [exact T|exact (heap_ext_trans _ _ _ A1 B1)| | |].
    + intros u Hu. left. exact (Bf u Hu).
    + intros u Hu. unfold afters in Hu. simpl in Hu. apply in_app_iff in Hu as [Hu|Hu];
        [left; unfold afters; apply in_app_iff; auto|].
      apply In_map_upd in Hu as [Hu|Hu]; [left; unfold afters; apply in_app_iff; auto|].
      subst u. simpl. right. split; [exact B2|].
      destruct (append_kin _ _ _ _ _ _ Wb E2) as [K|K]; [left; exists (s_after x); auto|right; destruct A1; lia].
    + intros u t Hu Ht' Fs Ft. destruct (old_small st u T (or_introl (Bf u Hu))); [auto|lia].
  - (* SLast *)
    destruct (nth_error (st_sets st) s) as [x|] eqn:Ex; [|discriminate]. injection H as <-.
    assert (Bf : forall u, In u (befores (set_set st (st_heap st) s (set_last x l))) -> In u (befores st)).
    { intros u Hu. ba. destruct Hu as [Hu|Hu]; [auto|]. apply In_map_upd in Hu as [Hu|Hu]; [auto|].
      right. subst u. apply (In_map_nth s_before _ s x Ex). }
    assert (Af : forall u, In u (afters (set_set st (st_heap st) s (set_last x l))) -> In u (afters st)).
    { intros u Hu. ba. destruct Hu as [Hu|Hu]; [auto|]. apply In_map_upd in Hu as [Hu|Hu]; [auto|].
      right. subst u. apply (In_map_nth s_after _ s x Ex). }
    apply (tinv_step st); [exact T|apply heap_ext_refl|intros u Hu; left; auto|intros u Hu; left; auto|].
    intros u t Hu Ht' Fs Ft. destruct (old_small st u T (or_introl (Bf u Hu))); [auto|lia].
  - (* SUse *)
    destruct (nth_error (st_sets st) s) as [x|] eqn:Ex; [|discriminate]. injection H as <-.
    assert (Bf : forall u, In u (befores (set_set st (st_heap st) s (set_use x m))) -> In u (befores st)).
    { intros u Hu. ba. destruct Hu as [Hu|Hu]; [auto|]. apply In_map_upd in Hu as [Hu|Hu]; [auto|].
      right. subst u. apply (In_map_nth s_before _ s x Ex). }
    assert (Af : forall u, In u (afters (set_set st (st_heap st) s (set_use x m))) -> In u (afters st)).
    { intros u Hu. ba. destruct Hu as [Hu|Hu]; [auto|]. apply In_map_upd in Hu as [Hu|Hu]; [auto|].
      right. subst u. apply (In_map_nth s_after _ s x Ex). }
    apply (tinv_step st); [exact T|apply heap_ext_refl|intros u Hu; left; auto|intros u Hu; left; auto|].
    intros u t Hu Ht' Fs Ft. destruct (old_small st u T (or_introl (Bf u Hu))); [auto|lia].
  - (* SClone *)
    destruct (nth_error (st_sets st) s) as [x|] eqn:Ex; [|discriminate]. injection H as <-.
    set (st1 := State (st_heap st) (st_routers st) (st_sets st ++ [set_clone x]) (st_vars st) (st_routes st)).
    assert (Bf : forall u, In u (befores st1) -> In u (befores st)).
    { intros u Hu. ba. destruct Hu as [Hu|[Hu|[<-|[]]]]; auto. right. apply (In_map_nth s_before _ s x Ex). }
    assert (Af : forall u, In u (afters st1) -> In u (afters st)).
    { intros u Hu. ba. destruct Hu as [Hu|[Hu|[<-|[]]]]; auto. right. apply (In_map_nth s_after _ s x Ex). }
    apply (tinv_step st); [exact T|apply heap_ext_refl|intros u Hu; left; auto|intros u Hu; left; auto|].
    intros u t Hu Ht' Fs Ft. destruct (old_small st u T (or_introl (Bf u Hu))); [auto|lia].
  - (* SAdd *)
    destruct s as [s|]; [|discriminate].
    destruct (nth_error (st_sets st) s) as [x|] eqn:Ex; [|discriminate]. injection H as <-.
    apply (tinv_step st); [exact T|apply heap_ext_refl|intros u Hu; left; exact Hu|intros u Hu; left; exact Hu|].
    intros u t Hu Ht' Fs Ft. destruct (old_small st u T (or_introl Hu)); [auto|lia].
Qed.

Lemma tinv_init : tinv init.
Proof. constructor; unfold odisj; simpl; intros; contradiction. Qed.
Lemma tidy_run grow os : forall st st', tinv st -> Forall (fun o => tidy o = true) os ->
  run grow st os = Ok st' -> tinv st'.
Proof.
  induction os as [|o os IH]; intros st st' T HF H; simpl in H; [congruence|].
  destruct (step grow st o) as [st1|] eqn:E; [|discriminate]. inversion HF; subst.
  apply (IH st1 st'); auto. exact (tidy_step grow st o st1 T H2 E).
Qed.

Lemma on_router_tidy r o : on_router r o = true -> tidy o = true.
Proof. destruct o; simpl; try discriminate; auto; rewrite andb_true_iff; tauto. Qed.
Lemma on_set_tidy s o : on_set s o = true -> tidy o = true.
Proof. destruct o; simpl; try discriminate; auto; rewrite andb_true_iff; tauto. Qed.

(** operations on router [x] leave router [y] alone, if [x] only appends behind [y] *)
Lemma router_isolated grow os : forall st st' rx ry x y,
  tinv st -> rx <> ry ->
  nth_error (st_routers st) rx = Some x -> nth_error (st_routers st) ry = Some y ->
  behind (r_after x) (r_after y) ->
  Forall (fun o => on_router rx o = true) os -> run grow st os = Ok st' ->
  nth_error (st_routers st') ry = Some y /\ lists_of st' y = lists_of st y.
Proof.
  induction os as [|o os IH]; intros st st' rx ry x y T N Hx Hy K HF H; simpl in H.
  - injection H as <-. auto.
  - destruct (step grow st o) as [st1|] eqn:E; [|discriminate].
    inversion HF as [|? ? Ho HF']; subst.
    pose proof (tidy_step grow st o st1 T (on_router_tidy rx o Ho) E) as T1.
    assert (Wyb : wfs (st_heap st) (r_before y)) by (apply (t_wb st T); unfold befores; apply in_app_iff; left; apply (In_map_nth r_before _ ry y Hy)).
    assert (Wya : wfs (st_heap st) (r_after y)) by (apply (t_wa st T); unfold afters; apply in_app_iff; left; apply (In_map_nth r_after _ ry y Hy)).
    assert (Wxa : wfs (st_heap st) (r_after x)) by (apply (t_wa st T); unfold afters; apply in_app_iff; left; apply (In_map_nth r_after _ rx x Hx)).
    assert (One : exists x1, nth_error (st_routers st1) rx = Some x1 /\ nth_error (st_routers st1) ry = Some y /\
               behind (r_after x1) (r_after y) /\ lists_of st1 y = lists_of st y).
    { assert (Upd : forall h' x1, st1 = set_router st h' rx x1 ->
          behind (r_after x1) (r_after y) -> read h' (r_before y) = read (st_heap st) (r_before y) ->
          read h' (r_after y) = read (st_heap st) (r_after y) ->
          exists x1, nth_error (st_routers st1) rx = Some x1 /\ nth_error (st_routers st1) ry = Some y /\
               behind (r_after x1) (r_after y) /\ lists_of st1 y = lists_of st y).
      { intros h' x1 -> B R1 R2. exists x1. simpl. rewrite !nth_error_upd_nth, Nat.eqb_refl, Hx.
        rewrite (proj2 (Nat.eqb_neq ry rx)) by auto. split; [reflexivity|]. split; [exact Hy|].
        split; [exact B|]. unfold lists_of. simpl. rewrite R1, R2. reflexivity. }
      destruct o; try discriminate; simpl in Ho; rewrite ?andb_true_iff, ?Nat.eqb_eq in Ho; cbn [step] in E.
      - subst r. rewrite Hx in E. destruct (alloc (st_heap st) [h] 0) as [h1 lit] eqn:E1.
        destruct (append grow h1 lit (read h1 (r_before x))) as [h2 b] eqn:E2. injection E as E.
        destruct (alloc_spec _ _ _ _ _ E1) as (A1 & A2 & A3 & A4 & A5 & A6 & A7).
        destruct (append_spec _ _ _ _ _ _ A2 E2) as (B1 & B2 & B3 & B4 & B5).
        assert (RR : forall t, wfs (st_heap st) t -> read h2 t = read (st_heap st) t).
        { intros t Wt. rewrite B4; [apply A7; exact Wt|exact (wfs_ext _ _ _ A1 Wt)|].
          left. exact (fresh_disj (st_heap st) lit t ltac:(lia) Wt). }
        eapply Upd; [symmetry; exact E|exact K|auto|auto].
      - destruct Ho as [-> Hp]. destruct a as [xs extra|]; [|discriminate].
        rewrite Hx in E. unfold eval_arg in E. destruct (alloc (st_heap st) xs extra) as [h1 s] eqn:E1. injection E as E.
        destruct (alloc_spec _ _ _ _ _ E1) as (A1 & A2 & A3 & A4 & A5 & A6 & A7).
        eapply Upd; [symmetry; exact E|exact K|auto|auto].
      - destruct Ho as [-> Hp]. destruct a as [xs extra|]; [|discriminate].
        rewrite Hx in E. unfold eval_arg in E. destruct (alloc (st_heap st) xs extra) as [h1 s] eqn:E1. injection E as E.
        destruct (alloc_spec _ _ _ _ _ E1) as (A1 & A2 & A3 & A4 & A5 & A6 & A7).
        eapply Upd; [symmetry; exact E| |auto|auto]. left. exact (disj_ok_fresh _ s _ A4 Wya).
      - subst r. rewrite Hx in E. destruct (append grow (st_heap st) (r_after x) [h]) as [h1 a] eqn:E1. injection E as E.
        destruct (append_spec _ _ _ _ _ _ Wxa E1) as (B1 & B2 & B3 & B4 & B5).
        eapply Upd; [symmetry; exact E| | |].
        + exact (append_behind _ _ _ _ _ _ _ Wxa Wya E1 K).
        + apply B4; [exact Wyb|]. left. apply disj_sym. apply (t_ba st T).
          * unfold befores; apply in_app_iff; left; apply (In_map_nth r_before _ ry y Hy).
          * unfold afters; apply in_app_iff; left; apply (In_map_nth r_after _ rx x Hx).
        + apply B4; assumption.
      - subst r. rewrite Hx in E. injection E as E. eapply Upd; [symmetry; exact E|exact K|auto|auto].
      - subst r. rewrite Hx in E.
        destruct (new_set (st_heap st)) as [h1 s0] eqn:E0.
        destruct (new_set_spec _ _ _ E0) as (N1 & N2 & N3 & N4 & N5 & N6 & N7 & N8 & N9 & N10).
        unfold set_after, set_before in E.
        destruct (append grow h1 (s_after s0) (read h1 (r_after x))) as [h2 a] eqn:E1.
        cbn [s_before s_after s_last s_main] in E.
        destruct (append grow h2 (s_before s0) (read h2 (r_before x))) as [h3 b] eqn:E2.
        injection E as <-.
        destruct (append_spec _ _ _ _ _ _ N3 E1) as (B1 & B2 & B3 & B4 & B5).
        pose proof (wfs_ext _ _ _ B1 N2) as N2'.
        destruct (append_spec _ _ _ _ _ _ N2' E2) as (C1 & C2 & C3 & C4 & C5).
        assert (RR : forall t, wfs (st_heap st) t -> read h3 t = read (st_heap st) t).
        { intros t Wt. pose proof (wfs_ext _ _ _ N1 Wt) as W1. pose proof (wfs_ext _ _ _ B1 W1) as W2.
          rewrite C4; [|exact W2|left; left; exact N6].
          rewrite B4; [|exact W1|left; left; exact N7]. apply N10; exact Wt. }
        exists x. simpl. repeat (split; [assumption|]). unfold lists_of. simpl. rewrite !RR by assumption. reflexivity. }
    destruct One as (x1 & Hx1 & Hy1 & K1 & L1).
    destruct (IH st1 st' rx ry x1 y T1 N Hx1 Hy1 K1 HF' H) as [R1 R2]. split; [exact R1|congruence].
Qed.

Lemma set_isolated grow os : forall st st' sx sy x y,
  tinv st -> sx <> sy ->
  nth_error (st_sets st) sx = Some x -> nth_error (st_sets st) sy = Some y ->
  behind (s_before x) (s_before y) -> behind (s_after x) (s_after y) ->
  Forall (fun o => on_set sx o = true) os -> run grow st os = Ok st' ->
  nth_error (st_sets st') sy = Some y /\ slists st' y = slists st y.
Proof.
  induction os as [|o os IH]; intros st st' sx sy x y T N Hx Hy Kb Ka HF H; simpl in H.
  - injection H as <-. auto.
  - destruct (step grow st o) as [st1|] eqn:E; [|discriminate].
    inversion HF as [|? ? Ho HF']; subst.
    pose proof (tidy_step grow st o st1 T (on_set_tidy sx o Ho) E) as T1.
    assert (Iyb : In (s_before y) (befores st)) by (unfold befores; apply in_app_iff; right; apply (In_map_nth s_before _ sy y Hy)).
    assert (Iya : In (s_after y) (afters st)) by (unfold afters; apply in_app_iff; right; apply (In_map_nth s_after _ sy y Hy)).
    assert (Ixb : In (s_before x) (befores st)) by (unfold befores; apply in_app_iff; right; apply (In_map_nth s_before _ sx x Hx)).
    assert (Ixa : In (s_after x) (afters st)) by (unfold afters; apply in_app_iff; right; apply (In_map_nth s_after _ sx x Hx)).
    pose proof (t_wb st T _ Iyb) as Wyb. pose proof (t_wa st T _ Iya) as Wya.
    pose proof (t_wb st T _ Ixb) as Wxb. pose proof (t_wa st T _ Ixa) as Wxa.
    assert (One : exists x1, nth_error (st_sets st1) sx = Some x1 /\ nth_error (st_sets st1) sy = Some y /\
               behind (s_before x1) (s_before y) /\ behind (s_after x1) (s_after y) /\ slists st1 y = slists st y).
    { assert (Upd : forall h' x1, st1 = set_set st h' sx x1 ->
          behind (s_before x1) (s_before y) -> behind (s_after x1) (s_after y) ->
          read h' (s_before y) = read (st_heap st) (s_before y) ->
          read h' (s_after y) = read (st_heap st) (s_after y) ->
          exists x1, nth_error (st_sets st1) sx = Some x1 /\ nth_error (st_sets st1) sy = Some y /\
               behind (s_before x1) (s_before y) /\ behind (s_after x1) (s_after y) /\ slists st1 y = slists st y).
      { intros h' x1 -> B1 B2 R1 R2. exists x1. simpl. rewrite !nth_error_upd_nth, Nat.eqb_refl, Hx.
        rewrite (proj2 (Nat.eqb_neq sy sx)) by auto. split; [reflexivity|]. split; [exact Hy|].
        split; [exact B1|]. split; [exact B2|]. unfold slists. simpl. rewrite R1, R2. reflexivity. }
      destruct o; try discriminate; simpl in Ho; rewrite ?andb_true_iff, ?Nat.eqb_eq in Ho; cbn [step] in E.
      - destruct Ho as [-> Hp]. destruct a as [xs extra|]; [|discriminate].
        rewrite Hx in E. unfold eval_arg in E. destruct (alloc (st_heap st) xs extra) as [h1 s] eqn:E1.
        destruct (alloc_spec _ _ _ _ _ E1) as (A1 & A2 & A3 & A4 & A5 & A6 & A7).
        unfold set_before in E. pose proof (wfs_ext _ _ _ A1 Wxb) as Wb.
        destruct (append grow h1 (s_before x) (read h1 s)) as [h2 b] eqn:E2. injection E as E.
        destruct (append_spec _ _ _ _ _ _ Wb E2) as (B1 & B2 & B3 & B4 & B5).
        eapply Upd; [symmetry; exact E| |exact Ka| |].
        + exact (append_behind _ _ _ _ _ _ _ Wb (wfs_ext _ _ _ A1 Wyb) E2 Kb).
        + rewrite B4; [auto|exact (wfs_ext _ _ _ A1 Wyb)|exact Kb].
        + rewrite B4; [auto|exact (wfs_ext _ _ _ A1 Wya)|]. left. exact (t_ba st T _ _ Ixb Iya).
      - destruct Ho as [-> Hp]. destruct a as [xs extra|]; [|discriminate].
        rewrite Hx in E. unfold eval_arg in E. destruct (alloc (st_heap st) xs extra) as [h1 s] eqn:E1.
        destruct (alloc_spec _ _ _ _ _ E1) as (A1 & A2 & A3 & A4 & A5 & A6 & A7).
        unfold set_after in E. pose proof (wfs_ext _ _ _ A1 Wxa) as Wb.
        destruct (append grow h1 (s_after x) (read h1 s)) as [h2 b] eqn:E2. injection E as E.
        destruct (append_spec _ _ _ _ _ _ Wb E2) as (B1 & B2 & B3 & B4 & B5).
        eapply Upd; [symmetry; exact E|exact Kb| | |].
        + exact (append_behind _ _ _ _ _ _ _ Wb (wfs_ext _ _ _ A1 Wya) E2 Ka).
        + rewrite B4; [auto|exact (wfs_ext _ _ _ A1 Wyb)|]. left. apply disj_sym. exact (t_ba st T _ _ Iyb Ixa).
        + rewrite B4; [auto|exact (wfs_ext _ _ _ A1 Wya)|exact Ka].
      - subst s. rewrite Hx in E. injection E as E. eapply Upd; [symmetry; exact E|exact Kb|exact Ka|auto|auto].
      - subst s. rewrite Hx in E. injection E as E. eapply Upd; [symmetry; exact E|exact Kb|exact Ka|auto|auto].
      - destruct s as [s|]; [|discriminate]. apply Nat.eqb_eq in Ho. subst s. rewrite Hx in E. injection E as <-.
        exists x. simpl. repeat (split; [assumption|]). reflexivity. }
    destruct One as (x1 & Hx1 & Hy1 & K1 & K2 & L1).
    destruct (IH st1 st' sx sy x1 y T1 N Hx1 Hy1 K1 K2 HF' H) as [R1 R2]. split; [exact R1|congruence].
Qed.
