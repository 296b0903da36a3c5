(** Proofs for C127. *)
From Verif Require Import Base GoSlices P_Slices M_Router S_Router S_Copies.

Lemma nth_error_ext {A} : forall (l l' : list A), (forall i, nth_error l i = nth_error l' i) -> l = l'.
Proof.
  induction l as [|x l IH]; intros [|y l'] H; auto; try (specialize (H 0); discriminate).
  pose proof (H 0) as H0. injection H0 as ->. f_equal. apply IH. intros i. exact (H (S i)).
Qed.
Definition peqb (p q : place) : bool :=
  match p, q with
  | PRouter i a, PRouter j b | PSet i a, PSet j b | PRoute i a, PRoute j b => (i =? j) && Bool.eqb a b
  | _, _ => false
  end.
Lemma peqb_spec p q : Bool.reflect (p = q) (peqb p q).
Proof.
  destruct p as [i a|i a|i a], q as [j b|j b|j b]; cbn; try (constructor; discriminate);
    destruct (Nat.eqb_spec i j) as [->|N]; cbn; try (constructor; congruence);
    destruct (Bool.eqb_spec a b) as [->|M]; constructor; congruence.
Qed.
Definition upd {A} (p : place) (a : A) (f : place -> option A) (q : place) : option A := if peqb q p then Some a else f q.
Lemma upd_same {A} p (a : A) f : upd p a f p = Some a.
Proof. unfold upd. destruct (peqb_spec p p); congruence. Qed.
Lemma upd_other {A} p q (a : A) f : q <> p -> upd p a f q = f q.
Proof. unfold upd. destruct (peqb_spec q p); congruence. Qed.

(** ** look and lists *)
Lemma nth_error_snoc {A} (l : list A) x i : nth_error (l ++ [x]) i = if i =? length l then Some x else nth_error l i.
Proof.
  destruct (Nat.eqb_spec i (length l)) as [->|N]; [rewrite nth_error_app2 by lia; rewrite Nat.sub_diag; reflexivity|].
  destruct (Nat.lt_ge_cases i (length l)); [apply nth_error_app1; assumption|].
  rewrite (proj2 (nth_error_None (l ++ [x]) i)) by (rewrite app_length; cbn; lia). symmetry. apply nth_error_None. lia.
Qed.
Section Look.
  Context {A : Type}.
  Implicit Types (rs ss gs : list (A * A)).
  Ltac snoc := let p := fresh "p" in intros p; destruct p as [i w|i w|i w]; unfold upd; cbn; try reflexivity;
    rewrite nth_error_snoc; match goal with |- context [?i =? ?n] => destruct (i =? n) eqn:?E; cbn; [destruct w; reflexivity|try reflexivity] end.
  Lemma look_snoc_r rs ss gs x : forall p, look (rs ++ [x]) ss gs p = upd (PRouter (length rs) true) (snd x) (upd (PRouter (length rs) false) (fst x) (look rs ss gs)) p.
  Proof. snoc. Qed.
  Lemma look_snoc_s rs ss gs x : forall p, look rs (ss ++ [x]) gs p = upd (PSet (length ss) true) (snd x) (upd (PSet (length ss) false) (fst x) (look rs ss gs)) p.
  Proof. snoc. Qed.
  Lemma look_snoc_g rs ss gs x : forall p, look rs ss (gs ++ [x]) p = upd (PRoute (length gs) true) (snd x) (upd (PRoute (length gs) false) (fst x) (look rs ss gs)) p.
  Proof. snoc. Qed.
  (** one of the two lists changes *)
  Lemma look_upd_r (w : bool) rs ss gs r x f a : nth_error rs r = Some x -> f x = (if w then (fst x, a) else (a, snd x)) ->
    forall p, look (upd_nth r f rs) ss gs p = upd (PRouter r w) a (look rs ss gs) p.
  Proof.
    intros E F p. destruct p as [i v|i v|i v]; unfold upd; cbn; try reflexivity. rewrite nth_error_upd_nth.
    destruct (Nat.eqb_spec i r) as [->|N]; cbn; [|reflexivity]. rewrite E. cbn. rewrite F. destruct v, w; reflexivity.
  Qed.
  Lemma look_upd_s (w : bool) rs ss gs r x f a : nth_error ss r = Some x -> f x = (if w then (fst x, a) else (a, snd x)) ->
    forall p, look rs (upd_nth r f ss) gs p = upd (PSet r w) a (look rs ss gs) p.
  Proof.
    intros E F p. destruct p as [i v|i v|i v]; unfold upd; cbn; try reflexivity. rewrite nth_error_upd_nth.
    destruct (Nat.eqb_spec i r) as [->|N]; cbn; [|reflexivity]. rewrite E. cbn. rewrite F. destruct v, w; reflexivity.
  Qed.
End Look.

(** ** The invariant, over places *)
Section Policy.
Variable grow : nat -> nat -> nat.
Variable N : nat.
(** storage chosen by the runtime has room for [N] more *)
Definition generous : Prop := forall c n, N <= grow c n.
Definition al (h : heap) (n : nat) (x : slice) (l : list hid) (b : buf) : Prop :=
  wfs h x /\ sl_off x = 0 /\ read h x = l /\ sl_len x = b_len b /\ ((forall c, b_cap b = Some c -> sl_cap x = c) /\ (b_cap b = None -> generous -> N <= sl_cap x)) /\ b_id b < n.
Record good (h : heap) (X : place -> option slice) (V : place -> option (list hid)) (K : place -> option buf) (n : nat) : Prop := Good {
  G_al : forall p, match X p, V p, K p with Some x, Some l, Some b => al h n x l b | None, None, None => True | _, _, _ => False end;
  G_share : forall p q x y bx by_, X p = Some x -> X q = Some y -> K p = Some bx -> K q = Some by_ ->
    sl_arr x = sl_arr y -> sl_cap x <> 0 -> sl_cap y <> 0 -> b_id bx = b_id by_;
  G_tight : generous -> forall p q x y bx by_, X p = Some x -> X q = Some y -> K p = Some bx -> K q = Some by_ ->
    b_id bx = b_id by_ -> sl_arr x = sl_arr y /\ sl_cap x = sl_cap y
}.

Lemma good_ext h X V K n X' V' K' : (forall p, X' p = X p) -> (forall p, V' p = V p) -> (forall p, K' p = K p) -> good h X V K n -> good h X' V' K' n.
Proof.
  intros E1 E2 E3 [G1 G2 G3]. constructor.
  - intros p. rewrite E1, E2, E3. apply G1.
  - intros p q x y bx by_. rewrite !E1, !E3. apply G2.
  - intros Ge p q x y bx by_. rewrite !E1, !E3. apply (G3 Ge).
Qed.
Lemma good_more h X V K n n' : n <= n' -> good h X V K n -> good h X V K n'.
Proof.
  intros Le [G1 G2 G3]. constructor; [|exact G2|exact G3]. intros p. specialize (G1 p). destruct (X p), (V p), (K p); auto.
  destruct G1 as (A1 & A2 & A3 & A4 & A5 & A6). repeat (split; [assumption|]). lia.
Qed.
Lemma good_get h X V K n p x : good h X V K n -> X p = Some x -> exists l b, V p = Some l /\ K p = Some b /\ al h n x l b.
Proof. intros [G1 _ _] E. specialize (G1 p). rewrite E in G1. destruct (V p) as [l|], (K p) as [b|]; try contradiction. exists l, b. auto. Qed.
Lemma good_get_b h X V K n p b : good h X V K n -> K p = Some b -> exists x l, X p = Some x /\ V p = Some l /\ al h n x l b.
Proof. intros [G1 _ _] E. specialize (G1 p). rewrite E in G1. destruct (X p) as [x|], (V p) as [l|]; try contradiction. exists x, l. auto. Qed.

(** a list gets storage of its own *)
Lemma good_fresh h X V K n h' n' P x l b : good h X V K n ->
  (forall t, wfs h t -> wfs h' t /\ read h' t = read h t) -> n <= n' -> n <= b_id b ->
  al h' n' x l b -> sl_cap x = 0 \/ length h <= sl_arr x ->
  good h' (upd P x X) (upd P l V) (upd P b K) n'.
Proof.
  intros G Keep Ln Id A Fr. pose proof G as [G1 G2 G3]. constructor.
  - intros p. unfold upd. destruct (peqb p P); [exact A|]. specialize (G1 p). destruct (X p) as [y|], (V p) as [ly|], (K p) as [by_|]; auto.
    destruct G1 as (A1 & A2 & A3 & A4 & A5 & A6). destruct (Keep y A1) as [K1 K2]. split; [exact K1|]. split; [exact A2|]. split; [congruence|]. split; [exact A4|]. split; [exact A5|]. lia.
  - assert (Old : forall q y, X q = Some y -> sl_arr x = sl_arr y -> sl_cap x <> 0 -> sl_cap y <> 0 -> False).
    { intros q y E Ea C1 C2. destruct (good_get _ _ _ _ _ _ _ G E) as (ly & b_y & _ & _ & A1 & _). destruct A1 as [_ [Z|[Z _]]]; [contradiction|]. destruct Fr; [contradiction|lia]. }
    intros p q y z by_ bz. unfold upd. destruct (peqb p P), (peqb q P); intros E1 E2 E3 E4 Ea C1 C2.
    + congruence.
    + inversion E1; subst. exfalso. exact (Old q z E2 Ea C1 C2).
    + inversion E2; subst. exfalso. exact (Old p y E1 (eq_sym Ea) C2 C1).
    + exact (G2 p q y z by_ bz E1 E2 E3 E4 Ea C1 C2).
  - intros Ge p q y z by_ bz.
    assert (Old : forall q k, K q = Some k -> b_id k < b_id b).
    { intros q0 k E. destruct (good_get_b _ _ _ _ _ _ _ G E) as (x0 & l0 & _ & _ & _ & _ & _ & _ & _ & Z). lia. }
    unfold upd. destruct (peqb p P), (peqb q P); intros E1 E2 E3 E4 Ei.
    + inversion E1; inversion E2; subst. auto.
    + inversion E3; subst. specialize (Old q bz E4). lia.
    + inversion E4; subst. specialize (Old p by_ E3). lia.
    + exact (G3 Ge p q y z by_ bz E1 E2 E3 E4 Ei).
Qed.
(** the heap grows *)
Lemma good_heap h X V K n h' : good h X V K n -> (forall t, wfs h t -> wfs h' t /\ read h' t = read h t) -> good h' X V K n.
Proof.
  intros [G1 G2 G3] Keep. constructor; [|exact G2|exact G3]. intros p. specialize (G1 p). destruct (X p) as [y|], (V p) as [ly|], (K p) as [by_|]; auto.
  destruct G1 as (A1 & A2 & A3 & A4 & A5 & A6). destruct (Keep y A1) as [K1 K2]. split; [exact K1|]. split; [exact A2|]. split; [congruence|]. auto.
Qed.
(** a list is shared *)
Lemma good_copy h X V K n P Q x l b : good h X V K n -> X Q = Some x -> V Q = Some l -> K Q = Some b ->
  good h (upd P x X) (upd P l V) (upd P b K) n.
Proof.
  intros [G1 G2 G3] EX EV EK. constructor.
  - intros p. unfold upd. destruct (peqb p P); [|apply G1]. specialize (G1 Q). rewrite EX, EV, EK in G1. exact G1.
  - intros p q y z by_ bz. unfold upd. destruct (peqb p P), (peqb q P); intros E1 E2 E3 E4; inversion E1; inversion E2; inversion E3; inversion E4; subst; try reflexivity;
      [apply (G2 Q q) | apply (G2 p Q) | apply (G2 p q)]; assumption.
  - intros Ge p q y z by_ bz. unfold upd. destruct (peqb p P), (peqb q P); intros E1 E2 E3 E4 Ei.
    + inversion E1; inversion E2; subst. auto.
    + inversion E1; inversion E3; subst. exact (G3 Ge Q q y z by_ bz EX E2 EK E4 Ei).
    + inversion E2; inversion E4; subst. exact (G3 Ge p Q y z by_ bz E1 EX E3 EK Ei).
    + exact (G3 Ge p q y z by_ bz E1 E2 E3 E4 Ei).
Qed.
(** a list is extended *)
Lemma read_len h x : wfs h x -> length (read h x) = sl_len x.
Proof. intros W. unfold read. rewrite firstn_length, skipn_length. destruct W as [W1 [W2|[_ W2]]]; lia. Qed.
Lemma write_nil h a p : write h a p [] = h.
Proof.
  assert (OW : forall x, overwrite p [] x = x) by (intros x; unfold overwrite; cbn; rewrite Nat.add_0_r; apply firstn_skipn).
  unfold write. revert a. induction h as [|x h IH]; intros [|a]; cbn; rewrite ?OW, ?IH; reflexivity.
Qed.
Lemma extend_spec h x xs h' x' l b n : al h n x l b -> append grow h x xs = (h', x') ->
  al h' (S n) x' (l ++ xs) (extend n b (length xs)) /\
  (forall t, wfs h t -> wfs h' t) /\
  (forall t, wfs h t -> behind x t -> read h' t = read h t) /\
  ((sl_arr x' = sl_arr x /\ sl_cap x' = sl_cap x /\ b_id (extend n b (length xs)) = b_id b /\ sl_len x + length xs <= sl_cap x) \/
   (sl_arr x' = length h /\ sl_cap x < sl_len x + length xs)) /\
  (moves b (length xs) = true -> forall t, wfs h t -> read h' t = read h t) /\
  (xs = [] -> forall t, wfs h t -> read h' t = read h t) /\
  (generous -> (moves b (length xs) = false -> b_len b + length xs <= N) -> (moves b (length xs) = true /\ b_id (extend n b (length xs)) = n) \/ (sl_arr x' = sl_arr x /\ sl_cap x' = sl_cap x)).
Proof.
  intros (A1 & A2 & A3 & A4 & A5 & A6) E. pose proof (append_spec grow h x xs h' x' A1 E) as (B1 & B2 & B3 & B4 & B5).
  unfold append in E. unfold extend, moves.
  assert (Nil : xs = [] -> forall t, wfs h t -> read h' t = read h t).
  { intros -> t Wt. cbn [length] in E. rewrite Nat.add_0_r in E. destruct A1 as [A1 _]. destruct (Nat.leb_spec (sl_len x) (sl_cap x)); [|lia]. inversion E; subst.
    rewrite write_nil. reflexivity. }
  destruct (Nat.leb_spec (sl_len x + length xs) (sl_cap x)) as [C|C].
  - inversion E; subst. rewrite <- A4. assert (M : match b_cap b with Some c => c <? sl_len x + length xs | None => false end = false).
    { destruct (b_cap b) as [c|]; [|reflexivity]. rewrite <- (proj1 A5 c eq_refl). apply Nat.ltb_ge. exact C. }
    rewrite M. split; [|split; [|split; [|split; [|split; [|split]]]]].
    + split; [exact B2|]. split; [exact A2|]. split; [exact B3|]. split; [reflexivity|]. split; [exact A5|]. cbn. lia.
    + intros t Wt. exact (wfs_ext _ _ _ B1 Wt).
    + exact B4.
    + left. cbn. auto.
    + discriminate.
    + exact Nil.
    + intros _ _. right. auto.
  - assert (Eh : h' = h ++ [(read h x ++ xs) ++ repeat 0 (grow (sl_cap x) (sl_len x + length xs))]) by (inversion E; reflexivity).
    assert (Keep : forall t, wfs h t -> read h' t = read h t) by (apply (alloc_spec _ _ _ _ _ E)).
    assert (Ex : sl_off x' = 0 /\ sl_arr x' = length h) by (inversion E; auto).
    assert (Lx : sl_len x' = sl_len x + length xs) by (destruct B5 as [(_ & _ & _ & Z)|(_ & _ & Z)]; exact Z).
    assert (Cx : sl_cap x' = sl_len x + length xs + grow (sl_cap x) (sl_len x + length xs)).
    { unfold alloc in E. inversion E. cbn. rewrite app_length, (read_len h x A1). reflexivity. }
    split; [|split; [|split; [|split; [|split; [|split]]]]].
    + destruct (b_cap b) as [c|] eqn:Ec.
      * assert (Z : c <? b_len b + length xs = true) by (apply Nat.ltb_lt; rewrite <- A4, <- (proj1 A5 c eq_refl); exact C). rewrite Z.
        split; [exact B2|]. split; [apply Ex|]. split; [congruence|]. cbn. split; [lia|]. split; [|lia]. split; [discriminate|]. intros _ Ge. specialize (Ge (sl_cap x) (sl_len x + length xs)). lia.
      * split; [exact B2|]. split; [apply Ex|]. split; [congruence|]. cbn. split; [lia|]. split; [|lia]. split; [intros c Z; congruence|]. intros _ Ge. specialize (Ge (sl_cap x) (sl_len x + length xs)). lia.
    + intros t Wt. exact (wfs_ext _ _ _ B1 Wt).
    + auto.
    + right. split; [apply Ex|exact C].
    + auto.
    + exact Nil.
    + intros Ge Rm. left. destruct (b_cap b) as [c|] eqn:Ec.
      * assert (Z : c <? b_len b + length xs = true) by (apply Nat.ltb_lt; rewrite <- A4, <- (proj1 A5 c eq_refl); exact C). rewrite Z. auto.
      * pose proof (proj2 A5 eq_refl Ge). specialize (Rm eq_refl). lia.
Qed.
Definition apart (K : place -> option buf) (b : buf) (xs : list hid) : Prop :=
  xs = [] \/ moves b (length xs) = true \/ forall q y, K q = Some y -> b_id y = b_id b -> b_len y <= b_len b.
Lemma good_append h X V K n P x l b xs h' x' : good h X V K n -> X P = Some x -> V P = Some l -> K P = Some b ->
  append grow h x xs = (h', x') -> apart K b xs -> (generous -> moves b (length xs) = false -> b_len b + length xs <= N) ->
  good h' (upd P x' X) (upd P (l ++ xs) V) (upd P (extend n b (length xs)) K) (S n).
Proof.
  intros G EX EV EK E Ap Rm. pose proof G as [G1 G2 G3].
  assert (A : al h n x l b) by (pose proof (G1 P) as Z; rewrite EX, EV, EK in Z; exact Z).
  destruct (extend_spec h x xs h' x' l b n A E) as (B1 & B2 & B3 & B4 & B5 & B6 & B7).
  assert (Keep : forall q y, X q = Some y -> read h' y = read h y).
  { intros q y Eq. destruct (good_get _ _ _ _ _ _ _ G Eq) as (ly & b_y & _ & EKy & Ay). pose proof Ay as (W & O & _ & Ly & _).
    destruct Ap as [Z|[Z|Z]]; [apply B6; assumption|apply B5; assumption|]. apply B3; [exact W|].
    destruct (Nat.eq_dec (sl_cap x) 0) as [C1|C1]; [left; left; exact C1|].
    destruct (Nat.eq_dec (sl_cap y) 0) as [C2|C2]; [left; right; left; exact C2|].
    destruct (Nat.eq_dec (sl_arr x) (sl_arr y)) as [C3|C3]; [|left; right; right; exact C3].
    right. pose proof (G2 P q x y b b_y EX Eq EK EKy C3 C1 C2) as I. specialize (Z q b_y EKy (eq_sym I)).
    destruct A as (_ & O' & _ & L' & _). lia. }
  constructor.
  - intros p. unfold upd. destruct (peqb p P); [exact B1|]. specialize (G1 p). destruct (X p) as [y|] eqn:Ey, (V p) as [ly|], (K p) as [b_y|]; auto.
    destruct G1 as (A1 & A2 & A3 & A4 & A5 & A6). split; [apply B2, A1|]. split; [exact A2|]. split; [rewrite (Keep p y Ey); exact A3|]. split; [exact A4|]. split; [exact A5|]. lia.
  - assert (Old : forall q y b_y, X q = Some y -> K q = Some b_y -> sl_arr x' = sl_arr y -> sl_cap x' <> 0 -> sl_cap y <> 0 -> b_id (extend n b (length xs)) = b_id b_y).
    { intros q y b_y Eq EKq Ea C1 C2. destruct B4 as [(I1 & I2 & I3 & _)|(I1 & _)].
      - rewrite I3. apply (G2 P q x y b b_y EX Eq EK EKq); congruence.
      - exfalso. destruct (good_get _ _ _ _ _ _ _ G Eq) as (ly & b2 & _ & _ & Ay). destruct Ay as ([_ [Z|[Z _]]] & _); [contradiction|]. lia. }
    intros p q y z b_y bz. unfold upd. destruct (peqb p P), (peqb q P); intros E1 E2 E3 E4 Ea C1 C2.
    + congruence.
    + inversion E1; inversion E3; subst. exact (Old q z bz E2 E4 Ea C1 C2).
    + inversion E2; inversion E4; subst. symmetry. exact (Old p y b_y E1 E3 (eq_sym Ea) C2 C1).
    + exact (G2 p q y z b_y bz E1 E2 E3 E4 Ea C1 C2).
  - intros Ge. specialize (G3 Ge). destruct A as (_ & _ & _ & _ & A5 & A6).
    assert (Lt : forall q k, K q = Some k -> b_id k < n).
    { intros q0 k E0. destruct (good_get_b _ _ _ _ _ _ _ G E0) as (x0 & l0 & _ & _ & _ & _ & _ & _ & _ & Z). lia. }
    assert (Old : forall q y b_y, X q = Some y -> K q = Some b_y -> b_id (extend n b (length xs)) = b_id b_y -> sl_arr x' = sl_arr y /\ sl_cap x' = sl_cap y).
    { intros q y b_y Eq EKq I. destruct (B7 Ge (Rm Ge)) as [[M Z]|[Z1 Z2]]; [specialize (Lt q b_y EKq); lia|].
      rewrite Z1, Z2. apply (G3 P q x y b b_y EX Eq EK EKq). unfold extend in I. destruct (moves b (length xs)); [|exact I].
      cbn in I. specialize (Lt q b_y EKq). lia. }
    intros p q y z b_y bz. unfold upd. destruct (peqb p P), (peqb q P); intros E1 E2 E3 E4 Ei.
    + inversion E1; inversion E2; subst. auto.
    + inversion E1; inversion E3; subst. exact (Old q z bz E2 E4 Ei).
    + inversion E2; inversion E4; subst. destruct (Old p y b_y E1 E3 (eq_sym Ei)) as [-> ->]. auto.
    + exact (G3 p q y z b_y bz E1 E2 E3 E4 Ei).
Qed.

(** ** One call *)
Record inv (st : state) (v : values) (b : bufs) : Prop := Inv {
  I_good : good (st_heap st) (slices st) (value v) (storage b) (b_next b);
  I_r : length (st_routers st) = length (v_routers v) /\ length (v_routers v) = length (b_routers b);
  I_s : length (st_sets st) = length (v_sets v) /\ length (v_sets v) = length (b_sets b);
  I_g : length (st_routes st) = length (v_routes v) /\ length (v_routes v) = length (b_routes b)
}.
Lemma inv_init : inv init (Values [] [] []) (Bufs [] [] [] 0).
Proof.
  constructor; try (split; reflexivity). constructor.
  - intros [[|i] w|[|i] w|[|i] w]; exact I.
  - intros [[|i] w|[|i] w|[|i] w] q x y bx by_ E; discriminate E.
  - intros _ [[|i] w|[|i] w|[|i] w] q x y bx by_ E; discriminate E.
Qed.

Definition rp (x : router) := (r_before x, r_after x).
Definition sp (x : hset) := (s_before x, s_after x).
Definition gp (g : reg) := (s_before (g_set g), s_after (g_set g)).
Lemma map_upd_const {A C} (f : A -> C) (y : A) i l : map f (upd_nth i (fun _ => y) l) = upd_nth i (fun _ => f y) (map f l).
Proof. revert i. induction l as [|x l IH]; intros [|i]; cbn; try reflexivity. rewrite IH. reflexivity. Qed.
Lemma nth_of_error {A} (l : list A) i x d : nth_error l i = Some x -> nth i l d = x.
Proof. apply nth_error_nth. Qed.
Lemma same_length_nth {A C} (l : list A) (l' : list C) i x : length l = length l' -> nth_error l i = Some x -> exists y, nth_error l' i = Some y.
Proof.
  intros L E. destruct (nth_error l' i) as [y|] eqn:F; [exists y; reflexivity|]. apply nth_error_None in F.
  assert (i < length l) by (apply nth_error_Some; congruence). lia.
Qed.

(** fresh storage with a given content *)
Lemma alloc_al h xs extra h' x n : alloc h xs extra = (h', x) ->
  (forall t, wfs h t -> wfs h' t /\ read h' t = read h t) /\ al h' (S n) x xs (Buf n (length xs) (Some (length xs + extra))) /\ sl_arr x = length h.
Proof.
  intros E. destruct (alloc_spec h xs extra h' x E) as (A1 & A2 & A3 & A4 & A5 & A6 & A7).
  split; [intros t W; split; [exact (wfs_ext _ _ _ A1 W)|apply A7, W]|]. split; [|exact A4].
  split; [exact A2|]. split; [exact A5|]. split; [exact A3|]. split; [exact A6|]. split; [|cbn; lia].
  split; [|discriminate]. intros c Z. cbn in Z. inversion Z. unfold alloc in E. inversion E. reflexivity.
Qed.
(** ... and a list made by a first allocation and one append *)
Lemma alloc_append_al h xs h1 x1 ys h2 x2 n : alloc h xs 0 = (h1, x1) -> append grow h1 x1 ys = (h2, x2) ->
  (forall t, wfs h t -> wfs h2 t /\ read h2 t = read h t) /\ al h2 (S n) x2 (xs ++ ys) (extend n (Buf n (length xs) (Some (length xs + 0))) (length ys)) /\
  length h <= sl_arr x2 /\ length h <= length h2.
Proof.
  intros E1 E2. destruct (alloc_al h xs 0 h1 x1 n E1) as (A1 & A2 & A3). pose proof A2 as (W & O & _).
  assert (L1 : length h <= length h1) by (unfold alloc in E1; inversion E1; rewrite app_length; lia).
  destruct (append_spec grow h1 x1 ys h2 x2 W E2) as (Ext & _ & _ & Ot & Wh).
  destruct (extend_spec h1 x1 ys h2 x2 xs (Buf n (length xs) (Some (length xs + 0))) (S n) A2 E2) as (B1 & B2 & B3 & B4 & B5 & B6 & _).
  split; [|split; [|split]].
  - intros t Wt. destruct (A1 t Wt) as [W1 R1]. split; [apply B2, W1|]. rewrite <- R1. apply B3; [exact W1|]. left.
    destruct Wt as [_ [Z|[Z _]]]; [right; left; exact Z|]. right; right. lia.
  - destruct B1 as (C1 & C2 & C3 & C4 & C5 & C6). split; [exact C1|]. split; [exact C2|]. split; [exact C3|].
    unfold extend in *. destruct (moves _ _); cbn [b_len b_cap b_id] in *; (split; [exact C4|]); (split; [exact C5|]); lia.
  - destruct B4 as [(Z & _)|(Z & _)]; lia.
  - destruct Ext as [Z _]. lia.
Qed.

Lemma inv_step st o st' v b : inv st v b -> tidy o = true -> safe b o ->
  (forall p xs k, appends o = Some (p, xs) -> storage b p = Some k -> generous -> moves k (length xs) = false -> b_len k + length xs <= N) -> step grow st o = Ok st' -> inv st' (vstep v o) (bstep b o).
Proof.
  intros [G [R1 R2] [S1 S2] [T1 T2]] Ty Sf Rm St.
  assert (Rx : forall r x, nth_error (st_routers st) r = Some x -> exists l k, nth_error (v_routers v) r = Some l /\ nth_error (b_routers b) r = Some k).
  { intros r x E. destruct (same_length_nth _ _ _ _ R1 E) as [l El]. destruct (same_length_nth _ _ _ _ R2 El) as [k Ek]. exists l, k. auto. }
  assert (Sx : forall r x, nth_error (st_sets st) r = Some x -> exists l k, nth_error (v_sets v) r = Some l /\ nth_error (b_sets b) r = Some k).
  { intros r x E. destruct (same_length_nth _ _ _ _ S1 E) as [l El]. destruct (same_length_nth _ _ _ _ S2 El) as [k Ek]. exists l, k. auto. }
  assert (Xr : forall r w x, nth_error (st_routers st) r = Some x -> slices st (PRouter r w) = Some (pick w (rp x))).
  { intros r w x E. cbn. rewrite nth_error_map, E. reflexivity. }
  assert (Xs : forall r w x, nth_error (st_sets st) r = Some x -> slices st (PSet r w) = Some (pick w (sp x))).
  { intros r w x E. cbn. rewrite nth_error_map, E. reflexivity. }
  assert (Vr : forall r w l, nth_error (v_routers v) r = Some l -> value v (PRouter r w) = Some (pick w l)) by (intros r w l E; cbn; rewrite E; reflexivity).
  assert (Vs : forall r w l, nth_error (v_sets v) r = Some l -> value v (PSet r w) = Some (pick w l)) by (intros r w l E; cbn; rewrite E; reflexivity).
  assert (Kr : forall r w l, nth_error (b_routers b) r = Some l -> storage b (PRouter r w) = Some (pick w l)) by (intros r w l E; cbn; rewrite E; reflexivity).
  assert (Ks : forall r w l, nth_error (b_sets b) r = Some l -> storage b (PSet r w) = Some (pick w l)) by (intros r w l E; cbn; rewrite E; reflexivity).
  assert (Sl : forall (h' : heap) (rs : list router) (ss : list hset) (vs : list slice) (gs : list reg), slices (State h' rs ss vs gs) = look (map rp rs) (map sp ss) (map gp gs)) by reflexivity.
  assert (Va : forall rs ss gs, value (Values rs ss gs) = look rs ss gs) by reflexivity.
  assert (Sa : forall rs ss gs k, storage (Bufs rs ss gs k) = look rs ss gs) by reflexivity.
  assert (Rnd : forall r x, nth_error (st_routers st) r = Some x -> nth_error (map rp (st_routers st)) r = Some (rp x)) by (intros r x E; rewrite nth_error_map, E; reflexivity).
  assert (Snd : forall r x, nth_error (st_sets st) r = Some x -> nth_error (map sp (st_sets st)) r = Some (sp x)) by (intros r x E; rewrite nth_error_map, E; reflexivity).
  (* one list of a router replaced by fresh storage *)
  assert (FreshR : forall r x (w : bool) (lx : list hid * list hid) h' y (l : list hid) (k : buf), nth_error (st_routers st) r = Some x -> nth_error (v_routers v) r = Some lx ->
     (forall t, wfs (st_heap st) t -> wfs h' t /\ read h' t = read (st_heap st) t) -> b_next b <= b_id k -> al h' (S (b_next b)) y l k -> length (st_heap st) <= sl_arr y ->
     forall (x' : router) (fv : list hid * list hid -> list hid * list hid) (fb : buf * buf -> buf * buf), rp x' = (if w then (r_before x, y) else (y, r_after x)) -> fv lx = (if w then (fst lx, l) else (l, snd lx)) ->
     (forall kx, nth_error (b_routers b) r = Some kx -> fb kx = (if w then (fst kx, k) else (k, snd kx))) ->
     inv (set_router st h' r x') (Values (upd_nth r fv (v_routers v)) (v_sets v) (v_routes v)) (Bufs (upd_nth r fb (b_routers b)) (b_sets b) (b_routes b) (S (b_next b)))).
  { intros r x w lx h' y l k Ex El Keep Id Al Fr x' fv fb Fx Fv Fb. destruct (Rx r x Ex) as (lx' & kx & El' & Ek). assert (lx' = lx) by congruence. subst lx'.
    constructor; [|cbn; rewrite !upd_nth_length; auto|cbn; auto|cbn; auto].
    apply (good_ext _ (upd (PRouter r w) y (slices st)) (upd (PRouter r w) l (value v)) (upd (PRouter r w) k (storage b))).
    - intros p. unfold set_router. rewrite Sl, map_upd_const. apply (look_upd_r w _ _ _ r (rp x)); [apply Rnd, Ex|exact Fx].
    - intros p. rewrite Va. apply (look_upd_r w _ _ _ r lx); [exact El|exact Fv].
    - intros p. rewrite Sa. apply (look_upd_r w _ _ _ r kx); [exact Ek|exact (Fb kx Ek)].
    - unfold set_router; cbn [st_heap b_next]; apply (good_fresh (st_heap st) _ _ _ (b_next b)); auto. }
  (* an append to one list of a set or router *)
  destruct o as [|r h|r a|r a|r h|r l|r|r k m|r|r| |s a|s a|s l|s m|s|k m [s|]|xs extra|v0 i h|v0 h|v0 i j]; cbn in Ty; try discriminate; cbn [step] in St.
  - (* NewRouter *)
    destruct (alloc (st_heap st) [] 0) as [h1 x1] eqn:E1. destruct (alloc h1 [] 0) as [h2 x2] eqn:E2. inversion St; subst st'. clear St.
    destruct (alloc_al _ _ _ _ _ (b_next b) E1) as (A1 & A2 & A3). destruct (alloc_al _ _ _ _ _ (S (b_next b)) E2) as (C1 & C2 & C3).
    constructor; [|cbn; rewrite !app_length; cbn; lia|cbn; auto|cbn; auto]. unfold bstep, vstep. cbv zeta. cbn [b_next].
    apply (good_ext _ (upd (PRouter (length (st_routers st)) true) x2 (upd (PRouter (length (st_routers st)) false) x1 (slices st)))
       (upd (PRouter (length (st_routers st)) true) [] (upd (PRouter (length (st_routers st)) false) [] (value v)))
       (upd (PRouter (length (st_routers st)) true) (Buf (S (b_next b)) 0 (Some 0)) (upd (PRouter (length (st_routers st)) false) (Buf (b_next b) 0 (Some 0)) (storage b)))).
    + intros p. rewrite Sl, map_app. cbn [map]. rewrite look_snoc_r, map_length. reflexivity.
    + intros p. rewrite Va, look_snoc_r. rewrite R1. reflexivity.
    + intros p. rewrite Sa, look_snoc_r. rewrite R1, R2. reflexivity.
    + cbn [st_heap].
      assert (L1 : length (st_heap st) <= length h1) by (unfold alloc in E1; inversion E1; rewrite app_length; lia).
      refine (good_fresh h1 _ _ _ (S (b_next b)) h2 _ _ _ _ _ _ C1 _ _ C2 _); [|lia|cbn; lia|right; lia].
      refine (good_fresh (st_heap st) _ _ _ (b_next b) h1 _ _ _ _ _ G A1 _ _ A2 _); [lia|cbn; lia|right; lia].
  - (* RFirst *)
    destruct (nth_error (st_routers st) r) as [x|] eqn:Ex; [|discriminate]. destruct (Rx r x Ex) as (lx & kx & El & Ek).
    destruct (alloc (st_heap st) [h] 0) as [h1 lit] eqn:E1. destruct (append grow h1 lit _) as [h2 x2] eqn:E2. inversion St; subst st'. clear St.
    assert (Rd : read h1 (r_before x) = fst lx /\ length (fst lx) = b_len (fst kx)).
    { destruct (good_get _ _ _ _ _ _ _ G (Xr r false x Ex)) as (l0 & b0 & E3 & E4 & Al). rewrite (Vr r false lx El) in E3. rewrite (Kr r false kx Ek) in E4. inversion E3; inversion E4; subst. cbn [pick rp fst] in Al |- *.
      destruct Al as (W & O & Rd & Ln & _). destruct (alloc_al _ _ _ _ _ 0 E1) as (A1 & _). destruct (A1 _ W) as [_ Z]. rewrite Z. split; [exact Rd|]. rewrite <- Rd, <- Ln.
      unfold read. rewrite firstn_length, skipn_length. destruct W as [W1 [W2|[_ W2]]]; lia. }
    destruct Rd as [Rd Ln]. rewrite Rd in E2. destruct (alloc_append_al _ _ _ _ _ _ _ (b_next b) E1 E2) as (A1 & A2 & A3 & A4).
    unfold vstep, bstep. cbv zeta. apply (FreshR r x false lx h2 x2 (h :: fst lx) (extend (b_next b) (Buf (b_next b) 1 (Some 1)) (length (fst lx))) Ex El A1); auto.
    + unfold extend. destruct (moves _ _); cbn; lia.
    + intros kx' Ek'. rewrite Ek in Ek'. inversion Ek'; subst kx'. rewrite Ln. reflexivity.
  - (* RBefore *)
    destruct (nth_error (st_routers st) r) as [x|] eqn:Ex; [|discriminate]. destruct a as [xs extra|]; [|discriminate]. cbn [eval_arg] in St.
    destruct (alloc (st_heap st) xs extra) as [h1 x1] eqn:E1. inversion St; subst st'. destruct (Rx r x Ex) as (lx & kx & El & Ek).
    destruct (alloc_al _ _ _ _ _ (b_next b) E1) as (A1 & A2 & A3). unfold vstep, bstep. cbv zeta.
    apply (FreshR r x false lx h1 x1 xs (Buf (b_next b) (length xs) (Some (length xs + extra))) Ex El A1 (Nat.le_refl _) A2); auto. lia.
  - (* RAfter *)
    destruct (nth_error (st_routers st) r) as [x|] eqn:Ex; [|discriminate]. destruct a as [xs extra|]; [|discriminate]. cbn [eval_arg] in St.
    destruct (alloc (st_heap st) xs extra) as [h1 x1] eqn:E1. inversion St; subst st'. destruct (Rx r x Ex) as (lx & kx & El & Ek).
    destruct (alloc_al _ _ _ _ _ (b_next b) E1) as (A1 & A2 & A3). unfold vstep, bstep. cbv zeta.
    apply (FreshR r x true lx h1 x1 xs (Buf (b_next b) (length xs) (Some (length xs + extra))) Ex El A1 (Nat.le_refl _) A2); auto. lia.
  - (* RLastAfter *)
    destruct (nth_error (st_routers st) r) as [x|] eqn:Ex; [|discriminate]. destruct (Rx r x Ex) as (lx & kx & El & Ek).
    destruct (append grow (st_heap st) (r_after x) [h]) as [h1 x1] eqn:E1. inversion St; subst st'. clear St.
    constructor; [|cbn; rewrite !upd_nth_length; auto|cbn; auto|cbn; auto]. unfold vstep, bstep. cbv zeta. cbn [b_next].
    apply (good_ext _ (upd (PRouter r true) x1 (slices st)) (upd (PRouter r true) (snd lx ++ [h]) (value v)) (upd (PRouter r true) (extend (b_next b) (snd kx) (length [h])) (storage b))).
    + intros p. unfold set_router. rewrite Sl, map_upd_const. apply (look_upd_r true _ _ _ r (rp x)); [apply Rnd, Ex|reflexivity].
    + intros p. rewrite Va. apply (look_upd_r true _ _ _ r lx); [exact El|reflexivity].
    + intros p. rewrite Sa. apply (look_upd_r true _ _ _ r kx); [exact Ek|reflexivity].
    + apply (good_append (st_heap st) _ _ _ (b_next b) (PRouter r true) (r_after x) (snd lx) (snd kx) [h]); auto.
      * exact (Xr r true x Ex).
      * exact (Vr r true lx El).
      * exact (Kr r true kx Ek).
      * exact (Sf _ (Kr r true kx Ek)).
      * exact (Rm _ _ _ eq_refl (Kr r true kx Ek)).
  - (* RLast *)
    destruct (nth_error (st_routers st) r) as [x|] eqn:Ex; [|discriminate]. inversion St; subst st'. constructor; [|cbn; rewrite upd_nth_length; auto|auto|auto].
    apply (good_ext _ (slices st) (value v) (storage b)); auto. intros p. unfold set_router. rewrite Sl, map_upd_const.
    assert (Z : upd_nth r (fun _ => rp (Router (r_before x) (r_after x) l)) (map rp (st_routers st)) = map rp (st_routers st)).
    { apply nth_error_ext. intros i. rewrite nth_error_upd_nth. destruct (Nat.eqb_spec i r) as [->|Ne]; [|reflexivity]. rewrite (Rnd r x Ex). reflexivity. }
    rewrite Z. reflexivity.
  - (* RClone *)
    destruct (nth_error (st_routers st) r) as [x|] eqn:Ex; [|discriminate]. destruct (Rx r x Ex) as (lx & kx & El & Ek). inversion St; subst st'. clear St.
    constructor; [|cbn; rewrite !app_length; cbn; lia|auto|auto]. unfold vstep, bstep. cbv zeta. cbn [b_next].
    rewrite (nth_of_error _ _ _ _ El), (nth_of_error _ _ _ _ Ek).
    apply (good_ext _ (upd (PRouter (length (st_routers st)) true) (r_after x) (upd (PRouter (length (st_routers st)) false) (r_before x) (slices st)))
       (upd (PRouter (length (st_routers st)) true) (snd lx) (upd (PRouter (length (st_routers st)) false) (fst lx) (value v)))
       (upd (PRouter (length (st_routers st)) true) (snd kx) (upd (PRouter (length (st_routers st)) false) (fst kx) (storage b)))).
    + intros p. rewrite Sl, map_app. cbn [map]. rewrite look_snoc_r, map_length. reflexivity.
    + intros p. rewrite Va, look_snoc_r. rewrite R1. reflexivity.
    + intros p. rewrite Sa, look_snoc_r. rewrite R1, R2. reflexivity.
    + apply (good_more _ _ _ _ (b_next b)); [lia|]. assert (Nr : r <> length (st_routers st)).
      { assert (r < length (st_routers st)) by (apply nth_error_Some; congruence). lia. }
      apply (good_copy _ _ _ _ _ _ (PRouter r true)); try (rewrite upd_other; [|congruence]).
      * apply (good_copy _ _ _ _ _ _ (PRouter r false)); auto; [exact (Xr r false x Ex)|exact (Vr r false lx El)|exact (Kr r false kx Ek)].
      * exact (Xr r true x Ex).
      * exact (Vr r true lx El).
      * exact (Kr r true kx Ek).
  - (* RUse *)
    destruct (nth_error (st_routers st) r) as [x|] eqn:Ex; [|discriminate]. destruct (Rx r x Ex) as (lx & kx & El & Ek).
    unfold new_set in St. destruct (alloc (st_heap st) [] 0) as [h1 y1] eqn:E1. destruct (alloc h1 [] 0) as [h2 y2] eqn:E2.
    unfold set_after in St. cbn [s_before s_after s_last s_main] in St. destruct (append grow h2 y2 _) as [h3 y3] eqn:E3.
    unfold set_before in St. cbn [s_before s_after s_last s_main] in St. destruct (append grow h3 y1 _) as [h4 y4] eqn:E4. inversion St; subst st'. clear St.
    set (k1 := b_next b). destruct (alloc_al _ _ _ _ _ k1 E1) as (A1 & A2 & A3). destruct (alloc_al _ _ _ _ _ (S k1) E2) as (C1 & C2 & C3).
    set (M0 := length (st_routes st)).
    assert (G1 : good h1 (upd (PRoute M0 false) y1 (slices st)) (upd (PRoute M0 false) [] (value v)) (upd (PRoute M0 false) (Buf k1 0 (Some 0)) (storage b)) (S k1)).
    { refine (good_fresh (st_heap st) _ _ _ (b_next b) h1 _ _ _ _ _ G A1 _ _ A2 _); [lia|cbn; lia|right; lia]. }
    assert (G2 : good h2 (upd (PRoute M0 true) y2 (upd (PRoute M0 false) y1 (slices st))) (upd (PRoute M0 true) [] (upd (PRoute M0 false) [] (value v)))
                   (upd (PRoute M0 true) (Buf (S k1) 0 (Some 0)) (upd (PRoute M0 false) (Buf k1 0 (Some 0)) (storage b))) (S (S k1))).
    { refine (good_fresh h1 _ _ _ (S k1) h2 _ _ _ _ _ G1 C1 _ _ C2 _); [lia|cbn; lia|right; lia]. }
    (* nobody else is in these storages *)
    assert (Old : forall q y, storage b q = Some y -> b_id y < k1).
    { intros q y Eq. destruct (good_get_b _ _ _ _ _ _ _ G Eq) as (x0 & l0 & _ & _ & Al). destruct Al as (_ & _ & _ & _ & _ & Z). exact Z. }
    assert (Wr : forall w, wfs (st_heap st) (pick w (rp x)) /\ read (st_heap st) (pick w (rp x)) = pick w lx /\ length (pick w lx) = b_len (pick w kx)).
    { intros w. destruct (good_get _ _ _ _ _ _ _ G (Xr r w x Ex)) as (l0 & b0 & Z1 & Z2 & Al). rewrite (Vr r w lx El) in Z1. rewrite (Kr r w kx Ek) in Z2. inversion Z1; inversion Z2; subst.
      destruct Al as (W & O & Rd & Ln & _). split; [exact W|]. split; [exact Rd|]. rewrite <- Rd, <- Ln. unfold read. rewrite firstn_length, skipn_length. destruct W as [W1 [W2|[_ W2]]]; lia. }
    destruct (Wr true) as (Wt & Rt & Lt). destruct (Wr false) as (Wf & Rf & Lf). cbn [pick rp fst snd] in Wt, Rt, Lt, Wf, Rf, Lf.
    destruct (A1 _ Wt) as [Wt1 Rt1]. destruct (C1 _ Wt1) as [Wt2 Rt2]. destruct (A1 _ Wf) as [Wf1 Rf1]. destruct (C1 _ Wf1) as [Wf2 Rf2].
    assert (Rd3 : read h2 (r_after x) = snd lx) by congruence. rewrite Rd3 in E3.
    assert (G3 : good h3 (upd (PRoute M0 true) y3 (upd (PRoute M0 true) y2 (upd (PRoute M0 false) y1 (slices st))))
        (upd (PRoute M0 true) ([] ++ snd lx) (upd (PRoute M0 true) [] (upd (PRoute M0 false) [] (value v))))
        (upd (PRoute M0 true) (extend (S (S k1)) (Buf (S k1) 0 (Some 0)) (length (snd lx))) (upd (PRoute M0 true) (Buf (S k1) 0 (Some 0)) (upd (PRoute M0 false) (Buf k1 0 (Some 0)) (storage b)))) (S (S (S k1)))).
    { apply (good_append h2 _ _ _ _ (PRoute M0 true) y2 [] _ (snd lx) h3 y3 G2); try apply upd_same; auto;
        [|intros _; cbn [b_cap b_len moves]; destruct (snd lx); cbn [length Nat.ltb Nat.leb Nat.add]; [intros _; lia|discriminate]].
      right; right. intros q y Eq Iq. unfold upd in Eq. destruct (peqb q (PRoute M0 true)); [inversion Eq; reflexivity|].
      destruct (peqb q (PRoute M0 false)); [inversion Eq; subst; cbn in Iq; lia|]. specialize (Old q y Eq). cbn in Iq. lia. }
    assert (Rd4 : read h3 (r_before x) = fst lx).
    { destruct (extend_spec h2 y2 (snd lx) h3 y3 [] _ (S (S k1)) C2 E3) as (_ & _ & B3 & _). rewrite B3; [congruence|exact Wf2|].
      left. destruct Wf as [_ [Z|[Z _]]]; [right; left; exact Z|]. right; right. assert (length h1 = S (length (st_heap st))) by (unfold alloc in E1; inversion E1; rewrite app_length; cbn; lia). lia. }
    rewrite Rd4 in E4.
    assert (G4 : good h4 (upd (PRoute M0 false) y4 (upd (PRoute M0 true) y3 (upd (PRoute M0 true) y2 (upd (PRoute M0 false) y1 (slices st)))))
        (upd (PRoute M0 false) ([] ++ fst lx) (upd (PRoute M0 true) ([] ++ snd lx) (upd (PRoute M0 true) [] (upd (PRoute M0 false) [] (value v)))))
        (upd (PRoute M0 false) (extend (S (S (S k1))) (Buf k1 0 (Some 0)) (length (fst lx))) (upd (PRoute M0 true) (extend (S (S k1)) (Buf (S k1) 0 (Some 0)) (length (snd lx))) (upd (PRoute M0 true) (Buf (S k1) 0 (Some 0)) (upd (PRoute M0 false) (Buf k1 0 (Some 0)) (storage b))))) (S (S (S (S k1))))).
    { assert (Ne : PRoute M0 false <> PRoute M0 true) by congruence.
      apply (good_append h3 _ _ _ _ (PRoute M0 false) y1 [] _ (fst lx) h4 y4 G3); try (rewrite !(upd_other (PRoute M0 true) (PRoute M0 false) _ _ Ne); apply upd_same); auto;
        [|intros _; cbn [b_cap b_len moves]; destruct (fst lx); cbn [length Nat.ltb Nat.leb Nat.add]; [intros _; lia|discriminate]].
      destruct (fst lx) as [|e es] eqn:Ef; [left; reflexivity|]. right; left. reflexivity. }
    constructor; [|auto|auto|cbn; rewrite !app_length; cbn; lia]. unfold vstep, bstep. cbv zeta. cbn [b_next].
    rewrite (nth_of_error _ _ _ _ El), (nth_of_error _ _ _ _ Ek).
    match type of G4 with good _ ?X ?V ?K _ => apply (good_ext _ X V K) end.
    + intros p. rewrite Sl, map_app. cbn [map]. rewrite look_snoc_g, map_length. unfold upd. destruct (peqb_spec p (PRoute M0 true)) as [->|N1].
      * fold M0. destruct (peqb_spec (PRoute M0 true) (PRoute M0 true)); [|congruence]. destruct (peqb_spec (PRoute M0 true) (PRoute M0 false)); [congruence|]. reflexivity.
      * fold M0. destruct (peqb_spec p (PRoute M0 true)); [congruence|]. destruct (peqb_spec p (PRoute M0 false)); reflexivity.
    + intros p. rewrite Va, look_snoc_g, <- T1. unfold upd. fold M0. cbn [fst snd app].
      destruct (peqb_spec p (PRoute M0 true)) as [->|N1]; [destruct (peqb_spec (PRoute M0 true) (PRoute M0 false)); [congruence|]; reflexivity|].
      destruct (peqb_spec p (PRoute M0 false)); reflexivity.
    + intros p. rewrite Sa, look_snoc_g, <- T2, <- T1. unfold upd. fold M0. cbn [fst snd app]. rewrite Lt, Lf.
      destruct (peqb_spec p (PRoute M0 true)) as [->|N1]; [destruct (peqb_spec (PRoute M0 true) (PRoute M0 false)); [congruence|]; reflexivity|].
      destruct (peqb_spec p (PRoute M0 false)); reflexivity.
    + exact G4.
  - (* NewSet *)
    unfold new_set in St. destruct (alloc (st_heap st) [] 0) as [h1 x1] eqn:E1. destruct (alloc h1 [] 0) as [h2 x2] eqn:E2. inversion St; subst st'. clear St.
    destruct (alloc_al _ _ _ _ _ (b_next b) E1) as (A1 & A2 & A3). destruct (alloc_al _ _ _ _ _ (S (b_next b)) E2) as (C1 & C2 & C3).
    constructor; [|auto|cbn; rewrite !app_length; cbn; lia|auto]. unfold bstep, vstep. cbv zeta. cbn [b_next].
    apply (good_ext _ (upd (PSet (length (st_sets st)) true) x2 (upd (PSet (length (st_sets st)) false) x1 (slices st)))
       (upd (PSet (length (st_sets st)) true) [] (upd (PSet (length (st_sets st)) false) [] (value v)))
       (upd (PSet (length (st_sets st)) true) (Buf (S (b_next b)) 0 (Some 0)) (upd (PSet (length (st_sets st)) false) (Buf (b_next b) 0 (Some 0)) (storage b)))).
    + intros p. rewrite Sl, map_app. cbn [map]. rewrite look_snoc_s, map_length. reflexivity.
    + intros p. rewrite Va, look_snoc_s. rewrite S1. reflexivity.
    + intros p. rewrite Sa, look_snoc_s. rewrite S1, S2. reflexivity.
    + cbn [st_heap].
      assert (L1 : length (st_heap st) <= length h1) by (unfold alloc in E1; inversion E1; rewrite app_length; lia).
      refine (good_fresh h1 _ _ _ (S (b_next b)) h2 _ _ _ _ _ _ C1 _ _ C2 _); [|lia|cbn; lia|right; lia].
      refine (good_fresh (st_heap st) _ _ _ (b_next b) h1 _ _ _ _ _ G A1 _ _ A2 _); [lia|cbn; lia|right; lia].
  - (* SBefore *)
    destruct (nth_error (st_sets st) s) as [x|] eqn:Ex; [|discriminate]. destruct (Sx s x Ex) as (lx & kx & El & Ek). destruct a as [xs extra|]; [|discriminate]. cbn [eval_arg] in St.
    destruct (alloc (st_heap st) xs extra) as [h1 a1] eqn:E1. destruct (alloc_al _ _ _ _ _ (b_next b) E1) as (A1 & A2 & A3).
    assert (Ra : read h1 a1 = xs) by apply A2. rewrite Ra in St. unfold set_before in St.
    destruct (append grow h1 (s_before x) xs) as [h2 x2] eqn:E2. inversion St; subst st'. clear St.
    constructor; [|auto|cbn; rewrite !upd_nth_length; auto|auto]. unfold vstep, bstep. cbv zeta. cbn [b_next arg_list].
    apply (good_ext _ (upd (PSet s false) x2 (slices st)) (upd (PSet s false) (fst lx ++ xs) (value v)) (upd (PSet s false) (extend (b_next b) (fst kx) (length xs)) (storage b))).
    + intros p. unfold set_set. rewrite Sl, map_upd_const. apply (look_upd_s false _ _ _ s (sp x)); [apply Snd, Ex|reflexivity].
    + intros p. rewrite Va. apply (look_upd_s false _ _ _ s lx); [exact El|reflexivity].
    + intros p. rewrite Sa. apply (look_upd_s false _ _ _ s kx); [exact Ek|reflexivity].
    + apply (good_append h1 _ _ _ (b_next b) (PSet s false) (s_before x) (fst lx) (fst kx) xs h2 x2 (good_heap _ _ _ _ _ _ G A1)); auto.
      * exact (Xs s false x Ex).
      * exact (Vs s false lx El).
      * exact (Ks s false kx Ek).
      * exact (Sf _ (Ks s false kx Ek)).
      * exact (Rm _ _ _ eq_refl (Ks s false kx Ek)).
  - (* SAfter *)
    destruct (nth_error (st_sets st) s) as [x|] eqn:Ex; [|discriminate]. destruct (Sx s x Ex) as (lx & kx & El & Ek). destruct a as [xs extra|]; [|discriminate]. cbn [eval_arg] in St.
    destruct (alloc (st_heap st) xs extra) as [h1 a1] eqn:E1. destruct (alloc_al _ _ _ _ _ (b_next b) E1) as (A1 & A2 & A3).
    assert (Ra : read h1 a1 = xs) by apply A2. rewrite Ra in St. unfold set_after in St.
    destruct (append grow h1 (s_after x) xs) as [h2 x2] eqn:E2. inversion St; subst st'. clear St.
    constructor; [|auto|cbn; rewrite !upd_nth_length; auto|auto]. unfold vstep, bstep. cbv zeta. cbn [b_next arg_list].
    apply (good_ext _ (upd (PSet s true) x2 (slices st)) (upd (PSet s true) (snd lx ++ xs) (value v)) (upd (PSet s true) (extend (b_next b) (snd kx) (length xs)) (storage b))).
    + intros p. unfold set_set. rewrite Sl, map_upd_const. apply (look_upd_s true _ _ _ s (sp x)); [apply Snd, Ex|reflexivity].
    + intros p. rewrite Va. apply (look_upd_s true _ _ _ s lx); [exact El|reflexivity].
    + intros p. rewrite Sa. apply (look_upd_s true _ _ _ s kx); [exact Ek|reflexivity].
    + apply (good_append h1 _ _ _ (b_next b) (PSet s true) (s_after x) (snd lx) (snd kx) xs h2 x2 (good_heap _ _ _ _ _ _ G A1)); auto.
      * exact (Xs s true x Ex).
      * exact (Vs s true lx El).
      * exact (Ks s true kx Ek).
      * exact (Sf _ (Ks s true kx Ek)).
      * exact (Rm _ _ _ eq_refl (Ks s true kx Ek)).
  - (* SLast *)
    destruct (nth_error (st_sets st) s) as [x|] eqn:Ex; [|discriminate]. inversion St; subst st'. constructor; [|auto|cbn; rewrite upd_nth_length; auto|auto].
    apply (good_ext _ (slices st) (value v) (storage b)); auto. intros p. unfold set_set. rewrite Sl, map_upd_const.
    assert (Z : upd_nth s (fun _ => sp (set_last x l)) (map sp (st_sets st)) = map sp (st_sets st)).
    { apply nth_error_ext. intros i. rewrite nth_error_upd_nth. destruct (Nat.eqb_spec i s) as [->|Ne]; [|reflexivity]. rewrite (Snd s x Ex). reflexivity. }
    rewrite Z. reflexivity.
  - (* SUse *)
    destruct (nth_error (st_sets st) s) as [x|] eqn:Ex; [|discriminate]. inversion St; subst st'. constructor; [|auto|cbn; rewrite upd_nth_length; auto|auto].
    apply (good_ext _ (slices st) (value v) (storage b)); auto. intros p. unfold set_set. rewrite Sl, map_upd_const.
    assert (Z : upd_nth s (fun _ => sp (set_use x m)) (map sp (st_sets st)) = map sp (st_sets st)).
    { apply nth_error_ext. intros i. rewrite nth_error_upd_nth. destruct (Nat.eqb_spec i s) as [->|Ne]; [|reflexivity]. rewrite (Snd s x Ex). reflexivity. }
    rewrite Z. reflexivity.
  - (* SClone *)
    destruct (nth_error (st_sets st) s) as [x|] eqn:Ex; [|discriminate]. destruct (Sx s x Ex) as (lx & kx & El & Ek). inversion St; subst st'. clear St.
    constructor; [|auto|cbn; rewrite !app_length; cbn; lia|auto]. unfold vstep, bstep. cbv zeta. cbn [b_next].
    rewrite (nth_of_error _ _ _ _ El), (nth_of_error _ _ _ _ Ek).
    apply (good_ext _ (upd (PSet (length (st_sets st)) true) (s_after x) (upd (PSet (length (st_sets st)) false) (s_before x) (slices st)))
       (upd (PSet (length (st_sets st)) true) (snd lx) (upd (PSet (length (st_sets st)) false) (fst lx) (value v)))
       (upd (PSet (length (st_sets st)) true) (snd kx) (upd (PSet (length (st_sets st)) false) (fst kx) (storage b)))).
    + intros p. rewrite Sl, map_app. cbn [map]. rewrite look_snoc_s, map_length. reflexivity.
    + intros p. rewrite Va, look_snoc_s. rewrite S1. reflexivity.
    + intros p. rewrite Sa, look_snoc_s. rewrite S1, S2. reflexivity.
    + apply (good_more _ _ _ _ (b_next b)); [lia|]. assert (Nr : s <> length (st_sets st)).
      { assert (s < length (st_sets st)) by (apply nth_error_Some; congruence). lia. }
      apply (good_copy _ _ _ _ _ _ (PSet s true)); try (rewrite upd_other; [|congruence]).
      * apply (good_copy _ _ _ _ _ _ (PSet s false)); auto; [exact (Xs s false x Ex)|exact (Vs s false lx El)|exact (Ks s false kx Ek)].
      * exact (Xs s true x Ex).
      * exact (Vs s true lx El).
      * exact (Ks s true kx Ek).
  - (* SAdd *)
    destruct (nth_error (st_sets st) s) as [x|] eqn:Ex; [|discriminate]. destruct (Sx s x Ex) as (lx & kx & El & Ek). inversion St; subst st'. clear St.
    constructor; [|auto|auto|cbn; rewrite !app_length; cbn; lia]. unfold vstep, bstep. cbv zeta. cbn [b_next].
    rewrite (nth_of_error _ _ _ _ El), (nth_of_error _ _ _ _ Ek).
    apply (good_ext _ (upd (PRoute (length (st_routes st)) true) (s_after x) (upd (PRoute (length (st_routes st)) false) (s_before x) (slices st)))
       (upd (PRoute (length (st_routes st)) true) (snd lx) (upd (PRoute (length (st_routes st)) false) (fst lx) (value v)))
       (upd (PRoute (length (st_routes st)) true) (snd kx) (upd (PRoute (length (st_routes st)) false) (fst kx) (storage b)))).
    + intros p. rewrite Sl, map_app. cbn [map]. rewrite look_snoc_g, map_length. reflexivity.
    + intros p. rewrite Va, look_snoc_g. rewrite T1. reflexivity.
    + intros p. rewrite Sa, look_snoc_g. rewrite T1, T2. reflexivity.
    + apply (good_more _ _ _ _ (b_next b)); [lia|].
      apply (good_copy _ _ _ _ _ _ (PSet s true)); try (rewrite upd_other; [|congruence]).
      * apply (good_copy _ _ _ _ _ _ (PSet s false)); auto; [exact (Xs s false x Ex)|exact (Vs s false lx El)|exact (Ks s false kx Ek)].
      * exact (Xs s true x Ex).
      * exact (Vs s true lx El).
      * exact (Ks s true kx Ek).
Qed.
End Policy.

(** ** Histories *)
Definition w_op (o : op) : nat :=
  match o with
  | RFirst _ _ | RLastAfter _ _ => 1
  | RBefore _ a | RAfter _ a | SBefore _ a | SAfter _ a => length (arg_list a)
  | _ => 0
  end.
Definition weight (os : list op) : nat := list_sum (map w_op os).
Lemma bstep_len b o w : tidy o = true -> (forall p k, storage b p = Some k -> b_len k <= w) -> forall p k, storage (bstep b o) p = Some k -> b_len k <= w + w_op o.
Proof.
  intros Ty L.
  assert (Ext : forall m x n, b_len (extend m x n) = b_len x + n) by (intros m x n; unfold extend; destruct (moves x n); reflexivity).
  assert (Lr : forall r w0 x, nth_error (b_routers b) r = Some x -> b_len (pick w0 x) <= w).
  { intros r w0 x E. apply (L (PRouter r w0)). cbn. rewrite E. reflexivity. }
  assert (Ls : forall r w0 x, nth_error (b_sets b) r = Some x -> b_len (pick w0 x) <= w).
  { intros r w0 x E. apply (L (PSet r w0)). cbn. rewrite E. reflexivity. }
  assert (Lg : forall r w0 x, nth_error (b_routes b) r = Some x -> b_len (pick w0 x) <= w).
  { intros r w0 x E. apply (L (PRoute r w0)). cbn. rewrite E. reflexivity. }
  assert (Nr : forall r (d : buf * buf) w0, b_len (pick w0 d) = 0 -> b_len (pick w0 (nth r (b_routers b) d)) <= w).
  { intros r d w0 Z. destruct (nth_error (b_routers b) r) as [x|] eqn:E; [rewrite (nth_of_error _ _ _ _ E); exact (Lr r w0 x E)|].
    rewrite nth_overflow; [lia|]. apply nth_error_None. exact E. }
  assert (Ns : forall r (d : buf * buf) w0, b_len (pick w0 d) = 0 -> b_len (pick w0 (nth r (b_sets b) d)) <= w).
  { intros r d w0 Z. destruct (nth_error (b_sets b) r) as [x|] eqn:E; [rewrite (nth_of_error _ _ _ _ E); exact (Ls r w0 x E)|].
    rewrite nth_overflow; [lia|]. apply nth_error_None. exact E. }
  assert (Main : forall rs ss gs n,
     (forall r w0 x, nth_error rs r = Some x -> b_len (pick w0 x) <= w + w_op o) -> (forall r w0 x, nth_error ss r = Some x -> b_len (pick w0 x) <= w + w_op o) ->
     (forall r w0 x, nth_error gs r = Some x -> b_len (pick w0 x) <= w + w_op o) -> forall p k, storage (Bufs rs ss gs n) p = Some k -> b_len k <= w + w_op o).
  { intros rs ss gs n H1 H2 H3 [i w0|i w0|i w0] k E; cbn in E.
    - destruct (nth_error rs i) as [x|] eqn:F; [|discriminate]. inversion E; subst. exact (H1 i w0 x F).
    - destruct (nth_error ss i) as [x|] eqn:F; [|discriminate]. inversion E; subst. exact (H2 i w0 x F).
    - destruct (nth_error gs i) as [x|] eqn:F; [|discriminate]. inversion E; subst. exact (H3 i w0 x F). }
  assert (Lr' : forall r w0 x, nth_error (b_routers b) r = Some x -> b_len (pick w0 x) <= w + w_op o) by (intros r w0 x E; specialize (Lr r w0 x E); lia).
  assert (Ls' : forall r w0 x, nth_error (b_sets b) r = Some x -> b_len (pick w0 x) <= w + w_op o) by (intros r w0 x E; specialize (Ls r w0 x E); lia).
  assert (Lg' : forall r w0 x, nth_error (b_routes b) r = Some x -> b_len (pick w0 x) <= w + w_op o) by (intros r w0 x E; specialize (Lg r w0 x E); lia).
  assert (Snoc : forall (l : list (buf * buf)) y, (forall r w0 x, nth_error l r = Some x -> b_len (pick w0 x) <= w + w_op o) -> (forall w0, b_len (pick w0 y) <= w + w_op o) ->
     forall r w0 x, nth_error (l ++ [y]) r = Some x -> b_len (pick w0 x) <= w + w_op o).
  { intros l y H1 H2 r w0 x E. rewrite nth_error_snoc in E. destruct (r =? length l); [inversion E; subst; apply H2|exact (H1 r w0 x E)]. }
  assert (Upd : forall (l : list (buf * buf)) i f, (forall r w0 x, nth_error l r = Some x -> b_len (pick w0 x) <= w) ->
     (forall x w0, b_len (pick true x) <= w -> b_len (pick false x) <= w -> b_len (pick w0 (f x)) <= w + w_op o) ->
     forall r w0 x, nth_error (upd_nth i f l) r = Some x -> b_len (pick w0 x) <= w + w_op o).
  { intros l i f H1 H2 r w0 x E. rewrite nth_error_upd_nth in E. destruct (r =? i); [|specialize (H1 r w0 x E); lia].
    destruct (nth_error l r) as [y|] eqn:F; [|discriminate]. inversion E; subst. apply H2; [exact (H1 r true y F)|exact (H1 r false y F)]. }
  destruct o as [|r h|r a|r a|r h|r l|r|r k m|r|r| |s a|s a|s l|s m|s|k m [s|]|xs extra|v0 i h|v0 h|v0 i j]; cbn in Ty; try discriminate; unfold bstep; cbv zeta;
    try (intros p0 k0 E0; specialize (L p0 k0 E0); lia); apply Main; auto.
  - apply Snoc; [auto|]. intros [|]; cbn; lia.
  - apply Upd; [auto|]. intros x [|] H1 H2; cbn [pick fst snd w_op] in *; rewrite ?Ext; cbn [b_len]; lia.
  - apply Upd; [auto|]. intros x [|] H1 H2; cbn [pick fst snd w_op] in *; destruct a; cbn; try lia.
  - apply Upd; [auto|]. intros x [|] H1 H2; cbn [pick fst snd w_op] in *; destruct a; cbn; try lia.
  - apply Upd; [auto|]. intros x [|] H1 H2; cbn [pick fst snd w_op] in *; rewrite ?Ext; cbn [b_len]; lia.
  - apply Snoc; [auto|]. intros w0. specialize (Nr r (Buf (b_next b) 0 (Some 0), Buf (b_next b) 0 (Some 0)) w0 ltac:(destruct w0; reflexivity)). lia.
  - apply Snoc; [auto|]. set (d := (Buf (b_next b) 0 (Some 0), Buf (b_next b) 0 (Some 0))). intros [|]; cbn [pick fst snd w_op]; rewrite Ext; cbn [b_len].
    + specialize (Nr r d true eq_refl). cbn [pick] in Nr. lia.
    + specialize (Nr r d false eq_refl). cbn [pick] in Nr. lia.
  - apply Snoc; [auto|]. intros [|]; cbn; lia.
  - apply Upd; [auto|]. intros x [|] H1 H2; cbn [pick fst snd w_op] in *; rewrite ?Ext; cbn [b_len]; lia.
  - apply Upd; [auto|]. intros x [|] H1 H2; cbn [pick fst snd w_op] in *; rewrite ?Ext; cbn [b_len]; lia.
  - apply Snoc; [auto|]. intros w0. specialize (Ns s (Buf (b_next b) 0 (Some 0), Buf (b_next b) 0 (Some 0)) w0 ltac:(destruct w0; reflexivity)). lia.
  - apply Snoc; [auto|]. intros w0. specialize (Ns s (Buf (b_next b) 0 (Some 0), Buf (b_next b) 0 (Some 0)) w0 ltac:(destruct w0; reflexivity)). lia.
Qed.

Lemma run_inv grow N : forall os st v b w st', inv grow N st v b -> forallb tidy os = true -> disciplined b os ->
  (forall p k, storage b p = Some k -> b_len k <= w) -> w + weight os <= N ->
  run grow st os = Ok st' -> inv grow N st' (fold_left vstep os v) (fold_left bstep os b) /\ (forall p k, storage (fold_left bstep os b) p = Some k -> b_len k <= w + weight os).
Proof.
  induction os as [|o os IH]; intros st v b w st' I Ty D L Le R; cbn [run fold_left] in R |- *.
  - inversion R; subst. split; [exact I|]. intros p k E. specialize (L p k E). lia.
  - cbn [forallb] in Ty. apply andb_prop in Ty. destruct Ty as [T1 T2]. destruct D as [D1 D2].
    destruct (step grow st o) as [st1|] eqn:E1; [|discriminate].
    assert (We : weight (o :: os) = w_op o + weight os) by reflexivity. rewrite We in Le.
    assert (I1 : inv grow N st1 (vstep v o) (bstep b o)).
    { apply (inv_step grow N st o st1 v b I T1 D1); [|exact E1]. intros p xs k Ea Ek _ _. specialize (L p k Ek).
      assert (length xs = w_op o) by (destruct o; cbn in Ea; inversion Ea; reflexivity). lia. }
    destruct (IH st1 _ _ (w + w_op o) st' I1 T2 D2 (bstep_len b o w T1 L) ltac:(lia) R) as [H1 H2]. split; [exact H1|].
    intros p k E. specialize (H2 p k E). rewrite We. lia.
Qed.
Lemma run_shows grow N ops st : forallb tidy ops = true -> disciplined (Bufs [] [] [] 0) ops -> weight ops <= N -> run grow init ops = Ok st ->
  inv grow N st (copies ops) (storages ops) /\ (forall p k, storage (storages ops) p = Some k -> b_len k <= weight ops).
Proof.
  intros Ty D Le R. refine (run_inv grow N ops init _ _ 0 st (inv_init grow N) Ty D _ Le R).
  intros [[|i] w|[|i] w|[|i] w] k E; discriminate E.
Qed.
Lemma shows_inv grow N st v b : inv grow N st v b -> forall p, shows st p = value v p.
Proof.
  intros [[G _ _] _ _ _] p. specialize (G p). unfold shows. destruct (slices st p) as [x|], (value v p) as [l|]; destruct (storage b p); try contradiction; [|reflexivity].
  cbn. f_equal. apply G.
Qed.

Lemma nth_error_firstn' {A} (l : list A) : forall n i, i < n -> nth_error (firstn n l) i = nth_error l i.
Proof. induction l as [|x l IH]; intros [|n] [|i] L; cbn; try reflexivity; try lia. apply IH. lia. Qed.
(** ** An append behind another list's back *)
Lemma read_overwritten h x y z xs : wfs h x -> sl_off x = 0 -> sl_off y = 0 -> sl_arr y = sl_arr x -> sl_cap y = sl_cap x -> sl_len x + length (z :: xs) <= sl_cap x -> sl_len x < sl_len y ->
  nth_error (read (write h (sl_arr x) (sl_off x + sl_len x) (z :: xs)) y) (sl_len x) = Some z.
Proof.
  intros [W1 W2] O1 O2 A C F L. destruct W2 as [W2|[W2 W3]]; [cbn in F; lia|]. unfold read, write. rewrite O1, O2, A, nth_upd_nth, Nat.eqb_refl. cbn [skipn andb Nat.add].
  destruct (Nat.ltb_spec (sl_arr x) (length h)); [|lia]. unfold overwrite. rewrite O1 in W3. cbn [Nat.add] in W3.
  rewrite nth_error_firstn' by lia. rewrite nth_error_app2 by (rewrite firstn_length; lia). rewrite firstn_length, Nat.min_l by lia. rewrite Nat.sub_diag. reflexivity.
Qed.
Lemma value_kept v o p xs q : appends o = Some (p, xs) -> q <> p -> value (vstep v o) q = value v q.
Proof.
  intros A Ne. destruct o; cbn in A; inversion A; subst; unfold vstep, value; cbn [v_routers v_sets v_routes].
  - destruct q as [i w|i w|i w]; cbn; try reflexivity. rewrite nth_error_upd_nth. destruct (Nat.eqb_spec i r) as [->|]; [|reflexivity].
    destruct (nth_error (v_routers v) r); [|reflexivity]. destruct w; [congruence|reflexivity].
  - destruct q as [i w|i w|i w]; cbn; try reflexivity. rewrite nth_error_upd_nth. destruct (Nat.eqb_spec i s) as [->|]; [|reflexivity].
    destruct (nth_error (v_sets v) s); [|reflexivity]. destruct w; [reflexivity|congruence].
  - destruct q as [i w|i w|i w]; cbn; try reflexivity. rewrite nth_error_upd_nth. destruct (Nat.eqb_spec i s) as [->|]; [|reflexivity].
    destruct (nth_error (v_sets v) s); [|reflexivity]. destruct w; [congruence|reflexivity].
Qed.
(** what an appending call does to the heap and to other lists *)
Lemma step_append grow st o p xs st' : tidy o = true -> appends o = Some (p, xs) -> step grow st o = Ok st' ->
  exists x h1 x2, slices st p = Some x /\ (forall t, wfs (st_heap st) t -> wfs h1 t /\ read h1 t = read (st_heap st) t) /\
   append grow h1 x xs = (st_heap st', x2) /\ forall q, q <> p -> slices st' q = slices st q.
Proof.
  intros Ty A S0. destruct o as [|r h|r a|r a|r h|r l|r|r k m|r|r| |s a|s a|s l|s m|s|k m [s|]|xs0 extra|v0 i h|v0 h|v0 i j]; cbn in A; inversion A; subst; cbn in Ty; cbn [step] in S0.
  - destruct (nth_error (st_routers st) r) as [x|] eqn:Ex; [|discriminate]. destruct (append grow _ _ _) as [h1 x1] eqn:E1. inversion S0; subst.
    exists (r_after x), (st_heap st), x1. split; [cbn; rewrite nth_error_map, Ex; reflexivity|]. split; [auto|]. split; [exact E1|].
    intros [i w|i w|i w] Ne; cbn; try reflexivity. rewrite !nth_error_map, nth_error_upd_nth. destruct (Nat.eqb_spec i r) as [->|]; [|reflexivity]. rewrite Ex. destruct w; [congruence|reflexivity].
  - destruct (nth_error (st_sets st) s) as [x|] eqn:Ex; [|discriminate]. destruct a as [ys extra|]; [|discriminate]. cbn [eval_arg] in S0.
    destruct (alloc (st_heap st) ys extra) as [h1 a1] eqn:E1. pose proof (alloc_spec _ _ _ _ _ E1) as (A1 & A2 & A3 & _ & _ & _ & A7). rewrite A3 in S0. unfold set_before in S0.
    destruct (append grow _ _ _) as [h2 x2] eqn:E2. inversion S0; subst.
    exists (s_before x), h1, x2. split; [cbn; rewrite nth_error_map, Ex; reflexivity|]. split; [intros t W; split; [exact (wfs_ext _ _ _ A1 W)|apply A7, W]|]. split; [exact E2|].
    intros [i w|i w|i w] Ne; cbn; try reflexivity. rewrite !nth_error_map, nth_error_upd_nth. destruct (Nat.eqb_spec i s) as [->|]; [|reflexivity]. rewrite Ex. destruct w; [reflexivity|congruence].
  - destruct (nth_error (st_sets st) s) as [x|] eqn:Ex; [|discriminate]. destruct a as [ys extra|]; [|discriminate]. cbn [eval_arg] in S0.
    destruct (alloc (st_heap st) ys extra) as [h1 a1] eqn:E1. pose proof (alloc_spec _ _ _ _ _ E1) as (A1 & A2 & A3 & _ & _ & _ & A7). rewrite A3 in S0. unfold set_after in S0.
    destruct (append grow _ _ _) as [h2 x2] eqn:E2. inversion S0; subst.
    exists (s_after x), h1, x2. split; [cbn; rewrite nth_error_map, Ex; reflexivity|]. split; [intros t W; split; [exact (wfs_ext _ _ _ A1 W)|apply A7, W]|]. split; [exact E2|].
    intros [i w|i w|i w] Ne; cbn; try reflexivity. rewrite !nth_error_map, nth_error_upd_nth. destruct (Nat.eqb_spec i s) as [->|]; [|reflexivity]. rewrite Ex. destruct w; [congruence|reflexivity].
Qed.
Lemma clash grow N st v b o p xs q kx ky st' : inv grow N st v b -> generous grow N -> tidy o = true -> appends o = Some (p, xs) ->
  storage b p = Some kx -> storage b q = Some ky -> b_id ky = b_id kx -> b_len kx < b_len ky -> xs <> [] -> moves kx (length xs) = false -> b_len kx + length xs <= N ->
  (forall l, value v q = Some l -> forall h, In h xs -> ~ In h l) -> step grow st o = Ok st' -> shows st' q <> value (vstep v o) q.
Proof.
  intros [G _ _ _] Ge Ty Ap Ep Eq Id Lt Nx Mv Rm New St. destruct (step_append _ _ _ _ _ _ Ty Ap St) as (x & h1 & x2 & Ex & Keep & E2 & Oth).
  assert (Ne : q <> p) by (intros ->; rewrite Ep in Eq; inversion Eq; subst; lia).
  destruct (good_get_b _ _ _ _ _ _ _ _ _ G Ep) as (x' & lx & Ex' & Vx & Ax). assert (x' = x) by congruence. subst x'.
  destruct (good_get_b _ _ _ _ _ _ _ _ _ G Eq) as (y & ly & Ey & Vy & Ay).
  destruct (G_tight _ _ _ _ _ _ _ G Ge q p y x ky kx Ey Ex Eq Ep Id) as [T1 T2].
  destruct Ax as (X1 & X2 & X3 & X4 & X5 & X6). destruct Ay as (Y1 & Y2 & Y3 & Y4 & _).
  assert (Fit : sl_len x + length xs <= sl_cap x).
  { rewrite X4. unfold moves in Mv. destruct (b_cap kx) as [c|] eqn:Ec; [rewrite (proj1 X5 c eq_refl); apply Nat.ltb_ge; exact Mv|]. pose proof (proj2 X5 eq_refl Ge). lia. }
  rewrite (value_kept v o p xs q Ap Ne), Vy. unfold shows. rewrite (Oth q Ne), Ey. cbn [option_map]. intros Z. inversion Z as [Z1]. clear Z.
  unfold append in E2. destruct (Nat.leb_spec (sl_len x + length xs) (sl_cap x)); [|lia]. inversion E2 as [[H1 H2]].
  destruct xs as [|z xs]; [congruence|].
  assert (Rd : nth_error ly (sl_len x) = Some z).
  { rewrite <- Z1, <- H1. apply read_overwritten; auto; try lia. apply Keep, X1. }
  apply (New ly Vy z); [left; reflexivity|]. apply (nth_error_In _ _ Rd).
Qed.

(** ** Whether a history runs does not depend on the growth policy *)
Definition alike (st1 st2 : state) : Prop := length (st_routers st1) = length (st_routers st2) /\ length (st_sets st1) = length (st_sets st2).
Lemma step_alike g1 g2 st1 st2 o st1' : tidy o = true -> alike st1 st2 -> step g1 st1 o = Ok st1' -> exists st2', step g2 st2 o = Ok st2' /\ alike st1' st2'.
Proof.
  intros Ty [L1 L2].
  assert (Rx : forall r x, nth_error (st_routers st1) r = Some x -> exists y, nth_error (st_routers st2) r = Some y) by (intros r x E; exact (same_length_nth _ _ _ _ L1 E)).
  assert (Sx : forall r x, nth_error (st_sets st1) r = Some x -> exists y, nth_error (st_sets st2) r = Some y) by (intros r x E; exact (same_length_nth _ _ _ _ L2 E)).
  destruct o as [|r h|r a|r a|r h|r l|r|r k m|r|r| |s a|s a|s l|s m|s|k m [s|]|xs extra|v0 i h|v0 h|v0 i j]; cbn in Ty; try discriminate; cbn [step];
    try (destruct a as [xs extra|]; [|discriminate Ty]; cbn [eval_arg]);
    try match goal with |- context [nth_error (st_routers st1) ?r] => destruct (nth_error (st_routers st1) r) as [x|] eqn:Ex; [|discriminate]; destruct (Rx r x Ex) as [y Ey]; rewrite Ey end;
    try match goal with |- context [nth_error (st_sets st1) ?r] => destruct (nth_error (st_sets st1) r) as [x|] eqn:Ex; [|discriminate]; destruct (Sx r x Ex) as [y Ey]; rewrite Ey end;
    unfold new_set, set_before, set_after;
    repeat match goal with |- context [alloc ?a ?b ?c] => destruct (alloc a b c) | |- context [append ?g ?a ?b ?c] => destruct (append g a b c) end;
    intros Z; inversion Z; subst; (eexists; split; [reflexivity|]); unfold alike, set_router, set_set; cbn [st_routers st_sets]; rewrite ?app_length, ?upd_nth_length; cbn [length]; split; congruence.
Qed.
Lemma run_alike g1 g2 : forall os st1 st2 st1', forallb tidy os = true -> alike st1 st2 -> run g1 st1 os = Ok st1' -> exists st2', run g2 st2 os = Ok st2' /\ alike st1' st2'.
Proof.
  induction os as [|o os IH]; intros st1 st2 st1' Ty A R; cbn [run] in R |- *.
  - inversion R; subst. exists st2. auto.
  - cbn [forallb] in Ty. apply andb_prop in Ty. destruct Ty as [T1 T2]. destruct (step g1 st1 o) as [s1|] eqn:E1; [|discriminate].
    destruct (step_alike g1 g2 st1 st2 o s1 T1 A E1) as (s2 & E2 & A2). rewrite E2. exact (IH s1 s2 st1' T2 A2 R).
Qed.
Lemma run_app grow : forall os1 os2 st, run grow st (os1 ++ os2) = match run grow st os1 with Ok st1 => run grow st1 os2 | Panic => Panic end.
Proof. induction os1 as [|o os1 IH]; intros os2 st; [reflexivity|]. cbn [app run]. destruct (step grow st o); [apply IH|reflexivity]. Qed.
Lemma disciplined_snoc : forall os b o, disciplined b os -> safe (fold_left bstep os b) o -> disciplined b (os ++ [o]).
Proof. induction os as [|o1 os IH]; intros b o D Sf; cbn in *; [auto|]. destruct D as [D1 D2]. split; [exact D1|]. apply IH; assumption. Qed.

(** ** A checker, for the examples *)
Definition everything (b : bufs) : list buf := flat_map (fun x => [fst x; snd x]) (b_routers b ++ b_sets b ++ b_routes b).
Lemma everything_all b q y : storage b q = Some y -> In y (everything b).
Proof.
  assert (Pk : forall (w : bool) (x : buf * buf), In (pick w x) [fst x; snd x]) by (intros [|] x; cbn; auto).
  unfold everything. intros E. apply in_flat_map. destruct q as [i w|i w|i w]; cbn in E.
  - destruct (nth_error (b_routers b) i) as [x|] eqn:F; [|discriminate]. inversion E; subst. exists x. split; [|apply Pk]. apply in_or_app. left. exact (nth_error_In _ _ F).
  - destruct (nth_error (b_sets b) i) as [x|] eqn:F; [|discriminate]. inversion E; subst. exists x. split; [|apply Pk]. apply in_or_app. right. apply in_or_app. left. exact (nth_error_In _ _ F).
  - destruct (nth_error (b_routes b) i) as [x|] eqn:F; [|discriminate]. inversion E; subst. exists x. split; [|apply Pk]. apply in_or_app. right. apply in_or_app. right. exact (nth_error_In _ _ F).
Qed.
Definition safeb (b : bufs) (o : op) : bool :=
  match appends o with
  | None => true
  | Some (p, xs) => match storage b p with
      | None => true
      | Some x => (length xs =? 0) || moves x (length xs) || forallb (fun y => negb (b_id y =? b_id x) || (b_len y <=? b_len x)) (everything b)
      end
  end.
Lemma safeb_safe b o : safeb b o = true -> safe b o.
Proof.
  unfold safeb, safe. destruct (appends o) as [[p xs]|]; [|auto]. intros H x E. rewrite E in H. apply orb_prop in H. destruct H as [H|H].
  - apply orb_prop in H. destruct H as [H|H]; [left; destruct xs; [reflexivity|discriminate]|auto].
  - right; right. intros q y Eq Id. rewrite forallb_forall in H. specialize (H y (everything_all _ _ _ Eq)). rewrite Id, Nat.eqb_refl in H. cbn in H. apply Nat.leb_le. exact H.
Qed.
Fixpoint disciplinedb (b : bufs) (os : list op) : bool := match os with [] => true | o :: os' => safeb b o && disciplinedb (bstep b o) os' end.
Lemma disciplinedb_ok : forall os b, disciplinedb b os = true -> disciplined b os.
Proof. induction os as [|o os IH]; intros b H; cbn in *; [exact I|]. apply andb_prop in H. destruct H as [H1 H2]. split; [apply safeb_safe, H1|apply IH, H2]. Qed.
