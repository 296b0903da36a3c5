(** Proofs for C116: how far apart colliding times are. *)
From Verif Require Import Base GoInt M_UniqId P_UniqId.
From Coq Require Import ZifyN ZifyNat.
Local Open Scope Z_scope.

(** ** decimal digits *)
Lemma fmt_length_gen k : forall fuel n, (n < 2 ^ N.of_nat fuel)%N -> (10 ^ N.of_nat k <= n)%N -> (n < 10 ^ N.of_nat (S k))%N ->
  length (dec_digits fuel n []) = S k.
Proof.
  induction k as [|k IH]; intros fuel n F L U.
  - destruct fuel as [|fuel]; [cbn in F, L; lia|]. cbn [dec_digits]. change (10 ^ N.of_nat 1)%N with 10%N in U.
    rewrite (proj2 (N.ltb_lt n 10) U). reflexivity.
  - rewrite Nat2N.inj_succ, N.pow_succ_r' in L, U.
    destruct fuel as [|fuel]; [cbn in F; pose proof (N.pow_nonzero 10 (N.of_nat k) ltac:(discriminate)); lia|].
    cbn [dec_digits]. pose proof (N.pow_nonzero 10 (N.of_nat k) ltac:(discriminate)) as P.
    destruct (N.ltb_spec n 10) as [X|X]; [lia|].
    rewrite dec_digits_app, app_length. rewrite IH.
    + cbn [length]. lia.
    + apply N.div_lt_upper_bound; [discriminate|]. rewrite Nat2N.inj_succ, N.pow_succ_r' in F. lia.
    + apply N.div_le_lower_bound; [discriminate|lia].
    + apply N.div_lt_upper_bound; [discriminate|lia].
Qed.
Lemma fmt_length t : 10 ^ 18 <= t < 10 ^ 19 -> length (fmt_int t) = 19%nat.
Proof.
  intros H. unfold fmt_int. destruct (Z.ltb_spec t 0); [lia|]. unfold fmt_nat.
  apply (fmt_length_gen 18); [apply size_nat_bound| |].
  - change (10 ^ N.of_nat 18)%N with 1000000000000000000%N. change (10 ^ 18) with 1000000000000000000 in H. lia.
  - change (10 ^ N.of_nat 19)%N with 10000000000000000000%N. change (10 ^ 19) with 10000000000000000000 in H. lia.
Qed.
Lemma fmt_val t : 0 <= t -> digits_val 0 (fmt_int t) = Some t.
Proof. intros H. unfold fmt_int. destruct (Z.ltb_spec t 0); [lia|]. rewrite fmt_nat_val. f_equal. lia. Qed.
Definition dig (c : ascii) : Z := Z.of_N (bv c) - 48.
Definition dec (acc : Z) (ds : list Z) : Z := fold_left (fun a d => a * 10 + d) ds acc.
Lemma digit_dig c d : digit_val c = Some d -> d = dig c /\ 0 <= d <= 9.
Proof.
  intros H. pose proof (digit_val_bounds c d H). unfold digit_val in H. unfold dig.
  destruct ((48 <=? bv c)%N && (bv c <=? 57)%N); [|discriminate]. injection H as <-. split; [reflexivity|lia].
Qed.
Definition is_dig (c : ascii) : Prop := 0 <= dig c <= 9.
Lemma digits_dec s : forall acc v, digits_val acc s = Some v -> v = dec acc (map dig s) /\ Forall is_dig s.
Proof.
  induction s as [|c s IH]; intros acc v H; cbn [digits_val] in H; [injection H as <-; split; [reflexivity|constructor]|].
  destruct (digit_val c) as [d|] eqn:E; [|discriminate]. destruct (digit_dig c d E) as [-> L].
  destruct (IH _ _ H) as [-> F]. split; [reflexivity|constructor; [exact L|exact F]].
Qed.

(** ** differences *)
Fixpoint zip {A B C} (f : A -> B -> C) (l : list A) (m : list B) : list C :=
  match l, m with a :: l', b :: m' => f a b :: zip f l' m' | _, _ => [] end.
Definition xors := zip (fun c d : ascii => N.lxor (bv c) (bv d)).
Definition gaps := zip (fun c d : ascii => dig c - dig d).
Lemma dec_gaps s : forall t a b, length s = length t ->
  dec a (map dig s) - dec b (map dig t) = dec (a - b) (gaps s t).
Proof.
  unfold dec, gaps. induction s as [|c s IH]; intros [|d t] a b E; try discriminate E; [reflexivity|].
  cbn [map fold_left zip]. rewrite IH by (injection E as E; exact E). f_equal. lia.
Qed.
Lemma le_xors s : forall t, length s = length t -> N.lxor (le s) (le t) = le_n (xors s t).
Proof.
  unfold xors. induction s as [|c s IH]; intros [|d t] E; try discriminate E; [reflexivity|].
  cbn [le zip le_n]. rewrite lxor4. f_equal. rewrite <- N.shiftl_lxor. f_equal. apply IH. injection E as E. exact E.
Qed.
Definition all_digits10 : list N := map N.of_nat (seq 0 10).
Lemma bv_dig c : is_dig c -> exists n, In n all_digits10 /\ bv c = (48 + n)%N /\ dig c = Z.of_N n.
Proof.
  unfold is_dig, dig. intros H. exists (bv c - 48)%N. split; [|split; lia].
  unfold all_digits10. apply in_map_iff. exists (N.to_nat (bv c - 48)). split; [lia|]. apply in_seq. lia.
Qed.
(** the possible differences of two digits whose codes differ by [x] *)
Definition diffs (x : N) : list Z :=
  flat_map (fun a => flat_map (fun b => if (N.lxor (48 + a) (48 + b) =? x)%N then [Z.of_N a - Z.of_N b] else []) all_digits10) all_digits10.
Definition most (x : N) : Z := fold_right Z.max 0 (diffs x).
Lemma diffs_in c d : is_dig c -> is_dig d -> In (dig c - dig d) (diffs (N.lxor (bv c) (bv d))).
Proof.
  intros C D. destruct (bv_dig c C) as (a & Ia & -> & ->). destruct (bv_dig d D) as (b & Ib & -> & ->).
  unfold diffs. apply in_flat_map. exists a. split; [exact Ia|]. apply in_flat_map. exists b. split; [exact Ib|].
  rewrite N.eqb_refl. left. reflexivity.
Qed.
Lemma most_max x d : In d (diffs x) -> d <= most x.
Proof.
  unfold most. induction (diffs x) as [|y l IH]; intros I; [destruct I|]. cbn [fold_right].
  destruct I as [->|I]; [lia|]. specialize (IH I). lia.
Qed.
Lemma gap_abs c d : is_dig c -> is_dig d -> Z.abs (dig c - dig d) <= most (N.lxor (bv c) (bv d)).
Proof.
  intros C D. pose proof (most_max _ _ (diffs_in c d C D)) as H1.
  pose proof (most_max _ _ (diffs_in d c D C)) as H2. rewrite (N.lxor_comm (bv d)) in H2. lia.
Qed.
Lemma nibble_xor c d : is_dig c -> is_dig d -> (N.lxor (bv c) (bv d) < 2 ^ 4)%N.
Proof.
  intros C D. destruct (bv_dig c C) as (a & Ia & -> & _). destruct (bv_dig d D) as (b & Ib & -> & _).
  assert (F : forallb (fun a => forallb (fun b => N.lxor (48 + a) (48 + b) <? 2 ^ 4)%N all_digits10) all_digits10 = true)
    by (vm_compute; reflexivity).
  rewrite forallb_forall in F. specialize (F a Ia). rewrite forallb_forall in F. apply N.ltb_lt, F, Ib.
Qed.
Lemma xors_nibbles s t : Forall is_dig s -> Forall is_dig t -> nibbles (xors s t).
Proof.
  intros Hs. revert t. unfold xors, nibbles. induction Hs as [|c s C _ IH]; intros t Ht; [constructor|].
  destruct Ht as [|d t D Ht]; [constructor|]. cbn [zip]. constructor; [apply nibble_xor; assumption|apply IH, Ht].
Qed.
Lemma zip_length {A B C} (f : A -> B -> C) l : forall m, length l = length m -> length (zip f l m) = length l.
Proof.
  induction l as [|a l IH]; intros [|b m] E; try discriminate E; [reflexivity|]. cbn [zip length]. f_equal. apply IH.
  injection E as E. exact E.
Qed.
Lemma dec_shift ds : forall a, dec a ds = a * 10 ^ Z.of_nat (length ds) + dec 0 ds.
Proof.
  unfold dec. induction ds as [|d ds IH]; intros a; cbn [fold_left length]; [rewrite Z.mul_1_r; lia|].
  rewrite IH, (IH (0 * 10 + d)). rewrite Nat2Z.inj_succ, Z.pow_succ_r by lia. lia.
Qed.
Lemma dec_abs ds ms : Forall2 (fun d m => Z.abs d <= m) ds ms -> forall a b, Z.abs a <= b ->
  Z.abs (dec a ds) <= dec b ms.
Proof.
  unfold dec. induction 1 as [|d m ds ms H _ IH]; intros a b Hab; cbn [fold_left]; [exact Hab|].
  apply IH. lia.
Qed.
Lemma gaps_most s : forall t, length s = length t -> Forall is_dig s -> Forall is_dig t ->
  Forall2 (fun d m => Z.abs d <= m) (gaps s t) (map most (xors s t)).
Proof.
  unfold gaps, xors. induction s as [|c s IH]; intros [|d t] E Hs Ht; try discriminate E; [constructor|].
  inversion Hs; subst. inversion Ht; subst. cbn [zip map]. constructor; [apply gap_abs; assumption|].
  apply IH; [injection E as E; exact E|assumption|assumption].
Qed.
Lemma gaps_nine s : forall t, length s = length t -> Forall is_dig s -> Forall is_dig t ->
  Forall2 (fun d m => Z.abs d <= m) (gaps s t) (repeat 9 (length s)).
Proof.
  unfold gaps. induction s as [|c s IH]; intros [|d t] E Hs Ht; try discriminate E; [constructor|].
  inversion Hs as [|? ? C ?]; subst. inversion Ht as [|? ? D ?]; subst. cbn [zip length repeat].
  constructor; [unfold is_dig in C, D; lia|]. apply IH; [injection E as E; exact E|assumption|assumption].
Qed.

(** ** the search *)
Definition gap19 : Z := 9999947799996242.
Definition one_possible (x0 x1 x2 : N) : bool :=
  let d0 := diffs x0 in let d1 := diffs x1 in let d2 := diffs x2 in
  existsb (fun a => existsb (fun b => existsb (fun c => Z.abs (dec 0 [a; b; c]) =? 1) d2) d1) d0.
Definition far (h : N) : bool :=
  match unpack 19 (solution h) with
  | x0 :: x1 :: x2 :: lo =>
      negb (one_possible x0 x1 x2) || (gap19 <=? 10 ^ 16 - dec 0 (map most lo))
  | _ => false
  end.
Lemma all_far : forallb far (map N.of_nat (seq 1 4095)) = true.
Proof. vm_compute. reflexivity. Qed.
Lemma solution_0 : solution 0 = 0%N.
Proof. vm_compute. reflexivity. Qed.
Lemma zero_gap c d : N.lxor (bv c) (bv d) = 0%N -> c = d.
Proof.
  intros H. apply (proj1 (N.lxor_eq_0_iff _ _)) in H. unfold bv in H.
  rewrite <- (ascii_N_embedding c), H. apply ascii_N_embedding.
Qed.
Lemma xors_zero s : forall t, length s = length t -> le_n (xors s t) = 0%N -> s = t.
Proof.
  intros t E H. apply le_inj; [exact E|]. rewrite <- le_xors in H by exact E. exact (proj1 (N.lxor_eq_0_iff _ _) H).
Qed.
Lemma dig_inj c d : is_dig c -> is_dig d -> dig c = dig d -> c = d.
Proof.
  unfold is_dig, dig. intros C D E. assert (X : bv c = bv d) by lia. unfold bv in X.
  rewrite <- (ascii_N_embedding c), X. apply ascii_N_embedding.
Qed.
Lemma three c0 c1 c2 d0 d1 d2 : is_dig c0 -> is_dig c1 -> is_dig c2 -> is_dig d0 -> is_dig d1 -> is_dig d2 ->
  dec 0 [dig c0 - dig d0; dig c1 - dig d1; dig c2 - dig d2] = 0 -> c0 = d0 /\ c1 = d1 /\ c2 = d2.
Proof.
  intros C0 C1 C2 D0 D1 D2 H. unfold dec in H. cbn [fold_left] in H.
  assert (E : dig c0 = dig d0 /\ dig c1 = dig d1 /\ dig c2 = dig d2) by (unfold is_dig in *; lia).
  destruct E as (E0 & E1 & E2). split; [|split]; apply dig_inj; assumption.
Qed.
(** the first three nibbles of [pack] *)
Lemma pack_low x0 x1 x2 xs : nibbles (x0 :: x1 :: x2 :: xs) ->
  N.land (pack (x0 :: x1 :: x2 :: xs)) (N.ones 12) = pack [x0; x1; x2].
Proof.
  intros Nb. inversion Nb as [|? ? L0 Nb1]; subst. inversion Nb1 as [|? ? L1 Nb2]; subst. inversion Nb2 as [|? ? L2 Nb3]; subst.
  assert (E : pack (x0 :: x1 :: x2 :: xs) = N.lxor (pack [x0; x1; x2]) (N.shiftl (pack xs) 12)).
  { cbn [pack]. rewrite !N.shiftl_lxor, !N.shiftl_shiftl, N.shiftl_0_l, N.lxor_0_r, !N.lxor_assoc. reflexivity. }
  rewrite E. apply land_high. apply (pack_lt [x0; x1; x2]). repeat constructor; assumption.
Qed.
Lemma collide_far s t vs vt : length s = 19%nat -> length t = 19%nat ->
  digits_val 0 s = Some vs -> digits_val 0 t = Some vt ->
  turns 19 (N.lxor (le s) (le t)) = 0%N -> vs <> vt -> gap19 <= Z.abs (vs - vt).
Proof.
  intros Ls Lt Vs Vt T Ne. destruct (digits_dec s 0 vs Vs) as [Es Fs]. destruct (digits_dec t 0 vt Vt) as [Et Ft].
  assert (El : length s = length t) by congruence.
  pose proof (xors_nibbles s t Fs Ft) as Nb.
  assert (Lx : length (xors s t) = 19%nat) by (rewrite <- Ls; apply zip_length, El).
  assert (K : effect (pack (xors s t)) = 0%N).
  { unfold effect. rewrite <- Lx at 2. rewrite spread_pack by exact Nb. rewrite <- le_xors by exact El. exact T. }
  assert (V : vs - vt = dec 0 (gaps s t)).
  { rewrite Es, Et. apply (dec_gaps s t 0 0 El). }
  apply kernel in K; [|pose proof (pack_lt _ Nb) as P; rewrite Lx in P; exact P].
  destruct s as [|c0 [|c1 [|c2 s]]]; try discriminate Ls. destruct t as [|d0 [|d1 [|d2 t]]]; try discriminate Lt.
  assert (El' : length s = length t) by (injection El as El; exact El).
  assert (L16 : length s = 16%nat) by (injection Ls as Ls; exact Ls).
  inversion Fs as [|? ? C0 Fs1]; subst. inversion Fs1 as [|? ? C1 Fs2]; subst. inversion Fs2 as [|? ? C2 Fs3]; subst.
  inversion Ft as [|? ? D0 Ft1]; subst. inversion Ft1 as [|? ? D1 Ft2]; subst. inversion Ft2 as [|? ? D2 Ft3]; subst.
  set (x0 := N.lxor (bv c0) (bv d0)) in *. set (x1 := N.lxor (bv c1) (bv d1)) in *. set (x2 := N.lxor (bv c2) (bv d2)) in *.
  change (xors (c0 :: c1 :: c2 :: s) (d0 :: d1 :: d2 :: t)) with (x0 :: x1 :: x2 :: xors s t) in *.
  set (h := N.land (pack (x0 :: x1 :: x2 :: xors s t)) (N.ones 12)) in K.
  assert (U : unpack 19 (solution h) = x0 :: x1 :: x2 :: xors s t).
  { rewrite <- K. rewrite <- Lx at 1. apply unpack_pack, Nb. }
  set (g := dec 0 [dig c0 - dig d0; dig c1 - dig d1; dig c2 - dig d2]).
  assert (V' : dec 0 (map dig (c0 :: c1 :: c2 :: s)) - dec 0 (map dig (d0 :: d1 :: d2 :: t)) =
               g * 10 ^ 16 + dec 0 (gaps s t)).
  { rewrite V. change (gaps (c0 :: c1 :: c2 :: s) (d0 :: d1 :: d2 :: t))
      with (dig c0 - dig d0 :: dig c1 - dig d1 :: dig c2 - dig d2 :: gaps s t).
    change (dec 0 (dig c0 - dig d0 :: dig c1 - dig d1 :: dig c2 - dig d2 :: gaps s t)) with (dec g (gaps s t)).
    rewrite (dec_shift (gaps s t) g). f_equal. f_equal. f_equal. unfold gaps. rewrite zip_length by exact El'. rewrite L16. reflexivity. }
  rewrite V'.
  pose proof (dec_abs _ _ (gaps_nine s t El' Fs3 Ft3) 0 0 ltac:(lia)) as Nine. rewrite L16 in Nine.
  change (dec 0 (repeat 9 16)) with (10 ^ 16 - 1) in Nine.
  destruct (N.eq_dec h 0) as [H0|H0].
  { exfalso. rewrite H0, solution_0 in K. apply Ne.
    assert (X : c0 :: c1 :: c2 :: s = d0 :: d1 :: d2 :: t).
    { apply xors_zero; [exact El|]. change (xors (c0 :: c1 :: c2 :: s) (d0 :: d1 :: d2 :: t)) with (x0 :: x1 :: x2 :: xors s t).
      rewrite <- spread_pack by exact Nb. rewrite K. rewrite (linear_0 _ (linear_spread _)). reflexivity. }
    rewrite X. reflexivity. }
  assert (G0 : g <> 0).
  { intros G. destruct (three _ _ _ _ _ _ C0 C1 C2 D0 D1 D2 G) as (E0 & E1 & E2). apply H0.
    unfold h. rewrite (pack_low x0 x1 x2 _ Nb). unfold x0, x1, x2. rewrite E0, E1, E2, !N.lxor_nilpotent. reflexivity. }
  pose proof all_far as F. rewrite forallb_forall in F.
  assert (Hl : (h < 4096)%N).
  { unfold h. rewrite N.land_ones. apply N.mod_lt. discriminate. }
  specialize (F h). unfold far in F. rewrite U in F.
  assert (Fh : negb (one_possible x0 x1 x2) || (gap19 <=? 10 ^ 16 - dec 0 (map most (xors s t))) = true).
  { apply F, in_map_iff. exists (N.to_nat h). split; [lia|]. apply in_seq. lia. }
  clear F. apply orb_true_iff in Fh as [Fh|Fh].
  - (* the first three digits make a difference of two at least *)
    rewrite negb_true_iff in Fh.
    assert (G1 : Z.abs g <> 1).
    { intros G. rewrite <- not_true_iff_false in Fh. apply Fh. unfold one_possible. cbv zeta.
      apply existsb_exists. exists (dig c0 - dig d0). split; [apply diffs_in; assumption|].
      apply existsb_exists. exists (dig c1 - dig d1). split; [apply diffs_in; assumption|].
      apply existsb_exists. exists (dig c2 - dig d2). split; [apply diffs_in; assumption|].
      apply Z.eqb_eq. exact G. }
    unfold gap19. change (10 ^ 16) with 10000000000000000 in *. lia.
  - apply Z.leb_le in Fh.
    pose proof (dec_abs _ _ (gaps_most s t El' Fs3 Ft3) 0 0 ltac:(lia)) as M.
    change (10 ^ 16) with 10000000000000000 in *. lia.
Qed.
