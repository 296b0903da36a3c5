(** Proofs for C116: CRC-64 as a linear map. *)
From Verif Require Import Base GoInt M_UniqId.
From Coq Require Import ZifyN ZifyNat.
Local Open Scope N_scope.

(** ** linear maps on bit vectors *)
Definition linear (f : N -> N) : Prop := forall a b, f (N.lxor a b) = N.lxor (f a) (f b).
Lemma linear_0 f : linear f -> f 0 = 0.
Proof. intros L. pose proof (L 0 0) as E. rewrite N.lxor_nilpotent in E. rewrite E. apply N.lxor_nilpotent. Qed.
Lemma lxor4 a b c d : N.lxor (N.lxor a b) (N.lxor c d) = N.lxor (N.lxor a c) (N.lxor b d).
Proof.
  rewrite <- !N.lxor_assoc. f_equal. rewrite !N.lxor_assoc. f_equal. apply N.lxor_comm.
Qed.
Lemma iter_S {A} n (f : A -> A) x : Nat.iter (S n) f x = f (Nat.iter n f x).
Proof. reflexivity. Qed.
Lemma linear_iter f n : linear f -> linear (Nat.iter n f).
Proof. intros L. induction n as [|n IH]; intros a b; [reflexivity|]. rewrite !iter_S, IH. apply L. Qed.
Lemma linear_comp f g : linear f -> linear g -> linear (fun x => f (g x)).
Proof. intros F G a b. rewrite G. apply F. Qed.
Lemma linear_shiftl k : linear (fun x => N.shiftl x k).
Proof. intros a b. apply N.shiftl_lxor. Qed.
Lemma linear_shiftr k : linear (fun x => N.shiftr x k).
Proof. intros a b. apply N.shiftr_lxor. Qed.
Lemma linear_land k : linear (fun x => N.land x k).
Proof.
  intros a b. apply N.bits_inj. intros i. rewrite N.land_spec, !N.lxor_spec, !N.land_spec.
  destruct (N.testbit a i), (N.testbit b i), (N.testbit k i); reflexivity.
Qed.
Lemma linear_xor f g : linear f -> linear g -> linear (fun x => N.lxor (f x) (g x)).
Proof. intros F G a b. rewrite F, G. apply lxor4. Qed.
Lemma lxor_lt a b n : a < 2 ^ n -> b < 2 ^ n -> N.lxor a b < 2 ^ n.
Proof.
  intros Ha Hb. destruct (N.eq_dec (N.lxor a b) 0) as [->|Nz]; [apply N.neq_0_lt_0, N.pow_nonzero; lia|].
  apply N.log2_lt_pow2; [lia|]. pose proof (N.log2_lxor a b) as H.
  assert (La : a <> 0 -> N.log2 a < n) by (intros; apply N.log2_lt_pow2; lia).
  assert (Lb : b <> 0 -> N.log2 b < n) by (intros; apply N.log2_lt_pow2; lia).
  destruct (N.eq_dec a 0) as [->|Na].
  - rewrite N.lxor_0_l in *. apply Lb. exact Nz.
  - destruct (N.eq_dec b 0) as [->|Nb]; [rewrite N.lxor_0_r in *; apply La; exact Nz|].
    specialize (La Na). specialize (Lb Nb). lia.
Qed.
(** linear maps that agree on the powers of two agree *)
Lemma linear_ext f g n : linear f -> linear g ->
  (forall j, (j < n)%nat -> f (2 ^ N.of_nat j) = g (2 ^ N.of_nat j)) ->
  forall v, v < 2 ^ N.of_nat n -> f v = g v.
Proof.
  intros F G. induction n as [|n IH]; intros H v Hv.
  - change (2 ^ N.of_nat 0) with 1 in Hv. assert (v = 0) by lia. subst. rewrite (linear_0 f F), (linear_0 g G). reflexivity.
  - assert (Hn : forall w, w < 2 ^ N.of_nat n -> f w = g w) by (apply IH; intros j Lj; apply H; lia).
    rewrite Nat2N.inj_succ, N.pow_succ_r' in Hv.
    destruct (N.lt_ge_cases v (2 ^ N.of_nat n)) as [L|L]; [exact (Hn v L)|].
    assert (E : v = N.lxor (2 ^ N.of_nat n) (v - 2 ^ N.of_nat n)).
    { assert (Lw : v - 2 ^ N.of_nat n < 2 ^ N.of_nat n) by lia.
      rewrite <- N.add_nocarry_lxor; [lia|].
      apply N.bits_inj. intros i. rewrite N.land_spec, N.bits_0, N.pow2_bits_eqb.
      destruct (N.eqb_spec (N.of_nat n) i) as [<-|]; [|reflexivity]. cbn [andb].
      destruct (N.eq_dec (v - 2 ^ N.of_nat n) 0) as [->|Nz]; [apply N.bits_0|].
      apply N.bits_above_log2, N.log2_lt_pow2; lia. }
    rewrite E, F, G, (H n) by lia. f_equal. apply Hn. lia.
Qed.

(** ** the CRC *)
Lemma turn_alt x : turn x = N.lxor (N.shiftr x 1) (if N.odd x then iso else 0).
Proof. unfold turn. destruct (N.odd x); [reflexivity|]. rewrite N.lxor_0_r. reflexivity. Qed.
Lemma linear_turn : linear turn.
Proof.
  intros a b. rewrite !turn_alt, N.shiftr_lxor, lxor4. f_equal.
  rewrite <- !N.bit0_odd, N.lxor_spec.
  destruct (N.testbit a 0), (N.testbit b 0); cbn [xorb]; rewrite ?N.lxor_nilpotent, ?N.lxor_0_r, ?N.lxor_0_l; reflexivity.
Qed.
Definition turn8 := Nat.iter 8 turn.
Lemma linear_turn8 : linear turn8.
Proof. apply linear_iter, linear_turn. Qed.
Lemma turn_shift y k : turn (N.shiftl y (N.succ k)) = N.shiftl y k.
Proof.
  unfold turn.
  replace (N.odd (N.shiftl y (N.succ k))) with false.
  - rewrite N.shiftr_shiftl_l by lia. f_equal. lia.
  - rewrite <- N.bit0_odd, N.shiftl_spec_low by lia. reflexivity.
Qed.
Lemma turn8_shift y : turn8 (N.shiftl y 8) = y.
Proof.
  unfold turn8. rewrite !iter_S. change (Nat.iter 0 turn (N.shiftl y 8)) with (N.shiftl y 8).
  change 8 with (N.succ 7). rewrite turn_shift. change 7 with (N.succ 6). rewrite turn_shift.
  change 6 with (N.succ 5). rewrite turn_shift. change 5 with (N.succ 4). rewrite turn_shift.
  change 4 with (N.succ 3). rewrite turn_shift. change 3 with (N.succ 2). rewrite turn_shift.
  change 2 with (N.succ 1). rewrite turn_shift. change 1 with (N.succ 0). rewrite turn_shift.
  apply N.shiftl_0_r.
Qed.
Lemma low_high x k : x = N.lxor (N.land x (N.ones k)) (N.shiftl (N.shiftr x k) k).
Proof.
  apply N.bits_inj. intros i. rewrite N.lxor_spec, N.land_spec.
  destruct (N.lt_ge_cases i k) as [L|L].
  - rewrite N.ones_spec_low, N.shiftl_spec_low by assumption. rewrite andb_true_r, xorb_false_r. reflexivity.
  - rewrite N.ones_spec_high, N.shiftl_spec_high' by assumption. rewrite andb_false_r, N.shiftr_spec'. cbn.
    replace (i - k + k) with i by lia. destruct (N.testbit x i); reflexivity.
Qed.
Lemma bv_lt c : bv c < 2 ^ 8.
Proof. unfold bv. destruct c as [[] [] [] [] [] [] [] []]; vm_compute; reflexivity. Qed.
Lemma high_0 x k : x < 2 ^ k -> N.shiftr x k = 0.
Proof.
  intros L. rewrite N.shiftr_div_pow2. apply N.div_small. exact L.
Qed.
Lemma land_low x k : x < 2 ^ k -> N.land x (N.ones k) = x.
Proof. intros L. rewrite N.land_ones. apply N.mod_small. exact L. Qed.
Lemma add_byte_turns crc c : add_byte crc c = turn8 (N.lxor crc (bv c)).
Proof.
  unfold add_byte. pose proof (bv_lt c) as Lb.
  rewrite (low_high (N.lxor crc (bv c)) 8).
  rewrite (linear_turn8 (N.land (N.lxor crc (bv c)) (N.ones 8))).
  rewrite turn8_shift.
  unfold entry, turn8. f_equal.
  - f_equal. rewrite (linear_land (N.ones 8)). rewrite (land_low (bv c) 8 Lb). reflexivity.
  - rewrite N.shiftr_lxor, (high_0 (bv c) 8 Lb), N.lxor_0_r. reflexivity.
Qed.
(** a byte string as a number, first byte lowest *)
Fixpoint le (s : bytes) : N := match s with [] => 0 | c :: s' => N.lxor (bv c) (N.shiftl (le s') 8) end.
Fixpoint turns (n : nat) (x : N) : N := match n with O => x | S k => turns k (turn8 x) end.
Lemma linear_turns n : linear (turns n).
Proof. induction n as [|n IH]; intros a b; cbn [turns]; [reflexivity|]. rewrite linear_turn8. apply IH. Qed.
Definition feed (s : bytes) (crc : N) : N := fold_left add_byte s crc.
Lemma feed_turns s : forall crc, feed s crc = turns (length s) (N.lxor crc (le s)).
Proof.
  unfold feed. induction s as [|c s IH]; intros crc; cbn [fold_left length turns le]; [rewrite N.lxor_0_r; reflexivity|].
  rewrite IH, add_byte_turns. f_equal. rewrite <- N.lxor_assoc, (linear_turn8 (N.lxor crc (bv c)) (N.shiftl (le s) 8)), turn8_shift. reflexivity.
Qed.
Lemma feed_same s t crc : length s = length t ->
  (feed s crc = feed t crc <-> turns (length s) (N.lxor (le s) (le t)) = 0).
Proof.
  intros E. rewrite !feed_turns, <- E. rewrite (linear_turns (length s) (le s) (le t)).
  rewrite (linear_turns (length s) crc (le s)), (linear_turns (length s) crc (le t)).
  split; intros H.
  - apply (proj2 (N.lxor_eq_0_iff _ _)). apply (f_equal (N.lxor (turns (length s) crc))) in H.
    rewrite <- !N.lxor_assoc, N.lxor_nilpotent, !N.lxor_0_l in H. exact H.
  - apply (proj1 (N.lxor_eq_0_iff _ _)) in H. rewrite H. reflexivity.
Qed.
(** ** a common rest keeps different states different *)
Lemma turn_lt x : x < 2 ^ 64 -> turn x < 2 ^ 64.
Proof.
  intros L. rewrite turn_alt. apply lxor_lt.
  - rewrite N.shiftr_div_pow2. eapply N.le_lt_trans; [apply N.div_le_upper_bound with (q := x); [discriminate|]|exact L].
    change (2 ^ 1) with 2. lia.
  - destruct (N.odd x); vm_compute; reflexivity.
Qed.
Lemma turn_kernel x : x < 2 ^ 64 -> turn x = 0 -> x = 0.
Proof.
  intros L H. rewrite turn_alt in H. apply (proj1 (N.lxor_eq_0_iff _ _)) in H.
  rewrite N.shiftr_div_pow2 in H. change (2 ^ 1) with 2 in H.
  pose proof (N.div_mod x 2 ltac:(discriminate)) as D. pose proof (N.mod_lt x 2 ltac:(discriminate)) as M.
  destruct (N.odd x) eqn:O.
  - rewrite H in D. change (2 ^ 64) with 18446744073709551616 in L. unfold iso in D. lia.
  - pose proof (N.bit0_mod x) as Bm. rewrite N.bit0_odd, O in Bm. cbn [N.b2n] in Bm. rewrite H in D. lia.
Qed.
Lemma iter_turn n x : x < 2 ^ 64 -> Nat.iter n turn x < 2 ^ 64 /\ (Nat.iter n turn x = 0 -> x = 0).
Proof.
  intros L. induction n as [|n [IHl IHk]]; [split; [exact L|intros H; exact H]|]. rewrite iter_S.
  split; [apply turn_lt; exact IHl|]. intros H. apply IHk, turn_kernel; [exact IHl|exact H].
Qed.
Lemma add_byte_lt crc c : crc < 2 ^ 64 -> add_byte crc c < 2 ^ 64.
Proof.
  intros L. rewrite add_byte_turns. apply iter_turn, lxor_lt; [exact L|].
  eapply N.lt_trans; [apply bv_lt|reflexivity].
Qed.
Lemma feed_lt s : forall crc, crc < 2 ^ 64 -> feed s crc < 2 ^ 64.
Proof.
  unfold feed. induction s as [|c s IH]; intros crc L; cbn [fold_left]; [exact L|]. apply IH, add_byte_lt, L.
Qed.
Lemma feed_inj s : forall x y, x < 2 ^ 64 -> y < 2 ^ 64 -> feed s x = feed s y -> x = y.
Proof.
  unfold feed. induction s as [|c s IH]; intros x y Lx Ly H; cbn [fold_left] in H; [exact H|].
  apply IH in H; [|apply add_byte_lt; assumption|apply add_byte_lt; assumption].
  rewrite !add_byte_turns in H. apply (proj2 (N.lxor_eq_0_iff _ _)) in H. rewrite <- linear_turn8 in H.
  apply iter_turn in H; [|apply lxor_lt; apply lxor_lt; try assumption; eapply N.lt_trans; try apply bv_lt; reflexivity].
  rewrite lxor4, N.lxor_nilpotent, N.lxor_0_r in H. apply (proj1 (N.lxor_eq_0_iff _ _)) in H. exact H.
Qed.
Lemma checksum_feed s : checksum s = N.lxor (feed s all_ones) all_ones.
Proof. reflexivity. Qed.
Lemma lxor_cancel_r a b c : N.lxor a c = N.lxor b c -> a = b.
Proof.
  intros H. apply (f_equal (fun z => N.lxor z c)) in H. rewrite !N.lxor_assoc, N.lxor_nilpotent, !N.lxor_0_r in H. exact H.
Qed.
Lemma ones_lt : all_ones < 2 ^ 64.
Proof. vm_compute. reflexivity. Qed.
(** equal checksums of texts that differ only in a middle part of the same length *)
Lemma checksum_middle a x y b : length x = length y ->
  checksum (a ++ x ++ b) = checksum (a ++ y ++ b) -> turns (length x) (N.lxor (le x) (le y)) = 0.
Proof.
  intros E H. rewrite !checksum_feed in H. apply lxor_cancel_r in H. unfold feed in H. rewrite !fold_left_app in H.
  fold (feed a all_ones) in H.
  assert (L : feed a all_ones < 2 ^ 64) by (apply feed_lt, ones_lt).
  apply (feed_inj b) in H; [|apply (feed_lt x _ L)|apply (feed_lt y _ L)].
  exact (proj1 (feed_same x y (feed a all_ones) E) H).
Qed.
(** ** at most eight different bytes *)
Lemma le_lt s : le s < 2 ^ (8 * N.of_nat (length s)).
Proof.
  induction s as [|c s IH]; cbn [le length]; [reflexivity|]. apply lxor_lt.
  - eapply N.lt_le_trans; [apply bv_lt|]. apply N.pow_le_mono_r; lia.
  - rewrite N.shiftl_mul_pow2, Nat2N.inj_succ. replace (8 * N.succ (N.of_nat (length s))) with (8 * N.of_nat (length s) + 8) by lia.
    rewrite N.pow_add_r. apply N.mul_lt_mono_pos_r; [reflexivity|exact IH].
Qed.
Lemma shiftr_low x y k : x < 2 ^ k -> N.shiftr (N.lxor x (N.shiftl y k)) k = y.
Proof.
  intros L. rewrite N.shiftr_lxor, (high_0 x k L), N.lxor_0_l, N.shiftr_shiftl_l by lia.
  rewrite N.sub_diag. apply N.shiftl_0_r.
Qed.
Lemma land_high x y k : x < 2 ^ k -> N.land (N.lxor x (N.shiftl y k)) (N.ones k) = x.
Proof.
  intros L. rewrite (linear_land (N.ones k)), (land_low x k L). rewrite (N.land_ones (N.shiftl y k)).
  rewrite N.shiftl_mul_pow2, N.mod_mul by (apply N.pow_nonzero; discriminate). apply N.lxor_0_r.
Qed.
Lemma le_inj s : forall t, length s = length t -> le s = le t -> s = t.
Proof.
  induction s as [|c s IH]; intros [|d t] E H; try discriminate E; [reflexivity|]. cbn [le] in H.
  pose proof (f_equal (fun z => N.shiftr z 8) H) as H1. cbv beta in H1. rewrite !shiftr_low in H1 by apply bv_lt.
  pose proof (f_equal (fun z => N.land z (N.ones 8)) H) as H2. cbv beta in H2. rewrite !land_high in H2 by apply bv_lt.
  f_equal; [|apply IH; [injection E as E; exact E|exact H1]].
  unfold bv in H2. rewrite <- (ascii_N_embedding c), H2. apply ascii_N_embedding.
Qed.
Lemma turns_kernel n : forall x, x < 2 ^ 64 -> turns n x = 0 -> x = 0.
Proof.
  induction n as [|n IH]; intros x L H; cbn [turns] in H; [exact H|].
  apply IH in H; [|apply iter_turn, L]. apply (proj2 (iter_turn 8 x L)). exact H.
Qed.
Lemma burst a x y b : length x = length y -> (length x <= 8)%nat ->
  checksum (a ++ x ++ b) = checksum (a ++ y ++ b) -> x = y.
Proof.
  intros E L8 H. apply checksum_middle in H; [|exact E]. apply turns_kernel in H.
  - apply (proj1 (N.lxor_eq_0_iff _ _)) in H. exact (le_inj x y E H).
  - apply lxor_lt; (eapply N.lt_le_trans; [apply le_lt|]); apply N.pow_le_mono_r; try discriminate; lia.
Qed.

(** ** nineteen decimal digits *)
(** nibbles in a number, four bits each, the first lowest; and spread over bytes *)
Fixpoint pack (xs : list N) : N := match xs with [] => 0 | x :: xs' => N.lxor x (N.shiftl (pack xs') 4) end.
Fixpoint spread (n : nat) (v : N) : N :=
  match n with O => 0 | S k => N.lxor (N.land v (N.ones 4)) (N.shiftl (spread k (N.shiftr v 4)) 8) end.
Fixpoint unpack (n : nat) (v : N) : list N :=
  match n with O => [] | S k => N.land v (N.ones 4) :: unpack k (N.shiftr v 4) end.
Lemma linear_spread n : linear (spread n).
Proof.
  induction n as [|n IH]; [intros a b; reflexivity|]. cbn [spread].
  apply (linear_xor (fun v => N.land v (N.ones 4)) (fun v => N.shiftl (spread n (N.shiftr v 4)) 8)).
  - apply linear_land.
  - intros a b. rewrite N.shiftr_lxor, IH. apply N.shiftl_lxor.
Qed.
Definition nibbles (xs : list N) : Prop := Forall (fun x => x < 2 ^ 4) xs.
Lemma unpack_pack xs : nibbles xs -> unpack (length xs) (pack xs) = xs.
Proof.
  induction 1 as [|x xs Hx _ IH]; [reflexivity|]. cbn [length unpack pack].
  rewrite land_high, shiftr_low, IH by exact Hx. reflexivity.
Qed.
Fixpoint le_n (xs : list N) : N := match xs with [] => 0 | x :: xs' => N.lxor x (N.shiftl (le_n xs') 8) end.
Lemma spread_pack xs : nibbles xs -> spread (length xs) (pack xs) = le_n xs.
Proof.
  induction 1 as [|x xs Hx _ IH]; [reflexivity|]. cbn [length spread pack le_n].
  rewrite land_high, shiftr_low, IH by exact Hx. reflexivity.
Qed.
Lemma pack_lt xs : nibbles xs -> pack xs < 2 ^ (4 * N.of_nat (length xs)).
Proof.
  induction 1 as [|x xs Hx _ IH]; cbn [pack length]; [reflexivity|]. apply lxor_lt.
  - eapply N.lt_le_trans; [exact Hx|]. apply N.pow_le_mono_r; lia.
  - rewrite N.shiftl_mul_pow2, Nat2N.inj_succ. replace (4 * N.succ (N.of_nat (length xs))) with (4 * N.of_nat (length xs) + 4) by lia.
    rewrite N.pow_add_r. apply N.mul_lt_mono_pos_r; [reflexivity|exact IH].
Qed.
(** the effect of changing the nibbles of nineteen bytes *)
Definition effect (v : N) : N := turns 19 (spread 19 v).
Lemma linear_effect : linear effect.
Proof. intros a b. unfold effect. rewrite linear_spread. apply linear_turns. Qed.
(** a left inverse on the last sixteen nibbles *)
Definition columns : list N := [
  18889466054623883182080; 37778932109247766364160; 51946031364342655512576; 61390764312489759903744;
  4722367802283599024128; 9444736448992127852544; 18889468024948720484352; 37778936049897440968704;
  51946033334667492749312; 61390768253139434377216; 4722367520808622313472; 9444733634242360745984;
  18889487165247144148992; 37778987841293165166592; 51946064859864889585664; 61390831303534228049920;
  4722399046006018101248; 9444796684637152321536; 18889482661647516778496; 37778942805296891461632;
  51946371104639668219904; 61391659965865815216128; 4722903449164367482880; 9445805490953851084800;
  18889987064805849382912; 37779951611613556670464; 51946299047045630291968; 61390939389925435936768;
  4727803365560825630720; 9459064088259245744128; 18898057515339439489024; 37796092512680736882688;
  51954369497578951962624; 61407080290992079278080; 4726650444056218783744; 9447534873213177274368;
  18976456177682769854464; 38008230069567051431936; 52083496706116393660416; 61665334708066962673664;
  4855777652589365514240; 9705789290279470735360; 18958009433609060302848; 37823762628829955915776;
  53337875303609679507456; 65059535618247995461632; 6921812989188432678912; 13837859963477605064704;
  21024044770139407990784; 41955833301890651291648; 53042727398430326681600; 62108056566454467203072;
  26991870549081006231552; 68145074526374129672192; 16301678292767320915968; 32511100347146477142016;
  57765093885698018406400; 14884391746554108088320; 12824771100472070590464; 2031943766199096680448;
  21024044705268221947904; 41955833172148279205888; 53042727561158047612928; 62108056663211490471936].
Fixpoint combine_cols (cs : list N) (y : N) : N :=
  match cs with [] => 0 | c :: cs' => N.lxor (if N.odd y then c else 0) (combine_cols cs' (N.shiftr y 1)) end.
Lemma linear_combine cs : linear (combine_cols cs).
Proof.
  induction cs as [|c cs IH]; intros a b; cbn [combine_cols]; [reflexivity|].
  rewrite N.shiftr_lxor, IH, lxor4. f_equal. rewrite <- !N.bit0_odd, N.lxor_spec.
  destruct (N.testbit a 0), (N.testbit b 0); cbn [xorb]; rewrite ?N.lxor_nilpotent, ?N.lxor_0_r, ?N.lxor_0_l; reflexivity.
Qed.
Definition back := combine_cols columns.
Lemma back_effect w : w < 2 ^ 64 -> back (effect (N.shiftl w 12)) = N.shiftl w 12.
Proof.
  intros L. refine (linear_ext (fun w => back (effect (N.shiftl w 12))) (fun w => N.shiftl w 12) 64 _ _ _ w L).
  - intros a b. rewrite N.shiftl_lxor, linear_effect. apply linear_combine.
  - apply linear_shiftl.
  - intros j Hj.
    assert (C : forallb (fun j => back (effect (N.shiftl (2 ^ N.of_nat j) 12)) =? N.shiftl (2 ^ N.of_nat j) 12) (seq 0 64) = true)
      by (vm_compute; reflexivity).
    rewrite forallb_forall in C. apply N.eqb_eq, C, in_seq. lia.
Qed.
(** so the nibbles without effect are determined by the first three of them *)
Definition solution (h : N) : N := N.lxor h (back (effect h)).
Lemma kernel v : v < 2 ^ 76 -> effect v = 0 -> v = solution (N.land v (N.ones 12)).
Proof.
  intros L H. unfold solution. rewrite (low_high v 12) at 1. f_equal.
  rewrite (low_high v 12) in H. rewrite linear_effect in H. apply (proj1 (N.lxor_eq_0_iff _ _)) in H.
  rewrite H. rewrite back_effect; [reflexivity|].
  rewrite N.shiftr_div_pow2. apply N.div_lt_upper_bound; [discriminate|]. rewrite <- N.pow_add_r. exact L.
Qed.
