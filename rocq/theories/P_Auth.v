(** Proofs for C33-C37. *)
From Coq Require Import ZifyNat.
From Verif Require Import Base GoStrings M_Pipeline M_Auth S_Auth.

(** ** base64 *)
Lemma dec_enc64 : forall n, n < 64 -> dec64 (sextet n) = Some n.
Proof.
  assert (H : forallb (fun n => match dec64 (sextet n) with Some m => m =? n | None => false end)
                (seq 0 64) = true) by (vm_compute; reflexivity).
  intros n Hn. rewrite forallb_forall in H. specialize (H n). rewrite in_seq in H.
  specialize (H ltac:(lia)). destruct (dec64 (sextet n)) as [m|]; [|discriminate].
  apply Nat.eqb_eq in H. congruence.
Qed.
Lemma enc64_not_crlf : forall n, n < 64 -> is_crlf (sextet n) = false.
Proof.
  assert (H : forallb (fun n => negb (is_crlf (sextet n))) (seq 0 64) = true) by (vm_compute; reflexivity).
  intros n Hn. rewrite forallb_forall in H. specialize (H n). rewrite in_seq in H.
  specialize (H ltac:(lia)). apply negb_true_iff in H. exact H.
Qed.
Lemma val_lt c : val c < 256.
Proof. apply nat_ascii_bounded. Qed.
Lemma byte_val c : byte_of (val c) = c.
Proof. apply ascii_nat_embedding. Qed.

Ltac div := zify; Z.to_euclidean_division_equations; lia.

Lemma q1 x y : x < 256 -> y < 256 ->
  x / 4 < 64 /\ x mod 4 * 16 + y / 16 < 64 /\
  x / 4 * 4 + (x mod 4 * 16 + y / 16) / 16 = x.
Proof.
  intros Hx Hy. split; [div|]. split; [div|].
  replace ((x mod 4 * 16 + y / 16) / 16) with (x mod 4); [div|].
  apply Nat.div_unique with (r := y / 16); [div|lia].
Qed.
Lemma q2 x y z : x < 256 -> y < 256 -> z < 256 ->
  y mod 16 * 4 + z / 64 < 64 /\
  (x mod 4 * 16 + y / 16) mod 16 * 16 + (y mod 16 * 4 + z / 64) / 4 = y.
Proof.
  intros Hx Hy Hz. split; [div|].
  replace ((x mod 4 * 16 + y / 16) mod 16) with (y / 16).
  2: { apply Nat.mod_unique with (q := x mod 4); [div|lia]. }
  replace ((y mod 16 * 4 + z / 64) / 4) with (y mod 16).
  2: { apply Nat.div_unique with (r := z / 64); [div|lia]. }
  div.
Qed.
Lemma q3 y z : y < 256 -> z < 256 ->
  z mod 64 < 64 /\ (y mod 16 * 4 + z / 64) mod 4 * 64 + z mod 64 = z.
Proof.
  intros Hy Hz. split; [div|].
  replace ((y mod 16 * 4 + z / 64) mod 4) with (z / 64).
  2: { apply Nat.mod_unique with (q := y mod 16); [div|lia]. }
  div.
Qed.

Lemma three_ind (P : bytes -> Prop) :
  P [] -> (forall x, P [x]) -> (forall x y, P [x; y]) ->
  (forall x y z s, P s -> P (x :: y :: z :: s)) -> forall s, P s.
Proof.
  intros H0 H1 H2 H3.
  assert (G : forall n s, length s <= n -> P s).
  { induction n as [|n IH]; intros s Hs.
    - destruct s; [exact H0|simpl in Hs; lia].
    - destruct s as [|x [|y [|z s]]]; auto. apply H3. apply IH. simpl in Hs. lia. }
  intros s. apply (G (length s)). lia.
Qed.

Lemma b64_encode_cons s : s <> [] -> exists a b c d r, b64_encode s = a :: b :: c :: d :: r.
Proof. destruct s as [|x [|y [|z s]]]; [congruence| | |]; intros _; simpl; eauto 6. Qed.

Lemma dec_quanta_encode : forall s, dec_quanta (b64_encode s) = Some s.
Proof.
  apply three_ind.
  - reflexivity.
  - intros x. pose proof (val_lt x) as Hx. destruct (q1 (val x) 0 Hx ltac:(lia)) as (A1 & A2 & A3).
    replace (val x mod 4 * 16 + 0 / 16) with (val x mod 4 * 16) in * by (simpl; lia).
    cbn [b64_encode dec_quanta]. rewrite !dec_enc64 by lia. rewrite A3, byte_val. reflexivity.
  - intros x y. pose proof (val_lt x) as Hx. pose proof (val_lt y) as Hy.
    destruct (q1 (val x) (val y) Hx Hy) as (A1 & A2 & A3).
    destruct (q2 (val x) (val y) 0 Hx Hy ltac:(lia)) as (B1 & B2).
    replace (val y mod 16 * 4 + 0 / 64) with (val y mod 16 * 4) in * by (simpl; lia).
    cbn [b64_encode dec_quanta]. rewrite !dec_enc64 by lia. rewrite A3, B2, !byte_val. reflexivity.
  - intros x y z s IH.
    pose proof (val_lt x) as Hx. pose proof (val_lt y) as Hy. pose proof (val_lt z) as Hz.
    destruct (q1 (val x) (val y) Hx Hy) as (A1 & A2 & A3).
    destruct (q2 (val x) (val y) (val z) Hx Hy Hz) as (B1 & B2).
    destruct (q3 (val y) (val z) Hy Hz) as (C1 & C2).
    cbn [b64_encode].
    destruct s as [|s0 s1].
    + cbn [b64_encode dec_quanta]. rewrite !dec_enc64 by lia. rewrite A3, B2, C2, !byte_val. reflexivity.
    + destruct (b64_encode_cons (s0 :: s1)) as (a & b & c & d & r & E); [discriminate|].
      rewrite E in *. cbn [dec_quanta] in *. rewrite !dec_enc64 by lia. rewrite IH.
      rewrite A3, B2, C2, !byte_val. reflexivity.
Qed.
Lemma encode_no_crlf : forall s, filter (fun c => negb (is_crlf c)) (b64_encode s) = b64_encode s.
Proof.
  apply three_ind.
  - reflexivity.
  - intros x. pose proof (val_lt x) as Hx. cbn [b64_encode filter]. rewrite !enc64_not_crlf by div. reflexivity.
  - intros x y. pose proof (val_lt x) as Hx. pose proof (val_lt y) as Hy.
    destruct (q1 (val x) (val y) Hx Hy) as (A1 & A2 & A3).
    cbn [b64_encode filter]. rewrite !enc64_not_crlf by (try assumption; div). reflexivity.
  - intros x y z s IH.
    pose proof (val_lt x) as Hx. pose proof (val_lt y) as Hy. pose proof (val_lt z) as Hz.
    destruct (q1 (val x) (val y) Hx Hy) as (A1 & A2 & A3).
    destruct (q2 (val x) (val y) (val z) Hx Hy Hz) as (B1 & B2).
    destruct (q3 (val y) (val z) Hy Hz) as (C1 & C2).
    cbn [b64_encode filter]. rewrite !enc64_not_crlf by assumption. rewrite IH. reflexivity.
Qed.
Lemma b64_roundtrip s : b64_decode (b64_encode s) = Some s.
Proof. unfold b64_decode. rewrite encode_no_crlf. apply dec_quanta_encode. Qed.

Lemma digit_dec a x : digit64 a x <-> dec64 a = Some x.
Proof.
  split.
  - intros H. assert (L : x < 64) by (apply (nth_error_Some digits64 x); unfold digit64 in H; rewrite H; discriminate).
    apply nth_error_nth with (d := "="%char) in H. rewrite <- H. apply (dec_enc64 x L).
  - assert (A : forallb (fun a => match dec64 a with
        | Some x => match nth_error digits64 x with Some b => Ascii.eqb b a | None => false end
        | None => true end) (map ascii_of_nat (seq 0 256)) = true) by (vm_compute; reflexivity).
    intros H. rewrite forallb_forall in A. specialize (A a).
    assert (I : In a (map ascii_of_nat (seq 0 256))).
    { apply in_map_iff. exists (nat_of_ascii a). split; [apply ascii_nat_embedding|]. apply in_seq. pose proof (nat_ascii_bounded a). lia. }
    specialize (A I). cbv beta in A. rewrite H in A. unfold digit64. destruct (nth_error digits64 x) as [b|]; [|discriminate].
    apply Ascii.eqb_eq in A. congruence.
Qed.
Lemma digit_lt a x : digit64 a x -> x < 64.
Proof. intros H. apply (nth_error_Some digits64 x). unfold digit64 in H. rewrite H. discriminate. Qed.
Lemma digit_pad x : ~ digit64 "=" x.
Proof. intros H. apply digit_dec in H. vm_compute in H. discriminate. Qed.
Lemma val_byte n : n < 256 -> val (byte_of n) = n.
Proof. apply nat_ascii_embedding. Qed.
Lemma val_is p n : val p = n -> byte_of n = p.
Proof. intros <-. apply byte_val. Qed.
Lemma one_byte x y : x < 64 -> y < 64 -> x * 4 + y / 16 < 256 /\ (x * 64 + y) / 16 = x * 4 + y / 16.
Proof. intros. split; [div|]. replace (x * 64 + y) with (x * 4 * 16 + y) by lia. rewrite Nat.div_add_l by lia. reflexivity. Qed.
Lemma two_bytes x y z : x < 64 -> y < 64 -> z < 64 -> y mod 16 * 16 + z / 4 < 256 /\
  ((x * 64 + y) * 64 + z) / 4 = (x * 4 + y / 16) * 256 + (y mod 16 * 16 + z / 4).
Proof.
  intros. split; [div|]. replace ((x * 64 + y) * 64 + z) with ((x * 64 + y) * 16 * 4 + z) by lia. rewrite Nat.div_add_l by lia.
  pose proof (Nat.div_mod y 16 ltac:(lia)). lia.
Qed.
Lemma three_bytes x y z w : x < 64 -> y < 64 -> z < 64 -> w < 64 -> z mod 4 * 64 + w < 256 /\
  ((x * 64 + y) * 64 + z) * 64 + w = ((x * 4 + y / 16) * 256 + (y mod 16 * 16 + z / 4)) * 256 + (z mod 4 * 64 + w).
Proof.
  intros. split; [div|]. pose proof (Nat.div_mod y 16 ltac:(lia)). pose proof (Nat.div_mod z 4 ltac:(lia)). lia.
Qed.
Lemma base64_dec t s : base64 t s -> dec_quanta t = Some s.
Proof.
  induction 1 as [|a b x y p Ha Hb E|a b c x y z p q Ha Hb Hc E|a b c d x y z w p q r t s Ha Hb Hc Hd E H IH].
  - reflexivity.
  - pose proof (digit_lt _ _ Ha). pose proof (digit_lt _ _ Hb). destruct (one_byte x y) as [L1 E1]; try assumption.
    rewrite E1 in E. apply digit_dec in Ha, Hb. cbn [dec_quanta]. rewrite Ha, Hb.
    replace (dec64 "=") with (@None nat) by reflexivity. replace (Ascii.eqb "=" "=") with true by reflexivity. cbn [andb].
    rewrite (val_is _ _ E). reflexivity.
  - pose proof (digit_lt _ _ Ha). pose proof (digit_lt _ _ Hb). pose proof (digit_lt _ _ Hc).
    destruct (one_byte x y) as [L1 E1]; try assumption. destruct (two_bytes x y z) as [L2 E2]; try assumption.
    rewrite E2 in E. pose proof (val_lt p). pose proof (val_lt q).
    assert (P1 : val p = x * 4 + y / 16) by lia. assert (P2 : val q = y mod 16 * 16 + z / 4) by lia.
    apply digit_dec in Ha, Hb, Hc. cbn [dec_quanta]. rewrite Ha, Hb, Hc.
    replace (dec64 "=") with (@None nat) by reflexivity. replace (Ascii.eqb "=" "=") with true by reflexivity.
    rewrite (val_is _ _ P1), (val_is _ _ P2). reflexivity.
  - pose proof (digit_lt _ _ Ha). pose proof (digit_lt _ _ Hb). pose proof (digit_lt _ _ Hc). pose proof (digit_lt _ _ Hd).
    destruct (one_byte x y) as [L1 E1]; try assumption. destruct (two_bytes x y z) as [L2 E2]; try assumption.
    destruct (three_bytes x y z w) as [L3 E3]; try assumption. rewrite E3 in E.
    pose proof (val_lt p). pose proof (val_lt q). pose proof (val_lt r).
    assert (P1 : val p = x * 4 + y / 16) by lia. assert (P2 : val q = y mod 16 * 16 + z / 4) by lia.
    assert (P3 : val r = z mod 4 * 64 + w) by lia.
    apply digit_dec in Ha, Hb, Hc, Hd. destruct t as [|t0 t].
    + injection IH as <-. cbn [dec_quanta]. rewrite Ha, Hb, Hc, Hd, (val_is _ _ P1), (val_is _ _ P2), (val_is _ _ P3). reflexivity.
    + cbn [dec_quanta] in IH |- *. rewrite Ha, Hb, Hc, Hd, (val_is _ _ P1), (val_is _ _ P2), (val_is _ _ P3).
      rewrite IH. reflexivity.
Qed.
Lemma dec_base64 : forall n t s, length t <= n -> dec_quanta t = Some s -> base64 t s.
Proof.
  induction n as [|n IH]; intros t s L H.
  - destruct t; [injection H as <-; constructor|cbn in L; lia].
  - destruct t as [|a [|b [|c [|d t]]]]; [injection H as <-; constructor|discriminate|discriminate|discriminate|].
    destruct t as [|t0 t].
    + cbn [dec_quanta] in H. destruct (dec64 a) as [x|] eqn:Ha; [|discriminate]. destruct (dec64 b) as [y|] eqn:Hb; [|discriminate].
      apply digit_dec in Ha, Hb. pose proof (digit_lt _ _ Ha). pose proof (digit_lt _ _ Hb).
      destruct (one_byte x y) as [L1 E1]; try assumption.
      destruct (dec64 c) as [z|] eqn:Hc.
      * apply digit_dec in Hc. pose proof (digit_lt _ _ Hc). destruct (two_bytes x y z) as [L2 E2]; try assumption.
        destruct (dec64 d) as [w|] eqn:Hd.
        -- apply digit_dec in Hd. pose proof (digit_lt _ _ Hd). destruct (three_bytes x y z w) as [L3 E3]; try assumption.
           injection H as <-. apply (b64_three a b c d x y z w); try assumption; [|constructor].
           rewrite !val_byte by assumption. symmetry. exact E3.
        -- destruct (Ascii.eqb_spec d "="); [|discriminate]. subst d. injection H as <-.
           apply (b64_two a b c x y z); try assumption. rewrite !val_byte by assumption. symmetry. exact E2.
      * destruct (Ascii.eqb_spec c "="); [|discriminate]. destruct (Ascii.eqb_spec d "="); [|discriminate]. subst c d.
        injection H as <-. apply (b64_one a b x y); try assumption. rewrite val_byte by assumption. symmetry. exact E1.
    + change (match dec64 a, dec64 b, dec64 c, dec64 d with
              | Some x, Some y, Some z, Some w =>
                  match dec_quanta (t0 :: t) with
                  | Some r => Some (byte_of (x * 4 + y / 16) :: byte_of (y mod 16 * 16 + z / 4) :: byte_of (z mod 4 * 64 + w) :: r)
                  | None => None end
              | _, _, _, _ => None end = Some s) in H. set (t1 := t0 :: t) in *.
      destruct (dec64 a) as [x|] eqn:Ha; [|discriminate]. destruct (dec64 b) as [y|] eqn:Hb; [|discriminate].
      destruct (dec64 c) as [z|] eqn:Hc; [|discriminate]. destruct (dec64 d) as [w|] eqn:Hd; [|discriminate].
      destruct (dec_quanta t1) as [r|] eqn:Er; [|discriminate]. injection H as <-.
      apply digit_dec in Ha, Hb, Hc, Hd. pose proof (digit_lt _ _ Ha). pose proof (digit_lt _ _ Hb). pose proof (digit_lt _ _ Hc). pose proof (digit_lt _ _ Hd).
      destruct (one_byte x y) as [L1 E1]; try assumption. destruct (two_bytes x y z) as [L2 E2]; try assumption.
      destruct (three_bytes x y z w) as [L3 E3]; try assumption.
      apply (b64_three a b c d x y z w); try assumption; [rewrite !val_byte by assumption; symmetry; exact E3|].
      apply IH; [cbn [length] in L; lia|exact Er].
Qed.
Lemma b64_decode_iff t s : b64_decode t = Some s <-> base64_text t s.
Proof.
  unfold b64_decode, base64_text.
  replace (filter (fun c => negb (Ascii.eqb c (ch 10) || Ascii.eqb c (ch 13))) t) with (filter (fun c => negb (is_crlf c)) t).
  - split; [apply (dec_base64 _ _ _ (le_n _))|apply base64_dec].
  - apply filter_ext. intros c. pose proof (nat_ascii_bounded c) as Hb.
    assert (A : forallb (fun c => Bool.eqb (negb (is_crlf c)) (negb (Ascii.eqb c (ch 10) || Ascii.eqb c (ch 13)))) (map ascii_of_nat (seq 0 256)) = true)
      by (vm_compute; reflexivity).
    rewrite forallb_forall in A. apply Bool.eqb_prop. apply A. apply in_map_iff. exists (nat_of_ascii c).
    split; [apply ascii_nat_embedding|]. apply in_seq. lia.
Qed.

(** ** the scheme *)
Lemma ascii_all (P : ascii -> bool) : forallb P (map ascii_of_nat (seq 0 256)) = true -> forall c, P c = true.
Proof.
  intros H c. rewrite forallb_forall in H. apply H. apply in_map_iff. exists (nat_of_ascii c).
  split; [apply ascii_nat_embedding|]. apply in_seq. pose proof (nat_ascii_bounded c). lia.
Qed.
Lemma lower_either : forall c, 
  either c "b" "B" = Ascii.eqb (lower_ascii c) "b" /\ either c "a" "A" = Ascii.eqb (lower_ascii c) "a" /\
  either c "s" "S" = Ascii.eqb (lower_ascii c) "s" /\ either c "i" "I" = Ascii.eqb (lower_ascii c) "i" /\
  either c "c" "C" = Ascii.eqb (lower_ascii c) "c".
Proof.
  intros c.
  pose proof (ascii_all (fun c => 
     Bool.eqb (either c "b" "B") (Ascii.eqb (lower_ascii c) "b") && Bool.eqb (either c "a" "A") (Ascii.eqb (lower_ascii c) "a")
     && Bool.eqb (either c "s" "S") (Ascii.eqb (lower_ascii c) "s") && Bool.eqb (either c "i" "I") (Ascii.eqb (lower_ascii c) "i")
     && Bool.eqb (either c "c" "C") (Ascii.eqb (lower_ascii c) "c")) ltac:(vm_compute; reflexivity) c) as H.
  cbv beta in H. rewrite !andb_true_iff, !Bool.eqb_true_iff in H. tauto.
Qed.
Definition long_s (s : bytes) : Prop :=
  exists x y, s = x ++ [ch 197; ch 191] ++ y /\ basic_any_case (x ++ "s"%char :: y).

Lemma fold_ic_spec s : fold_ic s = true <-> map lower_ascii s = B"ic".
Proof.
  destruct s as [|i [|c [|]]]; simpl; try (split; discriminate).
  destruct (lower_either i) as (_ & _ & _ & -> & _). destruct (lower_either c) as (_ & _ & _ & _ & ->).
  rewrite andb_true_iff, !Ascii.eqb_eq. split; [intros [-> ->]; reflexivity|intros H; injection H; auto].
Qed.
Lemma equal_fold_spec s : equal_fold_basic s = true <-> basic_any_case s \/ long_s s.
Proof.
  split.
  - destruct s as [|b [|a s]]; simpl; try discriminate.
    destruct (lower_either b) as (-> & _). destruct (lower_either a) as (_ & -> & _).
    rewrite !andb_true_iff, !Ascii.eqb_eq. intros [[Hb Ha] H].
    destruct s as [|c s]; [discriminate|].
    destruct (lower_either c) as (_ & _ & Hc & _). rewrite Hc in H.
    destruct (Ascii.eqb (lower_ascii c) "s") eqn:Es.
    + left. apply Ascii.eqb_eq in Es. apply fold_ic_spec in H. unfold basic_any_case. simpl.
      rewrite Hb, Ha, Es, H. reflexivity.
    + destruct s as [|c2 s]; [discriminate|]. rewrite !andb_true_iff, !Ascii.eqb_eq in H.
      destruct H as [[-> ->] H]. apply fold_ic_spec in H. right. exists [b; a], s. split; [reflexivity|].
      unfold basic_any_case. simpl. rewrite Hb, Ha, H. reflexivity.
  - intros [H|(x & y & -> & H)]; unfold basic_any_case in H.
    + destruct s as [|b [|a [|c s]]]; try discriminate. simpl in H. injection H as Hb Ha Hc H.
      simpl. destruct (lower_either b) as (-> & _). destruct (lower_either a) as (_ & -> & _).
      destruct (lower_either c) as (_ & _ & -> & _). rewrite Hb, Ha, Hc. simpl.
      apply fold_ic_spec. exact H.
    + rewrite map_app in H. cbn [map] in H.
      destruct x as [|b [|a [|c x]]].
      * discriminate.
      * discriminate.
      * simpl in H. injection H as Hb Ha H.
        cbn [equal_fold_basic app].
        destruct (lower_either b) as (-> & _). destruct (lower_either a) as (_ & -> & _).
        rewrite Hb, Ha. change (either (ch 197) "s" "S") with false. rewrite !Ascii.eqb_refl. simpl.
        apply fold_ic_spec. exact H.
      * exfalso. simpl in H. injection H as Hb Ha Hc H.
        (* the 's' put back would have to be one of the letters i, c *)
        destruct x as [|d [|e x]]; simpl in H; try discriminate.
        injection H as _ _ H. destruct x; simpl in H; discriminate.
Qed.
Lemma equal_fold_no_space s : equal_fold_basic s = true -> ~ In " "%char s.
Proof.
  intros H. apply equal_fold_spec in H as [H|(x & y & -> & H)]; unfold basic_any_case in H; intros Hin.
  - assert (I : In (lower_ascii " ") (map lower_ascii s)) by (apply in_map; exact Hin).
    rewrite H in I. vm_compute in I. intuition discriminate.
  - apply in_app_iff in Hin as [Hin|[Hin|[Hin|Hin]]].
    + assert (I : In (lower_ascii " ") (map lower_ascii (x ++ "s"%char :: y))) by (apply in_map, in_app_iff; auto).
      rewrite H in I. vm_compute in I. intuition discriminate.
    + vm_compute in Hin. discriminate.
    + vm_compute in Hin. discriminate.
    + assert (I : In (lower_ascii " ") (map lower_ascii (x ++ "s"%char :: y))).
      { apply in_map, in_app_iff. right. right. exact Hin. }
      rewrite H in I. vm_compute in I. intuition discriminate.
Qed.

(** ** first separator *)
Lemma index_byte_spec c s i : index_byte c s = Some i <->
  i < length s /\ s = firstn i s ++ c :: skipn (S i) s /\ ~ In c (firstn i s).
Proof.
  revert i; induction s as [|x s IH]; intros i; simpl.
  - split; [discriminate|intros [H _]; lia].
  - destruct (Ascii.eqb_spec x c) as [->|N].
    + split.
      * intros H. injection H as <-. simpl. split; [lia|]. split; [reflexivity|tauto].
      * intros (H1 & H2 & H3). destruct i as [|i]; [reflexivity|]. simpl in H3. tauto.
    + destruct (index_byte c s) as [j|] eqn:E.
      * split.
        -- intros H. injection H as <-. destruct (proj1 (IH j) eq_refl) as (I1 & I2 & I3).
           split; [simpl; lia|]. split; [exact (f_equal (cons x) I2)|]. simpl. intros [H|H]; [congruence|tauto].
        -- intros (H1 & H2 & H3). destruct i as [|i]; [simpl in H2; congruence|].
           simpl in H2, H3. injection H2 as H2.
           assert (X : Some j = Some i) by (apply IH; split; [lia|]; split; [exact H2|tauto]). congruence.
      * split; [discriminate|]. intros (H1 & H2 & H3). destruct i as [|i]; [simpl in H2; congruence|].
        simpl in H2, H3. injection H2 as H2.
        assert (X : None = Some i) by (apply IH; split; [lia|]; split; [exact H2|tauto]). congruence.
Qed.
Lemma index_byte_app c u v : ~ In c u -> index_byte c (u ++ c :: v) = Some (length u).
Proof.
  induction u as [|x u IH]; simpl; intros H.
  - rewrite Ascii.eqb_refl. reflexivity.
  - destruct (Ascii.eqb_spec x c) as [E|E]; [tauto|]. rewrite IH by tauto. reflexivity.
Qed.
Lemma split_nonempty c s : split c s <> [].
Proof.
  induction s as [|x s IH]; simpl; [discriminate|].
  destruct (Ascii.eqb x c); [discriminate|]. destruct (split c s); discriminate.
Qed.
Lemma split_head c s : exists w ws, split c s = w :: ws /\ ~ In c w /\
  (ws = [] /\ s = w \/ exists s', s = w ++ c :: s' /\ ws = split c s').
Proof.
  induction s as [|x s IH]; simpl.
  - exists [], []. auto.
  - destruct (Ascii.eqb_spec x c) as [->|N].
    + exists [], (split c s). split; [reflexivity|]. split; [tauto|]. right. exists s. auto.
    + destruct IH as (w & ws & -> & H1 & H2). exists (x :: w), ws. split; [reflexivity|].
      split; [intros [H|H]; [congruence|tauto]|].
      destruct H2 as [[-> ->]|(s' & -> & ->)]; [left; auto|right; exists s'; auto].
Qed.
Lemma upto_colon_head p : upto_colon p = hd [] (split ":" p).
Proof.
  induction p as [|c p IH]; simpl; [reflexivity|].
  destruct (Ascii.eqb c ":"); [reflexivity|]. rewrite IH.
  destruct (split ":" p) as [|w ws] eqn:E; [exfalso; exact (split_nonempty _ _ E)|reflexivity].
Qed.
Lemma upto_colon_id p : ~ In ":"%char p -> upto_colon p = p.
Proof.
  induction p as [|c p IH]; simpl; [reflexivity|]. intros H.
  destruct (Ascii.eqb_spec c ":") as [E|E]; [tauto|]. rewrite IH by tauto. reflexivity.
Qed.
Lemma upto_colon_no p : ~ In ":"%char (upto_colon p).
Proof.
  induction p as [|c p IH]; simpl; [tauto|].
  destruct (Ascii.eqb_spec c ":") as [E|E]; simpl; [tauto|]. intros [H|H]; [congruence|tauto].
Qed.

(** ** getUserPassword *)
Lemma get_carries uni auth user pw : carries auth user pw ->
  get_user_password uni auth = (to_lower uni user, upto_colon pw).
Proof.
  intros [(scheme & token & -> & Hs & Hd) Hn]. unfold get_user_password.
  assert (Es : equal_fold_basic scheme = true) by (apply equal_fold_spec; exact Hs).
  rewrite index_byte_app by (apply equal_fold_no_space; exact Es).
  rewrite firstn_app, Nat.sub_diag, firstn_all. cbn [firstn]. rewrite app_nil_r, Es. cbn [negb].
  replace (skipn (S (length scheme)) (scheme ++ " "%char :: token)) with token.
  2: { clear. induction scheme as [|x s IH]; [reflexivity|exact IH]. }
  apply b64_decode_iff in Hd. rewrite Hd. destruct (split_head ":" (user ++ ":"%char :: pw)) as (w & ws & E & Hw & H).
  assert (Hs' : split ":" (user ++ ":"%char :: pw) = user :: split ":" pw).
  { clear - Hn. induction user as [|x u IH]; [reflexivity|].
    cbn [app split]. destruct (Ascii.eqb_spec x ":") as [E|E]; [exfalso; apply Hn; left; congruence|].
    rewrite IH by (intros I; apply Hn; right; exact I). reflexivity. }
  rewrite Hs'. rewrite upto_colon_head.
  destruct (split ":" pw) as [|c1 r] eqn:Ep; [exfalso; exact (split_nonempty _ _ Ep)|reflexivity].
Qed.
Lemma get_inv uni auth u p : get_user_password uni auth = (u, p) -> u <> [] ->
  exists user pw, carries auth user pw /\ u = to_lower uni user /\ p = upto_colon pw.
Proof.
  unfold get_user_password. intros H N.
  destruct (index_byte " " auth) as [i|] eqn:Ei; [|congruence].
  destruct (equal_fold_basic (firstn i auth)) eqn:Ef; [|cbn in H; congruence]. cbn [negb] in H.
  destruct (b64_decode (skipn (S i) auth)) as [d|] eqn:Ed; [|congruence].
  destruct (split_head ":" d) as (w & ws & Es & Hw & Hd). rewrite Es in H.
  destruct Hd as [[-> ->]|(s' & -> & ->)]; [congruence|].
  destruct (split ":" s') as [|c1 r] eqn:E1; [congruence|]. injection H as <- <-.
  exists w, s'. split; [|split; [reflexivity|rewrite upto_colon_head, E1; reflexivity]].
  split; [|exact Hw]. exists (firstn i auth), (skipn (S i) auth).
  apply index_byte_spec in Ei as (I1 & I2 & I3). split; [exact I2|].
  split; [apply equal_fold_spec; exact Ef|apply b64_decode_iff; exact Ed].
Qed.
Lemma check_eq uni h rq : a_use h = true -> log_ok h ->
  snd (check uni h rq) = Ok
   (let '(u, p) := get_user_password uni (rq_auth rq) in
    negb (is_empty u) && beq (match aget u (a_roles h) with Some x => x | None => [] end) p).
Proof.
  intros U L. unfold check. rewrite U. cbn [negb].
  destruct (get_user_password uni (rq_auth rq)) as [u p].
  assert (E : a_use_log h && a_log_nil h = false).
  { unfold log_ok in L. destruct (a_use_log h); [rewrite L by reflexivity|]; reflexivity. }
  rewrite E. destruct (negb (is_empty u) && _); reflexivity.
Qed.
Lemma check_admit_log uni h rq : a_use h = true -> admitted uni h rq -> log_ok h.
Proof.
  unfold admitted, check, log_ok. intros U H L. rewrite U in H. cbn [negb] in H.
  destruct (get_user_password uni (rq_auth rq)) as [u p]. rewrite L in H.
  destruct (a_log_nil h); [discriminate|reflexivity].
Qed.
