(** Environment model: Go's int64 arithmetic and the decimal conversions of
    package strconv.  Not code of /repo. *)
From Verif Require Import Base.
From Coq Require Import ZifyNat ZifyN.
Local Open Scope Z_scope.

(** int64 values are integers in [-2^63, 2^63); arithmetic wraps around. *)
Definition two63 : Z := 9223372036854775808.
Definition two64 : Z := 18446744073709551616.
Definition wrap64 (z : Z) : Z := (z + two63) mod two64 - two63.
Definition int64 (z : Z) : Prop := - two63 <= z < two63.

Lemma wrap64_id z : int64 z -> wrap64 z = z.
Proof.
  unfold int64, wrap64, two63, two64. intros H. rewrite Z.mod_small; lia.
Qed.
Lemma wrap64_int64 z : int64 (wrap64 z).
Proof.
  unfold int64, wrap64, two63, two64.
  pose proof (Z.mod_pos_bound (z + 9223372036854775808) 18446744073709551616 ltac:(lia)). lia.
Qed.

(** A decimal digit and its value. *)
Definition digit_of (n : N) : ascii := ch (48 + n).
Definition digit_val (c : ascii) : option Z :=
  if ((48 <=? bv c) && (bv c <=? 57))%N then Some (Z.of_N (bv c) - 48) else None.

(** strconv.ParseUint(s, 10, 64) without the size check: the digits' value *)
Fixpoint digits_val (acc : Z) (s : bytes) : option Z :=
  match s with
  | [] => Some acc
  | c :: s' => match digit_val c with
               | Some d => digits_val (acc * 10 + d) s'
               | None => None
               end
  end.
(** strconv.ParseInt(s, 10, 64); None is any error (syntax, range) *)
Definition parse_int (s : bytes) : option Z :=
  match s with
  | [] => None
  | c :: s' =>
      let '(neg, ds) := if Ascii.eqb c "+" then (false, s')
                        else if Ascii.eqb c "-" then (true, s') else (false, s) in
      match ds with
      | [] => None
      | _ => match digits_val 0 ds with
             | None => None
             | Some v => if neg then (if v <=? two63 then Some (- v) else None)
                         else (if v <? two63 then Some v else None)
             end
      end
  end.

(** strconv.FormatInt(z, 10) *)
Fixpoint dec_digits (fuel : nat) (n : N) (acc : bytes) : bytes :=
  match fuel with
  | O => acc
  | S f => if (n <? 10)%N then digit_of n :: acc
           else dec_digits f (n / 10)%N (digit_of (n mod 10)%N :: acc)
  end.
Definition fmt_nat (n : N) : bytes := dec_digits (S (N.size_nat n)) n [].
Definition fmt_int (z : Z) : bytes :=
  if z <? 0 then "-"%char :: fmt_nat (Z.to_N (- z)) else fmt_nat (Z.to_N z).

(** ** Facts *)
Definition all_digits (s : bytes) : Prop := Forall (fun c => digit_val c <> None) s.

Lemma digit_of_val n : (n < 10)%N -> digit_val (digit_of n) = Some (Z.of_N n).
Proof.
  intros H. unfold digit_val, digit_of, ch, bv. rewrite N_ascii_embedding by lia.
  assert (E : ((48 <=? 48 + n) && (48 + n <=? 57))%N = true).
  { rewrite andb_true_iff. split; apply N.leb_le; lia. }
  rewrite E. f_equal. lia.
Qed.
Lemma digits_val_app s t acc :
  digits_val acc (s ++ t) = match digits_val acc s with Some v => digits_val v t | None => None end.
Proof.
  revert acc; induction s as [|c s IH]; intros acc; simpl; [reflexivity|].
  destruct (digit_val c); [apply IH|reflexivity].
Qed.
Lemma digit_val_bounds c d : digit_val c = Some d -> 0 <= d <= 9.
Proof.
  unfold digit_val. destruct (_ && _)%bool eqn:E; [|discriminate]. intros H; injection H as <-.
  apply andb_true_iff in E as [E1 E2]. apply N.leb_le in E1, E2. lia.
Qed.
Lemma digits_val_some s acc : all_digits s -> exists v, digits_val acc s = Some v.
Proof.
  intros H; revert acc; induction H as [|c s Hc _ IH]; intros acc; simpl; [eauto|].
  destruct (digit_val c); [apply IH|congruence].
Qed.
Lemma digits_val_digits s : forall acc v, digits_val acc s = Some v -> all_digits s.
Proof.
  induction s as [|c s IH]; intros acc v H; [constructor|]. simpl in H.
  destruct (digit_val c) eqn:E; [|discriminate]. constructor; [congruence|eapply IH; exact H].
Qed.
Lemma digits_val_nonneg s : forall acc v, 0 <= acc -> digits_val acc s = Some v -> 0 <= v.
Proof.
  induction s as [|c s IH]; intros acc v Ha H; simpl in H; [congruence|].
  destruct (digit_val c) eqn:E; [|discriminate]. apply digit_val_bounds in E.
  eapply IH; [|exact H]. lia.
Qed.
Lemma dec_digits_app fuel : forall n acc, dec_digits fuel n acc = dec_digits fuel n [] ++ acc.
Proof.
  induction fuel as [|f IH]; intros n acc; simpl; [reflexivity|].
  destruct (n <? 10)%N; [reflexivity|].
  rewrite IH. rewrite (IH _ [digit_of (n mod 10)%N]). rewrite <- app_assoc. reflexivity.
Qed.
Lemma dec_digits_val fuel : forall n, (n < 2 ^ N.of_nat fuel)%N ->
  digits_val 0 (dec_digits fuel n []) = Some (Z.of_N n) /\ (fuel <> O -> dec_digits fuel n [] <> []).
Proof.
  induction fuel as [|f IH]; intros n H.
  - simpl in *. assert (n = 0)%N by lia. subst. split; [reflexivity|congruence].
  - cbn [dec_digits]. destruct (N.ltb_spec n 10) as [L|L].
    + split; [|discriminate]. simpl. rewrite digit_of_val by assumption. f_equal.
    + rewrite dec_digits_app. split.
      * rewrite digits_val_app.
        assert (Hq : (n / 10 < 2 ^ N.of_nat f)%N).
        { apply N.div_lt_upper_bound; [lia|]. rewrite Nat2N.inj_succ, N.pow_succ_r' in H. lia. }
        destruct (IH _ Hq) as [-> _]. cbn [digits_val].
        rewrite digit_of_val by (apply N.mod_lt; lia). f_equal.
        pose proof (N.div_mod n 10 ltac:(lia)). lia.
      * intros _ X. apply app_eq_nil in X as [_ X]. discriminate.
Qed.
Lemma size_nat_bound n : (n < 2 ^ N.of_nat (S (N.size_nat n)))%N.
Proof.
  assert (E : N.of_nat (N.size_nat n) = N.size n).
  { destruct n as [|p]; [reflexivity|]. simpl. induction p as [p IH|p IH|]; simpl; try lia; reflexivity. }
  rewrite Nat2N.inj_succ, E, N.pow_succ_r'.
  pose proof (N.size_gt n). lia.
Qed.
Lemma fmt_nat_val n : digits_val 0 (fmt_nat n) = Some (Z.of_N n).
Proof. apply dec_digits_val, size_nat_bound. Qed.
Lemma fmt_nat_nonempty n : fmt_nat n <> [].
Proof. apply (dec_digits_val (S (N.size_nat n)) n (size_nat_bound n)). discriminate. Qed.

Lemma digit_not_sign c : digit_val c <> None -> Ascii.eqb c "+" = false /\ Ascii.eqb c "-" = false.
Proof.
  intros H. split; apply Ascii.eqb_neq; intros ->; apply H; reflexivity.
Qed.
(** a non-empty string of digits whose value fits parses to its value *)
Lemma parse_int_digits s v : s <> [] -> digits_val 0 s = Some v -> v < two63 -> parse_int s = Some v.
Proof.
  intros Hs Hv Hb. destruct s as [|c s]; [congruence|]. unfold parse_int.
  pose proof (digits_val_digits _ _ _ Hv) as D. inversion D as [|? ? Dc Ds]; subst.
  destruct (digit_not_sign c Dc) as [-> ->]. rewrite Hv.
  rewrite (proj2 (Z.ltb_lt v two63) Hb). reflexivity.
Qed.
Lemma parse_int_fmt z : 0 <= z < two63 -> parse_int (fmt_int z) = Some z.
Proof.
  intros H. unfold fmt_int. rewrite (proj2 (Z.ltb_ge z 0)) by lia.
  apply parse_int_digits; [apply fmt_nat_nonempty| |lia].
  rewrite fmt_nat_val. f_equal. lia.
Qed.
Lemma parse_int_int64 s v : parse_int s = Some v -> int64 v.
Proof.
  unfold parse_int, int64. destruct s as [|c s]; [discriminate|].
  destruct (Ascii.eqb c "+"); [|destruct (Ascii.eqb c "-")].
  - destruct s; [discriminate|]. destruct (digits_val 0 _) eqn:E; [|discriminate].
    destruct (Z.ltb_spec z two63); [|discriminate]. intros X; injection X as <-.
    apply digits_val_nonneg in E; unfold two63 in *; lia.
  - destruct s; [discriminate|]. destruct (digits_val 0 _) eqn:E; [|discriminate].
    destruct (Z.leb_spec z two63); [|discriminate]. intros X; injection X as <-.
    apply digits_val_nonneg in E; unfold two63 in *; lia.
  - destruct (digits_val 0 _) eqn:E; [|discriminate].
    destruct (Z.ltb_spec z two63); [|discriminate]. intros X; injection X as <-.
    apply digits_val_nonneg in E; unfold two63 in *; lia.
Qed.
