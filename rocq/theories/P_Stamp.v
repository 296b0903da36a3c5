(** Proofs about the texts of time stamps. *)
From Verif Require Import Base GoStrings GoInt GoTime M_Logger M_Stamp S_Date S_Stamp P_Date P_Date2.
From Coq Require Import ZifyNat ZifyN ZifyBool.
Ltac Zify.zify_post_hook ::= Z.to_euclidean_division_equations.
Local Open Scope Z_scope.

(** ** digits *)
Lemma dec_fuel f : forall f' n, (n < 2 ^ N.of_nat f)%N -> (n < 2 ^ N.of_nat f')%N -> (0 < f)%nat -> (0 < f')%nat -> dec_digits f n [] = dec_digits f' n [].
Proof.
  induction f as [|f IH]; intros [|f'] n H H' F F'; try lia. cbn [dec_digits].
  destruct (n <? 10)%N eqn:E; [reflexivity|]. rewrite dec_digits_app, (dec_digits_app f').
  rewrite Nat2N.inj_succ, N.pow_succ_r' in H, H'.
  assert (f <> 0 /\ f' <> 0)%nat as [F1 F2] by (split; intros ->; cbn in H, H'; lia).
  rewrite (IH f' (n / 10)%N); [reflexivity|lia..].
Qed.
Lemma fmt_digit a b : (0 < a)%N -> (b < 10)%N -> fmt_nat (10 * a + b) = fmt_nat a ++ [digit_of b].
Proof.
  intros Ha Hb. unfold fmt_nat. set (n := (10 * a + b)%N). pose proof (size_nat_bound n) as S1. pose proof (size_nat_bound a) as S2.
  remember (S (N.size_nat a)) as fa. assert (0 < fa)%nat by lia. remember (N.size_nat n) as f. clear Heqf Heqfa.
  cbn [dec_digits]. replace (n <? 10)%N with false by lia. rewrite dec_digits_app. rewrite Nat2N.inj_succ, N.pow_succ_r' in S1.
  replace (n / 10)%N with a by lia. replace (n mod 10)%N with b by lia. f_equal.
  apply dec_fuel; try lia. destruct f; [cbn in S1|]; lia.
Qed.
Lemma append_digit a b w : 0 <= a -> 0 <= b <= 9 -> append_int (10 * a + b) (S (S w)) = append_int a (S w) ++ [num b].
Proof.
  intros Ha Hb. unfold append_int. cbv zeta. replace (10 * a + b <? 0) with false by lia. replace (a <? 0) with false by lia. cbn [app].
  replace (Z.to_N (Z.abs (10 * a + b))) with (10 * Z.to_N a + Z.to_N b)%N by lia. replace (Z.to_N (Z.abs a)) with (Z.to_N a) by lia.
  destruct (Z.eq_dec a 0) as [->|N].
  - change (Z.to_N 0) with 0%N. rewrite N.mul_0_r, N.add_0_l. assert (E : fmt_nat (Z.to_N b) = [num b]).
    { assert (X : beq (fmt_nat (Z.to_N b)) [num b] = true) by (apply (small_cases (fun b => beq (fmt_nat (Z.to_N b)) [num b]) 10); [vm_compute; reflexivity|lia]).
      apply beq_eq, X. }
    rewrite E. change (fmt_nat 0) with (B"0"). cbn [length]. change (B"0") with (repeat "0"%char 1). rewrite <- repeat_app. f_equal. f_equal. cbn [length repeat]. lia.
  - rewrite fmt_digit by lia. rewrite app_length. cbn [length]. rewrite app_assoc. change (digit_of (Z.to_N b)) with (num b).
    replace (S (S w) - (length (fmt_nat (Z.to_N a)) + 1))%nat with (S w - length (fmt_nat (Z.to_N a)))%nat by lia. reflexivity.
Qed.
Definition three (ms : Z) : bytes := [num (ms / 100); num (ms / 10 mod 10); num (ms mod 10)].
Lemma write_three x : 0 <= x < 1000 -> append_int x 3 = three x.
Proof. intros H. apply beq_eq. apply (small_cases (fun x => beq (append_int x 3) (three x)) 1000); [vm_compute; reflexivity|lia]. Qed.
Lemma append_div n w : 0 <= n -> append_int n (S (S w)) = append_int (n / 10) (S w) ++ [num (n mod 10)].
Proof. intros H. rewrite <- append_digit by lia. f_equal. lia. Qed.
Lemma first_three ns : 0 <= ns < 1000000000 -> firstn 3 (append_int ns 9) = three (ns / 1000000).
Proof.
  intros H. do 6 (rewrite append_div by lia). repeat rewrite <- app_assoc.
  replace (ns / 10 / 10 / 10 / 10 / 10 / 10) with (ns / 1000000) by lia. rewrite write_three by lia. reflexivity.
Qed.
Lemma nano_text ns : 0 <= ns < 1000000000 -> fraction (ns / 1000000) (append_nano3 ns).
Proof.
  intros H. unfold append_nano3. destruct (ns =? 0) eqn:E.
  { replace ns with 0 by lia. constructor. }
  rewrite first_three by exact H. set (ms := ns / 1000000). assert (Hm : 0 <= ms < 1000) by lia. clearbody ms. clear H E ns.
  assert (Z0 : forall a, 0 <= a <= 9 -> Ascii.eqb (num a) "0" = (a =? 0)).
  { intros a Ha. apply Bool.eqb_prop. apply (small_cases (fun a => Bool.eqb (Ascii.eqb (num a) "0") (a =? 0)) 10); [vm_compute; reflexivity|lia]. }
  unfold three. cbn [trim_zeros]. rewrite !Z0 by lia.
  destruct (ms mod 10 =? 0) eqn:E1.
  - destruct (ms / 10 mod 10 =? 0) eqn:E2.
    + destruct (ms / 100 =? 0) eqn:E3.
      * replace ms with 0 by lia. constructor.
      * replace ms with (100 * (ms / 100)) at 1 by lia. constructor. lia.
    + replace ms with (100 * (ms / 100) + 10 * (ms / 10 mod 10)) at 1 by lia. constructor; lia.
  - replace ms with (100 * (ms / 100) + 10 * (ms / 10 mod 10) + ms mod 10) at 1 by lia. constructor; lia.
Qed.

(** ** what is written *)
Lemma date_valid f n : calendar f -> valid (tup (f n)) = true.
Proof. intros Cf. rewrite (cal_unique f Cf), tup_cal. pose proof (date_of_facts n) as F. cbv zeta in F. destruct (date_of n) as [[y m] d]. exact (proj1 F). Qed.
Lemma date_fields f n : calendar f -> 1 <= month (f n) <= 12 /\ 1 <= day (f n) <= 31.
Proof.
  intros Cf. pose proof (date_valid f n Cf) as V. unfold valid, tup in V. pose proof (days_in_bounds (month (f n)) (year (f n)) ltac:(lia)). lia.
Qed.
Lemma stamp_names f off t n c : calendar f -> at_ f (t + off * 1000000000) n (f n) c -> 0 <= year (f n) <= 9999 -> names f (timestamp off t) (t + off * 1000000000).
Proof.
  intros Cf A Y. pose proof A as (_ & (Hh & Hm & Hs) & T). exists n, c, (t mod 1000000000 / 1000000), (append_nano3 (t mod 1000000000)).
  split; [exact A|]. split; [exact Y|]. split; [lia|]. split; [apply nano_text; lia|].
  unfold timestamp, default_timestamp_format, go_format. rewrite beq_refl. cbv zeta.
  assert (En : (t / 1000000000 + off) / 86400 = n) by lia.
  assert (Er : (t / 1000000000 + off) mod 86400 = hour c * 3600 + minute c * 60 + second c) by lia. rewrite En, Er.
  pose proof (tup_cal n) as Ed. rewrite <- (cal_unique f Cf) in Ed. rewrite <- Ed. unfold tup. pose proof (date_fields f n Cf) as [M D].
  rewrite (write_two (day (f n))) by lia. rewrite (write_four (year (f n))) by lia. rewrite (write_two (month (f n))) by lia.
  replace ((hour c * 3600 + minute c * 60 + second c) / 3600) with (hour c) by lia.
  replace ((hour c * 3600 + minute c * 60 + second c) mod 3600 / 60) with (minute c) by lia.
  replace ((hour c * 3600 + minute c * 60 + second c) mod 60) with (second c) by lia.
  rewrite !write_two by lia. unfold rfc3339, time_of_day. rewrite <- !app_assoc. reflexivity.
Qed.

(** ** unique reading *)
Lemma num_inj a b : 0 <= a <= 9 -> 0 <= b <= 9 -> num a = num b -> a = b.
Proof. intros Ha Hb E. pose proof (num_val a Ha) as X. rewrite E, (num_val b Hb) in X. injection X as ->. reflexivity. Qed.
Lemma two_inj a b r r' : 0 <= a <= 99 -> 0 <= b <= 99 -> two a ++ r = two b ++ r' -> a = b /\ r = r'.
Proof. intros Ha Hb E. unfold two in E. cbn [app] in E. injection E as E1 E2 E3. apply num_inj in E1; [|lia..]. apply num_inj in E2; [|lia..]. split; [lia|exact E3]. Qed.
Lemma four_inj a b r r' : 0 <= a <= 9999 -> 0 <= b <= 9999 -> four a ++ r = four b ++ r' -> a = b /\ r = r'.
Proof.
  intros Ha Hb E. unfold four in E. cbn [app] in E. injection E as E1 E2 E3 E4 E5.
  apply num_inj in E1; [|lia..]. apply num_inj in E2; [|lia..]. apply num_inj in E3; [|lia..]. apply num_inj in E4; [|lia..]. split; [lia|exact E5].
Qed.
Lemma num_not_Z a : 0 <= a <= 9 -> num a <> "Z"%char.
Proof. intros H E. pose proof (num_val a H) as X. rewrite E in X. discriminate X. Qed.
Lemma fraction_inj a b s s' : fraction a s -> fraction b s' -> s ++ B"Z" = s' ++ B"Z" -> a = b.
Proof.
  intros Fa Fb E. destruct Fa, Fb; cbn in E; try discriminate E; try reflexivity; injection E; intros;
  repeat match goal with H : num _ = num _ |- _ => apply num_inj in H; [|lia..] end;
  try (match goal with H : num ?a = "Z"%char |- _ => exfalso; apply (num_not_Z a); [lia|exact H] | H : "Z"%char = num ?a |- _ => exfalso; apply (num_not_Z a); [lia|symmetry; exact H] end);
  try discriminate; subst; lia.
Qed.
Lemma names_unique f s t t' : calendar f -> names f s t -> names f s t' -> t / 1000000 = t' / 1000000.
Proof.
  intros Cf (n & c & ms & fr & (_ & (Hh & Hm & Hs) & T) & Y & E & F & ->) (n' & c' & ms' & fr' & (_ & (Hh' & Hm' & Hs') & T') & Y' & E' & F' & X).
  pose proof (date_fields f n Cf) as [M D]. pose proof (date_fields f n' Cf) as [M' D'].
  unfold rfc3339, time_of_day in X. repeat rewrite <- app_assoc in X.
  apply four_inj in X as [X1 X]; [|lia..]. apply app_inv_head in X. apply two_inj in X as [X2 X]; [|lia..]. apply app_inv_head in X. apply two_inj in X as [X3 X]; [|lia..].
  apply app_inv_head in X. apply two_inj in X as [X4 X]; [|lia..]. apply app_inv_head in X. apply two_inj in X as [X5 X]; [|lia..].
  apply app_inv_head in X. apply two_inj in X as [X6 X]; [|lia..]. apply (fraction_inj _ _ _ _ F F') in X.
  assert (En : n = n').
  { assert (Q : tup (f n) = tup (f n')) by (unfold tup; congruence). rewrite !(cal_unique f Cf), !tup_cal in Q.
    pose proof (date_of_facts n) as G1. pose proof (date_of_facts n') as G2. cbv zeta in G1, G2. rewrite Q in G1.
    destruct (date_of n') as [[y m] d]. destruct G1 as (_ & _ & G1), G2 as (_ & _ & G2). congruence. }
  subst n'. lia.
Qed.

(** ** order *)
Definition lt3 (a b : Z * Z * Z) : Prop :=
  let '(y, m, d) := a in let '(y', m', d') := b in y < y' \/ y = y' /\ (m < m' \/ m = m' /\ d < d').
Lemma date_of_next n : lt3 (date_of n) (date_of (n + 1)).
Proof.
  pose proof (date_of_facts n) as F. cbv zeta in F. destruct (date_of n) as [[y m] d]. destruct F as (V & -> & _). unfold step, valid in *.
  destruct (d <? days_in m y); [cbn; lia|]. destruct (m <? 12); cbn; lia.
Qed.
Lemma date_of_later n n' : n < n' -> lt3 (date_of n) (date_of n').
Proof.
  intros H. replace n' with (n + 1 + Z.of_nat (Z.to_nat (n' - n - 1))) by lia. generalize (Z.to_nat (n' - n - 1)). clear H n'. intros k.
  induction k as [|k IH]; [rewrite Z.add_0_r; apply date_of_next|].
  replace (n + 1 + Z.of_nat (S k)) with (n + 1 + Z.of_nat k + 1) by lia. pose proof (date_of_next (n + 1 + Z.of_nat k)) as N.
  destruct (date_of n) as [[y m] d], (date_of (n + 1 + Z.of_nat k)) as [[y1 m1] d1], (date_of (n + 1 + Z.of_nat k + 1)) as [[y2 m2] d2]. unfold lt3 in *. lia.
Qed.
Lemma sorts_app p s s' : sorts_before s s' -> sorts_before (p ++ s) (p ++ s').
Proof. intros H. induction p as [|a p IH]; [exact H|]. cbn [app]. apply B_same. exact IH. Qed.
Lemma num_less a b : 0 <= a <= 9 -> 0 <= b <= 9 -> a < b -> (bv (num a) < bv (num b))%N.
Proof. intros Ha Hb L. unfold num, bv, ch. rewrite !N_ascii_embedding by lia. lia. Qed.
Lemma sorts_num a b r r' : 0 <= a <= 9 -> 0 <= b <= 9 -> a < b \/ a = b /\ sorts_before r r' -> sorts_before (num a :: r) (num b :: r').
Proof. intros Ha Hb [L|[-> S]]; [apply B_less, num_less; assumption|apply B_same, S]. Qed.
Lemma sorts_two a b r r' : 0 <= a <= 99 -> 0 <= b <= 99 -> a < b \/ a = b /\ sorts_before r r' -> sorts_before (two a ++ r) (two b ++ r').
Proof.
  intros Ha Hb H. unfold two. cbn [app]. apply sorts_num; [lia..|]. destruct (Z.eq_dec (a / 10) (b / 10)) as [E|N]; [|left; destruct H as [H|[H _]]; lia].
  right. split; [exact E|]. apply sorts_num; [lia..|]. destruct H as [H|[H R]]; [left|right; split; [|exact R]]; lia.
Qed.
Lemma sorts_four a b r r' : 0 <= a <= 9999 -> 0 <= b <= 9999 -> a < b \/ a = b /\ sorts_before r r' -> sorts_before (four a ++ r) (four b ++ r').
Proof.
  intros Ha Hb H.
  assert (E4 : forall x r, 0 <= x <= 9999 -> four x ++ r = two (x / 100) ++ two (x mod 100) ++ r).
  { intros x q Hx. unfold four, two. cbn [app]. replace (x / 100 / 10) with (x / 1000) by lia. replace (x mod 100 / 10) with (x / 10 mod 10) by lia.
    replace (x mod 100 mod 10) with (x mod 10) by lia. reflexivity. }
  rewrite !E4 by lia. apply sorts_two; [lia..|]. destruct (Z.eq_dec (a / 100) (b / 100)) as [E|N]; [|left; destruct H as [H|[H _]]; lia].
  right. split; [exact E|]. apply sorts_two; [lia..|]. destruct H as [H|[H R]]; [left|right; split; [|exact R]]; lia.
Qed.
Lemma names_sorted f s s' t t' : calendar f -> names f s t -> names f s' t' -> t / 1000000000 < t' / 1000000000 -> sorts_before s s'.
Proof.
  intros Cf (n & c & ms & fr & (_ & (Hh & Hm & Hs) & T) & Y & E & F & ->) (n' & c' & ms' & fr' & (_ & (Hh' & Hm' & Hs') & T') & Y' & E' & F' & ->) L.
  pose proof (date_fields f n Cf) as [M D]. pose proof (date_fields f n' Cf) as [M' D'].
  unfold rfc3339, time_of_day. repeat rewrite <- app_assoc.
  assert (O : n < n' \/ n = n' /\ (hour c < hour c' \/ hour c = hour c' /\ (minute c < minute c' \/ minute c = minute c' /\ second c < second c'))) by lia.
  destruct O as [O|[<- O]].
  - pose proof (date_of_later n n' O) as L3. rewrite <- !tup_cal, <- !(cal_unique f Cf) in L3. unfold tup, lt3 in L3.
    apply sorts_four; [lia..|]. destruct L3 as [L3|[L1 L3]]; [auto|]. right. split; [exact L1|]. apply sorts_app.
    apply sorts_two; [lia..|]. destruct L3 as [L3|[L2 L3]]; [auto|]. right. split; [exact L2|]. apply sorts_app. apply sorts_two; [lia..|]. auto.
  - do 3 (apply sorts_app, sorts_app). apply sorts_two; [lia..|]. destruct O as [O|[O1 O]]; [auto|]. right. split; [exact O1|]. apply sorts_app.
    apply sorts_two; [lia..|]. destruct O as [O|[O2 O]]; [auto|]. right. split; [exact O2|]. apply sorts_app. apply sorts_two; [lia..|]. auto.
Qed.
