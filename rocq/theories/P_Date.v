(** Proofs about dates. *)
From Verif Require Import Base GoInt GoTime S_Date.
From Coq Require Import ZifyNat ZifyN ZifyBool.
Ltac Zify.zify_post_hook ::= Z.to_euclidean_division_equations.
Local Open Scope Z_scope.

(** ** the calendar *)
Lemma leap_iff y : leap y = true <-> leap_year y.
Proof.
  unfold leap, leap_year. rewrite <- !Z.mod_divide by lia.
  destruct (y mod 4 =? 0) eqn:A, (y mod 100 =? 0) eqn:C, (y mod 400 =? 0) eqn:D; cbn [andb orb negb]; lia.
Qed.
Definition step (x : Z * Z * Z) : Z * Z * Z :=
  let '(y, m, d) := x in
  if d <? days_in m y then (y, m, d + 1) else if m <? 12 then (y, m + 1, 1) else (y + 1, 1, 1).
Definition valid (x : Z * Z * Z) : bool := let '(y, m, d) := x in (1 <=? m) && (m <=? 12) && (1 <=? d) && (d <=? days_in m y).

Definition dby (y : Z) : Z := 365 * (y - 1) + (y - 1) / 4 - (y - 1) / 100 + (y - 1) / 400.
Definition len (y : Z) : Z := if leap y then 366 else 365.
Lemma dby_next y : dby (y + 1) = dby y + len y.
Proof.
  unfold dby, len, leap. replace (y + 1 - 1) with y by lia.
  destruct (y mod 4 =? 0) eqn:A, (y mod 100 =? 0) eqn:C, (y mod 400 =? 0) eqn:D; cbn [andb orb negb]; lia.
Qed.
Lemma dby_mono y y' : y < y' -> dby y + len y <= dby y'.
Proof. intros H. rewrite <- dby_next. unfold dby. lia. Qed.
Lemma uniq y d y' d' : dby y + d = dby y' + d' -> 0 <= d < len y -> 0 <= d' < len y' -> y = y' /\ d = d'.
Proof.
  intros E H H'. destruct (Z.lt_trichotomy y y') as [L|[->|L]]; [pose proof (dby_mono _ _ L); lia|lia|pose proof (dby_mono _ _ L); lia].
Qed.
(** month and day of the day [d] of a year *)
Definition md (lp : bool) (d : Z) : Z * Z :=
  if lp && (d =? 59) then (2, 29)
  else
    let d := if lp && (59 <? d) then d - 1 else d in
    let m := d / 31 in
    let '(m, begin) := if before (m + 1) <=? d then (m + 1, before (m + 1)) else (m, before m) in
    (m + 1, d - begin + 1).
Lemma split n : exists y d, date_of n = (let '(m, e) := md (leap y) d in (y, m, e)) /\ n + epoch_days = dby y + d /\ 0 <= d < len y.
Proof.
  unfold date_of. cbv zeta. assert (Ha : n + epoch_days = 146097 * ((n + epoch_days) / 146097) + (n + epoch_days) mod 146097) by lia.
  assert (Hr : 0 <= (n + epoch_days) mod 146097 < 146097) by lia.
  set (k := (n + epoch_days) / 146097) in *. set (r := (n + epoch_days) mod 146097) in *. clearbody k r.
  set (c := r / 36524 - r / 36524 / 4). assert (Hc : 0 <= c <= 3) by (unfold c; lia).
  assert (Hd1 : 0 <= r - 36524 * c <= 36524 /\ (c < 3 -> r - 36524 * c < 36524)) by (unfold c; lia).
  set (d1 := r - 36524 * c) in *. set (q := d1 / 1461). assert (Hq : 0 <= q <= 24) by (unfold q; lia).
  assert (Hd2 : 0 <= d1 - 1461 * q < 1461 /\ (q = 24 -> d1 - 1461 * q <= 1460)  /\ (q = 24 -> c < 3 -> d1 - 1461 * q < 1460)) by (unfold q; lia).
  set (d2 := d1 - 1461 * q) in *. set (u := d2 / 365 - d2 / 365 / 4). assert (Hu : 0 <= u <= 3) by (unfold u; lia).
  assert (Hd : 0 <= d2 - 365 * u <= 365 /\ (d2 - 365 * u = 365 -> u = 3 /\ d2 = 1460)) by (unfold u; lia).
  set (d := d2 - 365 * u) in *. set (y := 1 + 400 * k + 100 * c + 4 * q + u).
  exists y, d. split; [|split].
  - unfold md. destruct (leap y && (d =? 59)); [reflexivity|]. cbv zeta. match goal with |- context [let '(m, begin) := ?e in _] => destruct e end. reflexivity.
  - unfold dby, y. replace (1 + 400 * k + 100 * c + 4 * q + u - 1) with (400 * k + 100 * c + 4 * q + u) by lia.
    assert ((400 * k + 100 * c + 4 * q + u) / 4 = 100 * k + 25 * c + q) by lia. assert ((400 * k + 100 * c + 4 * q + u) / 100 = 4 * k + c) by lia.
    assert ((400 * k + 100 * c + 4 * q + u) / 400 = k) by lia. unfold d, d2, d1. lia.
  - split; [lia|]. unfold len. assert (X : d = 365 -> leap y = true).
    { intros E. destruct Hd as [_ Hd]. destruct (Hd E) as [E3 E2]. unfold leap.
      assert (y mod 4 = 0) by (unfold y; lia). assert (q = 24 -> c = 3) by lia.
      destruct (Z.eq_dec q 24) as [Q|Q].
      - assert (y mod 400 = 0) by (unfold y; lia). lia.
      - assert (y mod 100 <> 0) by (unfold y; lia). lia. }
    destruct (leap y) eqn:L; [lia|]. destruct (Z.eq_dec d 365) as [E|E]; [discriminate (X E)|lia].
Qed.
Lemma date_of_at n y d : n + epoch_days = dby y + d -> 0 <= d < len y -> date_of n = (let '(m, e) := md (leap y) d in (y, m, e)).
Proof. intros E H. destruct (split n) as (y' & d' & -> & E' & H'). destruct (uniq y d y' d') as [<- <-]; [lia|exact H|exact H'|reflexivity]. Qed.

(** all the days of a year *)
Definition dim (lp : bool) (m : Z) : Z := if (m =? 2) && lp then 29 else before m - before (m - 1).
Definition day_ok (lp : bool) (d : Z) : bool :=
  let '(m, e) := md lp d in
  (1 <=? m) && (m <=? 12) && (1 <=? e) && (e <=? dim lp m) && (before (m - 1) + (if lp && (2 <? m) then 1 else 0) + (e - 1) =? d) &&
  (if d + 1 <? (if lp then 366 else 365) then
     let '(m', e') := md lp (d + 1) in if e <? dim lp m then (m' =? m) && (e' =? e + 1) else (m <? 12) && (m' =? m + 1) && (e' =? 1)
   else (m =? 12) && (e =? 31)).
Lemma year_ok : forallb (day_ok true) (map Z.of_nat (seq 0 366)) && forallb (day_ok false) (map Z.of_nat (seq 0 365)) = true.
Proof. vm_compute. reflexivity. Qed.
Lemma day_ok_all (lp : bool) d : 0 <= d < (if lp then 366 else 365) -> day_ok lp d = true.
Proof.
  intros H. pose proof year_ok as Y. apply andb_true_iff in Y as [Y1 Y2]. rewrite forallb_forall in Y1, Y2.
  destruct lp; [apply Y1|apply Y2]; apply in_map_iff; exists (Z.to_nat d); (split; [lia|apply in_seq; lia]).
Qed.
(** and conversely every month and day is one of them *)
Lemma md_of (lp : bool) m e : 1 <= m <= 12 -> 1 <= e <= dim lp m ->
  md lp (before (m - 1) + (if lp && (2 <? m) then 1 else 0) + (e - 1)) = (m, e) /\ 0 <= before (m - 1) + (if lp && (2 <? m) then 1 else 0) + (e - 1) < (if lp then 366 else 365).
Proof.
  intros Hm He.
  assert (X : forall lp : bool, forallb (fun m => forallb (fun e => negb (e <=? dim lp m) ||
      (let d := before (m - 1) + (if lp && (2 <? m) then 1 else 0) + (e - 1) in
       let '(m', e') := md lp d in (m' =? m) && (e' =? e) && (0 <=? d) && (d <? (if lp then 366 else 365)))) (map Z.of_nat (seq 1 31))) (map Z.of_nat (seq 1 12)) = true).
  { intros [|]; vm_compute; reflexivity. }
  specialize (X lp). rewrite forallb_forall in X. specialize (X m). rewrite forallb_forall in X.
  assert (D : dim lp m <= 31).
  { assert (Y : forall lp : bool, forallb (fun m => dim lp m <=? 31) (map Z.of_nat (seq 1 12)) = true) by (intros [|]; vm_compute; reflexivity).
    specialize (Y lp). rewrite forallb_forall in Y. assert (dim lp m <=? 31 = true); [|lia]. apply Y. apply in_map_iff. exists (Z.to_nat m). split; [lia|apply in_seq; lia]. }
  assert (Hin : In m (map Z.of_nat (seq 1 12))) by (apply in_map_iff; exists (Z.to_nat m); split; [lia|apply in_seq; lia]).
  specialize (X Hin e). assert (Hie : In e (map Z.of_nat (seq 1 31))) by (apply in_map_iff; exists (Z.to_nat e); split; [lia|apply in_seq; lia]).
  specialize (X Hie). apply orb_true_iff in X as [X|X]; [lia|]. cbv zeta in X.
  destruct (md lp _) as [m' e']. repeat apply andb_true_iff in X as [X ?]. split; [f_equal; lia|lia].
Qed.

Lemma days_in_dim m y : days_in m y = dim (leap y) m.
Proof. reflexivity. Qed.
Lemma date_of_facts n : let x := date_of n in let '(y, m, d) := x in valid x = true /\ date_of (n + 1) = step x /\ days_of y m d = n.
Proof.
  cbv zeta. destruct (split n) as (y & d & -> & E & H). unfold len in H. pose proof (day_ok_all _ _ H) as K. unfold day_ok in K.
  destruct (md (leap y) d) as [m e] eqn:M. apply andb_true_iff in K as [K K6]. repeat apply andb_true_iff in K as [K ?].
  split; [unfold valid; rewrite days_in_dim; lia|]. split.
  - unfold step. rewrite days_in_dim.
    destruct (d + 1 <? (if leap y then 366 else 365)) eqn:N.
    + rewrite (date_of_at (n + 1) y (d + 1)); [|lia|unfold len; lia]. destruct (md (leap y) (d + 1)) as [m' e'].
      destruct (e <? dim (leap y) m).
      * f_equal; [f_equal|]; lia.
      * assert (Em : m <? 12 = true) by lia. rewrite Em. f_equal; [f_equal|]; lia.
    + assert (m = 12 /\ e = 31) as [-> ->] by lia. replace (31 <? dim (leap y) 12) with false by (destruct (leap y); reflexivity). cbn [Z.ltb].
      replace (12 <? 12) with false by reflexivity.
      rewrite (date_of_at (n + 1) (y + 1) 0); [|rewrite dby_next; unfold len; lia|unfold len; destruct (leap (y + 1)); lia].
      destruct (leap (y + 1)); reflexivity.
  - unfold days_of. unfold dby in E. lia.
Qed.
Lemma days_of_back y m d : valid (y, m, d) = true -> date_of (days_of y m d) = (y, m, d).
Proof.
  intros V. unfold valid in V. rewrite days_in_dim in V. destruct (md_of (leap y) m d) as [M H]; [lia|lia|].
  rewrite (date_of_at _ y (before (m - 1) + (if leap y && (2 <? m) then 1 else 0) + (d - 1))).
  - rewrite M. reflexivity.
  - unfold days_of, dby. lia.
  - exact H.
Qed.
(** ** the specification's calendar *)
Definition tup (x : date) : Z * Z * Z := (year x, month x, day x).
Lemma months m : 1 <= m <= 12 -> In m [1; 2; 3; 4; 5; 6; 7; 8; 9; 10; 11; 12].
Proof. intros H. cbn [In]. lia. Qed.
Lemma days_in_bounds m y : 1 <= m <= 12 -> 28 <= days_in m y <= 31.
Proof.
  intros H. rewrite days_in_dim.
  assert (X : forall lp : bool, forallb (fun m => (28 <=? dim lp m) && (dim lp m <=? 31)) (map Z.of_nat (seq 1 12)) = true) by (intros [|]; vm_compute; reflexivity).
  specialize (X (leap y)). rewrite forallb_forall in X. specialize (X m). assert (K : In m (map Z.of_nat (seq 1 12))) by (apply in_map_iff; exists (Z.to_nat m); split; [lia|apply in_seq; lia]).
  specialize (X K). lia.
Qed.
Lemma month_length_iff y m n : month_length y m n <-> 1 <= m <= 12 /\ n = days_in m y.
Proof.
  split.
  - intros H. destruct H as [y m H|y m H|y H|y H].
    + repeat destruct H as [<-|H]; [split; [lia|reflexivity] ..|destruct H].
    + repeat destruct H as [<-|H]; [split; [lia|reflexivity] ..|destruct H].
    + split; [lia|]. unfold days_in. destruct (leap y) eqn:L; [exfalso; apply H, leap_iff, L|reflexivity].
    + split; [lia|]. unfold days_in. apply leap_iff in H. rewrite H. reflexivity.
  - intros [H ->]. apply months in H.
    repeat (destruct H as [<-|H]; [first [apply L_31; cbn; tauto|apply L_30; cbn; tauto|idtac]|]); [|destruct H].
    unfold days_in. destruct (leap y) eqn:L; [apply L_29, leap_iff, L|apply L_28]. intros X. apply leap_iff in X. congruence.
Qed.
Lemma exists_valid x : exists_ x <-> valid (tup x) = true.
Proof.
  unfold exists_, valid, tup. split.
  - intros (n & L & H). apply month_length_iff in L as [Hm ->]. lia.
  - intros H. exists (days_in (month x) (year x)). split; [apply month_length_iff; lia|lia].
Qed.
Lemma next_step x x' : next x x' <-> valid (tup x) = true /\ step (tup x) = tup x'.
Proof.
  unfold valid, step, tup. split.
  - intros H. destruct H as [y m d n L H|y m d L H|y]; cbn [year month day].
    + apply month_length_iff in L as [Hm ->]. split; [lia|]. destruct (d <? days_in m y) eqn:E; [reflexivity|lia].
    + apply month_length_iff in L as [Hm E]. pose proof (days_in_bounds m y Hm).
      split; [lia|]. rewrite <- E, Z.ltb_irrefl. destruct (m <? 12) eqn:E2; [reflexivity|lia].
    + split; [reflexivity|]. reflexivity.
  - destruct x as [y m d], x' as [y' m' d']. cbn [year month day]. intros [V E].
    assert (L : month_length y m (days_in m y)) by (apply month_length_iff; lia).
    destruct (d <? days_in m y) eqn:A.
    + injection E as <- <- <-. eapply N_day; [exact L|lia].
    + destruct (m <? 12) eqn:C; injection E as <- <- <-.
      * apply N_month; [|lia]. replace d with (days_in m y) by lia. exact L.
      * assert (m = 12) as -> by lia. assert (d = 31) as -> by (change (days_in 12 y) with 31 in *; lia). apply N_year.
Qed.
Lemma next_inj x x' z : next x z -> next x' z -> x = x'.
Proof.
  intros H H'. inversion H as [y m d n L B1|y m d L B1|y]; subst; inversion H' as [y' m' d' n' L' B1' E1|y' m' d' L' B1' E1|y' E1]; subst.
  - f_equal; lia.
  - lia.
  - lia.
  - lia.
  - assert (m' = m) as -> by lia. apply month_length_iff in L as [_ ->], L' as [_ ->]. reflexivity.
  - exfalso. apply month_length_iff in L as [L _]. lia.
  - lia.
  - exfalso. apply month_length_iff in L' as [L' _]. lia.
  - f_equal; lia.
Qed.
Definition cal (n : Z) : date := let '(y, m, d) := date_of n in Date y m d.
Lemma tup_cal n : tup (cal n) = date_of n.
Proof. unfold cal. destruct (date_of n) as [[y m] d]. reflexivity. Qed.
Lemma tup_inj x x' : tup x = tup x' -> x = x'.
Proof. destruct x as [a b c], x' as [a' b' c']. unfold tup. cbn. congruence. Qed.
Lemma cal_calendar : calendar cal.
Proof.
  split; [vm_compute; reflexivity|]. intros n. apply next_step. rewrite !tup_cal. pose proof (date_of_facts n) as F. cbv zeta in F.
  destruct (date_of n) as [[y m] d]. destruct F as (V & N & _). auto.
Qed.
Lemma cal_unique f : calendar f -> forall n, f n = cal n.
Proof.
  intros [F0 Fn]. destruct cal_calendar as [C0 Cn]. intros n.
  assert (Up : forall k, 0 <= k -> f k = cal k).
  { intros k H. revert k H. apply natlike_ind; [congruence|]. intros k _ IH. unfold Z.succ.
    pose proof (proj1 (next_step _ _) (Fn k)) as [_ A]. pose proof (proj1 (next_step _ _) (Cn k)) as [_ C]. apply tup_inj. rewrite <- A, <- C, IH. reflexivity. }
  assert (Down : forall k, 0 <= k -> f (- k) = cal (- k)).
  { intros k H. revert k H. apply natlike_ind; [change (- 0) with 0; congruence|]. intros k _ IH. apply (next_inj _ _ (cal (- k))).
    - rewrite <- IH. pose proof (Fn (- Z.succ k)) as X. replace (- Z.succ k + 1) with (- k) in X by lia. exact X.
    - pose proof (Cn (- Z.succ k)) as X. replace (- Z.succ k + 1) with (- k) in X by lia. exact X. }
  destruct (Z.le_ge_cases 0 n) as [H|H]; [apply Up; exact H|]. replace n with (- - n) by lia. apply Down. lia.
Qed.
Lemma week_unique w : week w -> forall n, w n = weekday_of n.
Proof.
  intros [W0 Wn] n. unfold weekday_of.
  assert (Up : forall k, 0 <= k -> w k = (k + 4) mod 7).
  { intros k H. revert k H. apply natlike_ind; [rewrite W0; reflexivity|]. intros k _ IH. unfold Z.succ. destruct (Wn k) as [_ X]. destruct (Wn (k + 1)) as [Y _]. rewrite IH in X. lia. }
  assert (Down : forall k, 0 <= k -> w (- k) = (- k + 4) mod 7).
  { intros k H. revert k H. apply natlike_ind; [change (- 0) with 0; rewrite W0; reflexivity|]. intros k _ IH. destruct (Wn (- Z.succ k)) as [Y X].
    replace (- Z.succ k + 1) with (- k) in X by lia. rewrite IH in X. lia. }
  destruct (Z.le_ge_cases 0 n) as [H|H]; [apply Up; exact H|]. replace n with (- - n) by lia. apply Down. lia.
Qed.
