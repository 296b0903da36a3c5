(** Proofs about the texts of dates. *)
From Verif Require Import Base GoStrings GoInt GoTime S_Date P_Date.
From Coq Require Import ZifyNat ZifyN ZifyBool.
Ltac Zify.zify_post_hook ::= Z.to_euclidean_division_equations.
Local Open Scope Z_scope.

(** ** writing *)
Lemma small_cases (P : Z -> bool) n : forallb P (map Z.of_nat (seq 0 n)) = true -> forall x, 0 <= x < Z.of_nat n -> P x = true.
Proof. intros H x Hx. rewrite forallb_forall in H. apply H. apply in_map_iff. exists (Z.to_nat x). split; [lia|apply in_seq; lia]. Qed.
Lemma write_two x : 0 <= x < 100 -> append_int x 2 = two x.
Proof. intros H. apply beq_eq. apply (small_cases (fun x => beq (append_int x 2) (two x)) 100); [vm_compute; reflexivity|lia]. Qed.
Lemma write_four x : 0 <= x < 10000 -> append_int x 4 = four x.
Proof.
  intros H. apply beq_eq.
  assert (X : forall a, 0 <= a < 100 -> forallb (fun b => beq (append_int (a * 100 + b) 4) (four (a * 100 + b))) (map Z.of_nat (seq 0 100)) = true).
  { apply (small_cases (fun a => forallb (fun b => beq (append_int (a * 100 + b) 4) (four (a * 100 + b))) (map Z.of_nat (seq 0 100))) 100). vm_compute. reflexivity. }
  specialize (X (x / 100)). rewrite forallb_forall in X. replace x with (x / 100 * 100 + x mod 100) by lia. apply X; [lia|].
  apply in_map_iff. exists (Z.to_nat (x mod 100)). split; [lia|apply in_seq; lia].
Qed.
Lemma write_month m : 1 <= m -> nth (Z.to_nat (m - 1)) short_months [] = month_name m.
Proof. intros H. unfold month_name. replace (Z.to_nat m) with (S (Z.to_nat (m - 1))) by lia. reflexivity. Qed.
Lemma written f w t n x c : calendar f -> week w -> at_ f t n x c -> 0 <= year x <= 9999 -> format_http t = imf_fixdate (w n) x c.
Proof.
  intros Cf Ww (E & (Hh & Hm & Hs) & T) Y. unfold format_http. cbv zeta.
  assert (En : t / 1000000000 / 86400 = n) by lia.
  assert (Er : t / 1000000000 mod 86400 = hour c * 3600 + minute c * 60 + second c) by lia. rewrite En, Er.
  rewrite (cal_unique f Cf n) in E. pose proof (tup_cal n) as Ed. rewrite E in Ed. rewrite <- Ed. unfold tup.
  assert (V : valid (tup x) = true).
  { rewrite <- E, tup_cal. pose proof (date_of_facts n) as F. cbv zeta in F. destruct (date_of n) as [[yy mm] dd]. exact (proj1 F). }
  unfold valid, tup in V. pose proof (days_in_bounds (month x) (year x) ltac:(lia)) as Bd.
  rewrite (write_two (day x)) by lia. rewrite (write_four (year x)) by lia. rewrite (write_month (month x)) by lia.
  replace ((hour c * 3600 + minute c * 60 + second c) / 3600) with (hour c) by lia.
  replace ((hour c * 3600 + minute c * 60 + second c) mod 3600 / 60) with (minute c) by lia.
  replace ((hour c * 3600 + minute c * 60 + second c) mod 60) with (second c) by lia.
  rewrite !write_two by lia. rewrite (week_unique w Ww n). unfold imf_fixdate, time_of_day. rewrite <- !app_assoc. reflexivity.
Qed.

(** ** reading *)
Lemma num_val n : 0 <= n <= 9 -> digit_val (num n) = Some n.
Proof. intros H. unfold num. change (ch (48 + Z.to_N n)) with (digit_of (Z.to_N n)). rewrite digit_of_val by lia. f_equal. lia. Qed.
Lemma read_two fixed n rest : 0 <= n <= 99 -> getnum fixed (two n ++ rest) = Some (n, rest).
Proof. intros H. unfold two. cbn [app getnum]. rewrite !num_val by lia. f_equal. f_equal. lia. Qed.
Lemma atoi_num a s : 0 <= a <= 9 -> atoi (num a :: s) = digits_val 0 (num a :: s).
Proof.
  intros H. assert (X : In a [0; 1; 2; 3; 4; 5; 6; 7; 8; 9]) by (cbn [In]; lia). cbn [In] in X.
  repeat (destruct X as [<-|X]; [reflexivity|]). destruct X.
Qed.
Lemma num_not_space n : 0 <= n <= 9 -> is_space (num n) = false.
Proof.
  intros H. assert (X : negb (is_space (num n)) = true) by (apply (small_cases (fun n => negb (is_space (num n))) 10); [vm_compute; reflexivity|lia]).
  apply negb_true_iff, X.
Qed.
Lemma cut_two n rest : 0 <= n <= 99 -> cutspace (two n ++ rest) = two n ++ rest.
Proof. intros H. unfold two. cbn [app cutspace]. rewrite num_not_space by lia. reflexivity. Qed.
Lemma cut_four n rest : 0 <= n <= 9999 -> cutspace (four n ++ rest) = four n ++ rest.
Proof. intros H. unfold four. cbn [app cutspace]. rewrite num_not_space by lia. reflexivity. Qed.
Ltac cases7 H := let X := fresh in match type of H with 0 <= ?w <= 6 => assert (X : In w [0; 1; 2; 3; 4; 5; 6]) by (cbn [In]; lia); clear H; cbn [In] in X;
  repeat (destruct X as [<-|X]); [..|destruct X] end.
Ltac cases12 H := let X := fresh in match type of H with 1 <= ?w <= 12 => pose proof (months w H) as X; clear H; cbn [In] in X;
  repeat (destruct X as [<-|X]); [..|destruct X] end.
Lemma cut_month m rest : 1 <= m <= 12 -> cutspace (month_name m ++ rest) = month_name m ++ rest.
Proof. intros H. cases12 H; reflexivity. Qed.
Lemma read_month m rest : 1 <= m <= 12 -> lookup_name 0 short_months (month_name m ++ rest) = Some (m - 1, rest).
Proof. intros H. cases12 H; reflexivity. Qed.
Lemma read_day w rest : 0 <= w <= 6 -> lookup_name 0 short_days (day_name w ++ rest) = Some (w, rest).
Proof. intros H. cases7 H; reflexivity. Qed.
Lemma read_long_day w rest : 0 <= w <= 6 -> lookup_name 0 long_days (long_day_name w ++ rest) = Some (w, rest).
Proof. intros H. cases7 H; reflexivity. Qed.
Lemma skip_blank v : skip false (B" ") (B" " ++ v) = Some (cutspace v).
Proof. reflexivity. Qed.
Lemma skip_comma v : skip false (B", ") (B", " ++ v) = Some (cutspace v).
Proof. reflexivity. Qed.

Lemma chunk_step prefix x l f value v : skip false prefix value = Some v ->
  parse_chunks ((prefix, x) :: l) f value = match parse_std x f v with Some (f', v') => parse_chunks l f' v' | None => None end.
Proof. intros H. cbn [parse_chunks]. rewrite H. reflexivity. Qed.

(** hours, minutes, seconds *)
Notation clock_ok c := ((hour c <? 24) && (minute c <? 60) && (second c <? 60)).
Definition field (c : clock) : Prop := 0 <= hour c <= 99 /\ 0 <= minute c <= 99 /\ 0 <= second c <= 99.
Lemma read_clock c y mo d ns z rest v l : field c -> (forall p r, rest = p :: r -> p <> "."%char /\ p <> ","%char) -> v = time_of_day c ++ rest ->
  parse_chunks ((B" ", StdHour) :: (B":", StdZeroMinute) :: (B":", StdZeroSecond) :: l) (Found y mo d 0 0 0 ns z) (B" " ++ v) =
  if clock_ok c then parse_chunks l (Found y mo d (hour c) (minute c) (second c) ns z) rest else None.
Proof.
  intros (Hh & Hm & Hs) R ->. unfold time_of_day. rewrite <- !app_assoc.
  rewrite (chunk_step _ _ _ _ _ _ (skip_blank _)), cut_two by lia. cbn [parse_std]. rewrite read_two by lia.
  destruct (hour c <? 24); [|reflexivity]. cbn [andb].
  rewrite (chunk_step _ _ _ _ _ (two (minute c) ++ B":" ++ two (second c) ++ rest)) by reflexivity. cbn [parse_std]. rewrite read_two by lia.
  destruct (minute c <? 60); [|reflexivity]. cbn [andb].
  rewrite (chunk_step _ _ _ _ _ (two (second c) ++ rest)) by reflexivity. cbn [parse_std]. rewrite read_two by lia.
  destruct (second c <? 60); [|reflexivity]. cbn [andb]. destruct rest as [|p r]; [reflexivity|].
  destruct (R p r eq_refl) as [P1 P2]. apply Ascii.eqb_neq in P1, P2. rewrite P1, P2. reflexivity.
Qed.
Lemma read_four y mo d h mi s ns z n rest : 0 <= n <= 9999 ->
  parse_std StdLongYear (Found y mo d h mi s ns z) (four n ++ rest) = Some (Found n mo d h mi s ns z, rest).
Proof.
  intros H. unfold four. cbn [app parse_std]. rewrite atoi_num by lia. cbn [digits_val]. rewrite !num_val by lia. f_equal. f_equal. f_equal. lia.
Qed.

Definition shape (w : Z) (x : date) (c : clock) : Prop := 0 <= w <= 6 /\ 0 <= year x <= 9999 /\ 1 <= month x <= 12 /\ 0 <= day x <= 99 /\ field c.
Definition instant (x : date) (c : clock) : Z :=
  (days_of (year x) (month x) (day x) * 86400 + hour c * 3600 + minute c * 60 + second c) * 1000000000.
Notation L1 := (B"Mon, 02 Jan 2006 15:04:05 GMT").
Notation L2 := (B"Monday, 02-Jan-06 15:04:05 MST").
Notation L3 := (B"Mon Jan _2 15:04:05 2006").
Section Read.
  Variable zone : bytes -> Z -> Z.
  Notation parse := (go_parse zone).
  Notation ok x c := (clock_ok c && (1 <=? day x) && (day x <=? days_in (month x) (year x))).
  Lemma read1 w x c : shape w x c -> parse L1 (imf_fixdate w x c) = if ok x c then Some (instant x c) else None.
  Proof.
    intros (Hw & Hy & Hm & Hd & Hc). unfold go_parse. change (chunks L1) with
      (Some ([([], StdWeekDay); (B", ", StdZeroDay); (B" ", StdMonth); (B" ", StdLongYear); (B" ", StdHour); (B":", StdZeroMinute); (B":", StdZeroSecond)], B" GMT")).
    cbv iota. unfold imf_fixdate, nothing_found.
    rewrite (chunk_step [] _ _ _ _ _ eq_refl). cbn [parse_std]. rewrite read_day by lia.
    rewrite (chunk_step _ _ _ _ _ _ (skip_comma _)), cut_two by lia. cbn [parse_std]. rewrite read_two by lia.
    rewrite (chunk_step _ _ _ _ _ _ (skip_blank _)), cut_month by lia. cbn [parse_std]. rewrite read_month by lia.
    rewrite (chunk_step _ _ _ _ _ _ (skip_blank _)), cut_four by lia. rewrite read_four by lia.
    rewrite (read_clock c _ _ _ _ _ (B" GMT") _ []) by (first [exact Hc|reflexivity|intros p r E; injection E as <- _; split; discriminate]).
    destruct (clock_ok c); [|reflexivity]. cbn [parse_chunks]. change (skip false (B" GMT") (B" GMT")) with (Some (@nil ascii)). cbv iota zeta. cbn [andb].
    replace (month x - 1 + 1) with (month x) by lia. replace (month x <? 0) with false by lia. replace (day x <? 0) with false by lia.
    destruct (1 <=? day x) eqn:E1; cbn [andb].
    - replace (day x <? 1) with false by lia. cbn [orb]. destruct (day x <=? days_in (month x) (year x)) eqn:E2.
      + replace (days_in (month x) (year x) <? day x) with false by lia. unfold instant. f_equal. lia.
      + replace (days_in (month x) (year x) <? day x) with true by lia. reflexivity.
    - replace (day x <? 1) with true by lia. reflexivity.
  Qed.
  (** the end of parse: the day is checked *)
  Lemma finish (x : date) c z (off : Z -> Z) : 1 <= month x <= 12 -> 0 <= day x <= 99 -> (forall secs, match z with Some name => zone name secs | None => 0 end = 0) ->
    (let mo := if month x <? 0 then 1 else month x in
     let d := if day x <? 0 then 1 else day x in
     if (d <? 1) || (days_in mo (year x) <? d) then None
     else let secs := days_of (year x) mo d * 86400 + hour c * 3600 + minute c * 60 + second c in
          Some ((secs - match z with Some name => zone name secs | None => 0 end) * 1000000000 + 0)) =
    if (1 <=? day x) && (day x <=? days_in (month x) (year x)) then Some (instant x c) else None.
  Proof.
    intros Hm Hd Z0. replace (month x <? 0) with false by lia. replace (day x <? 0) with false by lia. cbv zeta. rewrite Z0.
    destruct (1 <=? day x) eqn:E1; cbn [andb].
    - replace (day x <? 1) with false by lia. cbn [orb]. destruct (day x <=? days_in (month x) (year x)) eqn:E2.
      + replace (days_in (month x) (year x) <? day x) with false by lia. unfold instant. f_equal. lia.
      + replace (days_in (month x) (year x) <? day x) with true by lia. reflexivity.
    - replace (day x <? 1) with true by lia. reflexivity.
  Qed.
  Lemma read_blank_two n rest : 0 <= n <= 99 ->
    (let value := cutspace (blank_two n ++ B" " ++ rest) in
     getnum false (match value with c :: v => if is_space c then v else value | [] => value end)) = Some (n, B" " ++ rest).
  Proof.
    intros H. cbv zeta. unfold blank_two. destruct (n <? 10) eqn:E.
    - cbn [app]. change (cutspace (" "%char :: num (n mod 10) :: B" " ++ rest)) with (cutspace (num (n mod 10) :: B" " ++ rest)).
      cbn [cutspace]. rewrite num_not_space by lia. cbn iota. rewrite num_not_space by lia. cbn [getnum]. rewrite num_val by lia.
      replace (n mod 10) with n by lia. reflexivity.
    - cbn [app cutspace]. rewrite num_not_space by lia. cbn iota. rewrite num_not_space by lia. cbn [getnum]. rewrite !num_val by lia. f_equal. f_equal. lia.
  Qed.
  Lemma read3 w x c : shape w x c -> parse L3 (asctime_date w x c) = if ok x c then Some (instant x c) else None.
  Proof.
    intros (Hw & Hy & Hm & Hd & Hc). unfold go_parse. change (chunks L3) with
      (Some ([([], StdWeekDay); (B" ", StdMonth); (B" ", StdUnderDay); (B" ", StdHour); (B":", StdZeroMinute); (B":", StdZeroSecond); (B" ", StdLongYear)], @nil ascii)).
    cbv iota. unfold asctime_date, nothing_found.
    rewrite (chunk_step [] _ _ _ _ _ eq_refl). cbn [parse_std]. rewrite read_day by lia.
    rewrite (chunk_step _ _ _ _ _ _ (skip_blank _)), cut_month by lia. cbn [parse_std]. rewrite read_month by lia.
    rewrite (chunk_step _ _ _ _ _ _ (skip_blank _)). cbn [parse_std].
    pose proof (read_blank_two (day x) (time_of_day c ++ B" " ++ four (year x)) Hd) as R. cbv zeta in R. rewrite R. clear R.
    rewrite (read_clock c _ _ _ _ _ (B" " ++ four (year x)) _ _) by (first [exact Hc|reflexivity|intros p r E; injection E as <- _; split; discriminate]).
    destruct (clock_ok c); [|reflexivity]. cbn [andb].
    rewrite (chunk_step _ _ _ _ _ _ (skip_blank _)). rewrite <- (app_nil_r (four (year x))), cut_four by lia. rewrite read_four by lia.
    cbn [parse_chunks skip]. replace (month x - 1 + 1) with (month x) by lia. apply (finish x c None (fun _ => 0)); [lia|lia|reflexivity].
  Qed.
  Definition year2 (n : Z) : Z := if 69 <=? n then n + 1900 else n + 2000.
  Lemma read_two_year y mo d h mi s ns z n rest : 0 <= n <= 99 ->
    parse_std StdYear (Found y mo d h mi s ns z) (two n ++ rest) = Some (Found (year2 n) mo d h mi s ns z, rest).
  Proof.
    intros H. unfold two. cbn [app parse_std]. rewrite atoi_num by lia. cbn [digits_val]. rewrite !num_val by lia. cbn iota.
    replace ((0 * 10 + n / 10) * 10 + n mod 10) with n by lia. reflexivity.
  Qed.
  Lemma read2 w x c : shape w x c -> 1969 <= year x <= 2068 -> (forall secs, zone (B"GMT") secs = 0) ->
    parse L2 (rfc850_date w x c) = if ok x c then Some (instant x c) else None.
  Proof.
    intros (Hw & Hy & Hm & Hd & Hc) Y Z0. unfold go_parse. change (chunks L2) with
      (Some ([([], StdLongWeekDay); (B", ", StdZeroDay); (B"-", StdMonth); (B"-", StdYear); (B" ", StdHour); (B":", StdZeroMinute); (B":", StdZeroSecond); (B" ", StdTZ)], @nil ascii)).
    cbv iota. unfold rfc850_date, nothing_found.
    rewrite (chunk_step [] _ _ _ _ _ eq_refl). cbn [parse_std]. rewrite read_long_day by lia.
    rewrite (chunk_step _ _ _ _ _ _ (skip_comma _)), cut_two by lia. cbn [parse_std]. rewrite read_two by lia.
    rewrite (chunk_step (B"-") _ _ _ _ (month_name (month x) ++ B"-" ++ two (year x mod 100) ++ B" " ++ time_of_day c ++ B" GMT")) by reflexivity.
    cbn [parse_std]. rewrite read_month by lia.
    rewrite (chunk_step (B"-") _ _ _ _ (two (year x mod 100) ++ B" " ++ time_of_day c ++ B" GMT")) by reflexivity. rewrite read_two_year by lia.
    rewrite (read_clock c _ _ _ _ _ (B" GMT") _ _) by (first [exact Hc|reflexivity|intros p r E; injection E as <- _; split; discriminate]).
    destruct (clock_ok c); [|reflexivity]. cbn [andb].
    rewrite (chunk_step (B" ") _ _ _ (B" GMT") (B"GMT")) by reflexivity.
    change (parse_std StdTZ (Found (year2 (year x mod 100)) (month x - 1 + 1) (day x) (hour c) (minute c) (second c) 0 None) (B"GMT"))
      with (Some (Found (year2 (year x mod 100)) (month x - 1 + 1) (day x) (hour c) (minute c) (second c) 0 (Some (B"GMT")), @nil ascii)).
    cbn [parse_chunks skip]. replace (year2 (year x mod 100)) with (year x) by (unfold year2; destruct (69 <=? year x mod 100) eqn:E69; lia).
    replace (month x - 1 + 1) with (month x) by lia. apply (finish x c (Some (B"GMT")) (fun _ => 0)); [lia|lia|exact Z0].
  Qed.
  (** the other layouts do not read it *)
  Lemma not12 w rest : 0 <= w <= 6 -> parse L2 (day_name w ++ B", " ++ rest) = None /\ parse L3 (day_name w ++ B", " ++ rest) = None.
  Proof. intros H. cases7 H; split; reflexivity. Qed.
  Lemma not2 w rest : 0 <= w <= 6 -> parse L1 (long_day_name w ++ rest) = None /\ parse L3 (long_day_name w ++ rest) = None.
  Proof. intros H. cases7 H; split; reflexivity. Qed.
  Lemma not3 w rest : 0 <= w <= 6 -> parse L1 (day_name w ++ B" " ++ rest) = None /\ parse L2 (day_name w ++ B" " ++ rest) = None.
  Proof. intros H. cases7 H; split; reflexivity. Qed.
  (** text after the date *)
  Lemma extra1 w x c r : shape w x c -> r <> [] -> parse L1 (imf_fixdate w x c ++ r) = None.
  Proof.
    intros (Hw & Hy & Hm & Hd & Hc) Nr. unfold go_parse. change (chunks L1) with
      (Some ([([], StdWeekDay); (B", ", StdZeroDay); (B" ", StdMonth); (B" ", StdLongYear); (B" ", StdHour); (B":", StdZeroMinute); (B":", StdZeroSecond)], B" GMT")).
    cbv iota. unfold imf_fixdate, nothing_found. repeat rewrite <- app_assoc.
    rewrite (chunk_step [] _ _ _ _ _ eq_refl). cbn [parse_std]. rewrite read_day by lia.
    rewrite (chunk_step _ _ _ _ _ _ (skip_comma _)), cut_two by lia. cbn [parse_std]. rewrite read_two by lia.
    rewrite (chunk_step _ _ _ _ _ _ (skip_blank _)), cut_month by lia. cbn [parse_std]. rewrite read_month by lia.
    rewrite (chunk_step _ _ _ _ _ _ (skip_blank _)), cut_four by lia. rewrite read_four by lia.
    rewrite (read_clock c _ _ _ _ _ (B" GMT" ++ r) _ []) by (first [exact Hc|reflexivity|intros p r' E; injection E as <- _; split; discriminate]).
    destruct (clock_ok c); [|reflexivity]. cbn [parse_chunks]. change (skip false (B" GMT") (B" GMT" ++ r)) with (Some r). destruct r; [contradiction|reflexivity].
  Qed.
  Lemma extra3 w x c r : shape w x c -> r <> [] -> parse L3 (asctime_date w x c ++ r) = None.
  Proof.
    intros (Hw & Hy & Hm & Hd & Hc) Nr. unfold go_parse. change (chunks L3) with
      (Some ([([], StdWeekDay); (B" ", StdMonth); (B" ", StdUnderDay); (B" ", StdHour); (B":", StdZeroMinute); (B":", StdZeroSecond); (B" ", StdLongYear)], @nil ascii)).
    cbv iota. unfold asctime_date, nothing_found. repeat rewrite <- app_assoc.
    rewrite (chunk_step [] _ _ _ _ _ eq_refl). cbn [parse_std]. rewrite read_day by lia.
    rewrite (chunk_step _ _ _ _ _ _ (skip_blank _)), cut_month by lia. cbn [parse_std]. rewrite read_month by lia.
    rewrite (chunk_step _ _ _ _ _ _ (skip_blank _)). cbn [parse_std].
    pose proof (read_blank_two (day x) (time_of_day c ++ B" " ++ four (year x) ++ r) Hd) as R. cbv zeta in R. rewrite R. clear R.
    rewrite (read_clock c _ _ _ _ _ (B" " ++ four (year x) ++ r) _ _) by (first [exact Hc|reflexivity|intros p r' E; injection E as <- _; split; discriminate]).
    destruct (clock_ok c); [|reflexivity].
    rewrite (chunk_step _ _ _ _ _ _ (skip_blank _)). rewrite cut_four by lia. rewrite read_four by lia.
    cbn [parse_chunks skip]. destruct r; [contradiction|reflexivity].
  Qed.
End Read.

(** ** years of more than four digits, and before the year 0 *)
Lemma digits_small s : forall acc v, 0 <= acc -> digits_val acc s = Some v -> v < (acc + 1) * 10 ^ Z.of_nat (length s).
Proof.
  induction s as [|c s IH]; intros acc v Ha E; cbn [digits_val] in E.
  - injection E as <-. cbn [length]. change (Z.of_nat 0) with 0. rewrite Z.pow_0_r. lia.
  - destruct (digit_val c) as [d|] eqn:D; [|discriminate E]. apply digit_val_bounds in D. apply IH in E; [|lia].
    cbn [length]. rewrite Nat2Z.inj_succ, Z.pow_succ_r by lia. set (P := 10 ^ Z.of_nat (length s)) in *.
    assert (0 < P) by (apply Z.pow_pos_nonneg; lia). nia.
Qed.
Lemma long_year n : (10000 <= n)%N -> exists a b c d e r, fmt_nat n = a :: b :: c :: d :: e :: r /\ all_digits [a; b; c; d; e].
Proof.
  intros H. pose proof (fmt_nat_val n) as E. pose proof (digits_val_digits _ _ _ E) as D. apply digits_small in E; [|lia]. change (0 + 1) with 1 in E.
  destruct (fmt_nat n) as [|a [|b [|c [|d [|e r]]]]]; cbn [length] in E;
    try (match type of E with _ < 1 * ?P => let v := eval vm_compute in P in change P with v in E end; lia).
  exists a, b, c, d, e, r. split; [reflexivity|]. unfold all_digits in *. inversion D as [|? ? D1 D2]; subst. inversion D2 as [|? ? D3 D4]; subst.
  inversion D4 as [|? ? D5 D6]; subst. inversion D6 as [|? ? D7 D8]; subst. inversion D8 as [|? ? D9 _]; subst. repeat constructor; assumption.
Qed.
Lemma digit_not_space c : digit_val c <> None -> is_space c = false.
Proof.
  unfold digit_val, is_space. intros H. apply Ascii.eqb_neq. intros ->. apply H. reflexivity.
Qed.
Lemma unread zone w m d y rest : 0 <= w <= 6 -> 1 <= m <= 12 -> 0 <= d <= 99 -> ~ 0 <= y <= 9999 ->
  go_parse zone L1 (day_name w ++ B", " ++ two d ++ B" " ++ month_name m ++ B" " ++ append_int y 4 ++ rest) = None.
Proof.
  intros Hw Hm Hd Hy. unfold go_parse. change (chunks L1) with
    (Some ([([], StdWeekDay); (B", ", StdZeroDay); (B" ", StdMonth); (B" ", StdLongYear); (B" ", StdHour); (B":", StdZeroMinute); (B":", StdZeroSecond)], B" GMT")).
  cbv iota. unfold nothing_found.
  rewrite (chunk_step [] _ _ _ _ _ eq_refl). cbn [parse_std]. rewrite read_day by lia.
  rewrite (chunk_step _ _ _ _ _ _ (skip_comma _)), cut_two by lia. cbn [parse_std]. rewrite read_two by lia.
  rewrite (chunk_step _ _ _ _ _ _ (skip_blank _)), cut_month by lia. cbn [parse_std]. rewrite read_month by lia.
  rewrite (chunk_step _ _ _ _ _ _ (skip_blank _)). unfold append_int. cbv zeta. destruct (y <? 0) eqn:Ny.
  - rewrite <- !app_assoc. generalize (repeat "0"%char (4 - length (fmt_nat (Z.to_N (Z.abs y)))) ++ fmt_nat (Z.to_N (Z.abs y)) ++ rest). intros l.
    change (cutspace (B"-" ++ l)) with (B"-" ++ l). destruct l as [|a [|b [|c l]]]; reflexivity.
  - destruct (long_year (Z.to_N (Z.abs y)) ltac:(lia)) as (a & b & c & d' & e & r & -> & D).
    unfold all_digits in D. inversion D as [|? ? D1 D2]; subst. inversion D2 as [|? ? D3 D4]; subst.
    inversion D4 as [|? ? D5 D6]; subst. inversion D6 as [|? ? D7 D8]; subst. inversion D8 as [|? ? D9 _]; subst.
    cbn [length Nat.sub repeat app cutspace]. rewrite (digit_not_space a D1). cbn [parse_std].
    destruct (digit_val a); [|reflexivity]. destruct (atoi [a; b; c; d']); [|reflexivity].
    cbn [parse_chunks]. cbn [B]. change (skip false (B" ") (e :: r ++ rest)) with (if is_space e then Some (cutspace (e :: r ++ rest)) else None).
    rewrite (digit_not_space e D9). reflexivity.
Qed.
