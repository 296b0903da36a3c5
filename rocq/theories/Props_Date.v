(** C162-C164: the dates in the headers of static files. *)
From Verif Require Import Base GoStrings GoInt GoTime M_Cond M_Content S_Range S_Cond S_Date P_Date P_Date2 Props_Cond Props_Content S_Answer Props_Answer.
From Coq Require Import ZifyNat ZifyN ZifyBool.
Ltac Zify.zify_post_hook ::= Z.to_euclidean_division_equations.
Local Open Scope Z_scope.

Definition sec_of (n : Z) (c : clock) : Z := n * 86400 + hour c * 3600 + minute c * 60 + second c.
(** each instant is within one second of one day *)
Lemma at_exists f t : calendar f -> exists n c, at_ f t n (f n) c.
Proof.
  intros _. set (s := t / 1000000000). exists (s / 86400), (Clock (s mod 86400 / 3600) (s mod 3600 / 60) (s mod 60)).
  split; [reflexivity|]. unfold on_clock. cbn [hour minute second]. unfold s. split; lia.
Qed.

(** ** C162: what is written *)
(** The Last-Modified field is an HTTP date in the preferred format: the day and second (UTC) of the modification time. *)
Theorem C162_last_modified : forall f w p m n x c, calendar f -> week w -> known m -> at_ f m n x c -> 0 <= year x <= 9999 ->
  aget (B"Last-Modified") (p_hdr (set_last_modified format_http m p)) = Some (imf_fixdate (w n) x c).
Proof.
  intros f w p m n x c Cf Ww K A Y. unfold set_last_modified.
  destruct (is_zero_time m) eqn:Z0.
  { exfalso. destruct K as [K1 K2]. unfold is_zero_time in Z0. change zero_time with year1 in Z0. lia. }
  unfold hset. cbn [p_hdr]. rewrite aget_aput_same, (written f w m n x c Cf Ww A Y). reflexivity.
Qed.
(** there is such a calendar and such a week, only one of each, and every day of it exists *)
Theorem C162_calendar : (exists f, calendar f) /\ (exists w, week w) /\
  (forall f g, calendar f -> calendar g -> forall n, f n = g n) /\ (forall w w', week w -> week w' -> forall n, w n = w' n) /\
  (forall f, calendar f -> forall x, exists_ x <-> exists n, f n = x).
Proof.
  split; [exists cal; exact cal_calendar|]. split.
  { exists weekday_of. unfold week, weekday_of. split; [reflexivity|]. intros n. split; lia. }
  split; [intros f g Hf Hg n; rewrite (cal_unique f Hf), (cal_unique g Hg); reflexivity|].
  split; [intros w w' Hw Hw' n; rewrite (week_unique w Hw), (week_unique w' Hw'); reflexivity|].
  intros f Hf x. rewrite exists_valid. split.
  - intros V. exists (days_of (year x) (month x) (day x)). rewrite (cal_unique f Hf). apply tup_inj. rewrite tup_cal. apply days_of_back. exact V.
  - intros [n <-]. rewrite (cal_unique f Hf), tup_cal. pose proof (date_of_facts n) as F. cbv zeta in F. destruct (date_of n) as [[y mo] d]. exact (proj1 F).
Qed.

(** ** C163: what is read *)
Section Dates.
  Variable zone : bytes -> Z -> Z.
  Variable f : Z -> date.
  Hypothesis Cf : calendar f.
  Notation read := (parse_time (go_parse zone)).
  (** the numbers fit the format: two digits, a month with a name, four digits for the year *)
  Definition written_ok (w : Z) (x : date) (c : clock) : Prop :=
    0 <= w <= 6 /\ 0 <= year x <= 9999 /\ 1 <= month x <= 12 /\ 0 <= day x <= 99 /\
    0 <= hour c <= 99 /\ 0 <= minute c <= 99 /\ 0 <= second c <= 99.
  (** the instant that starts second [c] of day [x], if there is one *)
  Definition denotes (x : date) (c : clock) (t : Z) : Prop := exists n, f n = x /\ on_clock c /\ t = sec_of n c * 1000000000.
  Lemma shape_ok w x c : written_ok w x c -> shape w x c.
  Proof. unfold written_ok, shape, field. tauto. Qed.
  Lemma ok_iff w x c t : written_ok w x c ->
    (if (hour c <? 24) && (minute c <? 60) && (second c <? 60) && (1 <=? day x) && (day x <=? days_in (month x) (year x)) then Some (instant x c) else None) = Some t <->
    denotes x c t.
  Proof.
    intros (_ & _ & Hm & Hd & Hh & Hmi & Hs). unfold denotes.
    destruct ((hour c <? 24) && (minute c <? 60) && (second c <? 60) && (1 <=? day x) && (day x <=? days_in (month x) (year x))) eqn:E.
    - assert (V : valid (tup x) = true) by (unfold valid, tup; lia). split.
      + intros X. injection X as <-. exists (days_of (year x) (month x) (day x)). split; [|split; [unfold on_clock; lia|reflexivity]].
        rewrite (cal_unique f Cf). apply tup_inj. rewrite tup_cal. apply days_of_back. exact V.
      + intros (n & En & _ & ->). f_equal. unfold instant, sec_of. rewrite (cal_unique f Cf) in En. pose proof (tup_cal n) as T. rewrite En in T.
        pose proof (date_of_facts n) as F. cbv zeta in F. rewrite <- T in F. unfold tup in F. destruct F as (_ & _ & ->). reflexivity.
    - split; [discriminate|]. intros (n & En & (O1 & O2 & O3) & _). exfalso.
      assert (V : valid (tup x) = true).
      { rewrite (cal_unique f Cf) in En. rewrite <- En, tup_cal. pose proof (date_of_facts n) as F. cbv zeta in F. destruct (date_of n) as [[y mo] d]. exact (proj1 F). }
      unfold valid, tup in V. lia.
  Qed.
  (** A date in the preferred format is read as the second it names, whatever the day of the week it has, and not at all if there
      is no such day or second. *)
  Theorem C163_imf_fixdate : forall w x c t, written_ok w x c -> (read (imf_fixdate w x c) = Some t <-> denotes x c t).
  Proof.
    intros w x c t W. rewrite <- (ok_iff w x c t W). unfold parse_time, time_formats, parse_time_in. rewrite (read1 zone w x c (shape_ok _ _ _ W)).
    match goal with |- context [if ?b then Some _ else None] => destruct b end; [reflexivity|].
    unfold imf_fixdate. rewrite !(proj1 (not12 zone w _ (proj1 W))), !(proj2 (not12 zone w _ (proj1 W))). reflexivity.
  Qed.
  (** The two obsolete formats: a year of two digits is one of 1969 to 2068. *)
  Theorem C163_rfc850_date : forall w x c t, (forall s, zone (B"GMT") s = 0) -> written_ok w x c -> 1969 <= year x <= 2068 -> (read (rfc850_date w x c) = Some t <-> denotes x c t).
  Proof.
    intros w x c t gmt W Y. rewrite <- (ok_iff w x c t W). unfold parse_time, time_formats, parse_time_in. rewrite (read2 zone w x c (shape_ok _ _ _ W) Y gmt).
    unfold rfc850_date. rewrite (proj1 (not2 zone w _ (proj1 W))).
    match goal with |- context [if ?b then Some _ else None] => destruct b end; [reflexivity|]. rewrite (proj2 (not2 zone w _ (proj1 W))). reflexivity.
  Qed.
  Theorem C163_asctime_date : forall w x c t, written_ok w x c -> (read (asctime_date w x c) = Some t <-> denotes x c t).
  Proof.
    intros w x c t W. rewrite <- (ok_iff w x c t W). unfold parse_time, time_formats, parse_time_in. rewrite (read3 zone w x c (shape_ok _ _ _ W)).
    unfold asctime_date. rewrite (proj1 (not3 zone w _ (proj1 W))), (proj2 (not3 zone w _ (proj1 W))).
    match goal with |- context [if ?b then Some _ else None] => destruct b end; reflexivity.
  Qed.
  (** Nothing may follow a date in the preferred or the asctime format. *)
  Theorem C163_nothing_after : forall w x c r, written_ok w x c -> r <> [] -> read (imf_fixdate w x c ++ r) = None /\ read (asctime_date w x c ++ r) = None.
  Proof.
    intros w x c r W Nr. unfold parse_time, time_formats, parse_time_in.
    rewrite (extra1 zone w x c r (shape_ok _ _ _ W) Nr), (extra3 zone w x c r (shape_ok _ _ _ W) Nr).
    unfold imf_fixdate, asctime_date. repeat rewrite <- app_assoc.
    rewrite (proj1 (not12 zone w _ (proj1 W))), (proj2 (not12 zone w _ (proj1 W))), (proj1 (not3 zone w _ (proj1 W))), (proj2 (not3 zone w _ (proj1 W))). auto.
  Qed.
  (** What the server writes it reads back, to the second: every time of the years 0 to 9999, and no other. *)
  Theorem C163_own_dates : forall m n x c, at_ f m n x c ->
    read (format_http m) = if (0 <=? year x) && (year x <=? 9999) then Some (sec_of n c * 1000000000) else None.
  Proof.
    intros m n x c A. destruct A as (En & O & T).
    assert (V : valid (tup x) = true).
    { rewrite (cal_unique f Cf) in En. rewrite <- En, tup_cal. pose proof (date_of_facts n) as F. cbv zeta in F. destruct (date_of n) as [[y mo] d]. exact (proj1 F). }
    unfold valid, tup in V. pose proof (days_in_bounds (month x) (year x) ltac:(lia)) as Bd.
    assert (Wn : 0 <= weekday_of n <= 6) by (unfold weekday_of; lia).
    destruct ((0 <=? year x) && (year x <=? 9999)) eqn:Y.
    - assert (Ww : week weekday_of) by (unfold week, weekday_of; split; [reflexivity|]; intros k; split; lia).
      rewrite (written f weekday_of m n x c Cf Ww (conj En (conj O T)) ltac:(lia)). destruct O as (O1 & O2 & O3). apply C163_imf_fixdate.
      + unfold written_ok. lia.
      + exists n. split; [exact En|]. split; [unfold on_clock; lia|reflexivity].
    - unfold format_http. cbv zeta. destruct O as (O1 & O2 & O3).
      assert (E1 : m / 1000000000 / 86400 = n) by lia. rewrite E1.
      rewrite (cal_unique f Cf) in En. pose proof (tup_cal n) as Ed. rewrite En in Ed. rewrite <- Ed. unfold tup.
      rewrite (write_two (day x)) by lia. rewrite (write_month (month x)) by lia. change (nth (Z.to_nat (weekday_of n)) short_days []) with (day_name (weekday_of n)).
      unfold parse_time, time_formats, parse_time_in. rewrite unread by lia. rewrite (proj1 (not12 zone _ _ Wn)), (proj2 (not12 zone _ _ Wn)). reflexivity.
  Qed.
End Dates.

(** ** C164: asking again *)
Lemma second_at f m n x c s : at_ f m n x c -> (in_second m s <-> s = sec_of n c).
Proof. intros (_ & (O1 & O2 & O3) & T). unfold in_second, sec_of. lia. Qed.
Section Again.
  Variable zone : bytes -> Z -> Z.
  Variable mime_type : bytes -> bytes.
  Variables b1 b2 : bytes.
  Hypothesis same_length : length b1 = length b2.
  Variable f : Z -> date.
  Hypothesis Cf : calendar f.
  Notation tp := (go_parse zone).
  (** [serves q p name m c r]: ServeContent of content [c], modified at [m], answers [r] *)
  Definition serves (q : sreq) (p : sresp) (name : bytes) (m : gtime) (c : content) (r : sresp) : Prop :=
    exists e, serve_content_seek tp format_http mime_type b1 b2 q p name m c = Some (r, e).
  (** seeking works and sizes are below 2^63 *)
  Definition sound (q : sreq) (p : sresp) (name : bytes) (m : gtime) (c : content) : Prop :=
    seekable c /\ moderate tp mime_type b2 q p name m c.
  (** a GET or HEAD request with this conditional header field and no other *)
  Definition asks (q : sreq) (k v : bytes) : Prop :=
    is_get_head q /\ hdr q k = v /\
    forall k', In k' [B"If-Match"; B"If-Unmodified-Since"; B"If-None-Match"; B"If-Modified-Since"; B"If-Range"] -> k' <> k -> hdr q k' = [].
  (** the years whose dates can be written *)
  Definition writable (m : gtime) : Prop := exists n c, at_ f m n (f n) c /\ 0 <= year (f n) <= 9999.
  Definition same_second (m1 m2 : gtime) : Prop := exists s, in_second m1 s /\ in_second m2 s.
  Definition later_second (m1 m2 : gtime) : Prop := exists s1 s2, in_second m1 s1 /\ in_second m2 s2 /\ s1 < s2.

  Lemma answer_of q p name m c r : serves q p name m c r -> sound q p name m c ->
    exists st body h, answer tp format_http mime_type b2 q p name m c st body h /\ p_status r = st /\ p_body r = p_body p ++ body /\ forall k, rhdr r k = h k.
  Proof.
    intros [e S] [Sk Mo]. destruct (C139_complete tp format_http mime_type b1 b2 q p name m c Sk Mo same_length) as (r' & e' & st & body & h & E & A & F1 & F2 & F3 & _).
    rewrite S in E. injection E as <- <-. exists st, body, h. auto.
  Qed.
  (** A full or partial content of a file of known date carries it. *)
  Theorem C164_date_sent : forall q p name m c r, serves q p name m c r -> sound q p name m c -> known m -> p_status r = 200 \/ p_status r = 206 ->
    rhdr r (B"Last-Modified") = format_http m.
  Proof.
    intros q p name m c r S F K St. destruct (answer_of q p name m c r S F) as (st & body & h & A & E1 & _ & E3). rewrite E3. rewrite E1 in St.
    assert (D : forall h', dated format_http m (rhdr p) h' -> h' (B"Last-Modified") = format_http m).
    { intros h' [[_ ->]|[N _]]; [reflexivity|contradiction]. }
    assert (Sz : forall n h', sized n h' (B"Last-Modified") = h' (B"Last-Modified")).
    { intros n h'. unfold sized. destruct (h' (B"Content-Encoding")); reflexivity. }
    assert (Ty : forall ct h', typed q ct h' (B"Last-Modified") = h' (B"Last-Modified")).
    { intros ct h'. unfold typed. destruct (hdr q (B"Content-Type")); reflexivity. }
    destruct A; try (exfalso; lia); rewrite Sz.
    - rewrite Ty. auto.
    - change (typed q ct h (B"Last-Modified") = format_http m). rewrite Ty. auto.
    - change (h (B"Last-Modified") = format_http m). auto.
  Qed.
  Lemma own_date m : writable m -> exists s, in_second m s /\ parse_time tp (format_http m) = Some (s * 1000000000).
  Proof.
    intros (n & c & A & Y). exists (sec_of n c). split; [apply (second_at f m n (f n) c); [exact A|reflexivity]|].
    rewrite (C163_own_dates zone f Cf m n (f n) c A). replace ((0 <=? year (f n)) && (year (f n) <=? 9999)) with true by lia. reflexivity.
  Qed.
  Lemma own_http_date m t : writable m -> (http_date tp time_formats (format_http m) t <-> exists s, in_second m s /\ t = s * 1000000000).
  Proof.
    intros W. destruct (own_date m W) as (s & Is & E). rewrite <- (date_iff tp). rewrite E. split.
    - intros X. injection X as <-. eauto.
    - intros (s' & Is' & ->). f_equal. unfold in_second in *. lia.
  Qed.
  Lemma format_nonempty m : format_http m <> [].
  Proof.
    unfold format_http. cbv zeta. destruct (date_of _) as [[y mo] d]. intros X. apply app_eq_nil in X as [_ X]. discriminate X.
  Qed.
  Lemma second_unique m s s' : in_second m s -> in_second m s' -> s = s'.
  Proof. unfold in_second. lia. Qed.
  Lemma modified_later m1 m2 s1 : in_second m1 s1 -> (modified_after m2 (s1 * 1000000000) <-> later_second m1 m2).
  Proof.
    intros I1. unfold modified_after, later_second. split.
    - intros (s & I2 & L). exists s1, s. split; [exact I1|split; [exact I2|lia]].
    - intros (s & s2 & I1' & I2 & L). rewrite (second_unique _ _ _ I1 I1'). exists s2. split; [exact I2|lia].
  Qed.
  Lemma no_step1 q p : hdr q (B"If-Match") = [] -> ~ step1_fails q p.
  Proof. intros E [N _]. contradiction. Qed.
  Lemma no_step2 q m : hdr q (B"If-Unmodified-Since") = [] -> ~ step2_fails tp q m.
  Proof. intros E (_ & _ & N & _). contradiction. Qed.
  Lemma no_step3 q p : hdr q (B"If-None-Match") = [] -> ~ step3_fails q p.
  Proof. intros E [N _]. contradiction. Qed.
  Lemma no_step4 q m : hdr q (B"If-Modified-Since") = [] -> ~ step4_fails tp q m.
  Proof. intros E (_ & _ & _ & N & _). contradiction. Qed.

  (** C164: a client that sends back the date it was sent.  Proved: it is told that nothing has changed exactly if the file's
      date is not in a later second (for dates that can be written).  Missing (false): that the file has not changed. *)
  Theorem C164_revalidate_partial : forall q1 p1 name m1 c1 r1 q2 p2 m2 c2 r2,
    serves q1 p1 name m1 c1 r1 -> sound q1 p1 name m1 c1 -> p_status r1 = 200 \/ p_status r1 = 206 -> known m1 -> writable m1 ->
    serves q2 p2 name m2 c2 r2 -> sound q2 p2 name m2 c2 -> asks q2 (B"If-Modified-Since") (rhdr r1 (B"Last-Modified")) ->
    (p_status r2 = 304 <-> known m2 /\ ~ later_second m1 m2) /\
    (p_status r2 = 304 -> p_body r2 = p_body p2) /\
    (p_status r2 <> 304 -> hdr q2 (B"Range") = [] -> p_status r2 = 200 /\ p_body r2 = p_body p2 ++ sent q2 (c_data c2)).
  Proof.
    intros q1 p1 name m1 c1 r1 q2 p2 m2 c2 r2 S1 F1 St K1 W S2 F2 (Gh & Hk & Ho).
    rewrite (C164_date_sent _ _ _ _ _ _ S1 F1 K1 St) in Hk.
    assert (H1 := Ho (B"If-Match") ltac:(cbn; tauto) ltac:(discriminate)). assert (H2 := Ho (B"If-Unmodified-Since") ltac:(cbn; tauto) ltac:(discriminate)).
    assert (H3 := Ho (B"If-None-Match") ltac:(cbn; tauto) ltac:(discriminate)). clear Ho.
    pose proof (no_step1 q2 p2 H1) as N1. pose proof (no_step2 q2 m2 H2) as N2. pose proof (no_step3 q2 p2 H3) as N3.
    destruct (own_date m1 W) as (s1 & I1 & _).
    assert (S4 : step4_fails tp q2 m2 <-> known m2 /\ ~ later_second m1 m2).
    { unfold step4_fails. rewrite Hk. split.
      - intros (_ & _ & K2 & _ & t & D & M). split; [exact K2|]. apply (own_http_date m1 t W) in D as (s & Is & ->).
        rewrite (modified_later m1 m2 s Is) in M. exact M.
      - intros [K2 L]. split; [exact H3|]. split; [exact Gh|]. split; [exact K2|]. split; [apply format_nonempty|].
        exists (s1 * 1000000000). split; [apply (own_http_date m1 _ W); eauto|]. rewrite (modified_later m1 m2 s1 I1). exact L. }
    destruct (answer_of _ _ _ _ _ _ S2 F2) as (st & body & h & A & E1 & E2 & _). rewrite E1, E2, <- S4.
    destruct A as [h F D|h F D Dd|h ct G|h ct l a n part G D Ct Ra|h ct l body G D Ct Ra|h l G D Ra|h G D Ra].
    - exfalso. destruct F as [F|[F|[F _]]]; contradiction.
    - split; [tauto|]. split; [intros _; apply app_nil_r|congruence].
    - split; [split; [lia|]; destruct G as (_ & _ & _ & G); contradiction|]. split; [lia|]. auto.
    - split; [split; [lia|]; destruct G as (_ & _ & _ & G); contradiction|]. split; [lia|]. intros _ R. exfalso. destruct Ra as (os & t & (X & _) & _). rewrite R in X. discriminate X.
    - split; [split; [lia|]; destruct G as (_ & _ & _ & G); contradiction|]. split; [lia|]. intros _ R. exfalso. destruct Ra as (os & t & (X & _) & _). rewrite R in X. discriminate X.
    - split; [split; [lia|]; destruct G as (_ & _ & _ & G); contradiction|]. split; [lia|]. intros _ R. exfalso. destruct Ra as (os & t & (X & _) & _). rewrite R in X. discriminate X.
    - split; [split; [lia|]; destruct G as (_ & _ & _ & G); contradiction|]. split; [lia|]. intros _ R. exfalso. destruct Ra as (v & (X & _) & N & _). congruence.
  Qed.
  (** A date that cannot be written is never the answer's date: such a file is sent again every time. *)
  Theorem C164_far_years : forall q p name m1 m2 c r, ~ writable m1 ->
    serves q p name m2 c r -> sound q p name m2 c -> asks q (B"If-Modified-Since") (format_http m1) -> p_status r <> 304.
  Proof.
    intros q p name m1 m2 c r W S F (Gh & Hk & Ho).
    assert (H1 := Ho (B"If-Match") ltac:(cbn; tauto) ltac:(discriminate)). assert (H2 := Ho (B"If-Unmodified-Since") ltac:(cbn; tauto) ltac:(discriminate)).
    assert (H3 := Ho (B"If-None-Match") ltac:(cbn; tauto) ltac:(discriminate)).
    destruct (answer_of _ _ _ _ _ _ S F) as (st & body & h & A & E1 & _). rewrite E1.
    destruct A as [h Fl D|h Fl D Dd|h ct G|h ct l a n part G D Ct Ra|h ct l body G D Ct Ra|h l G D Ra|h G D Ra]; try lia. intros _.
    destruct D as [D|(_ & _ & _ & _ & t & D & _)]; [exact (no_step3 q p H3 D)|]. rewrite Hk in D. apply (date_iff tp) in D.
    destruct (at_exists f m1 Cf) as (n & cl & A). rewrite (C163_own_dates zone f Cf m1 n (f n) cl A) in D.
    destruct ((0 <=? year (f n)) && (year (f n) <=? 9999)) eqn:Y; [|discriminate D]. apply W. exists n, cl. split; [exact A|lia].
  Qed.
  (** If-Unmodified-Since with that date: refused exactly if the file's date is in a later second. *)
  Theorem C164_unmodified : forall q p name m1 m2 c r, known m1 -> writable m1 ->
    serves q p name m2 c r -> sound q p name m2 c -> asks q (B"If-Unmodified-Since") (format_http m1) ->
    (p_status r = 412 <-> known m2 /\ later_second m1 m2).
  Proof.
    intros q p name m1 m2 c r K1 W S F (Gh & Hk & Ho).
    assert (H1 := Ho (B"If-Match") ltac:(cbn; tauto) ltac:(discriminate)). assert (H3 := Ho (B"If-None-Match") ltac:(cbn; tauto) ltac:(discriminate)).
    destruct (own_date m1 W) as (s1 & I1 & _).
    assert (S2 : step2_fails tp q m2 <-> known m2 /\ later_second m1 m2).
    { unfold step2_fails. rewrite Hk. split.
      - intros (_ & K2 & _ & t & D & M). split; [exact K2|]. apply (own_http_date m1 t W) in D as (s & Is & ->). rewrite (modified_later m1 m2 s Is) in M. exact M.
      - intros [K2 L]. split; [exact H1|]. split; [exact K2|]. split; [apply format_nonempty|]. exists (s1 * 1000000000).
        split; [apply (own_http_date m1 _ W); eauto|]. rewrite (modified_later m1 m2 s1 I1). exact L. }
    pose proof (no_step1 q p H1) as N1. pose proof (no_step3 q p H3) as N3. rewrite <- S2.
    destruct (answer_of _ _ _ _ _ _ S F) as (st & body & h & A & E1 & _). rewrite E1.
    destruct A as [h Fl D|h Fl D Dd|h ct G|h ct l a n part G D Ct Ra|h ct l body G D Ct Ra|h l G D Ra|h G D Ra];
      [tauto|split; [lia|tauto]|..]; (split; [lia|]; destruct G as (_ & G & _); contradiction).
  Qed.
  Lemma date_first m : exists w rest, 0 <= w <= 6 /\ format_http m = day_name w ++ B", " ++ rest.
  Proof.
    unfold format_http. cbv zeta. destruct (date_of _) as [[y mo] d]. eexists (weekday_of _), _. split; [unfold weekday_of; lia|reflexivity].
  Qed.
  Lemma no_tag m o1 e (s : bytes) : ows o1 -> format_http m <> o1 ++ render e ++ s.
  Proof.
    intros O E. destruct (date_first m) as (w & rest & Hw & Ew). rewrite Ew in E. clear Ew.
    destruct O as [|b o1 Bb O]; cbn [app] in E.
    - unfold render in E. destruct (e_weak e); cases7 Hw; discriminate E.
    - unfold blank_byte in Bb. cbn [In] in Bb. repeat (destruct Bb as [Bb|Bb]); try contradiction; subst; cases7 Hw; discriminate E.
  Qed.
  Lemma if_range_date q p m1 m2 : writable m1 -> hdr q (B"If-Range") = format_http m1 -> (if_range_holds tp q p m2 <-> m2 <> year1 /\ same_second m1 m2).
  Proof.
    intros W Hk. unfold if_range_holds. rewrite Hk. split.
    - intros (o1 & o2 & v & O1 & O2 & E & [(e & s & _ & -> & _)|(_ & _ & N & t & s & D & It & Im)]).
      + exfalso. rewrite <- app_assoc in E. exact (no_tag m1 o1 e _ O1 E).
      + split; [exact N|]. apply (own_http_date m1 t W) in D as (s' & I1 & ->). assert (s' = s) as -> by (unfold in_second in It; lia). exists s. auto.
    - intros [N (s & I1 & I2)]. exists [], [], (format_http m1). split; [constructor|]. split; [constructor|]. split; [rewrite app_nil_r; reflexivity|]. right.
      split; [intros (e & s' & _ & E); exact (no_tag m1 [] e s' ltac:(constructor) E)|].
      split.
      { intros c Hc. destruct (date_first m1) as (w & rest & Hw & Ew). rewrite Ew in Hc. cases7 Hw; injection Hc as <-; unfold blank_byte; cbn [In]; intuition discriminate. }
      split; [exact N|]. exists (s * 1000000000), s. split; [apply (own_http_date m1 _ W); eauto|]. split; [unfold in_second; lia|exact I2].
  Qed.
  (** If-Range with that date: the pieces of two versions of the file are not put together, unless they are of the same second. *)
  Theorem C164_resume : forall q p name m1 m2 c r, known m1 -> writable m1 ->
    serves q p name m2 c r -> sound q p name m2 c -> asks q (B"If-Range") (format_http m1) ->
    (~ same_second m1 m2 \/ m2 = year1 -> p_status r = 200 /\ p_body r = p_body p ++ sent q (c_data c)) /\
    (same_second m1 m2 -> m2 <> year1 -> forall os t a n part,
       hdr q (B"Range") = B"bytes=" ++ t -> loose_list (size_of c) os t -> selected (size_of c) (specs os) = [(a, n)] -> S_Content.bytes_at (c_data c) a n part ->
       p_status r = 206 /\ p_body r = p_body p ++ sent q part).
  Proof.
    intros q p name m1 m2 c r K1 W S F (Gh & Hk & Ho).
    assert (H1 := Ho (B"If-Match") ltac:(cbn; tauto) ltac:(discriminate)). assert (H2 := Ho (B"If-Unmodified-Since") ltac:(cbn; tauto) ltac:(discriminate)).
    assert (H3 := Ho (B"If-None-Match") ltac:(cbn; tauto) ltac:(discriminate)). assert (H4 := Ho (B"If-Modified-Since") ltac:(cbn; tauto) ltac:(discriminate)).
    assert (Pr : proceeds tp q p m2).
    { split; [apply no_step1; exact H1|]. split; [apply no_step2; exact H2|]. split; [apply no_step3; exact H3|apply no_step4; exact H4]. }
    pose proof (if_range_date q p m1 m2 W Hk) as R. destruct F as [Sk Mo]. destruct S as [e S].
    assert (Any : exists h ct, dated format_http m2 (rhdr p) h /\ content_type mime_type (hdr q (B"Content-Type")) name (c_data c) ct).
    { destruct (dated_exists format_http p m2) as [h D]. exists h.
      assert (Typ : exists ct, chosen_type mime_type q name c ct).
      { unfold chosen_type. destruct (hdr q (B"Content-Type")) eqn:E1; [|eexists; left; split; [discriminate|reflexivity]].
        destruct (mime_type (file_ext name)) eqn:E2; [|eexists; right; left; split; [reflexivity|split; [discriminate|reflexivity]]].
        destruct (Props_Sniff2.C86_sniff_table (c_data c)) as (s & Ds & _). exists s. right. right. auto. }
      destruct Typ as [ct Hct]. exists ct. split; [exact D|]. apply content_type_iff. exact Hct. }
    destruct Any as (h & ct & D & Ct). split.
    - intros N. assert (Off : range_off tp q p m2).
      { split; [exact Gh|]. split; [rewrite Hk; apply format_nonempty|]. rewrite R. intros [X Y]. destruct N; contradiction. }
      destruct (C139_answer tp format_http mime_type b1 b2 q p name m2 c _ _ _ Sk Mo same_length
        (A_whole tp format_http mime_type b2 q p name m2 c h ct Pr D Ct (or_intror (or_introl Off)))) as (r' & e' & E & G1 & G2 & _).
      rewrite S in E. injection E as <- <-. auto.
    - intros Ss N os t a n part Hr L Sel Ba.
      assert (On : ranges_asked tp q p m2 c (specs os)).
      { exists os, t. split; [split; [exact Hr|]|auto]. intros (_ & _ & Off). apply Off, R. auto. }
      destruct (C139_answer tp format_http mime_type b1 b2 q p name m2 c _ _ _ Sk Mo same_length
        (A_single tp format_http mime_type b2 q p name m2 c h ct (specs os) a n part Pr D Ct On Sel Ba)) as (r' & e' & E & G1 & G2 & _).
      rewrite S in E. injection E as <- <-. auto.
  Qed.
End Again.

(** The full claim: if the file is changed, at whatever later time, the client does not hear that it is not. *)
Definition C164_claim : Prop := forall zone mime_type b1 b2 f q1 p1 name m1 c1 r1 q2 p2 m2 c2 r2,
  length b1 = length b2 -> calendar f ->
  serves zone mime_type b1 b2 q1 p1 name m1 c1 r1 -> sound zone mime_type b2 q1 p1 name m1 c1 -> p_status r1 = 200 -> known m1 -> writable f m1 ->
  serves zone mime_type b1 b2 q2 p2 name m2 c2 r2 -> sound zone mime_type b2 q2 p2 name m2 c2 -> known m2 ->
  asks q2 (B"If-Modified-Since") (rhdr r1 (B"Last-Modified")) ->
  m1 < m2 -> c_data c1 <> c_data c2 -> p_status r2 <> 304.

Lemma sound_plain zone mime_type b2 q p name m c : hdr q (B"Range") = [] -> seekable c -> size_of c < two63 -> sound zone mime_type b2 q p name m c.
Proof.
  intros R Sk Sz. split; [exact Sk|]. split; [exact Sz|]. intros l (os & t & (X & _) & _). rewrite R in X. discriminate X.
Qed.
Definition d_c (s : bytes) : content := Content s (fun _ => true) true.
Lemma d_seek s : seekable (d_c s).
Proof. split; [intros a; reflexivity|reflexivity]. Qed.
Definition d_get (h : M_Cond.headers) : sreq := SReq (B"GET") (B"/a.txt") h.
Definition d_p : sresp := SResp 200 [] [].
Notation d_serve := (serve_content_seek (go_parse (fun _ _ => 0)) format_http (fun _ => B"text/plain") (B"x") (B"x")).
(** Sun, 06 Nov 1994 08:49:37.5 UTC *)
Definition d_m : Z := 784111777500000000.
Definition d_text : bytes := B"Sun, 06 Nov 1994 08:49:37 GMT".
Lemma d_at : at_ cal d_m 9075 (Date 1994 11 6) (Clock 8 49 37).
Proof. split; [vm_compute; reflexivity|]. unfold on_clock. cbn [hour minute second]. unfold d_m. lia. Qed.
Lemma d_writable : writable cal d_m.
Proof. exists 9075, (Clock 8 49 37). split; [exact d_at|vm_compute; split; discriminate]. Qed.
Lemma d_known : known d_m.
Proof. unfold known, d_m, year1. lia. Qed.
Lemma d_asks k : In k [B"If-Modified-Since"; B"If-Unmodified-Since"; B"If-Range"] -> asks (d_get [(k, d_text)]) k d_text.
Proof.
  intros H. split; [left; reflexivity|]. cbn [In] in H. split; [repeat destruct H as [<-|H]; [reflexivity ..|destruct H]|].
  intros k' Hk' N. unfold hdr, hpeek, d_get. cbn [q_hdr aget]. destruct (beq k' k) eqn:E; [apply beq_eq in E; contradiction|reflexivity].
Qed.
Lemma d_serves q p m c r e : d_serve q p (B"a.txt") m c = Some (r, e) -> serves (fun _ _ => 0) (fun _ => B"text/plain") (B"x") (B"x") q p (B"a.txt") m c r.
Proof. intros H. exists e. exact H. Qed.
Theorem C164_revalidate_refuted : ~ C164_claim.
Proof.
  intros H.
  assert (E1 : exists r e, d_serve (d_get []) d_p (B"a.txt") d_m (d_c (B"old")) = Some (r, e) /\ p_status r = 200 /\ rhdr r (B"Last-Modified") = d_text)
    by (eexists _, _; split; [vm_compute; reflexivity|split; vm_compute; reflexivity]).
  assert (E2 : exists r e, d_serve (d_get [(B"If-Modified-Since", d_text)]) d_p (B"a.txt") (d_m + 1) (d_c (B"new")) = Some (r, e) /\ p_status r = 304)
    by (eexists _, _; split; vm_compute; reflexivity).
  destruct E1 as (r1 & e1 & S1 & St1 & L1). destruct E2 as (r2 & e2 & S2 & St2).
  refine (H (fun _ _ => 0) (fun _ => B"text/plain") (B"x") (B"x") cal (d_get []) d_p (B"a.txt") d_m (d_c (B"old")) r1
    (d_get [(B"If-Modified-Since", d_text)]) d_p (d_m + 1) (d_c (B"new")) r2 eq_refl cal_calendar (d_serves _ _ _ _ _ _ S1) _ St1 d_known d_writable (d_serves _ _ _ _ _ _ S2) _ _ _ _ _ St2).
  - apply sound_plain; [reflexivity|apply d_seek|vm_compute; reflexivity].
  - apply sound_plain; [reflexivity|apply d_seek|vm_compute; reflexivity].
  - unfold known, d_m, year1. lia.
  - rewrite L1. apply d_asks. left. reflexivity.
  - unfold d_m. lia.
  - discriminate.
Qed.

(** ** Concrete cases *)
Example C162_case : at_ cal d_m 9075 (Date 1994 11 6) (Clock 8 49 37) /\ known d_m /\ weekday_of 9075 = 0 /\
  imf_fixdate 0 (Date 1994 11 6) (Clock 8 49 37) = d_text /\ format_http d_m = d_text.
Proof. split; [exact d_at|]. split; [exact d_known|]. split; [reflexivity|]. split; vm_compute; reflexivity. Qed.
Example C163_case : let read := parse_time (go_parse (fun _ _ => 0)) in
  written_ok 0 (Date 1994 11 6) (Clock 8 49 37) /\ denotes cal (Date 1994 11 6) (Clock 8 49 37) 784111777000000000 /\
  read (B"Sun, 06 Nov 1994 08:49:37 GMT") = Some 784111777000000000 /\ read (B"Sunday, 06-Nov-94 08:49:37 GMT") = Some 784111777000000000 /\
  read (B"Sun Nov  6 08:49:37 1994") = Some 784111777000000000 /\
  (* the day of the week is not checked, the day of the month is *)
  read (B"Mon, 06 Nov 1994 08:49:37 GMT") = Some 784111777000000000 /\ read (B"Sun, 29 Feb 1900 08:49:37 GMT") = None /\
  (* other texts that are read: small letters, blanks, fractions, other zones *)
  read (B"sun,  06 nov 1994 8:49:37.25 GMT") = Some 784111777250000000 /\ read (B"Sunday, 06-Nov-94 08:49:37 MSK") = Some 784111777000000000 /\
  (* nothing may follow *)
  read (B"Sun, 06 Nov 1994 08:49:37 GMT ") = None /\
  (* the year 10000 *)
  format_http 253402300800000000000 = B"Sat, 01 Jan 10000 00:00:00 GMT" /\ read (format_http 253402300800000000000) = None.
Proof.
  cbv zeta. split; [unfold written_ok; cbn; lia|]. split; [exists 9075; split; [vm_compute; reflexivity|]; split; [unfold on_clock; cbn; lia|reflexivity]|].
  repeat (split; [vm_compute; reflexivity|]). vm_compute. reflexivity.
Qed.
Example C164_case : known d_m /\ writable cal d_m /\
  asks (d_get [(B"If-Modified-Since", d_text)]) (B"If-Modified-Since") d_text /\
  sound (fun _ _ => 0) (fun _ => B"text/plain") (B"x") (d_get [(B"If-Modified-Since", d_text)]) d_p (B"a.txt") d_m (d_c (B"old")) /\
  option_map (fun x => p_status (fst x)) (d_serve (d_get [(B"If-Modified-Since", d_text)]) d_p (B"a.txt") d_m (d_c (B"old"))) = Some 304 /\
  (* a second later *)
  option_map (fun x => (p_status (fst x), p_body (fst x))) (d_serve (d_get [(B"If-Modified-Since", d_text)]) d_p (B"a.txt") (d_m + 1000000000) (d_c (B"new"))) = Some (200, B"new") /\
  (* a date in the past, as after restoring a copy *)
  option_map (fun x => p_status (fst x)) (d_serve (d_get [(B"If-Modified-Since", d_text)]) d_p (B"a.txt") (d_m - 9000000000) (d_c (B"new"))) = Some 304 /\
  option_map (fun x => p_status (fst x)) (d_serve (d_get [(B"If-Unmodified-Since", d_text)]) d_p (B"a.txt") (d_m + 1000000000) (d_c (B"new"))) = Some 412 /\
  option_map (fun x => (p_status (fst x), p_body (fst x))) (d_serve (d_get [(B"If-Range", d_text); (B"Range", B"bytes=1-")]) d_p (B"a.txt") d_m (d_c (B"old"))) = Some (206, B"ld") /\
  option_map (fun x => (p_status (fst x), p_body (fst x))) (d_serve (d_get [(B"If-Range", d_text); (B"Range", B"bytes=1-")]) d_p (B"a.txt") (d_m - 1000000000) (d_c (B"new"))) = Some (200, B"new").
Proof.
  split; [exact d_known|]. split; [exact d_writable|]. split; [apply d_asks; left; reflexivity|].
  split; [apply sound_plain; [reflexivity|apply d_seek|vm_compute; reflexivity]|]. repeat (split; [vm_compute; reflexivity|]). vm_compute. reflexivity.
Qed.

Print Assumptions C162_last_modified.
Print Assumptions C162_calendar.
Print Assumptions C163_imf_fixdate.
Print Assumptions C163_rfc850_date.
Print Assumptions C163_asctime_date.
Print Assumptions C163_nothing_after.
Print Assumptions C163_own_dates.
Print Assumptions C164_date_sent.
Print Assumptions C164_revalidate_partial.
Print Assumptions C164_far_years.
Print Assumptions C164_unmodified.
Print Assumptions C164_resume.
Print Assumptions C164_revalidate_refuted.
