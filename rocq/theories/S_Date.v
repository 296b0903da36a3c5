(** Specification of dates: the Gregorian calendar, day by day, and the date formats of HTTP (RFC 7231, section 7.1.1.1). *)
From Verif Require Import Base.
Local Open Scope Z_scope.

Record date := Date { year : Z; month : Z; day : Z }.
(** every fourth year has a 29 February, except full centuries that are not a multiple of 400 *)
Definition leap_year (y : Z) : Prop := Z.divide 4 y /\ (~ Z.divide 100 y \/ Z.divide 400 y).
Inductive month_length : Z -> Z -> Z -> Prop :=
| L_30 y m : In m [4; 6; 9; 11] -> month_length y m 30
| L_31 y m : In m [1; 3; 5; 7; 8; 10; 12] -> month_length y m 31
| L_28 y : ~ leap_year y -> month_length y 2 28
| L_29 y : leap_year y -> month_length y 2 29.
(** [exists_ x]: there is such a day *)
Definition exists_ (x : date) : Prop := exists n, month_length (year x) (month x) n /\ 1 <= day x <= n.
(** the day after *)
Inductive next : date -> date -> Prop :=
| N_day y m d n : month_length y m n -> 1 <= d < n -> next (Date y m d) (Date y m (d + 1))
| N_month y m d : month_length y m d -> m < 12 -> next (Date y m d) (Date y (m + 1) 1)
| N_year y : next (Date y 12 31) (Date (y + 1) 1 1).
(** the date of each day, counted from 1 January 1970 *)
Definition calendar (f : Z -> date) : Prop := f 0 = Date 1970 1 1 /\ forall n, next (f n) (f (n + 1)).
(** the day of the week: 0 is Sunday; 1 January 1970 was a Thursday *)
Definition week (w : Z -> Z) : Prop := w 0 = 4 /\ forall n, 0 <= w n <= 6 /\ (w (n + 1) = w n + 1 \/ w n = 6 /\ w (n + 1) = 0).

(** a time of day *)
Record clock := Clock { hour : Z; minute : Z; second : Z }.
Definition on_clock (c : clock) : Prop := 0 <= hour c < 24 /\ 0 <= minute c < 60 /\ 0 <= second c < 60.
(** [at f t x c]: instant [t] (nanoseconds since the epoch, UTC) is within second [c] of day [x] *)
Definition at_ (f : Z -> date) (t : Z) (n : Z) (x : date) (c : clock) : Prop :=
  f n = x /\ on_clock c /\
  (n * 86400 + hour c * 3600 + minute c * 60 + second c) * 1000000000 <= t < (n * 86400 + hour c * 3600 + minute c * 60 + second c + 1) * 1000000000.

(** ** the formats *)
Definition num (n : Z) : ascii := ch (48 + Z.to_N n).
Definition two (n : Z) : bytes := [num (n / 10); num (n mod 10)].
Definition four (n : Z) : bytes := [num (n / 1000); num (n / 100 mod 10); num (n / 10 mod 10); num (n mod 10)].
Definition blank_two (n : Z) : bytes := [if n <? 10 then " "%char else num (n / 10); num (n mod 10)].
Definition day_name (w : Z) : bytes :=
  nth (Z.to_nat w) [B"Sun"; B"Mon"; B"Tue"; B"Wed"; B"Thu"; B"Fri"; B"Sat"] [].
Definition long_day_name (w : Z) : bytes :=
  nth (Z.to_nat w) [B"Sunday"; B"Monday"; B"Tuesday"; B"Wednesday"; B"Thursday"; B"Friday"; B"Saturday"] [].
Definition month_name (m : Z) : bytes :=
  nth (Z.to_nat m) [[]; B"Jan"; B"Feb"; B"Mar"; B"Apr"; B"May"; B"Jun"; B"Jul"; B"Aug"; B"Sep"; B"Oct"; B"Nov"; B"Dec"] [].
Definition time_of_day (c : clock) : bytes := two (hour c) ++ B":" ++ two (minute c) ++ B":" ++ two (second c).
(** Sun, 06 Nov 1994 08:49:37 GMT *)
Definition imf_fixdate (w : Z) (x : date) (c : clock) : bytes :=
  day_name w ++ B", " ++ two (day x) ++ B" " ++ month_name (month x) ++ B" " ++ four (year x) ++ B" " ++ time_of_day c ++ B" GMT".
(** Sunday, 06-Nov-94 08:49:37 GMT *)
Definition rfc850_date (w : Z) (x : date) (c : clock) : bytes :=
  long_day_name w ++ B", " ++ two (day x) ++ B"-" ++ month_name (month x) ++ B"-" ++ two (year x mod 100) ++ B" " ++ time_of_day c ++ B" GMT".
(** Sun Nov  6 08:49:37 1994 *)
Definition asctime_date (w : Z) (x : date) (c : clock) : bytes :=
  day_name w ++ B" " ++ month_name (month x) ++ B" " ++ blank_two (day x) ++ B" " ++ time_of_day c ++ B" " ++ four (year x).
