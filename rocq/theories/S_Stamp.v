(** Specification of time stamps in log records (C165-C167). *)
From Verif Require Import Base M_Logger S_Date.
Local Open Scope Z_scope.

(** ** Texts *)
(** the fraction of a second, in milliseconds, as short as it gets *)
Inductive fraction : Z -> bytes -> Prop :=
| F_none : fraction 0 []
| F_one a : 1 <= a <= 9 -> fraction (100 * a) (B"." ++ [num a])
| F_two a b : 0 <= a <= 9 -> 1 <= b <= 9 -> fraction (100 * a + 10 * b) (B"." ++ [num a; num b])
| F_three a b c : 0 <= a <= 9 -> 0 <= b <= 9 -> 1 <= c <= 9 -> fraction (100 * a + 10 * b + c) (B"." ++ [num a; num b; num c]).
(** RFC 3339, UTC: 2006-01-02T15:04:05.12Z *)
Definition rfc3339 (x : date) (c : clock) (frac : bytes) : bytes :=
  four (year x) ++ B"-" ++ two (month x) ++ B"-" ++ two (day x) ++ B"T" ++ time_of_day c ++ frac ++ B"Z".
(** [names f s t]: the text [s] names the millisecond that [t] (nanoseconds since the epoch, UTC) is in *)
Definition names (f : Z -> date) (s : bytes) (t : Z) : Prop :=
  exists n c ms frac, at_ f t n (f n) c /\ 0 <= year (f n) <= 9999 /\
    (n * 86400 + hour c * 3600 + minute c * 60 + second c) * 1000 + ms = t / 1000000 /\ fraction ms frac /\ s = rfc3339 (f n) c frac.
(** byte order *)
Inductive sorts_before : bytes -> bytes -> Prop :=
| B_end c s : sorts_before [] (c :: s)
| B_less a b s s' : (bv a < bv b)%N -> sorts_before (a :: s) (b :: s')
| B_same a s s' : sorts_before s s' -> sorts_before (a :: s) (a :: s').

(** ** Histories *)
Section Stamps.
  Context {V : Type}.
  (** calls, each with the time it is made *)
  Definition timed := list (Z * op V).
  Definition in_time (h : timed) : Prop := forall i j t t', (i < j)%nat -> nth_error (map fst h) i = Some t -> nth_error (map fst h) j = Some t' -> t <= t'.
  (** New records the time it is called at, as [stamp] writes it *)
  Definition stamped (stamp : Z -> bytes) (h : timed) : Prop := forall t now, In (t, New now) h -> now = stamp t.
  (** calls that do not use the name @timestamp: they put nothing else there and do not rename it *)
  Definition leaves_stamp (o : op V) : Prop :=
    match o with
    | Add _ k _ | AddDebug _ k _ => k <> B"@timestamp"
    | Merge _ m => forall x, ~ In (B"@timestamp", x) m
    | CfgStdKeys _ k n | StdKeys _ k n => k <> B"@timestamp" /\ n <> B"@timestamp"
    | CfgLevelKey _ n | CfgErrorMessageKey _ n | CfgMessageKey _ n | LevelKey _ n | ErrorMessageKey _ n | MessageKey _ n => n <> B"@timestamp"
    | _ => True
    end.
  (** when each logger was made; a clone counts as made when its original was *)
  Definition birth1 (b : list Z) (to : Z * op V) : list Z :=
    match snd to with New _ => b ++ [fst to] | LgClone l => b ++ [nth l b 0] | _ => b end.
  Definition births (h : timed) : list Z := fold_left birth1 h [].
End Stamps.
