(** Environment model: Time.UTC().Format and time.Parse of the Go library (package time, go 1.23) for the three layouts
    of /repo/static/fs_utils.go:18,73-77.  Not code of /repo. *)
From Verif Require Import Base GoInt.
Local Open Scope Z_scope.

(** ** the calendar of package time *)
Definition leap (y : Z) : bool := (y mod 4 =? 0) && (negb (y mod 100 =? 0) || (y mod 400 =? 0)).
(** daysBefore: the days before each month in a year that is no leap year *)
Definition days_before : list Z := [0; 31; 59; 90; 120; 151; 181; 212; 243; 273; 304; 334; 365].
Definition before (m : Z) : Z := nth (Z.to_nat m) days_before 0.
(** daysIn *)
Definition days_in (m y : Z) : Z := if (m =? 2) && leap y then 29 else before m - before (m - 1).
(** the days from 1 January 1970 to 1 January 0001 *)
Definition epoch_days : Z := 719162.

(** absDate: year, month and day of the day number [n] (days since 1 January 1970); package time counts from a year
    -292277022399, a multiple of 400 years before the year 1 used here *)
Definition date_of (n : Z) : Z * Z * Z :=
  let d := n + epoch_days in
  let n400 := d / 146097 in let d := d mod 146097 in
  let c := d / 36524 in let c := c - c / 4 in let d := d - 36524 * c in
  let q := d / 1461 in let d := d - 1461 * q in
  let u := d / 365 in let u := u - u / 4 in let d := d - 365 * u in
  let y := 1 + 400 * n400 + 100 * c + 4 * q + u in
  if leap y && (d =? 59) then (y, 2, 29)
  else
    let d := if leap y && (59 <? d) then d - 1 else d in
    let m := d / 31 in
    let '(m, begin) := if before (m + 1) <=? d then (m + 1, before (m + 1)) else (m, before m) in
    (y, m + 1, d - begin + 1).
(** Date: the day number of a date *)
Definition days_of (y m d : Z) : Z :=
  365 * (y - 1) + (y - 1) / 4 - (y - 1) / 100 + (y - 1) / 400 +
  before (m - 1) + (if leap y && (2 <? m) then 1 else 0) + (d - 1) - epoch_days.
(** Weekday: Sunday = 0; 1 January 1970 was a Thursday *)
Definition weekday_of (n : Z) : Z := (n + 4) mod 7.

Definition short_days : list bytes := [B"Sun"; B"Mon"; B"Tue"; B"Wed"; B"Thu"; B"Fri"; B"Sat"].
Definition long_days : list bytes := [B"Sunday"; B"Monday"; B"Tuesday"; B"Wednesday"; B"Thursday"; B"Friday"; B"Saturday"].
Definition short_months : list bytes :=
  [B"Jan"; B"Feb"; B"Mar"; B"Apr"; B"May"; B"Jun"; B"Jul"; B"Aug"; B"Sep"; B"Oct"; B"Nov"; B"Dec"].

(** ** Format *)
(** appendInt(b, x, width) *)
Definition append_int (x : Z) (width : nat) : bytes :=
  let digits := fmt_nat (Z.to_N (Z.abs x)) in
  (if x <? 0 then B"-" else []) ++ repeat "0"%char (width - length digits) ++ digits.
(** t.UTC().Format of layout "Mon, 02 Jan 2006 15:04:05 GMT", [t] in nanoseconds since the epoch *)
Definition format_http (t : Z) : bytes :=
  let s := t / 1000000000 in
  let n := s / 86400 in
  let r := s mod 86400 in
  let '(y, m, d) := date_of n in
  nth (Z.to_nat (weekday_of n)) short_days [] ++ B", " ++ append_int d 2 ++ B" " ++ nth (Z.to_nat (m - 1)) short_months [] ++ B" " ++
  append_int y 4 ++ B" " ++ append_int (r / 3600) 2 ++ B":" ++ append_int (r mod 3600 / 60) 2 ++ B":" ++ append_int (r mod 60) 2 ++ B" GMT".

(** ** Parse *)
Inductive std := StdWeekDay | StdLongWeekDay | StdZeroDay | StdUnderDay | StdMonth | StdYear | StdLongYear | StdHour | StdZeroMinute | StdZeroSecond | StdTZ.
(** nextStdChunk: a layout as the elements it consists of, each with the text before it, and the text at the end *)
Definition layout := (list (bytes * std) * bytes)%type.
Definition chunks (l : bytes) : option layout :=
  if beq l (B"Mon, 02 Jan 2006 15:04:05 GMT") then
    Some ([([], StdWeekDay); (B", ", StdZeroDay); (B" ", StdMonth); (B" ", StdLongYear); (B" ", StdHour); (B":", StdZeroMinute); (B":", StdZeroSecond)], B" GMT")
  else if beq l (B"Monday, 02-Jan-06 15:04:05 MST") then
    Some ([([], StdLongWeekDay); (B", ", StdZeroDay); (B"-", StdMonth); (B"-", StdYear); (B" ", StdHour); (B":", StdZeroMinute); (B":", StdZeroSecond); (B" ", StdTZ)], [])
  else if beq l (B"Mon Jan _2 15:04:05 2006") then
    Some ([([], StdWeekDay); (B" ", StdMonth); (B" ", StdUnderDay); (B" ", StdHour); (B":", StdZeroMinute); (B":", StdZeroSecond); (B" ", StdLongYear)], [])
  else None.

Definition is_space (c : ascii) : bool := Ascii.eqb c " ".
Fixpoint cutspace (s : bytes) : bytes := match s with c :: s' => if is_space c then cutspace s' else s | [] => [] end.
(** skip(value, prefix); [cut]: the blanks of the value here are cut already *)
Fixpoint skip (cut : bool) (prefix value : bytes) : option bytes :=
  match prefix with
  | [] => Some value
  | c :: p =>
      if is_space c then
        if cut then skip true p value
        else match value with
             | v :: _ => if is_space v then skip true p (cutspace value) else None
             | [] => skip true p []
             end
      else match value with
           | v :: value' => if Ascii.eqb v c then skip false p value' else None
           | [] => None
           end
  end.
(** match, for one byte *)
Definition same_letter (a b : ascii) : bool :=
  Ascii.eqb a b || (let x := N.lor (bv a) 32 in (x =? N.lor (bv b) 32)%N && (97 <=? x)%N && (x <=? 122)%N).
(** match of a name with the beginning of the value: the rest of it *)
Fixpoint match_name (name value : bytes) : option bytes :=
  match name, value with
  | [], _ => Some value
  | c :: name', v :: value' => if same_letter v c then match_name name' value' else None
  | _ :: _, [] => None
  end.
(** lookup *)
Fixpoint lookup_name (i : Z) (tab : list bytes) (value : bytes) : option (Z * bytes) :=
  match tab with
  | [] => None
  | v :: tab' => match match_name v value with Some rest => Some (i, rest) | None => lookup_name (i + 1) tab' value end
  end.
(** getnum *)
Definition getnum (fixed : bool) (s : bytes) : option (Z * bytes) :=
  match s with
  | a :: s' =>
      match digit_val a with
      | None => None
      | Some x =>
          match s' with
          | b :: s'' => match digit_val b with Some y => Some (x * 10 + y, s'') | None => if fixed then None else Some (x, s') end
          | [] => if fixed then None else Some (x, s')
          end
      end
  | [] => None
  end.
(** atoi *)
Definition atoi (s : bytes) : option Z :=
  match s with
  | "-"%char :: s' => option_map Z.opp (digits_val 0 s')
  | "+"%char :: s' => digits_val 0 s'
  | _ => digits_val 0 s
  end.
Fixpoint take_digits (s : bytes) : bytes * bytes :=
  match s with
  | c :: s' => match digit_val c with Some _ => let '(ds, r) := take_digits s' in (c :: ds, r) | None => ([], s) end
  | [] => ([], [])
  end.
(** parseNanoseconds: at most nine digits count *)
Definition nanoseconds (ds : bytes) : option Z :=
  let ds := firstn 9 ds in option_map (fun v => v * 10 ^ Z.of_nat (9 - length ds)) (digits_val 0 ds).
(** parseSignedOffset: the number of bytes *)
Definition signed_offset (s : bytes) : nat :=
  match s with
  | c :: s' =>
      if Ascii.eqb c "-" || Ascii.eqb c "+" then
        let '(ds, _) := take_digits s' in
        match ds, digits_val 0 ds with
        | _ :: _, Some x => if 23 <? x then 0%nat else S (length ds)
        | _, _ => 0%nat
        end
      else 0%nat
  | [] => 0%nat
  end.
Definition is_upper (c : ascii) : bool := ((65 <=? bv c) && (bv c <=? 90))%N.
Fixpoint uppers (fuel : nat) (s : bytes) : nat :=
  match fuel, s with S f, c :: s' => if is_upper c then S (uppers f s') else 0%nat | _, _ => 0%nat end.
(** parseTimeZone: the number of bytes *)
Definition zone_length (s : bytes) : option nat :=
  if (length s <? 3)%nat then None
  else if beq (firstn 4 s) (B"ChST") || beq (firstn 4 s) (B"MeST") then Some 4%nat
  else if beq (firstn 3 s) (B"GMT") then Some (3 + signed_offset (skipn 3 s))%nat
  else if beq (firstn 1 s) (B"+") || beq (firstn 1 s) (B"-") then match signed_offset s with O => None | n => Some n end
  else match uppers 6 s with
       | 5%nat => if beq (firstn 1 (skipn 4 s)) (B"T") then Some 5%nat else None
       | 4%nat => if beq (firstn 1 (skipn 3 s)) (B"T") || beq (firstn 4 s) (B"WITA") then Some 4%nat else None
       | 3%nat => Some 3%nat
       | _ => None
       end.

(** the fields found so far; zone: None is UTC *)
Record found := Found { f_year : Z; f_month : Z; f_day : Z; f_hour : Z; f_min : Z; f_sec : Z; f_nsec : Z; f_zone : option bytes }.
Definition nothing_found : found := Found 0 (-1) (-1) 0 0 0 0 None.
(** the switch of parse: one element *)
Definition parse_std (x : std) (f : found) (value : bytes) : option (found * bytes) :=
  let '(Found y mo d h mi s ns z) := f in
  match x with
  | StdWeekDay => match lookup_name 0 short_days value with Some (_, v) => Some (f, v) | None => None end
  | StdLongWeekDay => match lookup_name 0 long_days value with Some (_, v) => Some (f, v) | None => None end
  | StdMonth => match lookup_name 0 short_months value with Some (i, v) => Some (Found y (i + 1) d h mi s ns z, v) | None => None end
  | StdZeroDay => match getnum true value with Some (n, v) => Some (Found y mo n h mi s ns z, v) | None => None end
  | StdUnderDay =>
      let value := match value with c :: v => if is_space c then v else value | [] => value end in
      match getnum false value with Some (n, v) => Some (Found y mo n h mi s ns z, v) | None => None end
  | StdYear =>
      match value with
      | a :: b :: v => match atoi [a; b] with
                       | Some n => Some (Found (if 69 <=? n then n + 1900 else n + 2000) mo d h mi s ns z, v)
                       | None => None
                       end
      | _ => None
      end
  | StdLongYear =>
      match value with
      | a :: b :: c :: e :: v =>
          match digit_val a, atoi [a; b; c; e] with Some _, Some n => Some (Found n mo d h mi s ns z, v) | _, _ => None end
      | _ => None
      end
  | StdHour => match getnum false value with Some (n, v) => if n <? 24 then Some (Found y mo d n mi s ns z, v) else None | None => None end
  | StdZeroMinute => match getnum true value with Some (n, v) => if n <? 60 then Some (Found y mo d h n s ns z, v) else None | None => None end
  | StdZeroSecond =>
      match getnum true value with
      | Some (n, v) =>
          if n <? 60 then
            match v with
            | p :: v' =>
                if Ascii.eqb p "." || Ascii.eqb p "," then
                  match take_digits v' with
                  | ([], _) => Some (Found y mo d h mi n ns z, v)
                  | (ds, r) => match nanoseconds ds with Some ns' => Some (Found y mo d h mi n ns' z, r) | None => None end
                  end
                else Some (Found y mo d h mi n ns z, v)
            | [] => Some (Found y mo d h mi n ns z, v)
            end
          else None
      | None => None
      end
  | StdTZ =>
      if beq (firstn 3 value) (B"UTC") then Some (Found y mo d h mi s ns None, skipn 3 value)
      else match zone_length value with
           | Some n => Some (Found y mo d h mi s ns (Some (firstn n value)), skipn n value)
           | None => None
           end
  end.
Fixpoint parse_chunks (l : list (bytes * std)) (f : found) (value : bytes) : option (found * bytes) :=
  match l with
  | [] => Some (f, value)
  | (prefix, x) :: l' =>
      match skip false prefix value with
      | None => None
      | Some v => match parse_std x f v with Some (f', v') => parse_chunks l' f' v' | None => None end
      end
  end.

Section Zone.
  (** what a zone name means where the program runs: the seconds to take off the time that the fields mean in UTC *)
  Variable zone : bytes -> Z -> Z.
  (** time.Parse for these layouts: nanoseconds since the epoch *)
  Definition go_parse (l text : bytes) : option Z :=
    match chunks l with
    | None => None
    | Some (cs, tail) =>
        match parse_chunks cs nothing_found text with
        | None => None
        | Some (Found y mo d h mi s ns z, v) =>
            match skip false tail v with
            | Some [] =>
                let mo := if mo <? 0 then 1 else mo in
                let d := if d <? 0 then 1 else d in
                if (d <? 1) || (days_in mo y <? d) then None
                else
                  let secs := days_of y mo d * 86400 + h * 3600 + mi * 60 + s in
                  Some ((secs - match z with Some name => zone name secs | None => 0 end) * 1000000000 + ns)
            | _ => None
            end
        end
    end.
End Zone.

(** ** Format for log records *)
(** appendNano for ".999": three digits, not rounded, without zeros at the end, and without the point if nothing is left *)
Fixpoint trim_zeros (s : bytes) : bytes :=
  match s with
  | [] => []
  | c :: s' => match trim_zeros s' with [] => if Ascii.eqb c "0" then [] else [c] | r => c :: r end
  end.
Definition append_nano3 (ns : Z) : bytes :=
  if ns =? 0 then []
  else match trim_zeros (firstn 3 (append_int ns 9)) with [] => [] | ds => B"." ++ ds end.
(** t.Format of a time [t] (nanoseconds since the epoch) in a location that is [off] seconds ahead of UTC at that time, for the layouts
    known here: the "Z" of the first one is not a zone, as it is not followed by 07, and stands for itself *)
Definition go_format (l : bytes) (off t : Z) : option bytes :=
  if beq l (B"2006-01-02T15:04:05.999Z") then
    let s := t / 1000000000 + off in
    let r := s mod 86400 in
    let '(y, m, d) := date_of (s / 86400) in
    Some (append_int y 4 ++ B"-" ++ append_int m 2 ++ B"-" ++ append_int d 2 ++ B"T" ++
          append_int (r / 3600) 2 ++ B":" ++ append_int (r mod 3600 / 60) 2 ++ B":" ++ append_int (r mod 60) 2 ++ append_nano3 (t mod 1000000000) ++ B"Z")
  else if beq l (B"Mon, 02 Jan 2006 15:04:05 GMT") then Some (format_http (t + off * 1000000000))
  else None.

(** sanity checks against values of the Go library *)
Example format_case : format_http 1136214245000000000 = B"Mon, 02 Jan 2006 15:04:05 GMT" /\
  format_http (-62135596800000000000) = B"Mon, 01 Jan 0001 00:00:00 GMT" /\ format_http 951782399999999999 = B"Mon, 28 Feb 2000 23:59:59 GMT" /\
  format_http 951782400000000000 = B"Tue, 29 Feb 2000 00:00:00 GMT".
Proof. repeat split; vm_compute; reflexivity. Qed.
Example parse_case : let p := go_parse (fun _ _ => 0) in
  p (B"Mon, 02 Jan 2006 15:04:05 GMT") (B"Sun, 06 Nov 1994 08:49:37 GMT") = Some 784111777000000000 /\
  p (B"Monday, 02-Jan-06 15:04:05 MST") (B"Sunday, 06-Nov-94 08:49:37 GMT") = Some 784111777000000000 /\
  p (B"Mon Jan _2 15:04:05 2006") (B"Sun Nov  6 08:49:37 1994") = Some 784111777000000000 /\
  p (B"Mon, 02 Jan 2006 15:04:05 GMT") (B"sun,   06 NOV 1994 8:49:37.5 GMT") = Some 784111777500000000 /\
  p (B"Mon, 02 Jan 2006 15:04:05 GMT") (B"Sun, 31 Nov 1994 08:49:37 GMT") = None.
Proof. repeat split; vm_compute; reflexivity. Qed.
Example log_format_case : let p := go_format (B"2006-01-02T15:04:05.999Z") in
  p 0 1136214245000000000 = Some (B"2006-01-02T15:04:05Z") /\ p 3600 1136214245120999999 = Some (B"2006-01-02T16:04:05.12Z") /\ p 0 1136214245000999999 = Some (B"2006-01-02T15:04:05Z") /\ p (-60) 1136214245007000000 = Some (B"2006-01-02T15:03:05.007Z").
Proof. repeat split; vm_compute; reflexivity. Qed.
