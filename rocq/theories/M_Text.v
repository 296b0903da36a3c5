(** Model of /repo/internal/text/text.go. *)
From Verif Require Import Base.

(** text.go:43-45 isASCIISpace *)
Definition is_ascii_space (b : ascii) : bool :=
  ((bv b =? 10) || (bv b =? 13) || (bv b =? 32) || (bv b =? 9))%N.

(** An index into the string: s[i] panics when out of range, here None. *)
Definition at_ (s : bytes) (i : nat) : option ascii := nth_error s i.

(** text.go:8-10: for i < j && isASCIISpace(s[i]) { i++ }; [n] bounds the number of
    iterations (j - i decreases) *)
Fixpoint scan_up (n : nat) (s : bytes) (i j : nat) : res nat :=
  if i <? j then
    match at_ s i with
    | None => Panic
    | Some c => if is_ascii_space c
                then match n with O => Ok i | S n' => scan_up n' s (S i) j end
                else Ok i
    end
  else Ok i.
(** text.go:12-14: for j > i && isASCIISpace(s[j-1]) { j-- } *)
Fixpoint scan_down (n : nat) (s : bytes) (i j : nat) : res nat :=
  if i <? j then
    match at_ s (j - 1) with
    | None => Panic
    | Some c => if is_ascii_space c
                then match n with O => Ok j | S n' => scan_down n' s i (j - 1) end
                else Ok j
    end
  else Ok j.
(** s[i:j], which panics unless i <= j <= len(s) *)
Definition slice_ (s : bytes) (i j : nat) : res bytes :=
  if (i <=? j) && (j <=? length s) then Ok (firstn (j - i) (skipn i s)) else Panic.

(** text.go:4-21 TrimString *)
Definition trim_string (s : bytes) : res bytes :=
  match scan_up (length s) s 0 (length s) with
  | Panic => Panic
  | Ok i =>
      match scan_down (length s) s i (length s) with
      | Panic => Panic
      | Ok j => if (0 <? i) || negb (j =? length s) then slice_ s i j else Ok s
      end
  end.
(** text.go:24-41 TrimBytes: the same statements over []byte *)
Definition trim_bytes (s : bytes) : res bytes :=
  match scan_up (length s) s 0 (length s) with
  | Panic => Panic
  | Ok i =>
      match scan_down (length s) s i (length s) with
      | Panic => Panic
      | Ok j => if (0 <? i) || negb (j =? length s) then slice_ s i j else Ok s
      end
  end.
(** text.go:47-50 isASCIILetter: b |= 0x20 *)
Definition is_ascii_letter (b : ascii) : bool :=
  let c := N.lor (bv b) 32 in ((97 <=? c) && (c <=? 122))%N.
