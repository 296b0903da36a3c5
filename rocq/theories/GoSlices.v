(** Environment model: Go slices over a heap of arrays.  Elements are handler
    values, represented by their identity (0 = the nil interface); the code only
    moves them around. *)
From Verif Require Import Base.

Definition hid := nat.
Definition heap := list (list hid).
Record slice := Slice { sl_arr : nat; sl_off : nat; sl_len : nat; sl_cap : nat }.

(** the elements of a slice *)
Definition read (h : heap) (s : slice) : list hid :=
  firstn (sl_len s) (skipn (sl_off s) (nth (sl_arr s) h [])).

(** overwrite part of an array *)
Definition overwrite (pos : nat) (xs a : list hid) : list hid :=
  firstn pos a ++ xs ++ skipn (pos + length xs) a.
Definition write (h : heap) (arr pos : nat) (xs : list hid) : heap :=
  upd_nth arr (overwrite pos xs) h.

(** a fresh array holding [xs] and [extra] further (nil) cells *)
Definition alloc (h : heap) (xs : list hid) (extra : nat) : heap * slice :=
  (h ++ [xs ++ repeat 0 extra], Slice (length h) 0 (length xs) (length xs + extra)).

Section Append.
  (** Runtime growth policy: spare cells of a grown array, from the old capacity
      and the needed length. *)
  Variable grow : nat -> nat -> nat.

  (** append(s, xs...) *)
  Definition append (h : heap) (s : slice) (xs : list hid) : heap * slice :=
    let need := sl_len s + length xs in
    if need <=? sl_cap s
    then (write h (sl_arr s) (sl_off s + sl_len s) xs,
          Slice (sl_arr s) (sl_off s) need (sl_cap s))
    else alloc h (read h s ++ xs) (grow (sl_cap s) need).
End Append.

(** growslice of the Go runtime for small slices of interface values: double the
    capacity unless more is needed (for up to four elements the size-class
    rounding is exact) *)
Definition go_grow (oldcap need : nat) : nat :=
  if 2 * oldcap <? need then 0 else 2 * oldcap - need.
