(** Model of Context.UniqId (/repo/ctx.go:25-27, 79, 248-250), over an environment model of
    hash/crc64 (the byte-at-a-time algorithm; the slicing-by-8 variant Go uses for long inputs
    computes the same function). *)
From Verif Require Import Base GoInt.
Local Open Scope N_scope.

(** Environment: crc64.ISO *)
Definition iso : N := 15564440312192434176.                     (* 0xD800000000000000 *)
Definition all_ones : N := 18446744073709551615.                (* 2^64 - 1 *)
(** Environment: crc64.makeTable, one of the eight turns, and an entry of the table *)
Definition turn (crc : N) : N :=
  if N.odd crc then N.lxor (N.shiftr crc 1) iso else N.shiftr crc 1.
Definition entry (i : N) : N := Nat.iter 8 turn i.
(** Environment: crc64.update and Checksum *)
Definition add_byte (crc : N) (v : ascii) : N :=
  N.lxor (entry (N.lxor (N.land crc 255) (bv v))) (N.shiftr crc 8).
Definition checksum (p : bytes) : N := N.lxor (fold_left add_byte p (N.lxor 0 all_ones)) all_ones.

(** ctx.go:79: the id of a request that arrives at the given UnixNano for the given path *)
Definition uniq_id (nano : Z) (path : bytes) : N := checksum (fmt_int nano ++ path).

(** the check value of CRC-64/GO-ISO *)
Example checksum_123456789 : checksum (B"123456789") = 13333283586479230977.
Proof. vm_compute. reflexivity. Qed.
