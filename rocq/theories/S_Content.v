(** Specification vocabulary for content responses, written without the model. *)
From Verif Require Import Base GoInt.
Local Open Scope Z_scope.

(** [part] is the [n] bytes of [data] that start at offset [a] *)
Definition bytes_at (data : bytes) (a n : Z) (part : bytes) : Prop :=
  exists before after, data = before ++ part ++ after /\
    Z.of_nat (length before) = a /\ Z.of_nat (length part) = n.

(** RFC 7233 4.2: the value of a Content-Range field; decimal numerals are canonical *)
Definition content_range_value (a n size : Z) : bytes :=
  B"bytes " ++ fmt_int a ++ B"-" ++ fmt_int (a + n - 1) ++ B"/" ++ fmt_int size.

(** RFC 2046 5.1.1, RFC 7233 4.1: a multipart/byteranges body.  [multipart b ct data size rs body]:
    [body] is one part per range of [rs], in order, each with its Content-Range and
    Content-Type, and the closing delimiter *)
Definition eol : bytes := [ch 13; ch 10].
Definition part_head (b ct : bytes) (a n size : Z) : bytes :=
  B"--" ++ b ++ eol ++
  B"Content-Range: " ++ content_range_value a n size ++ eol ++
  B"Content-Type: " ++ ct ++ eol ++ eol.
Inductive multipart (b ct data : bytes) (size : Z) : list (Z * Z) -> bytes -> Prop :=
| MP_end : multipart b ct data size [] (B"--" ++ b ++ B"--" ++ eol)
| MP_part a n rs chunk rest :
    bytes_at data a n chunk -> multipart b ct data size rs rest ->
    multipart b ct data size ((a, n) :: rs) (part_head b ct a n size ++ chunk ++ eol ++ rest).
