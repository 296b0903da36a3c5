(** Model of the range code of /repo/static/fs.go and /repo/static/fs_utils.go. *)
From Verif Require Import Base GoStrings GoInt.
Local Open Scope Z_scope.

(** fs.go:865-867 httpRange *)
Record hrange := HRange { r_start : Z; r_len : Z }.

(** fs.go:227 errNoOverlap, fs.go:886 errInvalidRange (and the equal-text error of
    fs.go:940) *)
Inductive rerr := RInvalid | RNoOverlap.
(** their Error() texts *)
Definition rerr_text (e : rerr) : bytes :=
  match e with
  | RInvalid => B"invalid range"
  | RNoOverlap => B"invalid range: failed to overlap"
  end.

Section Parse.
  (** the reduction applied to the result of an int64 operation: [wrap64] in the
      program; the parameter is there to state that nothing wraps *)
  Variable w : Z -> Z.

  (** fs.go:910-963, one iteration on a non-empty, trimmed [ra]:
      None = return errInvalidRange; Some None = continue (no overlap);
      Some (Some r) = append r *)
  Definition parse_one (ra : bytes) (size : Z) : option (option hrange) :=
    match cut "-" ra with
    | None => None
    | Some (start, end_) =>
        let start := textproto_trim start in
        let end_ := textproto_trim end_ in
        if is_empty start then
          if is_empty end_ || match end_ with c :: _ => Ascii.eqb c "-" | [] => false end then None
          else match parse_int end_ with
               | None => None
               | Some i =>
                   if i <? 0 then None
                   else let i := if size <? i then size else i in
                        let st := w (size - i) in
                        Some (Some (HRange st (w (size - st))))
               end
        else match parse_int start with
             | None => None
             | Some i =>
                 if i <? 0 then None
                 else if size <=? i then Some None
                 else if is_empty end_ then Some (Some (HRange i (w (size - i))))
                 else match parse_int end_ with
                      | None => None
                      | Some j =>
                          if j <? i then None
                          else let j := if size <=? j then w (size - 1) else j in
                               Some (Some (HRange i (w (w (j - i) + 1))))
                      end
             end
    end.

  (** fs.go:905-966: the loop over the comma-separated pieces, the accumulated
      ranges and the noOverlap flag *)
  Fixpoint parse_pieces (ps : list bytes) (size : Z) (ranges : list hrange) (no_overlap : bool)
    : list hrange * bool + rerr :=
    match ps with
    | [] => inl (ranges, no_overlap)
    | ra :: ps' =>
        let ra := textproto_trim ra in
        if is_empty ra then parse_pieces ps' size ranges no_overlap
        else match parse_one ra size with
             | None => inr RInvalid
             | Some None => parse_pieces ps' size ranges true
             | Some (Some r) => parse_pieces ps' size (ranges ++ [r]) no_overlap
             end
    end.

  (** fs.go:894-974 parseRange *)
  Definition parse_range_w (s : bytes) (size : Z) : list hrange + rerr :=
    if is_empty s then inl []
    else match strip_prefix (B"bytes=") s with
         | None => inr RInvalid
         | Some rest =>
             match parse_pieces (split "," rest) size [] false with
             | inr e => inr e
             | inl (ranges, no_overlap) =>
                 if no_overlap && is_empty ranges then inr RNoOverlap else inl ranges
             end
         end.
  (** fs_utils.go:55-60 sumRangesSize *)
  Definition sum_ranges_w (rs : list hrange) : Z :=
    fold_left (fun size r => w (size + r_len r)) rs 0.
End Parse.

Definition parse_range := parse_range_w wrap64.
Definition sum_ranges := sum_ranges_w wrap64.

(** fs.go:869-875 httpRange.contentRange (the Sprintf format contains no '%') *)
Definition content_range (r : hrange) (size : Z) : bytes :=
  B"bytes " ++ fmt_int (r_start r) ++ B"-" ++
  fmt_int (wrap64 (wrap64 (r_start r + r_len r) - 1)) ++ B"/" ++ fmt_int size.

(** ** mime/multipart.Writer (environment) and its use *)
Definition crlf : bytes := [ch 13; ch 10].
(** CreatePart with the two headers of httpRange.mimeHeader (fs.go:877-882), keys in
    sorted order; [first]: no part was created before *)
Definition create_part (boundary : bytes) (first : bool) (r : hrange) (ctype : bytes) (size : Z) : bytes :=
  (if first then B"--" else crlf ++ B"--") ++ boundary ++ crlf ++
  B"Content-Range: " ++ content_range r size ++ crlf ++
  B"Content-Type: " ++ ctype ++ crlf ++ crlf.
(** Writer.Close *)
Definition close_mw (boundary : bytes) : bytes := crlf ++ B"--" ++ boundary ++ B"--" ++ crlf.

(** fs_utils.go:31-36 countingWriter.Write: *w += len(p), int64 *)
Definition count_write (w : Z) (p : bytes) : Z := wrap64 (w + Z.of_nat (length p)).
(** fs_utils.go:40-53 rangesMIMESize; CreatePart and Close cannot fail on a
    countingWriter.  [boundary]: the random boundary of this writer *)
Fixpoint mime_loop (boundary : bytes) (first : bool) (rs : list hrange) (ctype : bytes) (size : Z)
         (w enc : Z) : Z * Z :=
  match rs with
  | [] => (w, enc)
  | r :: rs' => mime_loop boundary false rs' ctype size
                          (count_write w (create_part boundary first r ctype size))
                          (wrap64 (enc + r_len r))
  end.
Definition ranges_mime_size (boundary : bytes) (rs : list hrange) (ctype : bytes) (size : Z) : Z :=
  let '(w, enc) := mime_loop boundary true rs ctype size 0 0 in
  let w := count_write w (close_mw boundary) in
  wrap64 (enc + w).
