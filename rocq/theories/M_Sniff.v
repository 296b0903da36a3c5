(** Model of /repo/static/sniff.go.  Indexing and slicing are checked: an access out of
    range is [Panic] (Go only panics beyond the capacity when slicing, so this is stricter). *)
From Verif Require Import Base GoStrings M_Text.

Definition bs (l : list N) : bytes := map ch l.


(** sniff.go:38-44 isWS *)
Definition is_ws (c : ascii) : bool :=
  ((bv c =? 9) || (bv c =? 10) || (bv c =? 12) || (bv c =? 13) || (bv c =? 32))%N.
(** sniff.go:48-54 isTT *)
Definition is_tt (c : ascii) : bool := ((bv c =? 32) || (bv c =? 62))%N.

(** the dynamic types of sniffSig: sniff.go:195-198, 207-211, 235, 262, 289, 319 *)
Inductive sig :=
| SHtml (h : bytes)
| SExact (s ct : bytes)
| SMasked (mask pat : bytes) (skip_ws : bool) (ct : bytes)
| SMp4
| SQuick
| SText.

Definition bind {A C} (x : res A) (f : A -> res C) : res C :=
  match x with Ok a => f a | Panic => Panic end.
Definition index (s : bytes) (i : nat) : res ascii :=
  match nth_error s i with Some c => Ok c | None => Panic end.

(** sniff.go:200-205 exactSig.match; the empty string is "no match" *)
Definition match_exact (s ct data : bytes) : res bytes :=
  Ok (if has_prefix data s then ct else []).

(** sniff.go:226-231: the range loop over m.pat from index [i] on *)
Fixpoint masked_loop (data mask : bytes) (i : nat) (pat ct : bytes) : res bytes :=
  match pat with
  | [] => Ok ct
  | pb :: pat' =>
      bind (index data i) (fun d => bind (index mask i) (fun m =>
        if (N.land (bv d) (bv m) =? bv pb)%N then masked_loop data mask (S i) pat' ct else Ok []))
  end.
(** sniff.go:213-233 maskedSig.match *)
Definition match_masked (mask pat : bytes) (skip_ws : bool) (ct data : bytes) (first : nat) : res bytes :=
  bind (if skip_ws then slice_ data first (length data) else Ok data) (fun data =>
  if negb (length pat =? length mask) then Ok []
  else if length data <? length pat then Ok []
  else masked_loop data mask 0 pat ct).

(** sniff.go:243-251: the range loop over h *)
Fixpoint html_loop (data : bytes) (i : nat) (h : bytes) : res bool :=
  match h with
  | [] => Ok true
  | b :: h' =>
      bind (index data i) (fun d =>
        let db := if is_upper b then N.land (bv d) 223 else bv d in   (* db &= 0xDF *)
        if (bv b =? db)%N then html_loop data (S i) h' else Ok false)
  end.
(** sniff.go:237-256 htmlSig.match *)
Definition match_html (h data : bytes) (first : nat) : res bytes :=
  bind (slice_ data first (length data)) (fun data =>
  if length data <? length h + 1 then Ok []
  else bind (html_loop data 0 h) (fun ok =>
       if negb ok then Ok []
       else bind (index data (length h)) (fun c =>
            Ok (if is_tt c then B"text/html; charset=utf-8" else [])))).

(** binary.BigEndian.Uint32 of a slice of at least four bytes *)
Definition be32 (s : bytes) : res N :=
  match s with
  | a :: b :: c :: d :: _ => Ok (((bv a * 256 + bv b) * 256 + bv c) * 256 + bv d)%N
  | _ => Panic
  end.
(** sniff.go:277-285 and 306-314: for st := 8; st < boxSize; st += 4.  The number of
    iterations is bounded by [fuel]; running out of it is modelled as [Panic] and shown
    impossible with the rest (C57). *)
Fixpoint brand_loop (fuel : nat) (data brand : bytes) (st box : nat) (ct : bytes) : res bytes :=
  if st <? box then
    match fuel with
    | O => Panic
    | S f =>
        if st =? 12 then brand_loop f data brand (st + 4) box ct
        else bind (slice_ data st (st + length brand)) (fun x =>
             if beq x brand then Ok ct else brand_loop f data brand (st + 4) box ct)
    end
  else Ok [].
(** sniff.go:264-287 mp4Sig.match (brand "mp4") and 291-317 quicktimeSig.match (brand "qt") *)
Definition match_ftyp (brand ct data : bytes) : res bytes :=
  if length data <? 12 then Ok []
  else bind (slice_ data 0 4) (fun h => bind (be32 h) (fun box =>
       if (N.of_nat (length data) <? box)%N || negb (box mod 4 =? 0)%N then Ok []
       else bind (slice_ data 4 8) (fun t =>
            if negb (beq t (B"ftyp")) then Ok []
            else brand_loop (length data) data brand 8 (N.to_nat box) ct))).

(** sniff.go:325-330: a byte that makes the data binary *)
Definition is_binary (c : ascii) : bool :=
  ((bv c <=? 8) || (bv c =? 11) || ((14 <=? bv c) && (bv c <=? 26)) || ((28 <=? bv c) && (bv c <=? 31)))%N.
(** sniff.go:321-333 textSig.match *)
Definition match_text (data : bytes) (first : nat) : res bytes :=
  bind (slice_ data first (length data)) (fun d =>
  Ok (if existsb is_binary d then [] else B"text/plain; charset=utf-8")).

Definition match_sig (s : sig) (data : bytes) (first : nat) : res bytes :=
  match s with
  | SHtml h => match_html h data first
  | SExact s ct => match_exact s ct data
  | SMasked mask pat skip ct => match_masked mask pat skip ct data first
  | SMp4 => match_ftyp (B"mp4") (B"video/mp4") data
  | SQuick => match_ftyp (B"qt") (B"video/quicktime") data
  | SText => match_text data first
  end.

(** sniff.go:62-193 sniffSignatures *)
Definition signatures : list sig :=
  [ SHtml (B"<!DOCTYPE HTML");
    SHtml (B"<HTML");
    SHtml (B"<HEAD");
    SHtml (B"<SCRIPT");
    SHtml (B"<IFRAME");
    SHtml (B"<H1");
    SHtml (B"<DIV");
    SHtml (B"<FONT");
    SHtml (B"<TABLE");
    SHtml (B"<A");
    SHtml (B"<STYLE");
    SHtml (B"<TITLE");
    SHtml (B"<B");
    SHtml (B"<BODY");
    SHtml (B"<BR");
    SHtml (B"<P");
    SHtml (B"<!--");
    SMasked (bs [255; 255; 255; 255; 255]%N)
      (bs [60; 63; 120; 109; 108]%N) true (B"text/xml; charset=utf-8");
    SExact (bs [37; 80; 68; 70; 45]%N) (B"application/pdf");
    SExact (bs [37; 33; 80; 83; 45; 65; 100; 111; 98; 101; 45]%N) (B"application/postscript");
    SMasked (bs [255; 255; 0; 0]%N)
      (bs [254; 255; 0; 0]%N) false (B"text/plain; charset=utf-16be");
    SMasked (bs [255; 255; 0; 0]%N)
      (bs [255; 254; 0; 0]%N) false (B"text/plain; charset=utf-16le");
    SMasked (bs [255; 255; 255; 0]%N)
      (bs [239; 187; 191; 0]%N) false (B"text/plain; charset=utf-8");
    SExact (bs [0; 0; 1; 0]%N) (B"image/x-icon");
    SExact (bs [0; 0; 2; 0]%N) (B"image/x-icon");
    SExact (bs [66; 77]%N) (B"image/bmp");
    SExact (bs [71; 73; 70; 56; 55; 97]%N) (B"image/gif");
    SExact (bs [71; 73; 70; 56; 57; 97]%N) (B"image/gif");
    SMasked (bs [255; 255; 255; 255; 0; 0; 0; 0; 255; 255; 255; 255; 255; 255]%N)
      (bs [82; 73; 70; 70; 0; 0; 0; 0; 87; 69; 66; 80; 86; 80]%N) false (B"image/webp");
    SExact (bs [137; 80; 78; 71; 13; 10; 26; 10]%N) (B"image/png");
    SExact (bs [255; 216; 255]%N) (B"image/jpeg");
    SMasked (bs [255; 255; 255; 255; 0; 0; 0; 0; 255; 255; 255; 255]%N)
      (bs [70; 79; 82; 77; 0; 0; 0; 0; 65; 73; 70; 70]%N) false (B"audio/aiff");
    SMasked (bs [255; 255; 255]%N)
      (bs [73; 68; 51]%N) false (B"audio/mpeg");
    SMasked (bs [255; 255; 255; 255; 255]%N)
      (bs [79; 103; 103; 83; 0]%N) false (B"application/ogg");
    SMasked (bs [255; 255; 255; 255; 255; 255; 255; 255]%N)
      (bs [77; 84; 104; 100; 0; 0; 0; 6]%N) false (B"audio/midi");
    SMasked (bs [255; 255; 255; 255; 0; 0; 0; 0; 255; 255; 255; 255]%N)
      (bs [82; 73; 70; 70; 0; 0; 0; 0; 65; 86; 73; 32]%N) false (B"video/avi");
    SMasked (bs [255; 255; 255; 255; 0; 0; 0; 0; 255; 255; 255; 255]%N)
      (bs [82; 73; 70; 70; 0; 0; 0; 0; 87; 65; 86; 69]%N) false (B"audio/wave");
    SMp4;
    SQuick;
    SExact (bs [26; 69; 223; 163]%N) (B"video/webm");
    SMasked (bs [0; 0; 0; 0; 0; 0; 0; 0; 0; 0; 0; 0; 0; 0; 0; 0; 0; 0; 0; 0; 0; 0; 0; 0; 0; 0; 0; 0; 0; 0; 0; 0; 0; 0; 255; 255]%N)
      (bs [0; 0; 0; 0; 0; 0; 0; 0; 0; 0; 0; 0; 0; 0; 0; 0; 0; 0; 0; 0; 0; 0; 0; 0; 0; 0; 0; 0; 0; 0; 0; 0; 0; 0; 76; 80]%N) false (B"application/vnd.ms-fontobject");
    SExact (bs [0; 1; 0; 0]%N) (B"font/ttf");
    SExact (bs [79; 84; 84; 79]%N) (B"font/otf");
    SExact (bs [116; 116; 99; 102]%N) (B"font/collection");
    SExact (bs [119; 79; 70; 70]%N) (B"font/woff");
    SExact (bs [119; 79; 70; 50]%N) (B"font/woff2");
    SExact (bs [31; 139; 8]%N) (B"application/x-gzip");
    SExact (bs [80; 75; 3; 4]%N) (B"application/zip");
    SExact (bs [82; 97; 114; 33; 26; 7; 0]%N) (B"application/x-rar-compressed");
    SExact (bs [82; 97; 114; 33; 26; 7; 1; 0]%N) (B"application/x-rar-compressed");
    SExact (bs [0; 97; 115; 109]%N) (B"application/wasm");
    SText ].

(** sniff.go:24-25: firstNonWS *)
Fixpoint first_non_ws (data : bytes) : nat :=
  match data with
  | c :: data' => if is_ws c then S (first_non_ws data') else 0
  | [] => 0
  end.
(** sniff.go:27-31: the loop over the signatures *)
Fixpoint try_sigs (l : list sig) (data : bytes) (first : nat) : res bytes :=
  match l with
  | [] => Ok (B"application/octet-stream")
  | s :: l' => bind (match_sig s data first) (fun ct =>
               if is_empty ct then try_sigs l' data first else Ok ct)
  end.
(** sniff.go:17-34 DetectContentType *)
Definition detect_content_type (data : bytes) : res bytes :=
  bind (if 512 <? length data then slice_ data 0 512 else Ok data) (fun data =>
  try_sigs signatures data (first_non_ws data)).
