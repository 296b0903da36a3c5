(** Reference for content sniffing, written from the WHATWG MIME sniffing standard
    (https://mimesniff.spec.whatwg.org, sections 6 and 7.1), without the model. *)
From Verif Require Import Base.

(** what a leading part of the data looks like: a given byte, or any byte *)
Definition pattern := list (option ascii).
Definition lit (s : bytes) : pattern := map Some s.
Definition hex (l : list N) : pattern := map (fun n => Some (ch n)) l.
Definition any (n : nat) : pattern := repeat None n.
Definition fits (o : option ascii) (b : ascii) : Prop := match o with Some a => b = a | None => True end.
Definition starts_with (p : pattern) (d : bytes) : Prop := exists x rest, d = x ++ rest /\ Forall2 fits p x.

Definition space_byte (c : ascii) : Prop := In c [ch 9; ch 10; ch 12; ch 13; " "%char].
Definition after_space (P : bytes -> Prop) (d : bytes) : Prop := exists w t, d = w ++ t /\ Forall space_byte w /\ P t.
Definition control_byte (c : ascii) : Prop :=
  (bv c < 32 /\ bv c <> 9 /\ bv c <> 10 /\ bv c <> 12 /\ bv c <> 13 /\ bv c <> 27)%N.
Definition lower_of (c : ascii) : ascii := if ((65 <=? bv c) && (bv c <=? 90))%N then ch (bv c + 32) else c.

Inductive rule :=
| Tag (t : bytes)              (* after blanks, the tag in any case, ended by a blank or > *)
| Start (p : pattern)
| StartBlank (p : pattern)     (* after blanks *)
| Box (brand : bytes)          (* an ISO base media file of the brand *)
| Plain.                       (* no control bytes *)

(** a box: its size in four bytes, big endian, a multiple of four and within the data; the type
    "ftyp"; the brand at the start of the major brand (offset 8) or of a compatible one (offsets 16, 20, ...) *)
Definition box_of (brand d : bytes) : Prop :=
  12 <= length d /\
  (exists a b c e body, d = [a; b; c; e] ++ B"ftyp" ++ body /\
    let size := (bv a * 16777216 + bv b * 65536 + bv c * 256 + bv e)%N in
    (size <= N.of_nat (length d))%N /\ (exists k, size = 4 * k)%N /\
    exists k pre post, d = pre ++ brand ++ post /\ length pre = 4 * k /\ 2 <= k /\ k <> 3 /\ (N.of_nat (length pre) < size)%N).
Definition applies (r : rule) (d : bytes) : Prop :=
  match r with
  | Tag t => after_space (fun s => exists x c rest, s = x ++ c :: rest /\
               map lower_of x = map lower_of t /\ (c = " "%char \/ c = ">"%char)) d
  | Start p => starts_with p d
  | StartBlank p => after_space (starts_with p) d
  | Box brand => box_of brand d
  | Plain => Forall (fun c => ~ control_byte c) d
  end.

Definition sniff_table : list (rule * bytes) :=
  map (fun t => (Tag t, B"text/html; charset=utf-8"))
    [B"<!DOCTYPE HTML"; B"<HTML"; B"<HEAD"; B"<SCRIPT"; B"<IFRAME"; B"<H1"; B"<DIV"; B"<FONT"; B"<TABLE"; B"<A";
     B"<STYLE"; B"<TITLE"; B"<B"; B"<BODY"; B"<BR"; B"<P"; B"<!--"] ++
  [ (StartBlank (lit (B"<?xml")), B"text/xml; charset=utf-8");
    (Start (lit (B"%PDF-")), B"application/pdf");
    (Start (lit (B"%!PS-Adobe-")), B"application/postscript");
    (Start (hex [254; 255] ++ any 2), B"text/plain; charset=utf-16be");
    (Start (hex [255; 254] ++ any 2), B"text/plain; charset=utf-16le");
    (Start (hex [239; 187; 191] ++ any 1), B"text/plain; charset=utf-8");
    (Start (hex [0; 0; 1; 0]), B"image/x-icon");
    (Start (hex [0; 0; 2; 0]), B"image/x-icon");
    (Start (lit (B"BM")), B"image/bmp");
    (Start (lit (B"GIF87a")), B"image/gif");
    (Start (lit (B"GIF89a")), B"image/gif");
    (Start (lit (B"RIFF") ++ any 4 ++ lit (B"WEBPVP")), B"image/webp");
    (Start (hex [137] ++ lit (B"PNG") ++ hex [13; 10; 26; 10]), B"image/png");
    (Start (hex [255; 216; 255]), B"image/jpeg");
    (Start (lit (B"FORM") ++ any 4 ++ lit (B"AIFF")), B"audio/aiff");
    (Start (lit (B"ID3")), B"audio/mpeg");
    (Start (lit (B"OggS") ++ hex [0]), B"application/ogg");
    (Start (lit (B"MThd") ++ hex [0; 0; 0; 6]), B"audio/midi");
    (Start (lit (B"RIFF") ++ any 4 ++ lit (B"AVI ")), B"video/avi");
    (Start (lit (B"RIFF") ++ any 4 ++ lit (B"WAVE")), B"audio/wave");
    (Box (B"mp4"), B"video/mp4");
    (Box (B"qt"), B"video/quicktime");
    (Start (hex [26; 69; 223; 163]), B"video/webm");
    (Start (any 34 ++ lit (B"LP")), B"application/vnd.ms-fontobject");
    (Start (hex [0; 1; 0; 0]), B"font/ttf");
    (Start (lit (B"OTTO")), B"font/otf");
    (Start (lit (B"ttcf")), B"font/collection");
    (Start (lit (B"wOFF")), B"font/woff");
    (Start (lit (B"wOF2")), B"font/woff2");
    (Start (hex [31; 139; 8]), B"application/x-gzip");
    (Start (lit (B"PK") ++ hex [3; 4]), B"application/zip");
    (Start (lit (B"Rar!") ++ hex [26; 7; 0]), B"application/x-rar-compressed");
    (Start (lit (B"Rar!") ++ hex [26; 7; 1; 0]), B"application/x-rar-compressed");
    (Start (hex [0] ++ lit (B"asm")), B"application/wasm");
    (Plain, B"text/plain; charset=utf-8") ]%N.

(** the first rule of the table that applies decides *)
Inductive sniffed (d : bytes) : list (rule * bytes) -> bytes -> Prop :=
| Sniff_none : sniffed d [] (B"application/octet-stream")
| Sniff_this r ct l : applies r d -> sniffed d ((r, ct) :: l) ct
| Sniff_next r ct l x : ~ applies r d -> sniffed d l x -> sniffed d ((r, ct) :: l) x.
