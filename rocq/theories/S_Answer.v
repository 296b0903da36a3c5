(** Specification vocabulary for complete content responses (C139), written without the model. *)
From Verif Require Import Base GoInt S_Cond.
From Verif Require S_Sniff.
Local Open Scope Z_scope.

(** header fields of a response: the value of every name, empty if it is not there *)
Definition headers := bytes -> bytes.
Definition put (k v : bytes) (h : headers) : headers := fun k' => if beq k' k then v else h k'.
Definition without (k : bytes) (h : headers) : headers := put k [] h.

(** the date of a known modification time (S_Cond) *)
Definition dated (fmt_time : Z -> bytes) (m : Z) (h h' : headers) : Prop :=
  (known m /\ h' = put (B"Last-Modified") (fmt_time m) h) \/ (~ known m /\ h' = h).
(** the fields that describe content of [n] bytes; the length is not given if the handler has
    set a Content-Encoding *)
Definition sized (n : Z) (h : headers) : headers :=
  let h1 := put (B"Accept-Ranges") (B"bytes") h in
  match h (B"Content-Encoding") with [] => put (B"Content-Length") (fmt_int n) h1 | _ => h1 end.
(** an error text *)
Definition refused (h : headers) : headers :=
  put (B"X-Content-Type-Options") (B"nosniff") (put (B"Content-Type") (B"text/plain; charset=utf-8") h).
(** nothing about the content in a 304; the date only without an entity tag *)
Definition bare (h : headers) : headers :=
  let h1 := without (B"Content-Encoding") (without (B"Content-Length") (without (B"Content-Type") h)) in
  match h (B"Etag") with [] => h1 | _ => without (B"Last-Modified") h1 end.

(** the extension of a file name: from the last dot of its last element on *)
Definition extension (name ext : bytes) : Prop :=
  exists dir base, name = dir ++ base /\ (dir = [] \/ exists d, dir = d ++ B"/") /\ ~ In "/"%char base /\
    ((~ In "."%char base /\ ext = []) \/
     exists x y, base = x ++ "."%char :: y /\ ~ In "."%char y /\ ext = "."%char :: y).

(** the type of the content: what the request says, else the type registered for the extension,
    else what its first 512 bytes look like *)
Inductive content_type (mime_type : bytes -> bytes) (asked name data : bytes) : bytes -> Prop :=
| CT_asked : asked <> [] -> content_type mime_type asked name data asked
| CT_extension ext : asked = [] -> extension name ext -> mime_type ext <> [] ->
    content_type mime_type asked name data (mime_type ext)
| CT_sniffed ext ct : asked = [] -> extension name ext -> mime_type ext = [] ->
    S_Sniff.sniffed (firstn 512 data) S_Sniff.sniff_table ct ->
    content_type mime_type asked name data ct.
