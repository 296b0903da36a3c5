(** Specification of entity tags and conditional requests (RFC 7232), written without
    the model's scanner. *)
From Verif Require Import Base S_Range.

(** An entity tag: weak or strong, with an opaque part of allowed bytes. *)
(** ** Entity tags *)
Record etag := ETag { e_weak : bool; e_opaque : bytes }.
Definition etagc (c : ascii) : Prop :=
  (bv c = 33 \/ (35 <= bv c <= 126) \/ 128 <= bv c)%N.
Definition valid_etag (e : etag) : Prop := Forall etagc (e_opaque e).
Definition quoted (o : bytes) : bytes := """"%char :: o ++ [""""%char].
Definition render (e : etag) : bytes :=
  (if e_weak e then B"W/" else []) ++ quoted (e_opaque e).

(** [listed s x]: reading header value [s] from left to right, skipping blanks and
    commas, comes across the item [x] (a tag or a star) before anything that is neither *)
Inductive item := Star | Tag (e : etag).
Inductive listed : bytes -> item -> Prop :=
| L_blank c s x : blank_byte c -> listed s x -> listed (c :: s) x
| L_comma s x : listed s x -> listed (","%char :: s) x
| L_star s : listed ("*"%char :: s) Star
| L_here e s : valid_etag e -> listed (render e ++ s) (Tag e)
| L_after e s x : valid_etag e -> listed s x -> listed (render e ++ s) x.

(** well-formed lists: comma-separated tags, with optional blanks and empty elements *)
Inductive etag_element : list etag -> bytes -> Prop :=
| EE0 o : ows o -> etag_element [] o
| EE1 o1 e o2 : ows o1 -> ows o2 -> valid_etag e -> etag_element [e] (o1 ++ render e ++ o2).
Inductive etag_list : list etag -> bytes -> Prop :=
| EL1 es s : etag_element es s -> etag_list es s
| ELcons es s es' t : etag_element es s -> etag_list es' t -> etag_list (es ++ es') (s ++ ","%char :: t).

(** strong comparison with the response's ETag header value, and weak comparison *)
Definition strong_eq (e : etag) (v : bytes) : Prop := e_weak e = false /\ v = quoted (e_opaque e).
Definition weak_eq (e : etag) (v : bytes) : Prop :=
  v = quoted (e_opaque e) \/ v = B"W/" ++ quoted (e_opaque e).

(** the If-Match condition holds, the If-None-Match condition fails *)
Definition if_match_ok (header v : bytes) : Prop :=
  listed header Star \/ exists e, listed header (Tag e) /\ strong_eq e v.
Definition none_match_hit (header v : bytes) : Prop :=
  listed header Star \/ exists e, listed header (Tag e) /\ weak_eq e v.

(** ** Dates *)
Local Open Scope Z_scope.
(** [text] is an HTTP date for instant [t] (nanoseconds): one of the accepted formats reads
    it as [t] and no earlier one reads it at all *)
Definition http_date (time_parse : bytes -> bytes -> option Z) (formats : list bytes) (text : bytes) (t : Z) : Prop :=
  exists fs1 f fs2, formats = fs1 ++ f :: fs2 /\ time_parse f text = Some t /\
    Forall (fun g => time_parse g text = None) fs1.
(** a modification time is known unless it is the zero time or the Unix epoch *)
Definition year1 : Z := -62135596800000000000.
Definition known (m : Z) : Prop := m <> year1 /\ m <> 0.
(** the whole seconds elapsed at instant [t]: s with s*10^9 <= t < (s+1)*10^9 *)
Definition in_second (t s : Z) : Prop := s * 1000000000 <= t < (s + 1) * 1000000000.
(** the resource was modified after [t], at the resolution of one second *)
Definition modified_after (m t : Z) : Prop := exists s, in_second m s /\ t < s * 1000000000.
