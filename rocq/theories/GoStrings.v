(** Environment model: the functions of Go's [strings], [bytes] and
    [net/textproto] packages that /repo calls.  Not code of /repo; trusted to
    describe the Go standard library (Go 1.23). *)
From Verif Require Import Base.

(** strings.HasPrefix / strings.CutPrefix *)
Fixpoint strip_prefix (p s : bytes) : option bytes :=
  match p, s with
  | [], _ => Some s
  | a :: p', b :: s' => if Ascii.eqb a b then strip_prefix p' s' else None
  | _ :: _, [] => None
  end.

Definition has_prefix (s p : bytes) : bool :=
  match strip_prefix p s with Some _ => true | None => false end.

(** strings.TrimPrefix *)
Definition trim_prefix (s p : bytes) : bytes :=
  match strip_prefix p s with Some r => r | None => s end.

(** strings.HasSuffix / TrimSuffix *)
Definition has_suffix (s p : bytes) : bool := has_prefix (rev s) (rev p).
Definition trim_suffix (s p : bytes) : bytes := rev (trim_prefix (rev s) (rev p)).

Fixpoint drop_while (f : ascii -> bool) (s : bytes) : bytes :=
  match s with
  | [] => []
  | c :: s' => if f c then drop_while f s' else s
  end.

(** strings.TrimLeft / TrimRight / Trim with a one-byte ASCII cutset *)
Definition trim_left (c : ascii) (s : bytes) : bytes := drop_while (Ascii.eqb c) s.
Definition trim_right (c : ascii) (s : bytes) : bytes := rev (trim_left c (rev s)).
Definition trim (c : ascii) (s : bytes) : bytes := trim_right c (trim_left c s).

(** strings.Split with a one-byte separator: never empty *)
Fixpoint split (c : ascii) (s : bytes) : list bytes :=
  match s with
  | [] => [[]]
  | x :: s' =>
      if Ascii.eqb x c then [] :: split c s'
      else match split c s' with
           | w :: ws => (x :: w) :: ws
           | [] => [[x]]
           end
  end.

(** strings.Join with a one-byte separator *)
Fixpoint join (c : ascii) (l : list bytes) : bytes :=
  match l with
  | [] => []
  | [w] => w
  | w :: l' => w ++ c :: join c l'
  end.

(** strings.Cut with a one-byte separator *)
Fixpoint cut (c : ascii) (s : bytes) : option (bytes * bytes) :=
  match s with
  | [] => None
  | x :: s' =>
      if Ascii.eqb x c then Some ([], s')
      else match cut c s' with
           | Some (a, b) => Some (x :: a, b)
           | None => None
           end
  end.

(** bytes.IndexByte *)
Fixpoint index_byte (c : ascii) (s : bytes) : option nat :=
  match s with
  | [] => None
  | x :: s' => if Ascii.eqb x c then Some O
               else match index_byte c s' with Some i => Some (S i) | None => None end
  end.

(** ** strings.TrimSpace
    Removes leading and trailing runes with [unicode.IsSpace], i.e. the
    white-space code points, here given by their UTF-8 encodings of one, two or
    three bytes.  A byte that starts no valid encoding decodes to U+FFFD, which
    is not a space, so stripping these exact encodings from the front (and, for
    DecodeLastRune, from the back) is what the library does. *)
Definition space1 (c : ascii) : bool :=   (* \t \n \v \f \r and ' ' *)
  let n := bv c in
  ((9 <=? n)%N && (n <=? 13)%N) || (n =? 32)%N.

Definition space2 (a b : ascii) : bool :=  (* U+0085, U+00A0 *)
  (bv a =? 194)%N && ((bv b =? 133)%N || (bv b =? 160)%N).

Definition space3 (a b c : ascii) : bool :=
  ((bv a =? 225)%N && (bv b =? 154)%N && (bv c =? 128)%N)            (* U+1680 *)
  || ((bv a =? 226)%N && (bv b =? 128)%N &&
      (((128 <=? bv c)%N && (bv c <=? 138)%N)                         (* U+2000..U+200A *)
       || (bv c =? 168)%N || (bv c =? 169)%N || (bv c =? 175)%N))     (* U+2028, U+2029, U+202F *)
  || ((bv a =? 226)%N && (bv b =? 129)%N && (bv c =? 159)%N)          (* U+205F *)
  || ((bv a =? 227)%N && (bv b =? 128)%N && (bv c =? 128)%N).         (* U+3000 *)

Fixpoint ltrim_space (s : bytes) : bytes :=
  match s with
  | [] => []
  | c1 :: r1 =>
      if space1 c1 then ltrim_space r1
      else match r1 with
           | [] => s
           | c2 :: r2 =>
               if space2 c1 c2 then ltrim_space r2
               else match r2 with
                    | [] => s
                    | c3 :: r3 => if space3 c1 c2 c3 then ltrim_space r3 else s
                    end
           end
  end.

(** the same on a reversed string *)
Fixpoint ltrim_space_rev (s : bytes) : bytes :=
  match s with
  | [] => []
  | c1 :: r1 =>
      if space1 c1 then ltrim_space_rev r1
      else match r1 with
           | [] => s
           | c2 :: r2 =>
               if space2 c2 c1 then ltrim_space_rev r2
               else match r2 with
                    | [] => s
                    | c3 :: r3 => if space3 c3 c2 c1 then ltrim_space_rev r3 else s
                    end
           end
  end.

Definition rtrim_space (s : bytes) : bytes := rev (ltrim_space_rev (rev s)).
Definition trim_space (s : bytes) : bytes := rtrim_space (ltrim_space s).

(** ** Letter case *)
Definition is_upper (c : ascii) : bool := (65 <=? bv c)%N && (bv c <=? 90)%N.
Definition is_lower (c : ascii) : bool := (97 <=? bv c)%N && (bv c <=? 122)%N.
Definition lower_ascii (c : ascii) : ascii := if is_upper c then ch (bv c + 32) else c.
Definition is_ascii (c : ascii) : bool := (bv c <? 128)%N.

(** strings.ToLower: the ASCII part is the real mapping, the behaviour on
    strings with a non-ASCII byte is the oracle [uni] (Unicode tables). *)
Definition to_lower (uni : bytes -> bytes) (s : bytes) : bytes :=
  if forallb is_ascii s then map lower_ascii s else uni s.

(** textproto.TrimString: ASCII blanks only (space, tab, \n, \r) *)
Definition is_ascii_blank (c : ascii) : bool :=
  let n := bv c in (n =? 32)%N || (n =? 9)%N || (n =? 10)%N || (n =? 13)%N.
Definition textproto_trim (s : bytes) : bytes :=
  rev (drop_while is_ascii_blank (rev (drop_while is_ascii_blank s))).
