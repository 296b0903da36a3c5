(** Specification vocabulary for the request side of Context (C38-C44, C76). *)
From Verif Require Import Base GoStrings M_Ctx.

(** the values given for key [k], in order of occurrence *)
Fixpoint values (a : list (bytes * bytes)) (k : bytes) : list bytes :=
  match a with
  | [] => []
  | (k', v) :: a' => if beq k' k then v :: values a' k else values a' k
  end.
(** first of a list that passes a test *)
Fixpoint first_that {A} (f : A -> bool) (l : list A) (d : A) : A :=
  match l with [] => d | x :: l' => if f x then x else first_that f l' d end.
Definition non_empty {A} (l : list A) : bool := negb (is_empty l).

(** equality ignoring ASCII letter case *)
Definition same_ci (a b : bytes) : Prop := Forall2 (fun x y => lower_ascii x = lower_ascii y) a b.
(** Unicode fact used for PeekBoolParam: lower-casing a string with a non-ASCII byte
    never yields one of the four ASCII words (only U+0130 and U+212A lower-case to an
    ASCII letter, to 'i' and 'k', which do not occur in them). *)
Definition lower_ok (uni : bytes -> bytes) : Prop :=
  forall s, forallb is_ascii s = false -> ~ In (uni s) [B""; B"0"; B"f"; B"false"].

(** Data of a family of contexts as plain values: each context is a partial function,
    Set updates one, Clone copies one. *)
Section DataSpec.
  Context {V : Type}.
  Definition dspec1 (ms : list (bytes -> option V)) (o : dop V) : list (bytes -> option V) :=
    match o with
    | DNew => ms ++ [fun _ => None]
    | DSet c k v => upd_nth c (fun m k' => if beq k' k then Some v else m k') ms
    | DClone c => ms ++ [nth c ms (fun _ => None)]
    end.
  Definition dspec (os : list (dop V)) : list (bytes -> option V) := fold_left dspec1 os [].
End DataSpec.

(** Host and port: [h] is the host part of [s]. *)
Definition all_digits (d : bytes) : Prop := forall c, In c d -> In c (B"0123456789").
Definition host_part (s h : bytes) : Prop :=
  (exists port, s = h ++ ":"%char :: port /\ all_digits port) \/
  (s = h /\ ~ exists h' port, s = h' ++ ":"%char :: port /\ all_digits port).
(** one pair of enclosing brackets removed *)
Definition unbracketed (h r : bytes) : Prop :=
  h = "["%char :: r ++ ["]"%char] \/ (r = h /\ ~ exists r', h = "["%char :: r' ++ ["]"%char]).

(** Query unescaping of a cookie value, as a client does it. *)
Definition hex_val (c : ascii) : option N :=
  let n := bv c in
  if ((48 <=? n) && (n <=? 57))%N then Some (n - 48)%N
  else if ((65 <=? n) && (n <=? 70))%N then Some (n - 55)%N
  else if ((97 <=? n) && (n <=? 102))%N then Some (n - 87)%N else None.
Fixpoint query_unescape (s : bytes) : option bytes :=
  match s with
  | [] => Some []
  | c :: s' =>
      if Ascii.eqb c "%" then
        match s' with
        | a :: b :: s'' =>
            match hex_val a, hex_val b, query_unescape s'' with
            | Some x, Some y, Some r => Some (ch (x * 16 + y) :: r)
            | _, _, _ => None
            end
        | _ => None
        end
      else if Ascii.eqb c "+" then option_map (cons " "%char) (query_unescape s')
      else option_map (cons c) (query_unescape s')
  end.
(** RFC 6265 cookie-octet: what may appear in a cookie value *)
Definition cookie_octet (c : ascii) : bool :=
  let n := bv c in
  ((n =? 33) || (35 <=? n) && (n <=? 43) || (45 <=? n) && (n <=? 58)
   || (60 <=? n) && (n <=? 91) || (93 <=? n) && (n <=? 126))%N.
