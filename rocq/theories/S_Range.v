(** Specification of byte ranges (RFC 7233, section 2.1), written without the
    model's parser. *)
From Verif Require Import Base GoInt.
Local Open Scope Z_scope.

(** byte-range-spec and suffix-byte-range-spec *)
Inductive rspec :=
| FromTo (a b : Z)     (* a-b, both inclusive *)
| From_ (a : Z)        (* a- *)
| Suffix (n : Z).      (* -n: the last n bytes *)

(** optional blanks *)
Definition blank_byte (c : ascii) : Prop :=
  In c [" "%char; ch 9; ch 10; ch 13].
Definition ows (s : bytes) : Prop := Forall blank_byte s.
(** a numeral: a non-empty string of decimal digits with value n, which fits 63 bits *)
Definition numeral (n : Z) (s : bytes) : Prop :=
  s <> [] /\ digits_val 0 s = Some n /\ n < two63.

(** [s] writes the spec, with optional blanks around each token *)
Inductive written : rspec -> bytes -> Prop :=
| W_FromTo a b sa sb o1 o2 o3 o4 :
    numeral a sa -> numeral b sb -> a <= b -> ows o1 -> ows o2 -> ows o3 -> ows o4 ->
    written (FromTo a b) (o1 ++ sa ++ o2 ++ "-"%char :: o3 ++ sb ++ o4)
| W_From a sa o1 o2 o3 :
    numeral a sa -> ows o1 -> ows o2 -> ows o3 ->
    written (From_ a) (o1 ++ sa ++ o2 ++ "-"%char :: o3)
| W_Suffix n sn o1 o2 o3 :
    numeral n sn -> ows o1 -> ows o2 -> ows o3 ->
    written (Suffix n) (o1 ++ "-"%char :: o2 ++ sn ++ o3).

(** a list element may also be empty (RFC 7230, section 7) *)
Definition element (o : option rspec) (s : bytes) : Prop :=
  match o with Some sp => written sp s | None => ows s end.
(** comma-separated, at least one element *)
Inductive range_list : list (option rspec) -> bytes -> Prop :=
| RL1 o s : element o s -> range_list [o] s
| RLcons o s os t : element o s -> range_list os t -> range_list (o :: os) (s ++ ","%char :: t).

Fixpoint specs (os : list (option rspec)) : list rspec :=
  match os with
  | [] => []
  | Some sp :: os' => sp :: specs os'
  | None :: os' => specs os'
  end.

(** what a spec selects from a content of [size] bytes: (first byte, number of bytes) *)
Definition selects (size : Z) (sp : rspec) : option (Z * Z) :=
  match sp with
  | FromTo a b => if a <? size then Some (a, Z.min b (size - 1) - a + 1) else None
  | From_ a => if a <? size then Some (a, size - a) else None
  | Suffix n => Some (size - Z.min n size, Z.min n size)
  end.
Fixpoint selected (size : Z) (l : list rspec) : list (Z * Z) :=
  match l with
  | [] => []
  | sp :: l' => match selects size sp with Some r => r :: selected size l' | None => selected size l' end
  end.

(** ** What the parser accepts beyond the grammar *)
(** a numeral with an optional plus sign *)
Definition plus_numeral (n : Z) (s : bytes) : Prop :=
  numeral n s \/ exists d, s = "+"%char :: d /\ numeral n d.
(** a spelling of the end position: also "-0", "-00", ... *)
Definition end_numeral (n : Z) (s : bytes) : Prop :=
  plus_numeral n s \/ (n = 0 /\ exists d, s = "-"%char :: d /\ numeral 0 d).
Inductive loose (size : Z) : rspec -> bytes -> Prop :=
| L_FromTo a b sa sb o1 o2 o3 o4 :
    plus_numeral a sa -> end_numeral b sb -> a <= b -> ows o1 -> ows o2 -> ows o3 -> ows o4 ->
    loose size (FromTo a b) (o1 ++ sa ++ o2 ++ "-"%char :: o3 ++ sb ++ o4)
| L_From a sa o1 o2 o3 :
    plus_numeral a sa -> ows o1 -> ows o2 -> ows o3 ->
    loose size (From_ a) (o1 ++ sa ++ o2 ++ "-"%char :: o3)
| L_Suffix n sn o1 o2 o3 :
    plus_numeral n sn -> ows o1 -> ows o2 -> ows o3 ->
    loose size (Suffix n) (o1 ++ "-"%char :: o2 ++ sn ++ o3)
  (* a spec starting beyond the content: whatever follows the '-' up to the next comma is not looked at *)
| L_Beyond a sa o1 o2 rest :
    plus_numeral a sa -> size <= a -> ows o1 -> ows o2 -> ~ In ","%char rest ->
    loose size (From_ a) (o1 ++ sa ++ o2 ++ "-"%char :: rest).
Definition loose_element (size : Z) (o : option rspec) (s : bytes) : Prop :=
  match o with Some sp => loose size sp s | None => ows s end.
Inductive loose_list (size : Z) : list (option rspec) -> bytes -> Prop :=
| LL1 o s : loose_element size o s -> loose_list size [o] s
| LLcons o s os t : loose_element size o s -> loose_list size os t ->
    loose_list size (o :: os) (s ++ ","%char :: t).
