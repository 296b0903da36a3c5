(** Specification vocabulary for C134-C137: which file a static mount opens, for every request. *)
From Verif Require Import Base GoStrings M_Static.

(** ** Percent escapes, as the URI syntax has them *)
Definition hex_value (c : ascii) (n : nat) : Prop :=
  nth_error (B"0123456789abcdef") n = Some c \/ nth_error (B"0123456789ABCDEF") n = Some c.
Definition starts_escape (s : bytes) : Prop :=
  exists x y s' a b, s = "%"%char :: x :: y :: s' /\ hex_value x a /\ hex_value y b.
(** every escape is replaced by the byte it stands for, anything else is kept *)
Inductive decodes : bytes -> bytes -> Prop :=
| DNil : decodes [] []
| DEscape x y a b s t : hex_value x a -> hex_value y b -> decodes s t ->
    decodes ("%"%char :: x :: y :: s) (ch (N.of_nat (16 * a + b)) :: t)
| DPlain c s t : ~ starts_escape (c :: s) -> decodes s t -> decodes (c :: s) (c :: t).

(** ** Following path elements from a directory; [here] is the way from the root to it.
    Empty elements and "." stay, ".." goes up (from the root: stays) *)
Fixpoint walk (here : list bytes) (es : list bytes) : list bytes :=
  match es with
  | [] => here
  | e :: es' =>
      if beq e [] || beq e (B".") then walk here es'
      else if beq e (B"..") then walk (removelast here) es'
      else walk (here ++ [e]) es'
  end.
(** the last element of a path; empty after a final slash *)
Definition final (path : bytes) : bytes := last (split "/" path) [].

(** ** What is left of a request path below a mount point (without its leading slash): the part
    after the mount point and a slash; all of it if it does not begin with the mount point *)
Definition remainder (mount path rest : bytes) : Prop :=
  path = "/"%char :: mount ++ "/"%char :: rest \/
  path = "/"%char :: rest /\ (mount = [] \/ ~ (exists more, rest = mount ++ more)).

(** the names opened, in order *)
Definition opened (calls : list call) : list bytes :=
  flat_map (fun c => match c with COpen n => [n] | CStat _ => [] end) calls.

(** ** UTF-8 (C137): the encoding of a code point *)
Definition scalar (n : N) : Prop := (n < 55296 \/ 57344 <= n < 1114112)%N.
Definition utf8 (n : N) : bytes :=
  (if n <? 128 then [ch n]
   else if n <? 2048 then [ch (192 + n / 64); ch (128 + n mod 64)]
   else if n <? 65536 then [ch (224 + n / 4096); ch (128 + (n / 64) mod 64); ch (128 + n mod 64)]
   else [ch (240 + n / 262144); ch (128 + (n / 4096) mod 64); ch (128 + (n / 64) mod 64); ch (128 + n mod 64)])%N.
(** [r] is the first character of [r ++ s]: an encoded code point, or one byte that does not
    begin one *)
Definition first_char (r s : bytes) : Prop :=
  (exists n, scalar n /\ r = utf8 n) \/
  (exists c, r = [c] /\ forall n s', scalar n -> c :: s <> utf8 n ++ s').
(** [text] is [url] and then [rest], where every dot of [url] stands for some character but a
    newline *)
Inductive dot_match : bytes -> bytes -> bytes -> Prop :=
| DmEnd rest : dot_match [] rest rest
| DmChar c url text rest : c <> "."%char -> dot_match url text rest -> dot_match (c :: url) (c :: text) rest
| DmDot r url text rest : first_char r text -> r <> [ch 10] -> dot_match url text rest ->
    dot_match ("."%char :: url) (r ++ text) rest.
