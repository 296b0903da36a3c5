(** Specification vocabulary for names in file systems and request paths. *)
From Verif Require Import Base GoStrings GoPath.

(** a proper path element *)
Definition good (e : bytes) : Prop := e <> [] /\ e <> B"." /\ e <> B".." /\ ~ In "/"%char e.
(** elements joined by slashes; "." stands for none *)
Definition name_of (es : list bytes) : bytes := match es with [] => B"." | _ => join "/" es end.
(** fs.ValidPath, but for UTF-8: "." or proper elements separated by single slashes *)
Definition valid_name (s : bytes) : Prop := exists es, Forall good es /\ s = name_of es.

(** the elements of a path that is written with superfluous slashes and dots *)
Definition plain_elems (s : bytes) : list bytes := filter (fun e => negb (is_dot e)) (split "/" s).

(** [s] is [base] or lexically below it, [base] being a cleaned path *)
Definition lex_below (base s : bytes) : Prop :=
  exists rest, Forall good rest /\
    (rest = [] /\ s = base \/
     rest <> [] /\ s = (if beq base (B".") then join "/" rest
                        else if beq base (B"/") then "/"%char :: join "/" rest
                        else base ++ "/"%char :: join "/" rest)).

(** a percent sign followed by two hexadecimal digits *)
Definition hex_digit_byte (c : ascii) : Prop := In c (B"0123456789abcdefABCDEF").
Definition no_escape (s : bytes) : Prop :=
  forall a x y b, s = a ++ "%"%char :: x :: y :: b -> ~ (hex_digit_byte x /\ hex_digit_byte y).

(** elements separated by slashes or backslashes *)
Definition sep (c : ascii) : Prop := c = "/"%char \/ c = ch 92.
Definition has_element (s e : bytes) : Prop :=
  exists a b, s = a ++ e ++ b /\ Forall (fun c => ~ sep c) e /\
    (a = [] \/ exists a' c, a = a' ++ [c] /\ sep c) /\
    (b = [] \/ exists c b', b = c :: b' /\ sep c).
