(** How a client reads a Basic challenge: RFC 7617, RFC 7235 quoted strings (C115). *)
From Verif Require Import Base GoStrings.

(** the text of a quoted string whose opening quote has been read, and what follows the
    closing one; a backslash takes the next byte literally *)
Fixpoint quoted_text (s : bytes) : option (bytes * bytes) :=
  match s with
  | [] => None
  | c :: s' =>
      if Ascii.eqb c """" then Some ([], s')
      else if Ascii.eqb c (ch 92) then
        match s' with
        | d :: s'' => match quoted_text s'' with Some (t, r) => Some (d :: t, r) | None => None end
        | [] => None
        end
      else match quoted_text s' with Some (t, r) => Some (c :: t, r) | None => None end
  end.
Fixpoint after (p s : bytes) : option bytes :=
  match p, s with
  | [], _ => Some s
  | a :: p', b :: s' => if Ascii.eqb a b then after p' s' else None
  | _, [] => None
  end.
(** realm and charset *)
Definition client_challenge (v : bytes) : option (bytes * bytes) :=
  match after (B"Basic realm=""") v with
  | None => None
  | Some s => match quoted_text s with
              | None => None
              | Some (realm, s1) =>
                  match after (B", charset=""") s1 with
                  | None => None
                  | Some s2 => match quoted_text s2 with
                               | Some (charset, []) => Some (realm, charset)
                               | _ => None
                               end
                  end
              end
  end.
(** bytes that stand for themselves in a quoted string *)
Definition unquotable (c : ascii) : Prop := c = """"%char \/ c = ch 92 \/ c = ch 13 \/ c = ch 10.
Definition quotable (s : bytes) : Prop := forall c, In c s -> ~ unquotable c.
