(** Specification vocabulary for path strings (property C07). *)
From Verif Require Import Base GoStrings.

(** One white-space character, as its UTF-8 bytes. *)
Inductive space_rune : bytes -> Prop :=
| SR1 a : space1 a = true -> space_rune [a]
| SR2 a b : space2 a b = true -> space_rune [a; b]
| SR3 a b c : space3 a b c = true -> space_rune [a; b; c].

(** A string of white space. *)
Inductive blank : bytes -> Prop :=
| BlankNil : blank []
| BlankCons r s : space_rune r -> blank s -> blank (r ++ s).

Definition starts_blank (s : bytes) : Prop := exists r t, space_rune r /\ s = r ++ t.
Definition ends_blank (s : bytes) : Prop := exists t r, space_rune r /\ s = t ++ r.

(** A run of slashes. *)
Definition slashes (k : nat) : bytes := repeat "/"%char k.
Definition no_slash (s : bytes) : Prop := ~ In "/"%char s.
