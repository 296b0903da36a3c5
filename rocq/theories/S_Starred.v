(** Specification for mount points with stars (C157). *)
From Verif Require Import Base S_Mount S_Exposed.

(** a mount point of ordinary characters and dots, each of them possibly followed by one star *)
Inductive starred_url : bytes -> Prop :=
| SuEnd : starred_url []
| SuOne c url : (ordinary c \/ c = "."%char) -> starred_url url -> starred_url (c :: url)
| SuStar c url : (ordinary c \/ c = "."%char) -> starred_url url -> starred_url (c :: "*"%char :: url).
(** one character of the path, for a character of the mount point: the same, or any but a newline for a dot *)
Definition one (c : ascii) (text more : bytes) : Prop :=
  c <> "."%char /\ text = c :: more \/
  c = "."%char /\ exists r, text = r ++ more /\ first_char r more /\ r <> [ch 10].
(** [text] is some spelling of [url] and then [rest]: a character with a star stands for any number of them, also none *)
Inductive star_match : bytes -> bytes -> bytes -> Prop :=
| SmEnd rest : star_match [] rest rest
| SmOne c url text more rest : (forall u, url <> "*"%char :: u) -> one c text more -> star_match url more rest ->
    star_match (c :: url) text rest
| SmNone c url text rest : star_match url text rest -> star_match (c :: "*"%char :: url) text rest
| SmMore c url text more rest : one c text more -> star_match (c :: "*"%char :: url) more rest ->
    star_match (c :: "*"%char :: url) text rest.
