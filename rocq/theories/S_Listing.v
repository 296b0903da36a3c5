(** Vocabulary for C151: directory listings. *)
From Verif Require Import Base.
From Coq Require Import Sorting.Sorted.

(** [esc] is the HTML text that shows [raw] *)
Inductive escaped : bytes -> bytes -> Prop :=
| Esc_nil : escaped [] []
| Esc_plain c e r : ~ In c (B"&<>'""") -> escaped e r -> escaped (c :: e) (c :: r)
| Esc_amp e r : escaped e r -> escaped (B"&amp;" ++ e) ("&"%char :: r)
| Esc_lt e r : escaped e r -> escaped (B"&lt;" ++ e) ("<"%char :: r)
| Esc_gt e r : escaped e r -> escaped (B"&gt;" ++ e) (">"%char :: r)
| Esc_quot e r : escaped e r -> escaped (B"&#34;" ++ e) (""""%char :: r)
| Esc_apos e r : escaped e r -> escaped (B"&#39;" ++ e) ("'"%char :: r).
(** [a] comes before [b] in byte order *)
Definition before (a b : bytes) : Prop :=
  exists p a' b', a = p ++ a' /\ b = p ++ b' /\
    ((a' = [] /\ b' <> []) \/ exists x y a'' b'', a' = x :: a'' /\ b' = y :: b'' /\ (bv x < bv y)%N).
(** a directory's name is shown with a slash *)
Definition shown_name (e : bytes * bool) : bytes := if snd e then fst e ++ B"/" else fst e.
(** [body] lists the entries once each, in order of their names *)
Definition lists_all (link : bytes -> bytes) (entries : list (bytes * bool)) (body : bytes) : Prop :=
  exists sorted rows, Permutation sorted entries /\ StronglySorted (fun x y => before (fst x) (fst y)) sorted /\
    Forall2 (fun e row => exists esc, escaped esc (shown_name e) /\
               row = B"<a href=""" ++ link (shown_name e) ++ B""">" ++ esc ++ B"</a>" ++ [ch 10]) sorted rows /\
    body = B"<pre>" ++ [ch 10] ++ concat rows ++ B"</pre>" ++ [ch 10].
(** the name of the index file of a directory opened as [name], a slash at its end being ignored *)
Definition index_name (name index : bytes) : Prop := exists stem,
  (name = stem /\ (forall x, stem <> x ++ B"/") \/ name = stem ++ B"/") /\ index = stem ++ B"/index.html".
