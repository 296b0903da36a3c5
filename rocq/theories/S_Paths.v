(** Specification vocabulary for path strings of any form (C07). *)
From Verif Require Import Base GoStrings S_Path.

(** [t] is [s] without the white space around it *)
Definition bare (s t : bytes) : Prop :=
  exists w1 w2, blank w1 /\ blank w2 /\ s = w1 ++ t ++ w2 /\ ~ starts_blank t /\ ~ ends_blank t.
(** [t] is [s] without the slashes around it *)
Definition unslashed (s t : bytes) : Prop :=
  exists j k, s = slashes j ++ t ++ slashes k /\
    ~ (exists u, t = "/"%char :: u) /\ ~ (exists u, t = u ++ ["/"%char]).
(** [t] is [s] without the white space at its end *)
Definition unended (s t : bytes) : Prop := exists w, blank w /\ s = t ++ w /\ ~ ends_blank t.
(** [ps] are the parts of [s] between slashes; the empty string has none *)
Definition parts (s : bytes) (ps : list bytes) : Prop :=
  s = [] /\ ps = [] \/ s <> [] /\ Forall no_slash ps /\ ps <> [] /\ s = join "/" ps.
(** the path [s] consists of the segments [ps] *)
Definition path_segments (s : bytes) (ps : list bytes) : Prop :=
  exists t u v, bare s t /\ unslashed t u /\ unended u v /\ parts v ps.

(** The white-space characters of Unicode (property White_Space), and their UTF-8 encodings. *)
Definition white_space_points : list N :=
  [9; 10; 11; 12; 13; 32; 133; 160; 5760;
   8192; 8193; 8194; 8195; 8196; 8197; 8198; 8199; 8200; 8201; 8202; 8232; 8233; 8239; 8287; 12288]%N.
Definition utf8 (n : N) : bytes :=
  (if n <? 128 then [ch n]
   else if n <? 2048 then [ch (192 + n / 64); ch (128 + n mod 64)]
   else [ch (224 + n / 4096); ch (128 + (n / 64) mod 64); ch (128 + n mod 64)])%N.
