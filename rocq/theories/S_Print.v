(** Specification vocabulary for the text of a routing table (C161). *)
From Verif Require Import Base GoStrings M_Tree.
From Coq Require Import Permutation.

Section Text.
  Context {HS : Type}.
  Variable id_of : HS -> bytes.

  (** the nodes, each before its children, with their depths *)
  Fixpoint preorder (d : nat) (n : node HS) : list (nat * node HS) :=
    match n with Node cs _ _ _ => (d, n) :: flat_map (preorder (S d)) cs end.
  (** its handler sets, in some order *)
  Definition sets_of (n : node HS) (hs : list (bytes * HS)) : Prop := Permutation (map (fun x => (fst x, Some (snd x))) hs) (n_handlers n).
  (** a line: as many tabs as the node is deep, its segment, its parameter, and method and ID of its handler sets *)
  Definition line_of (e : nat * node HS) (text : bytes) : Prop :=
    exists hs, sets_of (snd e) hs /\
      text = repeat (ch 9) (fst e) ++ B"Path: " ++ n_path (snd e) ++ B", UrlId: " ++ n_urlid (snd e) ++ B" => " ++
             concat (map (fun x => B"/" ++ fst x ++ B"[" ++ id_of (snd x) ++ B"]") hs) ++ [ch 10].
  (** one line for each node *)
  Definition shows (t : node HS) (text : bytes) : Prop :=
    exists lines, Forall2 line_of (preorder 0 t) lines /\ text = concat lines.

  (** the names do not contain the punctuation of the text *)
  Definition clean_node (n : node HS) : Prop :=
    ~ In (ch 10) (n_path n) /\ ~ In ","%char (n_path n) /\ ~ In (ch 10) (n_urlid n) /\ ~ In "="%char (n_urlid n) /\
    forall m s, In (m, Some s) (n_handlers n) ->
      ~ In (ch 10) m /\ ~ In "["%char m /\ ~ In (ch 10) (id_of s) /\ ~ In "]"%char (id_of s).
  Definition clean (t : node HS) : Prop := forall d n, In (d, n) (preorder 0 t) -> clean_node n.
  (** the same table, up to the identity of handler sets with the same ID *)
  Inductive alike : node HS -> node HS -> Prop :=
  | Alike : forall n n', n_path n = n_path n' -> n_urlid n = n_urlid n' ->
      Permutation (map (fun x => (fst x, option_map id_of (snd x))) (n_handlers n)) (map (fun x => (fst x, option_map id_of (snd x))) (n_handlers n')) ->
      Forall2 alike (n_children n) (n_children n') -> alike n n'.
End Text.
