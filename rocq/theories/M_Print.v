(** Model of Tree.String and Node.print (/repo/tree.go:243-260). *)
From Verif Require Import Base GoStrings M_Tree.

Section Print.
  Context {HS : Type}.
  Variable id_of : HS -> bytes.                          (* HandlerSet.ID *)
  (** the order in which the map of the node at this position is iterated *)
  Variable order : list nat -> @hmap HS -> @hmap HS.

  (** tree.go:249-251: a nil handler set panics *)
  Fixpoint print_handlers (h : @hmap HS) : res bytes :=
    match h with
    | [] => Ok []
    | (_, None) :: _ => Panic
    | (m, Some s) :: h' =>
        match print_handlers h' with
        | Ok t => Ok (B"/" ++ m ++ B"[" ++ id_of s ++ B"]" ++ t)
        | Panic => Panic
        end
    end.

  (** tree.go:247-260 *)
  Fixpoint print (tab : bytes) (pos : list nat) (n : node HS) {struct n} : res bytes :=
    match n with
    | Node cs path urlid handlers =>
        match print_handlers (order pos handlers) with
        | Panic => Panic
        | Ok hs =>
            let out := tab ++ B"Path: " ++ path ++ B", UrlId: " ++ urlid ++ B" => " ++ hs ++ [ch 10] in
            let tab := tab ++ [ch 9] in
            match (fix go (i : nat) (cs : list (node HS)) : res bytes :=
                     match cs with
                     | [] => Ok []
                     | c :: cs' =>
                         match print tab (pos ++ [i]) c with
                         | Panic => Panic
                         | Ok t => match go (S i) cs' with Ok t' => Ok (t ++ t') | Panic => Panic end
                         end
                     end) 0 cs with
            | Ok t => Ok (out ++ t)
            | Panic => Panic
            end
        end
    end.
  (** tree.go:243-245 *)
  Definition tree_string (top : node HS) : res bytes := print [] [] top.
End Print.
