(** Vocabulary for C153: what an fs.ReadDirFile is, and reading a directory page by page. *)
From Verif Require Import Base.
From Verif Require Import M_Readdir.
Local Open Scope Z_scope.

(** What fs.ReadDirFile allows ReadDir(n) to return when the entries [rest] are left: with n <= 0 all of them,
    with n > 0 at least one and at most n, io.EOF when none is left; or an error after some of them. *)
Inductive allowed {A : Type} (rest : list A) (n : Z) : list A -> option derr -> list A -> Prop :=
| All_of_them : n <= 0 -> allowed rest n rest None []
| Some_of_them : forall got left, n > 0 -> rest = got ++ left -> got <> [] -> Z.of_nat (length got) <= n ->
    allowed rest n got None left
| At_the_end : n > 0 -> rest = [] -> allowed rest n [] (Some EOF) []
| Failed : forall got left w, rest = got ++ left -> (n > 0 -> Z.of_nat (length got) <= n) ->
    allowed rest n got (Some (Other w)) left.

(** a directory that keeps to it: [rest] says which entries are left *)
Definition lawful {A D : Type} (read : D -> Z -> list A * option derr * D) (rest : D -> list A) : Prop :=
  forall d n, allowed (rest d) n (fst (fst (read d n))) (snd (fst (read d n))) (rest (snd (read d n))).
(** and never fails *)
Definition sound {A D : Type} (read : D -> Z -> list A * option derr * D) : Prop :=
  forall d n w, snd (fst (read d n)) <> Some (Other w).

(** the entries whose Info() works, in their order *)
Inductive infos {I : Type} : list (option I) -> list I -> Prop :=
| In_nil : infos [] []
| In_gone : forall l is, infos l is -> infos (None :: l) is
| In_info : forall i l is, infos l is -> infos (Some i :: l) (i :: is).

(** Readdir called again and again until it gives an error: the pages and that error *)
Inductive paged {I D : Type} (call : D -> list I * option derr * D -> Prop) : D -> list (list I) -> derr -> Prop :=
| Last_page : forall d l e d', call d (l, Some e, d') -> paged call d [l] e
| Next_page : forall d l d' ps e, call d (l, None, d') -> paged call d' ps e -> paged call d (l :: ps) e.
