(** Model of ioFile.Readdir (/repo/static/fs.go:838-862): directories of an fs.FS handed to static.FS. *)
From Verif Require Import Base.
Local Open Scope Z_scope.

(** Environment: the errors of a directory read: io.EOF, errMissingReadDir (fs.go:820), any other *)
Inductive derr := EOF | MissingReadDir | Other (what : nat).

Section Readdir.
  (** [I]: fs.FileInfo.  [D]: the states of an open fs.File.  [read d n]: what ReadDir(n) returns - for
      every entry what its Info() gives, None on an error - and the state after it *)
  Context {I D : Type}.
  Variable read : D -> Z -> list (option I) * option derr * D.

  (** fs.go:846-853: append the infos that could be had *)
  Definition add_infos (l : list I) (dirs : list (option I)) : list I :=
    fold_left (fun l dir => match dir with Some info => l ++ [info] | None => l end) dirs l.
  (** fs.go:844-860: the loop; None: [fuel] exhausted (C153: enough for directories that keep to fs.ReadDirFile) *)
  Fixpoint readdir_loop (fuel : nat) (count : Z) (l : list I) (d : D) : option (list I * option derr * D) :=
    match fuel with
    | O => None
    | S fuel' =>
        let '(dirs, err, d') := read d (count - Z.of_nat (length l)) in
        let l := add_infos l dirs in
        match err with
        | Some e => Some (l, Some e, d')
        | None => if (count <? 0) || (count <=? Z.of_nat (length l)) then Some (l, None, d')
                  else readdir_loop fuel' count l d'
        end
    end.
  (** fs.go:838-862 Readdir; [is_dir]: the file has a ReadDir method *)
  Definition readdir (fuel : nat) (is_dir : bool) (count : Z) (d : D) : option (list I * option derr * D) :=
    if is_dir then readdir_loop fuel count [] d else Some ([], Some MissingReadDir, d).
End Readdir.
