(** Environment model: Go's packages path and path/filepath (Unix) and the path handling
    of fasthttp.URI.  Not code of /repo.  Stated on the slash-separated elements, as the
    package documentation does. *)
From Verif Require Import Base GoStrings.

Definition dot : bytes := B".".
Definition dotdot : bytes := B"..".
Definition is_dot (e : bytes) : bool := is_empty e || beq e dot.

(** ** path.Clean: drop empty and "." elements, let ".." eliminate the element before it,
    or itself at the root; [acc]: the elements kept so far, last one first *)
Definition clean_step (rooted : bool) (acc : list bytes) (e : bytes) : list bytes :=
  if is_dot e then acc
  else if beq e dotdot then
    match acc with
    | x :: acc' => if beq x dotdot then e :: acc else acc'
    | [] => if rooted then [] else [e]
    end
  else e :: acc.
Definition clean_elems (rooted : bool) (es : list bytes) : list bytes :=
  rev (fold_left (clean_step rooted) es []).
Definition is_rooted (s : bytes) : bool := match s with c :: _ => Ascii.eqb c "/" | [] => false end.
Definition path_clean (s : bytes) : bytes :=
  let es := clean_elems (is_rooted s) (split "/" s) in
  if is_rooted s then "/"%char :: join "/" es
  else match es with [] => dot | _ => join "/" es end.

(** path.Join of two elements: empty ones are ignored *)
Definition path_join (a b : bytes) : bytes :=
  if is_empty a && is_empty b then []
  else if is_empty a then path_clean b
  else if is_empty b then path_clean a
  else path_clean (a ++ "/"%char :: b).
(** filepath.Join of two elements: leading empty ones are ignored *)
Definition filepath_join (a b : bytes) : bytes :=
  if is_empty a then (if is_empty b then [] else path_clean b)
  else path_clean (a ++ "/"%char :: b).

(** path.Base: the last element after removing trailing slashes *)
Definition path_base (s : bytes) : bytes :=
  if is_empty s then dot
  else let t := trim_right "/" s in
       match rev (split "/" t) with
       | e :: _ => if is_empty e then B"/" else e
       | [] => B"/"
       end.
(** filepath.Split: directory part up to and including the last slash, and the rest *)
Definition filepath_split (s : bytes) : bytes * bytes :=
  match rev (split "/" s) with
  | file :: rest => (firstn (length s - length file) s, file)
  | [] => ([], s)
  end.

(** ** fasthttp *)
(** hex2intTable *)
Definition hex_val (c : ascii) : option N :=
  let n := bv c in
  (if (48 <=? n) && (n <=? 57) then Some (n - 48)
   else if (65 <=? n) && (n <=? 70) then Some (n - 55)
   else if (97 <=? n) && (n <=? 102) then Some (n - 87)
   else None)%N.
(** decodeArgAppendNoPlus: invalid escapes are copied *)
Fixpoint pct_decode (s : bytes) : bytes :=
  match s with
  | c :: ((a :: b :: s') as t) =>
      if Ascii.eqb c "%" then
        match hex_val a, hex_val b with
        | Some x, Some y => ch (16 * x + y) :: pct_decode s'
        | _, _ => c :: pct_decode t
        end
      else c :: pct_decode t
  | c :: t => c :: pct_decode t
  | [] => []
  end.
(** one element of normalizePath, before the last: [acc] last one first *)
Definition norm_step (acc : list bytes) (e : bytes) : list bytes :=
  if is_dot e then acc
  else if beq e dotdot then tl acc
  else e :: acc.
(** each kept element followed by a slash *)
Definition with_slashes (es : list bytes) : bytes := concat (map (fun e => e ++ B"/") es).
(** normalizePath: add a leading slash, decode, remove duplicate slashes, "/./" parts,
    "/x/../" parts and a trailing "/x/.." (which leaves a slash) *)
Definition normalize_path (src : bytes) : bytes :=
  let d := pct_decode (if is_rooted src then tl src else src) in
  match rev (split "/" d) with
  | [] => B"/"
  | last :: inits =>
      let st := fold_left norm_step (rev inits) [] in
      if beq last dotdot then "/"%char :: with_slashes (rev (tl st))
      else "/"%char :: with_slashes (rev st) ++ last
  end.
(** URI.SetPath(s) makes URI.Path() this *)
Definition set_path (s : bytes) : bytes := normalize_path s.

Example norm1 : normalize_path (B"/a/./b//../c/%2e%2e") = B"/a/". Proof. reflexivity. Qed.
Example norm2 : normalize_path (B"a%/../..//%41%4/.") = B"/A%4/.". Proof. reflexivity. Qed.
Example clean1 : path_clean (B"a/./b//../../../c/") = B"../c". Proof. reflexivity. Qed.
Example clean2 : path_clean (B"/../a//b/..") = B"/a". Proof. reflexivity. Qed.
Example base1 : path_base (B"/a/bc//") = B"bc". Proof. reflexivity. Qed.
Example split1 : filepath_split (B"/a/b") = (B"/a/", B"b"). Proof. reflexivity. Qed.
