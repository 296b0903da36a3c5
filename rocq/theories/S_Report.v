(** Vocabulary for C149 and C150: which error a request ends with, from the calls that were made. *)
From Verif Require Import Base GoErrors M_Pipeline.

Definition returned (k : call) : option err := match k_out k with HRet e => e | HPanic => None end.
Definition told (e : option err) : option bytes := option_map err_text e.
(** the error of the handlers and the first error of the goroutines *)
Definition joined (handlers goroutines : option bytes) : option bytes :=
  match handlers, goroutines with
  | None, g => g
  | h, None => h
  | Some h, Some g => Some (g ++ B": " ++ h)
  end.
(** From the calls made for a request, the last one first: nobody was called because there is no route; SesInit
    failed; the last handler decided; there is no last handler; the request was aborted. *)
Definition final_error (path : bytes) (calls : list call) : option bytes :=
  match rev calls with
  | [] => Some (B"path '" ++ path ++ B"' not found")
  | k :: before =>
      match k_who k, before with
      | WSesInit, _ => option_map (fun e => B"path '" ++ path ++ B"': " ++ err_text e) (returned k)
      | WWait, k' :: _ => joined (told (returned k')) (told (returned k))
      | _, _ => told (returned k)
      end
  end.
(** the lines of a text: what stands in front of each line end *)
Fixpoint lines (s : bytes) : list bytes :=
  match s with
  | [] => []
  | c :: s' => if Ascii.eqb c (ch 10) then [] :: lines s'
               else match lines s' with l :: ls => (c :: l) :: ls | [] => [[c]] end
  end.
Definition begins_with (p s : bytes) : Prop := exists r, s = p ++ r.
