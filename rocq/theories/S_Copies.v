(** Specification of clones as copies (C127). *)
From Verif Require Import Base GoSlices M_Router S_Router.

(** ** The lists of a program: those of routers, of handler sets and of registered routes *)
Inductive place := PRouter (r : nat) (after : bool) | PSet (s : nat) (after : bool) | PRoute (i : nat) (after : bool).
Definition pick {A} (after : bool) (x : A * A) : A := if after then snd x else fst x.
Definition look {A} (rs ss gs : list (A * A)) (p : place) : option A :=
  match p with
  | PRouter r w => option_map (pick w) (nth_error rs r)
  | PSet s w => option_map (pick w) (nth_error ss s)
  | PRoute i w => option_map (pick w) (nth_error gs i)
  end.
(** what the library holds *)
Definition slices (st : state) (p : place) : option slice :=
  look (map (fun x => (r_before x, r_after x)) (st_routers st)) (map (fun x => (s_before x, s_after x)) (st_sets st))
       (map (fun g => (s_before (g_set g), s_after (g_set g))) (st_routes st)) p.
Definition shows (st : state) (p : place) : option (list hid) := option_map (read (st_heap st)) (slices st p).

(** ** Plain values: a clone is a copy *)
Record values := Values { v_routers : list (list hid * list hid); v_sets : list (list hid * list hid); v_routes : list (list hid * list hid) }.
Definition value (v : values) (p : place) : option (list hid) := look (v_routers v) (v_sets v) (v_routes v) p.
Definition vstep (v : values) (o : op) : values :=
  let on_r r f := Values (upd_nth r f (v_routers v)) (v_sets v) (v_routes v) in
  let on_s s f := Values (v_routers v) (upd_nth s f (v_sets v)) (v_routes v) in
  match o with
  | NewRouter => Values (v_routers v ++ [([], [])]) (v_sets v) (v_routes v)
  | RFirst r h => on_r r (fun x => (h :: fst x, snd x))
  | RBefore r a => on_r r (fun x => (arg_list a, snd x))
  | RAfter r a => on_r r (fun x => (fst x, arg_list a))
  | RLastAfter r h => on_r r (fun x => (fst x, snd x ++ [h]))
  | RClone r => Values (v_routers v ++ [nth r (v_routers v) ([], [])]) (v_sets v) (v_routes v)
  | RUse r _ _ => Values (v_routers v) (v_sets v) (v_routes v ++ [nth r (v_routers v) ([], [])])
  | NewSet => Values (v_routers v) (v_sets v ++ [([], [])]) (v_routes v)
  | SBefore s a => on_s s (fun x => (fst x ++ arg_list a, snd x))
  | SAfter s a => on_s s (fun x => (fst x, snd x ++ arg_list a))
  | SClone s => Values (v_routers v) (v_sets v ++ [nth s (v_sets v) ([], [])]) (v_routes v)
  | SAdd _ _ (Some s) => Values (v_routers v) (v_sets v) (v_routes v ++ [nth s (v_sets v) ([], [])])
  | _ => v
  end.
Definition copies (os : list op) : values := fold_left vstep os (Values [] [] []).

(** ** Which lists may share storage: [b_id]; what is known of the room there: [b_cap], None after
    the runtime has chosen it *)
Record buf := Buf { b_id : nat; b_len : nat; b_cap : option nat }.
Record bufs := Bufs { b_routers : list (buf * buf); b_sets : list (buf * buf); b_routes : list (buf * buf); b_next : nat }.
Definition storage (b : bufs) (p : place) : option buf := look (b_routers b) (b_sets b) (b_routes b) p.

(** [n] more elements do not fit for certain: they go to new storage *)
Definition moves (x : buf) (n : nat) : bool := match b_cap x with Some c => c <? b_len x + n | None => false end.
Definition extend (next : nat) (x : buf) (n : nat) : buf :=
  if moves x n then Buf next (b_len x + n) None else Buf (b_id x) (b_len x + n) (b_cap x).

Definition bstep (b : bufs) (o : op) : bufs :=
  let k := b_next b in
  let on_r r f := Bufs (upd_nth r f (b_routers b)) (b_sets b) (b_routes b) (S k) in
  let on_s s f := Bufs (b_routers b) (upd_nth s f (b_sets b)) (b_routes b) (S k) in
  let nil := Buf k 0 (Some 0) in
  let nil' := Buf (S k) 0 (Some 0) in
  let lit a := match a with Fresh xs extra => Buf k (length xs) (Some (length xs + extra)) | Var _ => nil end in
  match o with
  | NewRouter => Bufs (b_routers b ++ [(nil, nil')]) (b_sets b) (b_routes b) (S (S k))
  | RFirst r h => on_r r (fun x => (extend k (Buf k 1 (Some 1)) (b_len (fst x)), snd x))
  | RBefore r a => on_r r (fun x => (lit a, snd x))
  | RAfter r a => on_r r (fun x => (fst x, lit a))
  | RLastAfter r h => on_r r (fun x => (fst x, extend k (snd x) 1))
  | RClone r => Bufs (b_routers b ++ [nth r (b_routers b) (nil, nil)]) (b_sets b) (b_routes b) (S k)
  | RUse r _ _ =>
      let x := nth r (b_routers b) (nil, nil) in
      Bufs (b_routers b) (b_sets b) (b_routes b ++ [(extend (S (S (S k))) nil (b_len (fst x)), extend (S (S k)) nil' (b_len (snd x)))]) (S (S (S (S k))))
  | NewSet => Bufs (b_routers b) (b_sets b ++ [(nil, nil')]) (b_routes b) (S (S k))
  | SBefore s a => on_s s (fun x => (extend k (fst x) (length (arg_list a)), snd x))
  | SAfter s a => on_s s (fun x => (fst x, extend k (snd x) (length (arg_list a))))
  | SClone s => Bufs (b_routers b) (b_sets b ++ [nth s (b_sets b) (nil, nil)]) (b_routes b) (S k)
  | SAdd _ _ (Some s) => Bufs (b_routers b) (b_sets b) (b_routes b ++ [nth s (b_sets b) (nil, nil)]) (S k)
  | _ => b
  end.
Definition storages (os : list op) : bufs := fold_left bstep os (Bufs [] [] [] 0).

(** The list an operation appends to, and what. *)
Definition appends (o : op) : option (place * list hid) :=
  match o with
  | RLastAfter r h => Some (PRouter r true, [h])
  | SBefore s a => Some (PSet s false, arg_list a)
  | SAfter s a => Some (PSet s true, arg_list a)
  | _ => None
  end.
(** Appending is safe: it is to new storage for certain, or no list in the same storage is longer. *)
Definition safe (b : bufs) (o : op) : Prop :=
  match appends o with
  | None => True
  | Some (p, xs) => forall x, storage b p = Some x -> xs = [] \/ moves x (length xs) = true \/
      forall q y, storage b q = Some y -> b_id y = b_id x -> b_len y <= b_len x
  end.
(** Every append in a history is safe when it is made. *)
Fixpoint disciplined (b : bufs) (os : list op) : Prop :=
  match os with [] => True | o :: os' => safe b o /\ disciplined (bstep b o) os' end.
