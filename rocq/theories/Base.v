(** Basic types shared by the whole model: Go byte strings, outcomes with an
    explicit panic, association maps.  Nothing here models code of /repo. *)
From Coq Require Export List Arith ZArith NArith Lia Bool Ascii Permutation.
From Coq Require Strings.String.
Export ListNotations.
Export Coq.Strings.String.StringSyntax.
Export Coq.Strings.Ascii.AsciiSyntax.

(** A Go [string] or [[]byte] value: a finite sequence of bytes. *)
Definition bytes := list ascii.

(** Literals: [B"GET"]. *)
Definition B (s : String.string) : bytes := String.list_ascii_of_string s.
Arguments B s%string_scope.

(** Byte value and byte from value. *)
Definition bv (c : ascii) : N := N_of_ascii c.
Definition ch (n : N) : ascii := ascii_of_N n.

(** Result of a Go call that may panic (nil dereference, index out of range,
    write to a nil map, explicit panic). *)
Inductive res (A : Type) : Type :=
| Ok (a : A)
| Panic.
Arguments Ok {A} a.
Arguments Panic {A}.

(** Byte-string equality. *)
Fixpoint beq (x y : bytes) : bool :=
  match x, y with
  | [], [] => true
  | a :: x', b :: y' => Ascii.eqb a b && beq x' y'
  | _, _ => false
  end.

Definition is_empty {A} (l : list A) : bool :=
  match l with [] => true | _ => false end.

Lemma beq_eq x y : beq x y = true <-> x = y.
Proof.
  revert y; induction x as [|a x IH]; intros [|b y]; simpl; split; intros H;
    try reflexivity; try discriminate.
  - apply andb_true_iff in H as [H1 H2].
    apply Ascii.eqb_eq in H1. apply IH in H2. congruence.
  - inversion H; subst. rewrite Ascii.eqb_refl. simpl. apply IH. reflexivity.
Qed.

Lemma beq_refl x : beq x x = true.
Proof. apply beq_eq; reflexivity. Qed.

Lemma beq_neq x y : beq x y = false <-> x <> y.
Proof.
  split.
  - intros H ->. rewrite beq_refl in H. discriminate.
  - intros H. destruct (beq x y) eqn:E; [|reflexivity].
    apply beq_eq in E. contradiction.
Qed.

Lemma beq_spec x y : Bool.reflect (x = y) (beq x y).
Proof.
  destruct (beq x y) eqn:E; constructor.
  - apply beq_eq; exact E.
  - apply beq_neq; exact E.
Qed.

Lemma beq_sym x y : beq x y = beq y x.
Proof.
  destruct (beq_spec x y) as [E|E]; destruct (beq_spec y x) as [F|F]; congruence.
Qed.

Lemma is_empty_true {A} (l : list A) : is_empty l = true <-> l = [].
Proof. destruct l; simpl; split; congruence. Qed.

Lemma is_empty_false {A} (l : list A) : is_empty l = false <-> l <> [].
Proof. destruct l; simpl; split; congruence. Qed.

(** Finite maps keyed by byte strings, as association lists with unique keys
    (Go [map[string]V]; iteration order is modelled where it matters). *)
Section Amap.
  Context {V : Type}.

  Fixpoint aget (k : bytes) (m : list (bytes * V)) : option V :=
    match m with
    | [] => None
    | (k', v) :: m' => if beq k k' then Some v else aget k m'
    end.

  Definition adel (k : bytes) (m : list (bytes * V)) : list (bytes * V) :=
    filter (fun kv => negb (beq k (fst kv))) m.

  Definition aput (k : bytes) (v : V) (m : list (bytes * V)) : list (bytes * V) :=
    (k, v) :: adel k m.

  Lemma aget_adel k k' m :
    aget k (adel k' m) = if beq k k' then None else aget k m.
  Proof.
    induction m as [|[j v] m IH]; simpl.
    - destruct (beq k k'); reflexivity.
    - destruct (beq_spec k' j) as [->|Hj]; simpl.
      + rewrite IH. destruct (beq_spec k j); reflexivity.
      + destruct (beq_spec k j) as [->|Hkj].
        * destruct (beq_spec j k') as [E|E]; [congruence|reflexivity].
        * exact IH.
  Qed.

  Lemma aget_aput k k' v m :
    aget k (aput k' v m) = if beq k k' then Some v else aget k m.
  Proof.
    unfold aput; simpl. destruct (beq k k') eqn:E; [reflexivity|].
    rewrite aget_adel, E. reflexivity.
  Qed.

  Lemma aget_aput_same k v m : aget k (aput k v m) = Some v.
  Proof. rewrite aget_aput, beq_refl. reflexivity. Qed.

  Lemma aget_aput_other k k' v m : k <> k' -> aget k (aput k' v m) = aget k m.
  Proof. intros H. rewrite aget_aput. apply beq_neq in H. rewrite H. reflexivity. Qed.

  Lemma aget_In k v m : aget k m = Some v -> In (k, v) m.
  Proof.
    induction m as [|[j w] m IH]; simpl; [discriminate|].
    destruct (beq_spec k j) as [->|H]; intros E.
    - injection E as ->. left; reflexivity.
    - right. apply IH. exact E.
  Qed.

  Lemma In_adel k k' v m : In (k, v) (adel k' m) -> In (k, v) m.
  Proof. unfold adel. intros H. apply filter_In in H. tauto. Qed.
End Amap.

(** Update of a list position; out of range is the identity (callers only use
    indices produced by a search of the same list). *)
Fixpoint upd_nth {A} (i : nat) (f : A -> A) (l : list A) : list A :=
  match l, i with
  | [], _ => []
  | x :: l', O => f x :: l'
  | x :: l', S i' => x :: upd_nth i' f l'
  end.

Lemma upd_nth_length {A} i (f : A -> A) l : length (upd_nth i f l) = length l.
Proof.
  revert i; induction l as [|x l IH]; intros [|i]; simpl; try reflexivity.
  rewrite IH. reflexivity.
Qed.
