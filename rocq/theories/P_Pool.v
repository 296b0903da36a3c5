(** Proofs about M_Pool: a goroutine owns the objects it works on. *)
From Verif Require Import Base GoStrings P_Slices M_Tree M_RegTree P_TreeFind M_Pool S_Pool.
From Coq Require Import Permutation.

(** ** Local heaps *)
Definition lheap := list (nat * args).
Fixpoint lget (id : nat) (L : lheap) : option args :=
  match L with [] => None | (x, a) :: L' => if x =? id then Some a else lget id L' end.
Fixpoint lput (id : nat) (a : args) (L : lheap) : lheap :=
  match L with [] => [] | (x, b) :: L' => if x =? id then (x, a) :: L' else (x, b) :: lput id a L' end.
Fixpoint ldel (id : nat) (L : lheap) : lheap :=
  match L with [] => [] | (x, b) :: L' => if x =? id then L' else (x, b) :: ldel id L' end.
Definition keys (L : lheap) : list nat := map fst L.

Lemma lget_keys id L a : lget id L = Some a -> In id (keys L).
Proof. induction L as [|[x b] L IH]; cbn; [discriminate|]. destruct (Nat.eqb_spec x id) as [->|N]; auto. Qed.
Lemma lget_none id L : lget id L = None <-> ~ In id (keys L).
Proof.
  induction L as [|[x b] L IH]; cbn; [tauto|]. destruct (Nat.eqb_spec x id) as [->|N].
  - split; [discriminate|tauto].
  - rewrite IH. tauto.
Qed.
Lemma lget_lput id a b L x : lget id L = Some b -> lget x (lput id a L) = if x =? id then Some a else lget x L.
Proof.
  induction L as [|[y c] L IH]; cbn; [discriminate|]. destruct (Nat.eqb_spec y id) as [->|N]; intros H; cbn.
  - destruct (Nat.eqb_spec id x) as [->|M]; [rewrite Nat.eqb_refl; reflexivity|]. destruct (Nat.eqb_spec x id); [congruence|reflexivity].
  - destruct (Nat.eqb_spec y x) as [->|M]; [|apply IH, H]. destruct (Nat.eqb_spec x id); [congruence|reflexivity].
Qed.
Lemma lput_keys id a L : keys (lput id a L) = keys L.
Proof. unfold keys. induction L as [|[y c] L IH]; cbn; [reflexivity|]. destruct (y =? id); cbn; congruence. Qed.
Lemma ldel_perm id a L : lget id L = Some a -> Permutation (keys L) (id :: keys (ldel id L)).
Proof.
  unfold keys. induction L as [|[y c] L IH]; cbn; [discriminate|]. destruct (Nat.eqb_spec y id) as [->|N]; intros H; [reflexivity|].
  cbn. etransitivity; [apply perm_skip, (IH H)|apply perm_swap].
Qed.
Lemma lget_ldel id L x : NoDup (keys L) -> lget x (ldel id L) = if x =? id then None else lget x L.
Proof.
  induction L as [|[y c] L IH]; cbn; intros N; [destruct (x =? id); reflexivity|]. inversion N as [|? ? N1 N2]; subst.
  destruct (Nat.eqb_spec y id) as [->|E].
  - destruct (Nat.eqb_spec id x) as [->|M]; [rewrite Nat.eqb_refl; apply lget_none, N1|]. destruct (Nat.eqb_spec x id); [congruence|reflexivity].
  - cbn. destruct (Nat.eqb_spec y x) as [->|M]; [|apply IH, N2]. destruct (Nat.eqb_spec x id); [congruence|reflexivity].
Qed.
Lemma ldel_nodup id L : NoDup (keys L) -> NoDup (keys (ldel id L)).
Proof.
  intros N. destruct (lget id L) as [a|] eqn:E.
  - apply (Permutation_NoDup (ldel_perm id a L E)) in N. inversion N; assumption.
  - replace (ldel id L) with L; [exact N|]. clear N. induction L as [|[y c] L IH]; cbn in E |- *; [reflexivity|].
    destruct (y =? id); [discriminate|]. rewrite <- IH; auto.
Qed.

(** ** What a goroutine may do with the objects it owns *)
Section Ok.
  Context {R : Type}.
  Fixpoint ok (p : prog R) (L : lheap) (Q : R -> lheap -> Prop) : Prop :=
    match p with
    | Ret r => Q r L
    | New k | Get k => forall id, lget id L = None -> ok (k id) ((id, []) :: L) Q
    | Put id k => lget id L = Some [] /\ ok k (ldel id L) Q
    | Reset id k => lget id L <> None /\ ok k (lput id [] L) Q
    | Add id key value k => exists a, lget id L = Some a /\ ok k (lput id (args_add a key value) L) Q
    | Len id k => exists a, lget id L = Some a /\ ok (k (length a)) L Q
    | At id i k => exists a, lget id L = Some a /\ ok (k (nth i a ([], []))) L Q
    end.

  Lemma ok_touches p L Q id : ok p L Q -> touches p id -> In id (keys L).
  Proof.
    intros O T. destruct T; cbn in O.
    - destruct O as [O _]. exact (lget_keys _ _ _ O).
    - destruct O as [O _]. destruct (lget id L) eqn:E; [exact (lget_keys _ _ _ E)|contradiction].
    - destruct O as (a & O & _). exact (lget_keys _ _ _ O).
    - destruct O as (a & O & _). exact (lget_keys _ _ _ O).
    - destruct O as (a & O & _). exact (lget_keys _ _ _ O).
  Qed.

  (** one operation of one goroutine, seen from all the others *)
  Definition agrees (L : lheap) (h : list args) : Prop := forall id a, lget id L = Some a -> nth_error h id = Some a.
  Lemma nth_of (h : list args) id a : nth_error h id = Some a -> nth id h [] = a.
  Proof. apply nth_error_nth. Qed.

  Lemma pstep_ok p h pl p' h' pl' L Q rest :
    pstep p h pl p' h' pl' -> ok p L Q -> agrees L h ->
    Permutation (keys L ++ pl ++ rest) (seq 0 (length h)) ->
    (forall id, In id pl -> nth_error h id = Some []) ->
    exists L', ok p' L' Q /\ agrees L' h' /\ Permutation (keys L' ++ pl' ++ rest) (seq 0 (length h')) /\
      (forall id, In id pl' -> nth_error h' id = Some []) /\
      (forall id, In id rest -> nth_error h' id = nth_error h id).
  Proof.
    intros St O A Pm Em.
    assert (Nd : NoDup (keys L ++ pl ++ rest)) by (apply (Permutation_NoDup (Permutation_sym Pm)), seq_NoDup).
    assert (Lt : forall id, In id (keys L ++ pl ++ rest) -> id < length h).
    { intros id I. apply (Permutation_in _ Pm), in_seq in I. lia. }
    assert (Kr : forall id, In id (keys L) -> ~ In id pl /\ ~ In id rest).
    { clear -Nd. intros id I. induction (keys L) as [|x l IH]; [destruct I|]. cbn in Nd. inversion Nd as [|? ? N1 N2]; subst.
      destruct I as [->|I]; [|apply IH; auto]. split; intros X; apply N1, in_or_app; right; apply in_or_app; auto. }
    assert (Ki : forall id, lget id L <> None -> In id (keys L)).
    { intros id X. destruct (lget id L) eqn:E; [exact (lget_keys _ _ _ E)|contradiction]. }
    assert (Upd : forall id f a, lget id L = Some a -> exists L', L' = lput id (f a) L /\ agrees L' (upd_nth id f h) /\
      Permutation (keys L' ++ pl ++ rest) (seq 0 (length (upd_nth id f h))) /\
      (forall x, In x pl -> nth_error (upd_nth id f h) x = Some []) /\
      (forall x, In x rest -> nth_error (upd_nth id f h) x = nth_error h x)).
    { intros id f a E. exists (lput id (f a) L). split; [reflexivity|]. destruct (Kr id (lget_keys _ _ _ E)) as [K1 K2].
      split; [|split; [|split]].
      - intros x b. rewrite (lget_lput id (f a) a L x E), nth_error_upd_nth. destruct (Nat.eqb_spec x id) as [->|N]; intros X; [|apply A, X].
        rewrite (A id a E). cbn. congruence.
      - rewrite lput_keys, upd_nth_length. exact Pm.
      - intros x I. rewrite nth_error_upd_nth. destruct (Nat.eqb_spec x id) as [->|N]; [contradiction|apply Em, I].
      - intros x I. rewrite nth_error_upd_nth. destruct (Nat.eqb_spec x id) as [->|N]; [contradiction|reflexivity]. }
    assert (Fresh : lget (length h) L = None /\ agrees ((length h, []) :: L) (h ++ [[]]) /\
      Permutation (keys ((length h, []) :: L) ++ pl ++ rest) (seq 0 (length (h ++ [[]]))) /\
      (forall x, In x pl -> nth_error (h ++ [[]]) x = Some []) /\
      (forall x, In x rest -> nth_error (h ++ [[]]) x = nth_error h x)).
    { split; [|split; [|split; [|split]]].
      - apply lget_none. intros I. assert (length h < length h) by (apply Lt, in_or_app; auto). lia.
      - intros x b. cbn. destruct (Nat.eqb_spec (length h) x) as [<-|N]; intros X.
        + inversion X; subst. rewrite nth_error_app2 by lia. rewrite Nat.sub_diag. reflexivity.
        + rewrite nth_error_app1; [apply A, X|]. apply Lt, in_or_app. left. exact (lget_keys _ _ _ X).
      - rewrite app_length, Nat.add_1_r, seq_S. cbn. etransitivity; [apply perm_skip, Pm|apply Permutation_cons_append].
      - intros x I. rewrite nth_error_app1; [apply Em, I|]. apply Lt, in_or_app. right. apply in_or_app. auto.
      - intros x I. rewrite nth_error_app1; [reflexivity|]. apply Lt, in_or_app. right. apply in_or_app. auto. }
    destruct St; cbn in O.
    - destruct Fresh as (F & F'). exists ((length h, []) :: L). split; [apply O, F|exact F'].
    - destruct Fresh as (F & F'). exists ((length h, []) :: L). split; [apply O, F|exact F'].
    - exists ((id, []) :: L). assert (Ni : lget id L = None).
      { apply lget_none. intros I. apply (proj1 (Kr id I)), in_or_app. right; left; reflexivity. }
      split; [apply O, Ni|]. split; [|split; [|split]].
      + intros x b. cbn. destruct (Nat.eqb_spec id x) as [<-|N]; intros X; [|apply A, X].
        inversion X; subst. apply Em, in_or_app. right; left; reflexivity.
      + rewrite <- Pm. cbn. rewrite <- !app_assoc. cbn.
        etransitivity; [|apply Permutation_app_head, Permutation_middle]. apply Permutation_middle.
      + intros x I. apply Em. apply in_app_or in I. apply in_or_app. destruct I; [auto|right; right; auto].
      + reflexivity.
    - destruct O as [O1 O2]. exists (ldel id L). assert (Nk : NoDup (keys L)).
      { clear -Nd. induction (keys L) as [|x l IH]; [constructor|]. cbn in Nd. inversion Nd as [|? ? N1 N2]; subst. constructor; auto.
        intros I. apply N1, in_or_app. auto. }
      split; [exact O2|]. split; [|split; [|split]].
      + intros x b. rewrite lget_ldel by exact Nk. destruct (x =? id); [discriminate|apply A].
      + rewrite <- Pm. rewrite (ldel_perm id [] L O1). cbn. symmetry. apply Permutation_middle.
      + intros x [<-|I]; [apply A, O1|apply Em, I].
      + reflexivity.
    - destruct O as [O1 O2]. destruct (lget id L) as [a|] eqn:E; [|contradiction].
      destruct (Upd id (fun _ => []) a E) as (L' & -> & U). exists (lput id [] L). split; [exact O2|exact U].
    - destruct O as (a & E & O2). destruct (Upd id (fun a => args_add a key value) a E) as (L' & -> & U).
      exists (lput id (args_add a key value) L). split; [exact O2|exact U].
    - destruct O as (a & E & O2). exists L. rewrite (nth_of h id a (A id a E)). split; [exact O2|]. split; [exact A|]. split; [exact Pm|]. split; [exact Em|reflexivity].
    - destruct O as (a & E & O2). exists L. rewrite (nth_of h id a (A id a E)). split; [exact O2|]. split; [exact A|]. split; [exact Pm|]. split; [exact Em|reflexivity].
  Qed.

  (** ** All goroutines: each owns its objects, the rest is in the pool or given up *)
  Definition inv (Qs : list (R -> lheap -> Prop)) (y : sys R) : Prop :=
    exists Ls : list lheap,
      length Ls = length Qs /\
      Forall2 (fun p LQ => ok p (fst LQ) (snd LQ)) (y_progs y) (combine Ls Qs) /\
      Forall (fun L => agrees L (y_heap y)) Ls /\
      Permutation (concat (map keys Ls) ++ y_pool y ++ y_gone y) (seq 0 (length (y_heap y))) /\
      (forall id, In id (y_pool y) -> nth_error (y_heap y) id = Some []).

  Lemma inv_start ps Qs : Forall2 (fun p Q => ok p [] Q) ps Qs -> inv Qs (start ps).
  Proof.
    intros F. exists (map (fun _ => []) Qs). split; [apply map_length|]. split; [|split; [|split]].
    - cbn. induction F as [|p Q ps Qs X F IH]; cbn; constructor; auto.
    - apply Forall_forall. intros L I. apply in_map_iff in I as (Q & <- & _). intros id a X. discriminate X.
    - cbn. rewrite app_nil_r. clear F. induction Qs as [|Q Qs IH]; cbn; [reflexivity|exact IH].
    - intros id [].
  Qed.

  Lemma combine_split {A C} (x : A) (b : C) : forall l1 l2 Ls Qs, length Ls = length Qs -> combine Ls Qs = l1 ++ (x, b) :: l2 ->
    exists La Lb Qa Qb, Ls = La ++ x :: Lb /\ Qs = Qa ++ b :: Qb /\ l1 = combine La Qa /\ l2 = combine Lb Qb /\ length La = length Qa /\ length Lb = length Qb.
  Proof.
    induction l1 as [|[y c] l1 IH]; intros l2 [|u Ls] [|v Qs] Len E; cbn in *; try discriminate.
    - inversion E; subst. exists [], Ls, [], Qs. cbn. repeat (split; [reflexivity||lia|]). lia.
    - inversion E as [[E1 E2 E3]]; subst. destruct (IH l2 Ls Qs) as (La & Lb & Qa & Qb & -> & -> & -> & -> & X & Y); [lia|exact E3|].
      exists (y :: La), Lb, (c :: Qa), Qb. cbn. repeat (split; [reflexivity||lia|]). lia.
  Qed.

  Lemma inv_step Qs x y : step x y -> inv Qs x -> inv Qs y.
  Proof.
    intros St (Ls & Ln & F & A & Pm & Em). destruct St as [h pl g l1 p l2 p' h' pl' St|h p1 id p2 g ps]; cbn [y_heap y_pool y_gone y_progs] in *.
    - apply Forall2_app_inv_l in F as (c1 & c2 & F1 & F2 & E). inversion F2 as [|? [L Q] ? c2' O F3]; subst. cbn [fst snd] in O.
      destruct (combine_split L Q c1 c2' Ls Qs Ln E) as (La & Lb & Qa & Qb & -> & -> & -> & -> & Xa & Xb).
      apply Forall_app in A as [Aa A]. inversion A as [|? ? Al Ab]; subst.
      assert (Pm' : Permutation (keys L ++ pl ++ (concat (map keys La) ++ concat (map keys Lb) ++ g)) (seq 0 (length h))).
      { rewrite <- Pm. rewrite map_app, concat_app. cbn [map concat].
        repeat rewrite <- app_assoc.
        etransitivity; [|symmetry; apply Permutation_app_swap_app]. apply Permutation_app_head.
        etransitivity; [apply Permutation_app_swap_app|]. apply Permutation_app_head. apply Permutation_app_swap_app. }
      destruct (pstep_ok p h pl p' h' pl' L Q _ St O Al Pm' Em) as (L' & O' & A' & Pm'' & Em' & Fr).
      assert (Other : forall M, In M (La ++ Lb) -> agrees M h -> agrees M h').
      { intros M I Am id a X. rewrite Fr; [apply Am, X|]. apply lget_keys in X. rewrite app_assoc. apply in_or_app. left.
        rewrite <- concat_app, <- map_app. apply in_concat. exists (keys M). split; [apply in_map, I|exact X]. }
      exists (La ++ L' :: Lb). split; [rewrite !app_length in *; cbn in *; lia|]. split; [|split; [|split]]; [| | |exact Em'].
      + assert (Ec : combine (La ++ L' :: Lb) (Qa ++ Q :: Qb) = combine La Qa ++ (L', Q) :: combine Lb Qb).
        { clear -Xa. revert Qa Xa. induction La as [|u La IH]; intros [|v Qa] Xa; cbn in *; try lia; [reflexivity|]. rewrite IH; [reflexivity|lia]. }
        rewrite Ec. apply Forall2_app; [exact F1|]. constructor; [exact O'|exact F3].
      + apply Forall_app. rewrite Forall_forall in Aa, Ab. split; [|constructor; [exact A'|]]; apply Forall_forall; intros M I; apply Other.
        * apply in_or_app; auto.
        * apply Aa, I.
        * apply in_or_app; auto.
        * apply Ab, I.
      + rewrite <- Pm''. rewrite map_app, concat_app. cbn [map concat]. repeat rewrite <- app_assoc.
        etransitivity; [apply Permutation_app_swap_app|]. apply Permutation_app_head.
        etransitivity; [|apply Permutation_app_swap_app]. apply Permutation_app_head. apply Permutation_app_swap_app.
    - exists Ls. split; [exact Ln|]. split; [exact F|]. split; [exact A|]. split.
      + cbn [y_heap y_pool y_gone]. rewrite <- Pm. apply Permutation_app_head. rewrite <- !app_assoc. apply Permutation_app_head.
        cbn. symmetry. apply Permutation_middle.
      + intros x I. apply Em. apply in_app_or in I. apply in_or_app. destruct I; [auto|right; right; auto].
  Qed.
  Lemma inv_many Qs x y : many x y -> inv Qs x -> inv Qs y.
  Proof. intros M I. induction M as [|x y z M IH S1]; [exact I|]. exact (inv_step Qs y z S1 (IH I)). Qed.

  Lemma inv_exclusive Qs y : inv Qs y -> exclusive y.
  Proof.
    intros (Ls & Ln & F & A & Pm & Em) l1 p l2 id E T. rewrite E in F.
    apply Forall2_app_inv_l in F as (c1 & c2 & F1 & F2 & Ec). inversion F2 as [|? [L Q] ? c2' O F3]; subst. cbn [fst snd] in O.
    destruct (combine_split L Q c1 c2' Ls Qs Ln Ec) as (La & Lb & Qa & Qb & -> & -> & -> & -> & Xa & Xb).
    pose proof (ok_touches p L Q id O T) as K.
    assert (Pm' : Permutation (keys L ++ ((concat (map keys La) ++ concat (map keys Lb)) ++ y_pool y ++ y_gone y)) (seq 0 (length (y_heap y)))).
    { rewrite <- Pm. rewrite map_app, concat_app. cbn [map concat]. repeat rewrite <- app_assoc. apply Permutation_app_swap_app. }
    assert (Nd : NoDup (keys L ++ ((concat (map keys La) ++ concat (map keys Lb)) ++ y_pool y ++ y_gone y))) by (apply (Permutation_NoDup (Permutation_sym Pm')), seq_NoDup).
    assert (Ni : ~ In id ((concat (map keys La) ++ concat (map keys Lb)) ++ y_pool y ++ y_gone y)).
    { clear -Nd K. induction (keys L) as [|x l IH]; [destruct K|]. cbn in Nd. inversion Nd as [|? ? N1 N2]; subst.
      destruct K as [->|K]; [|apply IH; auto]. intros X. apply N1, in_or_app. right. exact X. }
    split; [|split; [|split]].
    - assert (I : In id (seq 0 (length (y_heap y)))) by (apply (Permutation_in _ Pm'), in_or_app; auto). apply in_seq in I. lia.
    - intros X. apply Ni, in_or_app. right. apply in_or_app. auto.
    - intros X. apply Ni, in_or_app. right. apply in_or_app. auto.
    - intros q I Tq. apply Ni, in_or_app. left. rewrite <- concat_app, <- map_app.
      assert (G : exists M, In M (La ++ Lb) /\ In id (keys M)).
      { apply in_app_or in I as [I|I].
        - clear -F1 I Tq. revert I. remember (combine La Qa) as cs eqn:Ecs. intros I.
          assert (G : exists LQ, In LQ cs /\ ok q (fst LQ) (snd LQ)).
          { clear Ecs. induction F1 as [|a b l1 cs X F IH]; [destruct I|]. destruct I as [->|I]; [exists b; split; [left; reflexivity|exact X]|].
            destruct (IH I) as (LQ & J & X'). exists LQ. split; [right; exact J|exact X']. }
          destruct G as ([M QM] & J & Om). subst cs. exists M. split; [apply in_or_app; left; exact (in_combine_l _ _ _ _ J)|]. exact (ok_touches q M QM id Om Tq).
        - clear -F3 I Tq. revert I. remember (combine Lb Qb) as cs eqn:Ecs. intros I.
          assert (G : exists LQ, In LQ cs /\ ok q (fst LQ) (snd LQ)).
          { clear Ecs. induction F3 as [|a b l2 cs X F IH]; [destruct I|]. destruct I as [->|I]; [exists b; split; [left; reflexivity|exact X]|].
            destruct (IH I) as (LQ & J & X'). exists LQ. split; [right; exact J|exact X']. }
          destruct G as ([M QM] & J & Om). subst cs. exists M. split; [apply in_or_app; right; exact (in_combine_l _ _ _ _ J)|]. exact (ok_touches q M QM id Om Tq). }
      destruct G as (M & I1 & I2). apply in_concat. exists (keys M). split; [apply in_map, I1|exact I2].
  Qed.
End Ok.

(** ** The programs keep to what they own *)
Lemma firstn_snoc {A} (d : A) : forall (a : list A) i, i < length a -> firstn i a ++ [nth i a d] = firstn (S i) a.
Proof.
  induction a as [|y a IH]; intros i Hi; cbn in Hi; [lia|]. destruct i as [|i]; [reflexivity|].
  change (y :: (firstn i a ++ [nth i a d]) = y :: firstn (S i) a). f_equal. apply IH. lia.
Qed.
Section Progs.
  Context {HS R : Type}.
  Implicit Types (L : lheap) (Q : R -> lheap -> Prop) (k : prog R).

  Lemma ok_copy_from src dst s d Q : forall n i k L, src <> dst -> lget src L = Some s -> lget dst L = Some (d ++ firstn i s) -> i + n = length s ->
    (forall L', keys L' = keys L -> (forall x, lget x L' = if x =? dst then Some (d ++ s) else lget x L) -> ok k L' Q) ->
    ok (copy_from src dst i n k) L Q.
  Proof.
    induction n as [|n IH]; intros i k L N S1 D1 Ln K; cbn [copy_from].
    - apply K; [reflexivity|]. intros x. destruct (Nat.eqb_spec x dst) as [->|M]; [|reflexivity].
      rewrite D1. rewrite firstn_all2 by lia. reflexivity.
    - cbn [ok]. exists s. split; [exact S1|]. exists (d ++ firstn i s). split; [exact D1|].
      set (L1 := lput dst _ L). assert (G : forall x, lget x L1 = if x =? dst then Some (args_add (d ++ firstn i s) (fst (nth i s ([], []))) (snd (nth i s ([], [])))) else lget x L) by (intros x; exact (lget_lput _ _ _ _ x D1)).
      apply IH; auto.
      + rewrite G. destruct (Nat.eqb_spec src dst); [contradiction|exact S1].
      + rewrite G, Nat.eqb_refl. unfold args_add. f_equal. rewrite <- app_assoc. f_equal.
        rewrite <- surjective_pairing. apply firstn_snoc. lia.
      + lia.
      + intros L' Kk G'. apply K; [rewrite Kk; apply lput_keys|]. intros x. rewrite G'. destruct (Nat.eqb_spec x dst) as [->|M]; [reflexivity|].
        rewrite G. destruct (Nat.eqb_spec x dst); [contradiction|reflexivity].
  Qed.
  Lemma ok_copy_all src dst s d k L Q : src <> dst -> lget src L = Some s -> lget dst L = Some d ->
    (forall L', keys L' = keys L -> (forall x, lget x L' = if x =? dst then Some (d ++ s) else lget x L) -> ok k L' Q) ->
    ok (copy_all src dst k) L Q.
  Proof.
    intros N S1 D1 K. cbn [copy_all ok]. exists s. split; [exact S1|]. apply (ok_copy_from src dst s d); auto.
    cbn [firstn]. rewrite app_nil_r. exact D1.
  Qed.

  Lemma ok_read_from id a Q (f : args -> prog R) L : lget id L = Some a -> ok (f a) L Q -> forall n i, i + n = length a ->
    ok (read_from id i n (firstn i a) f) L Q.
  Proof.
    intros G K. induction n as [|n IH]; intros i Ln; cbn [read_from].
    - rewrite firstn_all2 by lia. exact K.
    - cbn [ok]. exists a. split; [exact G|]. assert (E : firstn i a ++ [nth i a ([], [])] = firstn (S i) a).
      { apply firstn_snoc. lia. }
      rewrite E. apply IH. lia.
  Qed.
  Lemma ok_read_all id a Q (f : args -> prog R) L : lget id L = Some a -> ok (f a) L Q -> ok (read_all id f) L Q.
  Proof. intros G K. cbn [read_all ok]. exists a. split; [exact G|]. apply (ok_read_from id a Q f L G K (length a) 0). reflexivity. Qed.

  Lemma ok_release id k L Q : NoDup (keys L) -> lget id L <> None ->
    (forall L', NoDup (keys L') -> (forall x, lget x L' = if x =? id then None else lget x L) -> ok k L' Q) ->
    ok (release id k) L Q.
  Proof.
    intros N G K. cbn [release ok]. split; [exact G|]. destruct (lget id L) as [a|] eqn:E; [|contradiction].
    assert (X : forall x, lget x (lput id [] L) = if x =? id then Some [] else lget x L) by (intros x; exact (lget_lput _ _ _ _ x E)).
    split; [rewrite X, Nat.eqb_refl; reflexivity|]. apply K.
    - apply ldel_nodup. rewrite lput_keys. exact N.
    - intros x. rewrite lget_ldel by (rewrite lput_keys; exact N). rewrite X. destruct (x =? id); reflexivity.
  Qed.
  Lemma ok_release_all Q k : forall all L, NoDup (keys L) -> NoDup all -> (forall x, In x all -> lget x L <> None) ->
    (forall L', NoDup (keys L') -> (forall x, In x all -> lget x L' = None) -> (forall x, ~ In x all -> lget x L' = lget x L) -> ok k L' Q) ->
    ok (release_all all k) L Q.
  Proof.
    induction all as [|id all IH]; intros L N Na G K; cbn [release_all].
    - apply K; auto. intros x [].
    - inversion Na as [|? ? N1 N2]; subst. apply ok_release; [exact N|apply G; left; reflexivity|]. intros L1 Nl G1.
      apply IH; auto.
      + intros x I. rewrite G1. destruct (Nat.eqb_spec x id) as [->|M]; [contradiction|]. apply G. right. exact I.
      + intros L' Nl' Gi Go. apply K; [exact Nl'| |].
        * intros x [<-|I]; [|apply Gi, I]. rewrite Go by exact N1. rewrite G1, Nat.eqb_refl. reflexivity.
        * intros x I. rewrite Go by (intros X; apply I; right; exact X). rewrite G1. destruct (Nat.eqb_spec x id) as [->|M]; [|reflexivity].
          exfalso. apply I. left; reflexivity.
  Qed.

  (** a work queue with objects against one with values *)
  Definition wq (L : lheap) (w : went HS) (e : qent HS) : Prop :=
    w_node w = q_node e /\ w_path w = q_path e /\ lget (w_args w) L = Some (q_args e).
  Record J (inOut : nat) (L0 : lheap) (queue : list (went HS)) (pq : list (qent HS)) (all : list nat) (L : lheap) : Prop := MkJ {
    J_nd : NoDup (keys L);
    J_q : NoDup (map w_args queue);
    J_qa : incl (map w_args queue) all;
    J_all : NoDup all;
    J_own : forall x, In x all -> lget x L <> None;
    J_rel : Forall2 (wq L) queue pq;
    J_in : ~ In inOut all;
    J_out : lget inOut L = Some [];
    J_rest : forall x, ~ In x all -> lget x L = lget x L0;
    J_base : forall x, In x all -> lget x L0 = None
  }.

  Lemma wq_ext L L' queue pq : (forall w, In w queue -> lget (w_args w) L' = lget (w_args w) L) ->
    Forall2 (wq L) queue pq -> Forall2 (wq L') queue pq.
  Proof.
    intros E F. induction F as [|w e ws es X F IH]; constructor.
    - destruct X as (X1 & X2 & X3). split; [exact X1|]. split; [exact X2|]. rewrite E by (left; reflexivity). exact X3.
    - apply IH. intros w' I. apply E. right. exact I.
  Qed.

  Lemma ok_push inOut L0 seg rest a av Q (k : list (went HS) -> list nat -> prog R) : forall cs queue pq all L,
    J inOut L0 queue pq all L -> In a all -> ~ In a (map w_args queue) -> lget a L = Some av ->
    (forall queue' all' L', J inOut L0 queue' (pq ++ map (fun c => QEnt c rest av) (filter (child_matches seg) cs)) all' L' -> ok (k queue' all') L' Q) ->
    ok (push seg rest a cs queue all k) L Q.
  Proof.
    induction cs as [|c cs IH]; intros queue pq all L HJ Ia Na Ga K; cbn [push].
    - apply K. cbn. rewrite app_nil_r. exact HJ.
    - destruct (child_matches seg c) eqn:E.
      2: { eapply IH; [exact HJ|exact Ia|exact Na|exact Ga|]. intros q' all' L' HJ'. apply K. cbn [filter]. rewrite E. exact HJ'. }
      cbn [ok]. intros id Nid. assert (Ni : ~ In id (keys L)) by (apply lget_none; exact Nid).
      assert (Nall : ~ In id all) by (intros X; apply (J_own _ _ _ _ _ _ HJ id X), Nid).
      assert (Nai : a <> id) by (intros ->; congruence).
      apply (ok_copy_all a id av []); [exact Nai| | |].
      { cbn. destruct (Nat.eqb_spec id a); [congruence|exact Ga]. }
      { cbn. rewrite Nat.eqb_refl. reflexivity. }
      intros L' Kk G. cbn [app] in G.
      assert (G' : forall x, lget x L' = if x =? id then Some av else lget x L).
      { intros x. rewrite G. destruct (Nat.eqb_spec x id) as [->|M]; [reflexivity|]. cbn. destruct (Nat.eqb_spec id x); [congruence|reflexivity]. }
      assert (Nio : inOut <> id) by (intros ->; rewrite (J_out _ _ _ _ _ _ HJ) in Nid; discriminate).
      destruct HJ as [J1 J2 J3 J4 J5 J6 J7 J8 J9 J10].
      eapply (IH (queue ++ [WEnt c rest id]) (pq ++ [QEnt c rest av]) (all ++ [id]) L').
      + constructor.
        * rewrite Kk. cbn. constructor; [exact Ni|exact J1].
        * rewrite map_app. cbn. apply (Permutation_NoDup (Permutation_cons_append _ _)). constructor; [intros X; apply Nall, J3, X|exact J2].
        * rewrite map_app. cbn. apply incl_app; [apply incl_appl; exact J3|apply incl_appr, incl_refl].
        * apply (Permutation_NoDup (Permutation_cons_append _ _)). constructor; assumption.
        * intros x I. rewrite G'. destruct (x =? id) eqn:Ex; [discriminate|]. apply in_app_or in I as [I|[<-|[]]]; [apply J5, I|]. rewrite Nat.eqb_refl in Ex. discriminate.
        * apply Forall2_app.
          -- apply (wq_ext L); [|exact J6]. intros w I. rewrite G'. destruct (Nat.eqb_spec (w_args w) id) as [X|M]; [|reflexivity].
             exfalso. apply Nall. rewrite <- X. apply J3, in_map, I.
          -- constructor; [|constructor]. split; [reflexivity|]. split; [reflexivity|]. cbn. rewrite G', Nat.eqb_refl. reflexivity.
        * intros I. apply in_app_or in I as [I|[X|[]]]; [exact (J7 I)|congruence].
        * rewrite G'. destruct (Nat.eqb_spec inOut id); [contradiction|exact J8].
        * intros x I. rewrite G'. destruct (Nat.eqb_spec x id) as [->|M].
          -- exfalso. apply I, in_or_app. right; left; reflexivity.
          -- apply J9. intros X. apply I, in_or_app. left. exact X.
        * intros x I. apply in_app_or in I as [I|[<-|[]]]; [apply J10, I|]. rewrite <- J9 by exact Nall. exact Nid.
      + apply in_or_app. left. exact Ia.
      + rewrite map_app. intros X. apply in_app_or in X as [X|[X|[]]]; [exact (Na X)|cbn in X; congruence].
      + rewrite G'. destruct (Nat.eqb_spec a id); [contradiction|exact Ga].
      + intros q' all' L2 HJ2. apply K. cbn [filter]. rewrite E. cbn [map]. rewrite <- app_assoc in HJ2. exact HJ2.
  Qed.

  Definition tres_of (f : fout HS) : tres HS * args :=
    match f with FFound s a => (TFound s, a) | FNone => (TNotFound, []) | FPanic => (TPanic, []) | FFuel => (TFuel, []) end.

  (** what is left after a search: the caller's objects, with the parameters in inOutArgs *)
  Definition after (inOut : nat) (a : args) (L0 L : lheap) : Prop :=
    NoDup (keys L) /\ (forall x, lget x L = if x =? inOut then Some a else lget x L0).

  Lemma ok_back inOut L0 queue pq all L Q (k : prog R) : J inOut L0 queue pq all L ->
    (forall L', after inOut [] L0 L' -> ok k L' Q) -> ok (release_all all k) L Q.
  Proof.
    intros [J1 J2 J3 J4 J5 J6 J7 J8 J9 J10] K. apply ok_release_all; auto. intros L' N Gi Go. apply K. split; [exact N|].
    intros x. destruct (Nat.eqb_spec x inOut) as [->|M]; [rewrite Go by exact J7; exact J8|].
    destruct (in_dec Nat.eq_dec x all) as [I|I]; [rewrite (Gi x I); symmetry; apply J10, I|rewrite (Go x I); apply J9, I].
  Qed.

  Lemma ok_loop inOut L0 method Q (k : tres HS -> prog R) : forall fuel queue pq all L, J inOut L0 queue pq all L ->
    (forall L', after inOut (snd (tres_of (find_loop fuel method pq))) L0 L' -> ok (k (fst (tres_of (find_loop fuel method pq)))) L' Q) ->
    ok (loop fuel method inOut queue all k) L Q.
  Proof.
    induction fuel as [|fuel IH]; intros queue pq all L HJ K; cbn [loop find_loop] in K |- *.
    - exact (ok_back _ _ _ _ _ _ _ _ HJ K).
    - pose proof (J_rel _ _ _ _ _ _ HJ) as F. inversion F as [|w e ws es X F']; subst.
      + exact (ok_back _ _ _ _ _ _ _ _ HJ K).
      + destruct X as (X1 & X2 & X3). rewrite X1, X2. destruct (q_path e) as [|p0 rest] eqn:Ep; [exact (ok_back _ _ _ _ _ _ _ _ HJ K)|].
        set (n := q_node e) in *. cbv zeta in K |- *.
        set (av := if is_empty (n_urlid n) then q_args e else args_add (q_args e) (n_urlid n) p0) in *.
        assert (Nw : ~ In (w_args w) (map w_args ws)) by (pose proof (J_q _ _ _ _ _ _ HJ) as N; cbn in N; inversion N; assumption).
        assert (Iw : In (w_args w) all) by (apply (J_qa _ _ _ _ _ _ HJ); left; reflexivity).
        assert (Go : is_empty (n_urlid n) && negb (beq (n_path n) p0) = false -> forall L1, J inOut L0 ws es all L1 -> lget (w_args w) L1 = Some av ->
          ok (match rest with
              | [] => match lookup_set method (n_handlers n) with
                      | Some s => copy_all (w_args w) inOut (release_all all (k (TFound s)))
                      | None => release_all all (k TNotFound)
                      end
              | p1 :: _ => push p1 rest (w_args w) (n_children n) ws all (fun q' all' => loop fuel method inOut q' all' k)
              end) L1 Q).
        { intros E1 L1 HJ1 Ga. rewrite E1 in K. destruct rest as [|p1 rest'].
          - destruct (lookup_set method (n_handlers n)) as [s|] eqn:El.
            + apply (ok_copy_all (w_args w) inOut av []); [intros Y; apply (J_in _ _ _ _ _ _ HJ1); rewrite <- Y; exact Iw|exact Ga|exact (J_out _ _ _ _ _ _ HJ1)|].
              intros L2 Kk G. cbn [app] in G. destruct HJ1 as [J1 J2 J3 J4 J5 J6 J7 J8 J9 J10]. apply ok_release_all; auto.
              * rewrite Kk. exact J1.
              * intros x I. rewrite G. destruct (x =? inOut); [discriminate|apply J5, I].
              * intros L3 N3 Gi Gn. apply K. split; [exact N3|]. cbn [tres_of snd]. intros x.
                destruct (Nat.eqb_spec x inOut) as [->|M]; [rewrite Gn by exact J7; rewrite G, Nat.eqb_refl; reflexivity|].
                destruct (in_dec Nat.eq_dec x all) as [I|I]; [rewrite (Gi x I); symmetry; apply J10, I|].
                rewrite (Gn x I), G. destruct (Nat.eqb_spec x inOut); [contradiction|apply J9, I].
            + exact (ok_back _ _ _ _ _ _ _ _ HJ1 K).
          - apply (ok_push inOut L0 p1 (p1 :: rest') (w_args w) av Q _ (n_children n) ws es all L1 HJ1 Iw Nw Ga).
            intros q' all' L' HJ'. apply (IH _ _ _ _ HJ'). exact K. }
        assert (HJ0 : J inOut L0 ws es all L).
        { destruct HJ as [J1 J2 J3 J4 J5 J6 J7 J8 J9 J10]. constructor; auto.
          - cbn in J2. inversion J2; assumption.
          - intros x I. apply J3. right. exact I. }
        destruct (is_empty (n_urlid n)) eqn:Eu; cbn [negb andb] in *.
        * destruct (beq (n_path n) p0) eqn:Eb; cbn [negb] in *; [apply Go; [reflexivity|exact HJ0|exact X3]|].
          exact (ok_back _ _ _ _ _ _ _ _ HJ0 K).
        * cbn [ok]. exists (q_args e). split; [exact X3|]. set (L1 := lput _ _ L).
          assert (G : forall x, lget x L1 = if x =? w_args w then Some av else lget x L) by (intros x; exact (lget_lput _ _ _ _ x X3)).
          apply Go; [reflexivity| |rewrite G, Nat.eqb_refl; reflexivity].
          destruct HJ0 as [J1 J2 J3 J4 J5 J6 J7 J8 J9 J10]. constructor; auto.
          -- unfold L1. rewrite lput_keys. exact J1.
          -- intros x I. rewrite G. destruct (x =? w_args w); [discriminate|apply J5, I].
          -- apply (wq_ext L); [|exact J6]. intros v I. rewrite G. destruct (Nat.eqb_spec (w_args v) (w_args w)) as [Y|M]; [|reflexivity].
             exfalso. apply Nw. rewrite <- Y. apply in_map, I.
          -- rewrite G. destruct (Nat.eqb_spec inOut (w_args w)) as [Y|M]; [exfalso; apply J7; rewrite Y; exact Iw|exact J8].
          -- intros x I. rewrite G. destruct (Nat.eqb_spec x (w_args w)) as [->|M]; [contradiction|apply J9, I].
  Qed.

  Lemma after_lput inOut a b L0 : NoDup (keys L0) -> lget inOut L0 = Some b -> after inOut a L0 (lput inOut a L0).
  Proof. intros N G. split; [rewrite lput_keys; exact N|]. intros x. exact (lget_lput _ _ _ _ x G). Qed.
  Lemma after_trans inOut a b L0 L1 L2 : after inOut a L0 L1 -> after inOut b L1 L2 -> after inOut b L0 L2.
  Proof. intros [_ A] [N C]. split; [exact N|]. intros x. rewrite C. destruct (Nat.eqb_spec x inOut) as [->|M]; [reflexivity|]. rewrite A. destruct (Nat.eqb_spec x inOut); [contradiction|reflexivity]. Qed.
  Lemma after_get inOut a L0 L : after inOut a L0 L -> lget inOut L = Some a.
  Proof. intros [_ A]. rewrite A, Nat.eqb_refl. reflexivity. Qed.

  Lemma ok_tree_find top method path inOut Q (k : tres HS -> prog R) L0 c0 : NoDup (keys L0) -> lget inOut L0 = Some c0 ->
    (forall L', after inOut (snd (tree_find top method path c0)) L0 L' -> ok (k (fst (tree_find top method path c0))) L' Q) ->
    ok (tree_find_prog top method path inOut k) L0 Q.
  Proof.
    intros N G K. unfold tree_find_prog. cbn [ok]. split; [congruence|].
    pose proof (after_lput inOut [] c0 L0 N G) as A1. set (L1 := lput inOut [] L0) in *.
    assert (G1 : lget inOut L1 = Some []) by exact (after_get _ _ _ _ A1).
    assert (Deep : forall ps, (forall L', after inOut (snd (tres_of (find_loop (S (node_size top)) method [QEnt top ps []]))) L0 L' ->
         ok (k (fst (tres_of (find_loop (S (node_size top)) method [QEnt top ps []])))) L' Q) ->
       ok (New (fun a0 => loop (S (node_size top)) method inOut [WEnt top ps a0] [a0] k)) L1 Q).
    { intros ps Kp. cbn [ok]. intros id Ni.
      assert (Nio : inOut <> id) by (intros ->; congruence).
      apply (ok_loop inOut L1 method Q k _ [WEnt top ps id] [QEnt top ps []] [id]).
      - constructor.
        + cbn. constructor; [apply lget_none; exact Ni|exact (proj1 A1)].
        + cbn. constructor; [intros []|constructor].
        + cbn. apply incl_refl.
        + constructor; [intros []|constructor].
        + intros x [<-|[]]. cbn. rewrite Nat.eqb_refl. discriminate.
        + constructor; [|constructor]. split; [reflexivity|]. split; [reflexivity|]. cbn. rewrite Nat.eqb_refl. reflexivity.
        + intros [X|[]]. congruence.
        + cbn. destruct (Nat.eqb_spec id inOut); [congruence|exact G1].
        + intros x I. cbn. destruct (Nat.eqb_spec id x) as [->|M]; [exfalso; apply I; left; reflexivity|reflexivity].
        + intros x [<-|[]]. exact Ni.
      - intros L' A'. apply Kp. exact (after_trans _ _ _ _ _ _ A1 A'). }
    assert (Fin : forall ps, fst (match find_loop (S (node_size top)) method [QEnt top ps []] with FFound s a => (TFound s, [] ++ a) | FNone => (TNotFound, []) | FPanic => (TPanic, []) | FFuel => (TFuel, []) end)
        = fst (tres_of (find_loop (S (node_size top)) method [QEnt top ps []])) /\
        snd (match find_loop (S (node_size top)) method [QEnt top ps []] with FFound s a => (TFound s, [] ++ a) | FNone => (TNotFound, []) | FPanic => (TPanic, []) | FFuel => (TFuel, []) end)
        = snd (tres_of (find_loop (S (node_size top)) method [QEnt top ps []]))).
    { intros ps. destruct (find_loop _ _ _); split; reflexivity. }
    unfold tree_find in K. cbv zeta in K. destruct (split_path path) as [|p0 [|p1 ps]].
    - apply Deep. destruct (Fin []) as [<- <-]. exact K.
    - destruct (lookup_set method (n_handlers top)); apply K, A1.
    - apply Deep. destruct (Fin (p0 :: p1 :: ps)) as [<- <-]. exact K.
  Qed.

  Lemma ok_server_find matches order top rt method path inOut Q (k : tres HS -> prog R) L0 c0 : NoDup (keys L0) -> lget inOut L0 = Some c0 ->
    (forall L', after inOut (snd (server_find matches order top rt method path c0)) L0 L' -> ok (k (fst (server_find matches order top rt method path c0))) L' Q) ->
    ok (server_find_prog matches order top rt method path inOut k) L0 Q.
  Proof.
    intros N G K. unfold server_find_prog. apply (ok_tree_find top method path inOut Q _ L0 c0 N G).
    intros L1 A1. unfold server_find in K. destruct (tree_find top method path c0) as [r a]; cbn [fst snd] in A1 |- *.
    destruct r; try (apply K, A1). unfold reg_find_prog. cbn [ok]. pose proof (after_get _ _ _ _ A1) as G1. split; [congruence|].
    pose proof (after_trans _ _ _ _ _ _ A1 (after_lput inOut [] a L1 (proj1 A1) G1)) as A2.
    unfold reg_find in K. destruct (aget method rt) as [m|]; [|apply K, A2].
    destruct (find _ (order m)) as [[rg s]|]; apply K, A2.
  Qed.
End Progs.

Section Code.
  Context {HS X : Type}.
  Variable matches : rgx -> bytes -> bool.
  Variable top : node HS.
  Variable rt : rtree HS.
  Variable handler : HS -> hprog X.

  Lemma ok_handle {R} id (h : hprog X) (k : X -> prog R) Q L0 : forall a L, after id a L0 L ->
    (forall b L', after id b L0 L' -> ok (k (use h a)) L' Q) -> ok (handle id h k) L Q.
  Proof.
    induction h as [x|f IH|key value h IH|h IH]; intros a L A K; cbn [handle].
    - exact (K a L A).
    - apply (ok_read_all id a); [exact (after_get _ _ _ _ A)|]. apply (IH a a L A). exact K.
    - cbn [ok]. exists a. split; [exact (after_get _ _ _ _ A)|]. apply (IH (a ++ [(key, value)])); [|exact K].
      exact (after_trans _ _ _ _ _ _ A (after_lput id _ a L (proj1 A) (after_get _ _ _ _ A))).
    - cbn [ok]. split; [rewrite (after_get _ _ _ _ A); discriminate|]. apply (IH []); [|exact K].
      exact (after_trans _ _ _ _ _ _ A (after_lput id _ a L (proj1 A) (after_get _ _ _ _ A))).
  Qed.

  (** how a goroutine ends: with the outcome of being alone, owning nothing (a request) or its own
      object (a caller of Find) *)
  Definition ends (c : lookup HS) (r : answer HS X) (L : lheap) : Prop :=
    r = alone matches top rt handler c /\
    (if k_serve c then L = [] else exists id a, L = [(id, a)]).

  Lemma lget_nil L : (forall x, lget x L = None) -> L = [].
  Proof. destruct L as [|[x a] L]; [reflexivity|]. intros H. specialize (H x). cbn in H. rewrite Nat.eqb_refl in H. discriminate. Qed.
  Lemma lget_one id a L : NoDup (keys L) -> (forall x, lget x L = if x =? id then Some a else None) -> L = [(id, a)].
  Proof.
    intros N H. destruct L as [|[x b] L]; [specialize (H id); rewrite Nat.eqb_refl in H; discriminate|].
    pose proof (H x) as Hx. cbn in Hx. rewrite Nat.eqb_refl in Hx. destruct (Nat.eqb_spec x id) as [->|M]; [|discriminate]. inversion Hx; subst.
    f_equal. apply lget_nil. intros y. destruct (Nat.eq_dec y id) as [->|M].
    - cbn in N. inversion N; subst. apply lget_none. assumption.
    - specialize (H y). cbn in H. destruct (Nat.eqb_spec id y); [congruence|]. destruct (Nat.eqb_spec y id); [contradiction|exact H].
  Qed.

  Lemma ok_add_all {R} id L0 Q (k : prog R) : forall l a L, after id a L0 L -> (forall b L', after id b L0 L' -> ok k L' Q) -> ok (add_all id l k) L Q.
  Proof.
    induction l as [|kv l IH]; intros a L A K; cbn [add_all]; [exact (K a L A)|]. cbn [ok]. exists a. split; [exact (after_get _ _ _ _ A)|].
    apply (IH (args_add a (fst kv) (snd kv))); [|exact K]. exact (after_trans _ _ _ _ _ _ A (after_lput id _ a L (proj1 A) (after_get _ _ _ _ A))).
  Qed.
  Lemma server_find_had order (t : node HS) (r : rtree HS) m p b : server_find matches order t r m p b = server_find matches order t r m p [].
  Proof. reflexivity. Qed.

  Lemma ok_code c : ok (code matches top rt handler c) [] (ends c).
  Proof.
    unfold code, ends, alone. destruct (k_serve c) eqn:Es.
    - unfold serve. cbn [ok]. intros id _. apply (ok_server_find matches _ top rt _ _ id _ _ [(id, [])] []).
      + cbn. constructor; [intros []|constructor].
      + cbn. rewrite Nat.eqb_refl. reflexivity.
      + intros L A. destruct (server_find _ _ _ _ _ _ _) as [r a]; cbn [fst snd] in A |- *.
        assert (Rel : forall (r' : answer HS X) (P : Prop) b L1, P -> after id b [(id, [])] L1 -> ok (release id (Ret r')) L1 (fun q M => P /\ M = [])).
        { intros r' P b L1 HP A1. apply ok_release; [exact (proj1 A1)|rewrite (after_get _ _ _ _ A1); discriminate|].
          intros L2 N2 G2. cbn [ok]. split; [exact HP|]. apply lget_nil. intros x. rewrite G2. destruct (Nat.eqb_spec x id) as [->|M]; [reflexivity|].
          rewrite (proj2 A1). cbn. destruct (Nat.eqb_spec x id); [contradiction|]. destruct (Nat.eqb_spec id x); [congruence|reflexivity]. }
        assert (Rel' : forall (r' want : answer HS X) b L1, r' = want -> after id b [(id, [])] L1 -> ok (release id (Ret r')) L1 (fun q M => q = want /\ M = [])).
        { intros r' want b L1 Hw A1. apply ok_release; [exact (proj1 A1)|rewrite (after_get _ _ _ _ A1); discriminate|].
          intros L2 N2 G2. cbn [ok]. split; [exact Hw|]. apply lget_nil. intros x. rewrite G2. destruct (Nat.eqb_spec x id) as [->|M]; [reflexivity|].
          rewrite (proj2 A1). cbn. destruct (Nat.eqb_spec x id); [contradiction|]. destruct (Nat.eqb_spec id x); [congruence|reflexivity]. }
        destruct r as [s| | |].
        * apply (ok_handle id (handler s) _ _ [(id, [])] a L A). intros b L' A'. exact (Rel' _ _ b L' eq_refl A').
        * exact (Rel' _ _ a L eq_refl A).
        * exact (Rel' _ _ a L eq_refl A).
        * exact (Rel' _ _ a L eq_refl A).
    - unfold call_find. cbn [ok]. intros id _. apply (ok_add_all id [(id, [])] _ _ (k_had c) []).
      { split; [cbn; constructor; [intros []|constructor]|]. intros x. cbn. rewrite (Nat.eqb_sym id x). destruct (x =? id); reflexivity. }
      intros b L1 A1. apply (ok_server_find matches _ top rt _ _ id _ _ L1 b (proj1 A1) (after_get _ _ _ _ A1)).
      + intros L A. pose proof (server_find_had (k_order c) top rt (k_method c) (k_path c) b) as Eh. rewrite Eh in A |- *. clear Eh.
        pose proof (after_trans _ _ _ _ _ _ A1 A) as A'. clear A. rename A' into A.
        destruct (server_find _ _ _ _ _ _ _) as [r a]; cbn [fst snd] in A |- *.
        apply (ok_read_all id a); [exact (after_get _ _ _ _ A)|]. cbn [ok]. split; [reflexivity|]. exists id, a. apply lget_one; [exact (proj1 A)|].
        intros x. rewrite (proj2 A). destruct (Nat.eqb_spec x id); [reflexivity|]. cbn. destruct (Nat.eqb_spec id x); [congruence|reflexivity].
  Qed.
  Lemma inv_code cs y : many (start (map (code matches top rt handler) cs)) y -> inv (map ends cs) y.
  Proof.
    intros M. apply (inv_many _ _ _ M), inv_start. clear M. induction cs as [|c cs IH]; cbn; constructor; [apply ok_code|exact IH].
  Qed.
End Code.

(** ** Counting operations *)
Section Count.
  Context {R : Type}.
  (** on every path at most [g] objects are taken from the pool and exactly [n] are made *)
  Fixpoint count (p : prog R) (g n : nat) : Prop :=
    match p with
    | Ret _ => n = 0
    | New k => exists n', n = S n' /\ forall id, count (k id) g n'
    | Get k => exists g', g = S g' /\ forall id, count (k id) g' n
    | Put _ k | Reset _ k | Add _ _ _ k => count k g n
    | Len _ k => forall x, count (k x) g n
    | At _ _ k => forall x, count (k x) g n
    end.
  Lemma count_more p : forall g g' n, g <= g' -> count p g n -> count p g' n.
  Proof.
    induction p as [r|k IH|k IH|id p IH|id p IH|id key value p IH|id k IH|id i k IH]; intros g g' n Le C; cbn in C |- *; auto.
    - destruct C as (n' & -> & C). exists n'. split; [reflexivity|]. intros id. exact (IH id _ _ _ Le (C id)).
    - destruct C as (g1 & -> & C). exists (pred g'). split; [lia|]. intros id. apply (IH id g1); [lia|apply C].
    - exact (IH _ _ _ Le C).
    - exact (IH _ _ _ Le C).
    - exact (IH _ _ _ Le C).
    - intros x. exact (IH x _ _ _ Le (C x)).
    - intros x. exact (IH x _ _ _ Le (C x)).
  Qed.
  Lemma count_copy_from src dst g n (k : prog R) : count k g n -> forall m i, count (copy_from src dst i m k) g n.
  Proof. intros C. induction m as [|m IH]; intros i; cbn [copy_from count]; [exact C|]. intros kv. apply IH. Qed.
  Lemma count_copy_all src dst g n (k : prog R) : count k g n -> count (copy_all src dst k) g n.
  Proof. intros C. cbn [copy_all count]. intros m. apply count_copy_from, C. Qed.
  Lemma count_read_from id g n (f : args -> prog R) : (forall a, count (f a) g n) -> forall m i acc, count (read_from id i m acc f) g n.
  Proof. intros C. induction m as [|m IH]; intros i acc; cbn [read_from count]; [apply C|]. intros kv. apply IH. Qed.
  Lemma count_read_all id g n (f : args -> prog R) : (forall a, count (f a) g n) -> count (read_all id f) g n.
  Proof. intros C. cbn [read_all count]. intros m. apply count_read_from, C. Qed.
  Lemma count_add_all id g n (k : prog R) : count k g n -> forall l, count (add_all id l k) g n.
  Proof. intros C. induction l as [|kv l IH]; cbn [add_all count]; [exact C|exact IH]. Qed.
  Lemma count_release_all g n (k : prog R) : count k g n -> forall all, count (release_all all k) g n.
  Proof. intros C. induction all as [|id all IH]; cbn [release_all release count]; [exact C|exact IH]. Qed.

  Lemma pstep_count p h pl p' h' pl' g n : pstep p h pl p' h' pl' -> count p g n ->
    exists g' n', count p' g' n' /\ length h + n <= length h' + n' /\ length h' + g' + n' <= length h + g + n.
  Proof.
    intros St C. destruct St; cbn [count] in C.
    - destruct C as (n' & -> & C). exists g, n'. split; [apply C|]. rewrite app_length. cbn. lia.
    - destruct C as (g' & -> & C). exists g', n. split; [apply C|]. rewrite app_length. cbn. lia.
    - destruct C as (g' & -> & C). exists g', n. split; [apply C|]. lia.
    - exists g, n. split; [apply C|]. lia.
    - exists g, n. split; [apply C|]. rewrite upd_nth_length. lia.
    - exists g, n. split; [apply C|]. rewrite upd_nth_length. lia.
    - exists g, n. split; [apply C|]. lia.
    - exists g, n. split; [apply C|]. lia.
  Qed.
  (** with enough objects in the pool, only the [n] are made *)
  Lemma runs_count (p : prog R) h pl p' h' pl' g n : runs p h pl p' h' pl' -> count p g n -> g <= length pl ->
    exists g' n', count p' g' n' /\ g' <= length pl' /\ length h' + n' = length h + n.
  Proof.
    intros Rn C Le. induction Rn as [p h pl|p h pl p1 h1 pl1 p2 h2 pl2 Rn IH St Ly]; [exists g, n; auto|].
    destruct (IH C Le) as (g1 & n1 & C1 & Le1 & E). destruct St; cbn [count] in C1.
    - destruct C1 as (n' & -> & C1). exists g1, n'. split; [apply C1|]. rewrite app_length. cbn. lia.
    - destruct C1 as (g' & -> & C1). exfalso. assert (X : h0 ++ [[]] = h0).
      { apply Ly; [exists k; reflexivity|]. intros ->. cbn in Le1. lia. }
      apply (f_equal (@length args)) in X. rewrite app_length in X. cbn in X. lia.
    - destruct C1 as (g' & -> & C1). exists g', n1. split; [apply C1|]. rewrite app_length in Le1 |- *. cbn in Le1. lia.
    - exists g1, n1. split; [apply C1|]. cbn. lia.
    - exists g1, n1. split; [apply C1|]. rewrite upd_nth_length. lia.
    - exists g1, n1. split; [apply C1|]. rewrite upd_nth_length. lia.
    - exists g1, n1. split; [apply C1|]. lia.
    - exists g1, n1. split; [apply C1|]. lia.
  Qed.
  Lemma runs_many (p : prog R) h pl p' h' pl' gn : runs p h pl p' h' pl' -> many (Sys h pl gn [p]) (Sys h' pl' gn [p']).
  Proof.
    intros Rn. induction Rn as [p h pl|p h pl p1 h1 pl1 p2 h2 pl2 Rn IH St Ly]; [constructor|].
    eapply M_more; [exact IH|]. exact (S_prog h1 pl1 gn [] p1 [] p2 h2 pl2 St).
  Qed.

  (** all goroutines *)
  Definition counted (lo hi : nat) (y : sys R) : Prop := exists gn : list (nat * nat),
    Forall2 (fun p x => count p (fst x) (snd x)) (y_progs y) gn /\
    lo <= length (y_heap y) + list_sum (map snd gn) /\
    length (y_heap y) + list_sum (map fst gn) + list_sum (map snd gn) <= hi.
  Lemma counted_step lo hi x y : step x y -> counted lo hi x -> counted lo hi y.
  Proof.
    intros St (gn & F & Lo & Hi). destruct St as [h pl g l1 p l2 p' h' pl' St|h p1 id p2 g ps]; cbn [y_heap y_progs] in *; [|exists gn; auto].
    apply Forall2_app_inv_l in F as (c1 & c2 & F1 & F2 & ->). inversion F2 as [|? [g0 n0] ? c2' C F3]; subst. cbn [fst snd] in C.
    destruct (pstep_count _ _ _ _ _ _ _ _ St C) as (g' & n' & C' & A1 & A2). exists (c1 ++ (g', n') :: c2'). split; [|split].
    - apply Forall2_app; [exact F1|]. constructor; [exact C'|exact F3].
    - cbn [y_heap]. rewrite !map_app, !list_sum_app in *. cbn [map fst snd list_sum fold_right] in *. unfold list_sum in *. lia.
    - cbn [y_heap]. rewrite !map_app, !list_sum_app in *. cbn [map fst snd list_sum fold_right] in *. unfold list_sum in *. lia.
  Qed.
  Lemma counted_many lo hi x y : many x y -> counted lo hi x -> counted lo hi y.
  Proof. intros M I. induction M as [|x y z M IH S1]; [exact I|]. exact (counted_step lo hi y z S1 (IH I)). Qed.
End Count.

Section CountProgs.
  Context {HS R : Type}.
  Definition below (w : went HS) : nat := pred (node_size (w_node w)).
  Definition weight (q : list (went HS)) : nat := list_sum (map below q).
  Lemma weight_app a b : weight (a ++ b) = weight a + weight b.
  Proof. unfold weight. rewrite map_app, list_sum_app. reflexivity. Qed.
  Lemma node_size_pos (x : node HS) : 0 < node_size x.
  Proof. destruct x. cbn. lia. Qed.

  Lemma count_push seg rest a (k : list (went HS) -> list nat -> prog R) g n : forall cs queue all,
    (forall queue' all', count (k queue' all') (weight queue' + g) n) ->
    count (push seg rest a cs queue all k) (weight queue + fold_right (fun c s => node_size c + s) 0 cs + g) n.
  Proof.
    induction cs as [|c cs IH]; intros queue all C; cbn [push fold_right].
    - rewrite Nat.add_0_r. apply C.
    - pose proof (node_size_pos c) as Pc. destruct (child_matches seg c).
      + cbn [count]. exists (pred (weight queue + (node_size c + fold_right (fun c s => node_size c + s) 0 cs) + g)). split; [lia|].
        intros id. apply count_copy_all. eapply count_more; [|apply IH, C]. rewrite weight_app. unfold weight at 2, below. cbn. lia.
      + eapply count_more; [|apply IH, C]. lia.
  Qed.
  Lemma count_loop method inOut (k : tres HS -> prog R) g n : (forall r, count (k r) g n) -> forall fuel queue all,
    count (loop fuel method inOut queue all k) (weight queue + g) n.
  Proof.
    intros C. assert (Cr : forall all r g', g <= g' -> count (release_all all (k r)) g' n).
    { intros all r g' Le. apply count_release_all. exact (count_more _ _ _ _ Le (C r)). }
    induction fuel as [|fuel IH]; intros queue all; cbn [loop]; [apply Cr; lia|].
    destruct queue as [|e queue]; [apply Cr; lia|]. destruct (w_path e) as [|p0 rest]; [apply Cr; lia|]. cbv zeta.
    assert (Go : count (match rest with
              | [] => match lookup_set method (n_handlers (w_node e)) with
                      | Some s => copy_all (w_args e) inOut (release_all all (k (TFound s)))
                      | None => release_all all (k TNotFound)
                      end
              | p1 :: _ => push p1 rest (w_args e) (n_children (w_node e)) queue all (fun q' all' => loop fuel method inOut q' all' k)
              end) (weight (e :: queue) + g) n).
    { destruct rest as [|p1 rest'].
      - destruct (lookup_set method (n_handlers (w_node e))); [apply count_copy_all, Cr; lia|apply Cr; lia].
      - eapply count_more; [|apply (count_push p1 (p1 :: rest') (w_args e) _ g n (n_children (w_node e)) queue all)].
        + unfold weight at 2, below. cbn [map list_sum fold_right]. fold (weight queue). destruct (w_node e); cbn. unfold weight, below, list_sum. lia.
        + intros q' all'. apply IH. }
    destruct (negb (is_empty (n_urlid (w_node e)))); [exact Go|]. destruct (negb (beq (n_path (w_node e)) p0)); [apply Cr; lia|exact Go].
  Qed.
  Lemma count_tree_find top method path inOut (k : tres HS -> prog R) g n : (forall r, count (k r) g n) ->
    count (tree_find_prog top method path inOut k) (pred (node_size top) + g) ((if 1 <? length (split_path path) then 1 else 0) + n).
  Proof.
    intros C. unfold tree_find_prog. cbn [count].
    assert (Deep : forall ps, count (New (fun a0 => loop (S (node_size top)) method inOut [WEnt top ps a0] [a0] k)) (pred (node_size top) + g) (1 + n)).
    { intros ps. cbn [count]. exists n. split; [reflexivity|]. intros id. eapply count_more; [|apply count_loop, C]. unfold weight, below. cbn. lia. }
    destruct (split_path path) as [|p0 [|p1 ps]] eqn:E.
    - exfalso. revert E. unfold split_path. destruct (beq _ _ || _); [discriminate|]. destruct (split _ _) eqn:Es; [|discriminate].
      exfalso. revert Es. apply P_TreeFind.split_nonempty.
    - cbn. destruct (lookup_set method (n_handlers top)); apply (count_more _ g); try lia; apply C.
    - apply Deep.
  Qed.
  Lemma count_server_find matches order top rt method path inOut (k : tres HS -> prog R) g n : (forall r, count (k r) g n) ->
    count (server_find_prog matches order top rt method path inOut k) (pred (node_size top) + g) ((if 1 <? length (split_path path) then 1 else 0) + n).
  Proof.
    intros C. unfold server_find_prog. apply count_tree_find. intros [s| | |]; auto. unfold reg_find_prog. cbn [count].
    destruct (aget method rt) as [m|]; auto. destruct (find _ _) as [[rg s]|]; auto.
  Qed.
End CountProgs.

Section CountCode.
  Context {HS X : Type}.
  Variable matches : rgx -> bytes -> bool.
  Variable top : node HS.
  Variable rt : rtree HS.
  Variable handler : HS -> hprog X.
  Lemma count_handle {R} id g n (h : hprog X) (k : X -> prog R) : (forall x, count (k x) g n) -> count (handle id h k) g n.
  Proof.
    intros C. induction h as [x|f IH|key value h IH|h IH]; cbn [handle count]; auto. apply count_read_all. exact IH.
  Qed.
  Definition made (c : lookup HS) : nat := (if k_serve c then 0 else 1) + (if deep c then 1 else 0).
  Definition taken (c : lookup HS) : nat := (if k_serve c then 1 else 0) + pred (node_size top).
  Lemma count_code c : count (code matches top rt handler c) (taken c) (made c).
  Proof.
    unfold code, taken, made, deep. destruct (k_serve c).
    - unfold serve. cbn [count Nat.add]. exists (pred (node_size top)). split; [reflexivity|]. intros id.
      pose proof (count_server_find (R := answer HS X) matches (k_order c) top rt (k_method c) (k_path c) id
        (fun r => match r with
          | TFound s => handle id (handler s) (fun x => release id (Ret (AServed s x)))
          | TNotFound => release id (Ret ANotFound)
          | _ => release id (Ret APanic) end) 0 0) as P.
      rewrite !Nat.add_0_r in P. apply P. intros [s| | |]; try reflexivity. apply count_handle. reflexivity.
    - unfold call_find. cbn [count Nat.add]. eexists. split; [reflexivity|]. intros id.
      apply count_add_all.
      pose proof (count_server_find (R := answer HS X) matches (k_order c) top rt (k_method c) (k_path c) id (fun r => read_all id (fun a => Ret (AFound r a))) 0 0) as P.
      rewrite !Nat.add_0_r in P. apply P. intros r. apply count_read_all. reflexivity.
  Qed.
  Lemma counted_code cs y : many (start (map (code matches top rt handler) cs)) y ->
    counted (list_sum (map made cs)) (list_sum (map (fun c => taken c + made c) cs)) y.
  Proof.
    intros M. apply (counted_many _ _ _ _ M). exists (map (fun c => (taken c, made c)) cs). cbn [start y_heap y_progs]. split; [|split].
    - clear M. induction cs as [|c cs IH]; cbn; constructor; [apply count_code|exact IH].
    - rewrite map_map. cbn [length Nat.add snd]. apply Nat.le_refl.
    - rewrite !map_map. cbn [length Nat.add fst snd]. clear M. induction cs as [|c cs IH]; [apply Nat.le_refl|].
      cbn [map list_sum fold_right]. unfold list_sum in *. lia.
  Qed.
End CountCode.
