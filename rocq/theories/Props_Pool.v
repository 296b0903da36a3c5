(** C125-C126: lookups and the pool of parameter objects. *)
From Verif Require Import Base GoStrings P_Slices M_Tree M_RegTree M_Pool S_Pool P_Pool.
From Coq Require Import Permutation.

Section Pool.
  Context {HS X : Type}.
  Variable matches : rgx -> bytes -> bool.
  Variable top : node HS.
  Variable rt : rtree HS.
  Variable handler : HS -> hprog X.
  Notation code := (code matches top rt handler).
  Notation alone := (alone matches top rt handler).

  (** ** C125 *)
  (** Whatever runs at the same time and wherever the objects come from, a lookup and a request end
      as they would alone. *)
  Lemma Forall2_nth {A C} (P : A -> C -> Prop) l l' i a : Forall2 P l l' -> nth_error l i = Some a -> exists b, nth_error l' i = Some b /\ P a b.
  Proof.
    intros F. revert i. induction F as [|x y l l' Px F IH]; intros [|i] E; cbn in E; try discriminate.
    - inversion E; subst. exists y. auto.
    - exact (IH i E).
  Qed.
  Theorem C125_as_if_alone : forall cs y i c r, many (start (map code cs)) y ->
    nth_error cs i = Some c -> nth_error (y_progs y) i = Some (Ret r) -> r = alone c.
  Proof.
    intros cs y i c r M Ec Ep. destruct (inv_code matches top rt handler cs y M) as (Ls & Ln & F & _).
    destruct (Forall2_nth _ _ _ i _ F Ep) as ([L Q] & E & O). cbn [fst snd ok] in O.
    assert (Eq : nth_error (map (ends matches top rt handler) cs) i = Some Q).
    { clear -E. revert E. generalize (map (ends matches top rt handler) cs) as Qs. revert i. induction Ls as [|l Ls IH]; intros [|i] [|q Qs] E; cbn in E; try discriminate.
      - inversion E; subst. reflexivity.
      - exact (IH i Qs E). }
    rewrite nth_error_map, Ec in Eq. cbn in Eq. inversion Eq; subst. exact (proj1 O).
  Qed.

  (** An object is never used by two goroutines, nor after it was given back, nor given back twice. *)
  Theorem C125_exclusive : forall cs y, many (start (map code cs)) y -> exclusive y /\ NoDup (y_pool y ++ y_gone y).
  Proof.
    intros cs y M. pose proof (inv_code matches top rt handler cs y M) as I. split; [exact (inv_exclusive _ y I)|].
    destruct I as (Ls & _ & _ & _ & Pm & _).
    assert (N : NoDup (concat (map keys Ls) ++ y_pool y ++ y_gone y)) by (apply (Permutation_NoDup (Permutation_sym Pm)), seq_NoDup).
    clear -N. induction (concat (map keys Ls)) as [|x l IH]; [exact N|]. inversion N; auto.
  Qed.

  (** What the pool holds is empty: no parameter of one request reaches another through it. *)
  Theorem C125_pool_is_empty : forall cs y id, many (start (map code cs)) y -> In id (y_pool y) -> nth_error (y_heap y) id = Some [].
  Proof. intros cs y id M I. destruct (inv_code matches top rt handler cs y M) as (Ls & _ & _ & _ & _ & Em). exact (Em id I). Qed.

  (** Nothing leaks: when all have ended, every object is in the pool, dropped by the garbage
      collector, or belongs to a caller of Find. *)
  Lemma Forall2_all {A C} (P : A -> C -> Prop) l l' a : Forall2 P l l' -> In a l' -> exists b, In b l /\ P b a.
  Proof.
    intros F. induction F as [|x y l l' Px F IH]; intros I; [destruct I|]. destruct I as [->|I]; [exists x; split; [left; reflexivity|exact Px]|].
    destruct (IH I) as (b & J & Pb). exists b. split; [right; exact J|exact Pb].
  Qed.
  Definition callers (cs : list (lookup HS)) : nat := length (filter (fun c => negb (k_serve c)) cs).
  Theorem C125_nothing_leaks : forall cs y, many (start (map code cs)) y -> finished y ->
    length (y_heap y) = length (y_pool y) + length (y_gone y) + callers cs.
  Proof.
    intros cs y M Fn. destruct (inv_code matches top rt handler cs y M) as (Ls & Ln & F & _ & Pm & _).
    apply Permutation_length in Pm. rewrite seq_length, !app_length in Pm. rewrite <- Pm.
    enough (length (concat (map keys Ls)) = callers cs) by lia. clear Pm M.
    assert (F' : Forall2 (fun L c => if k_serve c then L = [] else exists id a, L = [(id, a)]) Ls cs).
    { rewrite map_length in Ln. assert (G : forall LQ, In LQ (combine Ls (map (ends matches top rt handler) cs)) -> exists r, snd LQ r (fst LQ)).
      { intros LQ I. destruct (Forall2_all _ _ _ _ F I) as (p & Ip & O). destruct (Fn p Ip) as (r & ->). exists r. exact O. }
      clear F Fn. revert cs Ln G. induction Ls as [|L Ls IH]; intros [|c cs] Ln G; cbn in Ln; try lia; constructor.
      - destruct (G (L, ends matches top rt handler c)) as (r & _ & E); [left; reflexivity|]. exact E.
      - apply IH; [lia|]. intros LQ I. apply G. right. exact I. }
    unfold callers. clear -F'. induction F' as [|L c Ls cs E F IH]; cbn; [reflexivity|]. rewrite app_length, IH.
    destruct (k_serve c); cbn; [subst; reflexivity|]. destruct E as (id & a & ->). reflexivity.
  Qed.
  Corollary C125_all_returned : forall cs y, many (start (map code cs)) y -> finished y -> (forall c, In c cs -> k_serve c = true) ->
    Permutation (y_pool y ++ y_gone y) (seq 0 (length (y_heap y))).
  Proof.
    intros cs y M Fn A. pose proof (C125_nothing_leaks cs y M Fn) as L. destruct (inv_code matches top rt handler cs y M) as (Ls & Ln & F & _ & Pm & _).
    assert (Z : callers cs = 0).
    { unfold callers. clear -A. induction cs as [|c cs IH]; [reflexivity|]. cbn. rewrite (A c) by (left; reflexivity). apply IH. intros d I. apply A. right. exact I. }
    assert (E : concat (map keys Ls) = []).
    { apply Permutation_length in Pm. rewrite seq_length, !app_length in Pm. destruct (concat (map keys Ls)); [reflexivity|cbn in Pm; lia]. }
    rewrite E in Pm. exact Pm.
  Qed.

  (** No goroutine ever has to wait, and every schedule comes to an end. *)
  Theorem C125_never_waits : forall (p : prog (answer HS X)) h pl, (forall r, p <> Ret r) -> exists p' h' pl', pstep p h pl p' h' pl'.
  Proof. intros p h pl N. destruct p; try (eexists; eexists; eexists; econstructor; fail). exfalso. exact (N r eq_refl). Qed.

  Inductive after_op {R} : prog R -> prog R -> Prop := AO : forall p h pl p' h' pl', pstep p h pl p' h' pl' -> after_op p' p.
  Lemma after_op_wf {R} (p : prog R) : Acc after_op p.
  Proof.
    induction p as [r|k IH|k IH|id p IH|id p IH|id key value p IH|id k IH|id i k IH]; constructor; intros q A;
      inversion A as [? ? ? ? ? ? St]; subst; inversion St; subst; auto.
  Qed.
  Inductive one_moved {R} : list (prog R) -> list (prog R) -> Prop := OM : forall l1 p l2 q, after_op q p -> one_moved (l1 ++ q :: l2) (l1 ++ p :: l2).
  Lemma one_moved_wf {R} : forall ps : list (prog R), Acc one_moved ps.
  Proof.
    induction ps as [|p ps IH].
    - constructor. intros q O. inversion O as [l1 ? l2 ? A E1 E2]. destruct l1; discriminate.
    - revert p. induction IH as [ps _ IHps]. intros p. induction (after_op_wf p) as [p _ IHp].
      constructor. intros q O. inversion O as [l1 a l2 b A E1 E2]. destruct l1 as [|c l1]; cbn in E2; inversion E2; subst; cbn.
      + apply IHp, A.
      + apply IHps. constructor. exact A.
  Qed.
  Theorem C125_always_ends : forall y : sys (answer HS X), Acc (fun b a => step a b) y.
  Proof.
    intros [h pl g ps]. revert h pl g. induction (one_moved_wf ps) as [ps _ IHp]. intros h pl. remember (length pl) as n eqn:En.
    revert h pl En. induction n as [n IHn] using lt_wf_ind. intros h pl En g. constructor. intros z St.
    inversion St as [h0 pl0 g0 l1 p l2 p' h' pl' St' E1 E2|h0 p1 id p2 g0 ps0 E1 E2]; subst.
    - apply IHp. constructor. econstructor. exact St'.
    - apply (IHn (length (p1 ++ p2))); [rewrite !app_length; cbn; lia|reflexivity].
  Qed.

  (** ** C126 *)
  (** Each lookup of a path with segments makes one new object, whatever the pool holds; a lookup
      takes at most one object for each node of the tree. *)
  Definition with_segments (cs : list (lookup HS)) : nat := length (filter deep cs).
  Lemma sum_made cs : list_sum (map made cs) = callers cs + with_segments cs.
  Proof.
    unfold callers, with_segments. induction cs as [|c cs IH]; [reflexivity|]. cbn [map list_sum fold_right filter]. unfold list_sum in IH. rewrite IH. unfold made.
    destruct (k_serve c), (deep c); cbn; lia.
  Qed.
  Theorem C126_objects_made : forall cs y, many (start (map code cs)) y ->
    (finished y -> callers cs + with_segments cs <= length (y_heap y)) /\
    length (y_heap y) <= length cs * S (node_size top).
  Proof.
    intros cs y M. destruct (counted_code matches top rt handler cs y M) as (gn & F & Lo & Hi). split.
    - intros Fn. rewrite sum_made in Lo. enough (list_sum (map snd gn) = 0) by lia. clear -F Fn. unfold finished in Fn.
      induction F as [|p x ps gn C F IH]; [reflexivity|]. cbn. destruct (Fn p) as (r & ->); [left; reflexivity|]. cbn in C. rewrite C. apply IH.
      intros q I. apply Fn. right. exact I.
    - enough (list_sum (map (fun c => taken top c + made c) cs) <= length cs * S (node_size top)) by lia. clear.
      pose proof (node_size_pos top) as P. induction cs as [|c cs IH]; [apply Nat.le_refl|]. cbn [map list_sum fold_right length]. unfold list_sum in IH.
      assert (taken top c + made c <= S (node_size top)) by (unfold taken, made; destruct (k_serve c), (deep c); lia). lia.
  Qed.

  (** With a pool that holds an object for each node of the tree, this one object is all that is
      made, and it stays in the pool: the pool grows with the number of requests. *)
  Lemma serve_alone c h pl r h' pl' : k_serve c = true -> sound_pool h pl -> node_size top <= length pl ->
    runs (code c) h pl (Ret r) h' pl' ->
    sound_pool h' pl' /\ length h' = length h + (if deep c then 1 else 0) /\ length pl' = length pl + (if deep c then 1 else 0).
  Proof.
    intros Sv [Nd Em] Le Rn. pose proof (node_size_pos top) as Ps.
    destruct (runs_count _ _ _ _ _ _ (taken top c) (made c) Rn (count_code matches top rt handler c)) as (g' & n' & C' & _ & E).
    { unfold taken. rewrite Sv. lia. }
    cbn [count] in C'. subst n'. unfold made in E. rewrite Sv in E.
    assert (Lt : forall id, In id pl -> id < length h) by (intros id I; apply nth_error_Some; rewrite (Em id I); discriminate).
    assert (G : exists gn, Permutation (pl ++ gn) (seq 0 (length h))).
    { exists (filter (fun x => negb (existsb (Nat.eqb x) pl)) (seq 0 (length h))). apply NoDup_Permutation.
      - assert (Nf : NoDup (filter (fun x => negb (existsb (Nat.eqb x) pl)) (seq 0 (length h)))) by (apply NoDup_filter, seq_NoDup).
        assert (Df : forall x, In x pl -> ~ In x (filter (fun x => negb (existsb (Nat.eqb x) pl)) (seq 0 (length h)))).
        { intros x I J. apply filter_In in J as [_ J]. apply negb_true_iff in J. assert (existsb (Nat.eqb x) pl = true) by (apply existsb_exists; exists x; split; [exact I|apply Nat.eqb_refl]). congruence. }
        clear -Nd Nf Df. induction pl as [|x pl IH]; [exact Nf|]. inversion Nd; subst. cbn [app]. constructor.
        + intros I. apply in_app_or in I as [I|I]; [contradiction|]. exact (Df x (or_introl eq_refl) I).
        + assert (W : forall l, NoDup l -> NoDup pl -> (forall y, In y pl -> ~ In y l) -> NoDup (pl ++ l)).
          { clear. induction pl as [|y pl IH]; intros l A C D; [exact A|]. inversion C; subst. cbn. constructor.
            - intros I. apply in_app_or in I as [I|I]; [contradiction|]. exact (D y (or_introl eq_refl) I).
            - apply IH; auto. intros z I. apply D. right. exact I. }
          apply W; auto. intros y I. apply Df. right. exact I.
      - apply seq_NoDup.
      - intros x. rewrite in_app_iff, filter_In, in_seq. split.
        + intros [I|[I _]]; [specialize (Lt x I); lia|exact I].
        + intros I. destruct (existsb (Nat.eqb x) pl) eqn:Ex; [left|right; split; [exact I|reflexivity]].
          apply existsb_exists in Ex as (y & J & Ey). apply Nat.eqb_eq in Ey. subst. exact J. }
    destruct G as (gn & Pm).
    assert (I : inv [ends matches top rt handler c] (Sys h' pl' gn [Ret r])).
    { apply (inv_many _ _ _ (runs_many _ _ _ _ _ _ gn Rn)). exists [[]]. cbn. split; [reflexivity|]. split; [|split; [|split]].
      - constructor; [apply ok_code|constructor].
      - constructor; [|constructor]. intros id a Z. discriminate Z.
      - exact Pm.
      - exact Em. }
    destruct I as (Ls & Ln & F & _ & Pm' & Em'). cbn [y_heap y_pool y_gone y_progs] in *.
    destruct Ls as [|L [|? ?]]; cbn in Ln; try lia. cbn in F. inversion F as [|? ? ? ? O _]; subst. cbn [ok fst snd] in O. destruct O as [_ O]. rewrite Sv in O. subst L. cbn in Pm'.
    assert (Nd' : NoDup (pl' ++ gn)) by (apply (Permutation_NoDup (Permutation_sym Pm')), seq_NoDup).
    split; [split; [|exact Em']|].
    - clear -Nd'. induction pl' as [|x l IH]; constructor; inversion Nd'; subst; auto. intros I. apply H1, in_or_app. left. exact I.
    - apply Permutation_length in Pm, Pm'. rewrite app_length, seq_length in Pm, Pm'. destruct (deep c); lia.
  Qed.
  Theorem C126_pool_grows : forall cs h pl h' pl', (forall c, In c cs -> k_serve c = true) -> sound_pool h pl -> node_size top <= length pl ->
    in_turn (map code cs) h pl h' pl' ->
    length h' = length h + with_segments cs /\ length pl' = length pl + with_segments cs.
  Proof.
    unfold with_segments. induction cs as [|c cs IH]; intros h pl h' pl' A Sp Le I; cbn [map] in I; inversion I as [|? ? ? ? r h1 pl1 ? ? Rn I']; subst; cbn [filter length].
    - lia.
    - destruct (serve_alone c h pl r h1 pl1 (A c (or_introl eq_refl)) Sp Le Rn) as (Sp1 & E1 & E2).
      destruct (IH h1 pl1 h' pl' (fun d Id => A d (or_intror Id)) Sp1) as [E3 E4]; [lia|exact I'|]. destruct (deep c); cbn [length]; lia.
  Qed.
End Pool.

(** ** A scheduler, for concrete runs *)
Section Exec.
  Context {R : Type}.
  Definition op (p : prog R) (h : list args) (pl : list nat) : option (prog R * list args * list nat) :=
    match p with
    | Ret _ => None
    | New k => Some (k (length h), h ++ [[]], pl)
    | Get k => match pl with id :: pl' => Some (k id, h, pl') | [] => Some (k (length h), h ++ [[]], pl) end
    | Put id k => Some (k, h, id :: pl)
    | Reset id k => Some (k, upd_nth id (fun _ => []) h, pl)
    | Add id key value k => Some (k, upd_nth id (fun a => args_add a key value) h, pl)
    | Len id k => Some (k (length (nth id h [])), h, pl)
    | At id i k => Some (k (nth i (nth id h []) ([], [])), h, pl)
    end.
  Lemma op_pstep p h pl p' h' pl' : op p h pl = Some (p', h', pl') -> pstep p h pl p' h' pl' /\ ((exists k, p = Get k) -> pl <> [] -> h' = h).
  Proof.
    destruct p; cbn; try discriminate; intros E; try (inversion E; subst; split; [constructor|intros [k0 D]; discriminate D]).
    destruct pl as [|id pl]; inversion E; subst.
    - split; [constructor|]. intros _ D. contradiction.
    - split; [exact (P_reuse k h' [] id pl')|reflexivity].
  Qed.
  Fixpoint exec (n : nat) (p : prog R) (h : list args) (pl : list nat) : prog R * list args * list nat :=
    match n with
    | O => (p, h, pl)
    | S n' => let '(p1, h1, pl1) := exec n' p h pl in match op p1 h1 pl1 with Some x => x | None => (p1, h1, pl1) end
    end.
  Lemma exec_runs n p h pl p' h' pl' : exec n p h pl = (p', h', pl') -> runs p h pl p' h' pl'.
  Proof.
    revert p' h' pl'. induction n as [|n IH]; intros p' h' pl' E; cbn in E; [inversion E; constructor|].
    destruct (exec n p h pl) as [[p1 h1] pl1]. destruct (op p1 h1 pl1) as [[[p2 h2] pl2]|] eqn:Eo; inversion E; subst; [|apply IH; reflexivity].
    apply op_pstep in Eo as [St Ly]. eapply R_more; [apply IH; reflexivity|exact St|exact Ly].
  Qed.
  Definition move (y : sys R) (i : nat) : sys R :=
    match skipn i (y_progs y) with
    | [] => y
    | p :: l2 => match op p (y_heap y) (y_pool y) with
                 | Some (p', h', pl') => Sys h' pl' (y_gone y) (firstn i (y_progs y) ++ p' :: l2)
                 | None => y
                 end
    end.
  Lemma moves_many sched : forall y0 y, many y0 y -> many y0 (fold_left move sched y).
  Proof.
    induction sched as [|i sched IH]; intros y0 y M; [exact M|]. cbn. apply IH. unfold move. destruct (skipn i (y_progs y)) as [|p l2] eqn:E; [exact M|].
    destruct (op p (y_heap y) (y_pool y)) as [[[p' h'] pl']|] eqn:Eo; [|exact M]. eapply M_more; [exact M|].
    clear M. destruct y as [h pl g ps]; cbn [y_heap y_pool y_gone y_progs] in *.
    replace ps with (firstn i ps ++ p :: l2) at 1 by (rewrite <- E; apply firstn_skipn). constructor. exact (proj1 (op_pstep _ _ _ _ _ _ Eo)).
  Qed.
End Exec.

(** two routes, one with parameters; the handler reads its parameters, adds one and reads again *)
Definition ex_top : node nat := tree_add (tree_add new_tree (B"GET") (B"/user/:id/post/:pid") (Some 1)) (B"GET") (B"/about") (Some 2).
Definition ex_handler (s : nat) : hprog (nat * args) := HRead (fun a => HAdd (B"k") (B"v") (HRead (fun b => HDone (length a, b)))).
Definition ex_code := code (fun _ _ => false) ex_top new_reg_tree ex_handler.
Definition ex_reqs : list (lookup nat) :=
  [Lookup true (fun m => m) (B"GET") (B"/user/7/post/8") []; Lookup true (fun m => m) (B"GET") (B"/user/9/post/1") [];
   Lookup false (fun m => m) (B"GET") (B"/user/3/post/4") [(B"id", B"0")]; Lookup true (fun m => m) (B"GET") (B"/about") []].
Definition round_robin (n : nat) : list nat := concat (repeat [0; 1; 2; 3] n).
Definition ex_end : sys (answer nat (nat * args)) := fold_left move (round_robin 100) (start (map ex_code ex_reqs)).

(** They run interleaved and end with their own parameters; all objects but that of the caller of Find are in the pool. *)
Example C125_not_vacuous :
  many (start (map ex_code ex_reqs)) ex_end /\
  y_progs ex_end = [Ret (AServed 1 (2, [(B"id", B"7"); (B"pid", B"8"); (B"k", B"v")]));
                    Ret (AServed 1 (2, [(B"id", B"9"); (B"pid", B"1"); (B"k", B"v")]));
                    Ret (AFound (TFound 1) [(B"id", B"3"); (B"pid", B"4")]);
                    Ret (AServed 2 (0, [(B"k", B"v")]))] /\
  finished ex_end /\ length (y_pool ex_end) + 1 = length (y_heap ex_end).
Proof.
  assert (E : y_progs ex_end = [Ret (AServed 1 (2, [(B"id", B"7"); (B"pid", B"8"); (B"k", B"v")]));
                    Ret (AServed 1 (2, [(B"id", B"9"); (B"pid", B"1"); (B"k", B"v")]));
                    Ret (AFound (TFound 1) [(B"id", B"3"); (B"pid", B"4")]);
                    Ret (AServed 2 (0, [(B"k", B"v")]))]) by (vm_compute; reflexivity).
  split; [apply moves_many; constructor|]. split; [exact E|]. split; [|vm_compute; reflexivity].
  intros p I. rewrite E in I. destruct I as [<-|[<-|[<-|[<-|[]]]]]; eexists; reflexivity.
Qed.
(** Half-way through they work on different objects at the same time. *)
Example C125_interleaved :
  let y := fold_left move (round_robin 13) (start (map ex_code ex_reqs)) in
  exists p q id1 id2, nth_error (y_progs y) 0 = Some p /\ nth_error (y_progs y) 1 = Some q /\ touches p id1 /\ touches q id2 /\ id1 <> id2.
Proof. cbv zeta. eexists. eexists. eexists. eexists. split; [vm_compute; reflexivity|]. split; [vm_compute; reflexivity|]. split; [constructor|]. split; [constructor|]. discriminate. Qed.

(** ** C126 *)
(** Requests served one after the other need a number of parameter objects that depends on the routes
    only. *)
Definition C126_claim : Prop := forall (top : node nat), exists n, forall matches rt (handler : nat -> hprog unit) cs h pl,
  in_turn (map (code matches top rt handler) cs) [] [] h pl -> length h <= n.

Definition ex_req (_ : nat) : lookup nat := Lookup true (fun m => m) (B"GET") (B"/about") [].
Definition ex_code1 := code (X := unit) (fun _ _ => false) ex_top new_reg_tree (fun _ => HDone tt).
Lemma about_runs h pl : exists r h' pl', runs (ex_code1 (ex_req 0)) h pl (Ret r) h' pl'.
Proof.
  assert (G : forall (p : prog (answer nat unit)) p0 h0 pl0, runs p0 h0 pl0 p h pl -> exists r h' pl', runs p0 h0 pl0 (Ret r) h' pl').
  { clear. intros p. revert h pl. induction p as [r|k IH|k IH|id p IH|id p IH|id key value p IH|id k IH|id i k IH]; intros h pl p0 h0 pl0 Rn;
      [exists r, h, pl; exact Rn| | | | | | |];
      (match type of Rn with runs _ _ _ ?q _ _ => destruct (op q h pl) as [[[q' h'] pl']|] eqn:E end; [|cbn in E; (discriminate E || destruct pl; discriminate E)]);
      pose proof (op_pstep _ _ _ _ _ _ E) as [St Ly]; pose proof (R_more _ _ _ _ _ _ _ _ _ Rn St Ly) as Rn';
      cbn in E; try (destruct pl as [|id0 pl]); inversion E; subst; eauto. }
  apply (G (ex_code1 (ex_req 0)) _ h pl). constructor.
Qed.
Theorem C126_bounded_objects_refuted : ~ C126_claim.
Proof.
  intros H. destruct (H ex_top) as [n Hn].
  assert (T : forall m h pl, exists h' pl', in_turn (map ex_code1 (map ex_req (seq 0 m))) h pl h' pl').
  { induction m as [|m IH]; intros h pl; [exists h, pl; constructor|]. destruct (about_runs h pl) as (r & h1 & pl1 & Rn).
    destruct (IH h1 pl1) as (h2 & pl2 & I2). exists h2, pl2. cbn [seq map]. apply (I_more _ _ _ _ r h1 pl1); [exact Rn|].
    replace (map ex_req (seq 1 m)) with (map ex_req (seq 0 m)); [exact I2|]. rewrite <- seq_shift, map_map. reflexivity. }
  destruct (T (S n) [] []) as (h & pl & I).
  assert (Lo : forall cs h0 pl0 h1 pl1, in_turn (map ex_code1 cs) h0 pl0 h1 pl1 -> length h0 + length (filter deep cs) <= length h1).
  { induction cs as [|c cs IH]; intros h0 pl0 h1 pl1 I0; cbn [map] in I0; inversion I0 as [|? ? ? ? r ha pla ? ? Rn I']; subst; cbn [filter length]; [lia|].
    specialize (IH _ _ _ _ I').
    pose proof (count_code (X := unit) (fun _ _ => false) ex_top new_reg_tree (fun _ => HDone tt) c) as C.
    assert (counted (length h0 + made c) (length h0 + taken ex_top c + made c) (Sys ha pla [] [Ret r])) as (gn & F & Lo & _).
    { apply (counted_many _ _ _ _ (runs_many _ _ _ _ _ _ [] Rn)). exists [(taken ex_top c, made c)]. split; [constructor; [exact C|constructor]|]. cbn. lia. }
    cbn [y_progs] in F. inversion F as [|? x ? ? Cx F']; subst. inversion F'; subst. cbn in Cx, Lo. rewrite Cx in Lo. unfold made in Lo.
    destruct (deep c); cbn [length]; lia. }
  specialize (Hn (fun _ _ => false) new_reg_tree (fun _ => HDone tt) (map ex_req (seq 0 (S n))) h pl I).
  specialize (Lo _ _ _ _ _ I). cbn [length] in Lo.
  assert (D : forall l, length (filter deep (map ex_req l)) = length l).
  { induction l as [|x l IHl]; [reflexivity|]. cbn [map filter]. replace (deep (ex_req x)) with true by (vm_compute; reflexivity). cbn [length]. rewrite IHl. reflexivity. }
  rewrite D, seq_length in Lo. lia.
Qed.
(** What is missing: the claim is false because each lookup of a path with segments makes an object
    of its own (tree.go:108) and puts it into the pool afterwards.  It holds for "/". *)
Theorem C126_pool_partial : forall {HS X} (matches : rgx -> bytes -> bool) (top : node HS) rt (handler : HS -> hprog X) cs h pl h' pl',
  (forall c, In c cs -> k_serve c = true /\ deep c = false) -> sound_pool h pl -> node_size top <= length pl ->
  in_turn (map (code matches top rt handler) cs) h pl h' pl' -> length h' = length h /\ length pl' = length pl.
Proof.
  intros HS X matches top rt handler cs h pl h' pl' A Sp Le I.
  destruct (C126_pool_grows matches top rt handler cs h pl h' pl' (fun c Ic => proj1 (A c Ic)) Sp Le I) as [E1 E2].
  assert (Z : with_segments cs = 0).
  { unfold with_segments. clear -A. induction cs as [|c cs IH]; [reflexivity|]. cbn [filter]. rewrite (proj2 (A c (or_introl eq_refl))). apply IH. intros d Id. apply A. right. exact Id. }
  lia.
Qed.
(** Three requests on a server that has 8 objects in its pool: 11 afterwards. *)
Example C126_not_vacuous :
  let h := repeat [] 8 in let pl := seq 0 8 in
  sound_pool h pl /\ node_size ex_top <= length pl /\
  exists h' pl', in_turn (map ex_code1 (map ex_req [1; 2; 3])) h pl h' pl' /\ length h' = 11 /\ length pl' = 11.
Proof.
  cbv zeta. assert (Sp : sound_pool (repeat [] 8) (seq 0 8)).
  { split; [apply seq_NoDup|]. intros id I. apply in_seq in I. do 8 (destruct id as [|id]; [reflexivity|]). lia. }
  split; [exact Sp|]. split; [vm_compute; lia|].
  destruct (about_runs (repeat [] 8) (seq 0 8)) as (r1 & h1 & l1 & R1). destruct (about_runs h1 l1) as (r2 & h2 & l2 & R2). destruct (about_runs h2 l2) as (r3 & h3 & l3 & R3).
  assert (I : in_turn (map ex_code1 (map ex_req [1; 2; 3])) (repeat [] 8) (seq 0 8) h3 l3).
  { apply (I_more _ _ _ _ r1 h1 l1 _ _ R1), (I_more _ _ _ _ r2 h2 l2 _ _ R2), (I_more _ _ _ _ r3 h3 l3 _ _ R3), I_none. }
  exists h3, l3. split; [exact I|]. apply C126_pool_grows in I; [exact I| |exact Sp|vm_compute; lia].
  intros c [<-|[<-|[<-|[]]]]; reflexivity.
Qed.

Print Assumptions C125_as_if_alone.
Print Assumptions C125_exclusive.
Print Assumptions C125_pool_is_empty.
Print Assumptions C125_nothing_leaks.
Print Assumptions C125_all_returned.
Print Assumptions C125_never_waits.
Print Assumptions C125_always_ends.
Print Assumptions C126_objects_made.
Print Assumptions C126_pool_grows.
Print Assumptions C126_bounded_objects_refuted.
Print Assumptions C126_pool_partial.
