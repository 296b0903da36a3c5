(** The work-queue search of Tree.Find computes the first match in preorder. *)
From Verif Require Import Base GoStrings M_Tree S_Route.

Lemma split_nonempty c s : split c s <> [].
Proof.
  destruct s as [|x s]; simpl; [discriminate|].
  destruct (Ascii.eqb x c); [discriminate|].
  destruct (split c s); discriminate.
Qed.

Lemma split_path_shape p : split_path p = B"/" :: segments p.
Proof.
  unfold segments, split_path.
  destruct (beq _ (B"/") || is_empty _) eqn:E; [reflexivity|].
  destruct (split "/" _) as [|w ws] eqn:F; [|reflexivity].
  exfalso. exact (split_nonempty _ _ F).
Qed.

Section Find.
  Context {HS : Type}.
  Implicit Types (n top : node HS) (a : args).

  (** induction over nested nodes *)
  Lemma node_ind' (P : node HS -> Prop) :
    (forall cs p u h, Forall P cs -> P (Node cs p u h)) -> forall n, P n.
  Proof.
    intros H. fix IH 1. intros [cs p u h]. apply H.
    induction cs as [|c cs IHcs]; constructor; [apply IH|exact IHcs].
  Qed.

  Definition node_ok (p0 : bytes) n : bool :=
    negb (is_empty (n_urlid n)) || beq (n_path n) p0.

  Definition ext_args n (p0 : bytes) a : args :=
    if is_empty (n_urlid n) then a else args_add a (n_urlid n) p0.

  (** end nodes reached from [n], in preorder *)
  Fixpoint reach (ps : list bytes) n a : list (node HS * args) :=
    match ps with
    | [] => []
    | p0 :: rest =>
        match rest with
        | [] => [(n, ext_args n p0 a)]
        | p1 :: _ =>
            flat_map (fun c => reach rest c (ext_args n p0 a))
                     (filter (child_matches p1) (n_children n))
        end
    end.

  Definition decide (m : bytes) (o : option (node HS * args)) : fout HS :=
    match o with
    | Some (n, a) => match lookup_set m (n_handlers n) with
                     | Some s => FFound s a
                     | None => FNone
                     end
    | None => FNone
    end.

  Definition qs (ps : list bytes) (l : list (node HS * args)) : list (qent HS) :=
    map (fun na => QEnt (fst na) ps (snd na)) l.
  Definition okl (ps : list bytes) (l : list (node HS * args)) : Prop :=
    Forall (fun na => match ps with [] => False | p0 :: _ => node_ok p0 (fst na) = true end) l.
  Definition total (l : list (node HS * args)) : nat :=
    fold_right (fun na k => node_size (fst na) + k) 0 l.
  Definition csize (cs : list (node HS)) : nat :=
    fold_right (fun c k => node_size c + k) 0 cs.
  Definition reaches ps (l : list (node HS * args)) :=
    flat_map (fun na => reach ps (fst na) (snd na)) l.

  Lemma node_size_eq n : node_size n = S (csize (n_children n)).
  Proof. destruct n; reflexivity. Qed.

  Lemma csize_filter f cs : csize (filter f cs) <= csize cs.
  Proof.
    induction cs as [|c cs IH]; simpl; [lia|]. destruct (f c); simpl; lia.
  Qed.

  Lemma total_app l1 l2 : total (l1 ++ l2) = total l1 + total l2.
  Proof. unfold total. induction l1 as [|x l1 IH]; simpl; [reflexivity|]. rewrite IH. lia. Qed.

  Lemma total_map cs a : total (map (fun c => (c, a)) cs) = csize cs.
  Proof. induction cs as [|c cs IH]; simpl; [reflexivity|]. rewrite IH. reflexivity. Qed.

  Lemma reaches_map ps cs a :
    reaches ps (map (fun c => (c, a)) cs) = flat_map (fun c => reach ps c a) cs.
  Proof. induction cs as [|c cs IH]; simpl; [reflexivity|]. rewrite IH. reflexivity. Qed.

  Lemma reaches_app ps l1 l2 : reaches ps (l1 ++ l2) = reaches ps l1 ++ reaches ps l2.
  Proof. unfold reaches. apply flat_map_app. Qed.

  Lemma child_matches_ok p c : child_matches p c = node_ok p c.
  Proof. unfold child_matches, node_ok. apply orb_comm. Qed.

  Lemma find_loop_level fuel : forall m ps cur next,
    okl ps cur -> okl (tl ps) next -> total cur + total next < fuel ->
    find_loop fuel m (qs ps cur ++ qs (tl ps) next)
    = decide m (hd_error (reaches (tl ps) next ++ reaches ps cur)).
  Proof.
    induction fuel as [|fuel IH]; intros m ps cur next Hc Hn Hf; [lia|].
    (* the step for a non-empty current level *)
    assert (Step : forall ps n a cur next,
      okl ps ((n, a) :: cur) -> okl (tl ps) next ->
      total ((n, a) :: cur) + total next < S fuel ->
      find_loop (S fuel) m (qs ps ((n, a) :: cur) ++ qs (tl ps) next)
      = decide m (hd_error (reaches (tl ps) next ++ reaches ps ((n, a) :: cur)))).
    { clear ps cur next Hc Hn Hf. intros ps n a cur next Hc Hn Hf.
      inversion Hc as [|x l Hx Hc']; subst. simpl in Hx.
      destruct ps as [|p0 rest]; [contradiction|].
      cbn [qs map app find_loop q_path q_node q_args fst snd].
      assert (Hok : is_empty (n_urlid n) && negb (beq (n_path n) p0) = false).
      { unfold node_ok in Hx. destruct (is_empty (n_urlid n)); simpl in *; [|reflexivity].
        rewrite Hx. reflexivity. }
      rewrite Hok. cbn zeta. fold (ext_args n p0 a).
      destruct rest as [|p1 rest'].
      - (* last segment *)
        destruct next as [|x next].
        + cbn [tl reaches flat_map app reach fst snd hd_error decide]. reflexivity.
        + inversion Hn as [|? ? Hy _]; subst. simpl in Hy. contradiction.
      - cbn [tl]. fold (qs (p0 :: p1 :: rest') cur). fold (qs (p1 :: rest') next).
        rewrite <- app_assoc.
        assert (E : map (fun c => QEnt c (p1 :: rest') (ext_args n p0 a))
                        (filter (child_matches p1) (n_children n))
                    = qs (p1 :: rest') (map (fun c => (c, ext_args n p0 a))
                        (filter (child_matches p1) (n_children n)))).
        { unfold qs. rewrite map_map. reflexivity. }
        rewrite E.
        assert (E2 : forall l1 l2, qs (p1 :: rest') l1 ++ qs (p1 :: rest') l2
                                   = qs (p1 :: rest') (l1 ++ l2)).
        { intros. unfold qs. rewrite map_app. reflexivity. }
        rewrite E2.
        pose proof (IH m (p0 :: p1 :: rest') cur
          (next ++ map (fun c => (c, ext_args n p0 a))
                       (filter (child_matches p1) (n_children n)))) as IH'.
        cbn [tl] in IH'. rewrite IH'.
        + rewrite reaches_app, reaches_map, <- app_assoc.
          change (reaches (p0 :: p1 :: rest') ((n, a) :: cur)) with
            (reach (p0 :: p1 :: rest') n a ++ reaches (p0 :: p1 :: rest') cur).
          cbn [reach]. reflexivity.
        + exact Hc'.
        + apply Forall_app. split; [exact Hn|].
          apply Forall_forall. intros [c a'] Hin. apply in_map_iff in Hin.
          destruct Hin as [c' [Heq Hin]]. injection Heq as <- <-.
          apply filter_In in Hin as [_ Hm]. simpl.
          rewrite <- child_matches_ok. exact Hm.
        + rewrite total_app, total_map.
          pose proof (csize_filter (child_matches p1) (n_children n)) as Hs.
          cbn [total fold_right fst] in Hf. rewrite node_size_eq in Hf.
          fold (total cur) in Hf. lia. }
    destruct cur as [|[n a] cur].
    - destruct next as [|[n a] next].
      + simpl. reflexivity.
      + change (qs ps [] ++ qs (tl ps) ((n, a) :: next)) with (qs (tl ps) ((n, a) :: next)).
        change (reaches ps []) with (@nil (node HS * args)). rewrite app_nil_r.
        pose proof (Step (tl ps) n a next []) as S'.
        change (qs (tl (tl ps)) []) with (@nil (qent HS)) in S'.
        change (reaches (tl (tl ps)) []) with (@nil (node HS * args)) in S'.
        rewrite app_nil_r in S'. apply S'.
        * exact Hn.
        * constructor.
        * simpl. simpl in Hf. lia.
    - apply Step; assumption.
  Qed.

  Definition finish (o : fout HS) : tres HS * args :=
    match o with
    | FFound s a => (TFound s, a)
    | FNone => (TNotFound, [])
    | FPanic => (TPanic, [])
    | FFuel => (TFuel, [])
    end.

  (** Tree.Find = first end node in preorder, if the top node is the root *)
  Lemma tree_find_reach top m path io :
    n_urlid top = [] -> n_path top = B"/" ->
    tree_find top m path io
    = finish (decide m (hd_error (reach (B"/" :: segments path) top []))).
  Proof.
    intros Hu Hp. unfold tree_find. rewrite split_path_shape.
    destruct (segments path) as [|s0 segs] eqn:E.
    - cbn [reach hd_error decide]. unfold ext_args. rewrite Hu.
      cbn [is_empty]. destruct (lookup_set m (n_handlers top)); reflexivity.
    - pose proof (find_loop_level (S (node_size top)) m (B"/" :: s0 :: segs)
                    [(top, [])] []) as L.
      cbn [tl qs map app fst snd reaches flat_map] in L.
      rewrite !app_nil_r in L.
      cbn [app qs map].
      rewrite L.
      + destruct (decide m _); reflexivity.
      + constructor; [|constructor]. simpl. unfold node_ok. rewrite Hu, Hp. reflexivity.
      + constructor.
      + simpl. lia.
  Qed.

  (** for arbitrary trees the search never panics nor runs out of fuel *)
  Lemma tree_find_total top m path io :
    fst (tree_find top m path io) <> TPanic /\ fst (tree_find top m path io) <> TFuel.
  Proof.
    unfold tree_find. rewrite split_path_shape.
    destruct (segments path) as [|s0 segs] eqn:E.
    - destruct (lookup_set m (n_handlers top)); simpl; split; discriminate.
    - destruct (node_ok (B"/") top) eqn:Hok.
      + pose proof (find_loop_level (S (node_size top)) m (B"/" :: s0 :: segs)
                    [(top, [])] []) as L.
        cbn [tl qs map app fst snd reaches flat_map] in L.
        rewrite !app_nil_r in L. rewrite L.
        * unfold decide. destruct (hd_error _) as [[n a]|]; [|simpl; split; discriminate].
          destruct (lookup_set m (n_handlers n)); simpl; split; discriminate.
        * constructor; [|constructor]. exact Hok.
        * constructor.
        * simpl. lia.
      + cbn [find_loop q_path q_node q_args].
        unfold node_ok in Hok. apply orb_false_iff in Hok as [H1 H2].
        apply negb_false_iff in H1. rewrite H1, H2. simpl. split; discriminate.
  Qed.
End Find.
