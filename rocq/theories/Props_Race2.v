(** C75: what a registration is said to write it does write. *)
From Verif Require Import Base GoStrings M_Tree M_Race S_Race S_Route P_TreeRep Props_Race.

(** [n'] is the node of the new tree at a position where the old tree had [old] (if anything):
    the field [f] of it was written by a registration of [set] for [method] *)
Definition written {HS} (method : bytes) (set : option HS) (old : option (node HS)) (f : field) (n' : node HS) : Prop :=
  match f with
  | FHandlers => forall m, covers method m = true -> aget m (n_handlers n') = Some set
  | FChildren => match old with
                 | Some n => length (n_children n') = S (length (n_children n))
                 | None => n_children n' <> [] end
  end.

Lemma add_method_get {HS} method (h : list (bytes * option HS)) set m : covers method m = true -> aget m (add_method method h set) = Some set.
Proof.
  unfold add_method, covers. destruct (beq method MethodGetPost) eqn:E1; [|destruct (beq method MethodGetHead) eqn:E2]; rewrite ?aget_aput.
  - destruct (beq m MethodGet), (beq m MethodPost); (reflexivity || discriminate).
  - destruct (beq m MethodGet), (beq m MethodHead); (reflexivity || discriminate).
  - rewrite (beq_sym method m). intros ->. reflexivity.
Qed.
Lemma in_touch_h q f p : In (Acc true (LNode q f)) (touch_handlers p) -> q = p /\ f = FHandlers.
Proof. intros [X|[X|[]]]; [discriminate X|]. injection X as -> ->. auto. Qed.
Lemma in_touch_c q f p : In (Acc true (LNode q f)) (touch_children p) -> q = p /\ f = FChildren.
Proof. intros [X|[X|[]]]; [discriminate X|]. injection X as -> ->. auto. Qed.
Lemma chain_written {HS} method (set : option HS) rest : forall at_ k p q f,
  In (Acc true (LNode q f)) (chain_trace at_ k rest) ->
  q = at_ /\ f = FChildren \/
  exists q' n', q = at_ ++ k :: q' /\ node_at q' (chain method p rest set) = Some n' /\ written method set None f n'.
Proof.
  induction rest as [|p2 rest IH]; intros at_ k p q f H; cbn [chain_trace chain] in H |- *; apply in_app_or in H as [H|H].
  - left. apply in_touch_c, H.
  - right. apply in_touch_h in H as [-> ->]. destruct (get_url_id p) as [pp u].
    exists [], (Node [] pp u (add_method method [] set)). split; [reflexivity|]. split; [reflexivity|].
    intros m Hm. apply add_method_get, Hm.
  - left. apply in_touch_c, H.
  - right. destruct (get_url_id p) as [pp u]. destruct (IH _ _ p2 _ _ H) as [[-> ->]|(q' & n' & -> & Hn & W)].
    + eexists [], _. split; [reflexivity|]. split; [reflexivity|]. discriminate.
    + exists (0 :: q'), n'. rewrite <- app_assoc. split; [reflexivity|]. split; [exact Hn|exact W].
Qed.
Lemma node_below_end {HS} (n : node HS) k q : length (n_children n) <= k -> node_at (k :: q) n = None.
Proof. intros H. cbn [node_at]. rewrite (proj2 (nth_error_None _ _) H). reflexivity. Qed.
Lemma existsb_in i l : In i l -> existsb (Nat.eqb i) l = true.
Proof. intros H. apply existsb_exists. exists i. split; [exact H|apply Nat.eqb_refl]. Qed.
Lemma find_child_bound {HS} g (cs : list (node HS)) : forall i k, In k (find_child g cs i) -> i <= k < i + length cs.
Proof.
  induction cs as [|c cs IH]; intros i k H; cbn [find_child] in H; [destruct H|]. cbn [length]. destruct (beq (n_path c) g).
  - destruct H as [->|[]]. lia.
  - apply IH in H. lia.
Qed.
Lemma next_bound {HS} p u (cs : list (node HS)) k : In k (next_nodes p u cs) -> k < length cs.
Proof.
  unfold next_nodes. destruct (negb (is_empty u)); intros H; [apply in_seq in H; lia|apply find_child_bound in H; lia].
Qed.
Lemma add_written {HS} method (set : option HS) rest : forall (n : node HS) at_ p q f,
  In (Acc true (LNode q f)) (add_rec_trace n at_ p rest) ->
  exists q' n', q = at_ ++ q' /\ node_at q' (add_rec n method p rest set) = Some n' /\ written method set (node_at q' n) f n'.
Proof.
  induction rest as [|p2 rest IH]; intros n at_ p q f H; cbn [add_rec add_rec_trace] in H |- *.
  - pose proof (next_nodup p (n_urlid n) (n_children n)) as Nd. pose proof (next_bound p (n_urlid n) (n_children n)) as Nb.
    destruct H as [H|H]; [discriminate H|]. destruct (next_nodes p (n_urlid n) (n_children n)) as [|i0 next] eqn:En.
    + apply in_touch_c in H as [-> ->]. eexists [], _. rewrite app_nil_r. split; [reflexivity|]. split; [reflexivity|].
      cbn. rewrite app_length. cbn. lia.
    + apply in_flat_map in H as (i & Hi & H). apply in_touch_h in H as [-> ->]. specialize (Nb _ Hi).
      destruct (nth_error (n_children n) i) as [c|] eqn:Ec; [|apply nth_error_None in Ec; lia].
      exists [i]. eexists. split; [reflexivity|]. cbn [node_at set_children n_children].
      rewrite nth_fold_upd by exact Nd. rewrite (existsb_in _ _ Hi), Ec. split; [reflexivity|]. cbn.
      intros m Hm. apply add_method_get, Hm.
  - pose proof (next_nodup p (n_urlid n) (n_children n)) as Nd. pose proof (next_bound p (n_urlid n) (n_children n)) as Nb.
    destruct H as [H|H]; [discriminate H|]. destruct (next_nodes p (n_urlid n) (n_children n)) as [|i0 next] eqn:En.
    + destruct (chain_written method set _ _ _ p _ _ H) as [[-> ->]|(q' & n' & -> & Hn & W)].
      * eexists [], _. rewrite app_nil_r. split; [reflexivity|]. split; [reflexivity|].
        cbn. rewrite app_length. cbn. lia.
      * exists (length (n_children n) :: q'), n'. split; [reflexivity|].
        rewrite (node_below_end n (length (n_children n)) q' (le_n _)). split; [|exact W].
        cbn [node_at set_children n_children]. rewrite nth_error_app2, Nat.sub_diag by lia. exact Hn.
    + apply in_flat_map in H as (i & Hi & H). specialize (Nb _ Hi).
      destruct (nth_error (n_children n) i) as [c|] eqn:Ec; [|destruct H].
      destruct (IH _ _ _ _ _ H) as (q' & n' & -> & Hn & W).
      exists (i :: q'), n'. rewrite <- app_assoc. split; [reflexivity|]. cbn [node_at set_children n_children].
      rewrite (nth_fold_upd (fun c => add_rec c method p2 rest set)) by exact Nd.
      rewrite (existsb_in _ _ Hi), Ec. cbn [option_map]. split; [exact Hn|exact W].
Qed.

(** Every write the trace of a registration lists is made: the handlers of the node there
    are then [set] for every method covered, or the node has one child more (new nodes of a
    route have children). *)
Theorem C75_listed_writes_happen : forall HS (top : node HS) method path set p f,
  In (Acc true (LNode p f)) (add_trace top path) ->
  exists n', node_at p (tree_add top method path set) = Some n' /\
    match f with
    | FHandlers => forall m, covers method m = true -> aget m (n_handlers n') = Some set
    | FChildren => match node_at p top with
                   | Some n => length (n_children n') = S (length (n_children n))
                   | None => n_children n' <> [] end
    end.
Proof.
  intros HS top method path set p f H. unfold add_trace in H. unfold tree_add.
  destruct H as [H|H]; [discriminate H|]. cbn [app] in H. apply in_app_or in H as [H|[H|[]]]; [|discriminate H].
  assert (K : In (Acc true (LNode p f)) (touch_handlers []) ->
    exists n', node_at p (set_handlers top (add_method method (n_handlers top) set)) = Some n' /\ written method set (node_at p top) f n').
  { intros X. apply in_touch_h in X as [-> ->]. eexists. split; [reflexivity|]. intros m Hm. apply add_method_get, Hm. }
  destruct (split_path path) as [|x [|p1 rest]]; [exact (K H)|exact (K H)|].
  destruct (add_written method set _ _ _ _ _ _ H) as (q' & n' & -> & Hn & W). exists n'. split; [exact Hn|exact W].
Qed.
Example C75_listed_writes_nonvacuous :
  let top := tree_add new_tree MethodGet (B"/a") (Some 1) in
  In (Acc true (LNode [0; 0; 0] FHandlers)) (add_trace top (B"/a/:b/c")) /\
  In (Acc true (LNode [0; 0] FChildren)) (add_trace top (B"/a/:b/c")) /\
  In (Acc true (LNode [0] FChildren)) (add_trace top (B"/a/:b/c")).
Proof. vm_compute. auto 30. Qed.
Print Assumptions C75_listed_writes_happen.

(** ** Which registrations a lookup races with *)
Lemma runs_trans x y z : runs x y -> runs y z -> runs x z.
Proof. intros H K. induction K; [exact H|]. eapply runs_more; [apply IHK, H|eassumption]. Qed.
Lemma runs_one x y : tstep x y -> runs x y.
Proof. intros H. eapply runs_more; [constructor|exact H]. Qed.
Definition rest_of (tr : list instr) (th : thread) : Prop := exists a, tr = a ++ t_prog th.
Lemma runs_rest calls ths : runs (map (Th []) calls) ths -> Forall2 rest_of calls ths.
Proof.
  intros H. remember (map (Th []) calls) as s eqn:E. revert E. induction H as [x|x y z H IH St]; intros ->.
  - clear. induction calls as [|c calls IH]; constructor; [exists []; reflexivity|exact IH].
  - specialize (IH eq_refl). clear H.
    assert (K : forall l1 l2 t t', Forall2 rest_of calls (l1 ++ t :: l2) -> (exists i, t_prog t = i :: t_prog t') -> Forall2 rest_of calls (l1 ++ t' :: l2)).
    { intros l1 l2 t t' F (i & Ei). apply Forall2_app_inv_r in F as (c1 & c2 & F1 & F2 & ->). inversion F2 as [|c t0 cs l20 Hc F3]; subst. destruct Hc as [a Ha].
      apply Forall2_app; [exact F1|]. constructor; [|exact F3]. exists (a ++ [i]). rewrite <- app_assoc. cbn [app]. rewrite <- Ei. exact Ha. }
    destruct St; (eapply K; [exact IH|]); eexists; reflexivity.
Qed.
Lemma shared_or_free calls :
  (forall i j ci cj w w' l, i <> j -> nth_error calls i = Some ci -> nth_error calls j = Some cj ->
     In (Acc w l) ci -> In (Acc w' l) cj -> w = false /\ w' = false) -> race_free calls.
Proof.
  intros H ths R (i & j & h & h' & w & w' & l & r & r' & N & Hi & Hj & W). apply runs_rest in R.
  assert (K : forall i h w l r, nth_error ths i = Some (Th h (Acc w l :: r)) -> exists c, nth_error calls i = Some c /\ In (Acc w l) c).
  { clear - R. intros i h w l r E. revert i E. induction R as [|c th calls ths [a Ha] R IH]; intros i E; [destruct i; discriminate|].
    destruct i as [|i]; cbn in E.
    - injection E as ->. exists c. split; [reflexivity|]. rewrite Ha. apply in_or_app. right. left. reflexivity.
    - apply IH, E. }
  destruct (K _ _ _ _ _ Hi) as (ci & Ei & Ii), (K _ _ _ _ _ Hj) as (cj & Ej & Ij).
  destruct (H i j ci cj w w' l N Ei Ej Ii Ij) as [-> ->]. destruct W; discriminate.
Qed.
Definition away (i : instr) : Prop :=
  match i with Lock m p | Unlock m p => m = MRead /\ p <> [] | Acc w _ => w = false end.
Definition away_lock (x : mode * pos) : Prop := fst x = MRead /\ snd x <> [].
Lemma release_away x l : Forall away_lock l -> Forall away_lock (release x l).
Proof.
  intros H. induction H as [|y l Hy H IH]; cbn [release]; [constructor|]. destruct (same_lock x y); [exact H|constructor; assumption].
Qed.
Lemma run_reader a : Forall away a -> forall r held t2, t_held t2 = [] -> Forall away_lock held ->
  exists held', Forall away_lock held' /\ runs [Th held (a ++ r); t2] [Th held' r; t2].
Proof.
  intros H. induction H as [|i a Hi H IH]; intros r held t2 E Hh; [exists held; split; [exact Hh|constructor]|]. cbn [app].
  destruct i as [m p|m p|w l]; cbn [away] in Hi.
  - destruct Hi as [-> Np]. destruct (IH r ((MRead, p) :: held) t2 E) as (h' & H1 & H2); [constructor; [split; auto|exact Hh]|].
    exists h'. split; [exact H1|]. eapply runs_trans; [|exact H2]. apply runs_one, (T_lock [] [t2]).
    intros th m' [<-|[<-|[]]] X; cbn [t_held] in X; [|rewrite E in X; destruct X].
    rewrite Forall_forall in Hh. apply Hh in X as [X _]. cbn in X. rewrite X. reflexivity.
  - destruct (IH r (release (m, p) held) t2 E) as (h' & H1 & H2); [apply release_away, Hh|].
    exists h'. split; [exact H1|]. eapply runs_trans; [|exact H2]. apply runs_one, (T_unlock [] [t2]).
  - destruct (IH r held t2 E Hh) as (h' & H1 & H2). exists h'. split; [exact H1|]. eapply runs_trans; [|exact H2].
    apply runs_one, (T_acc [] [t2]).
Qed.
Lemma run_accs t1 a : accs a -> forall r held, runs [t1; Th held (a ++ r)] [t1; Th held r].
Proof.
  intros H. induction H as [|i a (w & l & ->) H IH]; intros r held; [constructor|]. eapply runs_trans; [|apply IH].
  apply runs_one, (T_acc [t1] []).
Qed.
Lemma find_loop_away {HS} fuel : forall (q : list (pos * node HS * list bytes)),
  Forall (fun e => fst (fst e) = [] -> 2 <= length (snd e)) q -> Forall away (find_loop_trace fuel q).
Proof.
  induction fuel as [|fuel IH]; intros q H; cbn [find_loop_trace]; [constructor|].
  destruct H as [|[[at_ n] paths] q Hx H]; [constructor|]. destruct paths as [|p0 rest]; [constructor|].
  destruct (is_empty (n_urlid n) && negb (beq (n_path n) p0)); [constructor|]. destruct rest as [|p1 rest].
  - assert (N : at_ <> []) by (intros X; specialize (Hx X); cbn in Hx; lia). repeat constructor; exact N.
  - constructor; [reflexivity|]. apply IH, Forall_app. split; [exact H|]. apply Forall_map, Forall_forall.
    intros ic _ X. cbn in X. destruct at_; discriminate X.
Qed.
Lemma find_away {HS} (top : node HS) path : (forall x, split_path path <> [x]) -> Forall away (find_trace top path).
Proof.
  intros N. unfold find_trace. destruct (split_path path) as [|x [|p rest]].
  - cbn. constructor.
  - destruct (N x eq_refl).
  - apply find_loop_away. constructor; [|constructor]. intros _. cbn. lia.
Qed.
Lemma in_add_acc {HS} (top : node HS) route w l : In (Acc w l) (add_trace top route) ->
  exists a r, add_trace top route = Lock MWrite [] :: a ++ Acc w l :: r /\ accs a.
Proof.
  intros H. assert (G : exists b, add_trace top route = Lock MWrite [] :: b ++ [Unlock MWrite []] /\ accs b).
  { unfold add_trace. destruct (split_path route) as [|x [|p rest]]; (eexists; split; [reflexivity|]); [apply touch_accs|apply touch_accs|apply add_rec_accs]. }
  destruct G as (b & E & Hb). rewrite E in H |- *. destruct H as [H|H]; [discriminate H|]. apply in_app_or in H as [H|[H|[]]]; [|discriminate H].
  apply in_split in H as (a & r & ->). exists a, (r ++ [Unlock MWrite []]). rewrite <- app_assoc. split; [reflexivity|].
  apply Forall_app in Hb. apply Hb.
Qed.

(** A lookup of anything but the root races with a registration exactly when the registration
    writes something the lookup reads; the locks make no difference. *)
Theorem C75_lookup_races_exactly : forall HS (top : node HS) path route,
  (forall x, split_path path <> [x]) ->
  (race_free [find_trace top path; add_trace top route] <->
   forall l, In (Acc true l) (add_trace top route) -> ~ In (Acc false l) (find_trace top path)).
Proof.
  intros HS top path route N. split.
  - intros F l Ha Hf. destruct (in_add_acc _ _ _ _ Ha) as (a2 & r2 & E2 & A2). apply in_split in Hf as (a1 & r1 & E1).
    pose proof (find_away top path N) as Aw. rewrite E1 in Aw. apply Forall_app in Aw as [Aw _].
    destruct (run_reader a1 Aw (Acc false l :: r1) [] (Th [] (add_trace top route)) eq_refl (Forall_nil _)) as (h & Hh & R).
    apply (F [Th h (Acc false l :: r1); Th [(MWrite, [])] (Acc true l :: r2)]).
    + cbn [map]. rewrite E1. eapply runs_trans; [exact R|]. rewrite E2.
      eapply runs_trans; [|apply run_accs, A2]. apply runs_one, (T_lock [_] []).
      intros th m' [<-|[<-|[]]] X; cbn [t_held] in X; [|destruct X].
      rewrite Forall_forall in Hh. apply Hh in X as [_ X]. destruct (X eq_refl).
    + eexists 0, 1, _, _, _, _, _, _, _. split; [discriminate|]. split; [reflexivity|]. split; [reflexivity|]. right. reflexivity.
  - intros H. apply shared_or_free. intros i j ci cj w w' l Nij Hi Hj Ii Ij.
    assert (Rd := find_reading top path).
    destruct i as [|[|i]]; cbn in Hi; [| |destruct i; discriminate]; injection Hi as <-;
      (destruct j as [|[|j]]; cbn in Hj; [| |destruct j; discriminate]; injection Hj as <-); try contradiction.
    + destruct w; [destruct (Rd _ Ii)|]. destruct w'; [destruct (H _ Ij Ii)|]. auto.
    + destruct w'; [destruct (Rd _ Ij)|]. destruct w; [destruct (H _ Ii Ij)|]. auto.
Qed.
(** a registration that does not race with a lookup: it changes another branch *)
Example C75_other_branch :
  let top := tree_add (tree_add new_tree MethodGet (B"/a/b") (Some 1)) MethodGet (B"/c/d") (Some 2) in
  (forall x, split_path (B"/a/b") <> [x]) /\
  race_free [find_trace top (B"/a/b"); add_trace top (B"/c/e")] /\
  ~ race_free [find_trace top (B"/a/b"); add_trace top (B"/a/e")].
Proof.
  intros top. assert (N : forall x, split_path (B"/a/b") <> [x]) by (intros x; vm_compute; discriminate). split; [exact N|]. split.
  - apply (C75_lookup_races_exactly _ top _ _ N). intros l Ha Hf. vm_compute in Ha, Hf.
    destruct Ha as [Ha|[Ha|[Ha|[Ha|[Ha|[Ha|[]]]]]]]; try discriminate Ha; injection Ha as <-;
      destruct Hf as [Hf|[Hf|[Hf|[Hf|[Hf|[]]]]]]; discriminate Hf.
  - intros F. apply (proj1 (C75_lookup_races_exactly _ top _ _ N) F (LNode [0] FChildren)); vm_compute; auto 10.
Qed.
Print Assumptions C75_lookup_races_exactly.
