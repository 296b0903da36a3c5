(** Concurrent requests: ownership of the parameter objects and projection to a single request. *)
From Verif Require Import Base GoErrors GoSlices P_Slices M_Tree M_RegTree M_Ctx M_Pipeline M_Auth M_Serve S_Serve.
From Coq Require Import Permutation.

Section Proofs.
  Context {V : Type}.
  Variables (matches : rgx -> bytes -> bool) (uni : bytes -> bytes) (auth : option base_auth)
            (ses : option (prog V)) (lvl : Z).
  Notation treq := (treq matches uni auth ses lvl).
  Notation ystep := (ystep matches uni auth ses lvl).
  Notation ymany := (ymany matches uni auth ses lvl).
  Notation found := (found ses lvl).
  Notation ended := (ended lvl).
  Notation enter := (enter lvl).
  Notation gate := (gate uni auth).
  Notation served := (served matches uni auth ses lvl).
  Notation alone := (alone matches uni auth ses lvl).
  Implicit Types (th : thread V) (y : sys V) (t : table V).

  Definition held th : list nat :=
    match th with TRouting id | TRunning id _ _ _ _ _ | TWaiting id _ _ _ => [id] | _ => [] end.
  Definition reid th : thread V :=
    match th with
    | TRouting _ => TRouting 0
    | TRunning _ s w p rest l => TRunning 0 s w p rest l
    | TWaiting _ s e l => TWaiting 0 s e l
    | TDone (Some _) a => TDone (Some 0) a
    | _ => th
    end.
  (** which threads the parts of a handling lead to *)
  Lemma reid_finish id s e (l : loc V) u : reid (finish id s e l u) = finish 0 s e l u.
  Proof. unfold finish. destruct (c_aborted _); reflexivity. Qed.
  Lemma reid_proceed id s rest (l : loc V) u : reid (proceed id s rest l u) = proceed 0 s rest l u.
  Proof. unfold proceed. destruct (next rest l) as [[[[w p] r] l']|]; [reflexivity|apply reid_finish]. Qed.
  Lemma reid_enter id s (l : loc V) u : reid (enter id s l u) = enter 0 s l u.
  Proof. unfold M_Serve.enter. cbv zeta. destruct (stages s); [apply reid_proceed|reflexivity]. Qed.
  Lemma reid_found id s u : reid (found id s u) = found 0 s u.
  Proof. unfold M_Serve.found. destruct ses; [reflexivity|apply reid_enter]. Qed.
  Lemma reid_ended q id s w o rest (l : loc V) u : reid (ended q id s w o rest l u) = ended q 0 s w o rest l u.
  Proof.
    unfold M_Serve.ended. destruct o as [e|]; [|reflexivity]. cbv zeta.
    destruct w, e; try reflexivity; try apply reid_finish; try apply reid_proceed; try apply reid_enter;
      destruct (stopped _); try apply reid_finish; apply reid_proceed.
  Qed.
  Lemma reid_waited id s e eg (l : loc V) u : reid (waited id s e eg l u) = waited 0 s e eg l u.
  Proof. unfold waited. cbv zeta. destruct (is_last s); reflexivity. Qed.
  (** they keep the object, or are done with it *)
  Definition owns (id : nat) th : Prop := held th = [id] \/ (exists a, th = TDone (Some id) a) \/ th = TPanic.
  Lemma owns_finish id s e (l : loc V) u : owns id (finish id s e l u).
  Proof. unfold finish, owns. destruct (c_aborted _); [right; left; eauto|left; reflexivity]. Qed.
  Lemma owns_proceed id s rest (l : loc V) u : owns id (proceed id s rest l u).
  Proof. unfold proceed. destruct (next rest l) as [[[[w p] r] l']|]; [left; reflexivity|apply owns_finish]. Qed.
  Lemma owns_enter id s (l : loc V) u : owns id (enter id s l u).
  Proof. unfold M_Serve.enter. cbv zeta. destruct (stages s); [apply owns_proceed|right; right; reflexivity]. Qed.
  Lemma owns_found id s u : owns id (found id s u).
  Proof. unfold M_Serve.found. destruct ses; [left; reflexivity|apply owns_enter]. Qed.
  Lemma owns_ended q id s w o rest (l : loc V) u : owns id (ended q id s w o rest l u).
  Proof.
    unfold M_Serve.ended. destruct o as [e|]; [|right; right; reflexivity]. cbv zeta.
    destruct w, e; try (right; left; eauto; fail); try apply owns_finish; try apply owns_proceed; try apply owns_enter;
      destruct (stopped _); try apply owns_finish; apply owns_proceed.
  Qed.
  Lemma owns_waited id s e eg (l : loc V) u : owns id (waited id s e eg l u).
  Proof. unfold waited. cbv zeta. destruct (is_last s); [left; reflexivity|right; left; eauto]. Qed.

  (** ** Ownership *)
  Definition all_ids y : list nat := y_pool y ++ flat_map (fun x => held (snd x)) (y_threads y).
  Definition inv y : Prop := NoDup (all_ids y) /\ Forall (fun id => id < length (y_heap y)) (all_ids y) /\ y_tables y <> [].
  Lemma put_length id (u : fargs) h : length (put id u h) = length h.
  Proof. apply upd_nth_length. Qed.
  Lemma nth_put id id' (u : fargs) h : id < length h -> nth id' (put id u h) [] = if id' =? id then u else nth id' h [].
  Proof.
    intros H. unfold put. rewrite nth_upd_nth. destruct (Nat.eqb_spec id' id) as [->|_]; [|reflexivity].
    apply Nat.ltb_lt in H. rewrite H. reflexivity.
  Qed.
  (** what a step does to objects: ownership moves between pool, request and heap end, and only
      its own object changes *)
  Lemma treq_ids t q th h pl th' h' pl' : treq t q th h pl th' h' pl' ->
    (Forall (fun id => id < length h) (pl ++ held th)) ->
    (length h <= length h') /\
    (exists extra, Permutation ((pl' ++ held th') ++ extra) (pl ++ held th) \/
       (th = TArrived /\ extra = [] /\ th' = TRouting (length h) /\ pl' = pl /\ h' = h ++ [[]])) /\
    (forall id, id < length h -> ~ In id (pl ++ held th) -> nth id h' [] = nth id h []).
  Proof.
    intros H F.
    assert (K : forall id u, owns id th' -> held th = [id] -> leave th' (put id u h) pl = (h', pl') ->
      length h <= length h' /\
      (exists extra, Permutation ((pl' ++ held th') ++ extra) (pl ++ held th) \/
         (th = TArrived /\ extra = [] /\ th' = TRouting (length h) /\ pl' = pl /\ h' = h ++ [[]])) /\
      (forall id', id' < length h -> ~ In id' (pl ++ held th) -> nth id' h' [] = nth id' h [])).
    { intros id u O Hd L.
      assert (Bd : id < length h).
      { rewrite Forall_forall in F. apply F. rewrite Hd. apply in_or_app. right. left. reflexivity. }
      assert (N : forall id', ~ In id' (pl ++ held th) -> (id' =? id) = false).
      { intros id' X. apply Nat.eqb_neq. intros ->. apply X. rewrite Hd. apply in_or_app. right. left. reflexivity. }
      rewrite Hd in *. destruct O as [O|[(a & ->)| ->]].
      - assert (leave th' (put id u h) pl = (put id u h, pl)) as E by (destruct th' as [| | | |[?|] ?|]; try discriminate O; reflexivity).
        rewrite E in L. injection L as <- <-. rewrite put_length. split; [lia|]. split.
        + exists []. left. rewrite app_nil_r, O. reflexivity.
        + intros id' H' X. rewrite nth_put by exact Bd. rewrite (N _ X). reflexivity.
      - cbn [leave] in L. injection L as <- <-. rewrite !put_length. split; [lia|]. split.
        + exists []. left. cbn [held]. rewrite !app_nil_r. apply Permutation_cons_append.
        + intros id' H' X. rewrite nth_put by (rewrite put_length; exact Bd). rewrite (N _ X). rewrite nth_put by exact Bd. rewrite (N _ X). reflexivity.
      - cbn [leave] in L. injection L as <- <-. rewrite put_length. split; [lia|]. split.
        + exists [id]. left. cbn [held]. rewrite app_nil_r. reflexivity.
        + intros id' H' X. rewrite nth_put by exact Bd. rewrite (N _ X). reflexivity. }
    destruct H.
    - split; [lia|]. split; [exists []; left; rewrite app_nil_r; reflexivity|reflexivity].
    - split; [lia|]. split; [exists []; left; cbn [held]; rewrite !app_nil_r; reflexivity|reflexivity].
    - split; [rewrite app_length; lia|]. split; [exists []; right; auto|]. intros id H1 _. rewrite app_nth1 by exact H1. reflexivity.
    - split; [lia|]. split; [|reflexivity]. exists []. left. cbn [held]. rewrite !app_nil_r, <- !app_assoc.
      apply Permutation_app_head. symmetry. apply Permutation_cons_append.
    - apply (K id u); [|reflexivity|assumption]. subst th'. destruct r; [apply owns_found|right; left; eauto|right; right; reflexivity|right; right; reflexivity].
    - apply (K id u'); [left; reflexivity|reflexivity|reflexivity].
    - assert (put id (nth id h []) h = h) as E.
      { unfold put. clear. revert id. induction h as [|x h IH]; intros [|id]; cbn; try reflexivity. rewrite IH. reflexivity. }
      apply (K id (nth id h [])); [subst th'; apply owns_ended|reflexivity|rewrite E; assumption].
    - assert (put id (nth id h []) h = h) as E.
      { unfold put. clear. revert id. induction h as [|x h IH]; intros [|id]; cbn; try reflexivity. rewrite IH. reflexivity. }
      apply (K id (nth id h [])); [subst th'; apply owns_waited|reflexivity|rewrite E; assumption].
  Qed.
  Lemma NoDup_first {A} (a b : list A) : NoDup (a ++ b) -> NoDup a.
  Proof.
    induction a as [|x a IH]; [constructor|]. cbn [app]. intros N. inversion N; subst. constructor; [|auto].
    intros X. apply H1. apply in_or_app. auto.
  Qed.
  Lemma NoDup_perm_sub {A} (a b extra : list A) : Permutation (a ++ extra) b -> NoDup b -> NoDup a.
  Proof. intros P N. eapply NoDup_first. eapply Permutation_NoDup; [symmetry; exact P|exact N]. Qed.
  Lemma inv_step y y' : ystep y y' -> inv y -> inv y'.
  Proof.
    intros H (N & F & T). destruct H as [ts t tss h pl l1 q th l2 th' h' pl' Et Al H| |]; unfold inv, all_ids in *; cbn [y_pool y_threads y_heap y_tables] in *.
    - set (A := flat_map (fun x => held (snd x)) l1) in *. set (C := flat_map (fun x => held (snd x)) l2) in *.
      rewrite flat_map_app in *. cbn [flat_map snd] in *. fold A C in N, F |- *.
      assert (P : forall p hd, Permutation (p ++ A ++ hd ++ C) ((p ++ hd) ++ A ++ C)).
      { intros p hd. rewrite <- app_assoc. apply Permutation_app_head. rewrite !app_assoc. apply Permutation_app_tail. apply Permutation_app_comm. }
      apply (Permutation_NoDup (P pl (held th))) in N.
      assert (F' : Forall (fun id => id < length h) ((pl ++ held th) ++ A ++ C)) by (rewrite Forall_forall in *; intros x Hx; apply F; eapply Permutation_in; [symmetry; apply P|exact Hx]).
      apply Forall_app in F' as [F1 F2]. destruct (treq_ids _ _ _ _ _ _ _ _ H F1) as (Le & (extra & [Pe|(-> & -> & -> & -> & ->)]) & _).
      + split; [|split; [|exact T]].
        * eapply Permutation_NoDup; [symmetry; apply P|]. apply (NoDup_perm_sub _ ((pl ++ held th) ++ A ++ C) extra); [|exact N].
          rewrite <- Pe. rewrite <- !app_assoc. do 2 apply Permutation_app_head. rewrite (app_assoc A C extra). apply Permutation_app_comm.
        * apply Forall_forall. intros x Hx. eapply Permutation_in in Hx; [|apply P]. apply in_app_or in Hx as [Hx|Hx].
          -- rewrite Forall_forall in F1. apply (Nat.lt_le_trans _ (length h)); [|exact Le]. apply F1.
             eapply Permutation_in; [exact Pe|]. apply in_or_app. left. exact Hx.
          -- rewrite Forall_forall in F2. specialize (F2 x Hx). lia.
      + cbn [held] in *. rewrite app_nil_r in *. split; [|split; [|exact T]].
        * eapply Permutation_NoDup; [symmetry; apply P|]. rewrite <- app_assoc. eapply Permutation_NoDup; [apply Permutation_middle|].
          constructor; [|exact N]. intros X. apply in_app_or in X as [X|X]; [rewrite Forall_forall in F1; specialize (F1 _ X)|rewrite Forall_forall in F2; specialize (F2 _ X)]; lia.
        * apply Forall_forall. intros x Hx. rewrite app_length. cbn [length]. eapply Permutation_in in Hx; [|apply P].
          rewrite <- app_assoc in Hx. apply in_app_or in Hx as [Hx|[Hx|Hx]].
          -- rewrite Forall_forall in F1. specialize (F1 _ Hx). lia.
          -- lia.
          -- rewrite Forall_forall in F2. specialize (F2 _ Hx). lia.
    - split; [exact N|]. split; [exact F|discriminate].
    - rewrite <- app_assoc in *. cbn [app] in *. split; [eapply NoDup_remove_1; exact N|]. split; [|exact T].
      apply Forall_app in F as [F1 F2]. inversion F2; subst. apply Forall_app. split; assumption.
  Qed.
  Lemma inv_start t qs : inv (start t qs).
  Proof.
    unfold inv, all_ids, start. cbn [y_pool y_threads y_heap y_tables app].
    assert (flat_map (fun x => held (snd x)) (map (fun q => (q, TArrived)) qs) = []) as ->.
    { induction qs; [reflexivity|]. cbn. assumption. }
    split; [constructor|]. split; [constructor|discriminate].
  Qed.
  Lemma inv_many x y : ymany x y -> inv x -> inv y.
  Proof. induction 1 as [|x y z _ IH S]; [auto|]. intros I. eapply inv_step; [exact S|auto]. Qed.

  (** ** Projection to one request *)
  Definition sim (ts : list (table V)) (h : list fargs) (x : req * thread V) : Prop :=
    let '(q, th) := x in
    match th with
    | TArrived | TPanic => True
    | TRouting id => gate q = Ok true
    | TDone None a => a = denied /\ gate q = Ok false
    | TDone (Some _) a => exists t, In t ts /\ alone t q a
    | TRunning id _ _ _ _ _ | TWaiting id _ _ _ =>
        exists t, In t ts /\ ymany (start t [q]) (Sys [t] [nth id h []] [] [(q, reid th)])
    end.
  Lemma one_req t q h pl th th' h' pl' : th <> TPanic -> treq t q th h pl th' h' pl' ->
    ystep (Sys [t] h pl [(q, th)]) (Sys [t] h' pl' [(q, th')]).
  Proof.
    intros N H. apply (Y_req matches uni auth ses lvl [t] t [] h pl [] q th [] th' h' pl' eq_refl); [|exact H].
    constructor; [exact N|constructor].
  Qed.
  (** the result of a step that keeps or ends with the object *)
  Lemma sim_result ts t q id u0 th' (h h' : list fargs) pl pl' u th0 : In t ts -> owns id th' -> id < length h ->
    ymany (start t [q]) (Sys [t] [u0] [] [(q, th0)]) -> th0 <> TPanic ->
    treq t q th0 [u0] [] (reid th') (fst (leave (reid th') [u] [])) (snd (leave (reid th') [u] [])) ->
    leave th' (put id u h) pl = (h', pl') -> (forall i, th' <> TRouting i) -> sim ts h' (q, th').
  Proof.
    intros It O Bd R N0 S L NR. pose proof (one_req _ _ _ _ _ _ _ _ N0 S) as St. destruct O as [O|[(a & ->)| ->]].
    - assert (Lv : leave th' (put id u h) pl = (put id u h, pl)) by (destruct th' as [| | | |[?|] ?|]; try discriminate O; reflexivity).
      rewrite Lv in L. injection L as <- <-.
      destruct th' as [|i|i s w p rest l|i s e l|k a|]; try discriminate O; cbn [held] in O.
      + exfalso. exact (NR i eq_refl).
      + injection O as ->. cbn [sim]. rewrite nth_put, Nat.eqb_refl by exact Bd. exists t. split; [exact It|].
        eapply Y_more; [exact R|]. exact St.
      + injection O as ->. cbn [sim]. rewrite nth_put, Nat.eqb_refl by exact Bd. exists t. split; [exact It|].
        eapply Y_more; [exact R|]. exact St.
    - cbn [sim]. exists t. split; [exact It|]. cbn [reid leave fst snd] in St.
      eexists. split; [eapply Y_more; [exact R|exact St]|]. split; [reflexivity|]. exists (Some 0). reflexivity.
    - exact I.
  Qed.
  Lemma sim_mono ts ts' h h' x : incl ts ts' -> (forall id, In id (held (snd x)) -> nth id h' [] = nth id h []) -> sim ts h x -> sim ts' h' x.
  Proof.
    intros Hi Hn. destruct x as [q [|id|id s w p rest l|id s e l|[k|] a|]]; cbn [sim snd held] in *; auto.
    - rewrite Hn by (left; reflexivity). intros (t & H1 & H2). exists t. auto.
    - rewrite Hn by (left; reflexivity). intros (t & H1 & H2). exists t. auto.
    - intros (t & H1 & H2). exists t. auto.
  Qed.
  Lemma not_routing_found id s u i : found id s u <> TRouting i.
  Proof.
    unfold M_Serve.found, M_Serve.enter, proceed, finish. destruct ses; [discriminate|]. cbv zeta. destruct (stages s); [|discriminate].
    destruct (next _ _) as [[[[? ?] ?] ?]|]; [discriminate|]. destruct (c_aborted _); discriminate.
  Qed.
  Lemma not_routing_proceed id s rest (l : loc V) u i : proceed id s rest l u <> TRouting i.
  Proof. unfold proceed, finish. destruct (next _ _) as [[[[? ?] ?] ?]|]; [discriminate|]. destruct (c_aborted _); discriminate. Qed.
  Lemma not_routing_ended q id s w o rest (l : loc V) u i : ended q id s w o rest l u <> TRouting i.
  Proof.
    unfold M_Serve.ended. destruct o as [e|]; [|discriminate]. cbv zeta.
    assert (F : forall e l, finish (V:=V) id s e l u <> TRouting i) by (intros; unfold finish; destruct (c_aborted _); discriminate).
    destruct w, e; try discriminate; try apply F; try apply not_routing_proceed;
      try (destruct (stopped _); [apply F|apply not_routing_proceed]).
    unfold M_Serve.enter. cbv zeta. destruct (stages s); [apply not_routing_proceed|discriminate].
  Qed.
  Lemma not_routing_waited id s e eg (l : loc V) u i : waited id s e eg l u <> TRouting i.
  Proof. unfold waited. cbv zeta. destruct (is_last s); discriminate. Qed.
  Lemma put_self id (h : list fargs) : put id (nth id h []) h = h.
  Proof. unfold put. revert id. induction h as [|x h IH]; intros [|id]; cbn; try reflexivity. rewrite IH. reflexivity. Qed.
  Lemma find_ignores order t q u u' :
    server_find (HS:=iset V) matches order (tb_tree t) (tb_reg t) (rq_method (rq_head q)) (rq_path (rq_head q)) u =
    server_find matches order (tb_tree t) (tb_reg t) (rq_method (rq_head q)) (rq_path (rq_head q)) u'.
  Proof. reflexivity. Qed.

  Lemma sim_req ts t q th h pl th' h' pl' : In t ts -> Forall (fun id => id < length h) (held th) ->
    treq t q th h pl th' h' pl' -> sim ts h (q, th) -> sim ts h' (q, th').
  Proof.
    intros It F H Si. destruct H.
    - exact I.
    - cbn [sim]. auto.
    - exact H.
    - exact H.
    - cbn [held] in F. inversion F as [|? ? Bd _]; subst. cbn [sim] in Si.
      assert (O : owns id (match r with TFound s => found id s u | TNotFound => TDone (Some id) (not_found q) | _ => TPanic end))
        by (destruct r; [apply owns_found|right; left; eauto|right; right; reflexivity|right; right; reflexivity]).
      eapply (sim_result ts t q id [] _ h _ pl _ u (TRouting 0)); [exact It|exact O|exact Bd| | | |eassumption|].
      + eapply Y_more; [constructor|]. unfold start. cbn [map]. apply one_req; [discriminate|]. apply (R_fresh matches uni auth ses lvl t q [] []). exact Si.
      + discriminate.
      + eapply (R_find matches uni auth ses lvl t q 0 [[]] [] order r u); [assumption|exact H0| |].
        * destruct r; [apply reid_found|reflexivity|reflexivity|reflexivity].
        * unfold put. cbn [upd_nth]. apply surjective_pairing.
      + intros i. destruct r; try discriminate. apply not_routing_found.
    - cbn [held] in F. inversion F as [|? ? Bd _]; subst. cbn [sim reid] in *. destruct Si as (t' & It' & R). exists t'. split; [exact It'|].
      rewrite nth_put, Nat.eqb_refl by exact Bd. eapply Y_more; [exact R|]. apply one_req; [discriminate|].
      apply (R_op matches uni auth ses lvl t' q 0 s w p rest l [nth id h []] [] p' l' u'). exact H.
    - cbn [held] in F. inversion F as [|? ? Bd _]; subst. cbn [sim reid] in Si. destruct Si as (t' & It' & R).
      eapply (sim_result ts t' q id _ _ h _ pl _ (nth id h []) (TRunning 0 s w (Done o) rest l)); [exact It'|apply owns_ended|exact Bd|exact R|discriminate| |rewrite put_self; eassumption|intros i; apply not_routing_ended].
      eapply R_end; [|apply surjective_pairing]. apply reid_ended.
    - cbn [held] in F. inversion F as [|? ? Bd _]; subst. cbn [sim reid] in Si. destruct Si as (t' & It' & R).
      eapply (sim_result ts t' q id _ _ h _ pl _ (nth id h []) (TWaiting 0 s e l)); [exact It'|apply owns_waited|exact Bd|exact R|discriminate| |rewrite put_self; eassumption|intros i; apply not_routing_waited].
      eapply R_wait; [eassumption| |apply surjective_pairing]. apply reid_waited.
  Qed.
  Definition since (n : nat) (ts : list (table V)) : list (table V) := firstn (length ts - n) ts.
  Lemma since_head n t ts : n < length (t :: ts) -> In t (since n (t :: ts)).
  Proof. unfold since. cbn [length]. intros H. destruct (S (length ts) - n) eqn:E; [lia|]. left. reflexivity. Qed.
  Lemma since_cons n t ts : incl (since n ts) (since n (t :: ts)).
  Proof.
    unfold since. cbn [length]. destruct (Nat.le_gt_cases n (length ts)) as [L|L].
    - rewrite Nat.sub_succ_l by exact L. intros x H. right. exact H.
    - replace (length ts - n) with 0 by lia. intros x [].
  Qed.
  Definition good n i y : Prop :=
    inv y /\ n < length (y_tables y) /\ forall x, nth_error (y_threads y) i = Some x -> sim (since n (y_tables y)) (y_heap y) x.
  Lemma sim_step n i y y' : ystep y y' -> good n i y -> good n i y'.
  Proof.
    intros St (Iv & Ln & Si). split; [eapply inv_step; eassumption|]. revert Ln Si. destruct Iv as (N & Fb & T).
    destruct St as [ts t tss h pl l1 q th l2 th' h' pl' Et Al H| |]; cbn [y_tables y_heap y_threads] in *; intros Ln Si.
    - split; [exact Ln|]. unfold all_ids in *. cbn [y_pool y_threads y_heap] in *.
      rewrite flat_map_app in *. cbn [flat_map snd] in *.
      assert (F1 : Forall (fun id => id < length h) (pl ++ held th)).
      { apply Forall_app in Fb as [? Fb]. apply Forall_app in Fb as [? Fb]. apply Forall_app in Fb as [? ?]. apply Forall_app. auto. }
      destruct (treq_ids _ _ _ _ _ _ _ _ H F1) as (_ & _ & Same).
      assert (Other : forall x, In x l1 \/ In x l2 -> forall id, In id (held (snd x)) -> nth id h' [] = nth id h []).
      { intros x Hx id Hid.
        assert (A : forall l, In x l -> In id (flat_map (fun x => held (snd x)) l)) by (intros l Hl; apply in_flat_map; eauto).
        apply Same.
        - rewrite Forall_forall in Fb. apply Fb. apply in_or_app. right. apply in_or_app.
          destruct Hx as [Hx|Hx]; [left; auto|right; apply in_or_app; right; auto].
        - assert (P : Permutation (pl ++ flat_map (fun x => held (snd x)) l1 ++ held th ++ flat_map (fun x => held (snd x)) l2)
            ((flat_map (fun x => held (snd x)) l1 ++ flat_map (fun x => held (snd x)) l2) ++ (pl ++ held th))).
          { rewrite app_assoc. transitivity ((pl ++ held th) ++ flat_map (fun x => held (snd x)) l1 ++ flat_map (fun x => held (snd x)) l2).
            - rewrite <- !app_assoc. apply Permutation_app_head. rewrite !app_assoc. apply Permutation_app_tail, Permutation_app_comm.
            - apply Permutation_app_comm. }
          apply (Permutation_NoDup P) in N. intros X.
          assert (Y : In id (flat_map (fun x => held (snd x)) l1 ++ flat_map (fun x => held (snd x)) l2)) by (apply in_or_app; destruct Hx; auto).
          clear - N X Y. induction (flat_map (fun x => held (snd x)) l1 ++ flat_map (fun x => held (snd x)) l2) as [|z z' IH]; [destruct Y|].
          cbn [app] in N. inversion N; subst. destruct Y as [->|Y]; [apply H1, in_or_app; right; exact X|auto]. }
      intros x Hx. destruct (Nat.lt_trichotomy i (length l1)) as [L|[->|L]].
      + rewrite nth_error_app1 in * by exact L. eapply sim_mono; [apply incl_refl|apply Other; left; eapply nth_error_In; exact Hx|apply Si; exact Hx].
      + rewrite nth_error_app2, Nat.sub_diag in * by lia. cbn [nth_error] in *. injection Hx as <-.
        eapply sim_req; [subst ts; apply since_head; exact Ln| |exact H|apply Si; reflexivity]. apply Forall_app in F1. apply F1.
      + rewrite nth_error_app2 in * by lia. destruct (i - length l1) as [|j] eqn:Ej; [lia|]. cbn [nth_error] in *.
        eapply sim_mono; [apply incl_refl|apply Other; right; eapply nth_error_In; exact Hx|apply Si; exact Hx].
    - split; [cbn [length]; lia|]. intros x Hx. eapply sim_mono; [apply since_cons|reflexivity|apply Si; exact Hx].
    - auto.
  Qed.
  Lemma sim_many n i x y : ymany x y -> good n i x -> good n i y.
  Proof. induction 1 as [|x y z M IH S]; [auto|]. intros I. eapply sim_step; eauto. Qed.
  Lemma tables_grow x y : ymany x y -> exists new, y_tables y = new ++ y_tables x.
  Proof.
    induction 1 as [|x y z M [new E] S]; [exists []; reflexivity|]. destruct S; cbn [y_tables] in *; eauto.
    exists (t' :: new). rewrite E. reflexivity.
  Qed.

  Theorem isolation t0 qs y1 y2 i q a : served t0 qs y1 -> arrives y1 i q -> ymany y1 y2 -> answered y2 i q a ->
    exists t, in_force y1 y2 t /\ alone t q a.
  Proof.
    intros R1 A1 R2 (kept & E). pose proof (inv_many _ _ R1 (inv_start t0 qs)) as I1.
    pose proof I1 as (_ & _ & T). destruct (tables_grow _ _ R2) as [new En].
    destruct (y_tables y1) as [|cur old] eqn:E1; [congruence|].
    assert (G : good (length old) i y1).
    { split; [exact I1|]. rewrite E1. split; [cbn [length]; lia|]. intros x Hx. unfold arrives in A1. rewrite A1 in Hx. injection Hx as <-. exact I. }
    destruct (sim_many _ _ _ _ R2 G) as (_ & _ & Si). specialize (Si _ E).
    assert (Es : since (length old) (y_tables y2) = new ++ [cur]).
    { unfold since. rewrite En, app_length. cbn [length]. replace (length new + S (length old) - length old) with (length (new ++ [cur])) by (rewrite app_length; cbn [length]; lia).
      replace (new ++ cur :: old) with ((new ++ [cur]) ++ old) by (rewrite <- app_assoc; reflexivity).
      rewrite firstn_app, Nat.sub_diag, firstn_all. cbn [firstn]. rewrite app_nil_r. reflexivity. }
    rewrite Es in Si. unfold in_force. cbn [sim] in Si. destruct kept as [k|].
    - destruct Si as (t & It & Al). exists t. split; [|exact Al]. exists new, cur, old. rewrite E1. auto.
    - destruct Si as [-> G']. exists cur. split; [exists new, cur, old; split; [exact E1|split; [rewrite E1; exact En|]]; apply in_or_app; right; left; reflexivity|].
      exists (Sys [cur] [] [] [(q, TDone None denied)]). split; [|split; [reflexivity|exists None; reflexivity]].
      eapply Y_more; [constructor|]. unfold start. cbn [map]. apply one_req; [discriminate|]. apply R_denied. exact G'.
  Qed.
End Proofs.
