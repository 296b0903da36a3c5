(** Concurrent requests: each request's handling is a run of the pipeline of M_Pipeline. *)
From Verif Require Import Base GoErrors GoSlices P_Slices M_Tree M_RegTree M_Ctx M_Pipeline S_Pipeline M_Auth M_Serve S_Serve P_Serve P_Serve2.
From Coq Require Import Permutation.

Section Proofs.
  Context {V : Type}.
  Variables (matches : rgx -> bytes -> bool) (uni : bytes -> bytes) (auth : option base_auth)
            (ses : option (prog V)) (lvl : Z).
  Notation treq := (treq matches uni auth ses lvl).
  Notation ystep := (ystep matches uni auth ses lvl).
  Notation ymany := (ymany matches uni auth ses lvl).
  Notation found := (found ses lvl).
  Notation ended := (ended lvl).
  Notation enter := (enter lvl).
  Notation gate := (gate uni auth).
  Notation alone := (alone matches uni auth ses lvl).
  Implicit Types (th : thread V) (y : sys V) (t : table V) (l : loc V) (tr : list (event V)) (s : iset V).

  Definition stage_who (g : stg (V:=V)) : who :=
    match g with GInit _ => WInit | GBefore i _ => WBefore i | GMain _ => WMain | GAfter i _ => WAfter i end.
  Definition stage_name (g : stg (V:=V)) : bytes :=
    match g with GInit m | GMain m => im_name m | GBefore _ h | GAfter _ h => ih_name h end.
  Definition is_stage (w : who) : bool := match w with WInit | WBefore _ | WMain | WAfter _ => true | _ => false end.
  Definition checks (w : who) : bool := match w with WInit => false | _ => true end.

  (** ** Scripted handlers: the pipeline as a recursion over the parts *)
  Definition pre (ks : list call) (x : list call * ctx * rout) : list call * ctx * rout :=
    let '(ks', c, r) := x in (ks ++ ks', c, r).
  Lemma pre_app a b x : pre a (pre b x) = pre (a ++ b) x.
  Proof. destruct x as [[ks c] r]. cbn [pre]. rewrite app_assoc. reflexivity. Qed.
  Fixpoint run_stages (f : who -> beh) (rest : list (stg (V:=V))) (c : ctx) : list call * ctx * rout :=
    match rest with
    | [] => ([], c, RRet None)
    | g :: r =>
        if match g with GMain _ => c_skip c | _ => false end then run_stages f r c
        else
          let '(k, c1) := run1 (stage_who g) (stage_name g) (fun _ => f (stage_who g)) c in
          match after_call (checks (stage_who g)) k c1 with
          | Finish o => ([k], c1, o)
          | Continue => pre [k] (run_stages f r c1)
          end
    end.
  Definition scripted (f : who -> beh) (fl : beh) s : hset :=
    HSet (map (fun ih => Handler (ih_name (snd ih)) (fun _ => f (WBefore (fst ih)))) (numbered 0 (is_before s)))
         (map (fun ih => Handler (ih_name (snd ih)) (fun _ => f (WAfter (fst ih)))) (numbered 0 (is_after s)))
         (option_map (fun h => Last (il_name h) (fun _ _ => fl)) (is_last s))
         (option_map (fun m => Main (im_name m) (fun _ => f WInit) (fun _ => f WMain)) (is_main s)).
  Lemma numbered_names {A} (g : A -> bytes) i (xs : list A) : map (fun ih => g (snd ih)) (numbered i xs) = map g xs.
  Proof. revert i. induction xs as [|x xs IH]; intros i; [reflexivity|]. cbn [numbered map snd]. rewrite IH. reflexivity. Qed.
  Lemma scripted_shape f fl s : same_shape s (scripted f fl s).
  Proof.
    unfold same_shape, scripted. cbn [hs_before hs_after hs_last hs_main]. rewrite !map_map. cbn [h_name].
    rewrite !(numbered_names ih_name). split; [reflexivity|]. split; [reflexivity|].
    split; [destruct (is_last s); reflexivity|destruct (is_main s); reflexivity].
  Qed.
  Lemma run_list_stages f (mkw : nat -> who) (mk : nat -> ihandler (V:=V) -> stg (V:=V)) rest (hs : list (ihandler (V:=V))) :
    (forall i h, stage_who (mk i h) = mkw i) -> (forall i h, stage_name (mk i h) = ih_name h) ->
    (forall i, checks (mkw i) = true) -> (forall i h m, mk i h <> GMain m) ->
    forall i c,
    run_stages f (map (fun ih => mk (fst ih) (snd ih)) (numbered i hs) ++ rest) c =
    match run_list mkw i (map (fun ih => Handler (ih_name (snd ih)) (fun _ => f (mkw (fst ih)))) (numbered i hs)) c with
    | (ks, c1, Finish r) => (ks, c1, r)
    | (ks, c1, Continue) => pre ks (run_stages f rest c1)
    end.
  Proof.
    intros Hw Hn Hc Hm. induction hs as [|h hs IH]; intros i c.
    - cbn [numbered map app run_list pre]. destruct (run_stages f rest c) as [[? ?] ?]. reflexivity.
    - cbn [numbered map app fst snd]. cbn [run_stages run_list].
      assert (match mk i h with GMain _ => c_skip c | _ => false end = false) as -> by (destruct (mk i h) eqn:E; try reflexivity; exfalso; exact (Hm i h m E)).
      rewrite Hw, Hn, Hc. cbn [h_name h_run].
      destruct (run1 (mkw i) (ih_name h) (fun _ : ctx => f (mkw i)) c) as [k c1].
      destruct (after_call true k c1) as [|r]; [|reflexivity]. rewrite IH.
      destruct (run_list mkw (S i) _ c1) as [[ks c2] [|r]]; [|reflexivity]. rewrite pre_app. reflexivity.
  Qed.
  Lemma run_set_stages f fl s st c : stages s = Some st -> run_set (scripted f fl s) c = run_stages f st c.
  Proof.
    unfold stages, run_set, scripted. cbn [hs_main hs_before hs_after]. destruct (is_main s) as [m|]; [|discriminate]. intros E. injection E as <-.
    cbn [option_map]. cbn [run_stages stage_who stage_name checks m_name m_init m_run].
    destruct (run1 WInit (im_name m) (fun _ : ctx => f WInit) c) as [k0 c0].
    destruct (after_call false k0 c0) as [|r]; [|reflexivity].
    rewrite (run_list_stages f WBefore GBefore); try reflexivity; try discriminate.
    destruct (run_list WBefore 0 _ c0) as [[kb c1] [|r]]; [|reflexivity].
    cbn [run_stages stage_who stage_name checks].
    assert (RA : forall c', run_stages f (map (fun ih => GAfter (fst ih) (snd ih)) (numbered 0 (is_after s))) c' =
      match run_list WAfter 0 (map (fun ih => Handler (ih_name (snd ih)) (fun _ => f (WAfter (fst ih)))) (numbered 0 (is_after s))) c' with
      | (ks, c1, Finish r) => (ks, c1, r) | (ks, c1, Continue) => (ks, c1, RRet None) end).
    { intros c'. rewrite <- (app_nil_r (map (fun ih => GAfter (fst ih) (snd ih)) _)). rewrite (run_list_stages f WAfter GAfter); try reflexivity; try discriminate.
      destruct (run_list WAfter 0 _ c') as [[ka c3] [|r]]; [|reflexivity]. cbn [run_stages pre]. rewrite app_nil_r. reflexivity. }
    destruct (c_skip c1).
    - rewrite RA. destruct (run_list WAfter 0 _ c1) as [[ka c3] [|r]]; reflexivity.
    - destruct (run1 WMain (im_name m) (fun _ : ctx => f WMain) c1) as [k c2]. destruct (after_call true k c2) as [|r]; [|reflexivity].
      rewrite RA. destruct (run_list WAfter 0 _ c2) as [[ka c3] [|r]]; cbn [pre app]; rewrite <- ?app_assoc; reflexivity.
  Qed.

  (** ** Agreement of a script with what happened *)
  Definition agrees (f : who -> beh) (ks : list call) : Prop := Forall (fun k => f (k_who k) = (k_acts k, k_out k)) ks.
  Definition same_who (a b : who) : bool :=
    match a, b with
    | WInit, WInit | WMain, WMain => true
    | WBefore i, WBefore j | WAfter i, WAfter j => i =? j
    | _, _ => false
    end.
  Lemma same_who_eq a b : is_stage a = true -> same_who a b = true <-> a = b.
  Proof.
    destruct a, b; cbn; intros H; try discriminate H; split; intros E; try reflexivity; try discriminate E.
    - apply Nat.eqb_eq in E. congruence.
    - injection E as ->. apply Nat.eqb_refl.
    - apply Nat.eqb_eq in E. congruence.
    - injection E as ->. apply Nat.eqb_refl.
  Qed.
  Definition lookup (ks : list call) (w : who) : beh :=
    match find (fun k => same_who w (k_who k)) ks with Some k => (k_acts k, k_out k) | None => ([], HRet None) end.
  Lemma lookup_agrees ks : Forall (fun k => is_stage (k_who k) = true) ks -> NoDup (map k_who ks) -> agrees (lookup ks) ks.
  Proof.
    intros F N. unfold agrees. apply Forall_forall. intros k Hk. unfold lookup.
    induction ks as [|k' ks IH]; [destruct Hk|]. cbn [find map] in *. inversion F; subst. inversion N; subst.
    destruct Hk as [->|Hk].
    - assert (same_who (k_who k) (k_who k) = true) as -> by (apply same_who_eq; auto). reflexivity.
    - destruct (same_who (k_who k) (k_who k')) eqn:E; [|auto]. exfalso.
      apply same_who_eq in E; [|rewrite Forall_forall in H2; auto].
      match goal with X : ~ In _ _ |- _ => apply X; rewrite <- E; apply in_map; exact Hk end.
  Qed.

  (** ** The course of one request *)
  Definition relevel (c : ctx) : ctx := Ctx (c_stopped c) (c_aborted c) (c_skip c) (c_cancelled c) lvl (c_log c) (c_tasks c).
  Inductive entry : list call -> ctx -> Prop :=
  | E_none : ses = None -> entry [] (relevel new_ctx)
  | E_ses : forall p acts, ses = Some p -> entry [Call WSesInit [] new_ctx acts (HRet None)] (relevel (apply new_ctx acts)).
  Definition scan tr := fold_left scan1 tr ([], None).
  Lemma scan_snoc tr e : scan (tr ++ [e]) = scan1 (scan tr) e.
  Proof. unfold scan. rewrite fold_left_app. reflexivity. Qed.
  Notation sc l := (scan (rev (o_trace l))).
  Lemma sc_see e l : sc (see e l) = scan1 (sc l) e.
  Proof. cbn [see o_trace rev]. apply scan_snoc. Qed.
  (** between two parts *)
  Definition between s rest l : Prop := exists ki c1 st done,
    entry ki c1 /\ stages s = Some st /\ sc l = (map shown (ki ++ done), None) /\
    NoDup (map k_who done ++ map stage_who rest) /\ Forall (fun k => is_stage (k_who k) = true) done /\
    forall f, agrees f done -> run_stages f st c1 = pre done (run_stages f rest (o_ctl l)).
  (** in part [w] *)
  Definition within s w rest l : Prop := exists ki c1 st done name cs acts,
    entry ki c1 /\ stages s = Some st /\ sc l = (map shown (ki ++ done), Some (w, name, acts)) /\ o_ctl l = apply cs acts /\
    NoDup (map k_who done ++ w :: map stage_who rest) /\ Forall (fun k => is_stage (k_who k) = true) done /\
    forall f, agrees f done -> run_stages f st c1 = pre done
      (let k := Call w name cs (fst (f w)) (snd (f w)) in let c2 := apply cs (fst (f w)) in
       match after_call (checks w) k c2 with Finish o => ([k], c2, o) | Continue => pre [k] (run_stages f rest c2) end).
  (** Run has returned [e] *)
  Definition ran s e l : Prop := exists ki c1 st done,
    entry ki c1 /\ stages s = Some st /\ sc l = (map shown (ki ++ done), None) /\
    NoDup (map k_who done) /\ Forall (fun k => is_stage (k_who k) = true) done /\
    forall f, agrees f done -> run_stages f st c1 = (done, o_ctl l, RRet e).
  (** the whole request *)
  Definition piped q s (a : answer V) : Prop := exists hs ses' sched,
    same_shape s hs /\ legal_order sched /\ (ses = None <-> ses' = None) /\
    let x := run_http (Some hs) ses' (rq_path (rq_head q)) lvl sched in
    calls (an_trace a) = map shown (x_calls x) /\ x_result x = an_result a.

  Lemma next_within s rest l w p r l' : next rest l = Some (w, p, r, l') -> between s rest l -> is_stage w = true /\ within s w r l'.
  Proof.
    revert l. induction rest as [|g rest IH]; intros l E (ki & c1 & st & done & En & St & Sc & N & F & H); [discriminate E|].
    assert (K : forall w' (p' : prog V), (if match g with GMain _ => c_skip (o_ctl l) | _ => false end then None else Some (stage_who g, p', rest, begin (stage_who g) (stage_name g) l)) = Some (w', p', r, l') -> is_stage w' = true /\ within s w' r l').
    { intros w' p' E'. destruct (match g with GMain _ => c_skip (o_ctl l) | _ => false end) eqn:G; [discriminate E'|]. injection E' as <- <- <-.
      split; [destruct g; reflexivity|]. exists ki, c1, st, done, (stage_name g), (add_debug (o_ctl l) (stage_name g)), [].
      split; [exact En|]. split; [exact St|]. split.
      { unfold begin. rewrite sc_see. cbn [set_ctl o_trace]. rewrite Sc. reflexivity. }
      split; [reflexivity|]. split; [exact N|]. split; [exact F|]. intros f A. rewrite (H f A). f_equal. cbn [run_stages]. rewrite G.
      unfold run1. destruct (f (stage_who g)) as [acts out]. reflexivity. }
    destruct g; cbn [next] in E; try (injection E as E1 E2 E3 E4; apply (K w p); cbn; congruence).
    destruct (c_skip (o_ctl l)) eqn:Sk.
    - apply (IH l E). exists ki, c1, st, done. split; [exact En|]. split; [exact St|]. split; [exact Sc|].
      split; [cbn [map stage_who] in N; eapply NoDup_remove_1; exact N|]. split; [exact F|]. intros f A. rewrite (H f A). cbn [run_stages]. rewrite Sk. reflexivity.
    - injection E as E1 E2 E3 E4. apply (K w p). cbn. congruence.
  Qed.
  Lemma next_ran s rest l : next rest l = None -> between s rest l -> ran s None l.
  Proof.
    revert l. induction rest as [|g rest IH]; intros l E (ki & c1 & st & done & En & St & Sc & N & F & H).
    - exists ki, c1, st, done. cbn [map] in N. rewrite app_nil_r in N. split; [exact En|]. split; [exact St|]. split; [exact Sc|]. split; [exact N|]. split; [exact F|].
      intros f A. rewrite (H f A). cbn [run_stages pre]. rewrite app_nil_r. reflexivity.
    - destruct g; cbn [next] in E; try discriminate E. destruct (c_skip (o_ctl l)) eqn:Sk; [|discriminate E].
      apply (IH l E). exists ki, c1, st, done. split; [exact En|]. split; [exact St|]. split; [exact Sc|].
      split; [cbn [map stage_who] in N; eapply NoDup_remove_1; exact N|]. split; [exact F|]. intros f A. rewrite (H f A). cbn [run_stages]. rewrite Sk. reflexivity.
  Qed.
  (** a call inside user code *)
  Lemma op1_scan q p l u p' l' u' : op1 q p l u = Some (p', l', u') ->
    exists acts, o_ctl l' = apply (o_ctl l) acts /\
      forall d w n a0, sc l = (d, Some (w, n, a0)) -> sc l' = (d, Some (w, n, a0 ++ acts)).
  Proof.
    intros E. destruct p; cbn [op1] in E; try discriminate E; cbv zeta in E; injection E as <- <- <-.
    - exists [a]. split; [reflexivity|]. intros d w n a0 H. rewrite sc_see. cbn [set_ctl o_trace]. rewrite H. reflexivity.
    - exists []. split; [reflexivity|]. intros d w n a0 H. rewrite app_nil_r. exact H.
    - exists []. split; [reflexivity|]. intros d w n a0 H. rewrite sc_see. cbn [o_trace]. rewrite H, app_nil_r. reflexivity.
    - exists []. split; [reflexivity|]. intros d w n a0 H. rewrite sc_see. cbn [o_trace]. rewrite H, app_nil_r. reflexivity.
    - exists []. split; [reflexivity|]. intros d w n a0 H. rewrite sc_see. cbn [o_trace]. rewrite H, app_nil_r. reflexivity.
    - exists []. split; [reflexivity|]. intros d w n a0 H. rewrite sc_see. rewrite H, app_nil_r. reflexivity.
    - exists []. split; [reflexivity|]. intros d w n a0 H. rewrite sc_see. rewrite H, app_nil_r. reflexivity.
    - exists []. split; [reflexivity|]. intros d w n a0 H. rewrite sc_see. rewrite H, app_nil_r. reflexivity.
    - exists []. split; [reflexivity|]. intros d w n a0 H. rewrite sc_see. rewrite H, app_nil_r. reflexivity.
  Qed.
  Lemma apply_app c a b : apply c (a ++ b) = apply (apply c a) b.
  Proof. unfold apply. apply fold_left_app. Qed.
  (** part [w] has ended *)
  Lemma within_end s w rest l e : within s w rest l -> is_stage w = true ->
    let l' := see (VEnd w (HRet e)) l in
    match e with
    | Some _ => ran s e l'
    | None => if checks w && stopped (o_ctl l') then ran s None l' else between s rest l'
    end.
  Proof.
    intros (ki & c1 & st & done & name & cs & acts & En & St & Sc & Ct & N & F & H) Hw. cbv zeta.
    assert (Sc' : sc (see (VEnd w (HRet e)) l) = (map shown (ki ++ done ++ [Call w name cs acts (HRet e)]), None)).
    { rewrite sc_see, Sc. cbn [scan1]. rewrite app_assoc, (map_app shown (ki ++ done)). reflexivity. }
    assert (F' : Forall (fun k => is_stage (k_who k) = true) (done ++ [Call w name cs acts (HRet e)])) by (apply Forall_app; split; [exact F|constructor; [exact Hw|constructor]]).
    assert (N' : NoDup (map k_who (done ++ [Call w name cs acts (HRet e)]) ++ map stage_who rest)).
    { rewrite map_app, <- app_assoc. exact N. }
    assert (K : forall f, agrees f (done ++ [Call w name cs acts (HRet e)]) -> agrees f done /\ f w = (acts, HRet e)).
    { intros f A. apply Forall_app in A as [A1 A2]. inversion A2; subst. auto. }
    assert (R : forall f, agrees f (done ++ [Call w name cs acts (HRet e)]) -> run_stages f st c1 = pre done
      (match after_call (checks w) (Call w name cs acts (HRet e)) (o_ctl l) with Finish o => ([Call w name cs acts (HRet e)], o_ctl l, o) | Continue => pre [Call w name cs acts (HRet e)] (run_stages f rest (o_ctl l)) end)).
    { intros f A. destruct (K f A) as [A1 A2]. rewrite (H f A1). rewrite A2. cbn [fst snd]. cbv zeta. rewrite Ct. reflexivity. }
    cbn [after_call k_out] in R. change (o_ctl (see (VEnd w (HRet e)) l)) with (o_ctl l).
    assert (Rn : forall r, (forall f, agrees f (done ++ [Call w name cs acts (HRet e)]) -> run_stages f st c1 = pre done ([Call w name cs acts (HRet e)], o_ctl l, RRet r)) -> ran s r (see (VEnd w (HRet e)) l)).
    { intros r X. exists ki, c1, st, (done ++ [Call w name cs acts (HRet e)]). split; [exact En|]. split; [exact St|]. split; [exact Sc'|].
      split; [eapply NoDup_first; exact N'|]. split; [exact F'|]. intros f A. rewrite (X f A). reflexivity. }
    destruct e as [e|].
    - apply Rn. exact R.
    - destruct (checks w && stopped (o_ctl l)).
      + apply Rn. exact R.
      + exists ki, c1, st, (done ++ [Call w name cs acts (HRet None)]). split; [exact En|]. split; [exact St|]. split; [exact Sc'|].
        split; [exact N'|]. split; [exact F'|]. intros f A. rewrite (R f A), pre_app. reflexivity.
  Qed.
  Lemma within_op q s w rest p l u p' l' u' : op1 q p l u = Some (p', l', u') -> within s w rest l -> within s w rest l'.
  Proof.
    intros E (ki & c1 & st & done & name & cs & acts & En & St & Sc & Ct & N & F & H). destruct (op1_scan _ _ _ _ _ _ _ E) as (acts' & C' & X).
    exists ki, c1, st, done, name, cs, (acts ++ acts'). split; [exact En|]. split; [exact St|]. split; [apply X; exact Sc|].
    split; [rewrite C', Ct, apply_app; reflexivity|]. auto.
  Qed.
  Lemma entry_http ki c1 path : entry ki c1 -> exists ses', (ses = None <-> ses' = None) /\
    forall hs sched, run_http (Some hs) ses' path lvl sched =
      match run_set hs c1 with
      | (ks, c2, RPanic) => Http (ki ++ ks) None RPanic c2
      | (ks, c2, RRet e) =>
          if c_aborted c2 then Http (ki ++ ks) None (RRet e) c2
          else
            let '(eg, c3) := eg_wait sched c2 in
            let kw := Call WWait [] c2 [] (HRet eg) in
            let '(kl, c4, r) := run_last hs c3 (combine_err e eg) in
            Http (ki ++ ks ++ [kw] ++ kl) None r c4
      end.
  Proof.
    intros [E|p acts E].
    - exists None. split; [tauto|]. intros hs sched. reflexivity.
    - exists (Some (fun _ => (acts, HRet None))). split; [split; [congruence|discriminate]|]. intros hs sched. reflexivity.
  Qed.
  (** choosing a completion order *)
  Lemma wait_sched tasks eg : wait_result tasks eg -> exists sched, legal_order sched /\ first_error (sched tasks) = eg.
  Proof.
    intros (fin & P & ->).
    assert (FN : forall m, first_error m = None <-> (forall x, In x m -> x = None)).
    { induction m as [|[e|] m IH]; cbn [first_error]; split; intros H; try reflexivity; try discriminate H.
      - intros x [].
      - specialize (H (Some e) (or_introl eq_refl)). discriminate H.
      - intros x [<-|Hx]; [reflexivity|]. apply IH; assumption.
      - apply IH. intros x Hx. apply H. right. exact Hx. }
    destruct (first_error fin) as [e|] eqn:E.
    - assert (In (Some e) tasks) as X.
      { apply (Permutation_in _ P). clear - E. induction fin as [|[e'|] fin IH]; cbn [first_error] in E; [discriminate|injection E as ->; left; reflexivity|right; auto]. }
      apply in_split in X as (l1 & l2 & ->).
      exists (fun m => match skipn (length l1) m with x :: m2 => x :: firstn (length l1) m ++ m2 | [] => m end). split.
      + intros m. destruct (skipn (length l1) m) as [|x m2] eqn:Es; [reflexivity|]. rewrite <- (firstn_skipn (length l1) m) at 2. rewrite Es.
        apply Permutation_middle.
      + rewrite skipn_app, Nat.sub_diag, skipn_all. reflexivity.
    - exists (fun m => m). split; [intros m; reflexivity|]. apply FN. intros x Hx. apply (proj1 (FN fin) E). apply (Permutation_in _ (Permutation_sym P)). exact Hx.
  Qed.
  Lemma ran_aborted q s e l u : ran s e l -> c_aborted (o_ctl l) = true -> piped q s (answer_of l u (RRet e)).
  Proof.
    intros (ki & c1 & st & done & En & St & Sc & N & F & H) Ab. destruct (entry_http ki c1 (rq_path (rq_head q)) En) as (ses' & Es & X).
    exists (scripted (lookup done) ([], HRet None) s), ses', (fun m => m). split; [apply scripted_shape|]. split; [intros m; reflexivity|]. split; [exact Es|].
    cbv zeta. rewrite X, (run_set_stages _ _ _ st) by exact St. rewrite (H _ (lookup_agrees done F N)), Ab. cbn [x_calls x_result answer_of an_trace an_result].
    split; [|reflexivity]. unfold calls. fold (scan (rev (o_trace l))). rewrite Sc. reflexivity.
  Qed.
  Lemma ran_no_last q s e eg l l' u : ran s e l -> c_aborted (o_ctl l) = false -> is_last s = None -> wait_result (c_tasks (o_ctl l)) eg ->
    sc l' = scan1 (sc l) (VWait (V:=V) eg) -> piped q s (answer_of l' u (RRet (combine_err e eg))).
  Proof.
    intros (ki & c1 & st & done & En & St & Sc & N & F & H) Ab Ls W Sl. destruct (entry_http ki c1 (rq_path (rq_head q)) En) as (ses' & Es & X).
    destruct (wait_sched _ _ W) as (sched & Lg & Eg).
    exists (scripted (lookup done) ([], HRet None) s), ses', sched. split; [apply scripted_shape|]. split; [exact Lg|]. split; [exact Es|].
    cbv zeta. rewrite X, (run_set_stages _ _ _ st) by exact St. rewrite (H _ (lookup_agrees done F N)), Ab. unfold eg_wait. rewrite Eg. unfold run_last.
    cbn [scripted hs_last]. rewrite Ls. cbn [option_map x_calls x_result answer_of an_trace an_result]. split; [|reflexivity].
    unfold calls. fold (scan (rev (o_trace l'))). rewrite Sl, Sc. cbn [scan1 fst]. rewrite app_nil_r, !map_app. rewrite <- app_assoc. reflexivity.
  Qed.
  Lemma ran_last q s h e eg l0 l acts o u : ran s e l0 -> c_aborted (o_ctl l0) = false -> is_last s = Some h -> wait_result (c_tasks (o_ctl l0)) eg ->
    sc l = (fst (scan1 (sc l0) (VWait (V:=V) eg)) ++ [(WLast (combine_err e eg), il_name h, acts, HRet o)], None) ->
    piped q s (answer_of l u (RRet o)).
  Proof.
    intros (ki & c1 & st & done & En & St & Sc & N & F & H) Ab Ls W Sl. destruct (entry_http ki c1 (rq_path (rq_head q)) En) as (ses' & Es & X).
    destruct (wait_sched _ _ W) as (sched & Lg & Eg).
    exists (scripted (lookup done) (acts, HRet o) s), ses', sched. split; [apply scripted_shape|]. split; [exact Lg|]. split; [exact Es|].
    cbv zeta. rewrite X, (run_set_stages _ _ _ st) by exact St. rewrite (H _ (lookup_agrees done F N)), Ab. unfold eg_wait. rewrite Eg. unfold run_last.
    cbn [scripted hs_last]. rewrite Ls. cbn [option_map l_run l_name x_calls x_result answer_of an_trace an_result]. split; [|reflexivity].
    unfold calls. fold (scan (rev (o_trace l))). rewrite Sl, Sc. cbn [scan1 fst]. rewrite !map_app, <- !app_assoc. reflexivity.
  Qed.

  (** ** All states of a request *)
  Definition pinv (q : req) th : Prop :=
    match th with
    | TRunning _ s WSesInit _ _ l => ses <> None /\ exists acts, sc l = ([], Some (WSesInit, [], acts)) /\ o_ctl l = apply new_ctx acts
    | TRunning _ s (WLast _ as w) _ _ l => exists h e eg l0 acts,
        ran s e l0 /\ c_aborted (o_ctl l0) = false /\ is_last s = Some h /\ wait_result (c_tasks (o_ctl l0)) eg /\ w = WLast (combine_err e eg) /\
        sc l = (fst (scan1 (sc l0) (VWait (V:=V) eg)), Some (w, il_name h, acts))
    | TRunning _ s w _ rest l => is_stage w = true /\ within s w rest l
    | TWaiting _ s e l => ran s e l /\ c_aborted (o_ctl l) = false
    | _ => True
    end.
  (** the set a handling is about *)
  Definition pdone q s th : Prop := pinv q th /\ match th with TDone (Some _) a => piped q s a | _ => True end.
  Lemma p_finish q s id e l u : ran s e l -> pdone q s (finish id s e l u).
  Proof.
    intros R. unfold finish. destruct (c_aborted (o_ctl l)) eqn:Ab; split; cbn [pinv]; auto. apply ran_aborted; assumption.
  Qed.
  Lemma stage_pinv q s id w p rest l : is_stage w = true -> within s w rest l -> pdone q s (TRunning id s w p rest l).
  Proof. intros H W. split; [|exact I]. cbn [pinv]. destruct w; try discriminate H; auto. Qed.
  Lemma p_proceed q s id rest l u : between s rest l -> pdone q s (proceed id s rest l u).
  Proof.
    intros Hb. unfold proceed. destruct (next rest l) as [[[[w p] r] l']|] eqn:E.
    - destruct (next_within _ _ _ _ _ _ _ E Hb). apply stage_pinv; assumption.
    - apply p_finish. apply (next_ran _ rest); assumption.
  Qed.
  Lemma numbered_fst {A} i (xs : list A) : map fst (numbered i xs) = seq i (length xs).
  Proof. revert i. induction xs as [|x xs IH]; intros i; [reflexivity|]. cbn [numbered map fst length seq]. rewrite IH. reflexivity. Qed.
  Lemma stages_nodup s st : stages s = Some st -> NoDup (map stage_who st).
  Proof.
    unfold stages. destruct (is_main s) as [m|]; [|discriminate]. intros E. injection E as <-. cbn [map stage_who]. rewrite map_app. cbn [map stage_who].
    rewrite !map_map. cbn [stage_who].
    rewrite <- (map_map fst WBefore), <- (map_map fst WAfter), !numbered_fst.
    assert (N : forall (g : nat -> who) (xs : list nat), (forall a b, g a = g b -> a = b) -> NoDup xs -> NoDup (map g xs)).
    { intros g xs Hg. induction 1 as [|x xs Hx Hn IH]; [constructor|]. cbn [map]. constructor; [|exact IH]. intros X. apply in_map_iff in X as (z & Ez & Hz). apply Hg in Ez. subst z. contradiction. }
    constructor.
    - intros X. apply in_app_or in X as [X|[X|X]]; [apply in_map_iff in X as (? & X & _)|..|apply in_map_iff in X as (? & X & _)]; discriminate X.
    - apply Permutation_NoDup with (WMain :: map WBefore (seq 0 (length (is_before s))) ++ map WAfter (seq 0 (length (is_after s)))); [apply Permutation_middle|].
      constructor.
      + intros X. apply in_app_or in X as [X|X]; apply in_map_iff in X as (? & X & _); discriminate X.
      + assert (D : forall a b : list who, NoDup a -> NoDup b -> (forall x, In x a -> ~ In x b) -> NoDup (a ++ b)).
        { induction a as [|x a IH]; intros b Na Nb Hd; [exact Nb|]. inversion Na; subst. cbn [app]. constructor.
          - intros X. apply in_app_or in X as [X|X]; [contradiction|]. apply (Hd x (or_introl eq_refl) X).
          - apply IH; auto. intros z Hz. apply Hd. right. exact Hz. }
        apply D; [apply N; [intros a b X; injection X as ->; reflexivity|apply seq_NoDup]|apply N; [intros a b X; injection X as ->; reflexivity|apply seq_NoDup]|].
        intros x X Y. apply in_map_iff in X as (? & <- & _). apply in_map_iff in Y as (? & Y & _). discriminate Y.
  Qed.
  Lemma p_enter q s id l u ki c0 : sc l = (map shown ki, None) -> o_ctl l = c0 -> entry ki (relevel c0) -> pdone q s (enter id s l u).
  Proof.
    intros Sc Ct En. unfold M_Serve.enter. cbv zeta. destruct (stages s) as [st|] eqn:St; [|split; exact I].
    apply p_proceed. exists ki, (relevel c0), st, []. split; [exact En|]. split; [exact St|]. split; [rewrite app_nil_r; exact Sc|].
    split; [apply (stages_nodup s); exact St|]. split; [constructor|]. intros f _. cbn [set_ctl o_ctl]. rewrite Ct. fold (relevel c0).
    destruct (run_stages f st (relevel c0)) as [[? ?] ?]. reflexivity.
  Qed.
  Lemma p_found q s id u : pdone q s (found id s u).
  Proof.
    unfold M_Serve.found. destruct ses as [p|] eqn:E.
    - split; [|exact I]. cbn [pinv]. split; [congruence|]. exists []. split; reflexivity.
    - apply (p_enter q s id (new_loc (V:=V)) u [] new_ctx); [reflexivity|reflexivity|]. apply E_none. exact E.
  Qed.
  Lemma p_ended q s id w o rest l u : pinv q (TRunning id s w (Done o) rest l) -> pdone q s (ended q id s w o rest l u).
  Proof.
    intros P. unfold M_Serve.ended. destruct o as [e|]; [|split; exact I]. cbv zeta.
    destruct (is_stage w) eqn:Hw.
    - assert (W : within s w rest l) by (cbn [pinv] in P; destruct w; try discriminate Hw; tauto).
      pose proof (within_end s w rest l e W Hw) as X. cbv zeta in X.
      destruct w; try discriminate Hw; destruct e; try (apply p_finish; exact X); cbn [checks andb] in X; try (apply p_proceed; exact X);
        destruct (stopped _); [apply p_finish|apply p_proceed|apply p_finish|apply p_proceed|apply p_finish|apply p_proceed]; exact X.
    - destruct w; try discriminate Hw.
      + cbn [pinv] in P. destruct P as (Ns & acts & Sc & Ct).
        assert (Sc' : forall o, sc (see (VEnd WSesInit o) l) = ([(WSesInit, [], acts, o)], None)) by (intros o; rewrite sc_see, Sc; reflexivity).
        assert (exists p, ses = Some p) as (p & Es) by (destruct ses as [p|]; [eauto|congruence]). destruct e as [e|].
        * split; [exact I|]. exists (scripted (fun _ => ([], HRet None)) ([], HRet None) s), (Some (fun _ => (acts, HRet (Some e)))), (fun m => m).
          split; [apply scripted_shape|]. split; [intros m; reflexivity|]. split; [split; [congruence|discriminate]|]. cbv zeta.
          cbn [run_http x_calls x_result answer_of an_trace an_result]. split; [|reflexivity].
          unfold calls. fold (scan (rev (o_trace (see (VEnd WSesInit (HRet (Some e))) l)))). rewrite Sc'. reflexivity.
        * apply (p_enter q s id _ u [Call WSesInit [] new_ctx acts (HRet None)] (apply new_ctx acts)); [rewrite Sc'; reflexivity|exact Ct|]. apply (E_ses p). exact Es.
      + cbn [pinv is_stage] in P. destruct P as [P _]. discriminate P.
      + cbn [pinv] in P. destruct P as (h & e1 & eg & l0 & acts & R & Ab & Ls & W & Ew & Sc). split; [exact I|].
        apply (ran_last q s h e1 eg l0 _ acts e u R Ab Ls W). rewrite sc_see, Sc. cbn [scan1]. rewrite Ew. reflexivity.
  Qed.
  Lemma p_waited q s id e eg l u : ran s e l -> c_aborted (o_ctl l) = false -> wait_result (c_tasks (o_ctl l)) eg ->
    pdone q s (waited id s e eg l u).
  Proof.
    intros R Ab W. unfold waited. cbv zeta. destruct (is_last s) as [h|] eqn:Ls.
    - split; [|exact I]. cbn [pinv]. exists h, e, eg, l, []. split; [exact R|]. split; [exact Ab|]. split; [exact Ls|]. split; [exact W|]. split; [reflexivity|].
      rewrite !sc_see. cbn [set_ctl o_trace]. destruct (sc l) as [d c]. reflexivity.
    - split; [exact I|]. apply (ran_no_last q s e eg l); try assumption. rewrite sc_see. reflexivity.
  Qed.
  Lemma p_op q s id w p rest l u p' l' u' : op1 q p l u = Some (p', l', u') -> pinv q (TRunning id s w p rest l) -> pinv q (TRunning id s w p' rest l').
  Proof.
    intros E P. destruct (op1_scan _ _ _ _ _ _ _ E) as (acts' & C' & X). cbn [pinv] in *.
    destruct w; try (destruct P as [P1 P2]; split; [exact P1|]; eapply within_op; eassumption).
    - destruct P as (Ns & acts & Sc & Ct). split; [exact Ns|]. exists (acts ++ acts'). split; [apply X; exact Sc|]. rewrite C', Ct, apply_app. reflexivity.
    - destruct P as (h & e1 & eg & l0 & acts & R & Ab & Ls & W & Ew & Sc). exists h, e1, eg, l0, (acts ++ acts').
      split; [exact R|]. split; [exact Ab|]. split; [exact Ls|]. split; [exact W|]. split; [exact Ew|]. apply X. exact Sc.
  Qed.

  (** ** One request alone *)
  Definition pt t q th : Prop :=
    pinv q th /\ match th with TDone (Some _) a => an_trace a = [] \/ exists s u0, routes_to matches t q (TFound s) u0 /\ piped q s a | _ => True end.
  Lemma pt_result t q s u0 th : routes_to matches t q (TFound s) u0 -> pdone q s th -> pt t q th.
  Proof. intros Rt [P D]. split; [exact P|]. destruct th as [| | | |[k|] a|]; try exact I. right. eauto. Qed.
  Lemma pt_req t q th h pl th' h' pl' : treq t q th h pl th' h' pl' -> okt matches uni auth t q th h -> pt t q th -> pt t q th'.
  Proof.
    intros H K [P _]. destruct H.
    - split; exact I.
    - split; exact I.
    - split; exact I.
    - split; exact I.
    - assert (Rt : routes_to matches t q r u) by (exists order; auto). subst th'. destruct r as [s| | |].
      + apply (pt_result t q s u); [exact Rt|apply p_found].
      + split; [exact I|]. left. reflexivity.
      + split; exact I.
      + split; exact I.
    - split; [|exact I]. eapply p_op; eassumption.
    - cbn [okt] in K. destruct K as (_ & _ & u0 & Rt & _). subst th'. apply (pt_result t q s u0 _ Rt). apply p_ended. exact P.
    - cbn [okt] in K. destruct K as (_ & _ & u0 & Rt & _). subst th'. apply (pt_result t q s u0 _ Rt). destruct P as [R Ab]. apply p_waited; assumption.
  Qed.
  Lemma pt_many t q x y : ymany x y -> x = start t [q] -> length (y_tables y) = 1 ->
    exists h pl th, y = Sys [t] h pl [(q, th)] /\ okt matches uni auth t q th h /\ Forall (fun id => id < length h) pl /\ pt t q th.
  Proof.
    induction 1 as [y|x y z M IH St]; intros E L.
    - subst y. exists [], [], TArrived. split; [reflexivity|]. split; [exact I|]. split; [constructor|]. split; exact I.
    - assert (Ly : length (y_tables y) <= length (y_tables z)) by (destruct St; cbn [y_tables length]; lia).
      assert (Lx : length (y_tables x) <= length (y_tables y)).
      { destruct (tables_grow matches uni auth ses lvl _ _ M) as [new ->]. rewrite app_length. lia. }
      rewrite E in Lx. cbn in Lx. destruct (IH E ltac:(lia)) as (h & pl & th & -> & K & F & P).
      inversion St as [ts t1 tss h1 pl1 l1 q1 th1 l2 th' h' pl' Et Al H E1 E2|ts h1 pl1 l1 t1 Al E1 E2|ts h1 p1 id p2 l1 Al E1 E2]; subst.
      + injection Et as -> <-. destruct l1 as [|x1 l1]; [|destruct l1; discriminate].
        cbn [app] in *. match goal with X : (_, _) :: _ = [(_, _)] |- _ => injection X as -> -> -> end.
        destruct (solo_req matches uni auth ses lvl _ _ _ _ _ _ _ _ H K F) as [K' F']. exists h', pl', th'.
        split; [reflexivity|]. split; [exact K'|]. split; [exact F'|]. eapply pt_req; eassumption.
      + cbn in L. discriminate L.
      + exists h, (p1 ++ p2), th. split; [reflexivity|]. split; [exact K|]. split; [|exact P]. apply Forall_app in F as [F1 F2]. inversion F2; subst. apply Forall_app. auto.
  Qed.
  Theorem alone_piped t q a : alone t q a -> an_trace a <> [] -> exists s u0, routes_to matches t q (TFound s) u0 /\ piped q s a.
  Proof.
    intros (y & R & T & kept & E) N. destruct (pt_many t q _ _ R eq_refl) as (h & pl & th & -> & K & _ & P); [rewrite T; reflexivity|].
    cbn [y_threads nth_error] in E. injection E as ->. destruct kept as [k|].
    - destruct P as [_ [P|P]]; [contradiction|exact P].
    - cbn [okt] in K. destruct K as [-> _]. destruct N. reflexivity.
  Qed.

  (** ** Every request comes to an end *)
  Notation comes := (comes_to_an_end matches uni auth ses lvl).
  Lemma comes_running q id s w rest :
    (forall o l u, comes q (ended q id s w o rest l u)) -> forall p l, comes q (TRunning id s w p rest l).
  Proof.
    intros E. induction p as [o|a k IH|k IH|b k IH|n k IH|x v k IH|x k IH|x k IH|x k IH|x v k IH]; intros l; apply C_step.
    - intros t h pl. destruct (leave (ended q id s w o rest l (nth id h [])) h pl) as [h' pl'] eqn:L. do 3 eexists. eapply R_end; [reflexivity|exact L].
    - intros t h pl th' h' pl' H. inversion H; subst; [discriminate|apply E].
    - intros t h pl. do 3 eexists. apply R_op. reflexivity.
    - intros t h pl th' h' pl' H. inversion H; subst. match goal with X : op1 _ _ _ _ = _ |- _ => cbn in X; injection X as <- <- <- end. apply IH.
    - intros t h pl. do 3 eexists. apply R_op. reflexivity.
    - intros t h pl th' h' pl' H. inversion H; subst. match goal with X : op1 _ _ _ _ = _ |- _ => cbn in X; injection X as <- <- <- end. apply IH.
    - intros t h pl. do 3 eexists. apply R_op. reflexivity.
    - intros t h pl th' h' pl' H. inversion H; subst. match goal with X : op1 _ _ _ _ = _ |- _ => cbn in X; injection X as <- <- <- end. apply IH.
    - intros t h pl. do 3 eexists. apply R_op. reflexivity.
    - intros t h pl th' h' pl' H. inversion H; subst. match goal with X : op1 _ _ _ _ = _ |- _ => cbn in X; injection X as <- <- <- end. apply IH.
    - intros t h pl. do 3 eexists. apply R_op. reflexivity.
    - intros t h pl th' h' pl' H. inversion H; subst. match goal with X : op1 _ _ _ _ = _ |- _ => cbn in X; injection X as <- <- <- end. apply IH.
    - intros t h pl. do 3 eexists. apply R_op. reflexivity.
    - intros t h pl th' h' pl' H. inversion H; subst. match goal with X : op1 _ _ _ _ = _ |- _ => cbn in X; injection X as <- <- <- end. apply IH.
    - intros t h pl. do 3 eexists. apply R_op. reflexivity.
    - intros t h pl th' h' pl' H. inversion H; subst. match goal with X : op1 _ _ _ _ = _ |- _ => cbn in X; injection X as <- <- <- end. apply IH.
    - intros t h pl. do 3 eexists. apply R_op. reflexivity.
    - intros t h pl th' h' pl' H. inversion H; subst. match goal with X : op1 _ _ _ _ = _ |- _ => cbn in X; injection X as <- <- <- end. apply IH.
    - intros t h pl. do 3 eexists. apply R_op. reflexivity.
    - intros t h pl th' h' pl' H. inversion H; subst. match goal with X : op1 _ _ _ _ = _ |- _ => cbn in X; injection X as <- <- <- end. apply IH.
  Qed.
  Lemma comes_last q id s e rest p l : comes q (TRunning id s (WLast e) p rest l).
  Proof. apply comes_running. intros [o|] l' u; cbn; [destruct o; apply C_done|apply C_panic]. Qed.
  Lemma comes_waiting q id s e l : comes q (TWaiting id s e l).
  Proof.
    apply C_step.
    - intros t h pl. destruct (leave (waited id s e (first_error (c_tasks (o_ctl l))) l (nth id h [])) h pl) as [h' pl'] eqn:L.
      do 3 eexists. eapply R_wait; [|reflexivity|exact L]. exists (c_tasks (o_ctl l)). split; reflexivity.
    - intros t h pl th' h' pl' H. inversion H; subst. unfold waited. cbv zeta. destruct (is_last s); [apply comes_last|apply C_done].
  Qed.
  Lemma comes_finish q id s e l u : comes q (finish id s e l u).
  Proof. unfold finish. destruct (c_aborted _); [apply C_done|apply comes_waiting]. Qed.
  Lemma next_shorter rest l w p r l' : next rest l = Some (w, p, r, l') -> length r < length rest /\ is_stage w = true.
  Proof.
    revert l. induction rest as [|g rest IH]; intros l E; [discriminate E|]. destruct g; cbn [next] in E; try (injection E as <- <- <- <-; cbn; auto).
    destruct (c_skip _); [destruct (IH _ E); cbn [length]; auto|]. injection E as <- <- <- <-. cbn. auto.
  Qed.
  Lemma comes_proceed q id s n : forall rest l u, length rest <= n -> comes q (proceed id s rest l u).
  Proof.
    induction n as [|n IH]; intros rest l u L; unfold proceed; destruct (next rest l) as [[[[w p] r] l']|] eqn:E; try apply comes_finish;
      destruct (next_shorter _ _ _ _ _ _ E) as [Ls Hw]; [lia|].
    apply comes_running. intros o l0 u0. unfold M_Serve.ended. destruct o as [e|]; [|apply C_panic]. cbv zeta.
    destruct w; try discriminate Hw; destruct e; try apply comes_finish; try (apply IH; lia); destruct (stopped _); try apply comes_finish; apply IH; lia.
  Qed.
  Lemma comes_stage q id s w rest p l : is_stage w = true -> comes q (TRunning id s w p rest l).
  Proof.
    intros Hw. apply comes_running. intros o l0 u0. unfold M_Serve.ended. destruct o as [e|]; [|apply C_panic]. cbv zeta.
    destruct w; try discriminate Hw; destruct e; try apply comes_finish; try (apply (comes_proceed q id s (length rest)); lia);
      destruct (stopped _); try apply comes_finish; apply (comes_proceed q id s (length rest)); lia.
  Qed.
  Lemma comes_enter q id s l u : comes q (enter id s l u).
  Proof. unfold M_Serve.enter. cbv zeta. destruct (stages s) as [st|]; [|apply C_panic]. apply (comes_proceed q id s (length st)). lia. Qed.
  Lemma comes_found q id s u (o : option (prog V)) : comes q (M_Serve.found o lvl id s u).
  Proof.
    unfold M_Serve.found. destruct o; [|apply comes_enter]. apply comes_running. intros [e|] l' u'; cbn; [|apply C_panic].
    destruct e; [apply C_done|apply comes_enter].
  Qed.
  Theorem all_come q th : comes q th.
  Proof.
    destruct th as [|id|id s w p rest l|id s e l|k a|].
    - assert (Rt : forall id, comes q (TRouting id)).
      { intros id. apply C_step.
        - intros t h pl. destruct (server_find matches (fun m => m) (tb_tree t) (tb_reg t) (rq_method (rq_head q)) (rq_path (rq_head q)) (nth id h [])) as [r u] eqn:F.
          destruct (leave (match r with TFound s => found id s u | TNotFound => TDone (Some id) (not_found q) | _ => TPanic end) (put id u h) pl) as [h' pl'] eqn:L.
          do 3 eexists. eapply R_find; [|exact F|reflexivity|exact L]. reflexivity.
        - intros t h pl th' h' pl' H. inversion H; subst. destruct r; try apply C_panic; try apply C_done.
          apply comes_found. }
      apply C_step.
      + intros t h pl. destruct (gate q) as [[|]|] eqn:G; do 3 eexists; [apply R_fresh; exact G|apply R_denied; exact G|apply R_panic; exact G].
      + intros t h pl th' h' pl' H. inversion H; subst; [apply C_panic|apply C_done|apply Rt|apply Rt].
    - apply C_step.
      + intros t h pl. destruct (server_find matches (fun m => m) (tb_tree t) (tb_reg t) (rq_method (rq_head q)) (rq_path (rq_head q)) (nth id h [])) as [r u] eqn:F.
        destruct (leave (match r with TFound s => found id s u | TNotFound => TDone (Some id) (not_found q) | _ => TPanic end) (put id u h) pl) as [h' pl'] eqn:L.
        do 3 eexists. eapply R_find; [|exact F|reflexivity|exact L]. reflexivity.
      + intros t h pl th' h' pl' H. inversion H; subst. destruct r; try apply C_panic; try apply C_done.
        apply comes_found.
    - destruct (is_stage w) eqn:Hw; [apply comes_stage; exact Hw|]. destruct w; try discriminate Hw.
      + apply comes_running. intros [e|] l' u'; cbn; [|apply C_panic]. destruct e; [apply C_done|apply comes_enter].
      + apply comes_running. intros [e|] l' u'; cbn; [|apply C_panic]. destruct e; [apply comes_finish|]. destruct (stopped _); [apply comes_finish|apply (comes_proceed q id s (length rest)); lia].
      + apply comes_last.
    - apply comes_waiting.
    - apply C_done.
    - apply C_panic.
  Qed.
End Proofs.
