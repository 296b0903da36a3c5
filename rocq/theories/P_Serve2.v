(** Concurrent requests: what a request that is alone observes. *)
From Verif Require Import Base GoErrors GoSlices P_Slices M_Tree M_RegTree M_Ctx M_Pipeline M_Auth M_Serve S_Serve P_Serve.
From Coq Require Import Permutation.

Section Proofs.
  Context {V : Type}.
  Variables (matches : rgx -> bytes -> bool) (uni : bytes -> bytes) (auth : option base_auth)
            (ses : option (prog V)) (lvl : Z).
  Notation treq := (treq matches uni auth ses lvl).
  Notation ystep := (ystep matches uni auth ses lvl).
  Notation ymany := (ymany matches uni auth ses lvl).
  Notation found := (found ses lvl).
  Notation ended := (ended lvl).
  Notation enter := (enter lvl).
  Notation gate := (gate uni auth).
  Notation served := (served matches uni auth ses lvl).
  Notation alone := (alone matches uni auth ses lvl).
  Notation routes_to := (routes_to matches).
  Implicit Types (th : thread V) (y : sys V) (t : table V) (l : loc V) (tr : list (event V)).

  (** ** What each event must be, given those before it *)
  Definition ok_event (q : req) (u0 : fargs) tr (e : event V) : Prop :=
    match e with
    | VGet k r => r = last_set tr k
    | VParam k r => r = peek_param (Sources (u0 ++ added tr) (rq_query q) (rq_post q)) k
    | VParams k r => r = peek_multi_param (Sources (u0 ++ added tr) (rq_query q) (rq_post q)) k
    | _ => True
    end.
  Definition ok_trace q u0 tr : Prop := forall pre e post, tr = pre ++ e :: post -> ok_event q u0 pre e.
  Lemma ok_trace_snoc q u0 tr e : ok_trace q u0 tr -> ok_event q u0 tr e -> ok_trace q u0 (tr ++ [e]).
  Proof.
    intros H He pre e' post E. destruct (@exists_last _ (e' :: post)) as (m & x & Em); [discriminate|].
    rewrite Em, app_assoc in E. apply app_inj_tail in E as [E1 <-].
    destruct m as [|e'' m]; cbn [app] in Em; injection Em as -> Em.
    - rewrite app_nil_r in E1. subst pre. exact He.
    - apply (H pre e'' m). exact E1.
  Qed.
  Definition okl q u0 l (u : fargs) : Prop :=
    let tr := rev (o_trace l) in
    o_body l = written tr /\ o_status l = last_status tr /\ (forall k, aget k (o_data l) = last_set tr k) /\
    u = u0 ++ added tr /\ ok_trace q u0 tr.
  Lemma written_snoc tr e : written (tr ++ [e]) = written tr ++ match e with VWrite b => b | _ => [] end.
  Proof. unfold written. rewrite flat_map_app. cbn [flat_map]. rewrite app_nil_r. reflexivity. Qed.
  Lemma last_status_snoc tr e : last_status (tr ++ [e]) = match e with VStatus m => m | _ => last_status tr end.
  Proof. unfold last_status. rewrite fold_left_app. reflexivity. Qed.
  Lemma last_set_snoc tr e k : last_set (tr ++ [e]) k = match e with VSet k' v => if beq k' k then Some v else last_set tr k | _ => last_set tr k end.
  Proof. unfold last_set. rewrite fold_left_app. reflexivity. Qed.
  Lemma added_snoc tr e : added (tr ++ [e]) = added tr ++ match e with VUrlAdd k v => [(k, v)] | _ => [] end.
  Proof. unfold added. rewrite flat_map_app. cbn [flat_map]. rewrite app_nil_r. reflexivity. Qed.
  (** events that only mark the course of the handling *)
  Definition mark (e : event V) : bool :=
    match e with VStart _ _ | VEnd _ _ | VAct _ | VWait _ => true | _ => false end.
  Lemma okl_see q u0 l u e : mark e = true -> okl q u0 l u -> okl q u0 (see e l) u.
  Proof.
    intros M (H1 & H2 & H3 & H4 & H5). unfold okl. cbn [see o_body o_status o_data o_trace rev].
    rewrite written_snoc, last_status_snoc, added_snoc.
    split; [destruct e; try discriminate M; rewrite app_nil_r; exact H1|].
    split; [destruct e; try discriminate M; exact H2|].
    split; [intros k; rewrite last_set_snoc; destruct e; try discriminate M; apply H3|].
    split; [destruct e; try discriminate M; rewrite app_nil_r; exact H4|].
    apply ok_trace_snoc; [exact H5|]. destruct e; try discriminate M; exact I.
  Qed.
  Lemma okl_ctl q u0 l u c : okl q u0 l u -> okl q u0 (set_ctl c l) u.
  Proof. intros H. exact H. Qed.
  Lemma okl_new q u : okl q u (new_loc (V:=V)) u.
  Proof.
    unfold okl, new_loc. cbn. split; [reflexivity|]. split; [reflexivity|]. split; [reflexivity|]. split; [rewrite app_nil_r; reflexivity|].
    intros [|? ?] ? ? ?; discriminate.
  Qed.
  Lemma op1_okl q u0 p l u p' l' u' : op1 q p l u = Some (p', l', u') -> okl q u0 l u -> okl q u0 l' u'.
  Proof.
    intros E H. destruct p; cbn [op1] in E; try discriminate E; cbv zeta in E; injection E as <- <- <-.
    - apply okl_see; [reflexivity|]. exact H.
    - exact H.
    - destruct H as (H1 & H2 & H3 & H4 & H5). unfold okl. cbn [see o_body o_status o_data o_trace rev].
      rewrite written_snoc, last_status_snoc, added_snoc, H1. split; [reflexivity|]. split; [exact H2|].
      split; [intros x; rewrite last_set_snoc; apply H3|]. split; [rewrite app_nil_r; exact H4|]. apply ok_trace_snoc; [exact H5|exact I].
    - destruct H as (H1 & H2 & H3 & H4 & H5). unfold okl. cbn [see o_body o_status o_data o_trace rev].
      rewrite written_snoc, last_status_snoc, added_snoc, app_nil_r. split; [exact H1|]. split; [reflexivity|].
      split; [intros x; rewrite last_set_snoc; apply H3|]. split; [rewrite app_nil_r; exact H4|]. apply ok_trace_snoc; [exact H5|exact I].
    - destruct H as (H1 & H2 & H3 & H4 & H5). unfold okl. cbn [see o_body o_status o_data o_trace rev].
      rewrite written_snoc, last_status_snoc, added_snoc, app_nil_r. split; [exact H1|]. split; [exact H2|].
      split; [intros x; rewrite last_set_snoc, aget_aput, beq_sym; destruct (beq key x); [reflexivity|apply H3]|].
      split; [rewrite app_nil_r; exact H4|]. apply ok_trace_snoc; [exact H5|exact I].
    - destruct H as (H1 & H2 & H3 & H4 & H5). unfold okl. cbn [see o_body o_status o_data o_trace rev].
      rewrite written_snoc, last_status_snoc, added_snoc, app_nil_r. split; [exact H1|]. split; [exact H2|].
      split; [intros x; rewrite last_set_snoc; apply H3|]. split; [rewrite app_nil_r; exact H4|].
      apply ok_trace_snoc; [exact H5|]. cbn [ok_event]. apply H3.
    - destruct H as (H1 & H2 & H3 & H4 & H5). unfold okl. cbn [see o_body o_status o_data o_trace rev].
      rewrite written_snoc, last_status_snoc, added_snoc, app_nil_r. split; [exact H1|]. split; [exact H2|].
      split; [intros x; rewrite last_set_snoc; apply H3|]. split; [rewrite app_nil_r; exact H4|].
      apply ok_trace_snoc; [exact H5|]. cbn [ok_event]. rewrite H4. reflexivity.
    - destruct H as (H1 & H2 & H3 & H4 & H5). unfold okl. cbn [see o_body o_status o_data o_trace rev].
      rewrite written_snoc, last_status_snoc, added_snoc, app_nil_r. split; [exact H1|]. split; [exact H2|].
      split; [intros x; rewrite last_set_snoc; apply H3|]. split; [rewrite app_nil_r; exact H4|].
      apply ok_trace_snoc; [exact H5|]. cbn [ok_event]. rewrite H4. reflexivity.
    - destruct H as (H1 & H2 & H3 & H4 & H5). unfold okl. cbn [see o_body o_status o_data o_trace rev].
      rewrite written_snoc, last_status_snoc, added_snoc, app_nil_r. split; [exact H1|]. split; [exact H2|].
      split; [intros x; rewrite last_set_snoc; apply H3|]. split; [rewrite H4, app_assoc; reflexivity|]. apply ok_trace_snoc; [exact H5|exact I].
  Qed.

  (** ** The parts of a handling *)
  Definition oka q (u0 : fargs) (a : answer V) : Prop :=
    an_trace a <> [] /\ an_body a = written (an_trace a) /\ an_status a = last_status (an_trace a) /\
    an_url a = u0 ++ added (an_trace a) /\ ok_trace q u0 (an_trace a).
  Definition okn q u0 l u : Prop := okl q u0 l u /\ o_trace l <> [].
  Definition okx q (s : iset V) (u0 : fargs) th (u : fargs) : Prop :=
    match th with
    | TRunning _ s' _ _ _ l | TWaiting _ s' _ l => s' = s /\ okn q u0 l u
    | TDone (Some _) a => oka q u0 a
    | TPanic => True
    | _ => False
    end.
  Lemma oka_of q u0 l u r : okn q u0 l u -> oka q u0 (answer_of l u r).
  Proof.
    intros ((H1 & H2 & H3 & H4 & H5) & N). unfold oka, answer_of. cbn [an_trace an_body an_status an_url].
    split; [|auto]. intros E. apply N. rewrite <- (rev_involutive (o_trace l)), E. reflexivity.
  Qed.
  Lemma okn_see q u0 l u e : mark e = true -> okl q u0 l u -> okn q u0 (see e l) u.
  Proof. intros M H. split; [apply okl_see; assumption|discriminate]. Qed.
  Lemma okx_finish q s u0 id e l u : okn q u0 l u -> okx q s u0 (finish id s e l u) u.
  Proof. intros H. unfold finish. destruct (c_aborted _); cbn [okx]; [apply oka_of; exact H|auto]. Qed.
  Lemma next_okn q u0 rest l u w p r l' : next rest l = Some (w, p, r, l') -> okl q u0 l u -> okn q u0 l' u.
  Proof.
    revert l. induction rest as [|g rest IH]; intros l E H; [discriminate E|].
    destruct g; cbn [next] in E; try (injection E as <- <- <- <-; apply okn_see; [reflexivity|exact H]).
    destruct (c_skip _); [exact (IH _ E H)|]. injection E as <- <- <- <-. apply okn_see; [reflexivity|exact H].
  Qed.
  Lemma okx_proceed q s u0 id rest l u : okn q u0 l u -> okx q s u0 (proceed id s rest l u) u.
  Proof.
    intros H. unfold proceed. destruct (next rest l) as [[[[w p] r] l']|] eqn:E; [|apply okx_finish; exact H].
    cbn [okx]. split; [reflexivity|]. eapply next_okn; [exact E|apply H].
  Qed.
  Lemma okx_enter q s u0 id l u : okl q u0 l u -> okx q s u0 (enter id s l u) u.
  Proof.
    intros H. unfold M_Serve.enter. cbv zeta. unfold stages. destruct (is_main s) as [m|]; [|exact I].
    unfold proceed. cbn [next okx]. split; [reflexivity|]. apply okn_see; [reflexivity|exact H].
  Qed.
  Lemma okx_found q s id u : okx q s u (found id s u) u.
  Proof.
    unfold M_Serve.found. destruct ses as [p|]; [|apply okx_enter, okl_new]. cbn [okx]. split; [reflexivity|]. apply okn_see; [reflexivity|apply okl_new].
  Qed.
  Lemma okx_ended q s u0 id w o rest l u : okl q u0 l u -> okx q s u0 (ended q id s w o rest l u) u.
  Proof.
    intros H. unfold M_Serve.ended. destruct o as [e|]; [|exact I]. cbv zeta.
    assert (N : okn q u0 (see (VEnd w (HRet e)) l) u) by (apply okn_see; [reflexivity|exact H]).
    destruct w, e; cbn [okx]; try (apply oka_of; exact N); try (apply okx_finish; exact N); try (apply okx_proceed; exact N);
      try (destruct (stopped _); [apply okx_finish; exact N|apply okx_proceed; exact N]).
    apply okx_enter. apply N.
  Qed.
  Lemma okx_waited q s u0 id e eg l u : okl q u0 l u -> okx q s u0 (waited id s e eg l u) u.
  Proof.
    intros H. unfold waited. cbv zeta. destruct (is_last s); cbn [okx].
    - split; [reflexivity|]. apply okn_see; [reflexivity|]. apply okl_see; [reflexivity|]. exact H.
    - apply oka_of. apply okn_see; [reflexivity|]. exact H.
  Qed.

  (** ** One request alone *)
  Definition okt t q th (h : list fargs) : Prop :=
    match th with
    | TArrived | TPanic => True
    | TRouting id => id < length h /\ gate q = Ok true
    | TRunning id s _ _ _ _ | TWaiting id s _ _ =>
        id < length h /\ gate q = Ok true /\ exists u0, routes_to t q (TFound s) u0 /\ okx q s u0 th (nth id h [])
    | TDone None a => a = denied /\ gate q = Ok false
    | TDone (Some _) a => gate q = Ok true /\
        ((a = not_found q /\ exists u, routes_to t q TNotFound u) \/
         exists s u0, routes_to t q (TFound s) u0 /\ oka q u0 a)
    end.
  Definition solo t q y : Prop :=
    exists h pl th, y = Sys [t] h pl [(q, th)] /\ okt t q th h /\ Forall (fun id => id < length h) pl.
  (** the result of a step *)
  Lemma okt_result t q s u0 id u th' h pl h' pl' : id < length h -> gate q = Ok true -> routes_to t q (TFound s) u0 ->
    owns id th' -> okx q s u0 th' u -> leave th' (put id u h) pl = (h', pl') -> Forall (fun id => id < length h) pl ->
    okt t q th' h' /\ Forall (fun id => id < length h') pl'.
  Proof.
    intros Bd G Rt O X L F.
    destruct th' as [|i|i s' w p rest l|i s' e l|[i|] a|]; cbn [okx] in X; try (destruct X; fail); cbn [leave] in L; injection L as <- <-;
      rewrite ?put_length.
    - destruct O as [O|[(a & O)|O]]; try discriminate O. injection O as ->. cbn [okt]. rewrite put_length.
      destruct X as [-> X]. split; [|exact F]. split; [exact Bd|]. split; [exact G|]. exists u0. split; [exact Rt|]. cbn [okx].
      rewrite nth_put, Nat.eqb_refl by exact Bd. auto.
    - destruct O as [O|[(a & O)|O]]; try discriminate O. injection O as ->. cbn [okt]. rewrite put_length.
      destruct X as [-> X]. split; [|exact F]. split; [exact Bd|]. split; [exact G|]. exists u0. split; [exact Rt|]. cbn [okx].
      rewrite nth_put, Nat.eqb_refl by exact Bd. auto.
    - destruct O as [O|[(a' & O)|O]]; try discriminate O. injection O as -> ->. cbn [okt]. split; [|constructor; [exact Bd|exact F]].
      split; [exact G|]. right. exists s, u0. auto.
    - split; [exact I|exact F].
  Qed.
  Lemma solo_req t q th h pl th' h' pl' : treq t q th h pl th' h' pl' -> okt t q th h -> Forall (fun id => id < length h) pl ->
    okt t q th' h' /\ Forall (fun id => id < length h') pl'.
  Proof.
    intros H K F. destruct H.
    - split; [exact I|exact F].
    - split; [cbn [okt]; auto|exact F].
    - split; [cbn [okt]; rewrite app_length; cbn [length]; split; [lia|assumption]|].
      eapply Forall_impl; [|exact F]. intros i Hi. rewrite app_length. cbn beta in *. lia.
    - apply Forall_app in F as [F1 F2]. inversion F2; subst. split; [cbn [okt]; auto|]. apply Forall_app. auto.
    - cbn [okt] in K. destruct K as [Bd G].
      assert (Rt : routes_to t q r u) by (exists order; auto). subst th'. destruct r as [s| | |].
      + eapply (okt_result t q s u id u); [exact Bd|exact G|exact Rt|apply owns_found|apply okx_found|eassumption|exact F].
      + cbn [leave] in *. match goal with X : (_, _) = (_, _) |- _ => injection X as <- <- end.
        cbn [okt]. split; [split; [exact G|]; left; eauto|]. rewrite !put_length. constructor; assumption.
      + cbn [leave] in *. match goal with X : (_, _) = (_, _) |- _ => injection X as <- <- end. rewrite put_length. split; [exact I|exact F].
      + cbn [leave] in *. match goal with X : (_, _) = (_, _) |- _ => injection X as <- <- end. rewrite put_length. split; [exact I|exact F].
    - cbn [okt okx] in *. destruct K as (Bd & G & u0 & Rt & _ & X & N). rewrite !put_length. split; [|exact F]. split; [exact Bd|]. split; [exact G|].
      exists u0. split; [exact Rt|]. split; [reflexivity|]. rewrite nth_put, Nat.eqb_refl by exact Bd. split; [eapply op1_okl; eassumption|].
      destruct p; cbn [op1] in H; try discriminate H; injection H as <- <- <-; try discriminate; exact N.
    - cbn [okt okx] in K. destruct K as (Bd & G & u0 & Rt & _ & X & N).
      eapply (okt_result t q s u0 id (nth id h [])); [exact Bd|exact G|exact Rt|subst th'; apply owns_ended|subst th'; apply okx_ended; exact X|rewrite put_self; eassumption|exact F].
    - cbn [okt okx] in K. destruct K as (Bd & G & u0 & Rt & _ & X & N).
      eapply (okt_result t q s u0 id (nth id h [])); [exact Bd|exact G|exact Rt|subst th'; apply owns_waited|subst th'; apply okx_waited; exact X|rewrite put_self; eassumption|exact F].
  Qed.
  Lemma solo_many t q x y : ymany x y -> x = start t [q] -> length (y_tables y) = 1 -> solo t q y.
  Proof.
    induction 1 as [y|x y z M IH St]; intros E L.
    - subst y. exists [], [], TArrived. split; [reflexivity|]. split; [exact I|constructor].
    - assert (Ly : length (y_tables y) <= length (y_tables z)) by (destruct St; cbn [y_tables length]; lia).
      assert (Lx : length (y_tables x) <= length (y_tables y)).
      { destruct (tables_grow matches uni auth ses lvl _ _ M) as [new ->]. rewrite app_length. lia. }
      rewrite E in Lx. cbn in Lx. destruct (IH E ltac:(lia)) as (h & pl & th & -> & K & F).
      inversion St as [ts t1 tss h1 pl1 l1 q1 th1 l2 th' h' pl' Et Al H E1 E2|ts h1 pl1 l1 t1 Al E1 E2|ts h1 p1 id p2 l1 Al E1 E2]; subst.
      + injection Et as -> <-. destruct l1 as [|x1 l1]; [|destruct l1; discriminate].
        cbn [app] in *. match goal with X : (_, _) :: _ = [(_, _)] |- _ => injection X as -> -> -> end.
        destruct (solo_req _ _ _ _ _ _ _ _ H K F) as [K' F']. exists h', pl', th'. auto.
      + cbn in L. discriminate L.
      + exists h, (p1 ++ p2), th. split; [reflexivity|]. split; [exact K|]. apply Forall_app in F as [F1 F2]. inversion F2; subst. apply Forall_app. auto.
  Qed.
  Theorem alone_ok t q a : alone t q a -> 
    (gate q = Ok false /\ a = denied) \/
    (gate q = Ok true /\ ((a = not_found q /\ exists u, routes_to t q TNotFound u) \/ exists s u0, routes_to t q (TFound s) u0 /\ oka q u0 a)).
  Proof.
    intros (y & R & T & kept & E). destruct (solo_many t q _ _ R eq_refl) as (h & pl & th & -> & K & _); [rewrite T; reflexivity|].
    cbn [y_threads nth_error] in E. injection E as ->. cbn [okt] in K. destruct kept as [k|]; [right; exact K|left; tauto].
  Qed.

  (** ** Objects nobody holds are empty *)
  Lemma treq_free t q th h pl th' h' pl' : treq t q th h pl th' h' pl' -> Forall (fun id => id < length h) (held th) -> th' <> TPanic ->
    forall id, ~ In id (held th') -> nth id h' [] = [] \/ (~ In id (held th) /\ nth id h' [] = nth id h []).
  Proof.
    intros H F NP.
    assert (K : forall id u, id < length h -> held th = [id] -> owns id th' -> leave th' (put id u h) pl = (h', pl') ->
      forall id', ~ In id' (held th') -> nth id' h' [] = [] \/ (~ In id' (held th) /\ nth id' h' [] = nth id' h [])).
    { intros id u Bd Hd O L id' N. destruct O as [O|[(a & ->)| ->]]; [| |congruence].
      - assert (leave th' (put id u h) pl = (put id u h, pl)) as E by (destruct th' as [| | | |[?|] ?|]; try discriminate O; reflexivity).
        rewrite E in L. injection L as <- <-. right. rewrite Hd, <- O. split; [exact N|]. rewrite O in N.
        rewrite nth_put by exact Bd. destruct (Nat.eqb_spec id' id) as [->|_]; [exfalso; apply N; left; reflexivity|reflexivity].
      - cbn [leave] in L. injection L as <- <-. rewrite nth_put by (rewrite put_length; exact Bd).
        destruct (Nat.eqb_spec id' id) as [->|D]; [left; reflexivity|]. right. rewrite Hd. split; [intros [X|[]]; congruence|].
        rewrite nth_put by exact Bd. apply Nat.eqb_neq in D. rewrite D. reflexivity. }
    destruct H; cbn [held] in F; try (inversion F as [|? ? Bd _]; subst).
    - congruence.
    - intros id _. right. auto.
    - intros id _. right. split; [intros []|]. destruct (Nat.lt_ge_cases id (length h)) as [L|L]; [apply app_nth1; exact L|].
      rewrite app_nth2 by exact L. rewrite (nth_overflow h) by exact L. destruct (id - length h) as [|[|?]]; reflexivity.
    - intros id' _. right. auto.
    - apply (K id u); [exact Bd|reflexivity| |assumption]. destruct r; [apply owns_found|right; left; eauto|right; right; reflexivity|right; right; reflexivity].
    - apply (K id u'); [exact Bd|reflexivity|left; reflexivity|reflexivity].
    - apply (K id (nth id h [])); [exact Bd|reflexivity|apply owns_ended|rewrite put_self; assumption].
    - apply (K id (nth id h [])); [exact Bd|reflexivity|apply owns_waited|rewrite put_self; assumption].
  Qed.
  Definition free_empty y : Prop :=
    alive y -> forall id, ~ In id (flat_map (fun x => held (snd x)) (y_threads y)) -> nth id (y_heap y) [] = [].
  Lemma free_step y y' : ystep y y' -> inv y -> free_empty y -> free_empty y'.
  Proof.
    intros St Iv Fe Al'. destruct St as [ts t tss h pl l1 q th l2 th' h' pl' Et Al H|ts h pl l t' Al|ts h p1 id0 p2 l Al];
      cbn [y_heap y_threads] in *; [|exact (Fe Al)|exact (Fe Al)].
    specialize (Fe Al). cbn [y_heap y_threads] in Fe. destruct Iv as (_ & Fb & _). unfold all_ids in Fb. cbn [y_pool y_threads y_heap] in Fb.
    rewrite flat_map_app in *. cbn [flat_map snd] in *.
    assert (F1 : Forall (fun id => id < length h) (held th)).
    { apply Forall_app in Fb as [? Fb]. apply Forall_app in Fb as [? Fb]. apply Forall_app in Fb as [? ?]. assumption. }
    assert (NP : th' <> TPanic).
    { unfold alive in Al'. cbn [y_threads] in Al'. apply Forall_app in Al' as [_ Al']. inversion Al'; assumption. }
    intros id N. destruct (treq_free _ _ _ _ _ _ _ _ H F1 NP id) as [E|[N' E]]; [|exact E|].
    - intros X. apply N. apply in_or_app. right. apply in_or_app. auto.
    - rewrite E. apply Fe. intros X. apply N. apply in_app_or in X as [X|X]; [apply in_or_app; auto|].
      apply in_app_or in X as [X|X]; [contradiction|]. apply in_or_app. right. apply in_or_app. auto.
  Qed.
  Lemma free_many x y : ymany x y -> inv x -> free_empty x -> free_empty y.
  Proof.
    induction 1 as [|x y z M IH St]; [auto|]. intros Iv Fe. eapply free_step; [exact St|eapply inv_many; eassumption|auto].
  Qed.
  Theorem kept_object t0 qs y i q id a : served t0 qs y -> alive y -> nth_error (y_threads y) i = Some (q, TDone (Some id) a) ->
    nth id (y_heap y) [] = [] \/
    exists j q' th', j <> i /\ nth_error (y_threads y) j = Some (q', th') /\ In id (held th').
  Proof.
    intros R Al E.
    destruct (in_dec Nat.eq_dec id (flat_map (fun x => held (snd x)) (y_threads y))) as [X|X].
    - right. apply in_flat_map in X as ([q' th'] & Hx & Hi). apply In_nth_error in Hx as [j Hj]. exists j, q', th'.
      split; [|auto]. intros ->. rewrite E in Hj. injection Hj as <- <-. exact Hi.
    - left. refine (free_many _ _ R (inv_start t0 qs) _ Al id X). intros _ id' _. destruct id'; reflexivity.
  Qed.
  (** an object is held by one request only *)
  Theorem held_once t0 qs y i j q q' th th' id : served t0 qs y -> nth_error (y_threads y) i = Some (q, th) ->
    nth_error (y_threads y) j = Some (q', th') -> In id (held th) -> In id (held th') -> i = j.
  Proof.
    intros R Ei Ej Hi Hj. destruct (inv_many _ _ _ _ _ _ _ R (inv_start t0 qs)) as (N & _ & _).
    assert (N' : NoDup (flat_map (fun x => held (snd x)) (y_threads y))).
    { unfold all_ids in N. clear - N. induction (y_pool y) as [|z l IH]; [exact N|]. inversion N; auto. }
    clear N. rename N' into N. revert i j Ei Ej. induction (y_threads y) as [|x l IH]; intros i j Ei Ej; [destruct i; discriminate Ei|].
    cbn [flat_map] in N.
    assert (D : forall l1 l2 : list nat, NoDup (l1 ++ l2) -> In id l1 -> ~ In id l2).
    { clear. induction l1 as [|z l1 IH]; intros l2 N H X; [destruct H|]. cbn [app] in N. inversion N; subst.
      destruct H as [->|H]; [apply H2, in_or_app; auto|eapply IH; eassumption]. }
    destruct i as [|i], j as [|j]; cbn [nth_error] in *; [reflexivity| | |].
    - injection Ei as ->. exfalso. apply (D _ _ N); [exact Hi|]. apply in_flat_map. exists (q', th'). split; [eapply nth_error_In; exact Ej|exact Hj].
    - injection Ej as ->. exfalso. apply (D _ _ N); [exact Hj|]. apply in_flat_map. exists (q, th). split; [eapply nth_error_In; exact Ei|exact Hi].
    - f_equal. apply IH; [|assumption|assumption]. clear - N. induction (held (snd x)) as [|z l1 IH']; [exact N|]. inversion N; auto.
  Qed.

  (** ** Running it *)
  (** a choice: which request goes on, and whether it takes its object from the pool *)
  Inductive move := Go (i : nat) | Reuse (i : nat).
  Definition dead th : bool := match th with TPanic => true | _ => false end.
  Definition step1 t q th (h : list fargs) (pl : list nat) (reuse : bool) : option (thread V * list fargs * list nat) :=
    match th with
    | TArrived =>
        match gate q with
        | Panic => Some (TPanic, h, pl)
        | Ok false => Some (TDone None denied, h, pl)
        | Ok true =>
            if reuse then match pl with id :: pl' => Some (TRouting id, h, pl') | [] => None end
            else Some (TRouting (length h), h ++ [[]], pl)
        end
    | TRouting id =>
        let '(r, u) := server_find matches (fun m => m) (tb_tree t) (tb_reg t) (rq_method (rq_head q)) (rq_path (rq_head q)) (nth id h []) in
        let th' := match r with TFound s => found id s u | TNotFound => TDone (Some id) (not_found q) | _ => TPanic end in
        let '(h', pl') := leave th' (put id u h) pl in Some (th', h', pl')
    | TRunning id s w (Done o) rest l =>
        let th' := ended q id s w o rest l (nth id h []) in let '(h', pl') := leave th' h pl in Some (th', h', pl')
    | TRunning id s w p rest l =>
        match op1 q p l (nth id h []) with
        | Some (p', l', u') => Some (TRunning id s w p' rest l', put id u' h, pl)
        | None => None
        end
    | TWaiting id s e l =>
        let th' := waited id s e (first_error (c_tasks (o_ctl l))) l (nth id h []) in
        let '(h', pl') := leave th' h pl in Some (th', h', pl')
    | _ => None
    end.
  Lemma step1_sound t q th h pl b th' h' pl' : step1 t q th h pl b = Some (th', h', pl') -> treq t q th h pl th' h' pl'.
  Proof.
    unfold step1. destruct th as [|id|id s w p rest l|id s e l|k a|]; try discriminate.
    - destruct (gate q) as [[|]|] eqn:G.
      + destruct b; [destruct pl as [|id pl]; [discriminate|]; intros E; injection E as <- <- <-; exact (R_reuse matches uni auth ses lvl t q h [] id pl G)|].
        intros E; injection E as <- <- <-. apply R_fresh. exact G.
      + intros E; injection E as <- <- <-. apply R_denied. exact G.
      + intros E; injection E as <- <- <-. apply R_panic. exact G.
    - destruct (server_find _ _ _ _ _ _ _) as [r u] eqn:Ef. destruct (leave _ _ _) as [h1 pl1] eqn:El.
      intros E; injection E as <- <- <-. eapply R_find; [|exact Ef|reflexivity|exact El]. reflexivity.
    - destruct (op1 q p l (nth id h [])) as [[[p' l'] u']|] eqn:Eo.
      + destruct p; try discriminate Eo; intros E; injection E as <- <- <-; eapply R_op; exact Eo.
      + destruct p; try discriminate Eo. cbv zeta. destruct (leave _ _ _) as [h1 pl1] eqn:El. intros E; injection E as <- <- <-.
        eapply R_end; [reflexivity|exact El].
    - cbv zeta. destruct (leave _ _ _) as [h1 pl1] eqn:El. intros E; injection E as <- <- <-.
      eapply R_wait; [|reflexivity|exact El]. exists (c_tasks (o_ctl l)). split; reflexivity.
  Qed.
  Definition go1 y (m : move) : option (sys V) :=
    let '(i, b) := match m with Go i => (i, false) | Reuse i => (i, true) end in
    if existsb (fun x => dead (snd x)) (y_threads y) then None else
    match y_tables y, nth_error (y_threads y) i with
    | t :: _, Some (q, th) =>
        match step1 t q th (y_heap y) (y_pool y) b with
        | Some (th', h', pl') => Some (Sys (y_tables y) h' pl' (firstn i (y_threads y) ++ (q, th') :: skipn (S i) (y_threads y)))
        | None => None
        end
    | _, _ => None
    end.
  Lemma go1_sound y m y' : go1 y m = Some y' -> ystep y y'.
  Proof.
    unfold go1. set (ib := match m with Go i => (i, false) | Reuse i => (i, true) end). destruct ib as [i b].
    destruct (existsb _ _) eqn:Ed; [discriminate|]. destruct y as [ts h pl thr]. cbn [y_tables y_threads y_heap y_pool] in *.
    destruct ts as [|t ts]; [discriminate|]. destruct (nth_error thr i) as [[q th]|] eqn:En; [|discriminate].
    destruct (step1 t q th h pl b) as [[[th' h'] pl']|] eqn:Es; [|discriminate]. intros E; injection E as <-.
    apply nth_error_split in En as (l1 & l2 & -> & <-).
    assert (E2 : forall A (l1 : list A) x (l2 : list A), firstn (length l1) (l1 ++ x :: l2) = l1 /\ skipn (S (length l1)) (l1 ++ x :: l2) = l2).
    { clear. intros A l1 x l2. induction l1 as [|z l1 [I1 I2]]; [split; reflexivity|]. cbn [length app]. split; [cbn [firstn]; rewrite I1; reflexivity|].
      cbn [skipn] in *. exact I2. }
    destruct (E2 _ l1 (q, th) l2) as [-> E3]. cbn [skipn] in E3. rewrite E3.
    eapply Y_req; [reflexivity| |apply (step1_sound _ _ _ _ _ b); exact Es].
    apply Forall_forall. intros x Hx E. assert (existsb (fun x => dead (snd x)) (l1 ++ (q, th) :: l2) = true); [|congruence].
    apply existsb_exists. exists x. split; [exact Hx|]. rewrite E. reflexivity.
  Qed.
  Fixpoint gos y (ms : list move) : option (sys V) :=
    match ms with [] => Some y | m :: ms => match go1 y m with Some y' => gos y' ms | None => None end end.
  Lemma many_step x y z : ystep x y -> ymany y z -> ymany x z.
  Proof. intros St M. induction M; [eapply Y_more; [constructor|exact St]|]. eapply Y_more; [apply IHM; exact St|assumption]. Qed.
  Lemma gos_sound ms : forall y y', gos y ms = Some y' -> ymany y y'.
  Proof.
    induction ms as [|m ms IH]; intros y y' E; cbn [gos] in E; [injection E as <-; constructor|].
    destruct (go1 y m) as [y1|] eqn:E1; [|discriminate]. eapply many_step; [exact (go1_sound _ _ _ E1)|auto].
  Qed.
End Proofs.
